(** The fan-in whose workers send while they compute (M_SearchConc.v). *)
From Verif Require Import Base M_FanIn M_SearchConc P_FanIn.
#[local] Open Scope nat_scope.

Section fan2.
  Context {P A : Type}.
  Variables (pstep : P -> P -> Prop) (psend : P -> A -> P -> Prop) (pstop : P -> Prop) (ccap scap : nat).
  Implicit Types s : fan2 P A.
  Notation step := (fan2_step pstep psend pstop ccap scap).
  Definition todo2 s : list P := match f2_main s with MSpawn t => t | _ => [] end.
  Definition holding2 (w : worker2 P) : nat := match w with VRun _ => 1 | _ => 0 end.
  Definition n_holding2 (ws : list (worker2 P)) : nat := sum_list (holding2 <$> ws).
  (** The messages a computation may still send, up to its end. *)
  Inductive trace : P -> list A -> Prop :=
  | tr_stop p : pstop p -> trace p []
  | tr_step p p' ms : pstep p p' -> trace p' ms -> trace p ms
  | tr_send p x p' ms : psend p x p' -> trace p' ms -> trace p (x :: ms).
  Definition wtrace (w : worker2 P) (ms : list A) : Prop :=
    match w with VAcquire p | VRun p => trace p ms | VFinish => ms = [] end.
  Record inv2 (tasks : list P) s : Prop := {
    j_wg : f2_wg s = length (f2_workers s);
    j_sem : f2_sem s = n_holding2 (f2_workers s);
    j_main : match f2_main s with
             | MSpawn _ => f2_closer s = CNone
             | MCollect => f2_closer s <> CNone
             | MDone => f2_closer s = CClosed /\ f2_chan s = []
             end;
    j_closed : f2_closer s = CClosed -> f2_workers s = [];
    j_msgs : forall wo to, Forall2 wtrace (f2_workers s) wo -> Forall2 trace (todo2 s) to ->
      exists outs, Forall2 trace tasks outs /\ f2_got s ++ f2_chan s ++ concat wo ++ concat to ≡ₚ concat outs;
    j_panic : f2_panic s = false
  }.
  Record base2 s : Prop := {
    b_wg : f2_wg s = length (f2_workers s);
    b_sem : f2_sem s = n_holding2 (f2_workers s);
    b_main : match f2_main s with
             | MSpawn _ => f2_closer s = CNone
             | MCollect => f2_closer s <> CNone
             | MDone => f2_closer s = CClosed /\ f2_chan s = []
             end;
    b_closed : f2_closer s = CClosed -> f2_workers s = [];
    b_panic : f2_panic s = false
  }.
  Lemma inv2_base tasks s : inv2 tasks s -> base2 s.
  Proof. by intros []. Qed.
  Lemma n_holding2_app l1 l2 : n_holding2 (l1 ++ l2) = n_holding2 l1 + n_holding2 l2.
  Proof. unfold n_holding2. by rewrite fmap_app, sum_list_app'. Qed.
  Lemma n_holding2_cons w l : n_holding2 (w :: l) = holding2 w + n_holding2 l.
  Proof. done. Qed.
  Arguments n_holding2 : simpl never.
  Lemma inv2_init tasks : inv2 tasks (fan2_init 0 tasks).
  Proof. split; cbn; try done. intros wo to Hw Ht. inversion Hw; subst. exists to. by split. Qed.
  Lemma msgs2_worker tasks (ws1 ws2 : list (worker2 P)) w w' got ch (todo : list P) (pre : list A) got' ch' :
    (forall ms, wtrace w' ms -> wtrace w (pre ++ ms)) ->
    (forall rest, got' ++ ch' ++ rest ≡ₚ got ++ ch ++ pre ++ rest) ->
    (forall wo to, Forall2 wtrace (ws1 ++ w :: ws2) wo -> Forall2 trace todo to ->
      exists outs, Forall2 trace tasks outs /\ got ++ ch ++ concat wo ++ concat to ≡ₚ concat outs) ->
    (forall wo to, Forall2 wtrace (ws1 ++ w' :: ws2) wo -> Forall2 trace todo to ->
      exists outs, Forall2 trace tasks outs /\ got' ++ ch' ++ concat wo ++ concat to ≡ₚ concat outs).
  Proof.
    intros Hy Hp H wo to Hw Ht. apply Forall2_app_inv_l in Hw as (wo1 & wo2 & Hw1 & Hw2 & ->).
    inversion Hw2 as [|? ms ? wo2' Hm Hw2']; subst.
    destruct (H (wo1 ++ (pre ++ ms) :: wo2') to) as (outs & Ho & Hperm).
    { apply Forall2_app; [done|]. constructor; [by apply Hy|done]. }
    { done. }
    exists outs. split; [done|]. rewrite <- Hperm, Hp. rewrite !concat_app. cbn. solve_Permutation.
  Qed.
  Lemma inv2_step tasks s s' : inv2 tasks s -> step s s' -> inv2 tasks s'.
  Proof.
    intros [H1 H2 H3 H4 H5 H6] Hs. unfold todo2 in *.
    destruct Hs; cbn [f2_main f2_workers f2_wg f2_sem f2_chan f2_closer f2_got f2_panic] in *.
    - (* spawn *) split; cbn; try done.
      + rewrite app_length. cbn in *. lia.
      + rewrite n_holding2_app, n_holding2_cons. cbn. unfold n_holding2 at 2; cbn. lia.
      + intros ->. done.
      + intros wo to Hw Ht. apply Forall2_app_inv_l in Hw as (wo1 & wo2 & Hw1 & Hw2 & ->).
        inversion Hw2 as [|? ms ? ? Hm Hnil]; subst. inversion Hnil; subst. cbn in Hm.
        destruct (H5 wo1 (ms :: to)) as (outs & Ho & Hperm); [done|by constructor|].
        exists outs. split; [done|]. rewrite <- Hperm. rewrite concat_app. cbn. solve_Permutation.
    - split; cbn; try done.
    - (* acquire *) split; cbn; try done.
      + rewrite H1, !app_length. done.
      + rewrite H2, !n_holding2_app, !n_holding2_cons. cbn. lia.
      + intros E. apply H4 in E. by destruct ws1.
      + eapply msgs2_worker with (pre := []); [| |exact H5]; done.
    - (* inner *) split; cbn; try done.
      + rewrite H1, !app_length. done.
      + rewrite H2, !n_holding2_app, !n_holding2_cons. done.
      + intros E. apply H4 in E. by destruct ws1.
      + eapply msgs2_worker with (pre := []); [| |exact H5]; [|done]. intros ms Hm. by eapply tr_step.
    - (* send *) split; cbn; try done.
      + rewrite H1, !app_length. done.
      + rewrite H2, !n_holding2_app, !n_holding2_cons. done.
      + destruct m; try done. destruct H3 as [-> _]. done.
      + eapply msgs2_worker with (pre := [x]); [| |exact H5]; [intros ms Hm; by eapply tr_send|].
        intros rest. rewrite <- !app_assoc. done.
    - (* handoff *) split; cbn; try done.
      + rewrite H1, !app_length. done.
      + rewrite H2, !n_holding2_app, !n_holding2_cons. done.
      + eapply (msgs2_worker _ _ _ (VRun p) (VRun p') got [] [] [x] (got ++ [x]) []); [| |exact H5]; [intros ms Hm; by eapply tr_send|].
        intros rest. rewrite <- !app_assoc. done.
    - (* send on closed *) specialize (H4 eq_refl). by destruct ws1.
    - (* release *) split; cbn; try done.
      + rewrite H1, !app_length. done.
      + rewrite n_holding2_app, n_holding2_cons in *. cbn in *. lia.
      + intros E. apply H4 in E. by destruct ws1.
      + eapply msgs2_worker with (pre := []); [| |exact H5]; [|done]. intros ms ->. by constructor.
    - (* done *) split; cbn; try done.
      + rewrite !app_length in *. cbn in *. lia.
      + rewrite H2, !n_holding2_app, !n_holding2_cons. done.
      + intros E. apply H4 in E. by destruct ws1.
      + intros wo to Hw Ht. apply Forall2_app_inv_l in Hw as (wo1 & wo2 & Hw1 & Hw2 & ->).
        destruct (H5 (wo1 ++ [] :: wo2) to) as (outs & Ho & Hperm).
        { apply Forall2_app; [done|]. by constructor. }
        { done. }
        exists outs. split; [done|]. rewrite <- Hperm. rewrite !concat_app. done.
    - (* close *) split; cbn; try done.
      + destruct m; [done|done|]. by destruct H3.
      + intros _. destruct ws; [done|]. cbn in H1. lia.
    - (* recv *) split; cbn; try done. intros wo to Hw Ht. destruct (H5 wo to Hw Ht) as (outs & Ho & Hperm).
      exists outs. split; [done|]. rewrite <- Hperm. rewrite <- !app_assoc. done.
    - (* finish *) split; cbn; try done.
  Qed.
  Lemma inv2_reach tasks s : rtc step (fan2_init 0 tasks) s -> inv2 tasks s.
  Proof.
    intros H. remember (fan2_init 0 tasks) as s0 eqn:E. assert (inv2 tasks s0) as Hi by (subst; apply inv2_init). clear E.
    induction H as [|s0 s1 s2 Hs Hr IH]; [done|]. eauto using inv2_step.
  Qed.
  Lemma inv2_done tasks s : inv2 tasks s -> fan2_done s ->
    (exists outs, Forall2 trace tasks outs /\ f2_got s ≡ₚ concat outs) /\ f2_sem s = 0.
  Proof.
    intros [H1 H2 H3 H4 H5 H6] Hd. unfold fan2_done in Hd. rewrite Hd in H3. destruct H3 as [Hc Hch]. specialize (H4 Hc). split.
    - rewrite H4 in H5. unfold todo2 in H5. rewrite Hd in H5. destruct (H5 [] []) as (outs & Ho & Hperm); [constructor..|].
      exists outs. split; [done|]. rewrite Hch in Hperm. cbn in Hperm. by rewrite !app_nil_r in Hperm.
    - by rewrite H2, H4.
  Qed.
  (** A property of the running computations. *)
  Definition all_run (ok : P -> Prop) s : Prop := Forall (fun w => match w with VAcquire p | VRun p => ok p | VFinish => True end) (f2_workers s) /\ Forall ok (todo2 s).
  Lemma all_run_step (ok : P -> Prop) s s' : (forall p p', pstep p p' -> ok p -> ok p') -> (forall p x p', psend p x p' -> ok p -> ok p') ->
    step s s' -> all_run ok s -> all_run ok s'.
  Proof.
    intros K1 K2 H [H1 H2]. unfold all_run, todo2 in *. destruct H; cbn [f2_main f2_workers] in *; try done;
      try (apply Forall_app in H1 as [Ha Hb]; inversion Hb; subst; split; [apply Forall_app; split; [done|]|done]; try (constructor; eauto); done).
    inversion H2; subst. split; [|done]. apply Forall_app. split; [done|]. by repeat constructor.
  Qed.
  Lemma all_run_init (ok : P -> Prop) tasks : Forall ok tasks -> all_run ok (fan2_init 0 tasks).
  Proof. intros H. split; [constructor|done]. Qed.
  (** Progress. *)
  Lemma holding2_worker ws : 0 < n_holding2 ws -> exists ws1 p ws2, ws = ws1 ++ VRun p :: ws2.
  Proof.
    induction ws as [|w ws IH]; [unfold n_holding2; cbn; lia|]. rewrite n_holding2_cons. intros H.
    destruct w as [p|p|]; [|by exists [], p, ws|]; (destruct IH as (ws1 & p' & ws2 & ->); [cbn in *; lia|]); [by exists (VAcquire p :: ws1), p', ws2|by exists (VFinish :: ws1), p', ws2].
  Qed.
  Lemma fan2_progress s : 0 < scap -> all_run (fun p => (exists p', pstep p p') \/ (exists x p', psend p x p') \/ pstop p) s ->
    base2 s -> ~ fan2_done s -> exists s', step s s'.
  Proof.
    intros Hc [H7 _] [H1 H2 H3 H4 H6] Hd. unfold fan2_done in Hd. destruct s as [m ws wg sem ch cl got p]. cbn in *. subst p.
    destruct m as [[|t todo]| |]; [subst cl; eexists; apply f2_closer_go|eexists; apply f2_spawn| |done].
    destruct ch as [|x ch]; [|eexists; apply f2_recv].
    destruct ws as [|w ws].
    - assert (wg = 0) as -> by (cbn in H1; lia). destruct cl; [done|eexists; apply f2_close|eexists; apply f2_end].
    - destruct (decide (n_holding2 (w :: ws) = 0)) as [E|E].
      + destruct w as [p|p|]; [|rewrite n_holding2_cons in E; cbn in E; lia|].
        * eexists. apply (f2_acquire _ _ _ _ _ _ []). lia.
        * cbn in H1. destruct wg as [|wg]; [lia|]. eexists. apply (f2_done _ _ _ _ _ _ []).
      + destruct (holding2_worker (w :: ws)) as (ws1 & p & ws2 & Heq); [lia|]. rewrite Heq in *. apply Forall_app in H7 as [_ H7]. inversion H7 as [|? ? Hor _]; subst.
        destruct Hor as [[p' Hp]|[(x & p' & Hp)|Hp]].
        * eexists. by apply f2_inner.
        * assert (cl = CClosed \/ cl <> CClosed) as [->|Hcl] by (destruct cl; auto); [eexists; by eapply f2_send_closed|]. eexists. by eapply f2_handoff.
        * destruct (n_holding2 (ws1 ++ VRun p :: ws2)) as [|k] eqn:Ek; [done|]. eexists. by apply f2_release.
  Qed.
  (** Termination: [pm] bounds the remaining work of a computation. *)
  Variable pm : P -> nat.
  Definition wmeasure2 (w : worker2 P) : nat := match w with VAcquire p => pm p + 4 | VRun p => pm p + 3 | VFinish => 1 end.
  Definition measure2 s : nat :=
    sum_list (wmeasure2 <$> f2_workers s) + sum_list ((fun p => pm p + 5) <$> todo2 s) + length (f2_chan s)
     + match f2_main s with MSpawn _ => 4 | MCollect => match f2_closer s with CClosed => 1 | _ => 2 end | MDone => 0 end
     + if f2_panic s then 0 else 1.
  Definition decreases : Prop := (forall p p', pstep p p' -> pm p' < pm p) /\ forall p x p', psend p x p' -> pm p' + 1 < pm p.
  Lemma measure2_step s s' : decreases -> base2 s -> step s s' -> measure2 s' < measure2 s.
  Proof.
    intros [D1 D2] [H1 H2 H3 H4 H6] Hs. unfold measure2, todo2 in *.
    destruct Hs as [| | |? ? ? ? ? ? ? ? ? ? H|? ? ? ? ? ? ? ? ? ? ? H|? ? ? ? ? ? ? ? ? H| | | | | |]; cbn [f2_main f2_workers f2_wg f2_sem f2_chan f2_closer f2_got f2_panic] in *;
      try (pose proof (D1 _ _ H)); try (pose proof (D2 _ _ _ H));
      rewrite ?fmap_app, ?sum_list_app', ?app_length; cbn; unfold id; try lia; destruct m; try done; cbn; unfold id; try lia; destruct H3; done.
  Qed.
End fan2.
Lemma fan2_step_mono {P A} (ps ps' : P -> P -> Prop) (se se' : P -> A -> P -> Prop) (st st' : P -> Prop) cap sem a b :
  (forall p p', ps p p' -> ps' p p') -> (forall p x p', se p x p' -> se' p x p') -> (forall p, st p -> st' p) -> fan2_step ps se st cap sem a b -> fan2_step ps' se' st' cap sem a b.
Proof. intros H1 H2 H3 H. destruct H; by econstructor; eauto. Qed.
