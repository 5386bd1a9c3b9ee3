From Verif Require Import Base M_FanIn.

Lemma sum_list_app' l1 l2 : sum_list (l1 ++ l2) = (sum_list l1 + sum_list l2)%nat.
Proof. induction l1; cbn; lia. Qed.

Section fanin.
  Context {P A : Type}.
  Variables (pstep : P -> P -> Prop) (pout : P -> list A -> Prop).
  Variables (ccap : nat) (scap : option nat) (upfront : bool).
  Implicit Types s : fan P A.
  Notation step := (@fan_step P A pstep pout ccap scap upfront).

  Definition todo_of s : list P := match fn_main s with MSpawn t => t | _ => [] end.
  Definition holding (w : worker P A) : nat := match w with WSend _ | WRun _ => 1 | _ => 0 end.
  Definition n_holding (ws : list (worker P A)) : nat := sum_list (holding <$> ws).

  (** What a computation, and a worker, may still send. *)
  Definition pyields (p : P) (ms : list A) : Prop := exists p', rtc pstep p p' /\ pout p' ms.
  Definition wyields (w : worker P A) (ms : list A) : Prop :=
    match w with WAcquire p | WRun p => pyields p ms | WSend t => ms = t | WFinish => ms = [] end.
  Definition worigin (tasks : list P) (w : worker P A) : Prop :=
    match w with WAcquire p => p ∈ tasks | WRun p => exists p0, p0 ∈ tasks /\ rtc pstep p0 p | _ => True end.

  Record inv (tasks : list P) s : Prop := {
    i_wg : fn_wg s = ((if upfront then length (todo_of s) else 0) + length (fn_workers s))%nat;
    i_sem : match scap with Some _ => fn_sem s = n_holding (fn_workers s) | None => True end;
    i_main : match fn_main s with
             | MSpawn _ => fn_closer s = CNone
             | MCollect => fn_closer s <> CNone
             | MDone => fn_closer s = CClosed /\ fn_chan s = []
             end;
    i_closed : fn_closer s = CClosed -> fn_workers s = [];
    i_msgs : forall wo to, Forall2 wyields (fn_workers s) wo -> Forall2 pyields (todo_of s) to ->
      exists outs, Forall2 pyields tasks outs /\
        fn_got s ++ fn_chan s ++ concat wo ++ concat to ≡ₚ concat outs;
    i_todo : forall p, p ∈ todo_of s -> p ∈ tasks;
    i_origin : Forall (worigin tasks) (fn_workers s);
    i_panic : fn_panic s = false
  }.

  Lemma n_holding_app l1 l2 : n_holding (l1 ++ l2) = (n_holding l1 + n_holding l2)%nat.
  Proof. unfold n_holding. by rewrite fmap_app, sum_list_app'. Qed.
  Lemma n_holding_cons w l : n_holding (w :: l) = (holding w + n_holding l)%nat.
  Proof. done. Qed.
  Arguments n_holding : simpl never.

  Lemma inv_init tasks : inv tasks (fan_init upfront 0 tasks).
  Proof.
    split; cbn; try done.
    - by destruct scap.
    - intros wo to Hw Ht. inversion Hw; subst. exists to. by split.
  Qed.

  (** Replacing one worker by another whose outputs were already possible. *)
  Lemma msgs_worker tasks (ws1 ws2 : list (worker P A)) w w' got ch (todo : list P) (pre : list A) got' ch' :
    (forall ms, wyields w' ms -> wyields w (pre ++ ms)) ->
    (forall rest, got' ++ ch' ++ rest ≡ₚ got ++ ch ++ pre ++ rest) ->
    (forall wo to, Forall2 wyields (ws1 ++ w :: ws2) wo -> Forall2 pyields todo to ->
      exists outs, Forall2 pyields tasks outs /\ got ++ ch ++ concat wo ++ concat to ≡ₚ concat outs) ->
    (forall wo to, Forall2 wyields (ws1 ++ w' :: ws2) wo -> Forall2 pyields todo to ->
      exists outs, Forall2 pyields tasks outs /\ got' ++ ch' ++ concat wo ++ concat to ≡ₚ concat outs).
  Proof.
    intros Hy Hp H wo to Hw Ht. apply Forall2_app_inv_l in Hw as (wo1 & wo2 & Hw1 & Hw2 & ->).
    inversion Hw2 as [|? ms ? wo2' Hm Hw2']; subst.
    destruct (H (wo1 ++ (pre ++ ms) :: wo2') to) as (outs & Ho & Hperm).
    { apply Forall2_app; [done|]. constructor; [by apply Hy|done]. }
    { done. }
    exists outs. split; [done|]. rewrite <- Hperm, Hp. rewrite !concat_app. cbn. solve_Permutation.
  Qed.

  Lemma inv_step tasks s s' : inv tasks s -> step s s' -> inv tasks s'.
  Proof.
    intros [H1 H2 H3 H4 H5 H7 H8 H6] Hs. unfold todo_of in *.
    destruct Hs; cbn [fn_main fn_workers fn_wg fn_sem fn_chan fn_closer fn_got fn_panic] in *.
    - (* spawn *) split; cbn; try done.
      + rewrite app_length. cbn in *. destruct upfront; lia.
      + destruct scap; [|done]. rewrite n_holding_app, n_holding_cons. cbn. unfold n_holding at 2; cbn. lia.
      + intros ->. done.
      + intros wo to Hw Ht. apply Forall2_app_inv_l in Hw as (wo1 & wo2 & Hw1 & Hw2 & ->).
        inversion Hw2 as [|? ms ? ? Hm Hnil]; subst. inversion Hnil; subst. cbn in Hm.
        destruct (H5 wo1 (ms :: to)) as (outs & Ho & Hperm); [done|by constructor|].
        exists outs. split; [done|]. rewrite <- Hperm. rewrite concat_app. cbn. solve_Permutation.
      + intros q Hq. apply H7. by right.
      + apply Forall_app. split; [done|]. constructor; [|done]. cbn. apply H7. by left.
    - split; cbn; try done.
    - (* acquire *) split; cbn; try done.
      + rewrite H1, !app_length. unfold todo_of. cbn. destruct upfront, m; cbn; lia.
      + unfold sem_up. destruct scap; [|done]. rewrite H2, !n_holding_app, !n_holding_cons. cbn. lia.
      + intros E. apply H4 in E. by destruct ws1.
      + eapply msgs_worker with (pre := []); [| |exact H5]; done.
      + apply Forall_app in H8 as [H8a H8b]. inversion H8b as [|? ? Hw Hr]; subst.
        apply Forall_app. split; [done|]. constructor; [|done]. exists p. split; [done|apply rtc_refl].
    - (* inner *) split; cbn; try done.
      + rewrite H1, !app_length. unfold todo_of. cbn. destruct upfront, m; cbn; lia.
      + destruct scap; [|done]. rewrite H2, !n_holding_app, !n_holding_cons. done.
      + intros E. apply H4 in E. by destruct ws1.
      + eapply msgs_worker with (pre := []); [| |exact H5]; [|done].
        intros ms (q & Hq & Ho). exists q. split; [by eapply rtc_l|done].
      + apply Forall_app in H8 as [H8a H8b]. inversion H8b as [|? ? Hw Hr]; subst.
        apply Forall_app. split; [done|]. constructor; [|done]. destruct Hw as (p0 & Hin & Hp0).
        exists p0. split; [done|]. by eapply rtc_r.
    - (* output *) split; cbn; try done.
      + rewrite H1, !app_length. unfold todo_of. cbn. destruct upfront, m; cbn; lia.
      + destruct scap; [|done]. rewrite H2, !n_holding_app, !n_holding_cons. done.
      + intros E. apply H4 in E. by destruct ws1.
      + eapply msgs_worker with (pre := []); [| |exact H5]; [|done].
        intros ? ->. exists p. split; [apply rtc_refl|done].
      + apply Forall_app in H8 as [H8a H8b]. inversion H8b as [|? ? Hw Hr]; subst.
        apply Forall_app. split; [done|]. by constructor.
    - (* send *) split; cbn; try done.
      + rewrite H1, !app_length. unfold todo_of. cbn. destruct upfront, m; cbn; lia.
      + destruct scap; [|done]. rewrite H2, !n_holding_app, !n_holding_cons. done.
      + destruct m; try done. destruct H3 as [-> _]. done.
      + eapply msgs_worker with (pre := [x]); [| |exact H5]; [by intros ? ->|].
        intros rest. rewrite <- !app_assoc. done.
      + apply Forall_app in H8 as [H8a H8b]. inversion H8b as [|? ? Hw Hr]; subst.
        apply Forall_app. split; [done|]. by constructor.
    - (* handoff *) split; cbn; try done.
      + rewrite H1, !app_length. unfold todo_of. cbn. destruct upfront; cbn; lia.
      + destruct scap; [|done]. rewrite H2, !n_holding_app, !n_holding_cons. done.
      + eapply (msgs_worker _ _ _ (WSend (x :: t)) (WSend t) got [] [] [x] (got ++ [x]) []); [| |exact H5]; [by intros ? ->|].
        intros rest. rewrite <- !app_assoc. done.
      + apply Forall_app in H8 as [H8a H8b]. inversion H8b as [|? ? Hw Hr]; subst.
        apply Forall_app. split; [done|]. by constructor.
    - (* send on closed *) specialize (H4 eq_refl). by destruct ws1.
    - (* release *) split; cbn; try done.
      + rewrite H1, !app_length. unfold todo_of. cbn. destruct upfront, m; cbn; lia.
      + unfold sem_up in H2. destruct scap; [|done]. rewrite n_holding_app, n_holding_cons in *. cbn in *. lia.
      + intros E. apply H4 in E. by destruct ws1.
      + eapply msgs_worker with (pre := []); [| |exact H5]; done.
      + apply Forall_app in H8 as [H8a H8b]. inversion H8b as [|? ? Hw Hr]; subst.
        apply Forall_app. split; [done|]. by constructor.
    - (* done *) split; cbn; try done.
      + rewrite !app_length in *. unfold todo_of. cbn in *. destruct upfront, m; cbn in *; lia.
      + destruct scap; [|done]. rewrite H2, !n_holding_app, !n_holding_cons. done.
      + intros E. apply H4 in E. by destruct ws1.
      + intros wo to Hw Ht. apply Forall2_app_inv_l in Hw as (wo1 & wo2 & Hw1 & Hw2 & ->).
        destruct (H5 (wo1 ++ [] :: wo2) to) as (outs & Ho & Hperm).
        { apply Forall2_app; [done|]. by constructor. }
        { done. }
        exists outs. split; [done|]. rewrite <- Hperm. rewrite !concat_app. done.
      + apply Forall_app in H8 as [H8a H8b]. inversion H8b as [|? ? Hw Hr]; subst.
        apply Forall_app. split; done.
    - (* close *) split; cbn; try done.
      + destruct m; [done|done|]. by destruct H3.
      + intros _. destruct ws; [done|]. cbn in H1. lia.
    - (* recv *) split; cbn; try done. intros wo to Hw Ht. destruct (H5 wo to Hw Ht) as (outs & Ho & Hperm).
      exists outs. split; [done|]. rewrite <- Hperm. rewrite <- !app_assoc. done.
    - (* finish *) split; cbn; try done.
  Qed.
  Lemma inv_reach tasks s : rtc step (fan_init upfront 0 tasks) s -> inv tasks s.
  Proof.
    intros H. remember (fan_init upfront 0 tasks) as s0 eqn:E.
    assert (inv tasks s0) as Hi by (subst; apply inv_init). clear E.
    induction H as [|s0 s1 s2 Hs Hr IH]; [done|]. eauto using inv_step.
  Qed.

  (** Result. *)
  Lemma fan_result tasks s : rtc step (fan_init upfront 0 tasks) s -> fan_done s ->
    (exists outs, Forall2 pyields tasks outs /\ fn_got s ≡ₚ concat outs) /\
    fn_panic s = false /\ fn_workers s = [] /\
    match scap with Some _ => fn_sem s = 0%nat | None => True end.
  Proof.
    intros H Hd. destruct (inv_reach _ _ H) as [H1 H2 H3 H4 H5 _ _ H6]. unfold fan_done in Hd. rewrite Hd in H3.
    destruct H3 as [Hc Hch]. specialize (H4 Hc). split; [|split; [done|split; [done|]]].
    - rewrite H4 in H5. unfold todo_of in H5. rewrite Hd in H5. destruct (H5 [] []) as (outs & Ho & Hperm); [constructor..|].
      exists outs. split; [done|]. rewrite Hch in Hperm. cbn in Hperm. by rewrite !app_nil_r in Hperm.
    - destruct scap; [|done]. by rewrite H2, H4.
  Qed.
  Lemma fan_no_panic tasks s : rtc step (fan_init upfront 0 tasks) s -> fn_panic s = false.
  Proof. intros H. apply (inv_reach _ _ H). Qed.
  Lemma fan_origin tasks s p : rtc step (fan_init upfront 0 tasks) s -> WRun p ∈ fn_workers s ->
    exists p0, p0 ∈ tasks /\ rtc pstep p0 p.
  Proof. intros H Hin. destruct (inv_reach _ _ H) as [_ _ _ _ _ _ Ho _]. rewrite Forall_forall in Ho. by apply (Ho _ Hin). Qed.

  (** Progress. *)
  Lemma holding_worker ws : (0 < n_holding ws)%nat ->
    exists ws1 w ws2, ws = ws1 ++ w :: ws2 /\ holding w = 1%nat.
  Proof.
    induction ws as [|w ws IH]; [unfold n_holding; cbn; lia|]. rewrite n_holding_cons. intros H.
    destruct (decide (holding w = 1%nat)) as [E|E]; [by exists [], w, ws|].
    destruct IH as (ws1 & w' & ws2 & -> & Hw); [destruct w; cbn in *; lia|]. by exists (w :: ws1), w', ws2.
  Qed.
  Lemma fan_progress tasks s : (match scap with Some c => 0 < c | None => True end)%nat ->
    (forall p0 p, p0 ∈ tasks -> rtc pstep p0 p -> (exists p', pstep p p') \/ (exists ms, pout p ms)) ->
    rtc step (fan_init upfront 0 tasks) s -> ~ fan_done s -> exists s', step s s'.
  Proof.
    intros Hc Hprog H Hd. destruct (inv_reach _ _ H) as [H1 H2 H3 H4 H5 H7 H8 H6]. unfold fan_done in Hd.
    destruct s as [m ws wg sem ch cl got p]. cbn in *. subst p.
    destruct m as [[|t todo]| |]; [subst cl; eexists; apply fs_closer|eexists; apply fs_spawn| |done].
    destruct ch as [|x ch]; [|eexists; apply fs_recv].
    assert (forall ws1 w ws2, ws = ws1 ++ w :: ws2 -> holding w = 1%nat ->
      exists s', step (mkFan MCollect ws wg sem [] cl got false) s') as Hhold.
    { intros ws1 w ws2 -> Hw. apply Forall_app in H8 as [_ H8]. inversion H8 as [|? ? Hor _]; subst.
      destruct w as [p|p|[|x t]|]; cbn in Hw; try done.
      - destruct Hor as (p0 & Hin & Hr). destruct (Hprog p0 p Hin Hr) as [[p' Hp]|[ms Hp]].
        + eexists. by apply fs_inner.
        + eexists. by apply fs_output.
      - assert (exists k, sem = sem_up scap k) as [k ->].
        { unfold sem_up. destruct scap; [|by exists sem]. rewrite n_holding_app, n_holding_cons in H2. cbn in H2.
          exists (pred sem). lia. }
        eexists. apply fs_release.
      - assert (cl = CClosed \/ cl <> CClosed) as [->|Hcl] by (destruct cl; auto); [eexists; apply fs_send_closed|].
        eexists. by apply fs_handoff. }
    destruct ws as [|w ws].
    - assert (wg = 0%nat) as -> by (cbn in H1; destruct upfront; lia).
      destruct cl; [done|eexists; apply fs_close|eexists; apply fs_finish].
    - destruct (decide (n_holding (w :: ws) = 0)%nat) as [E|E].
      + destruct w as [p|p|t|]; try (rewrite n_holding_cons in E; cbn in E; lia).
        * eexists. apply (fs_acquire _ _ _ _ _ _ []). unfold sem_free. destruct scap; [|done]. lia.
        * cbn in H1. destruct wg as [|wg]; [destruct upfront; lia|]. eexists. apply (fs_done _ _ _ _ _ _ []).
      + destruct (holding_worker (w :: ws)) as (ws1 & w' & ws2 & Heq & Hw); [lia|]. by eapply Hhold.
  Qed.

  (** Termination: [pm] bounds the remaining work of a computation. *)
  Variable pm : P -> nat.
  Definition wmeasure (w : worker P A) : nat :=
    match w with WAcquire p => pm p + 4 | WRun p => pm p + 3 | WSend t => 2 * length t + 2 | WFinish => 1 end.
  Definition task_cost (p : P) : nat := pm p + 5.
  Definition tasks_cost (ps : list P) : nat := sum_list (task_cost <$> ps).
  Definition measure s : nat :=
    (sum_list (wmeasure <$> fn_workers s) + tasks_cost (todo_of s)
     + length (fn_chan s)
     + match fn_main s with MSpawn _ => 4 | MCollect => match fn_closer s with CClosed => 1 | _ => 2 end | MDone => 0 end
     + if fn_panic s then 0 else 1)%nat.

  (** The hypotheses on the computations of the tasks. *)
  Definition tasks_decrease (tasks : list P) : Prop :=
    forall p0 p, p0 ∈ tasks -> rtc pstep p0 p ->
      (forall p', pstep p p' -> (pm p' < pm p)%nat) /\ (forall ms, pout p ms -> (2 * length ms <= pm p)%nat).

  Lemma measure_step tasks s s' : tasks_decrease tasks -> inv tasks s -> step s s' -> (measure s' < measure s)%nat.
  Proof.
    intros Hdec [H1 H2 H3 H4 H5 H7 H8 H6] Hs. unfold measure, tasks_cost, task_cost, todo_of in *.
    destruct Hs; cbn [fn_main fn_workers fn_wg fn_sem fn_chan fn_closer fn_got fn_panic] in *;
      try (apply Forall_app in H8 as [_ H8]; inversion H8 as [|? ? Hor _]; subst;
           try (destruct Hor as (p0 & Hin & Hr); destruct (Hdec p0 p Hin Hr) as [Hd1 Hd2];
                try (specialize (Hd1 p' H)); try (specialize (Hd2 ms H))));
      rewrite ?fmap_app, ?sum_list_app', ?app_length; cbn; unfold id; try lia;
      destruct m; try done; cbn; unfold id; try lia; destruct H3; done.
  Qed.
  Lemma fan_bound_from tasks n : forall s s0, tasks_decrease tasks -> inv tasks s0 ->
    nsteps step n s0 s -> (n + measure s <= measure s0)%nat.
  Proof.
    induction n as [|n IH]; intros s s0 Hdec Hi H; inversion H as [|? ? s1 ? Hs Hr]; subst; [lia|].
    pose proof (measure_step _ _ _ Hdec Hi Hs). specialize (IH s s1 Hdec (inv_step _ _ _ Hi Hs) Hr). lia.
  Qed.
  Lemma measure_init tasks : measure (fan_init upfront 0 tasks) = (tasks_cost tasks + 5)%nat.
  Proof.
    unfold measure, todo_of, fan_init.
    cbn [fn_main fn_workers fn_wg fn_sem fn_chan fn_closer fn_got fn_panic length].
    rewrite fmap_nil. cbn [sum_list foldr]. lia.
  Qed.
End fanin.

(** A relation whose runs are bounded and that only stops in final states
    reaches one. *)
Lemma bounded_reaches {S} (R : S -> S -> Prop) (fin : S -> Prop) s N :
  (forall n s', nsteps R n s s' -> (n <= N)%nat) ->
  (forall s', rtc R s s' -> fin s' \/ exists s'', R s' s'') -> exists s', rtc R s s' /\ fin s'.
Proof.
  revert s. induction N as [|N IH]; intros s Hb Hp.
  - destruct (Hp s (rtc_refl _ _)) as [Hf|[s1 Hs]]; [exists s; by split; [apply rtc_refl|]|].
    assert (1 <= 0)%nat; [|lia]. apply (Hb 1%nat s1). by apply nsteps_once.
  - destruct (Hp s (rtc_refl _ _)) as [Hf|[s1 Hs]]; [exists s; by split; [apply rtc_refl|]|].
    destruct (IH s1) as (s2 & Hr & Hf).
    + intros n s' Hn. assert (Datatypes.S n <= Datatypes.S N)%nat; [|lia]. eapply Hb. by eapply nsteps_l.
    + intros s' Hr. apply Hp. by eapply rtc_l.
    + exists s2. split; [by eapply rtc_l|done].
Qed.

(** Every order in which the workers could be served is possible. *)
Section realize.
  Context {P A : Type}.
  Variables (pstep : P -> P -> Prop) (pout : P -> list A -> Prop).
  Variables (ccap : nat) (scap : option nat) (upfront : bool).
  Hypothesis Hscap : (match scap with Some c => 0 < c | None => True end)%nat.
  Notation step := (@fan_step P A pstep pout ccap scap upfront).

  Lemma real_spawn (todo : list P) : forall (ws : list (worker P A)) wg sem got,
    rtc step (mkFan (MSpawn todo) ws wg sem [] CNone got false)
             (mkFan MCollect (ws ++ map WAcquire todo) (if upfront then wg else length todo + wg)%nat sem [] CWait got false).
  Proof.
    induction todo as [|p todo IH]; intros ws wg sem got.
    - cbn. rewrite app_nil_r. destruct upfront; apply rtc_once; apply fs_closer.
    - eapply rtc_l; [apply fs_spawn|]. specialize (IH (ws ++ [WAcquire p]) (if upfront then wg else S wg) sem got).
      rewrite <- app_assoc in IH. cbn in *. destruct upfront; [done|]. by rewrite Nat.add_succ_r in IH.
  Qed.
  Lemma real_send (ms : list A) : forall (ws1 ws2 : list (worker P A)) wg sem got,
    rtc step (mkFan MCollect (ws1 ++ WSend ms :: ws2) wg sem [] CWait got false)
             (mkFan MCollect (ws1 ++ WSend [] :: ws2) wg sem [] CWait (got ++ ms) false).
  Proof.
    induction ms as [|x ms IH]; intros ws1 ws2 wg sem got.
    - rewrite app_nil_r. apply rtc_refl.
    - eapply rtc_l; [by apply fs_handoff|]. specialize (IH ws1 ws2 wg sem (got ++ [x])). by rewrite <- app_assoc in IH.
  Qed.
  Lemma real_worker (ws1 ws2 : list (worker P A)) p ms wg got : pyields pstep pout p ms ->
    rtc step (mkFan MCollect (ws1 ++ WAcquire p :: ws2) (S wg) 0 [] CWait got false)
             (mkFan MCollect (ws1 ++ ws2) wg 0 [] CWait (got ++ ms) false).
  Proof.
    intros (p' & Hp & Ho). eapply rtc_l.
    { apply fs_acquire. unfold sem_free. by destruct scap. }
    eapply rtc_transitive with (y := mkFan MCollect (ws1 ++ WRun p' :: ws2) (S wg) (sem_up scap 0) [] CWait got false).
    { clear Ho. induction Hp as [|p p1 p' Hs Hr IH]; [apply rtc_refl|]. eapply rtc_l; [|exact IH]. by apply fs_inner. }
    eapply rtc_l; [by apply fs_output|]. eapply rtc_transitive; [apply real_send|].
    eapply rtc_l; [apply fs_release|]. apply rtc_once. apply fs_done.
  Qed.
  Lemma real_all (order : list P) : forall (remaining : list P) outs got, order ≡ₚ remaining ->
    Forall2 (pyields pstep pout) order outs ->
    rtc step (mkFan MCollect (map WAcquire remaining) (length remaining) 0 [] CWait got false)
             (mkFan MCollect [] 0 0 [] CWait (got ++ concat outs) false).
  Proof.
    induction order as [|p order IH]; intros remaining outs got Hp Ho.
    - apply Permutation_nil in Hp as ->. inversion Ho; subst. cbn. rewrite app_nil_r. apply rtc_refl.
    - inversion Ho as [|? ms ? outs' Hm Ho']; subst.
      assert (p ∈ remaining) as Hin by (rewrite <- Hp; by left). apply elem_of_list_split in Hin as (l1 & l2 & ->).
      apply (Permutation_cons_app_inv l1 l2) in Hp.
      rewrite map_app, app_length. cbn. rewrite Nat.add_succ_r. eapply rtc_transitive; [by apply real_worker|].
      rewrite app_assoc. specialize (IH (l1 ++ l2) outs' (got ++ ms) Hp Ho'). by rewrite map_app, app_length in IH.
  Qed.
  Lemma fan_realize (tasks order : list P) outs : order ≡ₚ tasks -> Forall2 (pyields pstep pout) order outs ->
    exists s, rtc step (fan_init upfront 0 tasks) s /\ fan_done s /\ fn_got s = concat outs.
  Proof.
    intros Hp Ho. exists (mkFan MDone [] 0 0 [] CClosed (concat outs) false). split; [|done].
    eapply rtc_transitive; [apply real_spawn|]. cbn [app].
    assert ((if upfront then (if upfront then length tasks else 0) else length tasks + (if upfront then length tasks else 0)) = length tasks)%nat as ->
      by (destruct upfront; lia).
    eapply rtc_transitive; [by apply (real_all order)|]. eapply rtc_l; [apply fs_close|]. apply rtc_once. apply fs_finish.
  Qed.
End realize.
