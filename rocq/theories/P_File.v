(** Proofs about SecureSaveFile. *)
From Verif Require Import Base M_File P_Base.

Lemma append_inj_l (a b c : string) : String.append a b = String.append a c -> b = c.
Proof. induction a as [|x a IH]; cbn; [done|]. intros [= H]. by apply IH. Qed.
Lemma append_nil_r (a b : string) : String.append a b = a -> b = "".
Proof.
  intros H. apply (append_inj_l a). rewrite H. clear. induction a as [|x a IH]; [done|]. cbn. by rewrite <- IH.
Qed.
Lemma snoc_inj {A} (d : list A) a b : d ++ [a] = d ++ [b] -> a = b.
Proof. intros H. apply app_inj_tail in H. tauto. Qed.

Section ss.
  Variables (dir : path) (name : string) (buff : bytes).
  Notation cur := (cur_path dir name).
  Notation tmp := (temp_path dir name).
  Notation old := (old_path dir name).
  Notation steps := (ss_steps dir name buff).

  Lemma cur_tmp : cur <> tmp.
  Proof. intros H. apply snoc_inj in H. symmetry in H. by apply append_nil_r in H. Qed.
  Lemma cur_old : cur <> old.
  Proof. intros H. apply snoc_inj in H. symmetry in H. by apply append_nil_r in H. Qed.
  Lemma tmp_old : tmp <> old.
  Proof. intros H. apply snoc_inj in H. by apply append_inj_l in H. Qed.
  Lemma parent_snoc (d : path) (x : string) : parent (d ++ [x]) = d.
  Proof. unfold parent. apply removelast_last. Qed.

  (** No directory in the way. *)
  Definition names_free (s : fs) : Prop :=
    dir ∈ fs_dirs s /\ cur ∉ fs_dirs s /\ tmp ∉ fs_dirs s /\ old ∉ fs_dirs s.

  Lemma is_dir_true s p : p ∈ fs_dirs s -> is_dir s p = true.
  Proof. intros. unfold is_dir. by apply bool_decide_eq_true_2. Qed.
  Lemma is_dir_false s p : p ∉ fs_dirs s -> is_dir s p = false.
  Proof. intros. unfold is_dir. by apply bool_decide_eq_false_2. Qed.
  Lemma exists_file s p : p ∉ fs_dirs s -> exists_path s p = bool_decide (is_Some (fs_files s !! p)).
  Proof. intros. unfold exists_path. rewrite is_dir_false, orb_false_r by done. done. Qed.

  (** The state after each number of steps. *)
  Definition F (s : fs) := fs_files s.
  Definition after_open (s : fs) := <[tmp := Torn]> (F s).
  Definition after_write (s : fs) := <[tmp := Whole buff]> (F s).
  Definition after_old (s : fs) (c : content) := <[old := c]> (delete cur (<[tmp := Whole buff]> (F s))).
  Definition after_cur_some (s : fs) (c : content) := <[cur := Whole buff]> (delete tmp (after_old s c)).
  Definition after_cur_none (s : fs) := <[cur := Whole buff]> (delete tmp (after_write s)).

  (** The reachable states from [s] (no directories in the way). *)
  Inductive ss_reach (s : fs) : ss_pc -> gmap path content -> Prop :=
  | r0 : ss_reach s SSOpen (F s)
  | r1 : ss_reach s SSWrite (after_open s)
  | r2 : ss_reach s SSStatCur (after_write s)
  | r3 c : F s !! cur = Some c -> ss_reach s SSRenameOld (after_write s)
  | r4 c : F s !! cur = Some c -> ss_reach s SSRenameCur (after_old s c)
  | r4' : F s !! cur = None -> ss_reach s SSRenameCur (after_write s)
  | r5 c : F s !! cur = Some c -> ss_reach s SSStatOld (after_cur_some s c)
  | r5' : F s !! cur = None -> ss_reach s SSStatOld (after_cur_none s)
  | r6 c : F s !! cur = Some c -> ss_reach s SSDelete (after_cur_some s c)
  | r6' : F s !! cur = None -> is_Some (F s !! old) -> ss_reach s SSDelete (after_cur_none s)
  | r7 c : F s !! cur = Some c -> ss_reach s SSOk (delete old (after_cur_some s c))
  | r7' : F s !! cur = None -> is_Some (F s !! old) -> ss_reach s SSOk (delete old (after_cur_none s))
  | r7'' : F s !! cur = None -> F s !! old = None -> ss_reach s SSOk (after_cur_none s).

  Lemma ss_inv_step s pc t st : names_free s -> fs_dirs t = fs_dirs s -> ss_reach s pc (F t) ->
    ss_step dir name buff (pc, t) = Some st -> fs_dirs st.2 = fs_dirs s /\ ss_reach s st.1 (F st.2).
  Proof.
    intros (Hd & Hc & Ht & Ho) Hdirs Hr Hs.
    pose proof cur_tmp as N1. pose proof cur_old as N2. pose proof tmp_old as N3.
    assert (forall m, is_dir (mkFs m (fs_dirs s)) dir = true) as D0 by (intros m; by apply is_dir_true).
    assert (forall m, is_dir (mkFs m (fs_dirs s)) cur = false) as D1 by (intros m; by apply is_dir_false).
    assert (forall m, is_dir (mkFs m (fs_dirs s)) tmp = false) as D2 by (intros m; by apply is_dir_false).
    assert (forall m, is_dir (mkFs m (fs_dirs s)) old = false) as D3 by (intros m; by apply is_dir_false).
    assert (parent cur = dir /\ parent tmp = dir /\ parent old = dir) as (P1 & P2 & P3).
    { unfold cur_path, temp_path, old_path. by rewrite !parent_snoc. }
    assert (forall m, exists_path (mkFs m (fs_dirs s)) cur = bool_decide (is_Some (m !! cur))) as X1 by (intros m; unfold exists_path; by rewrite D1, orb_false_r).
    assert (forall m, exists_path (mkFs m (fs_dirs s)) old = bool_decide (is_Some (m !! old))) as X2 by (intros m; unfold exists_path; by rewrite D3, orb_false_r).
    unfold ss_step in Hs. cbn [fst snd] in Hs. destruct t as [tf td]. cbn [fs_dirs F fs_files] in *. subst td.
    unfold F in *. cbn [fs_files] in *.
    inversion Hr; subst; clear Hr; cbn [fs_files] in *; unfold F in *.
    - unfold open_trunc in Hs. rewrite P2, D0, D2 in Hs. cbn in Hs. injection Hs as <-. cbn. split; [done|].
      change (<[tmp:=Torn]> (fs_files s)) with (after_open s). constructor.
    - injection Hs as <-. cbn. split; [done|]. unfold after_open. rewrite insert_insert. apply r2.
    - rewrite X1 in Hs. injection Hs as <-. cbn. split; [done|]. unfold after_write, F in *.
      rewrite lookup_insert_ne by done. destruct (fs_files s !! cur) as [c|] eqn:E.
      + rewrite bool_decide_true by by eexists. by apply (r3 s c).
      + rewrite bool_decide_false by (by intros [? ?]). by apply r4'.
    - unfold rename in Hs. cbn [fs_files] in Hs. unfold after_write, F in Hs.
      rewrite lookup_insert_ne in Hs by done. match goal with H : fs_files s !! cur = Some ?c |- _ => rewrite H in Hs; rename H into E; rename c into c0 end.
      rewrite P3, D0, D3 in Hs. cbn in Hs. injection Hs as <-. cbn. split; [done|]. by apply (r4 s c0).
    - unfold rename in Hs. cbn [fs_files] in Hs. unfold after_old in Hs at 1.
      rewrite lookup_insert_ne in Hs by done. rewrite lookup_delete_ne in Hs by done. rewrite lookup_insert in Hs.
      rewrite P1, D0, D1 in Hs. cbn in Hs. injection Hs as <-. cbn. split; [done|]. by apply (r5 s c).
    - unfold rename in Hs. cbn [fs_files] in Hs. unfold after_write in Hs at 1. rewrite lookup_insert in Hs.
      rewrite P1, D0, D1 in Hs. cbn in Hs. injection Hs as <-. cbn. split; [done|]. by apply r5'.
    - rewrite X2 in Hs. injection Hs as <-. cbn. split; [done|].
      assert (after_cur_some s c !! old = Some c) as E.
      { unfold after_cur_some, after_old. rewrite lookup_insert_ne by done. rewrite lookup_delete_ne by done. by rewrite lookup_insert. }
      rewrite E. rewrite bool_decide_true by by eexists. by apply r6.
    - rewrite X2 in Hs. injection Hs as <-. cbn. split; [done|].
      assert (after_cur_none s !! old = fs_files s !! old) as E.
      { unfold after_cur_none, after_write. rewrite lookup_insert_ne by done. rewrite lookup_delete_ne by done. by rewrite lookup_insert_ne by done. }
      rewrite E. destruct (fs_files s !! old) eqn:E2.
      + rewrite bool_decide_true by by eexists. apply r6'; [done|]. unfold F. by rewrite E2.
      + rewrite bool_decide_false by (by intros [? ?]). by apply r7''.
    - unfold remove in Hs. cbn [fs_files] in Hs.
      assert (after_cur_some s c !! old = Some c) as E.
      { unfold after_cur_some, after_old. rewrite lookup_insert_ne by done. rewrite lookup_delete_ne by done. by rewrite lookup_insert. }
      rewrite E in Hs. cbn in Hs. injection Hs as <-. cbn. split; [done|]. by apply r7.
    - unfold remove in Hs. cbn [fs_files] in Hs.
      match goal with H : is_Some (fs_files s !! old) |- _ => pose proof H as Hso; destruct H as [c Hc'] end.
      assert (after_cur_none s !! old = Some c) as E.
      { unfold after_cur_none, after_write. rewrite lookup_insert_ne by done. rewrite lookup_delete_ne by done. by rewrite lookup_insert_ne by done. }
      rewrite E in Hs. cbn in Hs. injection Hs as <-. cbn. split; [done|]. by apply r7'.
    - discriminate.
    - discriminate.
    - discriminate.
  Qed.

  Lemma ss_reach_steps s st : names_free s -> steps (SSOpen, s) st -> fs_dirs st.2 = fs_dirs s /\ ss_reach s st.1 (F st.2).
  Proof.
    intros Hn H. revert st H. apply (rtc_ind_r (fun st => fs_dirs st.2 = fs_dirs s /\ ss_reach s st.1 (F st.2)) (SSOpen, s)).
    - split; [done|constructor].
    - intros [pc t] st _ Hs [H1 H2]. by eapply ss_inv_step.
  Qed.

  Lemma ss_no_err s st : names_free s -> steps (SSOpen, s) st -> st.1 <> SSErr.
  Proof. intros Hn H. destruct (ss_reach_steps _ _ Hn H) as [_ Hr]. by inversion Hr. Qed.

  (** At most eight steps, and it can always continue until it returns. *)
  Definition ss_rank (pc : ss_pc) : nat :=
    match pc with SSOpen => 7 | SSWrite => 6 | SSStatCur => 5 | SSRenameOld => 4 | SSRenameCur => 3 | SSStatOld => 2 | SSDelete => 1 | _ => 0 end.
  Lemma ss_rank_step a b : ss_step dir name buff a = Some b -> (ss_rank b.1 < ss_rank a.1)%nat.
  Proof.
    destruct a as [pc t]. unfold ss_step, on. cbn [fst snd].
    destruct pc; intros H; try discriminate; injection H as <-; cbn [fst snd];
      repeat match goal with |- context [match ?x with _ => _ end] => destruct x end; cbn; lia.
  Qed.
  Lemma ss_bound n a b : nsteps (fun a b => ss_step dir name buff a = Some b) n a b -> (n + ss_rank b.1 <= ss_rank a.1)%nat.
  Proof. induction 1 as [|n a b c H _ IH]; [done|]. apply ss_rank_step in H. lia. Qed.
  Lemma ss_returns_from n : forall a, (ss_rank a.1 <= n)%nat -> exists b, steps a b /\ (b.1 = SSOk \/ b.1 = SSErr).
  Proof.
    induction n as [|n IH]; intros a H.
    - destruct a as [pc t]. destruct pc; cbn in H; try lia; eexists; (split; [apply rtc_refl|]); cbn; auto.
    - destruct (ss_step dir name buff a) as [b|] eqn:E.
      + pose proof (ss_rank_step _ _ E). destruct (IH b) as (c & Hc & Hd); [lia|]. exists c. split; [|done].
        eapply rtc_l; [exact E|exact Hc].
      + exists a. split; [apply rtc_refl|]. destruct a as [pc t]. destruct pc; try discriminate E; cbn; auto.
  Qed.
  Lemma ss_returns s : names_free s -> exists t, steps (SSOpen, s) (SSOk, t).
  Proof.
    intros Hn. destruct (ss_returns_from 7 (SSOpen, s)) as ([pc t] & H & Hpc); [done|].
    exists t. destruct Hpc as [E|E]; cbn in E; subst pc; [done|].
    exfalso. by apply (ss_no_err _ _ Hn H).
  Qed.

  Ltac maps := repeat first [rewrite lookup_insert | rewrite lookup_delete | rewrite lookup_insert_ne by done | rewrite lookup_delete_ne by done].

  (** Effect of a completed call. *)
  Lemma ss_effect s t : names_free s -> steps (SSOpen, s) (SSOk, t) ->
    fs_dirs t = fs_dirs s /\ F t !! cur = Some (Whole buff) /\ F t !! tmp = None /\ F t !! old = None /\
    (forall p, p <> cur -> p <> tmp -> p <> old -> F t !! p = F s !! p).
  Proof.
    intros Hn H. destruct (ss_reach_steps _ _ Hn H) as [Hd Hr]. cbn in Hd, Hr.
    pose proof cur_tmp as N1. pose proof cur_old as N2. pose proof tmp_old as N3. split; [done|].
    inversion Hr as [| | | | | | | | | |c Hc E|Hc Hi E|Hc Hi E]; unfold after_cur_some, after_cur_none, after_old, after_write, F in *;
      (split; [by maps|]; split; [by maps|]; split; [by maps|]; intros p ? ? ?; by maps).
  Qed.
  (** Frame at every point. *)
  Lemma ss_frame s pc t p : names_free s -> steps (SSOpen, s) (pc, t) -> p <> cur -> p <> tmp -> p <> old -> F t !! p = F s !! p.
  Proof.
    intros Hn H ? ? ?. destruct (ss_reach_steps _ _ Hn H) as [Hd Hr]. cbn in Hr. inversion Hr; clear Hr;
      unfold after_cur_some, after_cur_none, after_old, after_write, after_open, F in *; by maps.
  Qed.
  Lemma ss_dirs s pc t : names_free s -> steps (SSOpen, s) (pc, t) -> fs_dirs t = fs_dirs s.
  Proof. intros Hn H. by destruct (ss_reach_steps _ _ Hn H) as [Hd Hr]. Qed.

  (** Crash points. *)
  Lemma ss_crash s pc t : names_free s -> steps (SSOpen, s) (pc, t) ->
    (F t !! cur = F s !! cur \/ F t !! cur = Some (Whole buff) \/
     (F t !! cur = None /\ F t !! old = F s !! cur /\ F t !! tmp = Some (Whole buff) /\ is_Some (F s !! cur))) .
  Proof.
    intros Hn H. destruct (ss_reach_steps _ _ Hn H) as [Hd Hr]. cbn in Hr.
    pose proof cur_tmp as N1. pose proof cur_old as N2. pose proof tmp_old as N3.
    inversion Hr as [| | |c Hc E1 E2|c Hc E1 E2|Hc E1 E2|c Hc E1 E2|Hc E1 E2|c Hc E1 E2|Hc Hi E1 E2|c Hc E1 E2|Hc Hi E1 E2|Hc Hi E1 E2]; clear Hr;
      unfold after_cur_some, after_cur_none, after_old, after_write, after_open, F in *;
      first [left; by maps | right; left; by maps | right; right].
    split; [by maps|]. split; [maps; by rewrite Hc|]. split; [by maps|]. by eexists.
  Qed.
  Lemma ss_gap s c : names_free s -> F s !! cur = Some c -> exists t, steps (SSOpen, s) (SSRenameCur, t) /\
    F t !! cur = None /\ F t !! old = Some c /\ F t !! tmp = Some (Whole buff).
  Proof.
    intros Hn Hc. pose proof cur_tmp as N1. pose proof cur_old as N2. pose proof tmp_old as N3.
    pose proof Hn as (D0 & D1 & D2 & D3).
    assert (parent cur = dir /\ parent tmp = dir /\ parent old = dir) as (P1 & P2 & P3).
    { unfold cur_path, temp_path, old_path. by rewrite !parent_snoc. }
    exists (set_files s (after_old s c)). split.
    - eapply rtc_l. { unfold ss_step. cbn [fst snd]. unfold open_trunc. rewrite P2, is_dir_true, is_dir_false by done. cbn. reflexivity. }
      eapply rtc_l. { reflexivity. }
      eapply rtc_l. { unfold ss_step. cbn [fst snd]. reflexivity. }
      unfold write_all, set_files. cbn [fs_files fs_dirs]. rewrite insert_insert.
      rewrite exists_file by done. cbn [fs_files]. rewrite lookup_insert_ne by done. unfold F in Hc. rewrite Hc.
      rewrite bool_decide_true by by eexists.
      apply rtc_once. unfold ss_step. cbn [fst snd]. unfold rename. cbn [fs_files]. rewrite lookup_insert_ne by done. rewrite Hc.
      rewrite P3. unfold is_dir. cbn [fs_dirs]. rewrite bool_decide_true, bool_decide_false by done. cbn. reflexivity.
    - unfold F, set_files, after_old. cbn [fs_files]. split; [by maps|]. split; by maps.
  Qed.
End ss.
