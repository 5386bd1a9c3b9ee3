(** Property theorems C39-C41: SecureSaveFile. *)
From Verif Require Import Base M_File S_File P_File.

(** C39 *)
Theorem C39_secure_save_replaces : forall dir name b s t, can_save s dir name -> saved dir name b s t ->
  file_at t (dir ++ [name]) = Some (Whole b) /\
  file_at t (dir ++ [String.append name "_temp"]) = None /\ file_at t (dir ++ [String.append name "_old"]) = None /\
  (forall p, p <> dir ++ [name] -> p <> dir ++ [String.append name "_temp"] -> p <> dir ++ [String.append name "_old"] ->
     file_at t p = file_at s p) /\
  fs_dirs t = fs_dirs s.
Proof. intros dir name b s t Hn H. destruct (ss_effect dir name b s t Hn H) as (H1 & H2 & H3 & H4 & H5). done. Qed.
Print Assumptions C39_secure_save_replaces.
Theorem C39_secure_save_succeeds : forall dir name b s, can_save s dir name ->
  (exists t, saved dir name b s t) /\ (forall t, ~ ss_steps dir name b (SSOpen, s) (SSErr, t)) /\
  (forall n st, nsteps (fun x y => ss_step dir name b x = Some y) n (SSOpen, s) st -> (n <= 7)%nat).
Proof.
  intros dir name b s Hn. split; [exact (ss_returns dir name b s Hn)|]. split.
  - intros t H. exact (ss_no_err dir name b s _ Hn H eq_refl).
  - intros n st H. apply (ss_bound dir name b) in H. cbn in H. lia.
Qed.
Print Assumptions C39_secure_save_succeeds.

(** C40: at every crash point the name holds the old content or the new bytes, or
    is absent while the old content is whole under the _old sibling (and the new
    bytes under the _temp sibling). *)
Theorem C40_crash_points : forall dir name b s t, can_save s dir name -> during_save dir name b s t ->
  file_at t (dir ++ [name]) = file_at s (dir ++ [name]) \/
  file_at t (dir ++ [name]) = Some (Whole b) \/
  (file_at t (dir ++ [name]) = None /\ is_Some (file_at s (dir ++ [name])) /\
   file_at t (dir ++ [String.append name "_old"]) = file_at s (dir ++ [name]) /\
   file_at t (dir ++ [String.append name "_temp"]) = Some (Whole b)).
Proof.
  intros dir name b s t Hn [pc H]. destruct (ss_crash dir name b s pc t Hn H) as [?|[?|(? & ? & ? & ?)]]; auto.
  right. right. done.
Qed.
Print Assumptions C40_crash_points.
Theorem C40_name_never_torn : forall dir name b s t, can_save s dir name -> during_save dir name b s t ->
  file_at s (dir ++ [name]) <> Some Torn -> file_at t (dir ++ [name]) <> Some Torn.
Proof.
  intros dir name b s t Hn H Hs. destruct (C40_crash_points dir name b s t Hn H) as [E|[E|(E & _)]]; rewrite E; done.
Qed.
Print Assumptions C40_name_never_torn.
(** There is a crash point without the file, and the next completed save of the
    same name then destroys the only remaining copy of the old bytes. *)
Theorem C40_gap_loses_file_refuted : forall dir name b s old, can_save s dir name -> file_at s (dir ++ [name]) = Some old ->
  exists t, during_save dir name b s t /\ file_at t (dir ++ [name]) = None /\
    file_at t (dir ++ [String.append name "_old"]) = Some old /\
    forall b' u, saved dir name b' t u ->
      file_at u (dir ++ [name]) = Some (Whole b') /\ file_at u (dir ++ [String.append name "_temp"]) = None /\
      file_at u (dir ++ [String.append name "_old"]) = None /\
      (forall p, file_at u p = Some old -> p = dir ++ [name] \/ file_at s p = Some old).
Proof.
  intros dir name b s old Hn Ho. destruct (ss_gap dir name b s old Hn Ho) as (t & H & E1 & E2 & E3).
  exists t. split; [by eexists|]. split; [done|]. split; [done|]. intros b' u Hu.
  assert (can_save t dir name) as Hn'.
  { unfold can_save. rewrite (ss_dirs dir name b s _ _ Hn H). done. }
  destruct (C39_secure_save_replaces dir name b' t u Hn' Hu) as (U1 & U2 & U3 & U4 & _).
  split; [done|]. split; [done|]. split; [done|]. intros p Hp.
  destruct (decide (p = dir ++ [name])) as [->|N1]; [by left|]. right.
  destruct (decide (p = dir ++ [String.append name "_temp"])) as [->|N2]; [rewrite U2 in Hp; discriminate|].
  destruct (decide (p = dir ++ [String.append name "_old"])) as [->|N3]; [rewrite U3 in Hp; discriminate|].
  rewrite U4 in Hp by done. rewrite <- Hp. symmetry. exact (ss_frame dir name b s _ t p Hn H N1 N2 N3).
Qed.
Print Assumptions C40_gap_loses_file_refuted.

(** C41 *)
Theorem C41_other_files_untouched : forall dir name b s t other, can_save s dir name -> during_save dir name b s t ->
  other <> name -> other <> String.append name "_temp" -> other <> String.append name "_old" ->
  file_at t (dir ++ [other]) = file_at s (dir ++ [other]).
Proof.
  intros dir name b s t other Hn [pc H] H1 H2 H3.
  apply (ss_frame dir name b s pc t); [done|done| | |]; intros E; by apply snoc_inj in E.
Qed.
Print Assumptions C41_other_files_untouched.
Theorem C41_other_directories_untouched : forall dir name b s t p, can_save s dir name -> during_save dir name b s t ->
  parent p <> dir -> file_at t p = file_at s p.
Proof.
  intros dir name b s t p Hn [pc H] Hp.
  apply (ss_frame dir name b s pc t); [done|done| | |]; intros ->; apply Hp, parent_snoc.
Qed.
Print Assumptions C41_other_directories_untouched.
(** The documents called name_temp and name_old are deleted by saving name. *)
Theorem C41_temp_and_old_destroyed_refuted : forall dir name b s t other, can_save s dir name -> saved dir name b s t ->
  other = String.append name "_temp" \/ other = String.append name "_old" -> file_at t (dir ++ [other]) = None.
Proof.
  intros dir name b s t other Hn H Ho. destruct (C39_secure_save_replaces dir name b s t Hn H) as (_ & H2 & H3 & _).
  by destruct Ho as [-> | ->].
Qed.
Print Assumptions C41_temp_and_old_destroyed_refuted.

Definition w_fs : fs := mkFs {[ ["r"; "a"] := Whole [1]; ["r"; "a_old"] := Whole [2]; ["r"; "b"] := Whole [3] ]} {[ []; ["r"] ]}.
Example C39_to_C41_witness : can_save w_fs ["r"] "a" /\ file_at w_fs ["r"; "a"] = Some (Whole [1]) /\
  (exists t, saved ["r"] "a" [7; 8] w_fs t /\ file_at t ["r"; "a"] = Some (Whole [7; 8]) /\
     file_at t ["r"; "a_old"] = None /\ file_at t ["r"; "b"] = Some (Whole [3])) /\
  (exists t, during_save ["r"] "a" [7; 8] w_fs t /\ file_at t ["r"; "a"] = None).
Proof.
  assert (can_save w_fs ["r"] "a") as Hn.
  { split; [apply (bool_decide_eq_true_1 _); vm_compute; reflexivity|].
    split; [|split]; apply (bool_decide_eq_true_1 _); vm_compute; reflexivity. }
  split; [done|]. split; [reflexivity|]. split.
  - destruct (C39_secure_save_succeeds ["r"] "a" [7; 8] w_fs Hn) as ([t Ht] & _). exists t. split; [done|].
    destruct (C39_secure_save_replaces _ _ _ _ _ Hn Ht) as (H1 & H2 & H3 & H4 & _). split; [done|]. split; [done|].
    apply H4; discriminate.
  - destruct (C40_gap_loses_file_refuted ["r"] "a" [7; 8] w_fs (Whole [1]) Hn eq_refl) as (t & H1 & H2 & _). by exists t.
Qed.
