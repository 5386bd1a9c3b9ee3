(** Proofs for arbitrary programs over the builder API (C58). *)
From Verif Require Import Base M_Flat M_Serialize P_Base P_Flat P_Flat2 P_Flat3 P_Serialize S_Serialize.
#[local] Open Scope nat_scope.

Definition fact (T : bytes) (o : nat) (c : call) : Prop :=
  0 < o /\
  match c with
  | CString s => str_at T o s
  | CVector offs => vec_at T o offs
  | CTable n adds =>
      (forall i off, AddU i off ∈ adds -> off <> 0 -> has_u T o i off) /\
      (forall i x, AddI i x ∈ adds -> has_i T o i (wrap32 x)) /\
      (forall i, i < n -> i ∉ (slot_of <$> adds) -> unset T o i)
  end.
Lemma fact_ext T T' o c : T `suffix_of` T' -> fact T o c -> fact T' o c.
Proof.
  intros Hs [H1 H2]. split; [done|]. destruct c as [s|offs|n adds].
  - by eapply str_at_ext.
  - by eapply vec_at_ext.
  - destruct H2 as (A & B & C). split; [intros; eapply has_u_ext; [done|auto]|]. split; [intros; eapply has_i_ext; [done|auto]|].
    intros; eapply unset_ext; [done|auto].
Qed.
Lemma slots_bound adds n : NoDup (slot_of <$> adds) -> Forall (fun a => slot_of a < n) adds -> length adds <= n.
Proof.
  intros Hn Hf. rewrite <- (fmap_length slot_of adds). rewrite <- (seq_length n 0). apply submseteq_length.
  apply NoDup_submseteq; [done|]. intros i Hi. apply elem_of_seq. apply elem_of_list_fmap in Hi as (a & -> & Ha).
  rewrite Forall_forall in Hf. specialize (Hf a Ha). cbv beta in Hf. lia.
Qed.
Lemma do_call_spec c b b' o : bnest b = false -> well_formed c -> do_call c b = (b', o) ->
  bext b b' /\ bnest b' = false /\ (bbad b' = false -> vts_ok b -> vts_ok b' /\ fact (bb b') o c).
Proof.
  intros Hn Hw E. destruct c as [s|offs|n adds]; cbn [do_call] in E.
  - destruct (create_string_builds s b b' o Hn E) as (A1 & A2 & A3 & A4). split; [apply A1|]. split; [apply A1|].
    intros Hb Hv. split; [by eapply outside_vts|]. split; [lia|]. by apply A4.
  - destruct (build_vector_spec offs b b' o Hn E) as (_ & H2 & H3 & H4 & H5 & H6). split; [done|]. split; [done|].
    intros Hb Hv. destruct (H6 Hb) as [V V0]. split; [by apply (vts_ok_same b); [|apply H3|]|]. by split.
  - destruct Hw as (W1 & W2 & W3).
    change (NoDup (slot_of <$> adds)) in W1. change (Forall (fun a => slot_of a < n) adds) in W2.
    pose proof (slots_bound adds n W1 W2) as Hlen.
    destruct (build_table_spec n adds b b' o Hn E W1 W2) as (_ & H2 & H3 & H4 & H5); [lia|lia|].
    split; [done|]. split; [done|]. intros Hb Hv. destruct (H5 Hb Hv) as (G1 & G2 & G3 & G4). split; [done|]. split; [lia|done].
Qed.
Lemma calls_spec cs b b' os : calls cs b b' os -> bnest b = false -> Forall well_formed cs ->
  bext b b' /\ bnest b' = false /\ (bbad b' = false -> vts_ok b -> vts_ok b' /\ Forall2 (fact (bb b')) os cs).
Proof.
  induction 1 as [b|c cs b b1 b' o os E H IH]; intros Hn Hw.
  { split; [apply bext_refl|]. split; [done|]. intros _ Hv. split; [done|constructor]. }
  apply Forall_cons in Hw as [Hw1 Hw]. destruct (do_call_spec c b b1 o Hn Hw1 E) as (A1 & A2 & A3).
  destruct (IH A2 Hw) as (B1 & B2 & B3). split; [by eapply bext_trans|]. split; [done|].
  intros Hb Hv. assert (bbad b1 = false) as Hb1 by by apply B1. destruct (A3 Hb1 Hv) as [V1 F1].
  destruct (B3 Hb V1) as [V2 F2]. split; [done|]. constructor; [|done]. eapply fact_ext; [apply B1|done].
Qed.
Lemma finished cs b os root T : calls cs new_builder b os -> Forall well_formed cs -> finish root b = Some T ->
  small T /\ get_root T = Some (at_ T root) /\ Forall2 (fact T) os cs.
Proof.
  intros Hc Hw EF. destruct (finish_Some root b T EF) as (F1 & F2 & F3 & F4).
  destruct (calls_spec cs new_builder b os Hc eq_refl Hw) as (A1 & A2 & A3).
  assert (vts_ok new_builder) as V0 by (intros v' Hv'; by apply elem_of_nil in Hv').
  destruct (A3 F1 V0) as [V F]. split; [done|]. split; [done|]. eapply Forall2_impl; [exact F|]. intros x y. by apply fact_ext.
Qed.
