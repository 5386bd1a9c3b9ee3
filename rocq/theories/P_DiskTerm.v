(** The disk storage: loops end. *)
From Coq Require Import Wellfounded.Inverse_Image Wellfounded.Inclusion Arith.Wf_nat.
From Verif Require Import Base M_Field M_LRU S_Visits M_Memory M_File M_Serialize M_Disk.
#[local] Open Scope nat_scope.

Definition lex3 (x y : nat * (nat * nat)) : Prop :=
  x.1 < y.1 \/ (x.1 = y.1 /\ (x.2.1 < y.2.1 \/ (x.2.1 = y.2.1 /\ x.2.2 < y.2.2))).
Lemma lex3_wf : well_founded lex3.
Proof.
  intros [a [b c]]. revert b c. induction (lt_wf a) as [a _ IHa]. intros b. induction (lt_wf b) as [b _ IHb]. intros c. induction (lt_wf c) as [c _ IHc].
  constructor. intros [a' [b' c']] [H|[E [H|[E' H]]]]; cbn in *; subst; auto.
Qed.
Lemma lex3_1 a b c a' b' c' : a' < a -> lex3 (a', (b', c')) (a, (b, c)).
Proof. by left. Qed.
Lemma lex3_2 a b c b' c' : b' < b -> lex3 (a, (b', c')) (a, (b, c)).
Proof. right. split; [done|]. by left. Qed.
Lemma lex3_3 a b c c' : c' < c -> lex3 (a, (b, c')) (a, (b, c)).
Proof. right. split; [done|]. by right. Qed.

Definition ss_rank (pc : ss_pc) : nat :=
  match pc with SSOpen => 7 | SSWrite => 6 | SSStatCur => 5 | SSRenameOld => 4 | SSRenameCur => 3 | SSStatOld => 2 | SSDelete => 1 | SSOk | SSErr => 0 end.
Lemma ss_rank_step dir name b pc s pc' s' : ss_step dir name b (pc, s) = Some (pc', s') -> ss_rank pc' < ss_rank pc.
Proof.
  unfold ss_step, on. cbn. destruct pc; intros H; try discriminate H;
    try (destruct (open_trunc _ _)); try (destruct (rename _ _ _)); try (destruct (remove _ _)); try (destruct (exists_path _ _)); injection H as <- <-; cbn; lia.
Qed.

Definition g_rank (g : merger) : nat * (nat * nat) :=
  match m_pc g with
  | MIdle | MErr => (0, (0, 0))
  | MFields fs => (length fs, (9, 0))
  | MList f fs => (S (length fs), (8, 0))
  | MIndex f fs files => (S (length fs), (7, 0))
  | MFrag f fs files todo td => (S (length fs), (6, length todo))
  | MMkdir f fs files td b => (S (length fs), (5, 0))
  | MSave f fs files td b pc => (S (length fs), (4, ss_rank pc))
  | MDel f fs todo td => (S (length fs), (3, length todo))
  end.
Section merge.
  Variables (compress : bytes -> bytes) (decompress : bytes -> option bytes).
  Lemma g_rank_step g s g' s' : g_step compress decompress (g, s) (g', s') -> lex3 (g_rank g') (g_rank g).
  Proof.
    intros H. inversion H; subst; unfold g_rank; cbn;
      first [apply lex3_1; cbn; lia|apply lex3_2; cbn; lia|apply lex3_3; cbn; try lia].
    by eapply ss_rank_step.
  Qed.
  (** No infinite sequence of merger steps. *)
  Lemma g_terminates : well_founded (fun b a : merger * fs => g_step compress decompress a b).
  Proof.
    apply (wf_incl _ _ (fun b a => lex3 (g_rank b.1) (g_rank a.1))); [|apply (wf_inverse_image _ _ lex3 (fun st => g_rank st.1)), lex3_wf].
    intros [g' s'] [g s] H. by eapply g_rank_step.
  Qed.
End merge.
