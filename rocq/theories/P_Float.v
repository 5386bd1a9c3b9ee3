From Flocq Require Import Core.Zaux IEEE754.BinarySingleNaN.
From Verif Require Import Base M_Field M_Memory S_Memory M_Num M_NumF M_FanIn M_Search M_Standard S_View S_Search P_Base P_Memory P_Memory2 P_FanIn P_Search P_Standard.

Notation fplus := (Bplus (prec := prec64) (emax := emax64) mode_NE).

Lemma fplus_comm (x y : f64) : fplus x y = fplus y x.
Proof.
  destruct x as [sx|sx| |sx mx ex Hx], y as [sy|sy| |sy my ey Hy]; try reflexivity.
  - destruct sx, sy; reflexivity.
  - destruct sx, sy; reflexivity.
  - unfold Bplus. rewrite Z.min_comm. f_equal. unfold Fplus_naive. rewrite Z.add_comm. done.
Qed.
Notation fzero := (B754_zero (prec := prec64) (emax := emax64) false).
Lemma of_Z_0 : f64_of_Z 0 = fzero.
Proof. reflexivity. Qed.
(** Adding 0 only turns -0 into 0. *)
Definition norm (x : f64) : f64 := match x with B754_zero _ => fzero | _ => x end.
Lemma fplus_0_l x : fplus fzero x = norm x.
Proof. destruct x as [[]|[]| |]; reflexivity. Qed.
Lemma fplus_norm_l x y : fplus (norm x) y = fplus (norm x) (norm y).
Proof.
  destruct x as [[]|[]| |], y as [[]|[]| |]; reflexivity.
Qed.
Lemma fplus_two x y : fplus (fplus fzero x) y = fplus (fplus fzero y) x.
Proof. rewrite !fplus_0_l. rewrite (fplus_norm_l x y), (fplus_norm_l y x). apply fplus_comm. Qed.

Section two.
  Variables (flog : f64 -> f64).
  Notation F := (float_ops flog).
  Lemma sum_perm2 (l l' : list f64) : l ≡ₚ l' -> (length l <= 2)%nat -> sum_num F l = sum_num F l'.
  Proof.
    intros Hp Hl. destruct l as [|a [|b [|c l]]]; cbn in Hl; [| | |lia].
    - apply Permutation_nil in Hp as ->. done.
    - apply Permutation_singleton_l in Hp as ->. done.
    - apply Permutation_length_2_inv in Hp as [->| ->]; [done|].
      unfold sum_num. cbn [fold_left nadd float_ops of_int]. rewrite of_Z_0. apply fplus_two.
  Qed.
End two.

Lemma omap_perm {A B} (g : A -> option B) l l' : l ≡ₚ l' -> omap g l ≡ₚ omap g l'.
Proof. intros H. by rewrite H. Qed.
Lemma omap_length_le {A B} (g : A -> option B) l : (length (omap g l) <= length l)%nat.
Proof. induction l as [|x l IH]; cbn; [done|]. destruct (g x); cbn; lia. Qed.

Lemma std_two_deterministic flog ncpu v qs s s' res res' :
  (0 < ncpu)%nat -> fields_pointwise v -> (length qs <= 2)%nat ->
  rtc (std_step (float_ops flog) ncpu v qs) (std_init (float_ops flog) qs) s -> std_returns (float_ops flog) s res ->
  rtc (std_step (float_ops flog) ncpu v qs) (std_init (float_ops flog) qs) s' -> std_returns (float_ops flog) s' res' ->
  res ≡ₚ res'.
Proof.
  intros Hc Hv Hl H1 R1 H2 R2.
  destruct (std_result _ _ _ Hv _ _ _ H1 R1) as (q1 & Hq1 & N1 & E1 & _).
  destruct (std_result _ _ _ Hv _ _ _ H2 R2) as (q2 & Hq2 & N2 & E2 & _).
  assert (q1 ≡ₚ q2) as Hq by (by rewrite Hq1, Hq2).
  apply NoDup_Permutation; [by eapply NoDup_fmap_1|by eapply NoDup_fmap_1|].
  intros [d x]. rewrite E1, E2.
  assert (contributions (float_ops flog) v q1 d ≡ₚ contributions (float_ops flog) v q2 d) as Hp by (by apply omap_perm).
  assert (sum_num _ (contributions (float_ops flog) v q1 d) = sum_num _ (contributions (float_ops flog) v q2 d)) as ->.
  { apply sum_perm2; [done|]. etransitivity; [apply omap_length_le|]. by rewrite Hq1. }
  split; intros [Hne ->]; (split; [|done]); intros E; rewrite E in Hp.
  - apply Permutation_nil_r in Hp. done.
  - apply Permutation_nil in Hp. done.
Qed.

(** *** NaN *)
Definition fnan : f64 := B754_nan.
Lemma zero_over_zero : ndiv (float_ops id) (f64_of_Z 0) (f64_of_Z 0) = fnan.
Proof. reflexivity. Qed.
Lemma fmul_nan_r x : Bmult mode_NE x fnan = fnan.
Proof. destruct x; reflexivity. Qed.
Lemma fadd_nan_r x : fplus x fnan = fnan.
Proof. destruct x; reflexivity. Qed.
Lemma fadd_nan_l x : fplus fnan x = fnan.
Proof. reflexivity. Qed.
Lemma fdiv_nan_r x : Bdiv mode_NE x fnan = fnan.
Proof. destruct x; reflexivity. Qed.
Lemma bm25_term_nan flog k1 b boost total nft fld t :
  bm25_term (float_ops flog) k1 b boost fnan total nft fld t = fnan.
Proof.
  unfold bm25_term. cbn [float_ops nadd nsub nmul ndiv of_int num]. by rewrite fdiv_nan_r, !fmul_nan_r, !fadd_nan_r, fmul_nan_r, fadd_nan_r, fdiv_nan_r, fmul_nan_r.
Qed.
Lemma bm25_nan flog q k1 b boost total nft fld : q <> [] ->
  bm25 (float_ops flog) q k1 b boost fnan total nft fld = fnan.
Proof.
  intros Hq. unfold bm25. destruct q as [|t q]; [done|]. clear Hq. cbn [fold_left]. rewrite bm25_term_nan.
  cbn [nadd float_ops]. rewrite fadd_nan_r. induction q as [|u q IH]; [done|]. cbn [fold_left]. apply IH.
Qed.
