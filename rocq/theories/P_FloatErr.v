(** Rounding errors of the score computation in binary64 (C62). *)
From Coq Require Import Reals Lra.
From Flocq Require Import Core Relative Plus_error IEEE754.BinarySingleNaN.
From Verif Require Import Base M_Field M_Memory S_Memory M_Num M_NumF M_NumR M_FanIn M_Search M_Standard S_View S_BM25 S_Search S_Float P_Base P_Memory P_Memory2 P_FanIn P_Search P_Standard P_Search2.
#[local] Open Scope R_scope.

(** Twice the unit roundoff. *)
Definition w : R := / 4503599627370496.
Lemma w_bpow : bpow radix2 (-52) = w.
Proof. unfold w. cbn [bpow]. f_equal. Qed.
Lemma w_pos : 0 < w.
Proof. unfold w. lra. Qed.
Notation rnd := (round radix2 (SpecFloat.fexp prec64 emax64) ZnearestE).
#[local] Instance fexp_valid : Valid_exp (SpecFloat.fexp prec64 emax64).
Proof. apply (fexp_correct prec64 emax64). apply prec64_gt_0. Qed.
Lemma bpow_mono a b : (a <= b)%Z -> bpow radix2 a <= bpow radix2 b.
Proof. apply bpow_le. Qed.

(** Zero or between 2^-e and 2^e. *)
Definition rng (e : Z) (r : R) : Prop := r = 0 \/ bpow radix2 (- e) <= r <= bpow radix2 e.
Lemma rng_nonneg e r : rng e r -> 0 <= r.
Proof. intros [->|[H _]]; [lra|]. pose proof (bpow_gt_0 radix2 (- e)). lra. Qed.
Lemma rng_le e r : rng e r -> r <= bpow radix2 e.
Proof. intros [->|[_ H]]; [pose proof (bpow_gt_0 radix2 e); lra|done]. Qed.
Lemma rng_weaken e e' r : (e <= e')%Z -> rng e r -> rng e' r.
Proof. intros H [->|[H1 H2]]; [by left|]. right. pose proof (bpow_mono e e' H). pose proof (bpow_mono (- e') (- e) ltac:(lia)). lra. Qed.
Lemma rng_mul e1 e2 r s : rng e1 r -> rng e2 s -> rng (e1 + e2) (r * s).
Proof.
  intros [->|[H1 H2]] [->|[H3 H4]]; try (left; lra). right. rewrite Z.opp_add_distr, !bpow_plus. pose proof (bpow_gt_0 radix2 (- e1)). pose proof (bpow_gt_0 radix2 (- e2)).
  split; apply Rmult_le_compat; lra.
Qed.
Lemma rng_inv e s : s <> 0 -> rng e s -> rng e (/ s).
Proof.
  intros Hs [->|[H1 H2]]; [done|]. right. pose proof (bpow_gt_0 radix2 (- e)). rewrite <- (Z.opp_involutive e) at 2. rewrite !(bpow_opp radix2 (- e)), bpow_opp.
  split; [apply Rinv_le_contravar; lra|]. rewrite <- bpow_opp. apply Rinv_le_contravar; [apply bpow_gt_0|done].
Qed.
Lemma rng_div e1 e2 r s : s <> 0 -> rng e1 r -> rng e2 s -> rng (e1 + e2) (r / s).
Proof. intros Hs H1 H2. apply rng_mul; [done|]. by apply rng_inv. Qed.
Lemma rng_add e1 e2 r s : (0 <= e1)%Z -> (0 <= e2)%Z -> rng e1 r -> rng e2 s -> rng (Z.max e1 e2 + 1) (r + s).
Proof.
  intros P1 P2 H1 H2. pose proof (rng_nonneg _ _ H1). pose proof (rng_nonneg _ _ H2). pose proof (rng_le _ _ H1) as L1. pose proof (rng_le _ _ H2) as L2.
  pose proof (bpow_mono e1 (Z.max e1 e2) ltac:(lia)). pose proof (bpow_mono e2 (Z.max e1 e2) ltac:(lia)).
  destruct (Req_dec (r + s) 0) as [E|E]; [by left|]. right. split; [|rewrite bpow_plus; cbn [bpow]; change (IZR (Z.pow_pos radix2 1)) with 2; lra].
  assert (r <> 0 \/ s <> 0) as [N|N]; [destruct (Req_dec r 0); [right; lra|by left]| |].
  - destruct H1 as [?|[K _]]; [done|]. pose proof (bpow_mono (- (Z.max e1 e2 + 1)) (- e1) ltac:(lia)). lra.
  - destruct H2 as [?|[K _]]; [done|]. pose proof (bpow_mono (- (Z.max e1 e2 + 1)) (- e2) ltac:(lia)). lra.
Qed.

(** Rounding a number in the normal range. *)
Lemma rnd_error z : rng 960 z -> exists d, Rabs d <= w / 2 /\ rnd z = z * (1 + d) /\ Rabs (rnd z) < bpow radix2 1024.
Proof.
  intros H. destruct H as [->|[H1 H2]].
  - exists 0. rewrite Rabs_R0. pose proof w_pos. split; [lra|]. rewrite round_0 by apply valid_rnd_N. split; [lra|]. rewrite Rabs_R0. apply bpow_gt_0.
  - assert (0 < z) as Hz by (pose proof (bpow_gt_0 radix2 (- (960))); lra).
    pose proof (relative_error_N_FLT radix2 (-1074) 53 ltac:(lia) (fun x => negb (Z.even x)) z) as K. rewrite (Rabs_right z) in K by lra.
    specialize (K ltac:(eapply Rle_trans; [|exact H1]; apply bpow_mono; lia)). change (FLT_exp (-1074) 53) with (SpecFloat.fexp prec64 emax64) in K. change (- (53) + 1)%Z with (-52)%Z in K. rewrite w_bpow in K.
    exists ((rnd z - z) / z). split.
    + unfold Rdiv. rewrite Rabs_mult, (Rabs_right (/ z)) by (apply Rle_ge, Rlt_le, Rinv_0_lt_compat; lra). apply (Rmult_le_reg_r z); [done|]. rewrite Rmult_assoc, Rinv_l by lra. lra.
    + split; [field; lra|]. pose proof w_pos. assert (w <= 1) by (unfold w; lra). assert (Rabs (rnd z) <= 2 * z).
      { replace (rnd z) with ((rnd z - z) + z) by lra. eapply Rle_trans; [apply Rabs_triang|]. rewrite (Rabs_right z) by lra. assert (/ 2 * w * z <= z); [|lra]. rewrite <- (Rmult_1_l z) at 2. apply Rmult_le_compat_r; lra. }
      assert (2 * z <= bpow radix2 961) by (change 961%Z with (1 + 960)%Z; rewrite bpow_plus; change (bpow radix2 1) with 2; lra). pose proof (bpow_lt radix2 961 1024 ltac:(lia)). lra.
Qed.

(** [x] represents [r] with relative error at most [k * w]. *)
Definition near (k e : Z) (x : f64) (r : R) : Prop :=
  is_finite x = true /\ rng e r /\ exists d, Rabs d <= IZR k * w /\ B2R x = r * (1 + d).
Lemma near_exact x e : is_finite x = true -> rng e (B2R x) -> near 0 e x (B2R x).
Proof. intros H1 H2. split; [done|]. split; [done|]. exists 0. rewrite Rabs_R0. split; lra. Qed.
Lemma near_weaken k k' e e' x r : (k <= k')%Z -> (e <= e')%Z -> near k e x r -> near k' e' x r.
Proof. intros H1 H2 (F & G & d & D1 & D2). split; [done|]. split; [by eapply rng_weaken|]. exists d. split; [|done]. eapply Rle_trans; [exact D1|]. apply Rmult_le_compat_r; [pose proof w_pos; lra|by apply IZR_le]. Qed.
(** The relative error of a product of factors. *)
Lemma err3 a b d1 d2 d3 : 0 <= a -> 0 <= b -> a + b <= 100 -> Rabs d1 <= a * w -> Rabs d2 <= b * w -> Rabs d3 <= w / 2 ->
  Rabs ((1 + d1) * (1 + d2) * (1 + d3) - 1) <= (a + b + 1) * w.
Proof.
  intros Ha Hb Hab H1 H2 H3. pose proof w_pos as Hw.
  assert (Rabs (d1 * d2) <= w / 100) as H12.
  { rewrite Rabs_mult. eapply Rle_trans; [apply (Rmult_le_compat _ (100 * w) _ (100 * w)); try apply Rabs_pos|]; [apply (Rle_trans _ _ _ H1), Rmult_le_compat_r; lra|apply (Rle_trans _ _ _ H2), Rmult_le_compat_r; lra|unfold w; lra]. }
  assert (Rabs ((d1 + d2 + d1 * d2) * d3) <= w / 100) as H123.
  { rewrite Rabs_mult. eapply Rle_trans; [apply (Rmult_le_compat _ (101 * w) _ w); try apply Rabs_pos|]; [|lra|unfold w; lra].
    eapply Rle_trans; [apply Rabs_triang|]. assert (Rabs (d1 + d2) <= 100 * w); [|lra]. eapply Rle_trans; [apply Rabs_triang|]. eapply Rle_trans; [apply Rplus_le_compat; [exact H1|exact H2]|]. rewrite <- Rmult_plus_distr_r. apply Rmult_le_compat_r; lra. }
  replace ((1 + d1) * (1 + d2) * (1 + d3) - 1) with (d1 + d2 + d3 + d1 * d2 + (d1 + d2 + d1 * d2) * d3) by ring.
  pose proof (Rabs_triang (d1 + d2 + d3 + d1 * d2) ((d1 + d2 + d1 * d2) * d3)). pose proof (Rabs_triang (d1 + d2 + d3) (d1 * d2)). pose proof (Rabs_triang (d1 + d2) d3). pose proof (Rabs_triang d1 d2). lra.
Qed.
Lemma err_div a b d1 d2 d3 : 0 <= a -> 0 <= b -> a + b <= 98 -> Rabs d1 <= a * w -> Rabs d2 <= b * w -> Rabs d3 <= w / 2 ->
  0 < 1 + d2 /\ Rabs ((1 + d1) / (1 + d2) * (1 + d3) - 1) <= (a + b + 1) * w.
Proof.
  intros Ha Hb Hab H1 H2 H3. pose proof w_pos as Hw. assert (Rabs d2 <= 100 * w) as H2' by (apply (Rle_trans _ _ _ H2), Rmult_le_compat_r; lra). assert (Rabs d1 <= 100 * w) as H1' by (apply (Rle_trans _ _ _ H1), Rmult_le_compat_r; lra).
  assert (100 * w <= / 1000) by (unfold w; lra). assert (- Rabs d2 <= d2) by (unfold Rabs; destruct (Rcase_abs d2); lra). split; [lra|].
  (* 1 / (1 + d2) = 1 + d with d = - d2 + d2 * d2 / (1 + d2) *)
  set (c := d2 * d2 / (1 + d2)). assert (Rabs c <= w / 1000) as Hc.
  { unfold c, Rdiv. rewrite Rabs_mult, Rabs_mult. assert (Rabs (/ (1 + d2)) <= 2). { rewrite Rabs_right by (apply Rle_ge, Rlt_le, Rinv_0_lt_compat; lra). replace 2 with (/ / 2) by lra. apply Rinv_le_contravar; lra. }
    apply (Rle_trans _ ((100 * w) * (100 * w) * 2)); [|unfold w; lra]. apply Rmult_le_compat; [apply Rmult_le_pos; apply Rabs_pos|apply Rabs_pos| |done]. apply Rmult_le_compat; try apply Rabs_pos; done. }
  replace ((1 + d1) / (1 + d2)) with ((1 + d1) * (1 + (- d2 + c))) by (unfold c; field; lra).
  assert (Rabs (- d2 + c) <= b * w + w / 1000) as Hd. { eapply Rle_trans; [apply Rabs_triang|]. rewrite Rabs_Ropp. lra. }
  set (d2' := - d2 + c) in *. assert (b * w <= 98 * w) by (apply Rmult_le_compat_r; lra). assert (Rabs d2' <= 101 * w) as Hd' by lra.
  assert (Rabs (d1 * d2') <= w / 100) as H12. { rewrite Rabs_mult. apply (Rle_trans _ ((100 * w) * (101 * w))); [apply Rmult_le_compat; try apply Rabs_pos; done|unfold w; lra]. }
  assert (Rabs ((d1 + d2' + d1 * d2') * d3) <= w / 100) as H123.
  { rewrite Rabs_mult. apply (Rle_trans _ ((202 * w) * w)); [|unfold w; lra]. apply Rmult_le_compat; try apply Rabs_pos; [|lra]. pose proof (Rabs_triang (d1 + d2') (d1 * d2')). pose proof (Rabs_triang d1 d2'). lra. }
  replace ((1 + d1) * (1 + d2') * (1 + d3) - 1) with (d1 + d2' + d3 + d1 * d2' + (d1 + d2' + d1 * d2') * d3) by ring.
  pose proof (Rabs_triang (d1 + d2' + d3 + d1 * d2') ((d1 + d2' + d1 * d2') * d3)). pose proof (Rabs_triang (d1 + d2' + d3) (d1 * d2')). pose proof (Rabs_triang (d1 + d2') d3). pose proof (Rabs_triang d1 d2'). lra.
Qed.
Lemma near_sign k e x r : (0 <= k <= 100)%Z -> near k e x r -> 0 <= B2R x <= 2 * r /\ r <= 2 * B2R x.
Proof.
  intros Hk (_ & G & d & D1 & ->). pose proof (rng_nonneg _ _ G) as Hr. assert (Rabs d <= / 2) as Hd. { apply (Rle_trans _ _ _ D1). apply (Rle_trans _ (100 * w)); [apply Rmult_le_compat_r; [unfold w; lra|apply IZR_le; lia]|unfold w; lra]. }
  assert (- / 2 <= d <= / 2) as [P1 P2] by (unfold Rabs in Hd; destruct (Rcase_abs d); lra).
  assert (0 <= r * (d + / 2)) by (apply Rmult_le_pos; lra). assert (0 <= r * (/ 2 - d)) by (apply Rmult_le_pos; lra). lra.
Qed.
(** The value [x] stays in a range. *)
Lemma near_rng k e x r : (0 <= k <= 100)%Z -> near k e x r -> rng (e + 1) (B2R x).
Proof.
  intros Hk H. pose proof (near_sign _ _ _ _ Hk H) as [[H1 H2] H3]. destruct H as (_ & [->|[G1 G2]] & _); [left; lra|]. right. rewrite Z.opp_add_distr, !bpow_plus. change (bpow radix2 1) with 2. change (bpow radix2 (- (1))) with (/ 2). lra.
Qed.
Section ops.
  Notation fmul := (Bmult (prec := prec64) (emax := emax64) mode_NE).
  Notation fdiv := (Bdiv (prec := prec64) (emax := emax64) mode_NE).
  Notation fadd := (Bplus (prec := prec64) (emax := emax64) mode_NE).
  Lemma fmul_rnd x y : is_finite x = true -> is_finite y = true -> rng 960 (B2R x * B2R y) ->
    is_finite (fmul x y) = true /\ exists d, Rabs d <= w / 2 /\ B2R (fmul x y) = B2R x * B2R y * (1 + d).
  Proof.
    intros F1 F2 H. destruct (rnd_error _ H) as (d & D1 & D2 & D3). pose proof (Bmult_correct prec64 emax64 _ _ mode_NE x y) as K. cbn [round_mode] in K. rewrite Rlt_bool_true in K by exact D3. destruct K as (K1 & K2 & _). rewrite F1, F2 in K2. split; [exact K2|]. exists d. split; [done|]. by rewrite K1.
  Qed.
  Lemma fdiv_rnd x y : is_finite x = true -> B2R y <> 0 -> rng 960 (B2R x / B2R y) ->
    is_finite (fdiv x y) = true /\ exists d, Rabs d <= w / 2 /\ B2R (fdiv x y) = B2R x / B2R y * (1 + d).
  Proof.
    intros F1 F2 H. destruct (rnd_error _ H) as (d & D1 & D2 & D3). pose proof (Bdiv_correct prec64 emax64 _ _ mode_NE x y F2) as K. cbn [round_mode] in K. rewrite Rlt_bool_true in K by exact D3. destruct K as (K1 & K2 & _). rewrite F1 in K2. split; [exact K2|]. exists d. split; [done|]. by rewrite K1.
  Qed.
  Lemma fadd_rnd x y : is_finite x = true -> is_finite y = true -> rng 960 (B2R x + B2R y) ->
    is_finite (fadd x y) = true /\ exists d, Rabs d <= w / 2 /\ B2R (fadd x y) = (B2R x + B2R y) * (1 + d).
  Proof.
    intros F1 F2 H. destruct (rnd_error _ H) as (d & D1 & D2 & D3). pose proof (Bplus_correct prec64 emax64 _ _ mode_NE x y F1 F2) as K. cbn [round_mode] in K. rewrite Rlt_bool_true in K by exact D3. destruct K as (K1 & K2 & _). split; [exact K2|]. exists d. split; [done|]. by rewrite K1.
  Qed.
  Lemma near_mul k1 k2 e1 e2 x y r s : (0 <= k1)%Z -> (0 <= k2)%Z -> (k1 + k2 <= 98)%Z -> (e1 + e2 <= 950)%Z -> near k1 e1 x r -> near k2 e2 y s -> near (k1 + k2 + 1) (e1 + e2) (fmul x y) (r * s).
  Proof.
    intros P1 P2 P3 P4 N1 N2. pose proof (near_rng k1 e1 x r ltac:(lia) N1) as R1. pose proof (near_rng k2 e2 y s ltac:(lia) N2) as R2. destruct N1 as (F1 & G1 & d1 & D1 & E1). destruct N2 as (F2 & G2 & d2 & D2 & E2).
    destruct (fmul_rnd x y F1 F2) as (F3 & d3 & D3 & E3). { eapply rng_weaken; [|apply rng_mul; [exact R1|exact R2]]. lia. }
    split; [done|]. split; [by apply rng_mul|]. exists ((1 + d1) * (1 + d2) * (1 + d3) - 1). split.
    - rewrite !plus_IZR. apply err3; try done; try (apply IZR_le; lia). rewrite <- plus_IZR. apply IZR_le. lia.
    - rewrite E3, E1, E2. ring.
  Qed.
  Lemma near_div k1 k2 e1 e2 x y r s : (0 <= k1)%Z -> (0 <= k2)%Z -> (k1 + k2 <= 98)%Z -> (e1 + e2 <= 950)%Z -> s <> 0 -> near k1 e1 x r -> near k2 e2 y s -> near (k1 + k2 + 1) (e1 + e2) (fdiv x y) (r / s).
  Proof.
    intros P1 P2 P3 P4 Hs N1 N2. pose proof (near_rng k1 e1 x r ltac:(lia) N1) as R1. pose proof (near_rng k2 e2 y s ltac:(lia) N2) as R2. pose proof (near_sign k2 e2 y s ltac:(lia) N2) as [[S1 S2] S3]. destruct N1 as (F1 & G1 & d1 & D1 & E1). destruct N2 as (F2 & G2 & d2 & D2 & E2).
    pose proof (rng_nonneg _ _ G2) as Sp. assert (B2R y <> 0) as Hy by lra.
    destruct (fdiv_rnd x y F1 Hy) as (F3 & d3 & D3 & E3). { eapply rng_weaken; [|apply rng_div; [done|exact R1|exact R2]]. lia. }
    destruct (err_div (IZR k1) (IZR k2) d1 d2 d3) as [Q1 Q2]; try done; try (apply IZR_le; lia). { rewrite <- plus_IZR. apply IZR_le. lia. }
    split; [done|]. split; [by apply rng_div|]. exists ((1 + d1) / (1 + d2) * (1 + d3) - 1). split; [rewrite !plus_IZR; exact Q2|].
    rewrite E3, E1, E2. field. lra.
  Qed.
  Lemma near_add k1 k2 e1 e2 x y r s : (0 <= k1)%Z -> (0 <= k2)%Z -> (Z.max k1 k2 <= 98)%Z -> (0 <= e1 <= 940)%Z -> (0 <= e2 <= 940)%Z -> near k1 e1 x r -> near k2 e2 y s -> near (Z.max k1 k2 + 1) (Z.max e1 e2 + 1) (fadd x y) (r + s).
  Proof.
    intros P1 P2 P3 P4 P5 N1 N2. pose proof (near_rng k1 e1 x r ltac:(lia) N1) as R1. pose proof (near_rng k2 e2 y s ltac:(lia) N2) as R2. apply (near_weaken _ (Z.max k1 k2) _ e1) in N1; [|lia|lia]. apply (near_weaken _ (Z.max k1 k2) _ e2) in N2; [|lia|lia]. set (k := Z.max k1 k2) in *. destruct N1 as (F1 & G1 & d1 & D1 & E1). destruct N2 as (F2 & G2 & d2 & D2 & E2).
    destruct (fadd_rnd x y F1 F2) as (F3 & d3 & D3 & E3). { eapply rng_weaken; [|apply rng_add; [| |exact R1|exact R2]]; lia. }
    split; [done|]. split; [apply rng_add; try done; lia|]. pose proof (rng_nonneg _ _ G1) as H1. pose proof (rng_nonneg _ _ G2) as H2.
    destruct (Req_dec (r + s) 0) as [Z0|Z0].
    { exists 0. rewrite Rabs_R0. split; [apply Rmult_le_pos; [apply IZR_le; lia|unfold w; lra]|]. assert (r = 0) by lra. assert (s = 0) by lra. rewrite E3, E1, E2. subst r s. ring. }
    set (d := (r * d1 + s * d2) / (r + s)). assert (Rabs d <= IZR k * w) as Hd.
    { unfold d, Rdiv. rewrite Rabs_mult, (Rabs_right (/ (r + s))) by (apply Rle_ge, Rlt_le, Rinv_0_lt_compat; lra). apply (Rmult_le_reg_r (r + s)); [lra|]. rewrite Rmult_assoc, Rinv_l, Rmult_1_r by done. eapply Rle_trans; [apply Rabs_triang|]. rewrite !Rabs_mult, (Rabs_right r), (Rabs_right s) by lra.
      pose proof (Rmult_le_compat_l r _ _ H1 D1). pose proof (Rmult_le_compat_l s _ _ H2 D2). lra. }
    exists ((1 + d) * (1 + 0) * (1 + d3) - 1). split.
    - replace (IZR (k + 1)) with (IZR k + 0 + 1) by (rewrite plus_IZR; lra). apply err3; try done; [apply IZR_le; lia|lra|assert (IZR k <= IZR 98) by (apply IZR_le; lia); lra|rewrite Rabs_R0; lra].
    - rewrite E3, E1, E2. unfold d. field. done.
  Qed.
End ops.

(** *** Integers and constants *)
Lemma pos_cast (z : Z) : (0 <= z)%Z -> 0 <= IZR z.
Proof. intros H. by apply IZR_le. Qed.
Lemma rng_int z : (0 <= z < 2 ^ 53)%Z -> rng 53 (IZR z).
Proof.
  intros [H1 H2]. destruct (Z.eq_dec z 0) as [->|N]; [by left|]. right. split.
  - apply (Rle_trans _ 1); [|apply IZR_le; lia]. change 1 with (bpow radix2 0). apply bpow_mono. lia.
  - change (bpow radix2 53) with (IZR (2 ^ 53)). apply IZR_le. lia.
Qed.
Lemma fmt_int z : (0 <= z < 2 ^ 53)%Z -> rnd (IZR z) = IZR z.
Proof.
  intros [H1 H2]. apply round_generic; [apply valid_rnd_N|]. change (SpecFloat.fexp prec64 emax64) with (FLT_exp (-1074) 53). apply generic_format_FLT. apply (FLT_spec _ _ _ _ (Float radix2 z 0)).
  - unfold F2R. cbn. lra.
  - cbn [Fnum]. rewrite Z.abs_eq by done. exact H2.
  - cbn [Fexp]. lia.
Qed.
Lemma int_lt z : (0 <= z < 2 ^ 53)%Z -> Rabs (IZR z) < bpow radix2 1024.
Proof. intros [H1 H2]. rewrite Rabs_right by (apply Rle_ge, IZR_le; done). apply (Rlt_trans _ (bpow radix2 53)); [change (bpow radix2 53) with (IZR (2 ^ 53)); by apply IZR_lt|apply bpow_lt; lia]. Qed.
Lemma of_Z_exact z : (0 <= z < 2 ^ 53)%Z -> is_finite (f64_of_Z z) = true /\ B2R (f64_of_Z z) = IZR z.
Proof.
  intros H. unfold f64_of_Z, f64_scale. pose proof (binary_normalize_correct prec64 emax64 _ _ mode_NE z 0 false) as K. cbn [round_mode] in K.
  assert (F2R (Float radix2 z 0) = IZR z) as E by (unfold F2R; cbn; lra). rewrite E, (fmt_int z H) in K. rewrite Rlt_bool_true in K by (by apply int_lt). destruct K as (K1 & K2 & _). done.
Qed.
Lemma near_int z : (0 <= z < 2 ^ 53)%Z -> near 0 53 (f64_of_Z z) (IZR z).
Proof. intros H. destruct (of_Z_exact z H) as [F <-]. apply near_exact; [done|]. destruct (of_Z_exact z H) as [_ ->]. by apply rng_int. Qed.
Lemma sub_int a b : (0 <= b <= a)%Z -> (a < 2 ^ 53)%Z -> near 0 53 (Bminus mode_NE (f64_of_Z a) (f64_of_Z b)) (IZR a - IZR b).
Proof.
  intros H1 H2. destruct (of_Z_exact a ltac:(lia)) as [F1 E1]. destruct (of_Z_exact b ltac:(lia)) as [F2 E2].
  pose proof (Bminus_correct prec64 emax64 _ _ mode_NE _ _ F1 F2) as K. cbn [round_mode] in K. rewrite E1, E2, <- minus_IZR, fmt_int in K by lia. rewrite Rlt_bool_true in K by (apply int_lt; lia). destruct K as (K1 & K2 & _).
  rewrite <- minus_IZR, <- K1. apply near_exact; [done|]. rewrite K1. apply rng_int. lia.
Qed.
Lemma B2R_pos m e H : B2R (B754_finite (prec := prec64) (emax := emax64) false m e H) = IZR (Z.pos m) * bpow radix2 e.
Proof. reflexivity. Qed.
Lemma near_val (x : f64) r (e : Z) : is_finite x = true -> B2R x = r -> rng e r -> near 0 e x r.
Proof. intros H1 <- H3. by apply near_exact. Qed.
Lemma half_val : is_finite (f64_scale 1 (-1)) = true /\ B2R (f64_scale 1 (-1)) = 1 / 2.
Proof. split; [reflexivity|]. rewrite <- SF2R_B2SF. replace (B2SF (f64_scale 1 (-1))) with (SpecFloat.S754_finite false 4503599627370496 (-53)) by (vm_compute; reflexivity). unfold SF2R, F2R. cbn [Fnum Fexp cond_Zopp]. change (bpow radix2 (-53)) with (/ 9007199254740992). lra. Qed.
Lemma b_val : is_finite (f64_scale 3 (-2)) = true /\ B2R (f64_scale 3 (-2)) = 3 / 4.
Proof. split; [reflexivity|]. rewrite <- SF2R_B2SF. replace (B2SF (f64_scale 3 (-2))) with (SpecFloat.S754_finite false 6755399441055744 (-53)) by (vm_compute; reflexivity). unfold SF2R, F2R. cbn [Fnum Fexp cond_Zopp]. change (bpow radix2 (-53)) with (/ 9007199254740992). lra. Qed.
Lemma k1_val : is_finite (f64_scale 5404319552844595 (-52)) = true /\ B2R (f64_scale 5404319552844595 (-52)) = 5404319552844595 / 4503599627370496.
Proof. split; [reflexivity|]. rewrite <- SF2R_B2SF. replace (B2SF (f64_scale 5404319552844595 (-52))) with (SpecFloat.S754_finite false 5404319552844595 (-52)) by (vm_compute; reflexivity). unfold SF2R, F2R. cbn [Fnum Fexp cond_Zopp]. change (bpow radix2 (-52)) with (/ 4503599627370496). lra. Qed.
Lemma quarter_val : is_finite (Bminus mode_NE (f64_of_Z 1) (f64_scale 3 (-2))) = true /\ B2R (Bminus mode_NE (f64_of_Z 1) (f64_scale 3 (-2))) = 1 / 4.
Proof. split; [reflexivity|]. rewrite <- SF2R_B2SF. replace (B2SF (Bminus mode_NE (f64_of_Z 1) (f64_scale 3 (-2)))) with (SpecFloat.S754_finite false 4503599627370496 (-54)) by (vm_compute; reflexivity). unfold SF2R, F2R. cbn [Fnum Fexp cond_Zopp]. change (bpow radix2 (-54)) with (/ 18014398509481984). lra. Qed.
Lemma rng_small r e : (0 <= e)%Z -> / 4 <= r <= 4 -> rng (e + 2) r.
Proof. intros He H. apply (rng_weaken 2); [lia|]. right. change (bpow radix2 (- (2))) with (/ 4). change (bpow radix2 2) with 4. lra. Qed.
Lemma near_half : near 0 2 (f64_scale 1 (-1)) (1 / 2).
Proof. destruct half_val. apply near_val; [done|done|]. apply (rng_small _ 0); [lia|lra]. Qed.
Lemma near_b : near 0 2 (f64_scale 3 (-2)) (3 / 4).
Proof. destruct b_val. apply near_val; [done|done|]. apply (rng_small _ 0); [lia|lra]. Qed.
Lemma near_quarter : near 0 2 (Bminus mode_NE (f64_of_Z 1) (f64_scale 3 (-2))) (1 - 3 / 4).
Proof. destruct quarter_val. apply near_val; [done|lra|]. apply (rng_small _ 0); [lia|lra]. Qed.
Lemma near_k1 : near 1 2 (f64_scale 5404319552844595 (-52)) (6 / 5).
Proof.
  destruct k1_val as [F E]. split; [done|]. split; [apply (rng_small _ 0); [lia|lra]|]. exists (B2R (f64_scale 5404319552844595 (-52)) / (6 / 5) - 1). rewrite E. split; [|lra].
  rewrite Rabs_left1 by lra. unfold w. lra.
Qed.
Lemma near_one : near 0 2 (f64_of_Z 1) 1.
Proof. destruct (of_Z_exact 1 ltac:(lia)) as [F E]. apply near_val; [done|done|]. apply (rng_small _ 0); [lia|lra]. Qed.

Section score.
  Notation fmul := (Bmult (prec := prec64) (emax := emax64) mode_NE).
  Notation fdiv := (Bdiv (prec := prec64) (emax := emax64) mode_NE).
  Notation fadd := (Bplus (prec := prec64) (emax := emax64) mode_NE).
  Notation fsub := (Bminus (prec := prec64) (emax := emax64) mode_NE).
  Notation fi := f64_of_Z.
  Notation k1 := (f64_scale 5404319552844595 (-52)).
  Notation b := (f64_scale 3 (-2)).
  Notation half := (f64_scale 1 (-1)).

  Lemma near_avg len size : (0 < len < 2 ^ 53)%Z -> (0 < size < 2 ^ 53)%Z -> near 1 106 (fdiv (fi len) (fi size)) (IZR len / IZR size).
  Proof. intros H1 H2. apply (near_div 0 0 53 53); try lia; try (apply near_int; lia). apply not_0_IZR. lia. Qed.
  Lemma near_ratio avg ravg f len : near 1 106 avg ravg -> 0 < ravg -> (0 <= f < 2 ^ 53)%Z -> (0 <= len < 2 ^ 53)%Z ->
    near 11 221 (fdiv (fmul (fi f) (fadd k1 (fi 1))) (fadd (fi f) (fmul k1 (fadd (fsub (fi 1) b) (fmul b (fdiv (fi len) avg))))))
      (IZR f * (6 / 5 + 1) / (IZR f + 6 / 5 * ((1 - 3 / 4) + 3 / 4 * (IZR len / ravg)))).
  Proof.
    intros Ha Hp Hf Hl.
    assert (near 2 159 (fdiv (fi len) avg) (IZR len / ravg)) as N1. { apply (near_div 0 1 53 106); try lia; [lra|by apply near_int|done]. }
    assert (near 3 161 (fmul b (fdiv (fi len) avg)) (3 / 4 * (IZR len / ravg))) as N2. { apply (near_mul 0 2 2 159); try lia; [apply near_b|done]. }
    assert (near 4 162 (fadd (fsub (fi 1) b) (fmul b (fdiv (fi len) avg))) ((1 - 3 / 4) + 3 / 4 * (IZR len / ravg))) as N3. { apply (near_add 0 3 2 161); try lia; [apply near_quarter|done]. }
    assert (near 6 164 (fmul k1 (fadd (fsub (fi 1) b) (fmul b (fdiv (fi len) avg)))) (6 / 5 * ((1 - 3 / 4) + 3 / 4 * (IZR len / ravg)))) as N4. { apply (near_mul 1 4 2 162); try lia; [apply near_k1|done]. }
    assert (near 7 165 (fadd (fi f) (fmul k1 (fadd (fsub (fi 1) b) (fmul b (fdiv (fi len) avg))))) (IZR f + 6 / 5 * ((1 - 3 / 4) + 3 / 4 * (IZR len / ravg)))) as N5. { apply (near_add 0 6 53 164); try lia; [by apply near_int|done]. }
    assert (near 2 3 (fadd k1 (fi 1)) (6 / 5 + 1)) as N6. { apply (near_add 1 0 2 2); try lia; [apply near_k1|apply near_one]. }
    assert (near 3 56 (fmul (fi f) (fadd k1 (fi 1))) (IZR f * (6 / 5 + 1))) as N7. { apply (near_mul 0 2 53 3); try lia; [by apply near_int|done]. }
    apply (near_div 3 7 56 165); try lia; [|done|done].
    assert (0 <= IZR len / ravg). { apply Rmult_le_pos; [apply pos_cast; lia|]. apply Rlt_le, Rinv_0_lt_compat. done. } pose proof (pos_cast f ltac:(lia)). lra.
  Qed.
  Lemma ratio_le ravg f len : 0 < ravg -> (0 <= f)%Z -> (0 <= len)%Z -> 0 <= IZR f * (6 / 5 + 1) / (IZR f + 6 / 5 * ((1 - 3 / 4) + 3 / 4 * (IZR len / ravg))) <= 11 / 5.
  Proof.
    intros Hp Hf Hl. assert (0 <= IZR len / ravg). { apply Rmult_le_pos; [by apply pos_cast|]. apply Rlt_le, Rinv_0_lt_compat. done. } pose proof (pos_cast f Hf). set (x := IZR len / ravg) in *. set (den := IZR f + 6 / 5 * ((1 - 3 / 4) + 3 / 4 * x)). assert (0 < den) by (unfold den; lra). assert (IZR f <= den) by (unfold den; lra). split.
    - apply Rmult_le_pos; [lra|]. apply Rlt_le, Rinv_0_lt_compat. done.
    - apply (Rmult_le_reg_r den); [done|]. unfold Rdiv at 1. rewrite Rmult_assoc, Rinv_l by lra. lra.
  Qed.

  (** *** The logarithm *)
  Lemma ln_le_minus z : 0 < z -> ln z <= z - 1.
  Proof. intros H. pose proof (exp_ineq1_le (ln z)) as K. rewrite exp_ln in K by done. lra. Qed.
  Lemma ln_ge_minus z : 0 < z -> 1 - / z <= ln z.
  Proof. intros H. pose proof (ln_le_minus (/ z) (Rinv_0_lt_compat _ H)) as K. rewrite ln_Rinv in K by done. lra. Qed.
  Lemma ln_pow2 (n : nat) : ln (bpow radix2 (Z.of_nat n)) <= INR n.
  Proof.
    induction n as [|n IH]; [change (bpow radix2 (Z.of_nat 0)) with 1; rewrite ln_1; cbn; lra|]. replace (Z.of_nat (S n)) with (Z.of_nat n + 1)%Z by lia. rewrite bpow_plus. change (bpow radix2 1) with 2. rewrite ln_mult; [|apply bpow_gt_0|lra]. rewrite S_INR. pose proof (ln_le_minus 2 ltac:(lra)). lra.
  Qed.
  Lemma ln_rel x d : 0 < x -> Rabs d <= 4 * w -> Rabs (ln (x * (1 + d)) - ln x) <= 8 * w.
  Proof.
    intros Hx Hd. assert (- (4 * w) <= d <= 4 * w) as [D1 D2] by (unfold Rabs in Hd; destruct (Rcase_abs d); lra). assert (w <= / 1000) by (unfold w; lra). pose proof w_pos. rewrite ln_mult by lra. replace (ln x + ln (1 + d) - ln x) with (ln (1 + d)) by ring.
    pose proof (ln_le_minus (1 + d) ltac:(lra)). pose proof (ln_ge_minus (1 + d) ltac:(lra)) as L. assert (- (8 * w) <= 1 - / (1 + d)).
    { assert (/ (1 + d) <= 1 + 8 * w); [|lra]. apply (Rmult_le_reg_r (1 + d)); [lra|]. rewrite Rinv_l by lra. assert (w * (4 * w) <= w * (/ 1000 * 4)) by (apply Rmult_le_compat_l; lra). assert (w * - (4 * w) <= w * d) by (apply Rmult_le_compat_l; lra). lra. }
    apply Rabs_le. lra.
  Qed.
  Definition logarg (total n : Z) : f64 := fadd (fi 1) (fdiv (fadd (fsub (fi total) (fi n)) half) (fadd (fi n) half)).
  Lemma logarg_near total n : (0 <= n <= total)%Z -> (total < 2 ^ 53)%Z -> near 4 109 (logarg total n) (1 + (IZR total - IZR n + 1 / 2) / (IZR n + 1 / 2)).
  Proof.
    intros H1 H2.
    assert (near 1 54 (fadd (fsub (fi total) (fi n)) half) (IZR total - IZR n + 1 / 2)) as N1. { apply (near_add 0 0 53 2); try lia; [by apply sub_int|apply near_half]. }
    assert (near 1 54 (fadd (fi n) half) (IZR n + 1 / 2)) as N2. { apply (near_add 0 0 53 2); try lia; [apply near_int; lia|apply near_half]. }
    assert (IZR n + 1 / 2 <> 0) as N0 by (pose proof (pos_cast n ltac:(lia)); lra).
    assert (near 3 108 (fdiv (fadd (fsub (fi total) (fi n)) half) (fadd (fi n) half)) ((IZR total - IZR n + 1 / 2) / (IZR n + 1 / 2))) as N3. { apply (near_div 1 1 54 54); try lia; done. }
    apply (near_add 0 3 2 108); try lia; [apply near_one|done].
  Qed.
  Lemma logarg_ge total n : (0 <= n <= total)%Z -> (total < 2 ^ 53)%Z -> B2R (logarg total n) = 1 \/ 1 + w <= B2R (logarg total n).
  Proof.
    intros H1 H2.
    assert (near 1 54 (fadd (fsub (fi total) (fi n)) half) (IZR total - IZR n + 1 / 2)) as N1. { apply (near_add 0 0 53 2); try lia; [by apply sub_int|apply near_half]. }
    assert (near 1 54 (fadd (fi n) half) (IZR n + 1 / 2)) as N2. { apply (near_add 0 0 53 2); try lia; [apply near_int; lia|apply near_half]. }
    assert (IZR n + 1 / 2 <> 0) as N0 by (pose proof (pos_cast n ltac:(lia)); lra).
    assert (near 3 108 (fdiv (fadd (fsub (fi total) (fi n)) half) (fadd (fi n) half)) ((IZR total - IZR n + 1 / 2) / (IZR n + 1 / 2))) as N3. { apply (near_div 1 1 54 54); try lia; done. }
    unfold logarg. set (y := fdiv _ _) in *. destruct (of_Z_exact 1 ltac:(lia)) as [F1 E1]. pose proof (near_sign 3 _ _ _ ltac:(lia) N3) as [[S1 _] _]. pose proof (near_rng 3 _ _ _ ltac:(lia) N3) as R3. destruct N3 as (F3 & _).
    pose proof (Bplus_correct prec64 emax64 _ _ mode_NE (fi 1) y F1 F3) as K. cbn [round_mode] in K. rewrite E1 in K.
    assert (rng 960 (1 + B2R y)) as Hr. { eapply rng_weaken; [|apply (rng_add 2 109); [lia|lia|apply (rng_small 1 0); [lia|lra]|exact R3]]. lia. }
    destruct (rnd_error _ Hr) as (_ & _ & _ & D3). rewrite Rlt_bool_true in K by exact D3. destruct K as (K1 & _ & _). rewrite K1.
    assert (rnd 1 = 1) as R1 by (apply (fmt_int 1); lia).
    assert (1 <= rnd (1 + B2R y)) as G. { rewrite <- R1 at 1. apply round_le; [exact fexp_valid|apply valid_rnd_N|lra]. }
    destruct (Rle_lt_or_eq_dec _ _ G) as [L|E]; [right|by left].
    assert (succ radix2 (SpecFloat.fexp prec64 emax64) 1 = 1 + w) as Es. { rewrite succ_eq_pos by lra. f_equal. change 1 with (bpow radix2 0). rewrite ulp_bpow. change (SpecFloat.fexp prec64 emax64 (0 + 1)) with (-52)%Z. apply w_bpow. }
    rewrite <- Es. apply succ_le_lt; [exact fexp_valid| | |exact L].
    - rewrite <- R1. apply generic_format_round; [exact fexp_valid|apply valid_rnd_N].
    - apply generic_format_round; [exact fexp_valid|apply valid_rnd_N].
  Qed.
  Variable flog : f64 -> f64.
  Hypothesis Hlog : accurate_log flog.
  Notation rx total n := (1 + (IZR total - IZR n + 1 / 2) / (IZR n + 1 / 2)).
  Lemma rx_bounds total n : (0 <= n <= total)%Z -> (total < 2 ^ 53)%Z -> 1 <= rx total n <= bpow radix2 55.
  Proof using.
    intros H1 H2. pose proof (pos_cast n ltac:(lia)) as Hn. assert (0 <= IZR total - IZR n) by (rewrite <- minus_IZR; apply pos_cast; lia). assert (IZR total <= bpow radix2 53) by (change (bpow radix2 53) with (IZR (2 ^ 53)); apply IZR_le; lia).
    assert (0 < / (IZR n + 1 / 2)) by (apply Rinv_0_lt_compat; lra). assert (/ (IZR n + 1 / 2) <= 2). { replace 2 with (/ (/ 2)) by lra. apply Rinv_le_contravar; lra. } split.
    - assert (0 <= (IZR total - IZR n + 1 / 2) / (IZR n + 1 / 2)); [|lra]. apply Rmult_le_pos; lra.
    - assert ((IZR total - IZR n + 1 / 2) / (IZR n + 1 / 2) <= (bpow radix2 53 + 1 / 2) * 2). { apply Rmult_le_compat; lra. } assert (bpow radix2 55 = 4 * bpow radix2 53) as -> by (change 55%Z with (2 + 53)%Z; rewrite bpow_plus; done). assert (1 <= bpow radix2 53) by (change 1 with (bpow radix2 0); apply bpow_mono; lia). lra.
  Qed.
  Lemma idf_err total n : (0 <= n <= total)%Z -> (total < 2 ^ 53)%Z ->
    near 0 55 (flog (logarg total n)) (B2R (flog (logarg total n))) /\ B2R (flog (logarg total n)) <= 64 /\ Rabs (B2R (flog (logarg total n)) - ln (rx total n)) <= 128 * w.
  Proof using Hlog.
    intros H1 H2. pose proof (logarg_near total n H1 H2) as Nr. pose proof (logarg_ge total n H1 H2) as G. pose proof (rx_bounds total n H1 H2) as [X1 X2]. pose proof w_pos as Hw. assert (w <= / 1000000) as Hw1 by (unfold w; lra). set (X := logarg total n) in *. set (x := rx total n) in *.
    destruct Nr as (FX & _ & d & D1 & E). assert (1 <= B2R X) as GX by (destruct G as [->|G]; lra). destruct (Hlog X FX GX) as [FL EL]. replace (/ 2251799813685248) with (2 * w) in EL by (unfold w; lra).
    pose proof (ln_rel x d ltac:(lra) D1) as L. rewrite <- E in L. pose proof (ln_pow2 55) as L55. change (Z.of_nat 55) with 55%Z in L55. replace (INR 55) with 55 in L55 by (cbn; lra).
    assert (ln x <= 55). { destruct (Rle_lt_or_eq_dec _ _ X2) as [Lt| ->]; [|done]. apply Rlt_le. eapply Rlt_le_trans; [apply ln_increasing; [lra|exact Lt]|done]. }
    assert (0 <= ln (B2R X)) as L0. { destruct (Rle_lt_or_eq_dec _ _ GX) as [Lt|<-]; [|rewrite ln_1; lra]. rewrite <- ln_1. apply Rlt_le, ln_increasing; lra. }
    apply Rabs_le_inv in L. assert (ln (B2R X) <= 56) as L56 by lra. assert (2 * w * ln (B2R X) <= 2 * w * 56) by (apply Rmult_le_compat_l; lra).
    split; [|split].
    - apply near_exact; [done|]. destruct G as [G|G].
      + left. rewrite G, ln_1 in EL. apply Rabs_le_inv in EL. lra.
      + right. pose proof (ln_ge_minus (B2R X) ltac:(lra)) as K. assert (/ B2R X <= / (1 + w)) by (apply Rinv_le_contravar; lra). assert (/ (1 + w) <= 1 - w / 2). { apply (Rmult_le_reg_r (1 + w)); [lra|]. rewrite Rinv_l by lra. assert (w * w <= w * / 1000000) by (apply Rmult_le_compat_l; lra). lra. }
        assert (w / 2 <= ln (B2R X)) by lra. assert (w / 4 <= B2R (flog X)). { apply Rabs_le_inv in EL. assert (2 * w * ln (B2R X) <= / 2 * ln (B2R X)) by (apply Rmult_le_compat_r; lra). lra. }
        split; [|apply Rabs_le_inv in EL; change (bpow radix2 55) with (IZR (2 ^ 55)); assert (IZR 57 <= IZR (2 ^ 55)) by (apply IZR_le; lia); lra].
        apply (Rle_trans _ (w / 4)); [|done]. change (- (55))%Z with (-3 + -52)%Z. rewrite bpow_plus, w_bpow. change (bpow radix2 (-3)) with (/ 8). lra.
    - apply Rabs_le_inv in EL. lra.
    - replace (B2R (flog X) - ln x) with ((B2R (flog X) - ln (B2R X)) + (ln (B2R X) - ln x)) by ring. eapply Rle_trans; [apply Rabs_triang|]. assert (Rabs (ln (B2R X) - ln x) <= 8 * w) by (apply Rabs_le; lra). lra.
  Qed.
  Notation F := (float_ops flog).
  Lemma boost_near boost : boost_ok boost -> near 0 500 (bm25_boost F boost) (boost_of boost) /\ 0 < boost_of boost <= bpow radix2 500.
  Proof using.
    intros [Fb Hb]. unfold bm25_boost, boost_of. cbn [neqb of_int float_ops num]. destruct (of_Z_exact 0 ltac:(lia)) as [F0 E0].
    rewrite (Beqb_correct _ _ boost (f64_of_Z 0)) by done. rewrite E0. destruct (Req_EM_T (B2R boost) 0) as [E|E].
    - rewrite Req_bool_true by done. split; [eapply near_weaken; [| |exact near_one]; lia|]. split; [lra|]. change 1 with (bpow radix2 0). apply bpow_mono. lia.
    - rewrite Req_bool_false by done. destruct Hb as [?|[B1 B2]]; [done|]. pose proof (bpow_gt_0 radix2 (-500)). split; [|lra]. apply near_exact; [done|]. right. change (- (500))%Z with (-500)%Z. lra.
  Qed.
  (** A computed number and the number it stands for: at most [B], error at most [eps]. *)
  Definition close (B eps : R) (x : f64) (r : R) : Prop :=
    is_finite x = true /\ (B2R x = 0 \/ bpow radix2 (-900) <= B2R x) /\ B2R x <= B /\ Rabs (B2R x - r) <= eps.
  Lemma term_err beta bo avg ravg total nft fld t : near 0 500 bo beta -> 0 < beta -> near 1 106 avg ravg -> 0 < ravg ->
    (total < 2 ^ 53)%Z -> (0 <= geti nft t <= total)%Z -> small_field fld ->
    close (256 * beta) (4096 * w * beta) (bm25_term F k1 b bo avg (fi total) nft fld t) (bm25_term real_ops (6 / 5) (3 / 4) beta ravg (IZR total) nft fld t).
  Proof using Hlog.
    intros Nb Hb Na Ha Ht Hn [Hl Hf]. specialize (Hf t). unfold bm25_term, idf_bm25. cbn [float_ops real_ops num of_int nadd nsub nmul ndiv nlog n_half].
    pose proof (near_ratio avg ravg (geti (f_tf fld) t) (f_length fld) Na Ha Hf Hl) as Nr. pose proof (ratio_le ravg (geti (f_tf fld) t) (f_length fld) Ha ltac:(lia) ltac:(lia)) as [R0 R1].
    destruct (idf_err total (geti nft t) Hn Ht) as (NI & I1 & I2). unfold logarg in *.
    set (I := flog _) in *. set (ra := fdiv (fmul (fi (geti (f_tf fld) t)) _) _) in *. set (rho := IZR _ * (6 / 5 + 1) / _) in *. set (ridf := ln _) in *.
    pose proof (near_mul 0 0 500 55 _ _ _ _ ltac:(lia) ltac:(lia) ltac:(lia) ltac:(lia) Nb NI) as N1. cbn [Z.add] in N1.
    pose proof (near_mul (0 + 0 + 1) 11 (500 + 55) 221 _ _ _ _ ltac:(lia) ltac:(lia) ltac:(lia) ltac:(lia) N1 Nr) as N2.
    pose proof (near_rng (0 + 0 + 1 + 11 + 1) _ _ _ ltac:(lia) N2) as R2. set (T := fmul (fmul bo I) ra) in *. set (L := B2R I) in *. destruct N2 as (FT & _ & d & D & E). replace (IZR (0 + 0 + 1 + 11 + 1)) with 13 in D by reflexivity.
    assert (0 <= L) as HL by (destruct NI as (_ & G & _); by eapply rng_nonneg).
    assert (0 <= beta * L * rho <= beta * (64 * (11 / 5))) as [P0 P1]. { split; [apply Rmult_le_pos; [apply Rmult_le_pos; lra|lra]|]. rewrite Rmult_assoc. apply Rmult_le_compat_l; [lra|]. apply Rmult_le_compat; lra. }
    pose proof w_pos as Hw. assert (w <= / 1000000) as Hw1 by (unfold w; lra). apply Rabs_le_inv in D. set (P := beta * L * rho) in *.
    assert (P * d <= P * (13 * w)) as D1 by (apply Rmult_le_compat_l; lra). assert (P * - (13 * w) <= P * d) as D2 by (apply Rmult_le_compat_l; lra). assert (w * P <= w * (beta * (64 * (11 / 5)))) as D3 by (apply Rmult_le_compat_l; lra).
    split; [done|]. split; [|split].
    - destruct R2 as [R2|[R2 _]]; [by left|right]. eapply Rle_trans; [|exact R2]. apply bpow_mono. lia.
    - rewrite E. assert (w * beta <= / 1000000 * beta) by (apply Rmult_le_compat_r; lra). lra.
    - rewrite E. replace (P * (1 + d) - beta * ridf * rho) with (P * d + beta * rho * (L - ridf)) by (unfold P; ring).
      assert (Rabs (beta * rho * (L - ridf)) <= beta * (11 / 5) * (128 * w)) as Q. { rewrite Rabs_mult. apply Rmult_le_compat; [apply Rabs_pos|apply Rabs_pos| |done]. rewrite Rabs_right by (apply Rle_ge, Rmult_le_pos; lra). apply Rmult_le_compat_l; lra. }
      apply Rabs_le_inv in Q. apply Rabs_le. lra.
  Qed.
  Lemma fadd_full x y : is_finite x = true -> is_finite y = true -> rng 960 (B2R x + B2R y) ->
    is_finite (fadd x y) = true /\ B2R (fadd x y) = rnd (B2R x + B2R y) /\ exists d, Rabs d <= w / 2 /\ B2R (fadd x y) = (B2R x + B2R y) * (1 + d).
  Proof using.
    intros F1 F2 H. destruct (rnd_error _ H) as (d & D1 & D2 & D3). pose proof (Bplus_correct prec64 emax64 _ _ mode_NE x y F1 F2) as K. cbn [round_mode] in K. rewrite Rlt_bool_true in K by exact D3. destruct K as (K1 & K2 & _). split; [exact K2|]. split; [exact K1|]. exists d. split; [done|]. by rewrite K1.
  Qed.
  Lemma close_nonneg B eps x r : close B eps x r -> 0 <= B2R x.
  Proof using. intros (_ & [->|H] & _); [lra|]. pose proof (bpow_gt_0 radix2 (-900)). lra. Qed.
  Lemma sum_step B eps n acc racc x r : 0 <= B <= bpow radix2 800 -> 0 <= eps -> 0 <= n -> n + 1 <= bpow radix2 50 ->
    close (n * B * (1 + n * w)) (n * eps + n * n * B * w) acc racc -> close B eps x r ->
    close ((n + 1) * B * (1 + (n + 1) * w)) ((n + 1) * eps + (n + 1) * (n + 1) * B * w) (fadd acc x) (racc + r).
  Proof using.
    intros HB He Hn Hn1 C1 C2. pose proof (close_nonneg _ _ _ _ C1) as P1. pose proof (close_nonneg _ _ _ _ C2) as P2. destruct C1 as (F1 & Z1 & U1 & E1). destruct C2 as (F2 & Z2 & U2 & E2). pose proof w_pos as Hw.
    assert (bpow radix2 50 * w = / 4) as Hbw by (rewrite <- w_bpow, <- bpow_plus; reflexivity).
    assert (n * w <= / 4) as Hnw by (rewrite <- Hbw; apply Rmult_le_compat_r; lra). assert (0 <= n * w) by (apply Rmult_le_pos; lra).
    set (M := n * B * (1 + n * w)) in *. assert (0 <= n * B) as HnB by (apply Rmult_le_pos; lra). assert (M <= n * B * 2) as HM by (apply Rmult_le_compat_l; lra).
    assert (n * B <= bpow radix2 50 * bpow radix2 800) as HnB2 by (apply Rmult_le_compat; lra). assert (bpow radix2 50 * bpow radix2 800 = bpow radix2 850) as E850 by (rewrite <- bpow_plus; reflexivity). rewrite E850 in HnB2.
    assert (B2R acc + B2R x <= bpow radix2 960) as Hup. { pose proof (bpow_mono 800 850 ltac:(lia)). assert (4 * bpow radix2 850 = bpow radix2 852) by (change 852%Z with (2 + 850)%Z; rewrite bpow_plus; reflexivity). pose proof (bpow_mono 852 960 ltac:(lia)). lra. }
    pose proof (bpow_mono (-960) (-900) ltac:(lia)).
    assert (rng 960 (B2R acc + B2R x)) as Hr. { destruct Z1 as [Z1|Z1]; [destruct Z2 as [Z2|Z2]; [left; lra|]|]; right; change (- (960))%Z with (-960)%Z; lra. }
    destruct (fadd_full acc x F1 F2 Hr) as (F3 & E3 & d & D & E4). apply Rabs_le_inv in D. set (S := B2R acc + B2R x) in *. assert (0 <= S) by (unfold S; lra).
    assert (S * d <= S * (w / 2)) by (apply Rmult_le_compat_l; lra). assert (S * - (w / 2) <= S * d) by (apply Rmult_le_compat_l; lra).
    assert (S <= M + B) as HS by (unfold S; lra). assert (M + B <= (n + 1) * B * (1 + n * w)) as HMB. { unfold M. assert (0 <= B * (n * w)) by (apply Rmult_le_pos; lra). lra. } assert (0 <= (n + 1) * B) by (apply Rmult_le_pos; lra).
    assert ((n + 1) * B * (1 + n * w) <= (n + 1) * B * 2) as HM2 by (apply Rmult_le_compat_l; lra). assert (S * w <= (n + 1) * B * 2 * w) as HSw by (apply Rmult_le_compat_r; lra). assert (S * w <= (n + 1) * B * (1 + n * w) * w) as HSw' by (apply Rmult_le_compat_r; lra).
    split; [done|]. split; [|split].
    - destruct (Req_dec S 0) as [S0|S0]; [left; rewrite E4, S0; ring|right]. rewrite E3. apply round_ge_generic; [exact fexp_valid|apply valid_rnd_N| |].
      + apply generic_format_bpow. change (SpecFloat.fexp prec64 emax64 (-900 + 1)) with (-952)%Z. lia.
      + destruct Z1 as [Z1|Z1]; [destruct Z2 as [Z2|Z2]; [unfold S in S0; lra|]|]; unfold S; lra.
    - rewrite E4. assert ((n + 1) * B * (n * w) * w <= (n + 1) * B * / 4 * w). { apply Rmult_le_compat_r; [lra|]. apply Rmult_le_compat_l; lra. } assert (0 <= (n + 1) * B * w) by (apply Rmult_le_pos; lra). lra.
    - rewrite E4. apply Rabs_le_inv in E1, E2. assert (0 <= n * B * w) by (apply Rmult_le_pos; lra). assert (0 <= B * w) by (apply Rmult_le_pos; lra). apply Rabs_le. unfold S in *. lra.
  Qed.
  Lemma close_mono B B' eps eps' x r : B <= B' -> eps <= eps' -> close B eps x r -> close B' eps' x r.
  Proof using. intros H1 H2 (A1 & A2 & A3 & A4). split; [done|]. split; [done|]. split; lra. Qed.
  Lemma sum_close_acc B eps xs rs : 0 <= B <= bpow radix2 800 -> 0 <= eps -> Forall2 (close B eps) xs rs -> forall n acc racc, 0 <= n -> n + INR (length xs) <= bpow radix2 50 ->
    close (n * B * (1 + n * w)) (n * eps + n * n * B * w) acc racc ->
    exists m, m = n + INR (length xs) /\ close (m * B * (1 + m * w)) (m * eps + m * m * B * w) (fold_left fadd xs acc) (racc + rsum rs).
  Proof using.
    intros HB He H. induction H as [|x r xs rs Hx H IH]; intros n acc racc Hn Hn1 Hc.
    - exists n. cbn. split; [ring|]. by rewrite Rplus_0_r.
    - cbn [length] in Hn1. rewrite S_INR in Hn1. pose proof (pos_INR (length xs)). cbn [fold_left]. destruct (IH (n + 1) (fadd acc x) (racc + r)) as (m & Em & Hm); [lra|lra|apply sum_step; try done; lra|].
      exists m. split; [cbn [length]; rewrite S_INR; lra|]. change (rsum (r :: rs)) with (r + rsum rs). rewrite <- Rplus_assoc. done.
  Qed.
  Lemma close_0 : close 0 0 (fi 0) 0.
  Proof using. destruct (of_Z_exact 0 ltac:(lia)) as [F0 E0]. split; [done|]. rewrite E0. split; [by left|]. split; [lra|]. rewrite Rminus_0_r, Rabs_R0. lra. Qed.
  Lemma sum_close B eps xs rs N : 0 <= B <= bpow radix2 800 -> 0 <= eps -> Forall2 (close B eps) xs rs -> INR (length xs) <= N -> N <= bpow radix2 50 ->
    close (N * B * 2) (N * eps + N * N * B * w) (sum_num F xs) (rsum rs).
  Proof using.
    intros HB He H HN HN1. pose proof (pos_INR (length xs)) as P. destruct (sum_close_acc B eps xs rs HB He H 0 (fi 0) 0) as (m & Em & Hm); [lra|lra| |].
    - rewrite !Rmult_0_l, Rplus_0_r. apply close_0.
    - rewrite Rplus_0_l in Em. rewrite Rplus_0_l in Hm. subst m. pose proof w_pos. eapply close_mono; [| |exact Hm].
      + assert (bpow radix2 50 * w = / 4) as Hbw by (rewrite <- w_bpow, <- bpow_plus; reflexivity). assert (INR (length xs) * w <= bpow radix2 50 * w) by (apply Rmult_le_compat_r; lra). apply Rmult_le_compat; [apply Rmult_le_pos; lra| | |lra].
        * assert (0 <= INR (length xs) * w) by (apply Rmult_le_pos; lra). lra.
        * apply Rmult_le_compat_r; lra.
      + assert (INR (length xs) * eps <= N * eps) by (apply Rmult_le_compat_r; lra). assert (INR (length xs) * INR (length xs) <= N * N) by (apply Rmult_le_compat; lra). assert (INR (length xs) * INR (length xs) * (B * w) <= N * N * (B * w)) by (apply Rmult_le_compat_r; [apply Rmult_le_pos; lra|done]). lra.
  Qed.
  Lemma fold_map {A} (g : A -> f64) l : forall acc, fold_left (fun s t => fadd s (g t)) l acc = fold_left fadd (map g l) acc.
  Proof using. induction l as [|x l IH]; intros acc; cbn; [done|]. apply IH. Qed.
  Lemma fold_map_r {A} (g : A -> R) l : forall acc, fold_left (fun s t => s + g t) l acc = acc + rsum (map g l).
  Proof using. induction l as [|x l IH]; intros acc; cbn; [ring|]. rewrite IH. change (rsum (g x :: map g l)) with (g x + rsum (map g l)). unfold rsum. ring. Qed.
  Lemma boost_real boost : bm25_boost real_ops (B2R boost) = boost_of boost.
  Proof using. unfold bm25_boost, boost_of. cbn. by destruct (Req_EM_T (B2R boost) 0). Qed.

  Definition terms_err (n beta : R) : R := beta * n * (n + 16) * 256 * w.
  Lemma query_close v (q : query F) fld n beta : small_stats v (q_field q) (q_terms q) -> small_field fld -> boost_ok (q_boost q) -> boost_of (q_boost q) <= beta -> beta <= bpow radix2 500 -> INR (length (q_terms q)) <= n -> n <= bpow radix2 50 ->
    close (n * (256 * beta) * 2) (terms_err n beta) (query_score F v q fld) (query_score real_ops v (exact_query q) fld).
  Proof using Hlog.
    intros (S1 & S2 & S3) Hf Hb Hbeta Hbeta2 Hn Hn2. destruct (boost_near _ Hb) as [Nb [B0 B1]]. unfold query_score, bm25. cbn [exact_query q_field q_terms q_boost]. rewrite boost_real.
    cbn [n_k1 n_b float_ops nadd ndiv of_int num real_ops].
    pose proof (near_avg _ _ S2 S1) as Na. assert (0 < IZR (v_length v (q_field q)) / IZR (v_size v (q_field q))) as Ha by (apply Rdiv_lt_0_compat; apply IZR_lt; lia).
    set (avg := fdiv _ _) in *. set (ravg := IZR _ / IZR _) in *. set (be := boost_of (q_boost q)) in *. set (bo := bm25_boost F (q_boost q)) in *. set (nft := v_nft v (q_field q) (q_terms q)) in *. pose proof w_pos as Hw. pose proof (pos_INR (length (q_terms q))) as PL.
    assert (Forall2 (close (256 * beta) (4096 * w * beta)) (map (bm25_term F k1 b bo avg (fi (v_size v (q_field q))) nft fld) (q_terms q)) (map (bm25_term real_ops (6 / 5) (3 / 4) be ravg (IZR (v_size v (q_field q))) nft fld) (q_terms q))) as H2.
    { clear Hn PL. assert (forall t, t ∈ q_terms q -> (0 <= geti nft t <= v_size v (q_field q))%Z) as S3' by exact S3. clear S3. clearbody nft. induction (q_terms q) as [|t l IH]; cbn [map]; constructor.
      - eapply close_mono; [| |eapply (term_err be)]; try done; [lra| |lia|apply S3'; left]. apply Rmult_le_compat_l; lra.
      - apply IH. intros u Hu. apply S3'. by right. }
    rewrite fold_map, fold_map_r. assert (bpow radix2 50 <= bpow radix2 800) by (apply bpow_mono; lia). assert (256 * bpow radix2 500 = bpow radix2 508) as E508 by (change 508%Z with (8 + 500)%Z; rewrite bpow_plus; reflexivity). pose proof (bpow_mono 508 800 ltac:(lia)).
    rewrite Rplus_0_l. eapply close_mono; [| |apply (sum_close (256 * beta) (4096 * w * beta) _ _ n); [lra|apply Rmult_le_pos; lra|exact H2|by rewrite map_length|done]]; [lra|]. unfold terms_err. lra.
  Qed.
  (** *** Several queries *)
  Lemma contributions_close v qs d n beta : (forall q, q ∈ qs -> query_small v n beta q) -> beta <= bpow radix2 500 -> INR n <= bpow radix2 50 ->
    Forall2 (close (INR n * (256 * beta) * 2) (terms_err (INR n) beta)) (contributions F v qs d) (contributions real_ops v (map exact_query qs) d).
  Proof using Hlog.
    intros Hq Hb Hn. induction qs as [|q qs IH]; [constructor|]. unfold contributions in *. cbn [map omap list_omap].
    assert (match contribution F v q d, contribution real_ops v (exact_query q) d with Some x, Some r => close (INR n * (256 * beta) * 2) (terms_err (INR n) beta) x r | None, None => True | _, _ => False end) as H.
    { unfold contribution. cbn [exact_query q_terms q_field]. destruct (matches v (q_terms q) (q_field q) d) eqn:Em; [|done]. destruct (v_fields v [d] (q_field q) !! d) as [x|] eqn:Ex; [|done]. destruct (Hq q ltac:(left)) as (A1 & A2 & A3 & A4). destruct (A4 _ _ Em Ex) as [A5 A6]. apply query_close; try done. by apply le_INR. }
    specialize (IH ltac:(intros q' Hq'; apply Hq; by right)).
    destruct (contribution F v q d), (contribution real_ops v (exact_query q) d); try done. by constructor.
  Qed.
  Lemma contributions_length {N} (v : view) (qs : list (query N)) d : (length (contributions N v qs d) <= length qs)%nat.
  Proof using. unfold contributions. induction qs as [|q qs IH]; cbn; [done|]. destruct (contribution N v q d); cbn; lia. Qed.
  Lemma score_close v qs d n beta : (forall q, q ∈ qs -> query_small v n beta q) -> 0 <= beta <= bpow radix2 500 -> INR n <= bpow radix2 50 -> INR (length qs) <= bpow radix2 50 ->
    let x := sum_num F (contributions F v qs d) in
    is_finite x = true /\ 0 <= B2R x /\ Rabs (B2R x - rsum (contributions real_ops v (map exact_query qs) d)) <= search_err (length qs) n beta.
  Proof using Hlog.
    intros Hq Hb Hn Hm x. pose proof (contributions_close v qs d n beta Hq ltac:(lra) Hn) as H. pose proof (pos_INR n) as Pn. pose proof (pos_INR (length qs)) as Pm. pose proof w_pos as Hw.
    assert (0 <= INR n * beta <= bpow radix2 50 * bpow radix2 500) as [K1 K2]. { split; [apply Rmult_le_pos; lra|]. apply Rmult_le_compat; lra. }
    assert (bpow radix2 50 * bpow radix2 500 * 512 = bpow radix2 559) as E559 by (rewrite <- bpow_plus; change 512 with (bpow radix2 9); rewrite <- bpow_plus; reflexivity). pose proof (bpow_mono 559 800 ltac:(lia)).
    assert (0 <= terms_err (INR n) beta) as He. { unfold terms_err. apply Rmult_le_pos; [|lra]. apply Rmult_le_pos; [|lra]. apply Rmult_le_pos; [|lra]. apply Rmult_le_pos; lra. }
    pose proof (sum_close (INR n * (256 * beta) * 2) (terms_err (INR n) beta) _ _ (INR (length qs)) ltac:(split; lra) He H (le_INR _ _ (contributions_length (N := F) v qs d)) Hm) as C. pose proof (close_nonneg _ _ _ _ C) as P. destruct C as (C1 & _ & _ & C4). split; [done|]. split; [done|].
    eapply Rle_trans; [exact C4|]. unfold search_err, terms_err, Rdiv. replace (/ bpow radix2 43) with (512 * w) by (rewrite <- w_bpow, <- bpow_opp; change 512 with (bpow radix2 9); rewrite <- bpow_plus; reflexivity).
    assert (0 <= beta * INR n * INR n * INR (length qs) * w). { repeat apply Rmult_le_pos; lra. }
    lra.
  Qed.
End score.

(** *** The correctly rounded logarithm *)
Lemma finite_ge1 (x : f64) : is_finite x = true -> 1 <= B2R x -> B2R x = 1 \/ 1 + w <= B2R x.
Proof.
  intros Fx G. destruct (Rle_lt_or_eq_dec _ _ G) as [L|E]; [right|by left].
  assert (rnd 1 = 1) as R1 by (apply (fmt_int 1); lia).
  assert (succ radix2 (SpecFloat.fexp prec64 emax64) 1 = 1 + w) as Es. { rewrite succ_eq_pos by lra. f_equal. change 1 with (bpow radix2 0). rewrite ulp_bpow. change (SpecFloat.fexp prec64 emax64 (0 + 1)) with (-52)%Z. apply w_bpow. }
  rewrite <- Es. apply succ_le_lt; [exact fexp_valid| | |exact L].
  - rewrite <- R1. apply generic_format_round; [exact fexp_valid|apply valid_rnd_N].
  - apply generic_format_B2R.
Qed.
Lemma rounded_ln_accurate : accurate_log rounded_ln.
Proof.
  intros x Fx Hx. pose proof w_pos as Hw. pose proof (abs_B2R_lt_emax prec64 emax64 x) as U. rewrite Rabs_right in U by lra.
  assert (0 <= ln (B2R x)) as L0. { destruct (Rle_lt_or_eq_dec _ _ Hx) as [Lt|<-]; [|rewrite ln_1; lra]. rewrite <- ln_1. apply Rlt_le, ln_increasing; lra. }
  assert (ln (B2R x) <= 1024) as L1. { apply Rlt_le. eapply Rlt_le_trans; [apply ln_increasing; [lra|exact U]|]. pose proof (ln_pow2 1024) as K. change (Z.of_nat 1024) with emax64 in K. eapply Rle_trans; [exact K|]. rewrite INR_IZR_INZ. apply Req_le. reflexivity. }
  assert (rng 960 (ln (B2R x))) as Hr.
  { destruct (finite_ge1 x Fx Hx) as [E|G]; [left; by rewrite E, ln_1|right]. pose proof (ln_ge_minus (B2R x) ltac:(lra)) as K. assert (w <= / 1000) by (unfold w; lra). assert (/ B2R x <= / (1 + w)) by (apply Rinv_le_contravar; lra). assert (/ (1 + w) <= 1 - w / 2). { apply (Rmult_le_reg_r (1 + w)); [lra|]. rewrite Rinv_l by lra. assert (w * w <= w * / 1000) by (apply Rmult_le_compat_l; lra). lra. }
    split; [|apply (Rle_trans _ _ _ L1); change 1024 with (bpow radix2 10); apply bpow_mono; lia].
    apply (Rle_trans _ (w / 2)); [|lra]. apply (Rle_trans _ (bpow radix2 (-53))); [apply bpow_mono; lia|]. change (-53)%Z with (-1 + -52)%Z. rewrite bpow_plus, w_bpow. change (bpow radix2 (-1)) with (/ 2). lra. }
  destruct (rnd_error _ Hr) as (d & D1 & D2 & D3). unfold rounded_ln, f64_scale.
  set (m := ZnearestE _). set (e := cexp _ _ _).
  assert (F2R (Float radix2 m e) = rnd (ln (B2R x))) as E by reflexivity.
  pose proof (binary_normalize_correct prec64 emax64 _ _ mode_NE m e false) as K. cbn [round_mode] in K. rewrite E in K.
  assert (rnd (rnd (ln (B2R x))) = rnd (ln (B2R x))) as E2 by (apply round_generic; [apply valid_rnd_N|apply generic_format_round; [exact fexp_valid|apply valid_rnd_N]]).
  rewrite E2 in K. rewrite Rlt_bool_true in K by exact D3. destruct K as (K1 & K2 & _). split; [exact K2|].
  rewrite D2 in K1. apply (Rle_trans _ (Rabs (ln (B2R x) * (1 + d) - ln (B2R x)))); [rewrite <- K1; apply Rle_refl|]. replace (ln (B2R x) * (1 + d) - ln (B2R x)) with (ln (B2R x) * d) by ring. rewrite Rabs_mult, (Rabs_right (ln (B2R x))) by lra. rewrite Rmult_comm. apply Rmult_le_compat_r; [done|]. apply (Rle_trans _ _ _ D1). unfold w. lra.
Qed.

(** *** The whole search *)
Lemma float_order_weak flog (l : list (doc_score (float_ops flog))) : (forall a, a ∈ l -> is_finite (a.2 : f64) = true) -> strict_weak_on (score_less (float_ops flog)) l.
Proof.
  intros Hf. assert (forall a b, a ∈ l -> b ∈ l -> score_less (float_ops flog) a b = Rlt_bool (B2R (b.2 : f64)) (B2R (a.2 : f64))) as E.
  { intros a b Ha Hb. unfold score_less. cbn [ngtb float_ops]. apply (Bltb_correct prec64 emax64); by apply Hf. }
  split; [|split].
  - intros a Ha. rewrite E by done. apply Rlt_bool_false. lra.
  - intros a b c Ha Hb Hc. rewrite !E by done. intros H1 H2. destruct (Rlt_bool_spec (B2R (b.2 : f64)) (B2R (a.2 : f64))); [|discriminate]. destruct (Rlt_bool_spec (B2R (c.2 : f64)) (B2R (b.2 : f64))); [|discriminate]. apply Rlt_bool_true. lra.
  - intros a b c Ha Hb Hc. rewrite !E by done. intros H1 H2. destruct (Rlt_bool_spec (B2R (b.2 : f64)) (B2R (a.2 : f64))); [discriminate|]. destruct (Rlt_bool_spec (B2R (c.2 : f64)) (B2R (b.2 : f64))); [discriminate|]. apply Rlt_bool_false. lra.
Qed.
Lemma rsum_perm l l' : l ≡ₚ l' -> rsum l = rsum l'.
Proof. induction 1 as [|x l l' H IH|x y l|l1 l2 l3 H1 IH1 H2 IH2]; unfold rsum in *; cbn; [done|by rewrite IH|ring|congruence]. Qed.
Lemma float_search flog ncpu v (qs : list (query (float_ops flog))) s res n beta : accurate_log flog -> fields_pointwise v ->
  (forall q, q ∈ qs -> query_small v n beta q) -> beta <= bpow radix2 500 -> INR n <= bpow radix2 50 -> INR (length qs) <= bpow radix2 50 ->
  rtc (std_step (float_ops flog) ncpu v qs) (std_init (float_ops flog) qs) s -> std_returns (float_ops flog) s res ->
  NoDup res.*1 /\
  (forall d, d ∈ res.*1 <-> exists q, q ∈ qs /\ is_Some (contribution (float_ops flog) v q d)) /\
  (forall d x, (d, x) ∈ res -> finite x /\ 0 <= val x /\ Rabs (val x - exact_score v qs d) <= search_err (length qs) n beta) /\
  (forall i j a b, (i < j)%nat -> res !! i = Some a -> res !! j = Some b ->
     val a.2 >= val b.2 /\ exact_score v qs a.1 >= exact_score v qs b.1 - 2 * search_err (length qs) n beta).
Proof.
  intros Hl Hv Hq Hb Hn Hm Hr Hs. destruct (std_result _ ncpu v Hv qs s res Hr Hs) as (qs' & Hp & ND & Hin & Ho).
  split; [done|]. split.
  { intros d. assert (d ∈ res.*1 <-> contributions (float_ops flog) v qs' d <> []) as ->.
    { rewrite elem_of_list_fmap. split.
      - intros ([d' x] & -> & H). apply Hin in H as [H _]. done.
      - intros H. exists (d, sum_num _ (contributions (float_ops flog) v qs' d)). split; [done|]. apply Hin. done. }
    unfold contributions. split.
    - intros H. destruct (omap _ qs') as [|y l] eqn:E; [done|]. assert (y ∈ omap (fun q => contribution (float_ops flog) v q d) qs') as Hy by (rewrite E; left). apply elem_of_list_omap in Hy as (q & Hq1 & Hq2). exists q. split; [by rewrite <- Hp|by eexists].
    - intros (q & Hq1 & y & Hy) E. rewrite <- Hp in Hq1. assert (y ∈ omap (fun q => contribution (float_ops flog) v q d) qs') as K by (apply elem_of_list_omap; by exists q). rewrite E in K. by apply elem_of_nil in K. }
  assert (forall d x, (d, x) ∈ res -> finite x /\ 0 <= val x /\ Rabs (val x - exact_score v qs d) <= search_err (length qs) n beta) as A.
  { intros d x H. apply Hin in H as [Hne ->].
    assert (0 <= beta) as Hb0. { destruct qs' as [|q qs']; [done|]. destruct (Hq q) as (B1 & B2 & _); [rewrite <- Hp; left|]. destruct (boost_near flog _ B1) as [_ [B3 _]]. lra. }
    destruct (score_close flog Hl v qs' d n beta) as (C1 & C2 & C3); [intros q Hq'; apply Hq; by rewrite <- Hp|lra|done|by rewrite Hp|]. split; [done|]. split; [done|].
    replace (exact_score v qs d) with (rsum (contributions real_ops v (map exact_query qs') d)); [by rewrite <- Hp|]. apply rsum_perm. unfold contributions. rewrite Hp. done. }
  split; [done|]. intros i j a b Hij Hi Hj.
  assert ((a.1, a.2) ∈ res) as Ia by (apply elem_of_list_lookup; exists i; by rewrite <- surjective_pairing). assert ((b.1, b.2) ∈ res) as Ib by (apply elem_of_list_lookup; exists j; by rewrite <- surjective_pairing).
  destruct (A _ _ Ia) as (Fa & _ & Ea). destruct (A _ _ Ib) as (Fb & _ & Eb).
  assert (strict_weak_on (score_less (float_ops flog)) res) as W. { apply float_order_weak. intros [d x] H. by apply (A d x). }
  specialize (Ho W i j a b Hij Hi Hj). cbn [ngtb float_ops] in Ho. rewrite (Bltb_correct prec64 emax64) in Ho by done.
  destruct (Rlt_or_le (val a.2) (val b.2)) as [G|G]; [apply Rlt_bool_true in G; pose proof (eq_trans (eq_sym G) Ho) as X; discriminate X|]. split; [lra|]. apply Rabs_le_inv in Ea, Eb. lra.
Qed.
Lemma memory_small {flog} h m (q : query (float_ops flog)) d x : mem_run mem_new h m -> Forall (fun c => is_save c = true) h ->
  Forall (fun c => small_field (call_field c) /\ (Z.of_nat (size (f_tf (call_field c))) <= f_length (call_field c))%Z) h ->
  (count h < 2 ^ 53)%Z -> (total_length h < 2 ^ 53)%Z -> matches (mem_view m) (q_terms q) (q_field q) d = true -> v_fields (mem_view m) [d] (q_field q) !! d = Some x ->
  small_field x /\ small_stats (mem_view m) (q_field q) (q_terms q).
Proof.
  intros Hr Hsv Hsm Hc Ht Hma Hx. apply Forall_and in Hsm as [Hs1 Hs2].
  destruct (saved_stats h m _ _ _ Hr Hsv Hs2 ltac:(lia) ltac:(lia) Hma) as (A & B & C & _).
  assert (Forall (fun c => (0 <= f_length (call_field c))%Z) h) as Hpos by (eapply Forall_impl; [exact Hs1|]; intros c [K _]; lia).
  split.
  - cbn [v_fields mem_view] in Hx. rewrite (mem_fields_exact h m) in Hx by done. rewrite decide_True in Hx by (by left). rewrite last_saved_filter in Hx. apply fmap_Some in Hx as (c & Hl & ->). apply last_Some_elem_of in Hl. apply elem_of_list_In, filter_In in Hl as [Hl _]. apply elem_of_list_In in Hl. rewrite Forall_forall in Hs1. by apply Hs1.
  - cbn [small_stats]. unfold small_stats. cbn [v_size v_length v_nft mem_view]. rewrite (mem_size_exact _ _ _ Hr) in *. rewrite (mem_length_exact _ _ _ Hr) in *.
    assert (0 <= count (calls_for (q_field q) h) <= count h)%Z as Hcc by (unfold count; split; [lia|apply Nat2Z.inj_le; apply filter_len_all]). pose proof (total_length_filter (for_field (q_field q)) h Hpos) as Htl. fold (calls_for (q_field q) h) in Htl.
    rewrite wrap64_id in * by (unfold int64_range; lia). split; [lia|]. rewrite wrap64_id in * by (unfold int64_range; lia). split; [lia|]. intros t Htt. exact (C (q_terms q) t Htt).
Qed.
