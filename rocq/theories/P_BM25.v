From Coq Require Import Lra.
From Verif Require Import Base M_Memory M_Num M_NumR S_BM25.
#[local] Open Scope R_scope.

Notation idf := S_BM25.idf.
Notation bm := (bm25 real_ops).

Lemma idf_eq (N n : R) : 0 <= n -> idf N n = ln ((N + 1) / (n + 1 / 2)).
Proof. intros Hn. unfold idf, idf_bm25. cbn. f_equal. field. lra. Qed.
Lemma idf_arg_pos (N n : R) : 0 <= N -> 0 <= n -> 0 < (N + 1) / (n + 1 / 2).
Proof. intros HN Hn. apply Rdiv_lt_0_compat; lra. Qed.
Lemma frac_lt a b c d : 0 < b -> 0 < d -> a * d < c * b -> a / b < c / d.
Proof.
  intros Hb Hd H. apply (Rmult_lt_reg_r (b * d)); [by apply Rmult_lt_0_compat|].
  replace (a / b * (b * d)) with (a * d) by (field; lra). replace (c / d * (b * d)) with (c * b) by (field; lra). done.
Qed.
Lemma frac_le a b c d : 0 < b -> 0 < d -> a * d <= c * b -> a / b <= c / d.
Proof.
  intros Hb Hd H. apply (Rmult_le_reg_r (b * d)); [by apply Rmult_lt_0_compat|].
  replace (a / b * (b * d)) with (a * d) by (field; lra). replace (c / d * (b * d)) with (c * b) by (field; lra). done.
Qed.
Lemma idf_pos (N n : R) : 0 <= n -> n <= N -> 0 < idf N n.
Proof.
  intros Hn HN. rewrite idf_eq by done. rewrite <- ln_1. apply ln_increasing; [lra|].
  replace 1 with (1 / 1) at 1 by field. apply frac_lt; lra.
Qed.
Lemma idf_decreasing (N n n' : R) : 0 <= N -> 0 <= n -> n < n' -> idf N n' < idf N n.
Proof.
  intros HN Hn Hlt. rewrite !idf_eq by lra. apply ln_increasing; [apply idf_arg_pos; lra|].
  apply frac_lt; [lra|lra|]. apply Rmult_lt_compat_l; lra.
Qed.
Lemma idf_increasing (N N' n : R) : 0 <= N -> 0 <= n -> N < N' -> idf N n < idf N' n.
Proof.
  intros HN Hn Hlt. rewrite !idf_eq by lra. apply ln_increasing; [apply idf_arg_pos; lra|].
  apply frac_lt; [lra|lra|]. apply Rmult_lt_compat_r; lra.
Qed.
Lemma idf_negative (N n : R) : 0 <= N -> 0 <= n -> (idf N n < 0 <-> n > N + 1 / 2).
Proof.
  intros HN Hn. rewrite idf_eq by done. rewrite <- ln_1. split.
  - intros H. apply ln_lt_inv in H; [|by apply idf_arg_pos|lra].
    apply (Rmult_lt_compat_r (n + 1 / 2)) in H; [|lra].
    replace ((N + 1) / (n + 1 / 2) * (n + 1 / 2)) with (N + 1) in H by (field; lra). lra.
  - intros H. apply ln_increasing; [by apply idf_arg_pos|]. replace 1 with (1 / 1) by field. apply frac_lt; lra.
Qed.

(** *** BM25 *)
Section bm25.
  Variables (boost avg : R) (total : Z) (nft : gmap string Z).
  Notation k1 := (6 / 5). Notation b := (3 / 4).
  Notation tm := (bm25_term real_ops k1 b).

  Definition den (fld : field) : R := 6 / 5 * (1 / 4 + 3 / 4 * (IZR (f_length fld) / avg)).
  Definition idft (t : string) : R := idf (IZR total) (IZR (geti nft t)).
  Definition tf (fld : field) (t : string) : R := IZR (geti (f_tf fld) t).

  Lemma bm25_term_eq bo fld t : tm bo avg (IZR total) nft fld t = bo * idft t * (tf fld t * (11 / 5) / (tf fld t + den fld)).
  Proof. unfold bm25_term. cbn. unfold idft, tf, den.
    replace (6 / 5 + 1) with (11 / 5) by lra. replace (1 - 3 / 4) with (1 / 4) by lra. done. Qed.

  Lemma rsum_cons x l : rsum (x :: l) = x + rsum l.
  Proof. done. Qed.
  Lemma rsum_nil : rsum [] = 0.
  Proof. done. Qed.
  Arguments rsum : simpl never.
  Lemma fold_rsum {A} (g : A -> R) l : forall acc, fold_left (fun s x => s + g x) l acc = acc + rsum (map g l).
  Proof. induction l as [|x l IH]; intros acc; cbn; rewrite ?rsum_cons, ?rsum_nil; [lra|]. rewrite IH. lra. Qed.
  Lemma bm25_eq q fld : bm q k1 b boost avg (IZR total) nft fld =
    rsum (map (fun t => (eff_boost boost) * idft t * (tf fld t * (11 / 5) / (tf fld t + den fld))) q).
  Proof.
    unfold bm25. cbn.
    transitivity (rsum (map (fun t => bm25_term real_ops k1 b (bm25_boost real_ops boost) avg (IZR total) nft fld t) q)).
    - etransitivity; [apply fold_rsum|]. apply Rplus_0_l.
    - f_equal. apply map_ext. intros t. rewrite bm25_term_eq. do 2 f_equal. unfold bm25_boost, eff_boost. cbn.
      by destruct (Req_EM_T boost 0).
  Qed.

  Hypothesis Hboost : 0 <= boost.
  Hypothesis Havg : 0 < avg.
  Notation query_ok := (frequencies_ok total nft).

  Lemma effb_pos : 0 < (eff_boost boost).
  Proof. unfold eff_boost. destruct (Req_EM_T boost 0); lra. Qed.
  Lemma den_pos fld : field_ok fld -> 0 < den fld.
  Proof.
    intros [Hl _]. unfold den. apply IZR_le in Hl. assert (0 <= IZR (f_length fld) / avg); [|lra].
    unfold Rdiv. apply Rmult_le_pos; [done|]. left. by apply Rinv_0_lt_compat.
  Qed.
  Lemma tf_nonneg fld t : field_ok fld -> 0 <= tf fld t.
  Proof. intros [_ H]. unfold tf. apply (IZR_le 0). apply H. Qed.
  Lemma idft_pos q t : query_ok q -> t ∈ q -> 0 < idft t.
  Proof. intros Hq Ht. destruct (Hq t Ht). apply idf_pos; by apply IZR_le. Qed.

  Lemma rsum_le {A} (g h : A -> R) l : (forall x, x ∈ l -> g x <= h x) -> rsum (map g l) <= rsum (map h l).
  Proof.
    induction l as [|x l IH]; intros H; cbn; rewrite ?rsum_cons, ?rsum_nil; [lra|]. apply Rplus_le_compat.
    - apply H. by left.
    - apply IH. intros y Hy. apply H. by right.
  Qed.
  Lemma rsum_lt {A} (g h : A -> R) l : (forall x, x ∈ l -> g x <= h x) -> (exists x, x ∈ l /\ g x < h x) ->
    rsum (map g l) < rsum (map h l).
  Proof.
    induction l as [|x l IH]; intros H (y & Hy & Hlt); [by apply elem_of_nil in Hy|]. cbn. rewrite !rsum_cons.
    assert (g x <= h x) by (apply H; by left).
    assert (forall z, z ∈ l -> g z <= h z) as Hl by (intros z Hz; apply H; by right).
    apply elem_of_cons in Hy as [->|Hy].
    - pose proof (rsum_le g h l Hl). lra.
    - assert (rsum (map g l) < rsum (map h l)) by (apply IH; eauto). lra.
  Qed.
  Lemma rsum_zero {A} (l : list A) : rsum (map (fun _ => 0) l) = 0.
  Proof. induction l; cbn; rewrite ?rsum_cons, ?rsum_nil; lra. Qed.
  Lemma rsum_scale {A} c (g : A -> R) l : rsum (map (fun x => c * g x) l) = c * rsum (map g l).
  Proof. induction l as [|x l IH]; cbn; rewrite ?rsum_cons, ?rsum_nil; [lra|]. rewrite IH. lra. Qed.
  Lemma rsum_app l1 l2 : rsum (l1 ++ l2) = rsum l1 + rsum l2.
  Proof. induction l1 as [|x l IH]; cbn; rewrite ?rsum_cons, ?rsum_nil; [lra|]. rewrite IH. lra. Qed.
  Lemma rsum_perm l1 l2 : l1 ≡ₚ l2 -> rsum l1 = rsum l2.
  Proof. induction 1; rewrite ?rsum_cons, ?rsum_nil; lra. Qed.

  Lemma weight_pos q t : query_ok q -> t ∈ q -> 0 < (eff_boost boost) * idft t.
  Proof. intros Hq Ht. apply Rmult_lt_0_compat; [apply effb_pos|by eapply idft_pos]. Qed.
  Lemma ratio_nonneg fld t : field_ok fld -> 0 <= tf fld t * (11 / 5) / (tf fld t + den fld).
  Proof.
    intros Hf. pose proof (tf_nonneg _ t Hf). pose proof (den_pos _ Hf). unfold Rdiv.
    apply Rmult_le_pos; [lra|]. left. apply Rinv_0_lt_compat. lra.
  Qed.
  Lemma ratio_pos fld t : field_ok fld -> 0 < tf fld t -> 0 < tf fld t * (11 / 5) / (tf fld t + den fld).
  Proof. intros Hf Ht. pose proof (den_pos _ Hf). apply Rdiv_lt_0_compat; lra. Qed.

  Lemma bm25_nonneg q fld : query_ok q -> field_ok fld -> 0 <= bm q k1 b boost avg (IZR total) nft fld.
  Proof.
    intros Hq Hf. rewrite bm25_eq. rewrite <- (rsum_zero q). apply rsum_le. intros t Ht.
    apply Rmult_le_pos; [left; by eapply weight_pos|by apply ratio_nonneg].
  Qed.
  Lemma bm25_zero q fld : query_ok q -> field_ok fld ->
    (bm q k1 b boost avg (IZR total) nft fld = 0 <-> forall t, t ∈ q -> geti (f_tf fld) t = 0%Z).
  Proof.
    intros Hq Hf. rewrite bm25_eq. split.
    - intros H t Ht. destruct (Z.eq_dec (geti (f_tf fld) t) 0) as [|Hne]; [done|]. exfalso.
      assert (0 < tf fld t) as Hpos. { unfold tf. apply (IZR_lt 0). destruct Hf as [_ Hf]. specialize (Hf t). lia. }
      pose proof (rsum_lt (fun _ => 0) (fun t => (eff_boost boost) * idft t * (tf fld t * (11 / 5) / (tf fld t + den fld))) q) as Hl.
      rewrite rsum_zero, H in Hl. enough (0 < 0) by lra. apply Hl.
      + intros u Hu. apply Rmult_le_pos; [left; by eapply weight_pos|by apply ratio_nonneg].
      + exists t. split; [done|]. apply Rmult_lt_0_compat; [by eapply weight_pos|by apply ratio_pos].
    - intros H. rewrite <- (rsum_zero q). f_equal. apply map_ext_in. intros t Ht%elem_of_list_In.
      unfold tf. rewrite (H t Ht). unfold Rdiv. rewrite !Rmult_0_l. lra.
  Qed.
  Lemma ratio_mono_tf x y d : 0 < d -> 0 <= x -> x <= y -> x * (11 / 5) / (x + d) <= y * (11 / 5) / (y + d).
  Proof.
    intros Hd Hx Hxy. apply frac_le; [lra|lra|]. assert (0 <= (y - x) * d) by (apply Rmult_le_pos; lra). nra.
  Qed.
  Lemma ratio_mono_tf_strict x y d : 0 < d -> 0 <= x -> x < y -> x * (11 / 5) / (x + d) < y * (11 / 5) / (y + d).
  Proof.
    intros Hd Hx Hxy. apply frac_lt; [lra|lra|]. assert (0 < (y - x) * d) by (apply Rmult_lt_0_compat; lra). nra.
  Qed.
  Lemma bm25_mono_tf q fld fld' : query_ok q -> field_ok fld -> field_ok fld' -> f_length fld = f_length fld' ->
    (forall t, t ∈ q -> (geti (f_tf fld) t <= geti (f_tf fld') t)%Z) ->
    bm q k1 b boost avg (IZR total) nft fld <= bm q k1 b boost avg (IZR total) nft fld' /\
    ((exists t, t ∈ q /\ (geti (f_tf fld) t < geti (f_tf fld') t)%Z) ->
     bm q k1 b boost avg (IZR total) nft fld < bm q k1 b boost avg (IZR total) nft fld').
  Proof.
    intros Hq Hf Hf' Hl Htf. rewrite !bm25_eq. assert (den fld' = den fld) as -> by (unfold den; by rewrite Hl).
    pose proof (den_pos _ Hf) as Hd.
    assert (forall t, t ∈ q -> (eff_boost boost) * idft t * (tf fld t * (11 / 5) / (tf fld t + den fld)) <=
      (eff_boost boost) * idft t * (tf fld' t * (11 / 5) / (tf fld' t + den fld))) as Hle.
    { intros t Ht. apply Rmult_le_compat_l; [left; by eapply weight_pos|].
      apply ratio_mono_tf; [done|by apply tf_nonneg|]. apply IZR_le. by apply Htf. }
    split; [by apply rsum_le|]. intros (t & Ht & Hlt). apply rsum_lt; [done|]. exists t. split; [done|].
    apply Rmult_lt_compat_l; [by eapply weight_pos|].
    apply ratio_mono_tf_strict; [done|by apply tf_nonneg|]. by apply IZR_lt.
  Qed.
  Lemma bm25_mono_length q fld fld' : query_ok q -> field_ok fld -> field_ok fld' -> f_tf fld = f_tf fld' ->
    (f_length fld <= f_length fld')%Z ->
    bm q k1 b boost avg (IZR total) nft fld' <= bm q k1 b boost avg (IZR total) nft fld /\
    ((f_length fld < f_length fld')%Z -> (exists t, t ∈ q /\ geti (f_tf fld) t <> 0%Z) ->
     bm q k1 b boost avg (IZR total) nft fld' < bm q k1 b boost avg (IZR total) nft fld).
  Proof.
    intros Hq Hf Hf' Htf Hl. rewrite !bm25_eq. pose proof (den_pos _ Hf) as Hd. pose proof (den_pos _ Hf') as Hd'.
    assert (forall t, tf fld' t = tf fld t) as Et by (intros t; unfold tf; by rewrite Htf).
    assert (forall x y, x <= y -> x / avg <= y / avg) as Hdiv.
    { intros x y Hxy. apply Rmult_le_compat_r; [left; by apply Rinv_0_lt_compat|done]. }
    assert (den fld <= den fld') as Hdd. { unfold den. apply IZR_le in Hl. specialize (Hdiv _ _ Hl). lra. }
    assert (forall t, t ∈ q -> (eff_boost boost) * idft t * (tf fld' t * (11 / 5) / (tf fld' t + den fld')) <=
      (eff_boost boost) * idft t * (tf fld t * (11 / 5) / (tf fld t + den fld))) as Hle.
    { intros t Ht. apply Rmult_le_compat_l; [left; by eapply weight_pos|]. rewrite Et.
      pose proof (tf_nonneg _ t Hf). apply frac_le; [lra|lra|]. apply Rmult_le_compat_l; lra. }
    split; [by apply rsum_le|]. intros Hlt (t & Ht & Hne). apply rsum_lt; [done|]. exists t. split; [done|].
    apply Rmult_lt_compat_l; [by eapply weight_pos|]. rewrite Et.
    assert (0 < tf fld t) as Hpos. { unfold tf. apply (IZR_lt 0). destruct Hf as [_ Hf]. specialize (Hf t). lia. }
    assert (den fld < den fld').
    { unfold den. apply IZR_lt in Hlt. assert (IZR (f_length fld) / avg < IZR (f_length fld') / avg); [|lra].
      apply Rmult_lt_compat_r; [by apply Rinv_0_lt_compat|done]. }
    apply frac_lt; [lra|lra|]. apply Rmult_lt_compat_l; lra.
  Qed.
  Lemma bm25_bound q fld : query_ok q -> field_ok fld ->
    bm q k1 b boost avg (IZR total) nft fld <= (eff_boost boost) * (11 / 5) * rsum (map (fun t => idft t) q).
  Proof.
    intros Hq Hf. rewrite bm25_eq, <- rsum_scale. apply rsum_le. intros t Ht.
    pose proof (weight_pos _ _ Hq Ht). pose proof (tf_nonneg _ t Hf). pose proof (den_pos _ Hf).
    replace ((eff_boost boost) * (11 / 5) * idft t) with ((eff_boost boost) * idft t * (11 / 5)) by lra.
    apply Rmult_le_compat_l; [lra|]. replace (11 / 5) with (11 / 5 / 1) at 2 by field. apply frac_le; lra.
  Qed.
End bm25.

Lemma bm25_perm boost avg total nft q q' fld : q ≡ₚ q' ->
  bm q (6 / 5) (3 / 4) boost avg (IZR total) nft fld = bm q' (6 / 5) (3 / 4) boost avg (IZR total) nft fld.
Proof. intros H. rewrite !bm25_eq. apply rsum_perm. by apply Permutation_map. Qed.
Lemma bm25_app boost avg total nft q1 q2 fld :
  bm (q1 ++ q2) (6 / 5) (3 / 4) boost avg (IZR total) nft fld =
  bm q1 (6 / 5) (3 / 4) boost avg (IZR total) nft fld + bm q2 (6 / 5) (3 / 4) boost avg (IZR total) nft fld.
Proof. rewrite !bm25_eq, map_app. apply rsum_app. Qed.
Lemma bm25_scale boost avg total nft q fld : boost <> 0 ->
  bm q (6 / 5) (3 / 4) boost avg (IZR total) nft fld = boost * bm q (6 / 5) (3 / 4) 1 avg (IZR total) nft fld.
Proof.
  intros Hb. rewrite !bm25_eq, <- rsum_scale. f_equal. apply map_ext. intros t. unfold eff_boost.
  destruct (Req_EM_T boost 0); [done|]. destruct (Req_EM_T 1 0); [lra|]. lra.
Qed.
Lemma bm25_boost0 avg total nft q fld :
  bm q (6 / 5) (3 / 4) 0 avg (IZR total) nft fld = bm q (6 / 5) (3 / 4) 1 avg (IZR total) nft fld.
Proof.
  rewrite !bm25_eq. f_equal. apply map_ext. intros t. unfold eff_boost.
  destruct (Req_EM_T 0 0); [|done]. destruct (Req_EM_T 1 0); [lra|done].
Qed.
