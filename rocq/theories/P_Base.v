(** Generic lemmas: wrap-around, strings, iteration orders. *)
From Verif Require Import Base.
#[local] Open Scope Z_scope.

(** ** wrap-around *)
Lemma wrap_id bits z : 0 < bits -> - 2 ^ (bits - 1) <= z < 2 ^ (bits - 1) -> wrap bits z = z.
Proof.
  intros Hb Hz. unfold wrap.
  assert (2 ^ bits = 2 * 2 ^ (bits - 1)) as E.
  { rewrite <- (Z.pow_succ_r 2 (bits - 1)) by lia. f_equal. lia. }
  rewrite Z.mod_small; lia.
Qed.
Lemma wrap64_id z : int64_range z -> wrap64 z = z.
Proof. unfold int64_range, wrap64. intros H. apply wrap_id; [lia|]. exact H. Qed.
Lemma wrap32_id z : int32_range z -> wrap32 z = z.
Proof. unfold int32_range, wrap32. intros H. apply wrap_id; [lia|]. exact H. Qed.

Lemma wrap_add_l bits a b : 0 <= bits -> wrap bits (wrap bits a + b) = wrap bits (a + b).
Proof.
  intros Hb. unfold wrap. f_equal.
  assert (0 < 2 ^ bits) by (apply Z.pow_pos_nonneg; lia).
  replace ((a + 2 ^ (bits - 1)) mod 2 ^ bits - 2 ^ (bits - 1) + b + 2 ^ (bits - 1))
    with ((a + 2 ^ (bits - 1)) mod 2 ^ bits + b) by lia.
  rewrite Z.add_mod_idemp_l by lia. f_equal. lia.
Qed.
Lemma wrap64_add_l a b : wrap64 (wrap64 a + b) = wrap64 (a + b).
Proof. apply wrap_add_l. lia. Qed.
Lemma wrap64_0 : wrap64 0 = 0. Proof. reflexivity. Qed.
Lemma wrap32_0 : wrap32 0 = 0. Proof. reflexivity. Qed.

Lemma wrap_range bits z : 0 < bits -> - 2 ^ (bits - 1) <= wrap bits z < 2 ^ (bits - 1).
Proof.
  intros Hb. unfold wrap.
  assert (2 ^ bits = 2 * 2 ^ (bits - 1)) as E.
  { rewrite <- (Z.pow_succ_r 2 (bits - 1)) by lia. f_equal. lia. }
  assert (0 < 2 ^ (bits - 1)) by (apply Z.pow_pos_nonneg; lia).
  pose proof (Z.mod_pos_bound (z + 2 ^ (bits - 1)) (2 ^ bits)). lia.
Qed.
Lemma wrap64_range z : int64_range (wrap64 z).
Proof. apply (wrap_range 64). lia. Qed.
Lemma wrap32_range z : int32_range (wrap32 z).
Proof. apply (wrap_range 32). lia. Qed.
Lemma wrap32_idem z : wrap32 (wrap32 z) = wrap32 z.
Proof. apply wrap32_id, wrap32_range. Qed.
Lemma wrap64_idem z : wrap64 (wrap64 z) = wrap64 z.
Proof. apply wrap64_id, wrap64_range. Qed.

(** ** integer-valued maps *)
Lemma geti_addi m k d : geti (addi m k d) k = wrap64 (geti m k + d).
Proof. unfold geti at 1, addi. by rewrite lookup_insert. Qed.
Lemma geti_addi_ne m k k' d : k <> k' -> geti (addi m k d) k' = geti m k'.
Proof. intros. unfold geti, addi. by rewrite lookup_insert_ne. Qed.
Lemma geti_empty k : geti ∅ k = 0.
Proof. reflexivity. Qed.

(** ** strings *)
Lemma str_app_nil_l s : EmptyString +:+ s = s. Proof. reflexivity. Qed.
Lemma str_app_nil_r s : s +:+ EmptyString = s.
Proof. induction s as [|a s IH]; [reflexivity|]. simpl. by f_equal. Qed.
Lemma str_app_assoc a b c : (a +:+ b) +:+ c = a +:+ (b +:+ c).
Proof. induction a as [|x a IH]; [reflexivity|]. simpl. by f_equal. Qed.
Lemma str_app_length a b : String.length (a +:+ b) = (String.length a + String.length b)%nat.
Proof. induction a as [|x a IH]; [reflexivity|]. simpl. by f_equal. Qed.
Lemma str_length_0 s : String.length s = 0%nat -> s = EmptyString.
Proof. destruct s; [done|discriminate]. Qed.
Lemma substring_0_full s : String.substring 0 (String.length s) s = s.
Proof. induction s as [|a s IH]; [reflexivity|]. simpl. by f_equal. Qed.
Lemma substring_app_0 q r : String.substring 0 (String.length q) (q +:+ r) = q.
Proof. induction q as [|a q IH]; simpl; [by destruct r|]. by f_equal. Qed.
Lemma substring_app p q r :
  String.substring (String.length p) (String.length q) (p +:+ q +:+ r) = q.
Proof. induction p as [|a p IH]; [exact (substring_app_0 q r)|]. simpl. exact IH. Qed.
Lemma substring_skip p q :
  String.substring (String.length p) (String.length (p +:+ q) - String.length p) (p +:+ q) = q.
Proof.
  rewrite str_app_length.
  replace (String.length p + String.length q - String.length p)%nat with (String.length q) by lia.
  induction p as [|a p IH]; [exact (substring_0_full q)|]. simpl. exact IH.
Qed.
Lemma str_app_inv_head p a b : p +:+ a = p +:+ b -> a = b.
Proof. induction p as [|x p IH]; simpl; [done|]. intros H. apply IH. congruence. Qed.
Lemma str_app_eq_len p q a b :
  String.length p = String.length q -> p +:+ a = q +:+ b -> p = q /\ a = b.
Proof.
  revert q. induction p as [|x p IH]; intros [|y q]; simpl; try discriminate.
  - done.
  - intros Hl H. injection H as -> H. destruct (IH q) as [-> ->]; auto.
Qed.

(** ** iteration orders *)
Lemma range_order_NoDup {A} (m : gmap string A) ks : range_order m ks -> NoDup ks.
Proof. intros H. rewrite H. apply NoDup_fst_map_to_list. Qed.
Lemma range_order_elem {A} (m : gmap string A) ks k :
  range_order m ks -> k ∈ ks <-> is_Some (m !! k).
Proof.
  intros H. rewrite H. rewrite elem_of_list_fmap. split.
  - intros ([k' v] & -> & Hin). apply elem_of_map_to_list in Hin. eauto.
  - intros [v Hv]. exists (k, v). split; [done|]. by apply elem_of_map_to_list.
Qed.
Lemma range_order_exists {A} (m : gmap string A) : range_order m (map_to_list m).*1.
Proof. unfold range_order. done. Qed.
Lemma range_order_empty {A} ks : range_order (∅ : gmap string A) ks -> ks = [].
Proof.
  unfold range_order. rewrite map_to_list_empty. simpl. intros H.
  apply Permutation_nil. by rewrite H.
Qed.
Lemma range_order_intro {A} (m : gmap string A) ks :
  NoDup ks -> (forall k, k ∈ ks <-> is_Some (m !! k)) -> range_order m ks.
Proof.
  intros Hnd Hk. unfold range_order. apply NoDup_Permutation; [done|apply NoDup_fst_map_to_list|].
  intros k. rewrite Hk. symmetry.
  apply (range_order_elem m). unfold range_order. done.
Qed.
