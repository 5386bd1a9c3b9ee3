From Verif Require Import Base M_Field M_Memory S_Memory P_Base P_Memory.
#[local] Open Scope Z_scope.

Lemma mem_documents_exact h m f t : mem_run mem_new h m ->
  (is_Some (mem_get_documents m f t) <-> exists c, c ∈ h /\ for_field f c = true /\ has_term t c = true) /\
  (forall s, mem_get_documents m f t = Some s -> forall d,
     (set_contains s d = true <->
        exists c, c ∈ h /\ call_doc c = d /\ for_field f c = true /\ has_term t c = true) /\
     (s !! d = None \/ s !! d = Some true)).
Proof.
  intros H. destruct (mem_docs_exact h m H f t) as [H1 H2].
  assert (forall c, c ∈ indexed f t h <-> c ∈ h /\ for_field f c = true /\ has_term t c = true) as Hin.
  { intros c. unfold indexed. rewrite !elem_of_list_In, filter_In, andb_true_iff. done. }
  split.
  - split.
    + intros [s Hs]. destruct (indexed f t h) as [|c l] eqn:E.
      * rewrite (proj2 H1 eq_refl) in Hs. done.
      * exists c. apply Hin. left.
    + intros (c & Hc). apply Hin in Hc. destruct (mem_get_documents m f t) eqn:E; [eauto|].
      rewrite (proj1 H1 eq_refl) in Hc. by apply elem_of_nil in Hc.
  - intros s Hs d. specialize (H2 s Hs d). unfold set_contains. rewrite H2.
    destruct (decide (d ∈ map call_doc (indexed f t h))) as [Hd|Hd].
    + split; [|by right]. split; [|done]. intros _. apply elem_of_list_fmap in Hd as (c & -> & Hc).
      apply Hin in Hc as (? & ? & ?). by exists c.
    + split; [|by left]. split; [done|]. intros (c & Hc & <- & Hf & Ht). exfalso. apply Hd.
      apply elem_of_list_fmap. exists c. split; [done|]. by apply Hin.
Qed.

Lemma mem_fields_exact h m ids f d : mem_run mem_new h m ->
  mem_get_fields m ids f !! d = if decide (d ∈ ids) then last_saved d f h else None.
Proof. intros H. rewrite mem_get_fields_lookup. by rewrite (fdoc_exact _ _ _ _ H). Qed.
Lemma mem_nft_exact h m f ts t : mem_run mem_new h m ->
  mem_get_nft m f ts !! t = if decide (t ∈ ts) then Some (wrap64 (count (saves_with f t h))) else None.
Proof. intros H. rewrite mem_get_nft_lookup. by rewrite (nft_exact _ _ _ _ H). Qed.

(** ** distinct documents *)
Lemma size_list_to_set_le (l : list string) : (size (list_to_set l : gset string) <= length l)%nat.
Proof.
  induction l as [|x l IH]; cbn [list_to_set length]; [by rewrite size_empty|].
  destruct (decide (x ∈ (list_to_set l : gset string))) as [Hx|Hx].
  - rewrite subseteq_union_1_L by set_solver. lia.
  - rewrite size_union by set_solver. rewrite size_singleton. lia.
Qed.
Lemma size_list_to_set_eq (l : list string) : size (list_to_set l : gset string) = length l <-> NoDup l.
Proof.
  induction l as [|x l IH]; cbn [list_to_set length].
  - split; [constructor|]. by rewrite size_empty.
  - destruct (decide (x ∈ (list_to_set l : gset string))) as [Hx|Hx].
    + rewrite subseteq_union_1_L by set_solver. pose proof (size_list_to_set_le l). split; [lia|].
      intros Hnd. apply NoDup_cons in Hnd as [Hn _]. set_solver.
    + rewrite size_union by set_solver. rewrite size_singleton, NoDup_cons, <- IH. split.
      * intros E. split; [set_solver|lia].
      * intros [_ E]. lia.
Qed.
Lemma count_range h : 0 <= count h. Proof. unfold count. lia. Qed.
Lemma filter_len_all {A} (p : A -> bool) l : (length (List.filter p l) <= length l)%nat.
Proof. induction l as [|x l IH]; cbn; [lia|]. destruct (p x); cbn; lia. Qed.
Lemma mem_size_distinct h m f : mem_run mem_new h m -> count h < 2 ^ 63 ->
  (mem_get_size m f = Z.of_nat (size (list_to_set (map call_doc (calls_for f h)) : gset string)) <->
   NoDup (map call_doc (calls_for f h))).
Proof.
  intros H Hc. rewrite (mem_size_exact _ _ _ H).
  assert (count (calls_for f h) <= count h).
  { unfold count. apply Nat2Z.inj_le. apply filter_len_all. }
  pose proof (count_range (calls_for f h)). rewrite wrap64_id by (unfold int64_range; lia).
  unfold count. rewrite <- size_list_to_set_eq, map_length. lia.
Qed.
Lemma filter_len_le {A} (p q : A -> bool) l : (forall x, x ∈ l -> p x = true -> q x = true) ->
  (length (List.filter p l) <= length (List.filter q l))%nat.
Proof.
  induction l as [|x l IH]; intros H; cbn; [lia|].
  assert (length (List.filter p l) <= length (List.filter q l))%nat.
  { apply IH. intros y Hy. apply H. by right. }
  specialize (H x (elem_of_list_here _ _)). destruct (p x), (q x); cbn; try lia; by specialize (H eq_refl).
Qed.
Lemma filter_ext_on {A} (p q : A -> bool) l : (forall x, x ∈ l -> p x = q x) -> List.filter p l = List.filter q l.
Proof.
  induction l as [|x l IH]; intros H; [done|]. cbn. rewrite (H x) by left.
  rewrite IH; [done|]. intros y Hy. apply H. by right.
Qed.
Lemma mem_nft_le_size h m f t : mem_run mem_new h m -> count h < 2 ^ 63 ->
  0 <= nft_of m f t <= mem_get_size m f.
Proof.
  intros H Hc. rewrite (nft_exact _ _ _ _ H), (mem_size_exact _ _ _ H).
  assert (count (saves_with f t h) <= count (calls_for f h)).
  { unfold count. apply Nat2Z.inj_le. apply filter_len_le. intros x _ Hx.
    apply andb_true_iff in Hx as [Hx _]. by apply andb_true_iff in Hx as [_ ?]. }
  assert (count (calls_for f h) <= count h) by (unfold count; apply Nat2Z.inj_le; apply filter_len_all).
  pose proof (count_range (saves_with f t h)).
  rewrite !wrap64_id by (unfold int64_range; lia). lia.
Qed.
Lemma mem_posting_size h m f t s : mem_run mem_new h m -> mem_get_documents m f t = Some s ->
  set_size s = size (list_to_set (map call_doc (indexed f t h)) : gset string).
Proof.
  intros H Hs. destruct (mem_docs_exact h m H f t) as [_ H2]. specialize (H2 s Hs). unfold set_size.
  rewrite <- (size_dom s). f_equal. apply set_eq. intros d. rewrite elem_of_dom, H2, elem_of_list_to_set.
  destruct (decide _); split; try done. by intros [? ?].
Qed.
Lemma indexed_saves f t h : Forall (fun c => is_save c = true) h -> indexed f t h = saves_with f t h.
Proof.
  intros H. unfold indexed, saves_with. apply filter_ext_on. intros x Hx.
  rewrite Forall_forall in H. by rewrite (H x Hx).
Qed.
Lemma mem_posting_size' h m f t : mem_run mem_new h m ->
  match mem_get_documents m f t with Some s => set_size s | None => 0%nat end
  = size (list_to_set (map call_doc (indexed f t h)) : gset string).
Proof.
  intros H. destruct (mem_get_documents m f t) as [s|] eqn:E.
  - by eapply mem_posting_size.
  - destruct (mem_docs_exact h m H f t) as [H1 _]. rewrite (proj1 H1 E). cbn. by rewrite size_empty.
Qed.
Lemma mem_nft_postings h m f t : mem_run mem_new h m -> count h < 2 ^ 63 ->
  Forall (fun c => is_save c = true) h ->
  let postings := Z.of_nat (match mem_get_documents m f t with Some s => set_size s | None => 0%nat end) in
  postings <= nft_of m f t /\ (nft_of m f t = postings <-> NoDup (map call_doc (indexed f t h))).
Proof.
  intros H Hc Hall postings. unfold postings. rewrite (mem_posting_size' _ _ _ _ H), (nft_exact _ _ _ _ H).
  rewrite <- indexed_saves by done.
  assert (count (indexed f t h) <= count h) by (unfold count; apply Nat2Z.inj_le; apply filter_len_all).
  pose proof (count_range (indexed f t h)). rewrite wrap64_id by (unfold int64_range; lia).
  rewrite <- size_list_to_set_eq, map_length. pose proof (size_list_to_set_le (map call_doc (indexed f t h))) as Hl.
  rewrite map_length in Hl. unfold count. split; [lia|]. lia.
Qed.

(** ** frame *)
Lemma mem_frame m c m' : mem_step m c m' ->
  (forall f t ts, f <> f_name (call_field c) ->
     mem_get_documents m' f t = mem_get_documents m f t /\ mem_get_index m' f = mem_get_index m f /\
     mem_get_size m' f = mem_get_size m f /\ mem_get_length m' f = mem_get_length m f /\
     mem_get_nft m' f ts = mem_get_nft m f ts) /\
  (forall ids f, f <> f_name (call_field c) -> mem_get_fields m' ids f = mem_get_fields m ids f) /\
  (forall ids f d, d <> call_doc c -> mem_get_fields m' ids f !! d = mem_get_fields m ids f !! d).
Proof.
  intros H.
  assert (forall f, f <> f_name (call_field c) -> for_field f c = false) as Hf.
  { intros f Hne. unfold for_field. apply String.eqb_neq. congruence. }
  split; [|split].
  - intros f t ts Hne. split; [by rewrite (mem_docs_step _ _ _ _ _ H), Hf by done|]. split.
    { apply map_eq. intros x. rewrite !mem_index_docs. by rewrite (mem_docs_step _ _ _ _ _ H), Hf by done. }
    split; [by rewrite (mem_size_step _ _ _ _ H), Hf by done|].
    split; [by rewrite (mem_length_step _ _ _ _ H), Hf by done|].
    apply map_eq. intros x. rewrite !mem_get_nft_lookup. rewrite (mem_nft_step _ _ _ _ _ H), Hf by done.
    by rewrite andb_false_r.
  - intros ids f Hne. apply map_eq. intros d. rewrite !mem_get_fields_lookup.
    rewrite (mem_fdoc_step _ _ _ _ _ H), Hf by done. by rewrite andb_false_r.
  - intros ids f d Hne. rewrite !mem_get_fields_lookup. rewrite (mem_fdoc_step _ _ _ _ _ H).
    assert (String.eqb (call_doc c) d = false) as -> by (apply String.eqb_neq; congruence). by rewrite andb_false_r.
Qed.

(** ** permutations *)
Lemma filter_Permutation {A} (p : A -> bool) l1 l2 : l1 ≡ₚ l2 -> List.filter p l1 ≡ₚ List.filter p l2.
Proof.
  induction 1 as [|x l1 l2 H IH|x y l|l1 l2 l3 H1 IH1 H2 IH2]; cbn; [done| | |by etrans].
  - destruct (p x); [by constructor|done].
  - destruct (p x), (p y); try done. constructor.
Qed.
Lemma total_length_perm h1 h2 : h1 ≡ₚ h2 -> total_length h1 = total_length h2.
Proof. unfold total_length. induction 1; cbn [fold_right]; lia. Qed.
Lemma mem_perm h1 h2 m1 m2 : h1 ≡ₚ h2 -> mem_run mem_new h1 m1 -> mem_run mem_new h2 m2 ->
  forall f t ts, mem_get_documents m1 f t = mem_get_documents m2 f t /\ mem_get_index m1 f = mem_get_index m2 f /\
    mem_get_size m1 f = mem_get_size m2 f /\ mem_get_length m1 f = mem_get_length m2 f /\
    mem_get_nft m1 f ts = mem_get_nft m2 f ts.
Proof.
  intros Hp H1 H2 f t ts.
  assert (forall t, mem_get_documents m1 f t = mem_get_documents m2 f t) as Hd.
  { intros x. destruct (mem_docs_exact _ _ H1 f x) as [A1 B1], (mem_docs_exact _ _ H2 f x) as [A2 B2].
    assert (indexed f x h1 ≡ₚ indexed f x h2) as Hi by (by apply filter_Permutation).
    destruct (mem_get_documents m1 f x) as [s1|] eqn:E1, (mem_get_documents m2 f x) as [s2|] eqn:E2.
    - f_equal. apply map_eq. intros d. rewrite (B1 _ eq_refl), (B2 _ eq_refl).
      assert (d ∈ map call_doc (indexed f x h1) <-> d ∈ map call_doc (indexed f x h2)) as He.
      { assert (map call_doc (indexed f x h1) ≡ₚ map call_doc (indexed f x h2)) as -> by (by apply Permutation_map). done. }
      destruct (decide (d ∈ map call_doc (indexed f x h1))), (decide (d ∈ map call_doc (indexed f x h2))); tauto.
    - rewrite (proj1 A2 eq_refl) in Hi. apply Permutation_nil_r in Hi. apply A1 in Hi. done.
    - rewrite (proj1 A1 eq_refl) in Hi. symmetry in Hi. apply Permutation_nil_r in Hi. apply A2 in Hi. done.
    - done. }
  split; [done|]. split; [apply map_eq; intros x; by rewrite !mem_index_docs|].
  split.
  { rewrite (mem_size_exact _ _ _ H1), (mem_size_exact _ _ _ H2). unfold count.
    do 2 f_equal. apply Permutation_length. by apply filter_Permutation. }
  split.
  { rewrite (mem_length_exact _ _ _ H1), (mem_length_exact _ _ _ H2). f_equal. apply total_length_perm.
    by apply filter_Permutation. }
  apply map_eq. intros x. rewrite (mem_nft_exact _ _ _ _ _ H1), (mem_nft_exact _ _ _ _ _ H2).
  assert (count (saves_with f x h1) = count (saves_with f x h2)) as ->; [|done].
  unfold count. f_equal. apply Permutation_length. by apply filter_Permutation.
Qed.
Definition key_of (d f : string) (c : call) : bool := is_save c && String.eqb (call_doc c) d && for_field f c.
Lemma last_saved_filter d f h :
  last_saved d f h = call_field <$> last (List.filter (key_of d f) h).
Proof.
  induction h as [|c h IH]; [done|]. cbn [last_saved List.filter]. rewrite IH. fold (key_of d f c).
  destruct (key_of d f c).
  - rewrite last_cons. by destruct (last (List.filter (key_of d f) h)).
  - by destruct (call_field <$> _).
Qed.
Lemma mem_perm_fields h1 h2 m1 m2 ids d f : h1 ≡ₚ h2 -> mem_run mem_new h1 m1 -> mem_run mem_new h2 m2 ->
  (length (List.filter (key_of d f) h1) <= 1)%nat ->
  mem_get_fields m1 ids f !! d = mem_get_fields m2 ids f !! d.
Proof.
  intros Hp H1 H2 Hl. rewrite (mem_fields_exact _ _ _ _ _ H1), (mem_fields_exact _ _ _ _ _ H2).
  rewrite !last_saved_filter. pose proof (filter_Permutation (key_of d f) _ _ Hp) as Hf.
  destruct (List.filter (key_of d f) h1) as [|c [|c2 l]]; cbn in Hl; [| |lia].
  - symmetry in Hf. apply Permutation_nil_r in Hf as ->. done.
  - symmetry in Hf. apply Permutation_singleton_r in Hf as ->. done.
Qed.

(** ** monotone *)
Lemma mem_docs_mono m h m' f t s d : mem_run m h m' -> mem_get_documents m f t = Some s -> set_contains s d = true ->
  exists s', mem_get_documents m' f t = Some s' /\ set_contains s' d = true.
Proof.
  intros H. revert s. induction H as [m|m c m1 h m2 Hs Hr IH]; intros s Hd Hc; [eauto|].
  assert (exists s1, mem_get_documents m1 f t = Some s1 /\ set_contains s1 d = true) as (s1 & E1 & C1).
  { rewrite (mem_docs_step _ _ _ _ _ Hs), Hd. destruct (for_field f c && has_term t c); [|eauto].
    exists (<[call_doc c := true]> s). split; [done|]. unfold set_contains in *.
    destruct (decide (call_doc c = d)) as [->|Hne]; [by rewrite lookup_insert|by rewrite lookup_insert_ne]. }
  by apply (IH s1).
Qed.
