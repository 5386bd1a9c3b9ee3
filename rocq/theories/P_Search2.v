(** Consequences for the memory storage, and for real-valued scores. *)
From Coq Require Import Lra.
From Verif Require Import Base M_Field M_Memory S_Memory M_Num M_NumR M_FanIn M_Search M_Standard S_View S_Search S_BM25
  P_Base P_Memory P_Memory2 P_FanIn P_Search P_Standard P_BM25.
#[local] Open Scope Z_scope.

Lemma mem_matches h m terms f d : mem_run mem_new h m ->
  (matches (mem_view m) terms f d = true <->
   exists t c, t ∈ terms /\ c ∈ h /\ call_doc c = d /\ for_field f c = true /\ has_term t c = true).
Proof.
  intros H. unfold matches. rewrite existsb_exists. split.
  - intros (t & Ht & Hm). cbn in Hm. destruct (mem_get_documents m f t) as [s|] eqn:E; [|done].
    destruct (mem_documents_exact h m f t H) as [_ H2]. destruct (H2 s E d) as [[H3 _] _].
    destruct (H3 Hm) as (c & Hc). exists t, c. split; [by apply elem_of_list_In|done].
  - intros (t & c & Ht & Hc & Hd & Hf & Hh). exists t. split; [by apply elem_of_list_In|]. cbn.
    destruct (mem_documents_exact h m f t H) as [H1 H2].
    destruct H1 as [_ H1]. destruct H1 as [s E]; [by exists c|]. rewrite E. apply (H2 s E d). by exists c.
Qed.
Lemma mem_view_field h m f d : mem_run mem_new h m -> v_fields (mem_view m) [d] f !! d = last_saved d f h.
Proof. intros H. cbn [mem_view v_fields]. rewrite (mem_fields_exact h m [d] f d H). rewrite decide_True; [done|]. by left. Qed.

Lemma mem_search_exact N ncpu h m terms f s r : mem_run mem_new h m ->
  rtc (search_step N ncpu (mem_view m)) (search_init terms f) s -> search_returns s r ->
  (forall d x, sr_docs r !! d = Some x <->
     (exists t c, t ∈ terms /\ c ∈ h /\ call_doc c = d /\ for_field f c = true /\ has_term t c = true) /\
     last_saved d f h = Some x) /\
  (forall t, sr_nft r !! t = if decide (t ∈ terms) then Some (wrap64 (count (saves_with f t h))) else None) /\
  sr_total r = of_int N (wrap64 (count (calls_for f h))) /\
  sr_avg r = ndiv N (of_int N (wrap64 (total_length (calls_for f h)))) (of_int N (wrap64 (count (calls_for f h)))).
Proof.
  intros Hm Hs Hr. destruct (search_result_gen N ncpu _ (mem_view_pointwise m) _ _ _ _ Hs Hr) as (H1 & H2 & H3 & H4).
  split; [|split; [|split]].
  - intros d x. rewrite H1, <- matches_candidate, (mem_matches h m terms f d Hm), (mem_view_field h m f d Hm). done.
  - intros t. rewrite H2. cbn [mem_view v_nft]. by apply (mem_nft_exact h m f terms t).
  - rewrite H3. cbn [mem_view v_size]. by rewrite (mem_size_exact _ _ _ Hm).
  - rewrite H4. cbn [mem_view v_size v_length]. by rewrite (mem_size_exact _ _ _ Hm), (mem_length_exact _ _ _ Hm).
Qed.

Lemma fdoc_mono m h m' d f : mem_run m h m' -> is_Some (fdoc_of m d f) -> is_Some (fdoc_of m' d f).
Proof.
  induction 1 as [|m c m1 h m2 Hc Hr IH]; [done|]. intros Hs. apply IH. rewrite (mem_fdoc_step _ _ _ _ _ Hc).
  destruct (_ && _); [by eexists|done].
Qed.
Lemma mem_search_still_finds N ncpu m h m' f t st d terms s r : mem_run m h m' ->
  mem_get_documents m f t = Some st -> set_contains st d = true -> is_Some (mem_get_fields m [d] f !! d) ->
  t ∈ terms -> rtc (search_step N ncpu (mem_view m')) (search_init terms f) s -> search_returns s r ->
  exists x, sr_docs r !! d = Some x /\ mem_get_fields m' [d] f !! d = Some x.
Proof.
  intros Hrun Hst Hc Hf Ht Hs Hr. destruct (search_result_gen N ncpu _ (mem_view_pointwise m') _ _ _ _ Hs Hr) as (H1 & _).
  destruct (mem_docs_mono _ _ _ _ _ _ _ Hrun Hst Hc) as (s' & Hs' & Hc').
  assert (is_Some (mem_get_fields m' [d] f !! d)) as [x Hx].
  { rewrite mem_get_fields_lookup, decide_True in * by (by left). by eapply fdoc_mono. }
  exists x. split; [|done]. apply H1. split; [|done]. exists t, s'. split; [done|]. split; [done|].
  unfold set_contains in Hc'. destruct (s' !! d); [by eexists|done].
Qed.

(** *** batches *)
Lemma batches_spec ids : NoDup (concat (batches_of ids)) /\ (forall d, d ∈ concat (batches_of ids) <-> d ∈ ids) /\
  length (batches_of ids) = 5%nat /\
  (forall i j bi bj, batches_of ids !! i = Some bi -> batches_of ids !! j = Some bj -> (length bi <= length bj + 1)%nat).
Proof.
  pose proof (collect_inv_fold ids) as [C1 C2 _ C4 _ C6].
  change ((fold_left collect_step ids (∅, [[]; []; []; []; []], 0%nat)).1.2) with (batches_of ids) in *.
  split; [done|]. split; [done|]. split; [done|]. intros i j bi bj Hi Hj. rewrite (C6 _ _ Hi), (C6 _ _ Hj).
  pose proof (lookup_lt_Some _ _ _ Hi). pose proof (lookup_lt_Some _ _ _ Hj). rewrite C1 in *.
  set (n := length (concat (batches_of ids))). clearbody n.
  replace ((n + 4 - j) / 5 + 1)%nat with ((n + 4 - j + 1 * 5) / 5)%nat by (rewrite Nat.div_add by lia; lia).
  apply Nat.div_le_mono; lia.
Qed.

(** *** real scores *)
Lemma rsum_fold (l : list R) : forall acc : R, fold_left Rplus l acc = (acc + rsum l)%R.
Proof. unfold rsum. induction l as [|x l IH]; intros acc; cbn; [lra|]. rewrite IH. lra. Qed.
Lemma sum_num_rsum (l : list R) : sum_num real_ops l = rsum l.
Proof. unfold sum_num. cbn. rewrite rsum_fold. lra. Qed.
Lemma score_order_weak (l : list (doc_score real_ops)) : strict_weak_on (score_less real_ops) l.
Proof.
  unfold score_less. cbn [ngtb real_ops]. split; [|split].
  - intros a _. destruct (Rgt_dec a.2 a.2) as [H|]; [|done]. by apply Rgt_irrefl in H.
  - intros a b c _ _ _. destruct (Rgt_dec a.2 b.2) as [H1|]; [|intros; discriminate].
    destruct (Rgt_dec b.2 c.2) as [H2|]; [|intros; discriminate]. intros _ _.
    destruct (Rgt_dec a.2 c.2) as [|Hn]; [done|]. exfalso. apply Hn. by eapply Rgt_trans.
  - intros a b c _ _ _. destruct (Rgt_dec a.2 b.2) as [|H1]; [intros; discriminate|].
    destruct (Rgt_dec b.2 c.2) as [|H2]; [intros; discriminate|]. intros _ _.
    destruct (Rgt_dec a.2 c.2) as [Hn|]; [|done]. exfalso. apply Rnot_gt_le in H1, H2.
    apply (Rlt_irrefl c.2). eapply Rlt_le_trans; [exact Hn|]. by eapply Rle_trans.
Qed.
Lemma std_real_result ncpu v qs s res : fields_pointwise v ->
  rtc (std_step real_ops ncpu v qs) (std_init real_ops qs) s -> std_returns real_ops s res ->
  NoDup res.*1 /\
  (forall d x, (d, x) ∈ res <->
     (exists q, q ∈ qs /\ is_Some (contribution real_ops v q d)) /\ x = rsum (contributions real_ops v qs d)) /\
  (forall i j a b, (i < j)%nat -> res !! i = Some a -> res !! j = Some b -> (a.2 >= b.2)%R).
Proof.
  intros Hv Hs Hr. destruct (std_result real_ops ncpu v Hv _ _ _ Hs Hr) as (qs' & Hq & Hnd & He & Ho).
  split; [done|]. split.
  - intros d x. rewrite He, sum_num_rsum.
    assert (contributions real_ops v qs' d ≡ₚ contributions real_ops v qs d) as Hp by (unfold contributions; by rewrite Hq).
    rewrite (rsum_perm _ _ Hp).
    assert (contributions real_ops v qs' d <> [] <-> exists q, q ∈ qs /\ is_Some (contribution real_ops v q d)) as Hiff; [|by rewrite Hiff].
    transitivity (exists y, y ∈ contributions real_ops v qs' d).
    { generalize (contributions real_ops v qs' d). intros [|y l].
      - split; [intros []; reflexivity|]. by intros [y ?%elem_of_nil].
      - split; [|by intros _]. intros _. exists y. by left. }
    unfold contributions. setoid_rewrite elem_of_list_omap. setoid_rewrite Hq. split.
    + intros (y & q & Hin & Hy). exists q. split; [done|by eexists].
    + intros (q & Hin & y & Hy). by exists y, q.
  - intros i j a b Hij Ha Hb. specialize (Ho (score_order_weak res) i j a b Hij Ha Hb). cbn [ngtb real_ops] in Ho.
    revert Ho. destruct (Rgt_dec _ _) as [|Hn]; intros Ho; [discriminate|]. apply Rnot_gt_le in Hn. by apply Rle_ge.
Qed.
Lemma std_empty (N : numops) ncpu v s res : fields_pointwise v -> rtc (std_step N ncpu v []) (std_init N []) s -> std_returns N s res -> res = [].
Proof.
  intros Hv Hs Hr. destruct (std_result N ncpu v Hv _ _ _ Hs Hr) as (qs' & Hq & _ & He & _).
  symmetry in Hq. apply Permutation_nil in Hq as ->. destruct res as [|[d x] res]; [done|]. exfalso.
  destruct (He d x) as [H _]. destruct H as [H _]; [by left|]. done.
Qed.

(** *** C36 *)
Lemma total_length_filter p h : Forall (fun c => 0 <= f_length (call_field c)) h ->
  0 <= total_length (List.filter p h) <= total_length h.
Proof.
  unfold total_length. induction 1 as [|c h Hc Hh IH]; cbn; [lia|]. destruct (p c); cbn; lia.
Qed.
Lemma total_length_member c h : Forall (fun c => 0 <= f_length (call_field c)) h -> c ∈ h -> f_length (call_field c) <= total_length h.
Proof.
  intros Hf. induction Hf as [|c' h Hc Hh IH]; intros Hin; [by apply elem_of_nil in Hin|]. cbn.
  pose proof (total_length_filter (fun _ => true) h Hh) as Hp.
  assert (List.filter (fun _ => true) h = h) as E by (clear; induction h; cbn; congruence). rewrite E in Hp.
  unfold total_length in *. apply elem_of_cons in Hin as [->|Hin]; [lia|]. specialize (IH Hin). lia.
Qed.
Lemma saved_stats h m f terms d : mem_run mem_new h m -> Forall (fun c => is_save c = true) h ->
  Forall (fun c => Z.of_nat (size (f_tf (call_field c))) <= f_length (call_field c)) h ->
  count h < 2 ^ 63 -> total_length h < 2 ^ 63 -> matches (mem_view m) terms f d = true ->
  0 < mem_get_size m f /\ 0 < mem_get_length m f /\
  (forall ts, frequencies_ok (mem_get_size m f) (mem_get_nft m f ts) ts) /\
  exists x, mem_get_fields m [d] f !! d = Some x.
Proof.
  intros H Hsv Hlen Hc Ht Hm. apply (mem_matches h m terms f d H) in Hm as (t & c & Htt & Hch & Hd & Hf & Hh).
  assert (Forall (fun c => 0 <= f_length (call_field c)) h) as Hpos.
  { eapply Forall_impl; [exact Hlen|]. cbn. intros ? ?. lia. }
  assert (c ∈ calls_for f h) as Hcf. { apply elem_of_list_In, filter_In. split; [by apply elem_of_list_In|done]. }
  assert (1 <= f_length (call_field c)) as Hc1.
  { rewrite Forall_forall in Hlen. specialize (Hlen c Hch). apply has_term_spec in Hh as [n Hn].
    assert (size (f_tf (call_field c)) <> 0)%nat; [|lia]. intros E. apply map_size_empty_inv in E. rewrite E in Hn. done. }
  assert (1 <= count (calls_for f h)) as Hs1.
  { unfold count. destruct (calls_for f h); [by apply elem_of_nil in Hcf|]. cbn. lia. }
  assert (count (calls_for f h) <= count h) by (unfold count; apply Nat2Z.inj_le; apply filter_len_all).
  pose proof (total_length_filter (for_field f) h Hpos) as Htl. fold (calls_for f h) in Htl.
  assert (Forall (fun c => 0 <= f_length (call_field c)) (calls_for f h)) as Hpos'.
  { rewrite Forall_forall in Hpos |- *. intros x Hx. apply Hpos. apply elem_of_list_In in Hx. unfold calls_for in Hx.
    apply filter_In in Hx as [Hx _]. by apply elem_of_list_In. }
  pose proof (total_length_member c _ Hpos' Hcf) as Htm.
  rewrite (mem_size_exact _ _ _ H), (mem_length_exact _ _ _ H).
  rewrite !wrap64_id by (unfold int64_range; lia). split; [lia|]. split; [lia|]. split.
  - intros ts u Hu. pose proof (mem_nft_le_size h m f u H Hc) as Hn. rewrite (mem_size_exact _ _ _ H), wrap64_id in Hn by (unfold int64_range; lia).
    unfold geti. rewrite mem_get_nft_lookup, decide_True by done. cbn [from_option id]. exact Hn.
  - rewrite (mem_fields_exact h m [d] f d H), decide_True by (by left).
    assert (forall h, c ∈ h -> exists x, last_saved d f h = Some x) as Hls; [|by apply Hls].
    rewrite Forall_forall in Hsv. specialize (Hsv c Hch). clear -Hd Hf Hsv. intros h. induction h as [|c' h IH]; intros Hin; [by apply elem_of_nil in Hin|].
    cbn. destruct (last_saved d f h) as [x|]; [by eexists|]. apply elem_of_cons in Hin as [<-|Hin].
    + rewrite Hsv, Hf. cbn. rewrite (proj2 (String.eqb_eq _ _)) by done. cbn. by eexists.
    + by destruct (IH Hin).
Qed.
