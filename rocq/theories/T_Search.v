(** Property theorems C30-C36: index search, multi-field search, scoring.
    [N] is any arithmetic, [ncpu] is runtime.NumCPU(), [v] the answers of a storage
    that is not written during the search (for the memory storage: [mem_view m]). *)
From Coq Require Import Lra.
From Flocq Require Import IEEE754.BinarySingleNaN.
From Verif Require Import Base M_Field M_Memory S_Memory M_Num M_NumR M_NumF M_FanIn M_Search M_Standard
  S_View S_Search S_BM25 P_Base P_Memory P_Memory2 P_Search P_Standard P_BM25 P_Float P_FloatWitness P_Search2.
#[local] Open Scope Z_scope.

(** C30 *)
Theorem C30_memory_answers_pointwise : forall m, fields_pointwise (mem_view m).
Proof. exact mem_view_pointwise. Qed.
Print Assumptions C30_memory_answers_pointwise.
Theorem C30_search_never_stuck : forall N ncpu v terms f s, (0 < ncpu)%nat -> fields_pointwise v ->
  rtc (search_step N ncpu v) (search_init terms f) s ->
  (exists r, search_returns s r) \/ exists s', search_step N ncpu v s s'.
Proof. intros N ncpu v terms f s Hc Hv. exact (search_progress N ncpu v Hc terms f s). Qed.
Print Assumptions C30_search_never_stuck.
Theorem C30_search_terminates : forall N ncpu v terms f, (0 < ncpu)%nat -> fields_pointwise v ->
  exists B, forall n s, nsteps (search_step N ncpu v) n (search_init terms f) s -> (n <= B)%nat.
Proof. intros N ncpu v terms f Hc Hv. eexists. intros n s. apply (search_bound N ncpu v Hc Hv). Qed.
Print Assumptions C30_search_terminates.
Theorem C30_search_never_panics : forall N ncpu v terms f s,
  rtc (search_step N ncpu v) (search_init terms f) s -> ~ search_panics s.
Proof. exact search_no_panic. Qed.
Print Assumptions C30_search_never_panics.
Theorem C30_search_schedule_independent : forall N ncpu ncpu' v terms f s s' r r', fields_pointwise v ->
  rtc (search_step N ncpu v) (search_init terms f) s -> search_returns s r ->
  rtc (search_step N ncpu' v) (search_init terms f) s' -> search_returns s' r' -> r = r'.
Proof.
  intros N ncpu ncpu' v terms f s s' r r' Hv H Hr H' Hr'.
  destruct (search_result_gen N ncpu v Hv _ _ _ _ H Hr) as (A1 & A2 & A3 & A4).
  destruct (search_result_gen N ncpu' v Hv _ _ _ _ H' Hr') as (B1 & B2 & B3 & B4).
  destruct r as [a1 a2 a3 a4], r' as [b1 b2 b3 b4]; cbn in *. subst. f_equal.
  apply map_eq. intros d. apply option_eq. intros x. by rewrite A1, B1.
Qed.
Print Assumptions C30_search_schedule_independent.
Theorem C30_search_can_return : forall N ncpu v terms f, (0 < ncpu)%nat -> fields_pointwise v ->
  exists s r, rtc (search_step N ncpu v) (search_init terms f) s /\ search_returns s r.
Proof. intros N ncpu v terms f Hc Hv. exact (search_completes N ncpu v Hc Hv terms f). Qed.
Print Assumptions C30_search_can_return.

(** C31, over any storage ... *)
Theorem C31_search_exact : forall N ncpu v terms f s r, fields_pointwise v ->
  rtc (search_step N ncpu v) (search_init terms f) s -> search_returns s r ->
  (forall d x, sr_docs r !! d = Some x <-> matches v terms f d = true /\ v_fields v [d] f !! d = Some x) /\
  sr_nft r = v_nft v f terms /\ sr_total r = of_int N (v_size v f) /\
  sr_avg r = ndiv N (of_int N (v_length v f)) (of_int N (v_size v f)).
Proof.
  intros N ncpu v terms f s r Hv H Hr. destruct (search_result_gen N ncpu v Hv _ _ _ _ H Hr) as (H1 & H2).
  split; [|done]. intros d x. by rewrite H1, matches_candidate.
Qed.
Print Assumptions C31_search_exact.
(** ... and in terms of the history of a memory storage. *)
Theorem C31_memory_search_exact : forall N ncpu h m terms f s r, mem_run mem_new h m ->
  rtc (search_step N ncpu (mem_view m)) (search_init terms f) s -> search_returns s r ->
  (forall d x, sr_docs r !! d = Some x <->
     (exists t c, t ∈ terms /\ c ∈ h /\ call_doc c = d /\ for_field f c = true /\ has_term t c = true) /\
     last_saved d f h = Some x) /\
  (forall t, sr_nft r !! t = if decide (t ∈ terms) then Some (wrap64 (count (saves_with f t h))) else None) /\
  sr_total r = of_int N (wrap64 (count (calls_for f h))) /\
  sr_avg r = ndiv N (of_int N (wrap64 (total_length (calls_for f h)))) (of_int N (wrap64 (count (calls_for f h)))).
Proof. exact mem_search_exact. Qed.
Print Assumptions C31_memory_search_exact.
(** Each candidate id is looked up once: the five batches partition the set of
    received ids, whatever the order and multiplicity in which they arrive. *)
Theorem C31_batches_partition : forall ids,
  NoDup (concat (batches_of ids)) /\ (forall d, d ∈ concat (batches_of ids) <-> d ∈ ids) /\
  length (batches_of ids) = 5%nat /\
  (forall i j bi bj, batches_of ids !! i = Some bi -> batches_of ids !! j = Some bj -> (length bi <= length bj + 1)%nat).
Proof. exact batches_spec. Qed.
Print Assumptions C31_batches_partition.

(** C28 (second half): a document found by a term and having a stored field is
    still returned by every later search for that term, with its current field. *)
Theorem C28_still_returned : forall N ncpu m h m' f t st d terms s r, mem_run m h m' ->
  mem_get_documents m f t = Some st -> set_contains st d = true -> is_Some (mem_get_fields m [d] f !! d) ->
  t ∈ terms -> rtc (search_step N ncpu (mem_view m')) (search_init terms f) s -> search_returns s r ->
  exists x, sr_docs r !! d = Some x /\ mem_get_fields m' [d] f !! d = Some x.
Proof. exact mem_search_still_finds. Qed.
Print Assumptions C28_still_returned.

(** C32 *)
Theorem C32_standard_search_terminates : forall N ncpu v qs, (0 < ncpu)%nat -> fields_pointwise v ->
  exists B, forall n s, nsteps (std_step N ncpu v qs) n (std_init N qs) s -> (n <= B)%nat.
Proof. intros N ncpu v qs Hc Hv. exact (std_bound N ncpu v Hc Hv qs). Qed.
Print Assumptions C32_standard_search_terminates.
Theorem C32_standard_search_never_stuck : forall N ncpu v qs s, (0 < ncpu)%nat -> fields_pointwise v ->
  rtc (std_step N ncpu v qs) (std_init N qs) s ->
  ~ std_panics N s /\ ((exists res, std_returns N s res) \/ exists s', std_step N ncpu v qs s s').
Proof.
  intros N ncpu v qs s Hc Hv H. split; [by apply (std_no_panic N ncpu v qs)|].
  destruct (std_progress N ncpu v Hc qs s H) as [Hd|?]; [left; by apply done_returns|by right].
Qed.
Print Assumptions C32_standard_search_never_stuck.
Theorem C32_standard_search_exact : forall ncpu v qs s res, fields_pointwise v ->
  rtc (std_step real_ops ncpu v qs) (std_init real_ops qs) s -> std_returns real_ops s res ->
  NoDup res.*1 /\
  (forall d x, (d, x) ∈ res <->
     (exists q, q ∈ qs /\ is_Some (contribution real_ops v q d)) /\ x = rsum (contributions real_ops v qs d)) /\
  (forall i j a b, (i < j)%nat -> res !! i = Some a -> res !! j = Some b -> (a.2 >= b.2)%R).
Proof. exact std_real_result. Qed.
Print Assumptions C32_standard_search_exact.
(** For any arithmetic (floats included): the score is the sum in some order of
    the queries, and every order is possible. *)
Theorem C32_standard_search_any_arithmetic : forall N ncpu v qs s res, fields_pointwise v ->
  rtc (std_step N ncpu v qs) (std_init N qs) s -> std_returns N s res ->
  exists qs', qs' ≡ₚ qs /\ NoDup res.*1 /\
    (forall d x, (d, x) ∈ res <-> contributions N v qs' d <> [] /\ x = sum_num N (contributions N v qs' d)) /\
    (strict_weak_on (score_less N) res -> forall i j a b, (i < j)%nat -> res !! i = Some a -> res !! j = Some b ->
       ngtb N b.2 a.2 = false).
Proof. intros N ncpu v qs s res Hv. exact (std_result N ncpu v Hv qs s res). Qed.
Print Assumptions C32_standard_search_any_arithmetic.
Theorem C32_every_order_possible : forall N ncpu v qs qs', (0 < ncpu)%nat -> fields_pointwise v -> qs' ≡ₚ qs ->
  exists s res, rtc (std_step N ncpu v qs) (std_init N qs) s /\ std_returns N s res /\
    forall d x, (d, x) ∈ res <-> contributions N v qs' d <> [] /\ x = sum_num N (contributions N v qs' d).
Proof. intros N ncpu v qs qs' Hc Hv. exact (std_realize N ncpu v Hc Hv qs qs'). Qed.
Print Assumptions C32_every_order_possible.
Theorem C32_no_queries : forall N ncpu v s res, fields_pointwise v ->
  rtc (std_step N ncpu v []) (std_init N []) s -> std_returns N s res -> res = [].
Proof. exact std_empty. Qed.
Print Assumptions C32_no_queries.

Lemma w_nonempty q qs d : matches w_view (q_terms q) (q_field q) d = true ->
  bool_decide (is_Some (v_fields w_view [d] (q_field q) !! d)) = true -> contributions real_ops w_view (q :: qs) d <> [].
Proof.
  intros Hm Hf. apply bool_decide_eq_true_1 in Hf as [x Hx]. unfold contributions. cbn [omap list_omap].
  unfold contribution at 1. rewrite Hm, Hx. discriminate.
Qed.
Lemma w_empty (q1 q2 : query real_ops) d : matches w_view (q_terms q1) (q_field q1) d = false ->
  matches w_view (q_terms q2) (q_field q2) d = false -> contributions real_ops w_view [q1; q2] d = [].
Proof. intros H1 H2. unfold contributions. cbn [omap list_omap]. unfold contribution. by rewrite H1, H2. Qed.
(** A store of four documents with three fields; documents d1 and d2 contain "a". *)
Example C30_to_C32_witness :
  mem_run mem_new w_hist (mem_exec w_hist) /\
  matches w_view ["zz"; "a"] "f3" "d2" = true /\ matches w_view ["zz"; "a"] "f3" "d4" = false /\
  (exists s r, rtc (search_step real_ops 4 w_view) (search_init ["zz"; "a"] "f3") s /\ search_returns s r /\
     sr_docs r !! "d2" = Some (mkField "f3" 2 {["a" := 2]}) /\ sr_docs r !! "d4" = None /\ sr_total r = 4%R) /\
  (exists s res, rtc (std_step real_ops 4 w_view [@mkQuery real_ops "f1" 1%R ["a"]; @mkQuery real_ops "f3" 2%R ["a"; "b"]])
        (std_init real_ops [@mkQuery real_ops "f1" 1%R ["a"]; @mkQuery real_ops "f3" 2%R ["a"; "b"]]) s /\
     std_returns real_ops s res /\ "d1" ∈ res.*1 /\ "d2" ∈ res.*1 /\ "d3" ∉ res.*1).
Proof.
  assert (fields_pointwise w_view) as Hv by apply mem_view_pointwise.
  split; [apply mem_exec_run|]. split; [vm_compute; reflexivity|]. split; [vm_compute; reflexivity|]. split.
  - destruct (C30_search_can_return real_ops 4 w_view ["zz"; "a"] "f3") as (s & r & Hs & Hr); [lia|done|].
    destruct (C31_search_exact _ _ _ _ _ _ _ Hv Hs Hr) as (H1 & _ & H3 & _).
    exists s, r. split; [done|]. split; [done|]. split; [|split].
    + apply H1. split; [vm_compute; reflexivity|]. apply (bool_decide_eq_true_1 _). vm_compute. reflexivity.
    + destruct (sr_docs r !! "d4") as [x|] eqn:E; [|done]. apply H1 in E as [E _]. vm_compute in E. discriminate.
    + rewrite H3. cbn [real_ops of_int]. f_equal.
  - set (qs := [_; _]).
    destruct (C32_every_order_possible real_ops 4 w_view qs qs) as (s & res & Hs & Hr & He); [lia|done|done|].
    exists s, res. split; [done|]. split; [done|]. split; [|split].
    + apply elem_of_list_fmap. exists ("d1", sum_num real_ops (contributions real_ops w_view qs "d1")). split; [done|].
      apply He. split; [|done]. apply w_nonempty; vm_compute; reflexivity.
    + apply elem_of_list_fmap. exists ("d2", sum_num real_ops (contributions real_ops w_view qs "d2")). split; [done|].
      apply He. split; [|done]. apply w_nonempty; vm_compute; reflexivity.
    + intros H. apply elem_of_list_fmap in H as ([d x] & E & H). cbn in E. subst d. apply He in H as [H _].
      apply H. apply w_empty; vm_compute; reflexivity.
Qed.

(** C33 *)
Theorem C33_idf : forall total n : R, (0 <= n)%R -> (0 <= total)%R ->
  ((n <= total)%R -> (0 < idf total n)%R) /\
  (forall n' : R, (n < n')%R -> (idf total n' < idf total n)%R) /\
  (forall total' : R, (total < total')%R -> (idf total n < idf total' n)%R) /\
  ((idf total n < 0)%R <-> (n > total + 1 / 2)%R).
Proof.
  intros total n Hn Ht. split; [by apply idf_pos|]. split; [intros n'; by apply idf_decreasing|].
  split; [intros total'; by apply idf_increasing|]. by apply idf_negative.
Qed.
Print Assumptions C33_idf.

(** C34 *)
Theorem C34_score_nonnegative : forall q boost avg total nft fld,
  (0 <= boost)%R -> (0 < avg)%R -> frequencies_ok total nft q -> field_ok fld ->
  (0 <= score q boost avg total nft fld)%R /\
  (score q boost avg total nft fld = 0%R <-> forall t, t ∈ q -> geti (f_tf fld) t = 0).
Proof.
  intros q boost avg total nft fld Hb Ha Hq Hf.
  split; [by apply bm25_nonneg|by apply bm25_zero].
Qed.
Print Assumptions C34_score_nonnegative.
Theorem C34_grows_with_frequency : forall q boost avg total nft fld fld',
  (0 <= boost)%R -> (0 < avg)%R -> frequencies_ok total nft q -> field_ok fld -> field_ok fld' ->
  f_length fld = f_length fld' -> (forall t, t ∈ q -> geti (f_tf fld) t <= geti (f_tf fld') t) ->
  (score q boost avg total nft fld <= score q boost avg total nft fld')%R /\
  ((exists t, t ∈ q /\ geti (f_tf fld) t < geti (f_tf fld') t) ->
   (score q boost avg total nft fld < score q boost avg total nft fld')%R).
Proof. intros q boost avg total nft fld fld' Hb Ha. exact (bm25_mono_tf boost avg total nft Hb Ha q fld fld'). Qed.
Print Assumptions C34_grows_with_frequency.
Theorem C34_shrinks_with_length : forall q boost avg total nft fld fld',
  (0 <= boost)%R -> (0 < avg)%R -> frequencies_ok total nft q -> field_ok fld -> field_ok fld' ->
  f_tf fld = f_tf fld' -> f_length fld <= f_length fld' ->
  (score q boost avg total nft fld' <= score q boost avg total nft fld)%R /\
  (f_length fld < f_length fld' -> (exists t, t ∈ q /\ geti (f_tf fld) t <> 0) ->
   (score q boost avg total nft fld' < score q boost avg total nft fld)%R).
Proof. intros q boost avg total nft fld fld' Hb Ha. exact (bm25_mono_length boost avg total nft Hb Ha q fld fld'). Qed.
Print Assumptions C34_shrinks_with_length.
Theorem C34_bounded : forall q boost avg total nft fld,
  (0 <= boost)%R -> (0 < avg)%R -> frequencies_ok total nft q -> field_ok fld ->
  (score q boost avg total nft fld <=
   eff_boost boost * (11 / 5) * rsum (map (fun t => idf (IZR total) (IZR (geti nft t))) q))%R.
Proof. intros q boost avg total nft fld Hb Ha. exact (bm25_bound boost avg total nft Hb Ha q fld). Qed.
Print Assumptions C34_bounded.
Theorem C34_boost_scales : forall q boost avg total nft fld,
  score q 0 avg total nft fld = score q 1 avg total nft fld /\
  (boost <> 0%R -> score q boost avg total nft fld = (boost * score q 1 avg total nft fld)%R).
Proof. intros q boost avg total nft fld. split; [apply bm25_boost0|apply bm25_scale]. Qed.
Print Assumptions C34_boost_scales.
Theorem C34_query_is_a_bag : forall boost avg total nft fld,
  (forall q q', q ≡ₚ q' -> score q boost avg total nft fld = score q' boost avg total nft fld) /\
  (forall q1 q2, score (q1 ++ q2) boost avg total nft fld =
     (score q1 boost avg total nft fld + score q2 boost avg total nft fld)%R).
Proof. intros. split; [intros; by apply bm25_perm|intros; apply bm25_app]. Qed.
Print Assumptions C34_query_is_a_bag.
(** The score spelled out, independently of the loop. *)
Theorem C34_formula : forall q boost avg total nft fld,
  score q boost avg total nft fld =
  rsum (map (fun t =>
    let tf := IZR (geti (f_tf fld) t) in
    eff_boost boost * idf (IZR total) (IZR (geti nft t)) *
    (tf * (11 / 5) / (tf + 6 / 5 * (1 / 4 + 3 / 4 * (IZR (f_length fld) / avg)))))%R q).
Proof. intros. apply bm25_eq. Qed.
Print Assumptions C34_formula.
Example C34_witness : frequencies_ok 4 {["a" := 2]} ["a"; "b"; "a"] /\ field_ok (mkField "f" 3 {["a" := 2; "c" := 1]}) /\
  (0 < 5 / 4)%R /\ (exists t, t ∈ ["a"; "b"; "a"] /\ geti (f_tf (mkField "f" 3 {["a" := 2; "c" := 1]})) t <> 0).
Proof.
  split; [|split; [|split]].
  - intros t Ht. rewrite !elem_of_cons, elem_of_nil in Ht. destruct Ht as [->|[->|[->|[]]]]; vm_compute; split; discriminate.
  - split; [cbn; lia|]. intros t. unfold geti. cbn [f_tf]. destruct (decide (t = "a")) as [->|]; [vm_compute; discriminate|].
    rewrite lookup_insert_ne by done. destruct (decide (t = "c")) as [->|]; [vm_compute; discriminate|].
    rewrite lookup_singleton_ne by done. vm_compute. discriminate.
  - lra.
  - exists "a". split; [by left|]. vm_compute. discriminate.
Qed.

(** C35: in binary64 arithmetic with any math.Log, two runs of a search with at
    most two queries return the same documents with the same scores. *)
Theorem C35_two_queries_deterministic : forall flog ncpu v qs s s' res res',
  (0 < ncpu)%nat -> fields_pointwise v -> (length qs <= 2)%nat ->
  rtc (std_step (float_ops flog) ncpu v qs) (std_init (float_ops flog) qs) s -> std_returns (float_ops flog) s res ->
  rtc (std_step (float_ops flog) ncpu v qs) (std_init (float_ops flog) qs) s' -> std_returns (float_ops flog) s' res' ->
  res ≡ₚ res'.
Proof. exact std_two_deterministic. Qed.
Print Assumptions C35_two_queries_deterministic.
(** With three queries, two schedules of the same search on the same store rank
    the documents differently.  The only fact used about math.Log is its value
    at 2. *)
Theorem C35_three_queries_refuted : forall flog ncpu, flog (f64_of_Z 2) = f64_ln2 -> (0 < ncpu)%nat ->
  exists h m qs s1 s2 x1 y1 x2 y2,
    mem_run mem_new h m /\ length qs = 3%nat /\
    rtc (std_step (float_ops flog) ncpu (mem_view m) qs) (std_init (float_ops flog) qs) s1 /\
    std_returns (float_ops flog) s1 [("d2", y1); ("d1", x1)] /\
    rtc (std_step (float_ops flog) ncpu (mem_view m) qs) (std_init (float_ops flog) qs) s2 /\
    std_returns (float_ops flog) s2 [("d1", x2); ("d2", y2)] /\
    Beqb x1 x2 = false /\ Beqb y1 y2 = false.
Proof.
  intros flog ncpu Hl Hc. destruct (three_queries flog Hl ncpu Hc) as (s1 & s2 & x1 & y1 & x2 & y2 & H).
  exists w_hist, (mem_exec w_hist), (map (wq flog) ["f1"; "f2"; "f3"]), s1, s2, x1, y1, x2, y2.
  split; [apply mem_exec_run|]. split; [done|exact H].
Qed.
Print Assumptions C35_three_queries_refuted.

(** C36 *)
Theorem C36_saved_store_is_well_defined : forall h m f terms d, mem_run mem_new h m ->
  Forall (fun c => is_save c = true) h ->
  Forall (fun c => Z.of_nat (size (f_tf (call_field c))) <= f_length (call_field c)) h ->
  count h < 2 ^ 63 -> total_length h < 2 ^ 63 -> matches (mem_view m) terms f d = true ->
  0 < mem_get_size m f /\ 0 < mem_get_length m f /\
  (0 < IZR (mem_get_length m f) / IZR (mem_get_size m f))%R /\
  (forall ts, frequencies_ok (mem_get_size m f) (mem_get_nft m f ts) ts) /\
  exists x, mem_get_fields m [d] f !! d = Some x.
Proof.
  intros h m f terms d H1 H2 H3 H4 H5 H6. destruct (saved_stats h m f terms d H1 H2 H3 H4 H5 H6) as (A & B & C & D).
  split; [done|]. split; [done|]. split; [|done]. apply Rdiv_lt_0_compat; by apply IZR_lt.
Qed.
Print Assumptions C36_saved_store_is_well_defined.
Theorem C36_missing_statistics_give_nan : forall flog q k1 b boost total nft fld, q <> [] ->
  bm25 (float_ops flog) q k1 b boost (ndiv (float_ops flog) (of_int (float_ops flog) 0) (of_int (float_ops flog) 0)) total nft fld
  = B754_nan.
Proof.
  intros flog q k1 b boost total nft fld Hq. cbn [float_ops ndiv of_int num].
  change (Bdiv mode_NE (f64_of_Z 0) (f64_of_Z 0)) with (@B754_nan 53 1024). exact (bm25_nan flog q k1 b boost total nft fld Hq).
Qed.
Print Assumptions C36_missing_statistics_give_nan.
Example C36_witness : mem_run mem_new w_hist (mem_exec w_hist) /\ Forall (fun c => is_save c = true) w_hist /\
  Forall (fun c => Z.of_nat (size (f_tf (call_field c))) <= f_length (call_field c)) w_hist /\
  count w_hist < 2 ^ 63 /\ total_length w_hist < 2 ^ 63 /\ matches (mem_view (mem_exec w_hist)) ["a"] "f1" "d1" = true.
Proof.
  split; [apply mem_exec_run|]. split; [repeat constructor|]. split; [|vm_compute; done].
  repeat (constructor; [vm_compute; discriminate|]). constructor.
Qed.
