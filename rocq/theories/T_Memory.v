(** Property theorems C22-C29 (storage/Memory.go). *)
From Verif Require Import Base M_Field M_Memory S_Memory M_MemHeap P_Base P_Memory P_Memory2 P_MemHeap P_MemHeap2.
#[local] Open Scope Z_scope.

(** C22 *)
Theorem C22_memory_postings_exact : forall h m f t, mem_run mem_new h m ->
  (is_Some (mem_get_documents m f t) <-> exists c, c ∈ h /\ for_field f c = true /\ has_term t c = true) /\
  (forall s, mem_get_documents m f t = Some s -> forall d,
     (set_contains s d = true <->
        exists c, c ∈ h /\ call_doc c = d /\ for_field f c = true /\ has_term t c = true) /\
     (s !! d = None \/ s !! d = Some true)).
Proof. exact mem_documents_exact. Qed.
Print Assumptions C22_memory_postings_exact.
Theorem C22_get_index_agrees : forall m f t, mem_get_index m f !! t = mem_get_documents m f t.
Proof. exact mem_index_docs. Qed.
Print Assumptions C22_get_index_agrees.

(** C23 *)
Theorem C23_memory_get_fields : forall h m ids f d, mem_run mem_new h m ->
  mem_get_fields m ids f !! d = if decide (d ∈ ids) then last_saved d f h else None.
Proof. exact mem_fields_exact. Qed.
Print Assumptions C23_memory_get_fields.

(** C24 *)
Theorem C24_memory_size_counts_calls : forall h m f, mem_run mem_new h m ->
  mem_get_size m f = wrap64 (count (calls_for f h)).
Proof. exact mem_size_exact. Qed.
Print Assumptions C24_memory_size_counts_calls.
Theorem C24_memory_length_sums_calls : forall h m f, mem_run mem_new h m ->
  mem_get_length m f = wrap64 (total_length (calls_for f h)).
Proof. exact mem_length_exact. Qed.
Print Assumptions C24_memory_length_sums_calls.
Theorem C24_size_is_document_count_iff_no_resave : forall h m f, mem_run mem_new h m -> count h < 2 ^ 63 ->
  (mem_get_size m f = Z.of_nat (size (list_to_set (map call_doc (calls_for f h)) : gset string)) <->
   NoDup (map call_doc (calls_for f h))).
Proof. exact mem_size_distinct. Qed.
Print Assumptions C24_size_is_document_count_iff_no_resave.

(** C25 *)
Theorem C25_memory_number_field_term : forall h m f ts t, mem_run mem_new h m ->
  mem_get_nft m f ts !! t = if decide (t ∈ ts) then Some (wrap64 (count (saves_with f t h))) else None.
Proof. exact mem_nft_exact. Qed.
Print Assumptions C25_memory_number_field_term.
Theorem C25_frequency_at_most_size : forall h m f ts t n, mem_run mem_new h m -> count h < 2 ^ 63 ->
  mem_get_nft m f ts !! t = Some n -> 0 <= n <= mem_get_size m f.
Proof.
  intros h m f ts t n H Hc. rewrite mem_get_nft_lookup. destruct (decide _); [|done].
  intros [= <-]. exact (mem_nft_le_size h m f t H Hc).
Qed.
Print Assumptions C25_frequency_at_most_size.
Theorem C25_frequency_vs_postings : forall h m f ts t n, mem_run mem_new h m -> count h < 2 ^ 63 ->
  Forall (fun c => is_save c = true) h -> mem_get_nft m f ts !! t = Some n ->
  let postings := Z.of_nat (match mem_get_documents m f t with Some s => set_size s | None => 0%nat end) in
  postings <= n /\ (n = postings <-> NoDup (map call_doc (indexed f t h))).
Proof.
  intros h m f ts t n H Hc Hall. rewrite mem_get_nft_lookup. destruct (decide _); [|done].
  intros [= <-]. exact (mem_nft_postings h m f t H Hc Hall).
Qed.
Print Assumptions C25_frequency_vs_postings.

(** C26: from any state. *)
Theorem C26_memory_frame : forall m c m', mem_step m c m' ->
  (forall f t ts, f <> f_name (call_field c) ->
     mem_get_documents m' f t = mem_get_documents m f t /\ mem_get_index m' f = mem_get_index m f /\
     mem_get_size m' f = mem_get_size m f /\ mem_get_length m' f = mem_get_length m f /\
     mem_get_nft m' f ts = mem_get_nft m f ts) /\
  (forall ids f, f <> f_name (call_field c) -> mem_get_fields m' ids f = mem_get_fields m ids f) /\
  (forall ids f d, d <> call_doc c -> mem_get_fields m' ids f !! d = mem_get_fields m ids f !! d).
Proof. exact mem_frame. Qed.
Print Assumptions C26_memory_frame.

(** C27: histories that are permutations of each other; the iteration orders
    inside the two runs are independent. *)
Theorem C27_order_irrelevant : forall h1 h2 m1 m2, h1 ≡ₚ h2 -> mem_run mem_new h1 m1 -> mem_run mem_new h2 m2 ->
  forall f t ts, mem_get_documents m1 f t = mem_get_documents m2 f t /\ mem_get_index m1 f = mem_get_index m2 f /\
    mem_get_size m1 f = mem_get_size m2 f /\ mem_get_length m1 f = mem_get_length m2 f /\
    mem_get_nft m1 f ts = mem_get_nft m2 f ts.
Proof. exact mem_perm. Qed.
Print Assumptions C27_order_irrelevant.
Theorem C27_fields_order_irrelevant : forall h1 h2 m1 m2 ids d f, h1 ≡ₚ h2 ->
  mem_run mem_new h1 m1 -> mem_run mem_new h2 m2 ->
  (length (List.filter (fun c => is_save c && String.eqb (call_doc c) d && for_field f c) h1) <= 1)%nat ->
  mem_get_fields m1 ids f !! d = mem_get_fields m2 ids f !! d.
Proof. exact mem_perm_fields. Qed.
Print Assumptions C27_fields_order_irrelevant.

(** C28: from any state, through any further calls. *)
Theorem C28_postings_only_grow : forall m h m' f t s d, mem_run m h m' ->
  mem_get_documents m f t = Some s -> set_contains s d = true ->
  exists s', mem_get_documents m' f t = Some s' /\ set_contains s' d = true.
Proof. exact mem_docs_mono. Qed.
Print Assumptions C28_postings_only_grow.

(** A history with two saves of the same document and a bare UpdateIndex. *)
Definition ex_f1 : field := mkField "title" 2 {[ "cat" := 1; "dog" := 1 ]}.
Definition ex_f2 : field := mkField "title" 1 {[ "cat" := 1 ]}.
Definition ex_hist : list call := [Save "d1" ex_f1; Save "d1" ex_f2; Save "d2" ex_f2; Index "d3" ex_f1].
Example C22_to_C28_witness : exists m, mem_run mem_new ex_hist m /\
  mem_get_documents m "title" "cat" = Some {[ "d1" := true; "d2" := true; "d3" := true ]} /\
  mem_get_documents m "title" "bird" = None /\
  mem_get_fields m ["d1"; "d2"; "d3"; "d1"] "title" = {[ "d1" := ex_f2; "d2" := ex_f2 ]} /\
  mem_get_size m "title" = 4 /\ mem_get_length m "title" = 6 /\
  mem_get_nft m "title" ["cat"; "dog"; "bird"] = {[ "cat" := 3; "dog" := 1; "bird" := 0 ]} /\
  (exists s, mem_get_documents m "title" "dog" = Some s /\ set_contains s "d1" = true) /\ count ex_hist < 2 ^ 63.
Proof.
  set (ks1 := (map_to_list (f_tf ex_f1)).*1). set (ks2 := (map_to_list (f_tf ex_f2)).*1).
  exists (mem_update_index (mem_save (mem_save (mem_save mem_new "d1" ex_f1 ks1 ks1) "d1" ex_f2 ks2 ks2) "d2" ex_f2 ks2 ks2) "d3" ex_f1 ks1).
  split.
  { repeat (econstructor; [econstructor; apply range_order_exists|]). constructor. }
  assert (forall (A B : option set_data), bool_decide (A = B) = true -> A = B) as D1 by (intros A B; apply bool_decide_eq_true_1).
  assert (forall (A B : gmap string Z), bool_decide (A = B) = true -> A = B) as D2 by (intros A B; apply bool_decide_eq_true_1).
  split; [apply D1; vm_compute; reflexivity|]. split; [vm_compute; reflexivity|]. split.
  { apply map_eq. intros i. rewrite mem_get_fields_lookup.
    destruct (decide (i = "d1")) as [->|H1]; [vm_compute; reflexivity|].
    destruct (decide (i = "d2")) as [->|H2]; [vm_compute; reflexivity|].
    rewrite !lookup_insert_ne, lookup_singleton_ne by congruence.
    destruct (decide (i = "d3")) as [->|H3]; [vm_compute; reflexivity|].
    rewrite decide_False; [done|]. set_solver. }
  split; [vm_compute; reflexivity|]. split; [vm_compute; reflexivity|].
  split; [apply D2; vm_compute; reflexivity|].
  split; [eexists; split; vm_compute; reflexivity|]. vm_compute; reflexivity.
Qed.

(** C29.  Without client mutation of shared maps the reference-level store
    answers as the value-level store run on the calls with the TF contents they
    had when passed. *)
Theorem C29_value_semantics_without_mutation : forall es cs h, hm_calls hm_new es cs h -> Forall pure_event es ->
  exists m, mem_run mem_new cs m /\
  (forall f t, posting h f t = mem_get_documents m f t) /\
  (forall ids d f, mem_get_fields m ids f !! d = if decide (d ∈ ids) then hvalue h <$> hm_get_field h d f else None) /\
  hm_length h = mm_length m /\ hm_size h = mm_size m /\ hm_nft h = mm_nft m.
Proof. exact heap_value_semantics. Qed.
Print Assumptions C29_value_semantics_without_mutation.
(** The returned set and index are live. *)
Theorem C29_returned_set_is_live : forall es1 h1 es2 h2 f t l,
  hm_run hm_new es1 h1 -> hm_get_documents h1 f t = Some l ->
  hm_run h1 es2 h2 -> Forall (keeps_term t) es2 ->
  hm_get_documents h2 f t = Some l /\ posting h2 f t = hm_sets h2 !! l /\ is_Some (hm_sets h2 !! l).
Proof. exact heap_docs_live. Qed.
Print Assumptions C29_returned_set_is_live.
Theorem C29_returned_index_is_live : forall es1 h1 es2 h2 f l,
  hm_run hm_new es1 h1 -> hm_get_index h1 f = Some l -> hm_run h1 es2 h2 -> hm_get_index h2 f = Some l.
Proof. exact heap_index_live. Qed.
Print Assumptions C29_returned_index_is_live.
(** Client mutation of a returned set changes exactly that posting set. *)
Theorem C29_client_set_mutation : forall es h f t l x h' s,
  hm_run hm_new es h -> hm_get_documents h f t = Some l -> hm_sets h !! l = Some s ->
  (hm_step h (HSetAdd l x) h' -> posting h' f t = Some (<[x := true]> s)) /\
  (hm_step h (HSetRemove l x) h' -> posting h' f t = Some (delete x s)) /\
  (hm_step h (HSetAdd l x) h' \/ hm_step h (HSetRemove l x) h' ->
     (forall f' t', (f', t') <> (f, t) -> posting h' f' t' = posting h f' t') /\
     (forall d g, hvalue h' <$> hm_get_field h' d g = hvalue h <$> hm_get_field h d g) /\
     hm_length h' = hm_length h /\ hm_size h' = hm_size h /\ hm_nft h' = hm_nft h).
Proof. exact heap_set_mutation. Qed.
Print Assumptions C29_client_set_mutation.
(** Client mutation of a TF map changes stored fields but no posting or counter. *)
Theorem C29_client_tf_mutation : forall h e h', hm_step h e h' ->
  (exists l k v, e = HTFPut l k v) \/ (exists l k, e = HTFDelete l k) ->
  (forall f t, posting h' f t = posting h f t) /\
  (forall d f, hm_get_field h' d f = hm_get_field h d f) /\
  hm_length h' = hm_length h /\ hm_size h' = hm_size h /\ hm_nft h' = hm_nft h /\
  (forall fl, (forall l k v, e = HTFPut l k v -> hf_tf fl = l -> hvalue h' fl = mkField (hf_name fl) (hf_length fl) (<[k := v]> (tf_of h l)))) /\
  (forall fl, (forall l k, e = HTFDelete l k -> hf_tf fl = l -> hvalue h' fl = mkField (hf_name fl) (hf_length fl) (delete k (tf_of h l)))).
Proof. exact heap_tf_mutation. Qed.
Print Assumptions C29_client_tf_mutation.
(** A run in which one TF map is passed twice, a set is fetched and mutated. *)
Example C29_witness : exists h1 h2,
  hm_run hm_new [HNewTF {["cat" := 1]}; HSave "d1" (mkHField "title" 1 0)] h1 /\
  hm_get_documents h1 "title" "cat" = Some 2%nat /\
  hm_run h1 [HSave "d2" (mkHField "title" 1 0); HSetAdd 2 "ghost"; HTFPut 0 "cat" 7] h2 /\
  posting h2 "title" "cat" = Some {[ "d1" := true; "d2" := true; "ghost" := true ]} /\
  hvalue h2 <$> hm_get_field h2 "d1" "title" = Some (mkField "title" 1 {["cat" := 7]}).
Proof.
  eexists _, _. split; [|split; [|split; [|split]]].
  - eapply hm_run_cons; [apply hs_new|]. eapply hm_run_cons; [|apply hm_run_nil].
    eapply (hs_save _ _ _ ["cat"] ["cat"]); [eexists; vm_compute; reflexivity|vm_compute; reflexivity|vm_compute; reflexivity].
  - vm_compute. reflexivity.
  - eapply hm_run_cons.
    { eapply (hs_save _ _ _ ["cat"] ["cat"]); [eexists; vm_compute; reflexivity|vm_compute; reflexivity|vm_compute; reflexivity]. }
    eapply hm_run_cons; [eapply hs_set_add; vm_compute; reflexivity|].
    eapply hm_run_cons; [eapply hs_tf_put; vm_compute; reflexivity|]. apply hm_run_nil.
  - apply (bool_decide_eq_true_1 _). vm_compute. reflexivity.
  - apply (bool_decide_eq_true_1 _). vm_compute. reflexivity.
Qed.
