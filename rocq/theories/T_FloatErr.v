(** C62: binary64 scores and rankings against exact arithmetic. *)
From Coq Require Import Reals Lra.
From Flocq Require Import Core IEEE754.BinarySingleNaN.
From Verif Require Import Base M_Field M_Memory S_Memory M_Num M_NumF M_NumR M_FanIn M_Search M_Standard S_View S_BM25 S_Search S_Float P_Base P_Memory P_Memory2 P_FanIn P_Search P_Standard P_Search2 P_Float P_FloatWitness P_FloatErr.
#[local] Open Scope R_scope.

(** The literals 0.5, 0.75 and 1.2 and integers below 2^53. *)
Theorem C62_constants : forall flog,
  finite (n_half (float_ops flog)) /\ val (n_half (float_ops flog)) = 1 / 2 /\
  finite (n_b (float_ops flog)) /\ val (n_b (float_ops flog)) = 3 / 4 /\
  finite (n_k1 (float_ops flog)) /\ Rabs (val (n_k1 (float_ops flog)) - 6 / 5) < bpow radix2 (-53) /\
  (forall z, (0 <= z < 2 ^ 53)%Z -> finite (of_int (float_ops flog) z) /\ val (of_int (float_ops flog) z) = IZR z).
Proof.
  intros flog. cbn [float_ops n_half n_b n_k1 of_int num]. destruct half_val. destruct b_val. destruct k1_val as [K1 K2]. repeat (split; [done|]). split; [|apply of_Z_exact].
  rewrite K2. change (bpow radix2 (-53)) with (/ 9007199254740992). rewrite Rabs_left1 by lra. lra.
Qed.
Print Assumptions C62_constants.
Theorem C62_log_exists : accurate_log rounded_ln.
Proof. exact rounded_ln_accurate. Qed.
Print Assumptions C62_log_exists.
(** The score one query gives to one document. *)
Theorem C62_query_score : forall flog v (q : query (float_ops flog)) x n beta, accurate_log flog ->
  small_stats v (q_field q) (q_terms q) -> small_field x -> boost_ok (q_boost q) -> boost_of (q_boost q) <= beta -> beta <= bpow radix2 500 ->
  (length (q_terms q) <= n)%nat -> INR n <= bpow radix2 50 ->
  finite (query_score (float_ops flog) v q x) /\ 0 <= val (query_score (float_ops flog) v q x) /\
  Rabs (val (query_score (float_ops flog) v q x) - query_score real_ops v (exact_query q) x) <= search_err 1 n beta.
Proof.
  intros flog v q x n beta Hl H1 H2 H3 H4 H5 H6 H7. pose proof (query_close flog Hl v q x (INR n) beta H1 H2 H3 H4 H5 ltac:(by apply le_INR) H7) as C. pose proof (close_nonneg _ _ _ _ C) as P. destruct C as (C1 & _ & _ & C4). split; [done|]. split; [done|].
  eapply Rle_trans; [exact C4|]. unfold terms_err, search_err, Rdiv. replace (/ bpow radix2 43) with (512 * w) by (rewrite <- w_bpow, <- bpow_opp; change 512 with (bpow radix2 9); rewrite <- bpow_plus; reflexivity). change (INR 1) with 1.
  assert (0 < boost_of (q_boost q)) as Hb by (by apply boost_near). pose proof (pos_INR n). pose proof w_pos. assert (0 <= beta * INR n * INR n * w) by (repeat apply Rmult_le_pos; lra). assert (0 <= beta * INR n * w) by (repeat apply Rmult_le_pos; lra). lra.
Qed.
Print Assumptions C62_query_score.
(** Search.Standard over any schedule: every score is a finite non-negative number
    near the exact score, and documents are in the order of the exact scores up to
    twice the error. *)
Theorem C62_search : forall flog ncpu v (qs : list (query (float_ops flog))) s res n beta, accurate_log flog -> fields_pointwise v ->
  (forall q, q ∈ qs -> query_small v n beta q) -> beta <= bpow radix2 500 -> INR n <= bpow radix2 50 -> INR (length qs) <= bpow radix2 50 ->
  rtc (std_step (float_ops flog) ncpu v qs) (std_init (float_ops flog) qs) s -> std_returns (float_ops flog) s res ->
  NoDup res.*1 /\
  (forall d, d ∈ res.*1 <-> exists q, q ∈ qs /\ is_Some (contribution (float_ops flog) v q d)) /\
  (forall d x, (d, x) ∈ res -> finite x /\ 0 <= val x /\ Rabs (val x - exact_score v qs d) <= search_err (length qs) n beta) /\
  (forall i j a b, (i < j)%nat -> res !! i = Some a -> res !! j = Some b ->
     val a.2 >= val b.2 /\ exact_score v qs a.1 >= exact_score v qs b.1 - 2 * search_err (length qs) n beta).
Proof. exact float_search. Qed.
Print Assumptions C62_search.
(** Two documents whose exact scores differ by more than the error bound are
    returned in that order. *)
Theorem C62_clear_winner_first : forall flog ncpu v (qs : list (query (float_ops flog))) s res n beta i j a b, accurate_log flog -> fields_pointwise v ->
  (forall q, q ∈ qs -> query_small v n beta q) -> beta <= bpow radix2 500 -> INR n <= bpow radix2 50 -> INR (length qs) <= bpow radix2 50 ->
  rtc (std_step (float_ops flog) ncpu v qs) (std_init (float_ops flog) qs) s -> std_returns (float_ops flog) s res ->
  res !! i = Some a -> res !! j = Some b -> exact_score v qs a.1 > exact_score v qs b.1 + 2 * search_err (length qs) n beta -> (i < j)%nat.
Proof.
  intros flog ncpu v qs s res n beta i j a b Hl Hv Hq Hb Hn Hm Hr Hs Hi Hj Hgt. destruct (float_search flog ncpu v qs s res n beta Hl Hv Hq Hb Hn Hm Hr Hs) as (_ & _ & A & B).
  destruct (decide (i < j)%nat) as [|Hij]; [done|]. exfalso. assert (0 <= search_err (length qs) n beta) as He. { destruct (A a.1 a.2) as (_ & _ & K). { apply elem_of_list_lookup. exists i. by rewrite <- surjective_pairing. } eapply Rle_trans; [apply Rabs_pos|exact K]. }
  destruct (decide (i = j)) as [->|Hne]; [assert (a = b) by congruence; subst b; lra|]. assert (j < i)%nat as Hji by lia. destruct (B j i b a Hji Hj Hi) as [_ K].
  apply (Rlt_irrefl (exact_score v qs a.1)). apply (Rle_lt_trans _ (exact_score v qs b.1 + 2 * search_err (length qs) n beta)); [|exact Hgt]. apply Rge_le in K. apply (Rplus_le_reg_r (- (2 * search_err (length qs) n beta))). rewrite Rplus_assoc, Rplus_opp_r, Rplus_0_r. exact K.
Qed.
Print Assumptions C62_clear_winner_first.
(** Over the in-memory index after any saves of small fields. *)
Theorem C62_memory_index : forall flog h m (qs : list (query (float_ops flog))) ncpu s res n beta, accurate_log flog ->
  mem_run mem_new h m -> Forall (fun c => is_save c = true) h ->
  Forall (fun c => small_field (call_field c) /\ (Z.of_nat (size (f_tf (call_field c))) <= f_length (call_field c))%Z) h ->
  (count h < 2 ^ 53)%Z -> (total_length h < 2 ^ 53)%Z ->
  (forall q, q ∈ qs -> boost_ok (q_boost q) /\ boost_of (q_boost q) <= beta /\ (length (q_terms q) <= n)%nat) ->
  beta <= bpow radix2 500 -> INR n <= bpow radix2 50 -> INR (length qs) <= bpow radix2 50 ->
  rtc (std_step (float_ops flog) ncpu (mem_view m) qs) (std_init (float_ops flog) qs) s -> std_returns (float_ops flog) s res ->
  (forall d x, (d, x) ∈ res -> finite x /\ 0 <= val x /\ Rabs (val x - exact_score (mem_view m) qs d) <= search_err (length qs) n beta) /\
  (forall i j a b, (i < j)%nat -> res !! i = Some a -> res !! j = Some b ->
     val a.2 >= val b.2 /\ exact_score (mem_view m) qs a.1 >= exact_score (mem_view m) qs b.1 - 2 * search_err (length qs) n beta).
Proof.
  intros flog h m qs ncpu s res n beta Hl Hr Hsv Hsm Hc Ht Hq Hb Hn Hm Hs Hres.
  eapply float_search; [exact Hl|apply mem_view_pointwise| |exact Hb|exact Hn|exact Hm|exact Hs|exact Hres].
  intros q Hin. destruct (Hq q Hin) as (Q1 & Q2 & Q3). split; [done|]. split; [done|]. split; [done|]. intros d x Hma Hx. by apply (memory_small h m q d x).
Qed.
Print Assumptions C62_memory_index.
(** The store of C35 (four documents, three fields) and its three queries: the
    hypotheses hold and the search returns. *)
Example C62_witness : forall ncpu, (0 < ncpu)%nat ->
  let qs := map (wq rounded_ln) ["f1"; "f2"; "f3"] in
  Forall (fun c => is_save c = true) w_hist /\
  Forall (fun c => small_field (call_field c) /\ (Z.of_nat (size (f_tf (call_field c))) <= f_length (call_field c))%Z) w_hist /\
  (count w_hist < 2 ^ 53)%Z /\ (total_length w_hist < 2 ^ 53)%Z /\
  (forall q, q ∈ qs -> boost_ok (q_boost q) /\ boost_of (q_boost q) <= 1 /\ (length (q_terms q) <= 1)%nat) /\
  (exists s res, rtc (std_step (float_ops rounded_ln) ncpu (mem_view (mem_exec w_hist)) qs) (std_init (float_ops rounded_ln) qs) s /\ std_returns (float_ops rounded_ln) s res) /\
  search_err (length qs) 1 1 < / 200000000000.
Proof.
  intros ncpu Hc qs. split; [repeat constructor|]. split.
  { repeat (constructor; [split; [split; [cbn; lia|]|vm_compute; discriminate]; intros t; unfold geti; cbn [call_field f_tf fld]; rewrite ?lookup_insert_Some, ?lookup_singleton_Some;
      repeat (match goal with |- context [<[?k := _]> _ !! t] => destruct (decide (k = t)) as [<-|]; [rewrite lookup_insert|rewrite lookup_insert_ne by done] | |- context [{[?k := _]} !! t] => destruct (decide (k = t)) as [<-|]; [rewrite lookup_singleton|rewrite lookup_singleton_ne by done] | |- context [∅ !! t] => rewrite lookup_empty end); cbn; lia|]). constructor. }
  split; [vm_compute; done|]. split; [vm_compute; done|]. split.
  { intros q Hq. assert (q_boost q = f64_of_Z 1 /\ q_terms q = ["a"]) as [E1 E2]. { unfold qs in Hq. cbn [map] in Hq. rewrite !elem_of_cons, elem_of_nil in Hq. destruct Hq as [->|[->|[->|[]]]]; done. } rewrite E1, E2. destruct (of_Z_exact 1 ltac:(lia)) as [F1 V1].
    split; [split; [done|right]; rewrite V1; split; (change 1 with (bpow radix2 0); apply bpow_mono; lia)|]. split; [|done]. unfold boost_of. rewrite V1. destruct (Req_EM_T 1 0); lra. }
  split.
  { destruct (std_realize (float_ops rounded_ln) ncpu (mem_view (mem_exec w_hist)) Hc (mem_view_pointwise _) qs qs ltac:(done)) as (s & res & H1 & H2 & _). by exists s, res. }
  unfold search_err. cbn [length qs map]. change (bpow radix2 43) with 8796093022208. cbn [INR]. lra.
Qed.
Lemma w_exact d l tf : matches w_view ["a"] "f1" d = true -> v_fields w_view [d] "f1" !! d = Some (mkField "f1" l tf) ->
  exact_score w_view [wq rounded_ln "f1"] d = 1 * ln (1 + (IZR 4 - IZR 2 + 1 / 2) / (IZR 2 + 1 / 2)) * (IZR (geti tf "a") * (6 / 5 + 1) / (IZR (geti tf "a") + 6 / 5 * ((1 - 3 / 4) + 3 / 4 * (IZR l / (IZR 5 / IZR 4))))).
Proof.
  intros H1 H2. unfold exact_score, contributions. cbn [map omap list_omap]. unfold contribution. cbn [exact_query wq q_terms q_field]. rewrite H1, H2. cbn [fold_right]. rewrite Rplus_0_r. unfold query_score, bm25. cbn [exact_query wq q_terms q_field q_boost fold_left].
  replace (v_size w_view "f1") with 4%Z by (vm_compute; reflexivity). replace (v_length w_view "f1") with 5%Z by (vm_compute; reflexivity). change (B2R (f64_of_Z 1)) with (val (f64_of_Z 1)). rewrite boost_real. unfold boost_of. destruct (of_Z_exact 1 ltac:(lia)) as [_ ->]. destruct (Req_EM_T 1 0); [lra|].
  unfold bm25_term, idf_bm25. cbn [real_ops num of_int nadd nsub nmul ndiv nlog n_half n_k1 n_b f_tf f_length]. replace (geti (v_nft w_view "f1" ["a"]) "a") with 2%Z by (vm_compute; reflexivity). ring.
Qed.
(** Document d1 (two occurrences in a field of length 2) clearly wins against d2. *)
Example C62_clear_winner_witness : exact_score w_view [wq rounded_ln "f1"] "d1" > exact_score w_view [wq rounded_ln "f1"] "d2" + 2 * search_err 1 1 1.
Proof.
  rewrite (w_exact "d1" 2 {["a" := 2%Z]}) by (vm_compute; reflexivity). rewrite (w_exact "d2" 1 {["a" := 1%Z]}) by (vm_compute; reflexivity).
  change (geti {["a" := 2%Z]} "a") with 2%Z. change (geti {["a" := 1%Z]} "a") with 1%Z. replace (1 + (4 - 2 + 1 / 2) / (2 + 1 / 2)) with 2 by lra. pose proof (ln_ge_minus 2 ltac:(lra)). unfold search_err. change (bpow radix2 43) with 8796093022208. cbn [INR]. lra.
Qed.
