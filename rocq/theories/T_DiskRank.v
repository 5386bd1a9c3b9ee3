(** C60: a restart can reverse a ranking. *)
From Coq Require Import Reals Lra.
From Verif Require Import Base M_Field M_LRU S_LRU S_Visits M_Memory M_File M_Serialize M_Disk M_Num M_NumR M_FanIn M_Search M_Standard S_View S_Search S_BM25 S_Memory M_DiskSearch S_Disk S_DiskDurable X_DiskExec P_DiskSearch T_Search T_DiskIndex T_DiskDocs.
#[local] Open Scope nat_scope.
#[local] Opaque serialize_metrics deserialize_metrics serialize_nft deserialize_nft serialize_field_map deserialize_field_map serialize_index deserialize_index.

(** A search with one query that scores exactly two documents. *)
Lemma rank_two ncpu v q d1 d2 x1 x2 st res : fields_pointwise v -> d1 <> d2 ->
  (forall d, contribution real_ops v q d = if decide (d = d1) then Some x1 else if decide (d = d2) then Some x2 else None) -> (x1 > x2)%R ->
  rtc (std_step real_ops ncpu v [q]) (std_init real_ops [q]) st -> std_returns real_ops st res -> res.*1 = [d1; d2].
Proof.
  intros Hv Hne Hc Hx Hs Hr. destruct (C32_standard_search_exact ncpu v [q] st res Hv Hs Hr) as (H1 & H2 & H3).
  assert (forall d x, (d, x) ∈ res <-> (d = d1 /\ x = x1) \/ (d = d2 /\ x = x2)) as HM.
  { intros d x. rewrite H2. cbn. specialize (Hc d). split.
    - intros [(q' & ->%elem_of_list_singleton & Hq) ->]. rewrite Hc in Hq |- *. destruct (decide (d = d1)) as [->|]; [left; split; [done|]; cbn; lra|]. destruct (decide (d = d2)) as [->|]; [right; split; [done|]; cbn; lra|]. by destruct Hq.
    - intros [[-> ->]|[-> ->]].
      + rewrite decide_True in Hc by done. rewrite Hc. cbn. split; [|lra]. exists q. split; [left|]. rewrite Hc. by eexists.
      + rewrite decide_False, decide_True in Hc by done. rewrite Hc. cbn. split; [|lra]. exists q. split; [left|]. rewrite Hc. by eexists. }
  assert (res ≡ₚ [(d1, x1); (d2, x2)]) as HP.
  { apply NoDup_Permutation; [by eapply NoDup_fmap_1|repeat constructor; set_solver|]. intros [d x]. rewrite HM, !elem_of_cons, elem_of_nil. split; [intros [[-> ->]|[-> ->]]; auto|intros [[= -> ->]|[[= -> ->]|[]]]; auto]. }
  assert (length res = 2) as Hlen by (by rewrite HP). destruct res as [|a [|b [|]]]; try discriminate Hlen.
  assert (a.2 >= b.2)%R as Hge by (apply (H3 0 1); [lia|done|done]).
  assert (a ∈ [(d1, x1); (d2, x2)] /\ b ∈ [(d1, x1); (d2, x2)]) as [Ha Hb] by (split; rewrite <- HP; set_solver).
  rewrite !elem_of_cons, elem_of_nil in Ha, Hb. cbn in H1. apply NoDup_cons in H1 as [Hab _]. rewrite elem_of_list_singleton in Hab.
  destruct Ha as [->|[->|[]]], Hb as [->|[->|[]]]; cbn in *; try done. lra.
Qed.

Definition r_1 : field := mkField "text" 2 {["a" := 1%Z; "c" := 1%Z]}.
Definition r_2 : field := mkField "text" 1 {["b" := 1%Z]}.
Definition r_q : query real_ops := @mkQuery real_ops "text" 1%R ["a"; "b"].
Definition answers_1 (v : view) : Prop :=
  v_docs v "text" "a" = Some {["d1" := true]} /\ v_docs v "text" "b" = Some {["d2" := true]} /\
  v_fields v ["d1"] "text" !! "d1" = Some r_1 /\ v_fields v ["d2"] "text" !! "d2" = Some r_2 /\
  v_size v "text" = 2%Z /\ v_length v "text" = 3%Z.
Lemma r_contribution v d : answers_1 v -> contribution real_ops v r_q d =
  if decide (d = "d1") then Some (score ["a"; "b"] 1 (3 / 2) 2 (v_nft v "text" ["a"; "b"]) r_1) else
  if decide (d = "d2") then Some (score ["a"; "b"] 1 (3 / 2) 2 (v_nft v "text" ["a"; "b"]) r_2) else None.
Proof.
  intros (A1 & A2 & A3 & A4 & A5 & A6). unfold contribution, matches, query_score. cbn [r_q q_terms q_field q_boost existsb]. rewrite A1, A2, A5, A6. unfold set_contains.
  destruct (decide (d = "d1")) as [->|H1]; [by rewrite lookup_singleton, A3|]. destruct (decide (d = "d2")) as [->|H2]; [by rewrite lookup_singleton_ne, lookup_singleton, A4 by done|].
  by rewrite !lookup_singleton_ne by done.
Qed.
Lemma r_idf (t n : R) : idf t n = ln (1 + (t - n + 1 / 2) / (n + 1 / 2)).
Proof. reflexivity. Qed.
Lemma r_scores nft na : geti nft "a" = na -> geti nft "b" = 1%Z ->
  score ["a"; "b"] 1 (3 / 2) 2 nft r_1 = (ln (1 + (2 - IZR na + 1 / 2) / (IZR na + 1 / 2)) * (22 / 25))%R /\
  score ["a"; "b"] 1 (3 / 2) 2 nft r_2 = (ln 2 * (22 / 19))%R.
Proof.
  intros Ea Eb. rewrite !C34_formula. cbn [map rsum fold_right]. rewrite Ea, Eb. unfold eff_boost. destruct (Req_EM_T 1 0) as [E|_]; [lra|].
  replace (geti (f_tf r_1) "a") with 1%Z by (vm_compute; reflexivity). replace (geti (f_tf r_1) "b") with 0%Z by (vm_compute; reflexivity).
  replace (geti (f_tf r_2) "a") with 0%Z by (vm_compute; reflexivity). replace (geti (f_tf r_2) "b") with 1%Z by (vm_compute; reflexivity).
  cbn [r_1 r_2 f_length]. rewrite !r_idf. replace (1 + (2 - 1 + 1 / 2) / (1 + 1 / 2))%R with 2%R by field. split; field.
Qed.

(** Two documents; everything has been flushed (document frequencies once after each
    call); the index, documents, sizes and lengths survive the restart, but the count of
    term a, not touched by the second call, does not: the ranking is reversed. *)
Definition r_story : list (bool * act) :=
  dopen ++ dsave "d1" r_1 ++ [(false, TNft); (true, ANft); (true, ARecv)] ++ dsave "d2" r_2 ++
  [(false, TNft); (true, ANft); (true, ARecv); (false, TMetrics); (true, AMetrics); (false, TIndex); (true, AIndex "u1")] ++ dflush.
Definition r_answers (m : cmem) (docs : string -> gmap string field) : bool :=
  bool_decide (disk_get_documents m "text" "a" = Some {["d1" := true]}) && bool_decide (disk_get_documents m "text" "b" = Some {["d2" := true]}) &&
  bool_decide (docs "d1" !! "text" = Some r_1) && bool_decide (docs "d2" !! "text" = Some r_2) && Z.eqb (disk_get_size m "text") 2 && Z.eqb (disk_get_length m "text") 3.
Lemma r_answers_ok m docs : r_answers m docs = true -> answers_1 (disk_view m docs).
Proof.
  unfold r_answers. rewrite !andb_true_iff, !bool_decide_eq_true, !Z.eqb_eq. intros (((((A1 & A2) & A3) & A4) & A5) & A6).
  unfold answers_1. cbn [disk_view v_docs v_fields v_size v_length]. rewrite !disk_fields_spec, !decide_True by (by apply elem_of_list_singleton). done.
Qed.
Definition u_flushed (u : M_Disk.up) : bool :=
  match u_pc u, u_ich u, m_pc (u_mg u) with
  | CIdle, [], MIdle => bool_decide (i_buf (u_iw u) = ∅) && bool_decide (w_buf (u_mw u) = ∅) && bool_decide (w_buf (u_nw u) = ∅) && bool_decide (w_buf (u_dw u) = ∅)
  | _, _, _ => false
  end.
Theorem C60_restart_ranking_refuted : exists y u u' s', reachable Datatypes.id Some 2 y /\ good_log (y_log y) /\ ECrash ∉ y_log y /\
  calls_of (y_log y) = [Save "d1" r_1; Save "d2" r_2] /\ y_proc y = Up u /\ u_pc u = CIdle /\ flushed u /\ (forall f, ~ in_gap (u_mg u) f) /\
  reopen Datatypes.id Some 2 (y_fs y) u' s' /\
  (forall ncpu st res, rtc (std_step real_ops ncpu (disk_view (u_mem u) (doc_map (calls_of (y_log y)))) [r_q]) (std_init real_ops [r_q]) st ->
     std_returns real_ops st res -> res.*1 = ["d2"; "d1"]) /\
  (forall ncpu st res, rtc (std_step real_ops ncpu (disk_view (u_mem u') (file_docs Some s')) [r_q]) (std_init real_ops [r_q]) st ->
     std_returns real_ops st res -> res.*1 = ["d1"; "d2"]).
Proof.
  destruct (play_obs 2 r_story
    (fun y => (bool_decide (calls_of (y_log y) = [Save "d1" r_1; Save "d2" r_2]), bool_decide (ECrash ∉ y_log y),
      match y_proc y with Up u => u_flushed u && r_answers (u_mem u) (doc_map [Save "d1" r_1; Save "d2" r_2]) &&
        bool_decide (disk_get_nft (u_mem u) "text" ["a"; "b"] = {["a" := 1%Z; "b" := 1%Z]}) | _ => false end,
      match reopen_exec Datatypes.id Some 2 (y_fs y) with Some (u', s') => r_answers (u_mem u') (file_docs Some s') &&
        bool_decide (disk_get_nft (u_mem u') "text" ["a"; "b"] = {["a" := 0%Z; "b" := 1%Z]}) | None => false end))
    (true, true, true, true)) as (y & Hr & H); [vm_compute; reflexivity|].
  apply pair_equal_spec in H as [H H4]. apply pair_equal_spec in H as [H H3]. apply pair_equal_spec in H as [H1 H2]. apply bool_decide_eq_true_1 in H1, H2.
  destruct (y_proc y) as [| |u] eqn:Eu; try discriminate H3. destruct (reopen_exec Datatypes.id Some 2 (y_fs y)) as [[u' s']|] eqn:Er; [|discriminate H4]. apply reopen_exec_ok in Er.
  apply andb_true_iff in H3 as [H3 N1]. apply andb_true_iff in H3 as [H3 A1]. apply andb_true_iff in H4 as [A2 N2]. apply bool_decide_eq_true_1 in N1, N2. apply r_answers_ok in A1, A2.
  unfold u_flushed in H3. destruct (u_pc u) eqn:Ep; try discriminate H3. destruct (u_ich u) eqn:Ei; try discriminate H3. destruct (m_pc (u_mg u)) eqn:Em; try discriminate H3.
  rewrite !andb_true_iff, !bool_decide_eq_true in H3. destruct H3 as (((B1 & B2) & B3) & B4).
  exists y, u, u', s'. split; [done|]. split; [apply (good_log_case _ _ H1); repeat constructor; done|]. do 4 (split; [done|]). split.
  { unfold flushed. rewrite Ep, Ei, B1, B2, B3, B4. done. }
  split; [intros f (a & b & c & d & E); congruence|]. split; [done|]. rewrite H1. assert (ln 2 > 0)%R as L2 by (apply Rlt_gt; rewrite <- ln_1; apply ln_increasing; lra).
  assert (v_nft (disk_view (u_mem u) (doc_map [Save "d1" r_1; Save "d2" r_2])) "text" ["a"; "b"] = {["a" := 1%Z; "b" := 1%Z]}) as V1 by exact N1.
  assert (v_nft (disk_view (u_mem u') (file_docs Some s')) "text" ["a"; "b"] = {["a" := 0%Z; "b" := 1%Z]}) as V2 by exact N2.
  split; intros ncpu st res Hs Hres.
  - eapply (rank_two ncpu _ r_q "d2" "d1"); [apply disk_view_pointwise|done| | |exact Hs|exact Hres].
    + intros d. rewrite (r_contribution _ d A1). destruct (decide (d = "d1")) as [->|]; [by rewrite decide_False|]. done.
    + rewrite V1. destruct (r_scores {["a" := 1%Z; "b" := 1%Z]} 1) as [-> ->]; [vm_compute; reflexivity..|]. replace (1 + (2 - 1 + 1 / 2) / (1 + 1 / 2))%R with 2%R by field. lra.
  - eapply (rank_two ncpu _ r_q "d1" "d2"); [apply disk_view_pointwise|done| | |exact Hs|exact Hres].
    + intros d. apply (r_contribution _ d A2).
    + rewrite V2. destruct (r_scores {["a" := 0%Z; "b" := 1%Z]} 0) as [-> ->]; [vm_compute; reflexivity..|]. replace (1 + (2 - 0 + 1 / 2) / (0 + 1 / 2))%R with 6%R by field.
      assert (ln 6 > 2 * ln 2)%R; [|lra]. replace (2 * ln 2)%R with (ln 4). { apply Rlt_gt, ln_increasing; lra. } replace 4%R with (2 * 2)%R by lra. rewrite ln_mult by lra. lra.
Qed.
Print Assumptions C60_restart_ranking_refuted.
