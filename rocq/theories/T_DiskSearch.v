(** C60: searching over the disk storage. *)
From Verif Require Import Base M_Field M_LRU S_LRU S_Visits M_Memory M_File M_Serialize M_Disk M_Num M_FanIn M_Search M_Standard S_View S_Search S_Memory M_DiskSearch P_Base P_File P_LRU S_Disk P_DiskBase P_DiskInv P_DiskMem P_DiskWriter P_DiskTerm P_DiskDocs P_DiskDocs2 P_DiskDocs3 P_DiskSearch T_Memory T_Search T_DiskMem T_DiskNft T_DiskIndex T_DiskDocs X_DiskExec P_Memory2 P_Concurrent5.
#[local] Open Scope nat_scope.
#[local] Opaque serialize_metrics deserialize_metrics serialize_nft deserialize_nft serialize_field_map deserialize_field_map serialize_index deserialize_index.

(** Any number of goroutines call GetFields at once on a store that has not been
    restarted and whose cache can hold all documents: each of them gets the field last
    saved for each requested document, whatever the schedule and whatever the writers
    and the merger do meanwhile; none of them panics and each of them can finish; the
    other answers of the store do not change. *)
Theorem C60_parallel_reads : forall compress decompress cache_size, (0 < cache_size)%Z ->
  forall y u qs y' pcs, reachable compress decompress cache_size y -> good_log (y_log y) -> ECrash ∉ y_log y ->
  docs_saved_at_most cache_size (calls_of (y_log y)) -> (forall d, requested (y_log y) d -> plain_doc d) ->
  y_proc y = Up u -> u_pc u = CIdle -> (forall q d, q ∈ qs -> d ∈ q.1 -> plain_doc d) ->
  rtc (reads_step compress decompress cache_size) (y, read_start <$> qs) (y', pcs) ->
  exists u', y_proc y' = Up u' /\
    (forall f t, disk_get_documents (u_mem u') f t = disk_get_documents (u_mem u) f t) /\
    (forall f, disk_get_size (u_mem u') f = disk_get_size (u_mem u) f) /\
    (forall f, disk_get_length (u_mem u') f = disk_get_length (u_mem u) f) /\
    (forall f ts, disk_get_nft (u_mem u') f ts = disk_get_nft (u_mem u) f ts) /\
    forall i ids f, qs !! i = Some (ids, f) -> exists pc, pcs !! i = Some pc /\
      ~ c_fatal decompress (y_fs y') (u_mem u', pc) /\
      (forall ids' f' acc, pc = CGot ids' f' acc -> ids' = ids /\ f' = f /\
        forall d, acc !! d = if decide (d ∈ ids) then doc_map (calls_of (y_log y)) d !! f else None) /\
      exists y'' pcs'' acc, rtc (reads_step compress decompress cache_size) (y', pcs) (y'', pcs'') /\ pcs'' !! i = Some (CGot ids f acc).
Proof.
  intros compress decompress cs pos y u qs y' pcs Hr Hg H1 H2 H3 Hu Hp Hpl Hrun. set (h := calls_of (y_log y)).
  assert (forall x x', inv_a compress decompress cs h (u_mem u) qs x -> reads_step compress decompress cs x x' -> inv_a compress decompress cs h (u_mem u) qs x') as HS.
  { intros x x'. by apply inv_a_step. }
  assert (inv_a compress decompress cs h (u_mem u) qs (y', pcs)) as HI.
  { assert (forall a b, rtc (reads_step compress decompress cs) a b -> inv_a compress decompress cs h (u_mem u) qs a -> inv_a compress decompress cs h (u_mem u) qs b) as G.
    { induction 1 as [|a b c Hab _ IH]; [done|]. intros Ha. apply IH. by eapply HS. }
    apply (G _ _ Hrun). exists u, (y_log y). cbn [fst snd]. split; [done|]. split; [done|]. split; [done|]. split; [by rewrite <- Hu; destruct y|]. split; [done|]. split; [done|]. split; [done|]. apply readers_start. }
  pose proof HI as (u' & log0 & I1 & I2 & I3 & _).
  exists u'. split; [done|]. unfold tables in I3. injection I3 as T1 T2 T3 T4.
  split; [intros f t; unfold disk_get_documents; by rewrite T1|]. split; [intros f; unfold disk_get_size; by rewrite T3|]. split; [intros f; unfold disk_get_length; by rewrite T2|]. split; [intros f ts; unfold disk_get_nft; by rewrite T4|].
  intros i ids f Hi.
  destruct (finish compress decompress cs pos (doc_map h) (fun d => doc_map h d = ∅) (inv_a compress decompress cs h (u_mem u) qs) qs HS) with (x := (y', pcs)) (i := i) (q := (ids, f)) as (pc & Hpc & F1 & F2 & x' & acc & F3 & F4); [|done|done|].
  { intros x (v & l & J1 & J2 & J3 & J4 & J5 & J6 & J7 & J8). exists v. split; [done|]. destruct (inv_a_coherent compress decompress cs pos h _ _ _ J4 J5 J6 J7 J2) as (K1 & K2 & K3). split; [done|]. split; [done|]. intros q d Hq Hd Ho. left. split; [|done]. apply K3; [by apply (Hpl q)|done]. }
  exists pc. split; [done|]. split; [by apply F1|]. split.
  - intros ids' f' acc' E. destruct (F2 _ _ _ E) as [[= -> ->] G]. split; [done|]. split; [done|]. exact G.
  - destruct x' as [y'' pcs'']. by exists y'', pcs'', acc.
Qed.
Print Assumptions C60_parallel_reads.

(** The same on a store that was just reopened and only read since, with any cache size:
    the answers are those of the document files, evictions included. *)
Theorem C60_parallel_reads_reopened : forall compress decompress cache_size, gzip_ok compress decompress -> (0 < cache_size)%Z ->
  forall y0 g y1 u1 ev y u qs y' pcs, reachable compress decompress cache_size y0 -> y_proc y0 = Loading g ->
  live_step compress decompress cache_size y0 y1 -> y_proc y1 = Up u1 -> session compress decompress cache_size y1 ev y -> good_log (y_log y) ->
  (forall d z, Save d z ∉ calls_of ev) ->
  y_proc y = Up u -> u_pc u = CIdle -> (forall q d, q ∈ qs -> d ∈ q.1 -> plain_doc d) ->
  rtc (reads_step compress decompress cache_size) (y, read_start <$> qs) (y', pcs) ->
  exists u', y_proc y' = Up u' /\
    (forall f t, disk_get_documents (u_mem u') f t = disk_get_documents (u_mem u) f t) /\
    (forall f, disk_get_size (u_mem u') f = disk_get_size (u_mem u) f) /\
    (forall f, disk_get_length (u_mem u') f = disk_get_length (u_mem u) f) /\
    (forall f ts, disk_get_nft (u_mem u') f ts = disk_get_nft (u_mem u) f ts) /\
    forall i ids f, qs !! i = Some (ids, f) -> exists pc, pcs !! i = Some pc /\
      ~ c_fatal decompress (y_fs y') (u_mem u', pc) /\
      (forall ids' f' acc, pc = CGot ids' f' acc -> ids' = ids /\ f' = f /\
        forall d, acc !! d = if decide (d ∈ ids) then file_docs decompress (y_fs y1) d !! f else None) /\
      exists y'' pcs'' acc, rtc (reads_step compress decompress cache_size) (y', pcs) (y'', pcs'') /\ pcs'' !! i = Some (CGot ids f acc).
Proof.
  intros compress decompress cs gz pos y0 g y1 u1 ev y u qs y' pcs Hr0 H0 L Hu1 Hs Hg N Hu Hp Hpl Hrun. set (s0 := y_fs y1).
  destruct (ro_session compress decompress cs pos y0 y1 u1 ev y Hr0 (ex_intro _ g H0) L Hu1 Hs Hg N) as (u2 & Hu2 & Hro). rewrite Hu in Hu2. injection Hu2 as <-.
  assert (reachable compress decompress cs y1) as Hr1 by (eapply rtc_r; [exact Hr0|by left]).
  assert (forall q d, q ∈ qs -> d ∈ q.1 -> load_doc decompress s0 d <> None) as Hld.
  { intros q d Hq Hd. destruct (d_reach compress decompress cs pos y1 Hr1 (session_good compress decompress cs _ _ _ Hs Hg)) as (_ & Hv & _). unfold s0.
    destruct (doc_file (y_fs y1) d) as [c|] eqn:E.
    - destruct (Hv d (Hpl q d Hq Hd)) as (m & Hm); [by eexists|]. by rewrite (d_holds_load compress decompress gz _ _ _ Hm).
    - unfold load_doc. unfold doc_file in E. by rewrite E. }
  assert (forall x x', inv_b compress decompress cs s0 (u_mem u) qs x -> reads_step compress decompress cs x x' -> inv_b compress decompress cs s0 (u_mem u) qs x') as HS.
  { intros x x'. by apply inv_b_step. }
  assert (inv_b compress decompress cs s0 (u_mem u) qs (y', pcs)) as HI.
  { assert (forall a b, rtc (reads_step compress decompress cs) a b -> inv_b compress decompress cs s0 (u_mem u) qs a -> inv_b compress decompress cs s0 (u_mem u) qs b) as G.
    { induction 1 as [|a b c Hab _ IH]; [done|]. intros Ha. apply IH. by eapply HS. }
    apply (G _ _ Hrun). destruct (d_reach compress decompress cs pos y (session_reach _ _ _ _ _ _ Hs Hr1) Hg) as (HB & HD).
    exists u. cbn [fst snd]. split; [done|]. split; [done|]. split; [done|]. split; [done|]. split; [done|]. split; [done|]. split; [done|]. apply readers_start. }
  pose proof HI as (u' & I1 & I2 & I3 & _).
  exists u'. split; [done|]. unfold tables in I3. injection I3 as T1 T2 T3 T4.
  split; [intros f t; unfold disk_get_documents; by rewrite T1|]. split; [intros f; unfold disk_get_size; by rewrite T3|]. split; [intros f; unfold disk_get_length; by rewrite T2|]. split; [intros f ts; unfold disk_get_nft; by rewrite T4|].
  intros i ids f Hi.
  destruct (finish compress decompress cs pos (file_docs decompress s0) (fun _ => True) (inv_b compress decompress cs s0 (u_mem u) qs) qs HS) with (x := (y', pcs)) (i := i) (q := (ids, f)) as (pc & Hpc & F1 & F2 & x' & acc & F3 & F4); [|done|done|].
  { intros x (v & J1 & J2 & J3 & J4 & J5 & J6 & J7 & J8). exists v. split; [done|]. split; [by eapply ro_coherent|]. split; [done|]. intros q d Hq Hd Ho. eapply ro_load; [exact J7|]. by apply (Hld q). }
  exists pc. split; [done|]. split; [by apply F1|]. split.
  - intros ids' f' acc' E. destruct (F2 _ _ _ E) as [[= -> ->] G]. split; [done|]. split; [done|]. exact G.
  - destruct x' as [y'' pcs'']. by exists y'', pcs'', acc.
Qed.
Print Assumptions C60_parallel_reads_reopened.

(** Index.Search and Standard.Search over a disk store that was never restarted and
    received only SaveOrUpdate calls make exactly the steps, and so return exactly the
    results, of the same searches over a memory store with the same history.  (That
    GetFields answers [doc_map] is C60_parallel_reads.) *)
Lemma doc_map_last h d f : doc_map h d !! f = last_saved d f h.
Proof.
  induction h as [|c h IH] using rev_ind; [apply (lookup_empty (M:=gmap string))|]. rewrite doc_map_app, last_saved_snoc, <- IH.
  destruct c as [d' x|d' x]; cbn; [|done]. unfold for_field. cbn. destruct (decide (d' = d)) as [->|Hne].
  - rewrite String.eqb_refl. cbn. destruct (String.eqb_spec (f_name x) f) as [->|Hf]; [by rewrite lookup_insert|by rewrite lookup_insert_ne].
  - by destruct (String.eqb_spec d' d).
Qed.
Theorem C60_same_searches : forall compress decompress cache_size y u l1 l2,
  reachable compress decompress cache_size y -> y_proc y = Up u -> u_pc u = CIdle ->
  y_log y = l1 ++ EOpened :: l2 -> EOpened ∉ l2 -> calls_of l1 = [] ->
  (forall c, c ∈ calls_of l2 -> exists d x, c = Save d x) ->
  forall m, mem_run mem_new (calls_of l2) m -> forall N ncpu,
  let v := disk_view (u_mem u) (doc_map (calls_of (y_log y))) in
  (forall terms f s, rtc (search_step N ncpu v) (search_init terms f) s <-> rtc (search_step N ncpu (mem_view m)) (search_init terms f) s) /\
  (forall qs s, rtc (std_step N ncpu v qs) (std_init N qs) s <-> rtc (std_step N ncpu (mem_view m) qs) (std_init N qs) s).
Proof.
  intros compress decompress cs y u l1 l2 Hr Hu Hp Hl H1 H2 H3 m Hm N ncpu v.
  destruct (C46_same_as_memory compress decompress cs y u l1 l2 Hr Hu Hp Hl H1 H2 H3 m Hm) as (S1 & _ & S3 & S4 & S5).
  assert (calls_of (y_log y) = calls_of l2) as Ec by (rewrite Hl, calls_app, H2; done).
  assert (agree v (mem_view m)) as A.
  { split; [done|]. split; [|done]. intros ids f. apply map_eq. intros d. unfold v. cbn [disk_view mem_view v_fields]. rewrite disk_fields_spec, (mem_fields_exact _ _ _ _ _ Hm), Ec. destruct (decide _); [|done]. apply doc_map_last. }
  split; intros; split; apply rtc_mono; intros a b.
  - by apply search_step_agree.
  - by apply search_step_agree, agree_sym.
  - by apply std_step_agree.
  - by apply std_step_agree, agree_sym.
Qed.
Print Assumptions C60_same_searches.

(** Everything flushed, the process ends outside the merger's two renames and the folder
    is opened again (with any cache size): every search finds the same documents with
    the same fields (numbers as the files keep them, in 32 bits). *)
Theorem C60_restart_finds_same : forall compress decompress cache_size, gzip_ok compress decompress -> (0 < cache_size)%Z ->
  forall y u, reachable compress decompress cache_size y -> good_log (y_log y) -> ECrash ∉ y_log y ->
  docs_saved_at_most cache_size (calls_of (y_log y)) -> (forall d, requested (y_log y) d -> plain_doc d) ->
  y_proc y = Up u -> index_quiet u -> w_buf (u_dw u) = ∅ ->
  forall f, f <> "docs" -> ~ in_gap (u_mg u) f ->
  forall cache_size' u' s', reopen compress decompress cache_size' (y_fs y) u' s' ->
  forall N ncpu ncpu' terms st r st' r',
  rtc (search_step N ncpu (disk_view (u_mem u) (doc_map (calls_of (y_log y))))) (search_init terms f) st -> search_returns st r ->
  rtc (search_step N ncpu' (disk_view (u_mem u') (file_docs decompress s'))) (search_init terms f) st' -> search_returns st' r' ->
  forall d, plain_doc d -> sr_docs r' !! d = field32 <$> sr_docs r !! d.
Proof.
  intros compress decompress cs gz pos y u Hr Hg H1 H2 H3 Hu Hq Hb f Hf Hgap cs' u' s' Ho N ncpu ncpu' terms st r st' r' S1 R1 S2 R2 d Hd.
  pose proof (C48_quiet_reopen compress decompress cs gz y u f Hr Hg Hu Hf Hq Hgap cs' u' s' Ho) as Ei.
  assert (forall t, disk_get_documents (u_mem u') f t = disk_get_documents (u_mem u) f t) as Ed.
  { intros t. revert Ei. unfold disk_get_index, disk_get_documents. assert (forall o : option (gmap string set_data), match o with Some idx => match idx !! t with Some s => Some s | None => None end | None => None end = default ∅ o !! t) as G.
    { intros [i|]; cbn; [by destruct (i !! t)|by rewrite lookup_empty]. }
    rewrite !G. by intros ->. }
  assert (file_docs decompress s' d = field32 <$> doc_map (calls_of (y_log y)) d) as Ef.
  { destruct (d_reach compress decompress cs pos y Hr Hg) as ([Bl _] & _). destruct Ho as (acc & Hlo & _). destruct (loads_frame compress decompress _ _ _ Bl Hlo) as (_ & _ & _ & F).
    assert (load_doc decompress s' d = load_doc decompress (y_fs y) d) as El. { apply load_same. unfold doc_file. apply F; by rewrite owner_d. }
    unfold file_docs. rewrite El. destruct Hq as (Q1 & _). destruct (C54_latest compress decompress cs gz pos y u d Hr Hg H1 H2 H3 Hu Q1) as [L1 L2]; [by rewrite Hb|done|].
    destruct (existsb (fun c => match c with Save d' _ => String.eqb d' d | _ => false end) (calls_of (y_log y))) eqn:Hx.
    - apply existsb_exists in Hx as (c & Hc & Hx). destruct c as [d' x|]; [|done]. apply String.eqb_eq in Hx. subst d'. rewrite L1; [done|]. exists x. by apply elem_of_list_In.
    - assert (forall x, Save d x ∉ calls_of (y_log y)) as Hn. { intros x Hi%elem_of_list_In. assert (existsb (fun c => match c with Save d' _ => String.eqb d' d | _ => false end) (calls_of (y_log y)) = true) as E; [|congruence]. apply existsb_exists. exists (Save d x). split; [done|]. apply String.eqb_refl. }
      rewrite (L2 Hn), doc_map_none by done. by rewrite fmap_empty. }
  destruct (C31_search_exact N ncpu _ terms f st r (disk_view_pointwise _ _) S1 R1) as [E1 _].
  destruct (C31_search_exact N ncpu' _ terms f st' r' (disk_view_pointwise _ _) S2 R2) as [E2 _].
  assert (matches (disk_view (u_mem u') (file_docs decompress s')) terms f d = matches (disk_view (u_mem u) (doc_map (calls_of (y_log y)))) terms f d) as Em.
  { unfold matches. cbn [disk_view v_docs]. clear - Ed. induction terms as [|t ts IH]; [done|]. cbn [existsb]. by rewrite Ed, IH. }
  apply option_eq. intros x. rewrite E2, Em, fmap_Some. cbn [disk_view v_fields]. rewrite disk_fields_spec, decide_True by (by apply elem_of_list_singleton). rewrite Ef, lookup_fmap, fmap_Some. split.
  - intros (M & x0 & X1 & X2). exists x0. split; [|done]. apply E1. cbn [disk_view v_fields]. rewrite disk_fields_spec, decide_True by (by apply elem_of_list_singleton). done.
  - intros (x0 & X1 & X2). apply E1 in X1 as [M X1]. cbn [disk_view v_fields] in X1. rewrite disk_fields_spec, decide_True in X1 by (by apply elem_of_list_singleton). split; [done|]. by exists x0.
Qed.
Print Assumptions C60_restart_finds_same.

(** The hypotheses of C60_parallel_reads, and two readers that get what was saved. *)
Example C60_case : exists y u qs, reachable id Some 2 y /\ good_log (y_log y) /\ ECrash ∉ y_log y /\
  docs_saved_at_most 2 (calls_of (y_log y)) /\ (forall d, requested (y_log y) d -> plain_doc d) /\ y_proc y = Up u /\ u_pc u = CIdle /\
  (forall q d, q ∈ qs -> d ∈ q.1 -> plain_doc d) /\ qs = [(["d1"; "d2"], "text"); (["d2"; "d3"], "text")] /\
  exists y' pcs acc, rtc (reads_step id Some 2) (y, read_start <$> qs) (y', pcs) /\ pcs !! 0 = Some (CGot ["d1"; "d2"] "text" acc) /\
    acc !! "d1" = Some x_a /\ acc !! "d2" = Some x_b.
Proof.
  destruct (play_obs 2 (story ++ [(false, TDocs); (false, ADocs)])
    (fun y => (bool_decide (calls_of (y_log y) = [Save "d1" x_a; Save "d1" x_t; Save "d2" x_a; Save "d2" x_b]), bool_decide (ECrash ∉ y_log y), 
      bool_decide (omap (fun e => match e with EGet ids f => Some ids | _ => None end) (y_log y) = []),
      match y_proc y with Up u => match u_pc u with CIdle => true | _ => false end | _ => false end))
    (true, true, true, true)) as (y & Hr & H); [vm_compute; reflexivity|].
  apply pair_equal_spec in H as [H H4]. apply pair_equal_spec in H as [H H3]. apply pair_equal_spec in H as [H1 H2]. apply bool_decide_eq_true_1 in H1, H2, H3.
  destruct (y_proc y) as [| |u] eqn:E; try discriminate H4. destruct (u_pc u) eqn:E1; try discriminate H4.
  assert (good_log (y_log y)) as Hg. { apply (good_log_case _ _ H1). repeat constructor; done. }
  assert (docs_saved_at_most 2 (calls_of (y_log y))) as Hd. { rewrite H1. apply (at_most_case _ _ ["d1"; "d2"]); [|done]. intros d x Hx. rewrite !elem_of_cons in Hx. set_solver. }
  assert (forall d, requested (y_log y) d -> plain_doc d) as Hq.
  { intros d (ids & f & Hi & _). assert (ids ∈ omap (fun e => match e with EGet ids f => Some ids | _ => None end) (y_log y)) as Hin by (apply elem_of_list_omap; by eexists). rewrite H3 in Hin. by apply elem_of_nil in Hin. }
  set (qs := [(["d1"; "d2"], "text"); (["d2"; "d3"], "text")]).
  assert (forall q d, q ∈ qs -> d ∈ q.1 -> plain_doc d) as Hpl.
  { intros q d Hqs Hdq. apply plain_case; revert d Hdq; apply Forall_forall; revert q Hqs; apply (Forall_forall (fun q : list string * string => Forall _ q.1)); repeat constructor; done. }
  exists y, u, qs. do 9 (split; [done|]).
  destruct (C60_parallel_reads id Some 2 ltac:(done) y u qs y (read_start <$> qs) Hr Hg H2 Hd Hq E E1 Hpl (rtc_refl _ _)) as (u' & _ & _ & _ & _ & _ & F).
  destruct (F 0 ["d1"; "d2"] "text" eq_refl) as (pc0 & _ & _ & _ & y' & pcs & acc & Hrun & Hgot).
  destruct (C60_parallel_reads id Some 2 ltac:(done) y u qs y' pcs Hr Hg H2 Hd Hq E E1 Hpl Hrun) as (u2 & _ & _ & _ & _ & _ & F').
  destruct (F' 0 ["d1"; "d2"] "text" eq_refl) as (pc & Hpc & _ & Hacc & _). rewrite Hgot in Hpc. injection Hpc as <-. destruct (Hacc _ _ _ eq_refl) as (_ & _ & G).
  exists y', pcs, acc. split; [done|]. split; [done|]. rewrite !G, H1. split; vm_compute; reflexivity.
Qed.

(** The hypotheses of C60_parallel_reads_reopened: two documents, a cache of one. *)
Example C60_reopened_case : exists y0 g y1 u1, reachable id Some 1 y0 /\ y_proc y0 = Loading g /\ live_step id Some 1 y0 y1 /\ y_proc y1 = Up u1 /\
  session id Some 1 y1 [] y1 /\ good_log (y_log y1) /\ u_pc u1 = CIdle /\
  file_docs Some (y_fs y1) "d1" !! "text" = Some x_a /\ file_docs Some (y_fs y1) "d2" !! "text" = Some x_b /\
  exists y' pcs acc, rtc (reads_step id Some 1) (y1, read_start <$> [(["d1"; "d2"], "text"); (["d2"], "text")]) (y', pcs) /\ pcs !! 0 = Some (CGot ["d1"; "d2"] "text" acc) /\
    acc !! "d1" = Some x_a /\ acc !! "d2" = Some x_b.
Proof.
  destruct (play_obs 1 (dopen ++ dsave "d1" x_a ++ dsave "d2" x_b ++ dflush ++ [(false, ACrash); (false, AStart); (true, ALoad)])
    (fun y => (bool_decide (calls_of (y_log y) = [Save "d1" x_a; Save "d2" x_b]), match y_proc y with Loading _ => true | _ => false end,
      match exec id Some 1 AOpen y with Some y1 => match y_proc y1 with Up u => match u_pc u with CIdle => bool_decide (calls_of (y_log y1) = [Save "d1" x_a; Save "d2" x_b]) &&
         bool_decide (file_docs Some (y_fs y1) "d1" !! "text" = Some x_a) && bool_decide (file_docs Some (y_fs y1) "d2" !! "text" = Some x_b) | _ => false end | _ => false end | None => false end))
    (true, true, true)) as (y & Hr & H); [vm_compute; reflexivity|].
  apply pair_equal_spec in H as [H H3]. apply pair_equal_spec in H as [H1 H2]. apply bool_decide_eq_true_1 in H1.
  destruct (y_proc y) as [|g|] eqn:E; try discriminate H2. destruct (exec id Some 1 AOpen y) as [y1|] eqn:Ex; [|discriminate H3]. apply exec_ok in Ex.
  destruct (y_proc y1) as [| |u1] eqn:E1; try discriminate H3. destruct (u_pc u1) eqn:E2; try discriminate H3. rewrite !andb_true_iff, !bool_decide_eq_true in H3. destruct H3 as ((C1 & F1) & F2).
  assert (live_step id Some 1 y y1) as Hl. { destruct Ex as [|Hc]; [done|]. inversion Hc; subst; cbn in E1; discriminate E1. }
  assert (good_log (y_log y1)) as Hg. { apply (good_log_case _ _ C1). repeat constructor; done. }
  exists y, g, y1, u1. do 4 (split; [done|]). split; [constructor|]. do 4 (split; [done|]).
  set (qs := [(["d1"; "d2"], "text"); (["d2"], "text")]).
  assert (forall q d, q ∈ qs -> d ∈ q.1 -> plain_doc d) as Hpl.
  { intros q d Hqs Hdq. apply plain_case; revert d Hdq; apply Forall_forall; revert q Hqs; apply (Forall_forall (fun q : list string * string => Forall _ q.1)); repeat constructor; done. }
  assert (gzip_ok id Some) as gz by done. assert (0 < 1)%Z as pos by done.
  assert (forall d z, Save d z ∉ calls_of []) as Hn by (intros ? ? ?%elem_of_nil; done).
  destruct (C60_parallel_reads_reopened id Some 1 gz pos y g y1 u1 [] y1 u1 qs y1 (read_start <$> qs) Hr E Hl E1 (session_refl _ _ _ _) Hg Hn E1 E2 Hpl (rtc_refl _ _)) as (u3 & _ & _ & _ & _ & _ & F).
  destruct (F 0 ["d1"; "d2"] "text" eq_refl) as (pc0 & _ & _ & _ & y' & pcs & acc & Hrun & Hgot).
  destruct (C60_parallel_reads_reopened id Some 1 gz pos y g y1 u1 [] y1 u1 qs y' pcs Hr E Hl E1 (session_refl _ _ _ _) Hg Hn E1 E2 Hpl Hrun) as (u2 & _ & _ & _ & _ & _ & F').
  destruct (F' 0 ["d1"; "d2"] "text" eq_refl) as (pc & Hpc & _ & Hacc & _). rewrite Hgot in Hpc. injection Hpc as <-. destruct (Hacc _ _ _ eq_refl) as (_ & _ & G).
  exists y', pcs, acc. split; [done|]. split; [done|]. rewrite !G. split; [by rewrite decide_True by left|]. rewrite decide_True by (right; left). done.
Qed.
