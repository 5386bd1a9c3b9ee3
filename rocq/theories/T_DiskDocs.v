(** C47, C54: stored document fields. *)
From Verif Require Import Base M_Field M_LRU S_LRU S_Visits M_Memory M_File M_Serialize M_Disk P_Base P_LRU S_Disk P_DiskBase P_DiskInv P_DiskMem P_DiskWriter P_DiskDocs P_DiskDocs2 P_DiskDocs3 X_DiskExec T_LRU T_DiskMetrics T_DiskNft T_DiskIndex.
#[local] Open Scope Z_scope.
#[local] Opaque serialize_metrics deserialize_metrics serialize_nft deserialize_nft serialize_field_map deserialize_field_map serialize_index deserialize_index.

(** * C47 *)
(** From an empty folder, as long as no more documents were saved than the cache can
    hold and the process was not restarted: GetFields returns, for exactly the requested
    documents that have the field, the field last saved. *)
Theorem C47_get_fields : forall compress decompress cache_size, 0 < cache_size ->
  forall y u ids f acc, reachable compress decompress cache_size y -> good_log (y_log y) -> ECrash ∉ y_log y ->
  docs_saved_at_most cache_size (calls_of (y_log y)) -> (forall d, requested (y_log y) d -> plain_doc d) ->
  y_proc y = Up u -> u_pc u = CGot ids f acc ->
  forall id, acc !! id = if decide (id ∈ ids) then doc_map (calls_of (y_log y)) id !! f else None.
Proof.
  intros compress decompress cs pos y u ids f acc Hr Hg H1 H2 H3 Hu Hp id. pose proof (e_reach compress decompress cs pos y Hr Hg (conj H1 (conj H2 H3))) as He. rewrite Hu in He.
  destruct He as (kvs & own & past & _ & Hc & Hgot & _). unfold e_got in Hgot. rewrite Hp in Hc, Hgot. cbn in Hc. rewrite app_nil_r in Hc. subst past. destruct Hgot as [_ Hgot]. apply Hgot.
Qed.
Print Assumptions C47_get_fields.

(** After opening, the first SaveOrUpdate of a document that was not asked for before
    starts from an empty map: whatever the file of the document held (saved before the
    restart), after the flush it holds the new field alone. *)
Theorem C47_restart_erases : forall compress decompress cache_size, gzip_ok compress decompress -> 0 < cache_size ->
  forall y0 g y1 u1 e1 d x e2 y u, reachable compress decompress cache_size y0 -> y_proc y0 = Loading g ->
  live_step compress decompress cache_size y0 y1 -> y_proc y1 = Up u1 ->
  session compress decompress cache_size y1 (e1 ++ ECall (Save d x) :: e2) y -> good_log (y_log y) ->
  (forall z, Save d z ∉ calls_of e1) -> ~ requested e1 d -> (forall z, Save d z ∉ calls_of e2) -> plain_doc d ->
  y_proc y = Up u -> u_pc u = CIdle -> w_buf (u_dw u) !! d = None ->
  load_doc decompress (y_fs y) d = Some (Some {[f_name x := field32 x]}).
Proof.
  intros compress decompress cs gz pos y0 g y1 u1 e1 d x e2 y u Hr0 H0 L Hu1 Hs Hg N1 N2 N3 Hd Hu Hp Hb.
  destruct (first_save compress decompress cs pos y0 y1 u1 e1 d x e2 y Hd Hr0 (ex_intro _ g H0) L Hu1 Hs Hg N1 N2 N3) as (u' & Hu' & Hf).
  rewrite Hu in Hu'. injection Hu' as <-. destruct Hf as [[E _]|[l Ht]]; [by rewrite Hp in E|].
  assert (~ busy (u_pc u) d) as Hnb by (rewrite Hp; by intros [z Hz%elem_of_nil]).
  pose proof (track_link _ _ _ _ _ _ _ Ht Hnb) as HL. unfold d_link in HL. rewrite Hb in HL.
  rewrite (d_holds_load compress decompress gz _ _ _ HL). by rewrite map_fmap_singleton.
Qed.
Print Assumptions C47_restart_erases.

(** The same for a document evicted from the cache: if it is not in the cache when
    SaveOrUpdate gets to UpdateFieldDocument, the other fields are erased. *)
Theorem C47_evicted_erases : forall compress decompress cache_size, gzip_ok compress decompress -> 0 < cache_size ->
  forall y0 u0 d x ev y u, reachable compress decompress cache_size y0 -> y_proc y0 = Up u0 -> u_pc u0 = CDoc d x -> lr_table (c_cache (u_mem u0)) !! d = None ->
  session compress decompress cache_size y0 ev y -> good_log (y_log y) -> (forall z, Save d z ∉ calls_of ev) -> plain_doc d ->
  y_proc y = Up u -> u_pc u = CIdle -> w_buf (u_dw u) !! d = None ->
  load_doc decompress (y_fs y) d = Some (Some {[f_name x := field32 x]}).
Proof.
  intros compress decompress cs gz pos y0 u0 d x ev y u Hr0 H0 Hp0 Ht0 Hs Hg N Hd Hu Hp Hb.
  destruct (d_pre_session compress decompress cs pos y0 ev y u0 d x Hd Hr0 Hg H0 Hp0 Ht0 Hs N) as (_ & u' & Hu' & Hf).
  rewrite Hu in Hu'. injection Hu' as <-. destruct Hf as [[E _]|[l Ht]]; [congruence|].
  assert (~ busy (u_pc u) d) as Hnb by (rewrite Hp; by intros [z Hz%elem_of_nil]).
  pose proof (track_link _ _ _ _ _ _ _ Ht Hnb) as HL. unfold d_link in HL. rewrite Hb in HL.
  rewrite (d_holds_load compress decompress gz _ _ _ HL). by rewrite map_fmap_singleton.
Qed.
Print Assumptions C47_evicted_erases.

(** With a cache size of zero or less no SaveOrUpdate ever returns: the client panics
    in UpdateFieldDocument. *)
Theorem C47_no_cache_panics : forall compress decompress cache_size, cache_size <= 0 ->
  forall y u, reachable compress decompress cache_size y -> y_proc y = Up u ->
  (forall d x l, u_pc u <> CDocSend d x l) /\ (forall d x, u_pc u = CDoc d x -> up_fatal decompress (u, y_fs y)).
Proof.
  intros compress decompress cs neg y u Hr Hu.
  assert (match y_proc y with Up u => c_cache (u_mem u) = lru_new cs /\ forall d x l, u_pc u <> CDocSend d x l | _ => True end) as HI.
  { clear u Hu. revert y Hr. unfold reachable. apply (rtc_ind_r (R:=sys_step compress decompress cs) (fun y => match y_proc y with Up u => c_cache (u_mem u) = lru_new cs /\ forall d x l, u_pc u <> CDocSend d x l | _ => True end) sys_init); [done|].
    intros a b _ Hab IH. destruct Hab as [H|H]; inversion H; subst; cbn [y_proc] in *; try done.
    - match goal with G : opened _ _ _ _ _ |- _ => inversion G; subst end. done.
    - destruct IH as [I1 I2]. match goal with G : up_step _ _ _ _ _ |- _ => inversion G; subst end; cbn [u_mem u_pc] in *; try done; try (by destruct (I2 d x l)).
      + match goal with G : c_step _ _ _ _ |- _ => inversion G; subst end; cbn [c_cache set_index set_nft set_cache] in *; try done.
        * by destruct (c_index m !! f_name x).
        * by destruct full.
        * match goal with G : lru_get _ _ = _ |- _ => rewrite I1 in G; destruct (C14_panic_nonpositive nat cs id 0%nat neg) as [_ E]; rewrite E in G end. congruence.
        * match goal with G : lru_get _ _ = _ |- _ => rewrite I1 in G; destruct (C14_panic_nonpositive nat cs id 0%nat neg) as [_ E]; rewrite E in G end. split; [congruence|done].
        * match goal with G : lru_put _ _ ?l0 = _ |- _ => rewrite I1 in G; destruct (C14_panic_nonpositive nat cs id l0 neg) as [E _]; rewrite E in G end. done.
      + match goal with G : c_doc _ _ _ |- _ => inversion G; subst end; cbn [c_cache set_cache] in *;
          match goal with G : lru_get _ ?d0 = _ |- _ => rewrite I1 in G; destruct (C14_panic_nonpositive nat cs d0 l neg) as [E1 E]; rewrite E in G end; [congruence|].
        match goal with G : Some (lru_new cs, None) = Some _, G2 : lru_put _ _ _ = Some _ |- _ => injection G as <-; rewrite E1 in G2; discriminate G2 end.
    - destruct IH as [I1 I2]. match goal with G : up_tick _ _ |- _ => inversion G; subst end; done.
    - destruct IH as [I1 I2]. match goal with G : up_call _ _ _ |- _ => inversion G; subst end; done. }
  rewrite Hu in HI. destruct HI as [H1 H2]. split; [done|]. intros d x Hp. destruct u as [m pc ich mw nw dw iw mg]. cbn in *. subst pc. apply f_client.
  destruct (C14_panic_nonpositive nat cs d 0%nat neg) as [E1 E2]. eapply c_fatal_doc_put; rewrite ?H1; [exact E2|exact E1].
Qed.
Print Assumptions C47_no_cache_panics.

(** * C54 *)
(** The map built for a document by a SaveOrUpdate that is about to hand it to the
    writer is, once flushed, what the file holds (with 32-bit integers), as long as the
    document is not saved again in the session. *)
Theorem C54_flushed : forall compress decompress cache_size, gzip_ok compress decompress -> 0 < cache_size ->
  forall y0 u0 d x l m ev y u, reachable compress decompress cache_size y0 -> y_proc y0 = Up u0 -> u_pc u0 = CDocSend d x l -> c_heap (u_mem u0) !! l = Some m ->
  session compress decompress cache_size y0 ev y -> good_log (y_log y) -> (forall z, Save d z ∉ calls_of ev) -> plain_doc d ->
  y_proc y = Up u -> u_pc u = CIdle -> w_buf (u_dw u) !! d = None ->
  load_doc decompress (y_fs y) d = Some (Some (field32 <$> m)) /\ m !! f_name x = Some x.
Proof.
  intros compress decompress cs gz pos y0 u0 d x l m ev y u Hr0 H0 Hp0 Hm Hs Hg N Hd Hu Hp Hb.
  pose proof (session_good compress decompress cs _ _ _ Hs Hg) as Hg0. destruct (d_reach compress decompress cs pos y0 Hr0 Hg0) as (_ & _ & HD). rewrite H0 in HD. destruct HD as (kvs & own & HD).
  split.
  - destruct (d_track_session compress decompress cs pos y0 ev y u0 d l m Hd Hr0 H0) as (_ & u' & Hu' & Ht); try done; [by eapply d_track_start|].
    rewrite Hu in Hu'. injection Hu' as <-. assert (~ busy (u_pc u) d) as Hnb by (rewrite Hp; by intros [z Hz%elem_of_nil]).
    pose proof (track_link _ _ _ _ _ _ _ Ht Hnb) as HL. unfold d_link in HL. rewrite Hb in HL. exact (d_holds_load compress decompress gz _ _ _ HL).
  - pose proof (du_pc _ _ _ _ _ HD) as Hx. rewrite Hp0 in Hx. destruct Hx as (_ & m' & Hm' & Hx). congruence.
Qed.
Print Assumptions C54_flushed.

(** As long as the cache can hold all documents and the process was not restarted: once
    the writer has flushed, the file of every document holds exactly the latest field
    saved under each name; a document never saved has no file. *)
Theorem C54_latest : forall compress decompress cache_size, gzip_ok compress decompress -> 0 < cache_size ->
  forall y u d, reachable compress decompress cache_size y -> good_log (y_log y) -> ECrash ∉ y_log y ->
  docs_saved_at_most cache_size (calls_of (y_log y)) -> (forall d, requested (y_log y) d -> plain_doc d) ->
  y_proc y = Up u -> u_pc u = CIdle -> w_buf (u_dw u) !! d = None -> plain_doc d ->
  ((exists x, Save d x ∈ calls_of (y_log y)) -> load_doc decompress (y_fs y) d = Some (Some (field32 <$> doc_map (calls_of (y_log y)) d))) /\
  ((forall x, Save d x ∉ calls_of (y_log y)) -> load_doc decompress (y_fs y) d = Some None).
Proof.
  intros compress decompress cs gz pos y u d Hr Hg H1 H2 H3 Hu Hp Hb Hd. pose proof (e_reach compress decompress cs pos y Hr Hg (conj H1 (conj H2 H3))) as He. rewrite Hu in He.
  destruct He as (kvs & own & past & _ & Hc & _ & He). rewrite Hp in Hc. cbn in Hc. rewrite app_nil_r in Hc. subst past.
  destruct (He d) as [(_ & A2 & _ & A4)|(l & x & _ & _ & B3 & B4)]; split.
  - intros [x Hx]. by destruct (A2 x).
  - intros _. unfold load_doc. specialize (A4 Hd). unfold doc_file in A4. by rewrite A4.
  - intros _. rewrite Hp in B4. specialize (B4 Hd (fun x => x)). unfold d_link in B4. rewrite Hb in B4. exact (d_holds_load compress decompress gz _ _ _ B4).
  - intros N. by destruct (N x).
Qed.
Print Assumptions C54_latest.

(** When the writer has gone through its buffer, nothing is left in it. *)
Theorem C54_flush_complete : forall compress decompress cache_size y u, reachable compress decompress cache_size y -> y_proc y = Up u ->
  w_pc (u_dw u) = WLoop [] -> w_buf (u_dw u) = ∅.
Proof.
  intros compress decompress cs y u Hr Hu Hp. pose proof (full_reach _ _ _ _ Hr) as H. unfold full_inv in H. rewrite Hu in H. destruct H as (_ & _ & H).
  unfold w_full in H. rewrite Hp in H. apply map_empty. intros k. apply eq_None_not_Some. intros Hs. apply H in Hs. by apply elem_of_nil in Hs.
Qed.
Print Assumptions C54_flush_complete.

(** No step changes the file of a document except the writer saving that document. *)
Theorem C54_only_its_own_file : forall compress decompress cache_size, 0 < cache_size ->
  forall a b d, reachable compress decompress cache_size a -> good_log (y_log b) -> sys_step compress decompress cache_size a b -> plain_doc d ->
  doc_file (y_fs b) d = doc_file (y_fs a) d \/ exists u, y_proc a = Up u /\ saving (u_dw u) d.
Proof.
  intros compress decompress cs pos a b d Hr Hg Hab Hd. destruct (d_reach compress decompress cs pos a Hr (good_mono _ _ _ _ _ Hab Hg)) as ([Bl Bp] & Hv & HD).
  assert (forall s s', keeps OD s s' -> doc_file s' d = doc_file s d) as HK. { intros s s' K. unfold doc_file. by rewrite (K ["docs"; "metrics"; d]) by apply owner_d. }
  destruct Hab as [H|H]; inversion H; subst; cbn [y_fs y_proc y_log] in *; try (by left).
  - left. match goal with G : mkdir_all _ _ = _ |- _ => destruct (mkdir_effect _ [] _ Bl eq_refl (Nat.le_0_l 2) G) as (_ & E & _) end. unfold doc_file. by rewrite E.
  - left. destruct Bp as [_ Bp]. match goal with G : g_step _ _ _ _ |- _ => destruct (g_step_base _ _ _ _ _ _ Bl Bp G) as (_ & _ & _ & E) end. unfold doc_file. apply E; by rewrite owner_d.
  - destruct Bp as [_ Bp]. match goal with G : up_step _ _ _ _ _ |- _ => destruct (up_step_who _ _ _ _ _ _ _ Bl Bp G) as [[-> Hq]|[Hq|[Hq|[Hq|[Hq|Hq]]]]] end; [by left|..].
    + left. apply HK. apply Hq.
    + left. apply HK. apply Hq.
    + destruct (d_cases compress decompress _ _ _ _ _ d Bl Bp Hq Hd) as [(E & _)|[(ks & bb & pc & E & _)|(ks & bb & E & _)]]; [by left|right|right]; exists u; (split; [done|]); by eexists _, _, _.
    + left. apply HK. apply Hq.
    + left. apply HK. apply Hq.
  - left. match goal with G : up_tick _ _ |- _ => inversion G; subst end; done.
Qed.
Print Assumptions C54_only_its_own_file.

(** Reading back: in a session that saves nothing, GetFields returns what the files
    held when the store was opened, whatever the cache size. *)
Theorem C54_read_back : forall compress decompress cache_size, 0 < cache_size ->
  forall y0 g y1 u1 ev y u ids f acc, reachable compress decompress cache_size y0 -> y_proc y0 = Loading g ->
  live_step compress decompress cache_size y0 y1 -> y_proc y1 = Up u1 -> session compress decompress cache_size y1 ev y -> good_log (y_log y) ->
  (forall d z, Save d z ∉ calls_of ev) -> y_proc y = Up u -> u_pc u = CGot ids f acc ->
  forall id, acc !! id = if decide (id ∈ ids) then match load_doc decompress (y_fs y1) id with Some (Some m) => m !! f | _ => None end else None.
Proof.
  intros compress decompress cs pos y0 g y1 u1 ev y u ids f acc Hr0 H0 L Hu1 Hs Hg N Hu Hp id.
  destruct (ro_session compress decompress cs pos y0 y1 u1 ev y Hr0 (ex_intro _ g H0) L Hu1 Hs Hg N) as (u' & Hu' & Hro). rewrite Hu in Hu'. injection Hu' as <-.
  destruct Hro as (_ & _ & _ & _ & _ & Hro). rewrite Hp in Hro. apply Hro.
Qed.
Print Assumptions C54_read_back.

(** * Cases and counterexamples *)
Definition x_t : field := mkField "title" 1 {["c" := 1]}.
(** Nothing but flushes of the document writer between the calls. *)
Definition dflush : list (bool * act) := [(false, TDocs); (true, ADocs)].
Definition dsave (d : string) (x : field) : list (bool * act) := [(false, ACall (Save d x)); (true, AClient)].
Definition dopen : list (bool * act) := [(false, AStart); (true, ALoad); (false, AOpen)].
Lemma at_most_case n h ks : (forall d x, Save d x ∈ h -> d ∈ ks) -> Z.of_nat (length ks) <= n -> docs_saved_at_most n h.
Proof.
  intros H Hn ks' Hd Hk. assert ((length ks' <= length ks)%nat); [|lia]. apply submseteq_length, NoDup_submseteq; [done|]. intros d Hd'. destruct (Hk d Hd') as [x Hx]. by eapply H.
Qed.
Fixpoint ends_with (suffix s : string) : bool :=
  if String.eqb s suffix then true else match s with EmptyString => false | String _ s' => ends_with suffix s' end.
Lemma ends_app k suf : ends_with suf (k ++ suf) = true.
Proof.
  induction k as [|c k IH]; cbn [append].
  - destruct suf; [done|]. cbn [ends_with]. by rewrite String.eqb_refl.
  - cbn [ends_with]. by destruct (String.eqb _ _).
Qed.
Lemma plain_case d : ends_with "_temp" d = false -> ends_with "_old" d = false -> plain_doc d.
Proof. intros H1 H2 k. split; intros ->; rewrite ends_app in *; done. Qed.

(** The hypotheses of C47_get_fields and a non-trivial answer: two documents, a field
    saved twice, a document never saved; part of it flushed. *)
Definition story : list (bool * act) := dopen ++ dsave "d1" x_a ++ dsave "d1" x_t ++ dflush ++ dsave "d2" x_a ++ dsave "d2" x_b.
Example C47_case : exists y u acc, reachable id Some 2 y /\ good_log (y_log y) /\ ECrash ∉ y_log y /\
  docs_saved_at_most 2 (calls_of (y_log y)) /\ (forall d, requested (y_log y) d -> plain_doc d) /\
  y_proc y = Up u /\ u_pc u = CGot ["d1"; "d2"; "d3"] "text" acc /\ acc = {["d1" := x_a; "d2" := x_b]}.
Proof.
  destruct (play_obs 2 (story ++ (false, AGet ["d1"; "d2"; "d3"] "text") :: map (fun a => (false, a)) (rep 5 AClient))
    (fun y => (bool_decide (calls_of (y_log y) = [Save "d1" x_a; Save "d1" x_t; Save "d2" x_a; Save "d2" x_b]), bool_decide (ECrash ∉ y_log y), 
      bool_decide (omap (fun e => match e with EGet ids f => Some ids | _ => None end) (y_log y) = [["d1"; "d2"; "d3"]]),
      match y_proc y with Up u => match u_pc u with CGot ids f acc => Some (ids, f, bool_decide (acc = {["d1" := x_a; "d2" := x_b]})) | _ => None end | _ => None end))
    (true, true, true, Some (["d1"; "d2"; "d3"], "text", true))) as (y & Hr & H); [vm_compute; reflexivity|].
  apply pair_equal_spec in H as [H H4]. apply pair_equal_spec in H as [H H3]. apply pair_equal_spec in H as [H1 H2]. apply bool_decide_eq_true_1 in H1, H2, H3.
  destruct (y_proc y) as [| |u] eqn:E; try discriminate H4. destruct (u_pc u) as [| | | | | | | | | | | | |ids f acc] eqn:E1; try discriminate H4. apply (inj Some) in H4. apply pair_equal_spec in H4 as [H4 H43]. apply pair_equal_spec in H4 as [-> ->]. apply bool_decide_eq_true_1 in H43.
  exists y, u, acc. split; [done|]. split. { apply (good_log_case _ _ H1). repeat constructor; done. } split; [done|]. split; [|split; [|done]].
  - rewrite H1. apply (at_most_case _ _ ["d1"; "d2"]); [|done]. intros d x Hx. rewrite !elem_of_cons in Hx. set_solver.
  - intros d (ids & f & Hi & Hd). assert (ids ∈ omap (fun e => match e with EGet ids f => Some ids | _ => None end) (y_log y)) as Hin by (apply elem_of_list_omap; by eexists).
    rewrite H3 in Hin. apply elem_of_list_singleton in Hin. subst ids. rewrite !elem_of_cons in Hd. destruct Hd as [->|[->|[->|Hd%elem_of_nil]]]; [..|done]; by apply plain_case.
Qed.

(** The hypotheses of C54_latest with several fields per document; and after a restart
    with a cache of one entry everything can be read back (C54_read_back). *)
Example C54_case : exists y u, reachable id Some 2 y /\ good_log (y_log y) /\ ECrash ∉ y_log y /\
  docs_saved_at_most 2 (calls_of (y_log y)) /\ (forall d, requested (y_log y) d -> plain_doc d) /\
  y_proc y = Up u /\ u_pc u = CIdle /\ w_buf (u_dw u) = ∅ /\
  load_doc Some (y_fs y) "d1" = Some (Some {["text" := x_a; "title" := x_t]}) /\ load_doc Some (y_fs y) "d2" = Some (Some {["text" := x_b]}).
Proof.
  destruct (play_obs 2 (story ++ dflush)
    (fun y => (bool_decide (calls_of (y_log y) = [Save "d1" x_a; Save "d1" x_t; Save "d2" x_a; Save "d2" x_b]), bool_decide (ECrash ∉ y_log y), 
      bool_decide (omap (fun e => match e with EGet ids f => Some ids | _ => None end) (y_log y) = []),
      match y_proc y with Up u => match u_pc u with CIdle => bool_decide (w_buf (u_dw u) = ∅) | _ => false end | _ => false end,
      (bool_decide (load_doc Some (y_fs y) "d1" = Some (Some {["text" := x_a; "title" := x_t]})), bool_decide (load_doc Some (y_fs y) "d2" = Some (Some {["text" := x_b]})))))
    (true, true, true, true, (true, true))) as (y & Hr & H); [vm_compute; reflexivity|].
  apply pair_equal_spec in H as [H H5]. apply pair_equal_spec in H as [H H4]. apply pair_equal_spec in H as [H H3]. apply pair_equal_spec in H as [H1 H2]. apply bool_decide_eq_true_1 in H1, H2, H3.
  apply pair_equal_spec in H5 as [H51 H52]. apply bool_decide_eq_true_1 in H51, H52.
  destruct (y_proc y) as [| |u] eqn:E; try discriminate H4. destruct (u_pc u) eqn:E1; try discriminate H4. apply bool_decide_eq_true_1 in H4.
  exists y, u. split; [done|]. split. { apply (good_log_case _ _ H1). repeat constructor; done. } split; [done|]. split; [|split; [|done]].
  - rewrite H1. apply (at_most_case _ _ ["d1"; "d2"]); [|done]. intros d x Hx. rewrite !elem_of_cons in Hx. set_solver.
  - intros d (ids & f & Hi & Hd). assert (ids ∈ omap (fun e => match e with EGet ids f => Some ids | _ => None end) (y_log y)) as Hin by (apply elem_of_list_omap; by eexists).
    rewrite H3 in Hin. by apply elem_of_nil in Hin.
Qed.

(** C47 is tight: with one document more than the cache holds, GetFields misses a saved
    document whose update has not been flushed. *)
Theorem C47_evicted_missed : exists y u, reachable id Some 1 y /\ good_log (y_log y) /\ ECrash ∉ y_log y /\
  calls_of (y_log y) = [Save "d1" x_a; Save "d2" x_b] /\ y_proc y = Up u /\ u_pc u = CGot ["d1"] "text" ∅ /\
  doc_map (calls_of (y_log y)) "d1" !! "text" = Some x_a.
Proof.
  destruct (play_obs 1 (dopen ++ dsave "d1" x_a ++ dsave "d2" x_b ++ (false, AGet ["d1"] "text") :: map (fun a => (false, a)) (rep 3 AClient))
    (fun y => (bool_decide (calls_of (y_log y) = [Save "d1" x_a; Save "d2" x_b]), bool_decide (ECrash ∉ y_log y),
      match y_proc y with Up u => match u_pc u with CGot ids f acc => Some (ids, f, bool_decide (acc = ∅)) | _ => None end | _ => None end))
    (true, true, Some (["d1"], "text", true))) as (y & Hr & H); [vm_compute; reflexivity|].
  apply pair_equal_spec in H as [H H4]. apply pair_equal_spec in H as [H1 H2]. apply bool_decide_eq_true_1 in H1, H2.
  destruct (y_proc y) as [| |u] eqn:E; try discriminate H4. destruct (u_pc u) as [| | | | | | | | | | | | |ids f acc] eqn:E1; try discriminate H4. apply (inj Some) in H4. apply pair_equal_spec in H4 as [H4 H43]. apply pair_equal_spec in H4 as [-> ->]. apply bool_decide_eq_true_1 in H43. subst acc.
  exists y, u. split; [done|]. split. { apply (good_log_case _ _ H1). repeat constructor; done. } split; [done|]. split; [done|]. split; [done|]. split; [done|]. rewrite H1. reflexivity.
Qed.
Print Assumptions C47_evicted_missed.

(** Saving one field of an evicted document erases its other field, although both were
    flushed; GetFields no longer finds it either. *)
Theorem C47_evicted_field_lost : exists y u, reachable id Some 1 y /\ good_log (y_log y) /\ ECrash ∉ y_log y /\
  calls_of (y_log y) = [Save "d1" x_t; Save "d2" x_b; Save "d1" x_a] /\ y_proc y = Up u /\ u_pc u = CGot ["d1"] "title" ∅ /\ w_buf (u_dw u) = ∅ /\
  load_doc Some (y_fs y) "d1" = Some (Some {["text" := x_a]}) /\ doc_map (calls_of (y_log y)) "d1" !! "title" = Some x_t.
Proof.
  destruct (play_obs 1 (dopen ++ dsave "d1" x_t ++ dsave "d2" x_b ++ dflush ++ dsave "d1" x_a ++ dflush ++ (false, AGet ["d1"] "title") :: map (fun a => (false, a)) (rep 2 AClient))
    (fun y => (bool_decide (calls_of (y_log y) = [Save "d1" x_t; Save "d2" x_b; Save "d1" x_a]), bool_decide (ECrash ∉ y_log y),
      match y_proc y with Up u => match u_pc u with CGot ids f acc => Some (ids, f, bool_decide (acc = ∅), bool_decide (w_buf (u_dw u) = ∅)) | _ => None end | _ => None end,
      bool_decide (load_doc Some (y_fs y) "d1" = Some (Some {["text" := x_a]}))))
    (true, true, Some (["d1"], "title", true, true), true)) as (y & Hr & H); [vm_compute; reflexivity|].
  apply pair_equal_spec in H as [H H5]. apply pair_equal_spec in H as [H H4]. apply pair_equal_spec in H as [H1 H2]. apply bool_decide_eq_true_1 in H1, H2, H5.
  destruct (y_proc y) as [| |u] eqn:E; try discriminate H4. destruct (u_pc u) as [| | | | | | | | | | | | |ids f acc] eqn:E1; try discriminate H4. apply (inj Some) in H4. apply pair_equal_spec in H4 as [H4 H44]. apply pair_equal_spec in H4 as [H4 H43]. apply pair_equal_spec in H4 as [-> ->]. apply bool_decide_eq_true_1 in H43, H44. subst acc.
  exists y, u. split; [done|]. split. { apply (good_log_case _ _ H1). repeat constructor; done. } do 6 (split; [done|]). rewrite H1. reflexivity.
Qed.
Print Assumptions C47_evicted_field_lost.

(** The same after a restart, with a cache large enough for everything. *)
Theorem C47_restart_field_lost : exists y u, reachable id Some 5 y /\ good_log (y_log y) /\
  calls_of (y_log y) = [Save "d1" x_t; Save "d1" x_a] /\ y_proc y = Up u /\ u_pc u = CGot ["d1"] "title" ∅ /\ w_buf (u_dw u) = ∅ /\
  load_doc Some (y_fs y) "d1" = Some (Some {["text" := x_a]}).
Proof.
  destruct (play_obs 5 (dopen ++ dsave "d1" x_t ++ dflush ++ [(false, ACrash)] ++ dopen ++ dsave "d1" x_a ++ dflush ++ (false, AGet ["d1"] "title") :: map (fun a => (false, a)) (rep 2 AClient))
    (fun y => (bool_decide (calls_of (y_log y) = [Save "d1" x_t; Save "d1" x_a]),
      match y_proc y with Up u => match u_pc u with CGot ids f acc => Some (ids, f, bool_decide (acc = ∅), bool_decide (w_buf (u_dw u) = ∅)) | _ => None end | _ => None end,
      bool_decide (load_doc Some (y_fs y) "d1" = Some (Some {["text" := x_a]}))))
    (true, Some (["d1"], "title", true, true), true)) as (y & Hr & H); [vm_compute; reflexivity|].
  apply pair_equal_spec in H as [H H5]. apply pair_equal_spec in H as [H1 H4]. apply bool_decide_eq_true_1 in H1, H5.
  destruct (y_proc y) as [| |u] eqn:E; try discriminate H4. destruct (u_pc u) as [| | | | | | | | | | | | |ids f acc] eqn:E1; try discriminate H4. apply (inj Some) in H4. apply pair_equal_spec in H4 as [H4 H44]. apply pair_equal_spec in H4 as [H4 H43]. apply pair_equal_spec in H4 as [-> ->]. apply bool_decide_eq_true_1 in H43, H44. subst acc.
  exists y, u. split; [done|]. split; [|done]. apply (good_log_case _ _ H1). repeat constructor; done.
Qed.
Print Assumptions C47_restart_field_lost.

(** plain_doc is needed in C54: saving document a deletes the file of document a_old. *)
Theorem C54_alias_refuted : exists y u, reachable id Some 5 y /\ good_log (y_log y) /\ ECrash ∉ y_log y /\
  calls_of (y_log y) = [Save "a_old" x_a; Save "a" x_b; Save "a" x_b] /\ y_proc y = Up u /\ u_pc u = CIdle /\ w_buf (u_dw u) = ∅ /\
  load_doc Some (y_fs y) "a_old" = Some None.
Proof.
  destruct (play_obs 5 (dopen ++ dsave "a_old" x_a ++ dflush ++ dsave "a" x_b ++ dflush ++ dsave "a" x_b ++ dflush)
    (fun y => (bool_decide (calls_of (y_log y) = [Save "a_old" x_a; Save "a" x_b; Save "a" x_b]), bool_decide (ECrash ∉ y_log y),
      match y_proc y with Up u => match u_pc u with CIdle => bool_decide (w_buf (u_dw u) = ∅) | _ => false end | _ => false end,
      bool_decide (load_doc Some (y_fs y) "a_old" = Some None)))
    (true, true, true, true)) as (y & Hr & H); [vm_compute; reflexivity|].
  apply pair_equal_spec in H as [H H5]. apply pair_equal_spec in H as [H H4]. apply pair_equal_spec in H as [H1 H2]. apply bool_decide_eq_true_1 in H1, H2, H5.
  destruct (y_proc y) as [| |u] eqn:E; try discriminate H4. destruct (u_pc u) eqn:E1; try discriminate H4. apply bool_decide_eq_true_1 in H4.
  exists y, u. split; [done|]. split; [|done]. apply (good_log_case _ _ H1). repeat constructor; done.
Qed.
Print Assumptions C54_alias_refuted.

(** The cache and the writer share the map without a lock: a SaveOrUpdate can write to
    it while the writer iterates over it, which the Go runtime answers by a fatal error. *)
Theorem C54_data_race : exists y u d x, reachable id Some 5 y /\ good_log (y_log y) /\ ECrash ∉ y_log y /\ y_proc y = Up u /\ u_pc u = CDoc d x /\ up_fatal Some (u, y_fs y).
Proof.
  destruct (play_obs 5 (dopen ++ dsave "d1" x_a ++ [(false, TDocs); (false, ADocs); (false, ADocs)] ++ dsave "d1" x_b)
    (fun y => (bool_decide (calls_of (y_log y) = [Save "d1" x_a; Save "d1" x_b]), bool_decide (ECrash ∉ y_log y),
      match y_proc y with Up u => match u_pc u with CDoc _ _ => match c_doc_exec (u_mem u) (u_pc u) with Some (l, _, _) => iterb (u_dw u) l | None => false end | _ => false end | _ => false end))
    (true, true, true)) as (y & Hr & H); [vm_compute; reflexivity|].
  apply pair_equal_spec in H as [H H4]. apply pair_equal_spec in H as [H1 H2]. apply bool_decide_eq_true_1 in H1, H2.
  destruct (y_proc y) as [| |u] eqn:E; try discriminate H4. destruct (u_pc u) as [| | | | | | | | |d x| | | |] eqn:E1; try discriminate H4.
  destruct (c_doc_exec (u_mem u) (CDoc d x)) as [[[l m'] pc']|] eqn:E2; [|discriminate H4].
  exists y, u, d, x. split; [done|]. split. { apply (good_log_case _ _ H1). repeat constructor; done. } split; [done|]. split; [done|]. split; [done|].
  destruct u as [m pc ich mw nw dw iw mg]. cbn [u_pc u_mem u_dw] in *. subst pc. apply c_doc_exec_ok in E2. eapply f_race; [exact E2|].
  unfold iterb in H4. destruct (w_pc dw) as [| | |k ks T|] eqn:E3; try discriminate H4. apply bool_decide_eq_true_1 in H4. by exists k, ks, T.
Qed.
Print Assumptions C54_data_race.
