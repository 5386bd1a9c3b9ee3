(** C63: the HTTP service of main.go on the disk storage. *)
From Verif Require Import Base M_Text M_Language M_Field M_LRU S_LRU S_Visits M_Memory M_File M_Serialize M_Disk M_Num M_FanIn M_Search M_Standard M_Server M_DiskServer S_View S_Search S_Memory S_Server M_DiskSearch S_Disk S_DiskFair S_DiskDurable
  P_Base P_File P_DiskBase P_DiskInv P_DiskMem P_DiskDocs P_DiskSearch P_Memory P_Memory2 P_Search P_Standard P_Server M_Path S_Path P_Path T_Path T_Server T_Search T_DiskDocs T_DiskSearch T_DiskIndex T_DiskDurable X_DiskExec M_File M_Disk S_Disk.
#[local] Open Scope nat_scope.
#[local] Opaque serialize_metrics deserialize_metrics serialize_nft deserialize_nft serialize_field_map deserialize_field_map serialize_index deserialize_index.

(** * Lemmas *)
Lemma handled_run P m bodies sts calls m' : handled P bodies sts calls -> mem_run m calls m' -> mem_server P m bodies sts m'.
Proof.
  intros H. revert m m'. induction H as [|body st calls bodies sts rest Hp _ IH]; intros m m' Hr; [inversion Hr; subst; constructor|].
  apply P_Memory.mem_run_app in Hr as (m1 & H1 & H2). econstructor; [exact Hp|exact H1|by apply IH].
Qed.
Section server.
  Variables (bind : string -> option document) (is_letter is_number : Z -> bool) (to_lower stem fold : string -> string).
  Notation po := (post bind is_letter is_number to_lower stem fold).
  Notation tm := (terms_of is_letter is_number to_lower stem fold).
  Lemma handled_saves bodies sts calls : handled po bodies sts calls -> forall c, c ∈ calls -> exists doc f terms, doc ∈ accepted bind bodies /\
    c = Save (d_id doc) (posted_field f terms) /\ f ∈ ["id"; "title"; "text"].
  Proof.
    induction 1 as [|body st calls bodies sts rest Hp _ IH]; intros c Hc; [by apply elem_of_nil in Hc|].
    apply elem_of_app in Hc as [Hc|Hc].
    - inversion Hp as [| |b doc p1 p2 p3 Hb Hi]; subst; try by apply elem_of_nil in Hc.
      assert (doc ∈ accepted bind (body :: bodies)) as Hd. { unfold accepted. apply elem_of_list_omap. exists body. split; [left|]. rewrite Hb. unfold is_not_document_complete in Hi. by destruct (String.eqb (d_id doc) ""). }
      unfold index_document in Hc. cbn [map] in Hc. rewrite !elem_of_cons, elem_of_nil in Hc. destruct Hc as [->|[->|[->|[]]]].
      + exists doc, "id", p1. split; [done|]. split; [done|]. left.
      + exists doc, "title", p2. split; [done|]. split; [done|]. right; left.
      + exists doc, "text", p3. split; [done|]. split; [done|]. right; right; left.
    - destruct (IH c Hc) as (doc & f & terms & H1 & H2 & H3). exists doc, f, terms. split; [|done]. unfold accepted in *. apply elem_of_list_omap in H1 as (b & Hb & E). apply elem_of_list_omap. exists b. split; [by right|done].
  Qed.
  Lemma handled_saved bodies sts calls doc : handled po bodies sts calls -> doc ∈ accepted bind bodies -> exists x, Save (d_id doc) x ∈ calls.
  Proof.
    induction 1 as [|body st calls bodies sts rest Hp _ IH]; intros Hd; [by apply elem_of_nil in Hd|].
    unfold accepted in Hd. apply elem_of_list_omap in Hd as (b & Hb & E). apply elem_of_cons in Hb as [->|Hb].
    - destruct (bind body) as [e|] eqn:Eb; [|done]. destruct (String.eqb_spec (d_id e) "") as [Ee|Ee]; [done|]. injection E as ->.
      inversion Hp as [b H|b d H H1|b d p1 p2 p3 H H1]; subst; [congruence| |].
      + rewrite H in Eb. injection Eb as ->. unfold is_not_document_complete in H1. by destruct (String.eqb_spec (d_id doc) "").
      + rewrite H in Eb. injection Eb as ->. eexists. apply elem_of_app. left. left.
    - destruct IH as [x Hx]; [unfold accepted; apply elem_of_list_omap; by exists b|]. exists x. apply elem_of_app. by right.
  Qed.
  Lemma handled_status bodies sts calls : handled po bodies sts calls ->
    length sts = length bodies /\ forall i body st, bodies !! i = Some body -> sts !! i = Some st ->
      st = (match bind body with Some x => if String.eqb (d_id x) "" then 400 else 201 | None => 400 end)%Z.
  Proof.
    intros H. destruct (mem_run_total mem_new calls) as [m Hm]. eapply (posts_status is_letter is_number to_lower stem fold bind mem_new bodies sts m). by eapply handled_run.
  Qed.
End server.

(** * Theorems *)
(** C63: a GET request on the running server finds exactly the documents that a POST
    request with status 201 has stored and that share a term with the query, in the title
    or in the text.  ([disk_view] with [doc_map]: the answers of the store, C46 and
    C60_parallel_reads.) *)
Theorem C63_found_exactly : forall compress decompress cache_size bind is_letter is_number to_lower stem fold y u bodies sts,
  serving compress decompress cache_size (post bind is_letter is_number to_lower stem fold) y u bodies sts ->
  let terms := terms_of is_letter is_number to_lower stem fold in
  let v := disk_view (u_mem u) (doc_map (calls_of (y_log y))) in
  forall N ncpu text s rs d,
  rtc (std_step N ncpu v (get_queries N (terms text))) (std_init N (get_queries N (terms text))) s -> std_returns N s rs ->
  d ∈ rs.*1 <->
  d <> "" /\ exists body doc t, body ∈ bodies /\ bind body = Some doc /\ d_id doc = d /\ t ∈ terms text /\
    (t ∈ terms (d_title doc) \/ t ∈ terms (d_text doc)).
Proof.
  intros compress decompress cs bind il inum tl st fo y u bodies sts (Hr & Hu & Hp & l1 & l2 & Hl & Ho & Hc & Hh) tm v N ncpu text s rs d Hs Hret.
  destruct (mem_run_total mem_new (calls_of l2)) as [m Hm].
  assert (forall c, c ∈ calls_of l2 -> exists d x, c = Save d x) as Hsv. { intros c Hc'. destruct (handled_saves _ _ _ _ _ _ _ _ _ Hh c Hc') as (doc & f & ts & _ & -> & _). eauto. }
  destruct (C60_same_searches compress decompress cs y u l1 l2 Hr Hu Hp Hl Ho Hc Hsv m Hm N ncpu) as [_ E].
  eapply (C38_found_exactly bind il inum tl st fo N ncpu bodies sts m text s rs d); [by eapply handled_run|by apply E|done].
Qed.
Print Assumptions C63_found_exactly.

(** The answer of a GET request, from the number of such documents. *)
Theorem C63_get_answers : forall compress decompress cache_size bind is_letter is_number to_lower stem fold y u bodies sts,
  serving compress decompress cache_size (post bind is_letter is_number to_lower stem fold) y u bodies sts ->
  let terms := terms_of is_letter is_number to_lower stem fold in
  forall N ncpu text a, get is_letter is_number to_lower stem fold N ncpu (disk_view (u_mem u) (doc_map (calls_of (y_log y)))) text a ->
  exists ds, NoDup ds /\
  (forall d, d ∈ ds <-> d <> "" /\ exists body doc t, body ∈ bodies /\ bind body = Some doc /\ d_id doc = d /\ t ∈ terms text /\
    (t ∈ terms (d_title doc) \/ t ∈ terms (d_text doc))) /\
  (length ds = 0 -> a = Answer 200 (mkRes 0 [])) /\
  ((1 <= length ds <= 9) -> a = Panic) /\
  ((10 <= length ds) -> exists rs, a = Answer 200 (mkRes 10 rs) /\ length rs = 10 /\ NoDup rs.*1 /\ forall d, d ∈ rs.*1 -> d ∈ ds).
Proof.
  intros compress decompress cs bind il inum tl st fo y u bodies sts Hsv tm N ncpu text a Hg.
  pose proof Hg as (ts & s & rs & Hp & Hs & Hret & _). apply preprocess_terms in Hp as ->.
  pose proof (disk_view_pointwise (u_mem u) (doc_map (calls_of (y_log y)))) as Hv.
  destruct (C37_get_answers il inum tl st fo N ncpu _ text a Hv Hg) as (ds & [Hn Hd] & H0 & H1 & H2).
  exists ds. split; [done|]. split; [|done]. intros d. rewrite Hd.
  destruct (get_ids N ncpu _ _ _ _ Hv Hs Hret) as [_ Hi]. rewrite <- Hi. by eapply C63_found_exactly.
Qed.
Print Assumptions C63_get_answers.

Theorem C63_status : forall compress decompress cache_size bind is_letter is_number to_lower stem fold y u bodies sts,
  serving compress decompress cache_size (post bind is_letter is_number to_lower stem fold) y u bodies sts ->
  length sts = length bodies /\ forall i body st, bodies !! i = Some body -> sts !! i = Some st ->
    st = (match bind body with Some doc => if String.eqb (d_id doc) "" then 400 else 201 | None => 400 end)%Z.
Proof. intros ? ? ? ? ? ? ? ? ? ? ? ? ? (_ & _ & _ & l1 & l2 & _ & _ & _ & H). by eapply handled_status. Qed.
Print Assumptions C63_status.

(** The ids of the stored documents: single path components (C63_slash_id says what
    happens otherwise) that are not the name of a temporary file; at most [cache_size]
    of them. *)
Definition usual_ids (cache_size : Z) (ds : list document) : Prop :=
  (forall doc, doc ∈ ds -> simple_name (d_id doc) /\ plain_doc (d_id doc)) /\
  (Z.of_nat (length (remove_dups (map d_id ds))) <= cache_size)%Z.

(** Everything flushed, the process ends (not between the two renames that replace the
    index file of the title or the text) and the server is started again: a GET request
    finds exactly the same documents. *)
Theorem C63_restart : forall compress decompress cache_size, gzip_ok compress decompress -> (0 < cache_size)%Z ->
  forall bind is_letter is_number to_lower stem fold y u bodies sts,
  serving compress decompress cache_size (post bind is_letter is_number to_lower stem fold) y u bodies sts ->
  ECrash ∉ y_log y -> (forall d, requested (y_log y) d -> plain_doc d) -> usual_ids cache_size (accepted bind bodies) ->
  flushed u -> ~ in_gap (u_mg u) "title" -> ~ in_gap (u_mg u) "text" ->
  forall cache_size' u' s', reopen compress decompress cache_size' (y_fs y) u' s' ->
  let terms := terms_of is_letter is_number to_lower stem fold in
  let v := disk_view (u_mem u') (file_docs decompress s') in
  forall N ncpu text s rs d,
  rtc (std_step N ncpu v (get_queries N (terms text))) (std_init N (get_queries N (terms text))) s -> std_returns N s rs -> plain_doc d ->
  d ∈ rs.*1 <->
  d <> "" /\ exists body doc t, body ∈ bodies /\ bind body = Some doc /\ d_id doc = d /\ t ∈ terms text /\
    (t ∈ terms (d_title doc) \/ t ∈ terms (d_text doc)).
Proof.
  intros compress decompress cs gz pos bind il inum tl st fo y u bodies sts Hsv Hcr Hrq [Hid Hn] Hfl Hg1 Hg2 cs' u' s' Hre tm v N ncpu text s rs d Hs Hret Hd.
  pose proof Hsv as (Hr & Hu & Hp & l1 & l2 & Hl & Ho & Hc & Hh).
  assert (calls_of (y_log y) = calls_of l2) as Ec by (rewrite Hl, calls_app, Hc; done).
  set (v0 := disk_view (u_mem u) (doc_map (calls_of (y_log y)))).
  assert (good_log (y_log y)) as Hgl.
  { intros c Hin. rewrite Ec in Hin. destruct (handled_saves _ _ _ _ _ _ _ _ _ Hh c Hin) as (doc & f & ts & Hdoc & -> & Hf). destruct (Hid doc Hdoc) as [Hs1 _]. split; [done|]. cbn. rewrite !elem_of_cons, elem_of_nil in Hf. by destruct Hf as [->|[->|[->|[]]]]. }
  assert (docs_saved_at_most cs (calls_of (y_log y))) as Hmost.
  { intros ks Hks Hall. rewrite Ec in Hall. etransitivity; [|exact Hn]. apply Nat2Z.inj_le. apply submseteq_length, NoDup_submseteq; [done|]. intros k Hk. apply elem_of_remove_dups, elem_of_list_fmap. destruct (Hall k Hk) as [x Hx]. destruct (handled_saves _ _ _ _ _ _ _ _ _ Hh _ Hx) as (doc & f & ts & Hdoc & [= -> _] & _). by exists doc. }
  destruct Hfl as (_ & F1 & F2 & _ & _ & F5).
  assert (index_quiet u) as Hq by done.
  assert (forall f, f = "title" \/ f = "text" -> forall ts, (matches v ts f d = true /\ is_Some (v_fields v [d] f !! d)) <-> (matches v0 ts f d = true /\ is_Some (v_fields v0 [d] f !! d))) as Hf.
  { intros f Hf ts. assert (f <> "docs" /\ ~ in_gap (u_mg u) f) as [N1 N2] by (destruct Hf as [-> | ->]; done).
    pose proof (disk_view_pointwise (u_mem u) (doc_map (calls_of (y_log y)))) as P0. pose proof (disk_view_pointwise (u_mem u') (file_docs decompress s')) as P1.
    destruct (search_completes N 1 v0 ltac:(lia) P0 ts f) as (a & ra & A1 & A2). destruct (search_completes N 1 v ltac:(lia) P1 ts f) as (b & rb & B1 & B2).
    pose proof (C60_restart_finds_same compress decompress cs gz pos y u Hr Hgl Hcr Hmost Hrq Hu Hq F5 f N1 N2 cs' u' s' Hre N 1 1 ts a ra b rb A1 A2 B1 B2 d Hd) as E.
    destruct (C31_search_exact N 1 v0 ts f a ra P0 A1 A2) as [E0 _]. destruct (C31_search_exact N 1 v ts f b rb P1 B1 B2) as [E1 _].
    split; intros [M [x Hx]].
    - destruct (E1 d x) as [_ G]. rewrite G in E by done. symmetry in E. apply fmap_Some in E as (x0 & X0 & _). apply E0 in X0 as [? ?]. split; [done|]. by eexists.
    - destruct (E0 d x) as [_ G]. rewrite G in E by done. cbn in E. apply E1 in E as [? ?]. split; [done|]. by eexists. }
  destruct (get_ids N ncpu v _ _ _ (disk_view_pointwise _ _) Hs Hret) as [_ Hi]. rewrite Hi.
  destruct (std_completes N 1 v0 ltac:(lia) (disk_view_pointwise _ _) (get_queries N (tm text))) as (s0 & rs0 & S1 & S2).
  transitivity (d ∈ rs0.*1); [|by eapply C63_found_exactly].
  destruct (get_ids N 1 v0 _ _ _ (disk_view_pointwise _ _) S1 S2) as [_ Hi0]. rewrite Hi0.
  unfold in_title_or_text. split; intros (f & F & G); exists f; (split; [done|]); by apply Hf.
Qed.
Print Assumptions C63_restart.

(** In every execution that keeps running, with the goroutines scheduled fairly and the
    tickers firing, in which no POST request is handled after some moment: from some
    moment on, whenever the process ends (not between the two renames of the title's or
    the text's index file) and the server is started again, GET requests find exactly the
    documents that were stored. *)
Theorem C63_durable : forall compress decompress cache_size, gzip_ok compress decompress -> (0 < cache_size)%Z ->
  forall bind is_letter is_number to_lower stem fold r i bodies sts,
  execution compress decompress cache_size r -> fair compress decompress r -> ticking r -> no_saves_after r i ->
  (forall k, ECrash ∉ y_log (r k) /\ good_log (y_log (r k)) /\ forall d, requested (y_log (r k)) d -> plain_doc d) ->
  usual_ids cache_size (accepted bind bodies) ->
  (forall k, i <= k -> exists u, y_proc (r k) = Up u /\ (u_pc u = CIdle -> serving compress decompress cache_size (post bind is_letter is_number to_lower stem fold) (r k) u bodies sts)) ->
  reachable compress decompress cache_size (r 0) ->
  exists j, i <= j /\ forall k u, j <= k -> y_proc (r k) = Up u -> u_pc u = CIdle -> ~ in_gap (u_mg u) "title" -> ~ in_gap (u_mg u) "text" ->
  forall cache_size' u' s', reopen compress decompress cache_size' (y_fs (r k)) u' s' ->
  let terms := terms_of is_letter is_number to_lower stem fold in
  let v := disk_view (u_mem u') (file_docs decompress s') in
  forall N ncpu text s rs d,
  rtc (std_step N ncpu v (get_queries N (terms text))) (std_init N (get_queries N (terms text))) s -> std_returns N s rs -> plain_doc d ->
  d ∈ rs.*1 <->
  d <> "" /\ exists body doc t, body ∈ bodies /\ bind body = Some doc /\ d_id doc = d /\ t ∈ terms text /\
    (t ∈ terms (d_title doc) \/ t ∈ terms (d_text doc)).
Proof.
  intros compress decompress cs gz pos bind il inum tl st fo r i bodies sts Hx Hf Ht Hns Hok Hid Hserv Hr.
  destruct (C59_all_flushed compress decompress cs pos r Hr) with (i := i) as (j & Hij & Hj); [apply Hok|done|done|done|done|].
  exists j. split; [done|]. intros k u Hk Hu Hp G1 G2 cs' u' s' Hre tm v N ncpu text s rs d Hs Hret Hd.
  destruct (Hserv k) as (u1 & Hu1 & Hsv); [lia|]. rewrite Hu in Hu1. injection Hu1 as <-. destruct (Hj k Hk) as (u2 & Hu2 & Hfl). rewrite Hu in Hu2. injection Hu2 as <-.
  destruct (Hok k) as (O1 & O2 & O3).
  eapply (C63_restart compress decompress cs gz pos bind il inum tl st fo (r k) u bodies sts (Hsv Hp) O1 O3 Hid Hfl G1 G2 cs' u' s' Hre); done.
Qed.
Print Assumptions C63_durable.

(** A document id with a slash: the document writer calls SecureSaveFile for a path in a
    folder that nobody creates, the call fails and log.Fatalf ends the server
    (DiskIO.go:210-213), so that one POST request with such an id, answered with 201, stops
    the service at the next tick. *)
Theorem C63_slash_id : forall compress decompress cache_size root a b, root <> "" -> simple a -> simple b ->
  (exists p, document_save_paths root (a ++ "/" ++ b) !! 1 = Some p /\ target p = (target root ++ ["docs"; "metrics"; a; (b ++ "_temp")%string])%list) /\
  forall y, reachable compress decompress cache_size y -> good_log (y_log y) ->
    forall buf, ss_step ["docs"; "metrics"; a] b buf (SSOpen, y_fs y) = Some (SSErr, y_fs y).
Proof.
  intros compress decompress cs root a b Hroot Ha Hb. split.
  - eexists. split; [reflexivity|]. rewrite C57_join_nested. change (["docs"; "metrics"]%string ++ ?x) with ("docs" :: "metrics" :: x).
    assert (((a ++ "/" ++ b) ++ "_temp")%string = (a ++ "/" ++ (b ++ "_temp"))%string) as ->. { clear. induction a as [|c a IH]; [done|]. cbn in *. f_equal. exact IH. }
    destruct (join_target root ["docs"; "metrics"; a ++ "/" ++ (b ++ "_temp")]%string Hroot) as [_ E]. cbn [app]. rewrite E.
    assert (S_Path.simple (b ++ "_temp")) as Hbt by (apply simple_suffix; [done|apply (simple_chars "_temp"); done|cbn; lia]).
    assert (S_Path.simple "docs") as D1 by simple_name. assert (S_Path.simple "metrics") as D2 by simple_name.
    unfold all_pieces. cbn [map concat]. rewrite pieces_cat, (pieces_simple a) by apply Ha. rewrite (pieces_simple (b ++ "_temp")) by apply Hbt.
    rewrite (pieces_simple "docs") by apply D1. rewrite (pieces_simple "metrics") by apply D2. cbn [app]. rewrite walk_app, walk_simple by (by simple_list).
    rewrite rev_app_distr. unfold target. by rewrite rev_involutive.
  - intros y Hr Hg buf. destruct (reach_base compress decompress cs y Hr Hg) as [Hl _]. unfold ss_step, on, open_trunc, temp_path. cbn [snd fst].
    change (parent (["docs"; "metrics"; a] ++ [(b ++ "_temp")%string])) with ["docs"; "metrics"; a].
    rewrite is_dir_false; [done|]. intros Hd. apply (l_dirs _ Hl) in Hd. discriminate Hd.
Qed.
Print Assumptions C63_slash_id.

(** The hypotheses of C63_restart: a server that has answered two POST requests (one of
    them rejected), flushed, and can be started again. *)
Example C63_case : let letter := fun r => ((97 <=? r) && (r <=? 122))%Z in let num := fun _ => false in
  exists y u u' s', serving id Some 2 (post ex_bind letter num same same same) y u ["star"; ""] [201; 400]%Z /\
    ECrash ∉ y_log y /\ (forall d, requested (y_log y) d -> plain_doc d) /\ usual_ids 2 (accepted ex_bind ["star"; ""]) /\
    flushed u /\ (forall f, ~ in_gap (u_mg u) f) /\ reopen id Some 2 (y_fs y) u' s' /\ terms_of letter num same same same "star" = ["star"].
Proof.
  intros letter num. set (x := fun f => posted_field f (terms_of letter num same same same "star")).
  set (cs := [Save "star" (x "id"); Save "star" (x "title"); Save "star" (x "text")]).
  destruct (play_obs 2 (dopen ++ dsave "star" (x "id") ++ dsave "star" (x "title") ++ dsave "star" (x "text") ++
      [(true, ARecv); (false, TNft); (true, ANft); (false, TMetrics); (true, AMetrics); (false, TIndex); (true, AIndex "u1")] ++ dflush)
    (fun y => (match y_log y with EOpened :: l2 => bool_decide (EOpened ∉ l2) && bool_decide (calls_of l2 = cs) && bool_decide (ECrash ∉ l2) &&
        bool_decide (omap (fun e => match e with EGet ids f => Some ids | _ => None end) l2 = []) | _ => false end,
      match y_proc y with Up u => match u_pc u, u_ich u, m_pc (u_mg u) with
        | CIdle, [], MIdle => bool_decide (i_buf (u_iw u) = ∅) && bool_decide (w_buf (u_mw u) = ∅) && bool_decide (w_buf (u_nw u) = ∅) && bool_decide (w_buf (u_dw u) = ∅)
        | _, _, _ => false end | _ => false end,
      match reopen_exec id Some 2 (y_fs y) with Some _ => true | None => false end)) (true, true, true)) as (y & Hr & H); [vm_compute; reflexivity|].
  apply pair_equal_spec in H as [H H3]. apply pair_equal_spec in H as [H1 H2].
  destruct (y_log y) as [|e l2] eqn:El; [discriminate H1|]. destruct e; try discriminate H1. rewrite !andb_true_iff, !bool_decide_eq_true in H1. destruct H1 as (((L1 & L2) & L3) & L4).
  destruct (y_proc y) as [| |u] eqn:Eu; try discriminate H2. destruct (u_pc u) eqn:Ep; try discriminate H2. destruct (u_ich u) eqn:Ei; try discriminate H2. destruct (m_pc (u_mg u)) eqn:Em; try discriminate H2.
  rewrite !andb_true_iff, !bool_decide_eq_true in H2. destruct H2 as (((B1 & B2) & B3) & B4).
  destruct (reopen_exec id Some 2 (y_fs y)) as [[u' s']|] eqn:Er; [|discriminate H3]. apply reopen_exec_ok in Er.
  exists y, u, u', s'. split; [|split; [|split; [|split; [|split; [|split; [|split]]]]]].
  - split; [done|]. split; [done|]. split; [done|]. exists [], l2. split; [by rewrite El|]. split; [done|]. split; [done|]. rewrite L2. change cs with (cs ++ [] ++ []).
    constructor; [|constructor; [|constructor]].
    + eapply (post_created ex_bind _ _ _ _ _ "star" (mkDocument "star" "star" "star")); try done; by apply preprocess_terms.
    + by eapply post_incomplete.
  - rewrite El. intros [E|E]%elem_of_cons; done.
  - rewrite El. intros d (ids & f & Hi & _). exfalso. apply elem_of_cons in Hi as [Hi|Hi]; [done|].
    assert (ids ∈ omap (fun e => match e with EGet ids f => Some ids | _ => None end) l2) as Hin by (apply elem_of_list_omap; by eexists). rewrite L4 in Hin. by apply elem_of_nil in Hin.
  - split.
    + intros doc Hd. vm_compute in Hd. apply elem_of_list_singleton in Hd as ->. split; [done|]. by apply plain_case.
    + vm_compute. discriminate.
  - unfold flushed. rewrite Ep, Ei, B1, B2, B3, B4. done.
  - intros f (a & b & c & d & E). congruence.
  - done.
  - vm_compute. done.
Qed.
