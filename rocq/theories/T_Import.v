(** C67: JSON documents from decoding to searching (main.go:228-263), and C54_grouped. *)
From Verif Require Import Base M_Text M_Language M_Field S_Field M_LRU S_LRU S_Visits M_Memory M_File M_Serialize M_Disk M_Num M_FanIn M_Search M_Standard M_Server S_View S_Search S_Memory S_Server M_DiskSearch S_Disk S_DiskFair S_DiskDurable S_Import M_Import
  P_Base P_Text P_Field P_FieldExtra T_Field P_File P_DiskBase P_DiskInv P_DiskMem P_DiskWriter P_DiskDocs P_DiskDocs2 P_DiskDocs3 P_DiskGroup P_DiskSearch P_Memory P_Memory2 P_Search P_Search2 P_Standard P_Server P_Import T_Memory T_Server T_Search T_DiskMem T_DiskDocs T_DiskSearch T_DiskIndex T_DiskDurable X_DiskExec M_File M_Disk S_Disk.
#[local] Open Scope nat_scope.
#[local] Opaque serialize_metrics deserialize_metrics serialize_nft deserialize_nft serialize_field_map deserialize_field_map serialize_index deserialize_index.

(** C54: if all the fields of a document are saved one after the other (no other document
    and no GetFields in between), its file is complete once it is flushed, however many
    documents were saved before and are saved afterwards. *)
Theorem C54_grouped : forall compress decompress cache_size, gzip_ok compress decompress -> (0 < cache_size)%Z ->
  forall y0 g y1 u1 e1 e e2 y u d, reachable compress decompress cache_size y0 -> y_proc y0 = Loading g ->
  live_step compress decompress cache_size y0 y1 -> y_proc y1 = Up u1 ->
  session compress decompress cache_size y1 (e1 ++ e ++ e2) y -> good_log (y_log y) ->
  (forall z, Save d z ∉ calls_of e1) -> ~ requested e1 d -> only_saves d e -> calls_of e <> [] -> (forall z, Save d z ∉ calls_of e2) -> plain_doc d ->
  y_proc y = Up u -> u_pc u = CIdle -> w_buf (u_dw u) !! d = None ->
  load_doc decompress (y_fs y) d = Some (Some (field32 <$> doc_map (calls_of e) d)).
Proof.
  intros compress decompress cs gz pos y0 g y1 u1 e1 e e2 y u d Hr0 H0 L Hu1 Hs Hg N1 N2 N3 N4 N5 Hd Hu Hp Hb.
  destruct (group_saved compress decompress cs pos y0 y1 u1 e1 e e2 y d Hd Hr0 (ex_intro _ g H0) L Hu1 Hs Hg N1 N2 N3 N4 N5) as (u' & Hu' & Hf).
  rewrite Hu in Hu'. injection Hu' as <-. destruct Hf as [(x & m0 & _ & E & _)|[l Ht]]; [by rewrite Hp in E|].
  assert (~ P_DiskDocs.busy (u_pc u) d) as Hnb by (rewrite Hp; by intros [z Hz%elem_of_nil]).
  pose proof (track_link _ _ _ _ _ _ _ Ht Hnb) as HL. unfold d_link in HL. rewrite Hb in HL.
  by rewrite (d_holds_load compress decompress gz _ _ _ HL).
Qed.
Print Assumptions C54_grouped.

(** * C67 *)
(** A search finds exactly the documents that have a leaf at the field of some query
    sharing a term with it. *)
Theorem C67_found_exactly : forall num compress decompress cache_size decode (fmt_num : num -> string) is_letter is_number to_lower stem fold y u docs,
  importing compress decompress cache_size decode fmt_num is_letter is_number to_lower stem fold y u docs -> usual_objects decode docs ->
  let terms := terms_of is_letter is_number to_lower stem fold in
  let v := disk_view (u_mem u) (doc_map (calls_of (y_log y))) in
  forall N ncpu qs s rs d,
  rtc (std_step N ncpu v qs) (std_init N qs) s -> std_returns N s rs ->
  d ∈ rs.*1 <-> exists q document obs p w t, q ∈ qs /\ (document, d) ∈ docs /\ decode document = Some obs /\
    leaf_at obs p w /\ dotted p = q_field q /\ t ∈ terms (sprint fmt_num w) /\ t ∈ q_terms q.
Proof.
  intros num compress decompress cs decode fmt il inum tl st fo y u docs (Hr & Hu & Hp & l1 & l2 & Hl & Ho & Hc & Hi) Hus tm v N ncpu qs s rs d Hs Hret.
  destruct (mem_run_total mem_new (calls_of l2)) as [m Hm].
  destruct (C60_same_searches compress decompress cs y u l1 l2 Hr Hu Hp Hl Ho Hc (all_saves _ _ _ _ _ _ _ _ _ Hi) m Hm N ncpu) as [_ E].
  eapply (found_after_import decode fmt il inum tl st fo N ncpu docs (calls_of l2) m qs s rs d); [done|done|done|by apply E|done].
Qed.
Print Assumptions C67_found_exactly.

(** Whatever the keys are: a document is only found for a leaf whose dotted path (leading
    empty keys left out) is the field. *)
Theorem C67_found_only : forall num compress decompress cache_size decode (fmt_num : num -> string) is_letter is_number to_lower stem fold y u docs,
  importing compress decompress cache_size decode fmt_num is_letter is_number to_lower stem fold y u docs ->
  let terms := terms_of is_letter is_number to_lower stem fold in
  let v := disk_view (u_mem u) (doc_map (calls_of (y_log y))) in
  forall N ncpu qs s rs d,
  rtc (std_step N ncpu v qs) (std_init N qs) s -> std_returns N s rs -> d ∈ rs.*1 ->
  exists q document obs p w t, q ∈ qs /\ (document, d) ∈ docs /\ decode document = Some obs /\
    leaf_at obs p w /\ dotted (strip_empty p) = q_field q /\ t ∈ terms (sprint fmt_num w) /\ t ∈ q_terms q.
Proof.
  intros num compress decompress cs decode fmt il inum tl st fo y u docs (Hr & Hu & Hp & l1 & l2 & Hl & Ho & Hc & Hi) tm v N ncpu qs s rs d Hs Hret.
  destruct (mem_run_total mem_new (calls_of l2)) as [m Hm].
  destruct (C60_same_searches compress decompress cs y u l1 l2 Hr Hu Hp Hl Ho Hc (all_saves _ _ _ _ _ _ _ _ _ Hi) m Hm N ncpu) as [_ E].
  eapply (found_only_imported decode fmt il inum tl st fo N ncpu docs (calls_of l2) m qs s rs d); [done|done|by apply E|done].
Qed.
Print Assumptions C67_found_only.

(** The id of a document is its top-level Id, unless that is absent or the empty string. *)
Theorem C67_ids : forall num compress decompress cache_size decode (fmt_num : num -> string) is_letter is_number to_lower stem fold y u docs,
  importing compress decompress cache_size decode fmt_num is_letter is_number to_lower stem fold y u docs -> usual_objects decode docs ->
  forall document id obs, (document, id) ∈ docs -> decode document = Some obs ->
  (forall s, ("Id"%string, JString s) ∈ obs -> s <> "" -> id = s) /\
  (forall w, ("Id"%string, w) ∈ obs -> is_object w = false -> (forall s, w <> JString s) -> (forall l, w <> JArray l) -> id = sprint fmt_num w).
Proof.
  intros num compress decompress cs decode fmt il inum tl st fo y u docs (_ & _ & _ & l1 & l2 & _ & _ & _ & Hi) Hus document id obs Hin Hd.
  destruct (all_one _ _ _ _ _ _ _ _ _ Hi _ _ Hin) as [calls H1]. eapply one_id; [exact H1|done|by eapply Hus].
Qed.
Print Assumptions C67_ids.

(** A number is indexed with the word float64: whatever the number, a search for float64
    in that field finds the document. *)
Theorem C67_numbers_match : forall num compress decompress cache_size decode (fmt_num : num -> string) is_letter is_number to_lower stem fold y u docs,
  importing compress decompress cache_size decode fmt_num is_letter is_number to_lower stem fold y u docs -> usual_objects decode docs ->
  (forall r, (97 <= r <= 122)%Z -> is_letter r = true) -> (forall r, (48 <= r <= 57)%Z -> is_number r = true) ->
  (forall r, r ∈ [33; 37; 40; 41; 61]%Z -> is_letter r = false /\ is_number r = false) -> to_lower "float64" = "float64" ->
  let v := disk_view (u_mem u) (doc_map (calls_of (y_log y))) in
  forall N ncpu f s rs d document obs p n, let qs := [mkQuery f (of_int N 1) [fold (stem "float64")]] in
  (document, d) ∈ docs -> decode document = Some obs -> leaf_at obs p (JNumber n) -> dotted p = f ->
  rtc (std_step N ncpu v qs) (std_init N qs) s -> std_returns N s rs -> d ∈ rs.*1.
Proof.
  intros num compress decompress cs decode fmt il inum tl st fo y u docs Him Hus H1 H2 H3 H4 v N ncpu f s rs d document obs p n qs Hin Hd Hl Hf Hs Hret.
  eapply (C67_found_exactly num compress decompress cs decode fmt il inum tl st fo y u docs Him Hus N ncpu qs s rs d Hs Hret).
  exists (mkQuery f (of_int N 1) [fo (st "float64")]), document, obs, p, (JNumber n), (fo (st "float64")). split; [left|]. do 4 (split; [done|]). split; [|left].
  unfold terms_of. rewrite (C10_number_terms num fmt il inum n H1 H2 H3). rewrite map_app, filter_app, !map_app. apply elem_of_app. left.
  apply (elem_of_list_fmap_1 fo). apply (elem_of_list_fmap_1 st). apply elem_of_list_filter. split; [vm_compute; discriminate|]. apply elem_of_list_fmap. exists "float64". split; [done|]. right. left.
Qed.
Print Assumptions C67_numbers_match.

(** The statistics used for scoring: how many documents have the field, and how many terms
    it has in all of them. *)
Theorem C67_statistics : forall num compress decompress cache_size decode (fmt_num : num -> string) is_letter is_number to_lower stem fold y u docs,
  importing compress decompress cache_size decode fmt_num is_letter is_number to_lower stem fold y u docs -> usual_objects decode docs ->
  forall f os, Forall2 (in_field decode fmt_num (terms_of is_letter is_number to_lower stem fold) f) docs os ->
  let found := omap (fun o => o) os in
  disk_get_size (u_mem u) f = wrap64 (Z.of_nat (length found)) /\
  disk_get_length (u_mem u) f = wrap64 (foldr Z.add 0%Z (map (fun ts : list string => Z.of_nat (length ts)) found)).
Proof.
  intros num compress decompress cs decode fmt il inum tl st fo y u docs (Hr & Hu & Hp & l1 & l2 & Hl & Ho & Hc & Hi) Hus f os Hos found.
  destruct (mem_run_total mem_new (calls_of l2)) as [m Hm].
  destruct (C46_same_as_memory compress decompress cs y u l1 l2 Hr Hu Hp Hl Ho Hc (all_saves _ _ _ _ _ _ _ _ _ Hi) m Hm) as (_ & _ & _ & S4 & S5).
  destruct (all_field decode fmt il inum tl st fo f docs (calls_of l2) os Hi Hus Hos) as [E1 E2].
  rewrite S4, S5, (C24_memory_size_counts_calls _ _ f Hm), (C24_memory_length_sums_calls _ _ f Hm), E1, E2. done.
Qed.
Print Assumptions C67_statistics.

(** * Restart *)
Lemma doc_map_skip h1 h2 h3 d : (forall x, Save d x ∉ h1) -> (forall x, Save d x ∉ h3) -> doc_map (h1 ++ h2 ++ h3) d = doc_map h2 d.
Proof.
  intros N1 N3. unfold doc_map. rewrite !fold_left_app.
  assert (forall h m, (forall x, Save d x ∉ h) -> fold_left (doc_map_step d) h m = m) as G.
  { induction h as [|c h IH]; [done|]. intros m N. cbn [fold_left]. rewrite IH by (intros x Hx; apply (N x); by right).
    destruct c as [d' x|]; [|done]. cbn. rewrite decide_False; [done|]. intros ->. apply (N x). left. }
  by rewrite (G h1), (G h3).
Qed.
Section restart.
  Context {num : Type}.
  Variables (compress : bytes -> bytes) (decompress : bytes -> option bytes) (cs : Z).
  Hypotheses (gz : gzip_ok compress decompress) (pos : (0 < cs)%Z).
  Variables (decode : string -> option (list (string * json num))) (fmt : num -> string) (il inum : Z -> bool) (tl st fo : string -> string).
  Notation all := (imported decode fmt il inum tl st fo).

  Lemma import_good docs calls : all docs calls -> usual_objects decode docs -> usual_file_names decode docs -> forall c, c ∈ calls -> good_call c.
  Proof.
    intros Hi Ho Hn c Hc. destruct (all_calls _ _ _ _ _ _ _ _ _ Hi c Hc) as (document & id & obs & p & v & Hin & Hd & Hl & ->).
    rewrite (usual_strip obs p v (Ho _ _ _ Hin Hd) Hl). destruct (Hn _ _ _ _ _ Hin Hd Hl) as (A1 & A2 & A3 & A4). split; [done|]. by split.
  Qed.
  Lemma import_file y u docs d x : importing compress decompress cs decode fmt il inum tl st fo y u docs -> good_log (y_log y) -> NoDup docs.*2 ->
    (forall ids f, EGet ids f ∉ y_log y) -> w_buf (u_dw u) = ∅ -> Save d x ∈ calls_of (y_log y) -> plain_doc d ->
    load_doc decompress (y_fs y) d = Some (Some (field32 <$> doc_map (calls_of (y_log y)) d)).
  Proof.
    intros (Hr & Hu & Hp & l1 & l2 & Hl & Ho & Hc & Hi) Hg Hnd Hnr Hb Hx Hd.
    destruct (opened_session compress decompress cs y u Hr Hu) as (k1 & k2 & y0 & g & y1 & u1 & E1 & E2 & E3 & E4 & E5 & E6 & E7 & E8).
    assert (k1 = l1 /\ k2 = l2) as [-> ->].
    { rewrite Hl in E1. clear - E1 Ho E2. revert k1 E1. induction l1 as [|e l1 IH]; intros [|e' k1] E; cbn in E.
      - by injection E as ->.
      - injection E as <- E. subst l2. exfalso. apply Ho. apply elem_of_app. right. left.
      - injection E as -> E. subst k2. exfalso. apply E2. apply elem_of_app. right. left.
      - injection E as <- E. destruct (IH k1 E) as [-> ->]. done. }
    assert (calls_of (y_log y) = calls_of l2) as Ec by (rewrite Hl, calls_app, Hc; done). rewrite Ec in *.
    assert (d ∈ docs.*2) as Hin. { destruct (all_calls _ _ _ _ _ _ _ _ _ Hi _ Hx) as (document & id & obs & p & v & Hin & _ & _ & E). injection E as E _. subst id. by apply (elem_of_list_fmap_1 snd) in Hin. }
    destruct (all_split _ _ _ _ _ _ _ _ _ d Hi Hnd Hin) as (document & cA & cD & cB & Hin' & Es & Hone & NA & NB).
    destruct (calls_split l2 cA (cD ++ cB) Es) as (e1 & e23 & -> & F1 & F23). destruct (calls_split e23 cD cB F23) as (e & e2 & -> & F2 & F3).
    rewrite Es, doc_map_skip by done. rewrite <- F2.
    eapply (C54_grouped compress decompress cs gz pos y0 g y1 u1 e1 e e2 y u d E3 E4 E5 E6 E8 Hg); rewrite ?F1, ?F2, ?F3; try done.
    - intros (ids & f & Hq & _). apply (Hnr ids f). rewrite Hl. apply elem_of_app. right. right. apply elem_of_app. by left.
    - split; [|intros c Hc'; rewrite F2 in Hc'; by eapply one_saves].
      intros ids f Hq. apply (Hnr ids f). rewrite Hl. apply elem_of_app. right. right. apply elem_of_app. right. apply elem_of_app. by left.
    - intros ->. rewrite Es in Hx. cbn in Hx. apply elem_of_app in Hx as [Hx|Hx]; [by apply (NA x)|by apply (NB x)].
    - by rewrite Hb.
  Qed.
End restart.

(** Everything flushed, the process ends (not between the two renames of the index file of
    a field that is searched) and the folder is opened again: searches find exactly the
    same documents, although the cache may be much smaller than the number of documents
    (main.go:230 has a cache of 1000). *)
Theorem C67_restart : forall num compress decompress cache_size, gzip_ok compress decompress -> (0 < cache_size)%Z ->
  forall decode (fmt_num : num -> string) is_letter is_number to_lower stem fold y u docs,
  importing compress decompress cache_size decode fmt_num is_letter is_number to_lower stem fold y u docs ->
  usual_objects decode docs -> usual_file_names decode docs -> NoDup docs.*2 -> (forall ids f, EGet ids f ∉ y_log y) ->
  flushed u -> forall cache_size' u' s', reopen compress decompress cache_size' (y_fs y) u' s' ->
  let terms := terms_of is_letter is_number to_lower stem fold in
  let v := disk_view (u_mem u') (file_docs decompress s') in
  forall N ncpu qs, (forall q, q ∈ qs -> q_field q <> "docs" /\ ~ in_gap (u_mg u) (q_field q)) ->
  forall s rs d, rtc (std_step N ncpu v qs) (std_init N qs) s -> std_returns N s rs ->
  d ∈ rs.*1 <-> exists q document obs p w t, q ∈ qs /\ (document, d) ∈ docs /\ decode document = Some obs /\
    leaf_at obs p w /\ dotted p = q_field q /\ t ∈ terms (sprint fmt_num w) /\ t ∈ q_terms q.
Proof.
  intros num compress decompress cs gz pos decode fmt il inum tl st fo y u docs Him Hus Hn Hnd Hnr Hfl cs' u' s' Hre tm v N ncpu qs Hq s rs d Hs Hret.
  pose proof Him as (Hr & Hu & Hp & l1 & l2 & Hl & Ho & Hc & Hi).
  assert (calls_of (y_log y) = calls_of l2) as Ec by (rewrite Hl, calls_app, Hc; done).
  assert (good_log (y_log y)) as Hg. { intros c Hin. rewrite Ec in Hin. by eapply import_good. }
  set (v0 := disk_view (u_mem u) (doc_map (calls_of (y_log y)))).
  destruct Hfl as (_ & F1 & F2 & _ & _ & F5). assert (index_quiet u) as Hiq by done.
  destruct (mem_run_total mem_new (calls_of l2)) as [m Hm].
  destruct (C46_same_as_memory compress decompress cs y u l1 l2 Hr Hu Hp Hl Ho Hc (all_saves _ _ _ _ _ _ _ _ _ Hi) m Hm) as (S1 & _ & _ & _ & _).
  assert (forall q, q ∈ qs -> forall d, (matches v (q_terms q) (q_field q) d = true /\ is_Some (v_fields v [d] (q_field q) !! d)) <->
    (matches v0 (q_terms q) (q_field q) d = true /\ is_Some (v_fields v0 [d] (q_field q) !! d))) as HF.
  { clear d. intros q Hqq d. destruct (Hq q Hqq) as [N1 N2]. pose proof (C48_quiet_reopen compress decompress cs gz y u (q_field q) Hr Hg Hu N1 Hiq N2 cs' u' s' Hre) as Ei.
    assert (forall t, disk_get_documents (u_mem u') (q_field q) t = disk_get_documents (u_mem u) (q_field q) t) as Ed.
    { intros t. revert Ei. unfold disk_get_index, disk_get_documents. assert (forall o : option (gmap string set_data), match o with Some idx => match idx !! t with Some s => Some s | None => None end | None => None end = default ∅ o !! t) as G.
      { intros [i|]; cbn; [by destruct (i !! t)|by rewrite lookup_empty]. }
      rewrite !G. by intros ->. }
    assert (matches v (q_terms q) (q_field q) d = matches v0 (q_terms q) (q_field q) d) as Em.
    { unfold matches, v, v0. cbn [disk_view v_docs]. clear - Ed. induction (q_terms q) as [|t ts IH]; [done|]. cbn [existsb]. by rewrite Ed, IH. }
    rewrite Em. destruct (matches v0 (q_terms q) (q_field q) d) eqn:E0; [|split; by intros [? _]].
    assert (matches (mem_view m) (q_terms q) (q_field q) d = true) as E1.
    { rewrite <- E0. unfold matches, v0. cbn [disk_view mem_view v_docs]. clear - S1. induction (q_terms q) as [|t ts IH]; [done|]. cbn [existsb]. by rewrite S1, IH. }
    apply (mem_matches _ _ _ _ _ Hm) in E1 as (t & c & _ & Hcc & Hd & _ & _). destruct (all_saves _ _ _ _ _ _ _ _ _ Hi c Hcc) as (d' & x & ->). cbn in Hd. subst d'.
    assert (plain_doc d) as Hpl. { destruct (all_calls _ _ _ _ _ _ _ _ _ Hi _ Hcc) as (document & id & obs & p & w & Hin & Hdc & Hlf & E). injection E as -> _. by destruct (Hn _ _ _ _ _ Hin Hdc Hlf) as (_ & ? & _). }
    assert (file_docs decompress s' d = field32 <$> doc_map (calls_of (y_log y)) d) as Ef.
    { destruct (d_reach compress decompress cs pos y Hr Hg) as ([Bl _] & _). destruct Hre as (acc & Hlo & _). destruct (loads_frame compress decompress _ _ _ Bl Hlo) as (_ & _ & _ & F).
      assert (load_doc decompress s' d = load_doc decompress (y_fs y) d) as El. { apply load_same. unfold doc_file. apply F; by rewrite owner_d. }
      unfold file_docs. rewrite El. rewrite (import_file compress decompress cs gz pos decode fmt il inum tl st fo y u docs d x Him Hg Hnd Hnr F5); [done|by rewrite Ec|done]. }
    unfold v, v0. cbn [disk_view v_fields]. rewrite !disk_fields_spec, !decide_True by (by apply elem_of_list_singleton). rewrite Ef, lookup_fmap, fmap_is_Some. done. }
  rewrite (std_found N ncpu v qs s rs (disk_view_pointwise _ _) Hs Hret d).
  destruct (std_completes N 1 v0 ltac:(lia) (disk_view_pointwise _ _) qs) as (s0 & rs0 & T1 & T2).
  transitivity (d ∈ rs0.*1); [|by eapply C67_found_exactly].
  rewrite (std_found N 1 v0 qs s0 rs0 (disk_view_pointwise _ _) T1 T2 d).
  split; intros (q & Q1 & Q2); exists q; (split; [done|]); by apply HF.
Qed.
Print Assumptions C67_restart.

(** main.go:265-267 waits for ever after the import.  In every execution that keeps
    running, with the goroutines scheduled fairly and the tickers firing: from some moment
    on, whenever the process ends (not between the two renames) and the folder is opened
    again, searches find exactly the imported documents. *)
Theorem C67_durable : forall num compress decompress cache_size, gzip_ok compress decompress -> (0 < cache_size)%Z ->
  forall decode (fmt_num : num -> string) is_letter is_number to_lower stem fold r i docs,
  reachable compress decompress cache_size (r 0) -> execution compress decompress cache_size r -> fair compress decompress r -> ticking r ->
  no_saves_after r i -> (forall k ids f, EGet ids f ∉ y_log (r k)) -> (forall k, good_log (y_log (r k))) ->
  (forall k, i <= k -> exists u, y_proc (r k) = Up u /\ (u_pc u = CIdle -> importing compress decompress cache_size decode fmt_num is_letter is_number to_lower stem fold (r k) u docs)) ->
  usual_objects decode docs -> usual_file_names decode docs -> NoDup docs.*2 ->
  exists j, i <= j /\ forall k u, j <= k -> y_proc (r k) = Up u -> u_pc u = CIdle ->
  forall cache_size' u' s', reopen compress decompress cache_size' (y_fs (r k)) u' s' ->
  let terms := terms_of is_letter is_number to_lower stem fold in
  let v := disk_view (u_mem u') (file_docs decompress s') in
  forall N ncpu qs, (forall q, q ∈ qs -> q_field q <> "docs" /\ ~ in_gap (u_mg u) (q_field q)) ->
  forall s rs d, rtc (std_step N ncpu v qs) (std_init N qs) s -> std_returns N s rs ->
  d ∈ rs.*1 <-> exists q document obs p w t, q ∈ qs /\ (document, d) ∈ docs /\ decode document = Some obs /\
    leaf_at obs p w /\ dotted p = q_field q /\ t ∈ terms (sprint fmt_num w) /\ t ∈ q_terms q.
Proof.
  intros num compress decompress cs gz pos decode fmt il inum tl st fo r i docs Hr Hx Hf Ht Hns Hnr Hok Him Hus Hn Hnd.
  destruct (C59_all_flushed compress decompress cs pos r Hr) with (i := i) as (j & Hij & Hj); [apply Hok|done|done|done|done|].
  exists j. split; [done|]. intros k u Hk Hu Hp cs' u' s' Hre tm v N ncpu qs Hq s rs d Hs Hret.
  destruct (Him k) as (u1 & Hu1 & Hk1); [lia|]. rewrite Hu in Hu1. injection Hu1 as <-. destruct (Hj k Hk) as (u2 & Hu2 & Hfl). rewrite Hu in Hu2. injection Hu2 as <-.
  eapply (C67_restart num compress decompress cs gz pos decode fmt il inum tl st fo (r k) u docs (Hk1 Hp) Hus Hn Hnd (Hnr k) Hfl cs' u' s' Hre N ncpu qs Hq s rs d Hs Hret).
Qed.
Print Assumptions C67_durable.

(** The hypotheses of C67_restart: two documents with two fields each, imported with a
    cache for one document, flushed; the folder can be opened again. *)
Definition ex_decode (s : string) : option (list (string * json Z)) :=
  if String.eqb s "1" then Some [("Id", JString "da"); ("a", JObject [("b", JString "star")])]
  else if String.eqb s "2" then Some [("a", JObject [("b", JNumber 7%Z)]); ("Id", JString "db")] else None.
Definition ex_import : list (string * string) := [("1", "da"); ("2", "db")].
Lemma ex_decode_leaf s obs p v : ex_decode s = Some obs -> leaf_at obs p v -> p = ["Id"] \/ p = ["a"; "b"].
Proof.
  unfold ex_decode. intros Hd Hl. destruct (String.eqb s "1").
  - injection Hd as <-. inversion Hl as [? k w Hin Ho|? k o q w Hin Hq]; subst; rewrite !elem_of_cons, elem_of_nil in Hin; destruct Hin as [Hin|[Hin|[]]]; injection Hin as ? ?; subst; try discriminate; [by left|].
    right. inversion Hq as [? k w Hin Ho|? k o' q' w Hin Hq']; subst; apply elem_of_list_singleton in Hin; injection Hin as ? ?; subst; done.
  - destruct (String.eqb s "2"); [|discriminate Hd].
    injection Hd as <-. inversion Hl as [? k w Hin Ho|? k o q w Hin Hq]; subst; rewrite !elem_of_cons, elem_of_nil in Hin; destruct Hin as [Hin|[Hin|[]]]; injection Hin as ? ?; subst; try discriminate; [by left|].
    right. inversion Hq as [? k w Hin Ho|? k o' q' w Hin Hq']; subst; apply elem_of_list_singleton in Hin; injection Hin as ? ?; subst; done.
Qed.
Lemma ex_decode_wf s obs : ex_decode s = Some obs -> wf_object obs.
Proof.
  unfold ex_decode. intros Hd. destruct (String.eqb s "1"); [|destruct (String.eqb s "2"); [|discriminate Hd]]; injection Hd as <-; (constructor; [apply (bool_decide_unpack _); by vm_compute|]);
    intros k o Hin; rewrite !elem_of_cons, elem_of_nil in Hin; destruct Hin as [Hin|[Hin|[]]]; injection Hin as ? ?; try discriminate; subst; (constructor; [apply (bool_decide_unpack _); by vm_compute|]);
    intros k' o' Hin; apply elem_of_list_singleton in Hin; discriminate Hin.
Qed.
Example C67_case : let letter := fun r => (((97 <=? r) && (r <=? 122)) || ((65 <=? r) && (r <=? 90)))%Z in let num := fun _ => false in let fmt := fun _ : Z => "7"%string in
  exists y u u' s', importing id Some 1 ex_decode fmt letter num same same same y u ex_import /\ usual_objects ex_decode ex_import /\ usual_file_names ex_decode ex_import /\
    NoDup ex_import.*2 /\ (forall ids f, EGet ids f ∉ y_log y) /\ flushed u /\ (forall f, ~ in_gap (u_mg u) f) /\ reopen id Some 1 (y_fs y) u' s'.
Proof.
  intros letter num fmt. set (x := fun f s => posted_field f (terms_of letter num same same same s)).
  set (c1 := [Save "da" (x "Id" "da"); Save "da" (x "a.b" "star")]%string). set (c2 := [Save "db" (x "a.b" "%!s(float64=7)"); Save "db" (x "Id" "db")]%string).
  set (cs := c1 ++ c2).
  destruct (play_obs 1 (dopen ++ concat (map (fun c => match c with Save d y => dsave d y | _ => [] end) cs) ++
      [(true, ARecv); (false, TNft); (true, ANft); (false, TMetrics); (true, AMetrics); (false, TIndex); (true, AIndex "u1")] ++ dflush)
    (fun y => (match y_log y with EOpened :: l2 => bool_decide (EOpened ∉ l2) && bool_decide (calls_of l2 = cs) &&
        bool_decide (omap (fun e => match e with EGet ids f => Some ids | _ => None end) l2 = []) | _ => false end,
      match y_proc y with Up u => match u_pc u, u_ich u, m_pc (u_mg u) with
        | CIdle, [], MIdle => bool_decide (i_buf (u_iw u) = ∅) && bool_decide (w_buf (u_mw u) = ∅) && bool_decide (w_buf (u_nw u) = ∅) && bool_decide (w_buf (u_dw u) = ∅)
        | _, _, _ => false end | _ => false end,
      match reopen_exec id Some 1 (y_fs y) with Some _ => true | None => false end)) (true, true, true)) as (y & Hr & H); [vm_compute; reflexivity|].
  apply pair_equal_spec in H as [H H3]. apply pair_equal_spec in H as [H1 H2].
  destruct (y_log y) as [|e l2] eqn:El; [discriminate H1|]. destruct e; try discriminate H1. rewrite !andb_true_iff, !bool_decide_eq_true in H1. destruct H1 as ((L1 & L2) & L4).
  destruct (y_proc y) as [| |u] eqn:Eu; try discriminate H2. destruct (u_pc u) eqn:Ep; try discriminate H2. destruct (u_ich u) eqn:Ei; try discriminate H2. destruct (m_pc (u_mg u)) eqn:Em; try discriminate H2.
  rewrite !andb_true_iff, !bool_decide_eq_true in H2. destruct H2 as (((B1 & B2) & B3) & B4).
  destruct (reopen_exec id Some 1 (y_fs y)) as [[u' s']|] eqn:Er; [|discriminate H3]. apply reopen_exec_ok in Er.
  assert (forall document obs (r2 : list (string * json Z)) i (xs : list field), ex_decode document = Some obs -> NoDup r2.*1 -> M_Field.flatten obs = list_to_map (r2 : list (string * json Z)) -> get_id fmt r2 = i -> i <> "" ->
    Forall2 (import_field fmt letter num same same same) r2 xs -> import_one ex_decode fmt letter num same same same document i (index_document i xs)) as Hone.
  { intros document obs r2 i xs E1 E2 E3 E4 E5 E6. apply (import_one_intro ex_decode fmt letter num same same same document obs obs r2 r2 i "" xs); try done.
    - apply same_object_refl.
    - rewrite E3. symmetry. by apply map_to_list_to_map.
    - cbv zeta. rewrite E4. by destruct (String.eqb_spec i "").
    - rewrite E3. symmetry. by apply map_to_list_to_map. }
  exists y, u, u', s'. split; [|split; [|split; [|split; [|split; [|split; [|split]]]]]].
  - split; [done|]. split; [done|]. split; [done|]. exists [], l2. split; [by rewrite El|]. split; [done|]. split; [done|]. rewrite L2. unfold cs. change (c1 ++ c2) with (c1 ++ c2 ++ []).
    constructor; [|constructor; [|constructor]].
    + eapply (Hone "1" _ [("Id", JString "da"); ("a.b", JString "star")]%string "da" [x "Id" "da"; x "a.b" "star"]%string); [reflexivity|apply (bool_decide_unpack _); by vm_compute|first [reflexivity|by apply (insert_commute (M:=gmap string))]|reflexivity|done|].
      constructor; [|constructor; [|constructor]]; eexists; (split; [by apply preprocess_terms|done]).
    + eapply (Hone "2" _ [("a.b", JNumber 7%Z); ("Id", JString "db")]%string "db" [x "a.b" "%!s(float64=7)"; x "Id" "db"]%string); [reflexivity|apply (bool_decide_unpack _); by vm_compute|first [reflexivity|by apply (insert_commute (M:=gmap string))]|reflexivity|done|].
      constructor; [|constructor; [|constructor]]; eexists; (split; [by apply preprocess_terms|done]).
  - intros document i obs _ Hd. split; [by eapply ex_decode_wf|]. intros p v Hl. destruct (ex_decode_leaf _ _ _ _ Hd Hl) as [-> | ->]; (split; [by repeat constructor|done]).
  - intros document i obs p v Hin Hd Hl. assert (simple_name i /\ plain_doc i) as [A1 A2].
    { unfold ex_import in Hin. rewrite !elem_of_cons, elem_of_nil in Hin. destruct Hin as [Hin|[Hin|[]]]; injection Hin as _ ->; (split; [done|by apply plain_case]). }
    split; [done|]. split; [done|]. destruct (ex_decode_leaf _ _ _ _ Hd Hl) as [-> | ->]; done.
  - apply (bool_decide_unpack _); by vm_compute.
  - rewrite El. intros ids f Hi. apply elem_of_cons in Hi as [Hi|Hi]; [done|].
    assert (ids ∈ omap (fun e => match e with EGet ids f => Some ids | _ => None end) l2) as Hin by (apply elem_of_list_omap; by eexists). rewrite L4 in Hin. by apply elem_of_nil in Hin.
  - unfold flushed. rewrite Ep, Ei, B1, B2, B3, B4. done.
  - intros f (a & b & c & d & E). congruence.
  - done.
Qed.
