(** C69: the HTTP service on the disk storage, any number of requests at the same time. *)
From Verif Require Import Base M_Text M_Language M_Field M_LRU S_Visits M_Memory M_File M_Serialize M_Num M_FanIn M_Search M_Concurrent M_SearchConc M_Disk M_DiskBusy M_DiskMulti M_Standard M_Server M_BusyServer M_MultiServer S_Search S_Server S_Concurrent S_DiskMulti S_DiskQuery S_BusyServer S_MultiServer P_FanIn P_Standard P_Server P_BusyServer P_DiskInv P_DiskIndex3 P_DiskIndex4 P_DiskMulti P_DiskMulti2 P_DiskMulti3 P_DiskMulti5 P_DiskMulti7 P_DiskFrozen P_BusyServer2 T_BusyServer T_DiskMulti T_DiskMulti4 T_DiskQuery P_MultiServer P_MultiServer2 P_MultiServer3 S_Disk.
#[local] Open Scope nat_scope.
#[local] Opaque serialize_metrics serialize_nft serialize_field_map serialize_index deserialize_index deserialize_nft deserialize_field_map deserialize_metrics.

(** * Lemmas *)
Section lemmas.
  Context {N : numops}.
  Lemma ms_found_in qrs (rs : list (doc_score N)) q len size nft docs d y : (forall d s, (d, s) ∈ rs <-> omap (ms_adds d) qrs <> [] /\ s = sum_num N (omap (ms_adds d) qrs)) ->
    (q, ((len, size), (nft, docs))) ∈ qrs -> docs !! d = Some y -> d ∈ rs.*1.
  Proof.
    intros H Hin Hd. apply elem_of_list_fmap. exists (d, sum_num N (omap (ms_adds d) qrs)). split; [done|]. apply H. split; [|done].
    intros E. assert (doc_bm25 N q (M_DiskMulti.answer N len size nft docs) y ∈ omap (ms_adds d) qrs) as K; [|rewrite E in K; by apply elem_of_nil in K]. apply elem_of_list_omap. eexists. split; [exact Hin|]. cbn. by rewrite Hd.
  Qed.
  Lemma ms_in_found qrs (rs : list (doc_score N)) d : (forall d s, (d, s) ∈ rs <-> omap (ms_adds d) qrs <> [] /\ s = sum_num N (omap (ms_adds d) qrs)) ->
    d ∈ rs.*1 -> exists q len size nft docs y, (q, ((len, size), (nft, docs))) ∈ qrs /\ docs !! d = Some y.
  Proof.
    intros H ([d' s] & -> & Hin)%elem_of_list_fmap. apply H in Hin as [Hn _]. cbn. destruct (omap (ms_adds d') qrs) as [|v l] eqn:E; [done|].
    assert (v ∈ omap (ms_adds d') qrs) as K by (rewrite E; left). apply elem_of_list_omap in K as ([q [[len size] [nft docs]]] & Hq & Ha). cbn in Ha. destruct (docs !! d') as [y|] eqn:Ey; [|done]. by exists q, len, size, nft, docs, y.
  Qed.
  Lemma ms_query_in (qrs : list (query N * ms_result)) queries q : qrs.*1 ≡ₚ queries -> q ∈ queries -> exists len size nft docs, (q, ((len, size), (nft, docs))) ∈ qrs.
  Proof. intros Hp Hq. rewrite <- Hp in Hq. apply elem_of_list_fmap in Hq as ([q' [[len size] [nft docs]]] & -> & Hin). by exists len, size, nft, docs. Qed.
  Lemma get_query (terms : list string) (q : query N) : q ∈ get_queries N terms -> (q_field q = "title" \/ q_field q = "text") /\ q_terms q = terms.
  Proof. intros Hin. unfold get_queries in Hin. rewrite !elem_of_cons, elem_of_nil in Hin. destruct Hin as [->|[->|[]]]; cbn; auto. Qed.
  Lemma query_get (terms : list string) f : f = "title" \/ f = "text" -> (mkQuery f (of_int N 1) terms : query N) ∈ get_queries N terms.
  Proof. intros [-> | ->]; [left|right; left]. Qed.
End lemmas.

Lemma opens_log compress decompress cs (a b : multi) u : mu_opens compress decompress cs a b u -> mu_log b = mu_log a ++ [EOpened].
Proof.
  intros (HL & [g Hg] & Hu). unfold mu_open, mu_log in *. inversion HL; subst; cbn [mu_sys y_proc y_log] in *; try congruence.
  match goal with K : live_step _ _ _ _ _ |- _ => inversion K; subst; cbn [y_proc y_log] in *; try congruence end.
Qed.
(** * Theorems *)
(** The answer to a GET request: for each query one answer of Index.Search, called after
    the request arrived, and from these the ranking of C35: each document found by a query
    once, with the sum of its scores, in descending order. *)
Theorem C69_ranking : forall compress decompress cs bind is_letter is_number to_lower stem fold N ncpu (a b : mserver N) k (queries : list (query N)) rs,
  mserver_reachable compress decompress cs bind is_letter is_number to_lower stem fold N ncpu a ->
  ms_session compress decompress cs bind is_letter is_number to_lower stem fold ncpu a b -> ms_count a <= k -> ms_returned b k queries rs ->
  exists qrs : list (query N * ms_result), qrs.*1 ≡ₚ queries /\
    (forall qr, qr ∈ qrs -> exists i, mu_searches (ms_store a) <= i /\ ms_search b i qr) /\
    NoDup rs.*1 /\
    (forall d s, (d, s) ∈ rs <-> omap (ms_adds d) qrs <> [] /\ s = sum_num N (omap (ms_adds d) qrs)) /\
    (strict_weak_on (score_less N) rs -> forall i j x y, i < j -> rs !! i = Some x -> rs !! j = Some y -> ngtb N y.2 x.2 = false).
Proof.
  intros compress decompress cs bind il inum tl st fo N ncpu a b k queries rs Hr Hab Hk Hret. eapply mjob_result; [|exact Hk|exact Hret]. eapply mjobs_session; [exact Hab|]. apply mjobs_from. by eapply mjobs_reach.
Qed.
Print Assumptions C69_ranking.

(** Whatever is handled at the same time, and across any number of crashes and restarts: a
    GET request finds only documents that were posted and share a term with it. *)
Theorem C69_only_posted : forall compress decompress cs, gzip_ok compress decompress -> (0 < cs)%Z ->
  forall bind is_letter is_number to_lower stem fold N ncpu,
  let terms := terms_of is_letter is_number to_lower stem fold in
  forall (x : mserver N) k text rs d,
  mserver_reachable compress decompress cs bind is_letter is_number to_lower stem fold N ncpu x -> plain_ids bind x ->
  ms_returned x k (get_queries N (terms text)) rs -> d ∈ rs.*1 -> posted_text bind terms x text d.
Proof.
  intros compress decompress cs gz pos bind il inum tl st fo N ncpu tm x k text rs d Hx Hp Hret Hd.
  destruct (plain_good compress decompress cs bind il inum tl st fo N ncpu x Hx Hp) as [Hg _].
  destruct (mjob_result N _ _ _ _ _ _ (mjobs_reach _ _ _ _ _ _ _ _ _ _ _ _ Hx) (Nat.le_0_l k) Hret) as (qrs & H1 & H2 & _ & H4 & _).
  destruct (ms_in_found _ _ _ H4 Hd) as (q & len & size & nft & docs & y & Hq & Hy). destruct (H2 _ Hq) as (i & _ & Hs). cbn in Hs.
  assert (q ∈ get_queries N (tm text)) as Hin. { rewrite <- H1. apply elem_of_list_fmap. by exists (q, ((len, size), (nft, docs))). }
  apply get_query in Hin as [Hf Hqt]. rewrite Hqt in Hs.
  destruct (C68_only_saved compress decompress cs gz pos (ms_store x) i (tm text) (q_field q) len size nft docs d y) as [(t & Ht & call & Hcall & Hcd & Hcf & Hct) _]; try done.
  - by eapply ms_store_reach.
  - by destruct Hf as [-> | ->].
  - destruct (po_log _ _ _ _ _ _ _ _ (posts_reach _ _ _ _ _ _ _ _ _ _ _ x Hx) call Hcall) as (body & calls & Hb & Hpost & Hin'). destruct (post_saves _ _ _ _ _ _ _ _ Hpost) as (doc & Hbd & Hne & ->).
    rewrite !elem_of_cons, elem_of_nil in Hin'. destruct Hin' as [->|[->|[->|[]]]]; cbn [call_doc' call_field' posted_field f_name f_tf] in *; subst.
    + rewrite <- Hcf in Hf. by destruct Hf.
    + split; [done|]. exists body, doc, t. apply term_frequency_key in Hct; eauto 10.
    + split; [done|]. exists body, doc, t. apply term_frequency_key in Hct; eauto 10.
Qed.
Print Assumptions C69_only_posted.

(** The response: if no posted document matches, status 200 with no results; if at most
    nine match and one is found, the handler panics; if ten are found, status 200 with ten
    results, different posted documents that match. *)
Theorem C69_answers : forall compress decompress cs, gzip_ok compress decompress -> (0 < cs)%Z ->
  forall bind is_letter is_number to_lower stem fold N ncpu,
  let terms := terms_of is_letter is_number to_lower stem fold in
  forall (x : mserver N) k text rs,
  mserver_reachable compress decompress cs bind is_letter is_number to_lower stem fold N ncpu x -> plain_ids bind x ->
  ms_returned x k (get_queries N (terms text)) rs ->
  ((forall d, ~ posted_text bind terms x text d) -> get_answer N rs = Answer 200 (mkRes 0 [])) /\
  (forall d ids, d ∈ rs.*1 -> (forall e, posted_text bind terms x text e -> e ∈ ids) -> length ids <= 9 -> get_answer N rs = Panic) /\
  (forall ids, NoDup ids -> 10 <= length ids -> (forall e, e ∈ ids -> e ∈ rs.*1) ->
    exists l, get_answer N rs = Answer 200 (mkRes 10 l) /\ length l = 10 /\ NoDup l.*1 /\ forall e, e ∈ l.*1 -> posted_text bind terms x text e).
Proof.
  intros compress decompress cs gz pos bind il inum tl st fo N ncpu tm x k text rs Hx Hp Hret.
  pose proof (fun d => C69_only_posted compress decompress cs gz pos bind il inum tl st fo N ncpu x k text rs d Hx Hp Hret) as K. fold tm in K.
  destruct (mjob_result N _ _ _ _ _ _ (mjobs_reach _ _ _ _ _ _ _ _ _ _ _ _ Hx) (Nat.le_0_l k) Hret) as (_ & _ & _ & Hnd & _).
  assert (map (fun s : doc_score N => (s.1, s.2)) rs = rs) as Em. { clear. induction rs as [|[d s] rs IH]; cbn; [done|by rewrite IH]. }
  split; [|split].
  - intros Hno. destruct rs as [|[d s] rs]; [done|]. exfalso. apply (Hno d). apply K. left.
  - intros d ids Hd Hall Hl. assert (length rs.*1 <= length ids) as Hle. { apply submseteq_length, NoDup_submseteq; [done|]. intros e He. apply Hall. by apply K. }
    rewrite fmap_length in Hle. unfold get_answer. rewrite Em. destruct rs as [|p rs]; [by apply elem_of_nil in Hd|]. cbn [length] in *.
    destruct (Nat.eqb_spec (S (length rs)) 0); [lia|]. rewrite (proj2 (Nat.ltb_lt _ _)); [reflexivity|lia].
  - intros ids Hn Hl Hall. assert (length ids <= length rs.*1) as Hle. { apply submseteq_length, NoDup_submseteq; [done|]. done. }
    rewrite fmap_length in Hle. unfold get_answer. rewrite Em. unfold doc_score in *. rewrite (proj2 (Nat.eqb_neq _ _)) by lia. rewrite (proj2 (Nat.ltb_ge _ _)) by lia.
    exists (take 10 rs). split; [done|]. split; [rewrite take_length; lia|]. split.
    + rewrite <- (take_drop 10 rs), fmap_app in Hnd. by apply NoDup_app in Hnd as [? _].
    + intros e He. apply K. rewrite <- (take_drop 10 rs), fmap_app. apply elem_of_app. by left.
Qed.
Print Assumptions C69_answers.

(** From every reachable state a GET request in progress can be answered by the steps of
    the GET requests alone: it does not wait for the handlers of POST requests, nor for the
    writers. *)
Theorem C69_can_answer : forall compress decompress cs, gzip_ok compress decompress -> (0 < cs)%Z ->
  forall bind is_letter is_number to_lower stem fold N ncpu, 0 < ncpu -> forall (x : mserver N) k queries w,
  mserver_reachable compress decompress cs bind is_letter is_number to_lower stem fold N ncpu x -> plain_ids bind x ->
  (forall q, q ∈ queries -> q_field q <> "docs") -> ms_gets x !! k = Some (queries, w) ->
  exists y rs, rtc (step_of_ms_gets compress decompress cs bind is_letter is_number to_lower stem fold ncpu) x y /\ ms_returned y k queries rs.
Proof.
  intros compress decompress cs gz pos bind il inum tl st fo N ncpu Hc x k queries w Hr Hp Hq Hk.
  destruct (mfan_finishes compress decompress cs bind il inum tl st fo N ncpu gz pos Hc (measure (pmj N) w) x k queries w) as (y & w' & H1 & H2 & H3); [lia|by split|done|].
  destruct (sort_slice_exists (score_less N) (map_to_list (temp_scores N (fn_got w')))) as [rs Hs]. exists y, rs. split; [done|]. exists w'. split; [done|]. split; [done|]. by exists (map_to_list (temp_scores N (fn_got w'))).
Qed.
Print Assumptions C69_can_answer.

(** No goroutine of a GET request stops the process. *)
Theorem C69_no_panic : forall compress decompress cs, gzip_ok compress decompress -> (0 < cs)%Z ->
  forall bind is_letter is_number to_lower stem fold N ncpu (x : mserver N),
  mserver_reachable compress decompress cs bind is_letter is_number to_lower stem fold N ncpu x -> plain_ids bind x ->
  (forall queries w q, (queries, w) ∈ ms_gets x -> q ∈ queries -> q_field q <> "docs") ->
  ~ mu_search_fatal decompress (ms_store x) /\ (forall q, q ∈ mu_qs (ms_store x) -> ~ msearch_panics (mq_pc q)) /\
  forall queries w, (queries, w) ∈ ms_gets x -> fn_panic w = false.
Proof.
  intros compress decompress cs gz pos bind il inum tl st fo N ncpu x Hr Hp Hf. destruct (plain_good compress decompress cs bind il inum tl st fo N ncpu x Hr Hp) as [Hg Hpl].
  assert (forall q, q ∈ mu_qs (ms_store x) -> mq_field q <> "docs") as Hf'.
  { intros q Hq. destruct (qs_reach _ _ _ _ _ _ _ _ _ _ _ x Hr q Hq) as (queries & w & q0 & H1 & H2 & -> & _). by eapply Hf. }
  destruct (C68_no_panic compress decompress cs gz pos _ (ms_store_reach _ _ _ _ _ _ _ _ _ _ _ _ Hr) Hg Hpl Hf') as [H1 H2].
  split; [done|]. split; [done|]. intros queries w Hin. apply elem_of_list_lookup in Hin as [k Hk]. destruct (mjobs_reach _ _ _ _ _ _ _ _ _ _ _ x Hr) as (_ & _ & J). specialize (J _ _ _ Hk). exact (fan_no_panic _ _ _ _ _ _ _ J).
Qed.
Print Assumptions C69_no_panic.

(** The handlers of POST requests and the background goroutines, in whatever order they
    take their steps and whatever GET requests are in progress: without further requests
    they come to rest, and then every POST request has been served, unless the process is
    about to end with an error. *)
Theorem C69_served : forall compress decompress cs, gzip_ok compress decompress -> (0 < cs)%Z ->
  forall bind is_letter is_number to_lower stem fold N ncpu (x : mserver N) u,
  mserver_reachable compress decompress cs bind is_letter is_number to_lower stem fold N ncpu x -> plain_ids bind x -> mu_open (ms_store x) u ->
  let step := step_of_ms_posts compress decompress cs bind is_letter is_number to_lower stem fold ncpu in
  (forall r : nat -> mserver N, r 0 = x -> ~ (forall i, step (r i) (r (S i)))) /\
  (forall y, rtc step x y -> (forall z, ~ step y z) -> ~ stopping decompress (ms_store y) -> served (ms_store y)).
Proof.
  intros compress decompress cs gz pos bind il inum tl st fo N ncpu x u Hr Hp Hu step. destruct (plain_good compress decompress cs bind il inum tl st fo N ncpu x Hr Hp) as [Hg _].
  destruct (C66_served compress decompress cs gz pos (ms_store x) u (ms_store_reach _ _ _ _ _ _ _ _ _ _ _ _ Hr) Hg Hu) as [H1 H2]. split.
  - intros r E Hs. apply (H1 (fun i => ms_store (r i))); [by rewrite E|]. intros i. apply (Hs i).
  - intros y Hxy Hno Hst.
    assert (mserver_reachable compress decompress cs bind il inum tl st fo N ncpu y /\ plain_ids bind y /\ rtc (works compress decompress) (ms_store x) (ms_store y)) as (Ry & Py & Wy).
    { clear - Hr Hp Hxy. induction Hxy as [x|x y z (S1 & S2 & S3 & S4 & S5) _ IH]; [done|]. destruct IH as (I1 & I2 & I3); [unfold mserver_reachable in *; eapply rtc_r; [exact Hr|by left]|intros body doc; rewrite S4, S5; apply Hp|].
      split; [done|]. split; [done|]. by eapply rtc_l. }
    destruct (plain_good compress decompress cs bind il inum tl st fo N ncpu y Ry Py) as [Hgy _]. apply H2; try done.
    intros c Hc. assert (exists v, mu_open (ms_store y) v) as [v Hv]. { unfold mu_open. destruct Hc; by eexists. }
    destruct (m_up compress decompress cs gz _ v (ms_store_reach _ _ _ _ _ _ _ _ _ _ _ _ Ry) Hgy Hv) as (_ & _ & G & L & ol & oa & I). pose proof (mi_pc _ _ _ _ _ _ _ _ _ _ I) as Ip.
    assert (quiet_up (ms_store y)) as Hq. { intros v' Hv'. unfold mu_open in Hv. rewrite Hv in Hv'. by injection Hv' as <-. }
    destruct y as [b gs now past]. cbn [ms_store] in *. apply (Hno (mkMServer c gs now past)). split; [|done]. apply mv_step; [by apply works_live|].
    clear - Hc. inversion Hc; subst; unfold no_arrival; cbn; rewrite ?insert_length; lia.
Qed.
Print Assumptions C69_served.

(** A document of an earlier session that is not posted in this one: if, when the store is
    opened, the index of the title or of the text lists it under a term and its file has
    that field, every GET request for that term finds it, whatever the size of the cache
    and whatever else is handled at the same time. *)
Theorem C69_finds_stored : forall compress decompress cs, gzip_ok compress decompress -> (0 < cs)%Z ->
  forall bind is_letter is_number to_lower stem fold N ncpu,
  let terms := terms_of is_letter is_number to_lower stem fold in
  forall (a b c : mserver N) u d f fd t k text rs,
  mserver_reachable compress decompress cs bind is_letter is_number to_lower stem fold N ncpu a ->
  mserver_live compress decompress cs bind is_letter is_number to_lower stem fold N ncpu a b -> mu_opens compress decompress cs (ms_store a) (ms_store b) u ->
  plain_doc d -> f = "title" \/ f = "text" -> has (disk_get_index (u_mem u) f) t d ->
  load_doc decompress (y_fs (mu_sys (ms_store b))) d = Some (Some fd) -> is_Some (fd !! f) ->
  ms_session compress decompress cs bind is_letter is_number to_lower stem fold ncpu b c -> plain_ids bind c -> not_posted bind c d ->
  ms_returned c k (get_queries N (terms text)) rs -> t ∈ terms text -> d ∈ rs.*1.
Proof.
  intros compress decompress cs gz pos bind il inum tl st fo N ncpu tm a b c u d f fd t k text rs Ha Hab Ho Hd Hf Hh Hl [x Hx] Hbc Hp Hnp Hret Ht.
  assert (mserver_reachable compress decompress cs bind il inum tl st fo N ncpu b) as Hb by (unfold mserver_reachable in *; eapply rtc_r; [exact Ha|by left]).
  pose proof (ms_session_reach _ _ _ _ _ _ _ _ _ _ _ _ _ Hb Hbc) as Hc. destruct (plain_good compress decompress cs bind il inum tl st fo N ncpu c Hc Hp) as [Hg _].
  destruct (session_events _ _ _ _ _ _ _ _ _ _ _ _ _ Hbc) as (ev & E & Nev).
  destruct (mjob_result N _ _ _ _ _ _ (mjobs_reach _ _ _ _ _ _ _ _ _ _ _ _ Hc) (Nat.le_0_l k) Hret) as (qrs & H1 & H2 & _ & H4 & _).
  destruct (ms_query_in qrs _ _ H1 (query_get (tm text) f Hf)) as (len & size & nft & docs & Hqr).
  eapply (ms_found_in qrs rs _ len size nft docs d x); [exact H4|exact Hqr|]. destruct (H2 _ Hqr) as (i & _ & Hs). cbn in Hs.
  eapply (C68_finds_unsaved compress decompress cs gz pos (ms_store a) (ms_store b) (ms_store c) u d f fd x t ev); [by eapply ms_store_reach|exact Ho|exact Hd|exact Hh|exact Hl|exact Hx|by eapply ms_store_session|exact E| |exact Hg|exact Hs|exact Ht].
  assert (exists u', mu_open (ms_store c) u') as [u' Hu']. { destruct Hret as (w & Hw & _). by eapply gets_open. }
  destruct (po_open _ _ _ _ _ _ _ _ (posts_reach _ _ _ _ _ _ _ _ _ _ _ c Hc) u' Hu') as (l1 & l2 & E2 & N2 & Hcalls).
  assert (ms_log b = ms_log a ++ [EOpened]) as EL by (by eapply opens_log).
  rewrite E, EL, <- app_assoc in E2. cbn in E2. pose proof (session_eq _ _ _ _ E2 Nev N2) as <-.
  intros z Hz. destruct (Hcalls _ Hz) as (body & calls & Hbody & Hpost & Hin). destruct (post_saves _ _ _ _ _ _ _ _ Hpost) as (doc & Hbd & _ & ->).
  apply (Hnp body doc Hbody Hbd). rewrite !elem_of_cons, elem_of_nil in Hin. by destruct Hin as [[= <- _]|[[= <- _]|[[= <- _]|[]]]].
Qed.
Print Assumptions C69_finds_stored.

(** A document whose POST request was answered before a quiet moment survives the end of
    the process at that moment: in the next session every GET request that shares a term
    with its title (its text) finds it, if its file has that field when the store is
    opened, until it is posted again; whatever was, is and will be handled at the same
    time. *)
Theorem C69_found_after_restart : forall compress decompress cs, gzip_ok compress decompress -> (0 < cs)%Z ->
  forall bind is_letter is_number to_lower stem fold N ncpu,
  let terms := terms_of is_letter is_number to_lower stem fold in
  forall (a b c : mserver N) u u' body doc f fd t k text rs,
  mserver_reachable compress decompress cs bind is_letter is_number to_lower stem fold N ncpu a ->
  mu_open (ms_store a) u -> multi_quiet (ms_store a) u -> f = "title" \/ f = "text" -> ~ in_gap (u_mg u) f ->
  body ∈ ms_now a -> bind body = Some doc -> is_not_document_complete doc = false ->
  ms_restarts compress decompress cs bind is_letter is_number to_lower stem fold ncpu a b u' ->
  load_doc decompress (y_fs (mu_sys (ms_store b))) (d_id doc) = Some (Some fd) -> is_Some (fd !! f) ->
  ms_session compress decompress cs bind is_letter is_number to_lower stem fold ncpu b c -> plain_ids bind c -> not_posted bind c (d_id doc) ->
  ms_returned c k (get_queries N (terms text)) rs ->
  t ∈ terms text -> t ∈ terms (if String.eqb f "title" then d_title doc else d_text doc) ->
  d_id doc ∈ rs.*1.
Proof.
  intros compress decompress cs gz pos bind il inum tl st fo N ncpu tm a b c u u' body doc f fd t k text rs Ha Hu Hq Hf Hgap Hbody Hb Hcomp Hre Hl Hfd Hbc Hp Hnp Hret Ht Hdoc.
  destruct (restarts_reopen _ _ _ _ _ _ _ _ _ _ _ _ _ _ _ Ha Hu Hre) as (a' & Ra & Hop & Hab & Hreo & Elog & _ & Epast).
  assert (mserver_reachable compress decompress cs bind il inum tl st fo N ncpu b) as Rb by (unfold mserver_reachable in *; eapply rtc_r; [exact Ra|by left]).
  assert (forall x y, x ∈ ms_past a ++ ms_now a -> ms_past b = ms_past a ++ ms_now a -> ms_session compress decompress cs bind il inum tl st fo ncpu b y -> x ∈ ms_past y ++ ms_now y) as Keep.
  { intros x y Hx E Hby. assert (x ∈ ms_past b) as Hx' by (by rewrite E). clear - Hx' Hby. unfold ms_session in Hby. induction Hby as [b|b y z [Hs [v Hv]] _ IH]; [apply elem_of_app; by left|]. apply IH.
    inversion Hs; subst; cbn in *; done. }
  assert (simple_name (d_id doc) /\ plain_doc (d_id doc)) as [Hsn Hpd].
  { apply (Hp body doc); [|done|]. - apply Keep; [apply elem_of_app; by right|done|done]. - unfold is_not_document_complete in Hcomp. by destruct (String.eqb_spec (d_id doc) ""). }
  assert (good_log (ms_log a)) as Hg.
  { destruct (plain_good compress decompress cs bind il inum tl st fo N ncpu c (ms_session_reach _ _ _ _ _ _ _ _ _ _ _ _ _ Rb Hbc) Hp) as [Hg _]. destruct (session_events _ _ _ _ _ _ _ _ _ _ _ _ _ Hbc) as (ev & E & _).
    intros c0 Hc0. apply Hg. rewrite E, Elog, !calls_app. apply elem_of_app. left. apply elem_of_app. by left. }
  eapply (C69_finds_stored compress decompress cs gz pos bind il inum tl st fo N ncpu a' b c u' (d_id doc) f fd t k text rs); try done.
  apply elem_of_list_lookup in Hbody as [i Hi]. destruct (Forall2_lookup_l _ _ _ _ _ (po_now _ _ _ _ _ _ _ _ (posts_reach _ _ _ _ _ _ _ _ _ _ _ a Ha)) Hi) as (th & Hth & Hok).
  destruct Hq as (Q1 & Q2 & Q3). pose proof (Q1 th (elem_of_list_lookup_2 _ _ _ Hth)) as ->. destruct Hok as (status & calls & dn & l1 & l2 & P1 & P2 & P3 & P4 & P5). cbn in P2. rewrite app_nil_r in P2. subst dn.
  assert (status = 201%Z) as ->. { inversion P1; subst; congruence. }
  destruct (post_saves _ _ _ _ _ _ _ _ P1) as (doc' & Hb' & _ & Ec). rewrite Hb in Hb'. injection Hb' as <-.
  assert (f <> "docs") as Hnd by (by destruct Hf as [-> | ->]).
  destruct (C66_quiet_reopen compress decompress cs gz (ms_store a) u f (ms_store_reach _ _ _ _ _ _ _ _ _ _ _ _ Ha) Hg Hu Hnd (conj Q1 (conj Q2 Q3)) Hgap cs u' _ Hreo t (d_id doc)) as (K & _).
  apply (K l1 l2 P3 P4). destruct Hf as [-> | ->]; cbn in Hdoc.
  - exists (Save (d_id doc) (posted_field "title" (tm (d_title doc)))). split; [apply P5; rewrite Ec; right; left|]. split; [done|]. split; [done|]. by apply term_frequency_key.
  - exists (Save (d_id doc) (posted_field "text" (tm (d_text doc)))). split; [apply P5; rewrite Ec; right; right; left|]. split; [done|]. split; [done|]. by apply term_frequency_key.
Qed.
Print Assumptions C69_found_after_restart.
