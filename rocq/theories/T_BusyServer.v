(** C65: GET requests handled while documents are posted. *)
From Verif Require Import Base M_Text M_Language M_Field M_LRU S_Visits M_Memory M_File M_Serialize M_Num M_FanIn M_Search M_SearchConc M_Disk M_DiskBusy M_Standard M_Server M_BusyServer S_Search S_Server P_Base P_FanIn P_Standard P_Server P_BusyServer P_BusyServer2 T_DiskBusy S_Disk S_DiskBusy S_BusyServer.
#[local] Open Scope nat_scope.
#[local] Opaque serialize_metrics serialize_nft serialize_field_map serialize_index deserialize_index deserialize_nft deserialize_field_map deserialize_metrics.

(** * Lemmas *)
Section server.
  Context {N : numops}.
  Variables (compress : bytes -> bytes) (decompress : bytes -> option bytes) (cs : Z) (ncpu : nat).
  Notation srun := (server_run (N := N) compress decompress cs ncpu).
  Lemma makes_middle (run : server N -> server N -> Prop) calls x y d fld : makes run calls x y -> Save d fld ∈ calls ->
    exists x1 y1, rtc run x x1 /\ run x1 y1 /\ one_save d fld (sv_store x1) (sv_store y1) /\ rtc run y1 y.
  Proof.
    induction 1 as [x|d0 f0 calls x y z Hr Hs Hm IH]; intros Hin; [by apply elem_of_nil in Hin|]. assert (rtc run y z) as Hyz.
    { clear - Hm. induction Hm as [|? ? ? ? ? ? H _ _ IH]; [done|]. by eapply rtc_l. }
    apply elem_of_cons in Hin as [[= -> ->]|Hin]; [by exists x, y|]. destruct (IH Hin) as (x1 & y1 & H1 & H2 & H3 & H4). exists x1, y1. split; [by eapply rtc_l|done].
  Qed.
  Lemma silent_many (x y : server N) : rtc (silent_run compress decompress cs ncpu) x y -> silent_run compress decompress cs ncpu x y.
  Proof. induction 1 as [|x y z H _ IH]; [apply rtc_refl|]. unfold silent_run in *. by etransitivity. Qed.
  Lemma run_many (x y : server N) : rtc srun x y -> srun x y.
  Proof. induction 1 as [|x y z H _ IH]; [apply rtc_refl|]. unfold server_run in *. by etransitivity. Qed.
  Lemma run_grows (x y : server N) : srun x y -> searches (sv_store x) <= searches (sv_store y).
  Proof. intros H. unfold searches. induction H as [|x y z H _ IH]; [done|]. destruct (grows_store _ _ _ _ _ _ _ H) as [G _]. lia. Qed.
  Lemma run_fresh (b c : server N) k queries rs : server_reachable compress decompress cs N ncpu b -> srun b c -> gets b <= k -> returned c k queries rs ->
    exists qrs, qrs.*1 ≡ₚ queries /\ (forall qr, qr ∈ qrs -> exists i, searches (sv_store b) <= i /\ search_returned (sv_store c) i (q_terms qr.1) (q_field qr.1) qr.2) /\ NoDup rs.*1 /\
      (forall d s, (d, s) ∈ rs <-> omap (adds d) qrs <> [] /\ s = sum_num N (omap (adds d) qrs)) /\
      (strict_weak_on (score_less N) rs -> forall i j a b, i < j -> rs !! i = Some a -> rs !! j = Some b -> ngtb N b.2 a.2 = false).
  Proof.
    intros Hr Hbc Hk Hret. eapply job_result; [|exact Hk|exact Hret]. eapply jobs_run; [exact Hbc|]. apply jobs_from. by eapply jobs_reachable.
  Qed.
  Lemma found_in qrs (rs : list (doc_score N)) (q : query N) d : (forall d s, (d, s) ∈ rs <-> omap (adds d) qrs <> [] /\ s = sum_num N (omap (adds d) qrs)) ->
    (exists r y, (q, r) ∈ qrs /\ sr_docs r !! d = Some y) -> d ∈ rs.*1.
  Proof.
    intros H (r & y & Hin & Hd). apply elem_of_list_fmap. exists (d, sum_num N (omap (adds d) qrs)). split; [done|]. apply H. split; [|done].
    intros E. assert (doc_bm25 N q r y ∈ omap (adds d) qrs) as K; [|rewrite E in K; by apply elem_of_nil in K]. apply elem_of_list_omap. exists (q, r). split; [done|]. unfold adds. cbn. by rewrite Hd.
  Qed.
  Lemma in_found qrs (rs : list (doc_score N)) d : (forall d s, (d, s) ∈ rs <-> omap (adds d) qrs <> [] /\ s = sum_num N (omap (adds d) qrs)) ->
    d ∈ rs.*1 -> exists qr y, qr ∈ qrs /\ sr_docs qr.2 !! d = Some y.
  Proof.
    intros H ([d' s] & -> & Hin)%elem_of_list_fmap. apply H in Hin as [Hn _]. cbn. destruct (omap (adds d') qrs) as [|v l] eqn:E; [done|].
    assert (v ∈ omap (adds d') qrs) as K by (rewrite E; left). apply elem_of_list_omap in K as (qr & Hq & Ha). unfold adds in Ha. destruct (sr_docs qr.2 !! d') as [y|] eqn:Ey; [|done]. eauto.
  Qed.
  Lemma query_in (qrs : list (query N * search_result N)) queries q : qrs.*1 ≡ₚ queries -> q ∈ queries -> exists r, (q, r) ∈ qrs.
  Proof. intros Hp Hq. rewrite <- Hp in Hq. apply elem_of_list_fmap in Hq as ([q' r] & -> & Hin). by exists r. Qed.
End server.

Section posts.
  Variables (bind : string -> option document) (is_letter is_number : Z -> bool) (to_lower stem fold : string -> string).
  Notation tm := (terms_of is_letter is_number to_lower stem fold).
  Lemma post_saves body calls : post bind is_letter is_number to_lower stem fold body 201 calls ->
    exists doc, bind body = Some doc /\ d_id doc <> "" /\ calls = [Save (d_id doc) (posted_field "id" (tm (d_id doc))); Save (d_id doc) (posted_field "title" (tm (d_title doc))); Save (d_id doc) (posted_field "text" (tm (d_text doc)))].
  Proof.
    intros H. inversion H as [| |b doc p1 p2 p3 Hb Hi P1 P2 P3]; subst. apply preprocess_terms in P1 as ->. apply preprocess_terms in P2 as ->. apply preprocess_terms in P3 as ->.
    exists doc. split; [done|]. split; [|done]. unfold is_not_document_complete in Hi. by destruct (String.eqb_spec (d_id doc) "").
  Qed.
End posts.

(** * Theorems *)
(** The answer to a call of Standard.Search whose Index.Search calls interleave with
    everything else: for each query one answer of Index.Search, called after the call
    started, and from these the ranking of C35: each document found by a query once, with
    the sum of its scores, in descending order. *)
Theorem C65_ranking : forall compress decompress cs N ncpu (a b : server N) k (queries : list (query N)) rs,
  server_reachable compress decompress cs N ncpu a -> server_run compress decompress cs ncpu a b -> gets a <= k -> returned b k queries rs ->
  exists qrs : list (query N * search_result N), qrs.*1 ≡ₚ queries /\
    (forall q r, (q, r) ∈ qrs -> exists i, searches (sv_store a) <= i /\ search_returned (sv_store b) i (q_terms q) (q_field q) r) /\
    NoDup rs.*1 /\
    (forall d s, (d, s) ∈ rs <-> omap (adds d) qrs <> [] /\ s = sum_num N (omap (adds d) qrs)) /\
    (strict_weak_on (score_less N) rs -> forall i j x y, i < j -> rs !! i = Some x -> rs !! j = Some y -> ngtb N y.2 x.2 = false).
Proof.
  intros compress decompress cs N ncpu a b k queries rs Hr Hab Hk Hret. destruct (run_fresh _ _ _ _ _ _ _ _ _ Hr Hab Hk Hret) as (qrs & H1 & H2 & H3 & H4 & H5).
  exists qrs. split; [done|]. split; [|done]. intros q r Hq. by apply (H2 (q, r)).
Qed.
Print Assumptions C65_ranking.

(** A GET request that arrives after a POST request has been answered with 201 finds the
    document, if it shares a term with the query in its title or text.  No search is in
    progress while the document is posted; afterwards any number of GET requests may be
    handled at once, while further documents are posted.  The cache has room for every
    document. *)
Theorem C65_get_finds : forall compress decompress cs N ncpu, gzip_ok compress decompress -> (0 < cs)%Z ->
  forall bind is_letter is_number to_lower stem fold,
  let terms := terms_of is_letter is_number to_lower stem fold in
  forall (a b c : server N) body calls doc k text rs t,
  server_reachable compress decompress cs N ncpu a -> nobody_searching (sv_store a) ->
  post bind is_letter is_number to_lower stem fold body 201 calls -> bind body = Some doc -> makes (silent_run compress decompress cs ncpu) calls a b ->
  server_run compress decompress cs ncpu b c -> good_log (y_log (by_sys (sv_store c))) -> room cs (sv_store c) ->
  gets b <= k -> returned c k (get_queries N (terms text)) rs ->
  t ∈ terms text -> t ∈ terms (d_title doc) \/ t ∈ terms (d_text doc) ->
  d_id doc ∈ rs.*1.
Proof.
  intros compress decompress cs N ncpu gz pos bind il inum tl st fo tm a b c body calls doc k text rs t Ha Hna Hpost Hb Hmk Hbc Hg Hroom Hk Hret Ht Hdoc.
  destruct (post_saves _ _ _ _ _ _ _ _ Hpost) as (doc' & Hb' & _ & Hcalls). rewrite Hb in Hb'. injection Hb' as <-.
  assert (exists f, (f = "title" \/ f = "text") /\ exists ts, Save (d_id doc) (posted_field f ts) ∈ calls /\ t ∈ ts) as (f & Hf & ts & Hin & Hts).
  { rewrite Hcalls. destruct Hdoc as [H|H]; [exists "title"|exists "text"]; (split; [by (left + right)|]); [exists (tm (d_title doc))|exists (tm (d_text doc))]; (split; [|done]); [right; left|right; right; left]. }
  destruct (makes_middle _ _ _ _ _ _ Hmk Hin) as (x & y & Hax & Hxy & Hsave & Hyb). apply silent_many in Hax, Hyb.
  pose proof (silent_server _ _ _ _ _ _ _ Hax) as Rax. pose proof (silent_server _ _ _ _ _ _ _ Hxy) as Rxy. pose proof (silent_server _ _ _ _ _ _ _ Hyb) as Ryb.
  assert (server_reachable compress decompress cs N ncpu x) as Hx by (by eapply run_reachable). assert (server_reachable compress decompress cs N ncpu b) as Hrb. { eapply run_reachable; [|exact Ryb]. by eapply run_reachable. }
  destruct (run_fresh _ _ _ _ _ _ _ _ _ Hrb Hbc Hk Hret) as (qrs & H1 & H2 & _ & H4 & _).
  set (q := mkQuery f (of_int N 1) (tm text) : query N). destruct (query_in qrs _ q H1) as [r Hqr]. { destruct Hf as [-> | ->]; [left|right; left]. }
  eapply (found_in qrs rs q); [exact H4|]. destruct (H2 _ Hqr) as (i & Hi & Hs). cbn in Hs.
  destruct (C64_finds_saved compress decompress cs N ncpu gz pos (sv_store x) (sv_store y) (sv_store c) (d_id doc) (posted_field f ts) i (tm text) r t) as (z & _ & Hz & _); try done.
  - by eapply store_reachable.
  - by eapply silent_end.
  - by apply store_silent.
  - eapply store_run. unfold server_run in *. by etransitivity.
  - pose proof (run_grows _ _ _ _ _ _ Ryb). lia.
  - cbn [posted_field f_tf]. by rewrite term_frequency_key.
  - by exists r, z.
Qed.
Print Assumptions C65_get_finds.

(** The same for a document posted again while GET requests are being handled, if it was
    posted before while no search was in progress. *)
Theorem C65_get_finds_updated : forall compress decompress cs N ncpu, gzip_ok compress decompress -> (0 < cs)%Z ->
  forall bind is_letter is_number to_lower stem fold,
  let terms := terms_of is_letter is_number to_lower stem fold in
  forall (a b a' b' c : server N) body0 calls0 doc0 body calls doc k text rs t,
  server_reachable compress decompress cs N ncpu a -> nobody_searching (sv_store a) ->
  post bind is_letter is_number to_lower stem fold body0 201 calls0 -> bind body0 = Some doc0 -> makes (silent_run compress decompress cs ncpu) calls0 a b ->
  server_run compress decompress cs ncpu b a' ->
  post bind is_letter is_number to_lower stem fold body 201 calls -> bind body = Some doc -> makes (server_run compress decompress cs ncpu) calls a' b' ->
  d_id doc = d_id doc0 ->
  server_run compress decompress cs ncpu b' c -> good_log (y_log (by_sys (sv_store c))) -> room cs (sv_store c) ->
  gets b' <= k -> returned c k (get_queries N (terms text)) rs ->
  t ∈ terms text -> t ∈ terms (d_title doc) \/ t ∈ terms (d_text doc) ->
  d_id doc ∈ rs.*1.
Proof.
  intros compress decompress cs N ncpu gz pos bind il inum tl st fo tm a b a' b' c body0 calls0 doc0 body calls doc k text rs t Ha Hna Hpost0 Hb0 Hmk0 Hba' Hpost Hb Hmk Hid Hbc Hg Hroom Hk Hret Ht Hdoc.
  destruct (post_saves _ _ _ _ _ _ _ _ Hpost0) as (doc' & Hb' & _ & Hcalls0). rewrite Hb0 in Hb'. injection Hb' as <-.
  destruct (post_saves _ _ _ _ _ _ _ _ Hpost) as (doc' & Hb' & _ & Hcalls). rewrite Hb in Hb'. injection Hb' as <-.
  assert (exists f, (f = "title" \/ f = "text") /\ exists ts, Save (d_id doc) (posted_field f ts) ∈ calls /\ t ∈ ts) as (f & Hf & ts & Hin & Hts).
  { rewrite Hcalls. destruct Hdoc as [H|H]; [exists "title"|exists "text"]; (split; [by (left + right)|]); [exists (tm (d_title doc))|exists (tm (d_text doc))]; (split; [|done]); [right; left|right; right; left]. }
  assert (exists x0, Save (d_id doc) x0 ∈ calls0) as [x0 Hin0]. { rewrite Hcalls0, Hid. eexists. left. }
  destruct (makes_middle _ _ _ _ _ _ Hmk0 Hin0) as (p & q & Hap & Hpq & Hsave0 & Hqb). apply silent_many in Hap, Hqb.
  pose proof (silent_server _ _ _ _ _ _ _ Hap) as Rap. pose proof (silent_server _ _ _ _ _ _ _ Hpq) as Rpq. pose proof (silent_server _ _ _ _ _ _ _ Hqb) as Rqb.
  destruct (makes_middle _ _ _ _ _ _ Hmk Hin) as (x & y & Hax & Hxy & Hsave & Hyb). apply run_many in Hax, Hyb. unfold server_run in *.
  assert (server_reachable compress decompress cs N ncpu p) as Hp by (by eapply run_reachable). assert (server_reachable compress decompress cs N ncpu b') as Hrb. { do 6 (eapply run_reachable; [|eassumption]). exact Hp. }
  destruct (run_fresh _ _ _ _ _ _ _ _ _ Hrb Hbc Hk Hret) as (qrs & H1 & H2 & _ & H4 & _).
  set (qu := mkQuery f (of_int N 1) (tm text) : query N). destruct (query_in qrs _ qu H1) as [r Hqr]. { destruct Hf as [-> | ->]; [left|right; left]. }
  eapply (found_in qrs rs qu); [exact H4|]. destruct (H2 _ Hqr) as (i & Hi & Hs). cbn in Hs.
  destruct (C64_finds_later compress decompress cs N ncpu gz pos (sv_store p) (sv_store q) (sv_store x) (sv_store y) (sv_store c) (d_id doc) x0 (posted_field f ts) i (tm text) r t) as (z & _ & Hz & _); try done.
  - by eapply store_reachable.
  - by eapply silent_end.
  - by apply store_silent.
  - eapply store_run. do 2 (etransitivity; [eassumption|]). done.
  - by apply store_run.
  - eapply store_run. by etransitivity.
  - pose proof (run_grows _ _ _ _ _ _ Hyb). lia.
  - cbn [posted_field f_tf]. by rewrite term_frequency_key.
  - by exists r, z.
Qed.
Print Assumptions C65_get_finds_updated.

(** A document of an earlier session that is not posted in this one: if, when the store
    is opened, the index of the title or of the text lists it under a term and its file
    has that field, every GET request for that term finds it, whatever the size of the
    cache and whatever else is posted. *)
Theorem C65_get_finds_stored : forall compress decompress cs N ncpu, gzip_ok compress decompress -> (0 < cs)%Z ->
  forall is_letter is_number to_lower stem fold,
  let terms := terms_of is_letter is_number to_lower stem fold in
  forall (a b c : server N) u d f fd t ev k text rs,
  server_reachable compress decompress cs N ncpu a -> opens compress decompress cs ncpu (sv_store a) (sv_store b) u -> plain_doc d ->
  f = "title" \/ f = "text" -> has (disk_get_index (u_mem u) f) t d -> load_doc decompress (y_fs (by_sys (sv_store b))) d = Some (Some fd) -> is_Some (fd !! f) ->
  server_run compress decompress cs ncpu a b -> server_run compress decompress cs ncpu b c ->
  y_log (by_sys (sv_store c)) = y_log (by_sys (sv_store b)) ++ ev -> (forall z, Save d z ∉ calls_of ev) -> good_log (y_log (by_sys (sv_store c))) ->
  returned c k (get_queries N (terms text)) rs -> t ∈ terms text -> d ∈ rs.*1.
Proof.
  intros compress decompress cs N ncpu gz pos il inum tl st fo tm a b c u d f fd t ev k text rs Ha Ho Hd Hf Hh Hl [x Hx] Hab Hbc E Hev Hg Hret Ht.
  assert (server_reachable compress decompress cs N ncpu c) as Hc. { do 2 (eapply run_reachable; [|eassumption]). done. }
  destruct (job_result _ _ _ _ _ _ _ (jobs_reachable _ _ _ _ _ _ Hc) (Nat.le_0_l k) Hret) as (qrs & H1 & H2 & _ & H4 & _).
  set (qu := mkQuery f (of_int N 1) (tm text) : query N). destruct (query_in qrs _ qu H1) as [r Hqr]. { destruct Hf as [-> | ->]; [left|right; left]. }
  eapply (found_in qrs rs qu); [exact H4|]. destruct (H2 _ Hqr) as (i & _ & Hs). cbn in Hs. exists r, x. split; [done|].
  eapply (C64_finds_unsaved compress decompress cs N ncpu gz pos (sv_store a) (sv_store b) (sv_store c)); [by eapply store_reachable|exact Ho|exact Hd|exact Hh|exact Hl|exact Hx|by apply store_run|exact E|exact Hev|exact Hg|exact Hs|exact Ht].
Qed.
Print Assumptions C65_get_finds_stored.

(** [bodies] are the bodies of the POST requests whose handling has begun. *)
Definition only_posts bind is_letter is_number to_lower stem fold {N} (bodies : list string) (b : busy N) : Prop :=
  forall call, call ∈ history b -> exists body calls, body ∈ bodies /\ post bind is_letter is_number to_lower stem fold body 201 calls /\ call ∈ calls.
(** A posted document that shares a term with the text, in its title or its text. *)
Definition posted_match bind (terms : string -> list string) (bodies : list string) (text d : string) : Prop :=
  d <> "" /\ exists body doc t, body ∈ bodies /\ bind body = Some doc /\ d_id doc = d /\ t ∈ terms text /\ (t ∈ terms (d_title doc) \/ t ∈ terms (d_text doc)).

(** Whatever happens at the same time, and across restarts: a GET request finds only
    documents of POST requests that share a term with it. *)
Theorem C65_get_only_posted : forall compress decompress cs N ncpu, gzip_ok compress decompress -> (0 < cs)%Z ->
  forall bind is_letter is_number to_lower stem fold,
  let terms := terms_of is_letter is_number to_lower stem fold in
  forall (c : server N) bodies k text rs d,
  server_reachable compress decompress cs N ncpu c -> good_log (y_log (by_sys (sv_store c))) ->
  only_posts bind is_letter is_number to_lower stem fold bodies (sv_store c) ->
  returned c k (get_queries N (terms text)) rs -> d ∈ rs.*1 -> posted_match bind terms bodies text d.
Proof.
  intros compress decompress cs N ncpu gz pos bind il inum tl st fo tm c bodies k text rs d Hc Hg Hpo Hret Hd.
  destruct (job_result _ _ _ _ _ _ _ (jobs_reachable _ _ _ _ _ _ Hc) (Nat.le_0_l k) Hret) as (qrs & H1 & H2 & _ & H4 & _).
  destruct (in_found _ _ _ H4 Hd) as ([q r] & y & Hq & Hy). destruct (H2 _ Hq) as (i & _ & Hs). cbn [fst snd] in *.
  assert (q ∈ get_queries N (tm text)) as Hin. { rewrite <- H1. apply elem_of_list_fmap. by exists (q, r). }
  assert ((q_field q = "title" \/ q_field q = "text") /\ q_terms q = tm text) as [Hf Hqt].
  { unfold get_queries in Hin. rewrite !elem_of_cons, elem_of_nil in Hin. destruct Hin as [->|[->|[]]]; cbn; auto. }
  rewrite Hqt in Hs. destruct (C64_only_saved compress decompress cs N ncpu gz pos (sv_store c) i (tm text) (q_field q) r d y) as [(t & Ht & call & Hcall & Hcd & Hcf & Hct) _]; try done.
  - by eapply store_reachable.
  - by destruct Hf as [-> | ->].
  - destruct (Hpo call Hcall) as (body & calls & Hb & Hp & Hin'). destruct (post_saves _ _ _ _ _ _ _ _ Hp) as (doc & Hbd & Hne & ->).
    rewrite !elem_of_cons, elem_of_nil in Hin'. destruct Hin' as [->|[->|[->|[]]]]; cbn [call_doc' call_field' posted_field f_name f_tf] in *; subst.
    + rewrite <- Hcf in Hf. by destruct Hf.
    + split; [done|]. exists body, doc, t. apply term_frequency_key in Hct; eauto 10.
    + split; [done|]. exists body, doc, t. apply term_frequency_key in Hct; eauto 10.
Qed.
Print Assumptions C65_get_only_posted.

(** The answer: nothing found, an empty answer; at most nine documents posted that match,
    and one of them found, a panic; ten found, an answer with ten results, each of them a
    posted document that matches. *)
Theorem C65_answers : forall compress decompress cs N ncpu, gzip_ok compress decompress -> (0 < cs)%Z ->
  forall bind is_letter is_number to_lower stem fold,
  let terms := terms_of is_letter is_number to_lower stem fold in
  forall (c : server N) bodies k text rs,
  server_reachable compress decompress cs N ncpu c -> good_log (y_log (by_sys (sv_store c))) ->
  only_posts bind is_letter is_number to_lower stem fold bodies (sv_store c) ->
  returned c k (get_queries N (terms text)) rs ->
  ((forall d, ~ posted_match bind terms bodies text d) -> get_answer N rs = Answer 200 (mkRes 0 [])) /\
  (forall d ids, d ∈ rs.*1 -> (forall e, posted_match bind terms bodies text e -> e ∈ ids) -> length ids <= 9 -> get_answer N rs = Panic) /\
  (forall ids, NoDup ids -> 10 <= length ids -> (forall e, e ∈ ids -> e ∈ rs.*1) ->
    exists l, get_answer N rs = Answer 200 (mkRes 10 l) /\ length l = 10 /\ NoDup l.*1 /\ forall e, e ∈ l.*1 -> posted_match bind terms bodies text e).
Proof.
  intros compress decompress cs N ncpu gz pos bind il inum tl st fo tm c bodies k text rs Hc Hg Hpo Hret.
  pose proof (C65_get_only_posted compress decompress cs N ncpu gz pos bind il inum tl st fo c bodies k text rs) as K. fold tm in K.
  destruct (job_result _ _ _ _ _ _ _ (jobs_reachable _ _ _ _ _ _ Hc) (Nat.le_0_l k) Hret) as (_ & _ & _ & Hnd & _).
  assert (map (fun s : doc_score N => (s.1, s.2)) rs = rs) as Em. { clear. induction rs as [|[d s] rs IH]; cbn; [done|by rewrite IH]. }
  split; [|split].
  - intros Hno. destruct rs as [|[d s] rs]; [done|]. exfalso. apply (Hno d). apply K; try done. left.
  - intros d ids Hd Hall Hl. assert (length rs.*1 <= length ids) as Hle. { apply submseteq_length, NoDup_submseteq; [done|]. intros e He. apply Hall. by apply (K e Hc Hg Hpo Hret). }
    rewrite fmap_length in Hle. unfold get_answer. rewrite Em. destruct rs as [|p rs]; [by apply elem_of_nil in Hd|]. cbn [length] in *.
    destruct (Nat.eqb_spec (S (length rs)) 0); [lia|]. rewrite (proj2 (Nat.ltb_lt _ _)); [reflexivity|lia].
  - intros ids Hn Hl Hall. assert (length ids <= length rs.*1) as Hle. { apply submseteq_length, NoDup_submseteq; [done|]. done. }
    rewrite fmap_length in Hle. unfold get_answer. rewrite Em. unfold doc_score in *. rewrite (proj2 (Nat.eqb_neq _ _)) by lia. rewrite (proj2 (Nat.ltb_ge _ _)) by lia.
    exists (take 10 rs). split; [done|]. split; [rewrite take_length; lia|]. split.
    + rewrite <- (take_drop 10 rs), fmap_app in Hnd. by apply NoDup_app in Hnd as [? _].
    + intros e He. apply (K e Hc Hg Hpo Hret). rewrite <- (take_drop 10 rs), fmap_app. apply elem_of_app. by left.
Qed.
Print Assumptions C65_answers.

(** From every reachable state a GET request in progress can be answered by the steps of
    the GET requests alone: it does not wait for the handler of POST requests, nor for
    the writers. *)
Theorem C65_can_answer : forall compress decompress cs N ncpu, gzip_ok compress decompress -> (0 < cs)%Z -> 0 < ncpu ->
  forall (x : server N) k queries w, server_reachable compress decompress cs N ncpu x -> good_log (y_log (by_sys (sv_store x))) ->
  (forall c, c ∈ history (sv_store x) -> plain_doc (call_doc' c)) -> (forall q, q ∈ queries -> q_field q <> "docs") -> sv_gets x !! k = Some (queries, w) ->
  exists y rs, rtc (step_of_gets compress decompress cs ncpu) x y /\ returned y k queries rs.
Proof.
  intros compress decompress cs N ncpu gz pos Hc x k queries w Hr Hg Hp Hq Hk.
  destruct (fan_finishes compress decompress cs N ncpu gz pos Hc (measure (pmj N) w) x k queries w) as (y & w' & H1 & H2 & H3); [lia|by split|done|].
  destruct (sort_slice_exists (score_less N) (map_to_list (temp_scores N (fn_got w')))) as [rs Hs]. exists y, rs. split; [done|]. exists w'. split; [done|]. split; [done|]. by exists (map_to_list (temp_scores N (fn_got w'))).
Qed.
Print Assumptions C65_can_answer.

(** No goroutine of a GET request panics. *)
Theorem C65_no_panic : forall compress decompress cs N ncpu, gzip_ok compress decompress -> (0 < cs)%Z ->
  forall x : server N, server_reachable compress decompress cs N ncpu x -> good_log (y_log (by_sys (sv_store x))) ->
  (forall c, c ∈ history (sv_store x) -> plain_doc (call_doc' c)) -> (forall terms f q, (terms, f, q) ∈ by_qs (sv_store x) -> f <> "docs") ->
  ~ search_fatal decompress N (sv_store x) /\ (forall terms f q, (terms, f, q) ∈ by_qs (sv_store x) -> ~ search_panics N q) /\
  forall queries w, (queries, w) ∈ sv_gets x -> fn_panic w = false.
Proof.
  intros compress decompress cs N ncpu gz pos x Hr Hg Hp Hf. pose proof (store_reachable _ _ _ _ _ _ Hr) as Hs. destruct (C64_no_panic compress decompress cs N ncpu gz pos _ Hs Hg Hp Hf) as [H1 H2].
  split; [done|]. split; [done|]. intros queries w Hin. apply elem_of_list_lookup in Hin as [k Hk]. destruct (jobs_reachable _ _ _ _ _ _ Hr) as (_ & _ & J). specialize (J _ _ _ Hk). exact (fan_no_panic _ _ _ _ _ _ _ J).
Qed.
Print Assumptions C65_no_panic.
