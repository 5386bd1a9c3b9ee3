(** C68: searches on the disk storage while several goroutines save. *)
From Verif Require Import T_DiskDocs.
From Verif Require Import Base M_Field M_LRU S_Visits M_Memory M_File M_Serialize M_Num M_FanIn M_Search M_Concurrent M_SearchConc M_Disk P_Base P_File P_LRU P_FanIn2 P_SearchConc P_SearchConc3 S_Concurrent P_Concurrent P_Concurrent2 P_DiskBase P_DiskInv P_DiskMem P_DiskWriter P_DiskDocs P_DiskBusy P_DiskBusy2 P_DiskBusy3 P_DiskBusy4 P_DiskBusy5 P_DiskBusy6 M_DiskBusy M_DiskMulti P_DiskIndex3 P_DiskIndex4 S_Disk S_DiskMulti S_DiskMulti2 S_DiskQuery P_DiskMulti P_DiskMulti2 P_DiskMulti3 P_DiskQuery P_DiskMulti6 P_DiskMulti8 P_DiskMulti9 P_DiskQuery2 P_DiskQuery3 T_DiskIndex T_DiskNft T_DiskMulti2 X_DiskExec X_DiskBusy X_DiskMulti X_DiskQuery P_DiskBusy11 P_DiskFrozen.
#[local] Open Scope nat_scope.
#[local] Opaque serialize_metrics serialize_nft serialize_field_map serialize_index deserialize_index deserialize_nft deserialize_field_map deserialize_metrics.

(** Whoever saves and searches at the same time, whatever the cache size, after any crashes
    and reopenings: a document in the answer of a search of field [f] was saved or indexed
    at some time under a term of the query, and the field returned with it is one that was
    saved for this document under the searched name (or what the file format keeps of it:
    the length as a 32-bit number). *)
Theorem C68_only_saved : forall compress decompress cache_size, gzip_ok compress decompress -> (0 < cache_size)%Z ->
  forall a i terms f len size nft docs d y, multi_reachable compress decompress cache_size a -> good_log (mu_log a) -> f <> "docs" ->
  mu_returned a i terms f len size nft docs -> docs !! d = Some y ->
  (exists t, t ∈ terms /\ saved_posting (mu_log a) f t d) /\
  (plain_doc d -> exists x, Save d x ∈ calls_of (mu_log a) /\ f_name x = f /\ (y = x \/ y = field32 x)).
Proof.
  intros compress decompress cs gz pos a i terms f len size nft docs d y R Hg Hf [ncpu Hi] Hd. destruct (query_ok compress decompress cs gz pos a i _ R Hg Hi) as (_ & u & own & ol & oa & Hu & _ & _ & Q).
  destruct (Q d y Hd) as [Hfnd Hs]. split; [|exact Hs]. by eapply (fnd_saved compress decompress cs gz).
Qed.
Print Assumptions C68_only_saved.

(** The total length and the number of documents in the answer are those that the store
    had at some moment while the search ran (not necessarily the same moment). *)
Theorem C68_statistics : forall compress decompress cache_size a b i terms f len size nft docs,
  mu_session compress decompress cache_size a b -> (exists u, mu_open a u) -> mu_searches a <= i -> mu_returned b i terms f len size nft docs ->
  mu_moment compress decompress cache_size a b (fun sh => mem_get_length (view sh) f = len) /\
  mu_moment compress decompress cache_size a b (fun sh => mem_get_size (view sh) f = size).
Proof.
  intros compress decompress cs a b i terms f len size nft docs R Ho Hi [ncpu Hq]. destruct (st_session _ _ _ _ _ R Ho _ _ _ _ _ Hi Hq) as [K1 K2]. split; [by apply K1|by apply K2].
Qed.
Print Assumptions C68_statistics.

(** They never exceed what was saved, nor does the count of a term, of which there is one
    for each term of the query and for no other (for the sizes of fields that the file
    format can hold). *)
Theorem C68_bounds : forall compress decompress cache_size, gzip_ok compress decompress ->
  forall a i terms f len size nft docs, multi_reachable compress decompress cache_size a -> good_log (mu_log a) -> f <> "docs" -> mu_returned a i terms f len size nft docs ->
  (moderate f (mu_log a) -> 0 <= len <= length_saved f (mu_log a) /\ 0 <= size <= times_saved f (mu_log a))%Z /\
  dom nft = list_to_set terms /\
  (forall t n, nft !! t = Some n -> times_term f t (mu_log a) < 2 ^ 31 -> 0 <= n <= times_term f t (mu_log a))%Z.
Proof.
  intros compress decompress cs gz a i terms f len size nft docs R Hg Hf [ncpu Hq]. split.
  - intros Hm. pose proof (Forall_lookup_1 _ _ _ _ (lb_reach compress decompress cs gz a R Hg) Hq) as Q. destruct (Q Hf Hm) as [Q1 Q2]. split; [by apply Q1|by apply Q2].
  - destruct (s_reach compress decompress cs gz a R Hg) as [_ Hs]. destruct (n_reach compress decompress cs gz a R Hg) as [_ (_ & H)]. destruct (y_proc (mu_sys a)) as [| |u] eqn:E; [by rewrite Hs in Hq|by rewrite Hs in Hq|].
    destruct H as [_ _ (on & _ & _ & U4)]. destruct (Forall_lookup_1 _ _ _ _ U4 Hq) as [Q1 Q2]. cbn [mq_field mq_terms mq_pc] in *. split; [done|]. intros t n Hn. by apply Q1.
Qed.
Print Assumptions C68_bounds.

(** No search panics, however it interleaves with the requests, the writers and the other
    searches: no send on a closed channel, no unreadable file, no failing cache. *)
Theorem C68_no_panic : forall compress decompress cache_size, gzip_ok compress decompress -> (0 < cache_size)%Z ->
  forall a, multi_reachable compress decompress cache_size a -> good_log (mu_log a) ->
  (forall c, c ∈ calls_of (mu_log a) -> plain_doc (call_doc' c)) -> (forall q, q ∈ mu_qs a -> mq_field q <> "docs") ->
  ~ mu_search_fatal decompress a /\ forall q, q ∈ mu_qs a -> ~ msearch_panics (mq_pc q).
Proof.
  intros compress decompress cs gz pos a R Hg Hp Hf. split.
  - intros (u & ncpu & terms & f & len & n & nft & w & p & Hu & Hin & Hw & Hx). pose proof (Hf _ Hin) as Hnd. cbn in Hnd. apply elem_of_list_lookup in Hin as [i Hi].
    destruct (query_ok compress decompress cs gz pos a i _ R Hg Hi) as (_ & u' & own & ol & oa & Hu' & Hfi & HK & Q). unfold mu_open in *. rewrite Hu in Hu'. injection Hu' as <-. destruct Q as [_ [[HA _] _]]. cbn [mq_field mq_terms] in HA.
    revert Hx. eapply (mbatch_not_fatal compress decompress cs gz pos f terms); [exact Hfi|exact HK| |eapply Forall_forall in HA; [|exact Hw]; exact HA].
    intros id Hid. destruct (fnd_saved compress decompress cs gz a u f terms id R Hg Hu Hnd Hid) as (t & _ & c & H1 & <- & _). by apply Hp.
  - intros q Hin Hx. apply elem_of_list_lookup in Hin as [i Hi]. destruct (query_ok compress decompress cs gz pos a i _ R Hg Hi) as (_ & u & own & ol & oa & _ & _ & _ & Q). unfold mq_ok in Q. destruct (mq_pc q); try done; cbn in Q, Hx.
    + destruct Q as [Q _]. pose proof (j_panic _ _ _ _ _ Q). congruence.
    + destruct Q as [[tasks Q] _]. pose proof (j_panic _ _ _ _ _ Q). congruence.
Qed.
Print Assumptions C68_no_panic.

(** From every reachable state a search in progress can run to its end by its own steps
    alone: it waits for no request, no writer and no other search. *)
Theorem C68_can_return : forall compress decompress cache_size, gzip_ok compress decompress -> (0 < cache_size)%Z ->
  forall a i q, multi_reachable compress decompress cache_size a -> good_log (mu_log a) ->
  (forall c, c ∈ calls_of (mu_log a) -> plain_doc (call_doc' c)) -> mu_qs a !! i = Some q -> mq_field q <> "docs" ->
  exists b len size nft docs, rtc (mu_step_of compress decompress cache_size i) a b /\ mu_returned b i (mq_terms q) (mq_field q) len size nft docs.
Proof.
  intros compress decompress cs gz pos a i [ncpu terms f q] R Hg Hp Hi Hf. cbn [mq_field mq_terms] in *. destruct (query_ok compress decompress cs gz pos a i _ R Hg Hi) as (_ & u & own & ol & oa & Hu & _).
  destruct (mfinish_any compress decompress cs gz pos i ncpu terms f (mu_sh a) a q) as (b & len & size & nft & docs & R1 & R2).
  - split; [done|]. split; [done|]. split; [done|]. split; [done|]. exists u. split; [done|]. intros id Hid. destruct (fnd_saved compress decompress cs gz a u f terms id R Hg Hu Hf Hid) as (t & _ & c & H1 & <- & _). by apply Hp.
  - exists b, len, size, nft, docs. split; [|exists ncpu; apply R2]. eapply rtc_subrel; [|exact R1]. intros x y Hxy. pose proof (mown_live compress _ cs _ _ _ Hxy) as HL.
    destruct Hxy as (s & u1 & log & sh & ths & qs & ncpu1 & terms1 & f1 & q1 & m & q' & -> & Hq & HS & ->). split; [done|]. unfold mu_log, mu_searches, mu_open. cbn. split_and!; try done; [by rewrite insert_length|intros j Hj; by rewrite list_lookup_insert_ne|].
    eexists _, _. split_and!; done.
Qed.
Print Assumptions C68_can_return.

(** A document of an earlier session that is not saved in this one: if, when the store is
    opened, the index lists it under a term and its file holds the field, then every
    search of the session for that term finds it with that field, whatever the size of
    the cache, whoever else searches and whoever else saves or indexes whatever. *)
Theorem C68_finds_unsaved : forall compress decompress cache_size, gzip_ok compress decompress -> (0 < cache_size)%Z ->
  forall a b c u d f fd x t ev i terms len size nft docs,
  multi_reachable compress decompress cache_size a -> mu_opens compress decompress cache_size a b u -> plain_doc d ->
  has (disk_get_index (u_mem u) f) t d -> load_doc decompress (y_fs (mu_sys b)) d = Some (Some fd) -> fd !! f = Some x ->
  mu_session compress decompress cache_size b c -> mu_log c = mu_log b ++ ev -> (forall z, Save d z ∉ calls_of ev) -> good_log (mu_log c) ->
  mu_returned c i terms f len size nft docs -> t ∈ terms -> docs !! d = Some x.
Proof.
  intros compress decompress cs gz pos a b c u d f fd x t ev i terms len size nft docs R (Hab & Hgl & Hu) Hd Hh Hl Hx Hbc E Hev Hg Hret Ht.
  destruct (mfrozen_open _ _ _ d f fd t _ _ _ Hab Hgl Hu ltac:(by apply listed_has) Hl) as (l0 & a0 & F).
  assert (multi_reachable compress decompress cs b) as Rb by (unfold multi_reachable in *; eapply rtc_r; [exact R|by left]).
  pose proof (mfrozen_run _ _ _ gz pos d f fd x t l0 a0 Hd Hx b c ev Hbc Rb Hg E Hev F) as Fc. by apply (mfrozen_found decompress d f fd x t l0 a0 Hx c i terms len size nft docs).
Qed.
Print Assumptions C68_finds_unsaved.

(** * The hypotheses are met *)
Definition qm (l : list (bool * mact)) : list (bool * qact) := map (fun p => (p.1, QM p.2)) l.
(** One request has been served, another is in the middle of its call ... *)
Definition run_q : list (bool * qact) := qm (mopen ++ [(false, MReq [Save "d1" x_a]); (false, MReq [Save "d2" x_b]); (false, MCall 0); (true, MStep 0); (false, MCall 1)] ++ msteps 3 1).
(** ... when a search for "a" and "b" is called; the call continues between the steps of
    the search; another search starts. *)
Definition run_q2 : list (bool * qact) := (false, QCall 4 ["a"; "b"] "text") :: repeat (false, QSearch 0) 5 ++ qm (msteps 4 1) ++ (true, QSearch 0) :: (false, QCall 1 ["b"] "text") :: repeat (false, QSearch 1) 9.
(** The other search and the call are in progress at the end. *)
Definition obs_q (a b : multi) :=
  match mu_qs b, mu_threads b with
  | [mkMQ n0 t0 f0 (MqRet len n nft docs); mkMQ n1 t1 f1 (MqIds l1 s1 f2 w1)], [th0; (pc, m, cs)] =>
      Some (t0, f0, f1, len, n, bool_decide (nft = {["a" := 1%Z; "b" := 0%Z]}), bool_decide (docs = {["d1" := x_a]}), bool_decide (calls_of (mu_log b) = [Save "d1" x_a; Save "d2" x_b]), bool_decide (executing (pc, m) = Some (Save "d2" x_b)), length (mu_qs a))
  | _, _ => None
  end.
Example C68_case : exists a b q, multi_reachable id Some 2 a /\ mu_session id Some 2 a b /\ multi_reachable id Some 2 b /\ (exists u, mu_open a u) /\ mu_searches a = 0 /\
  good_log (mu_log b) /\ calls_of (mu_log b) = [Save "d1" x_a; Save "d2" x_b] /\ moderate "text" (mu_log b) /\ (forall c, c ∈ calls_of (mu_log b) -> plain_doc (call_doc' c)) /\
  mu_returned b 0 ["a"; "b"] "text" 2 2 {["a" := 1%Z; "b" := 0%Z]} {["d1" := x_a]} /\ mu_qs b !! 1 = Some q /\ (forall len n nft docs, mq_pc q <> MqRet len n nft docs) /\
  (forall q, q ∈ mu_qs b -> mq_field q = "text") /\ in_progress b (Save "d2" x_b).
Proof.
  destruct (qplay_obs2 2 run_q run_q2 obs_q (Some (["a"; "b"], "text", "text", 2%Z, 2%Z, true, true, true, true, 0)) ltac:(reflexivity) ltac:(vm_compute; reflexivity)) as (a & b & u & Ra & Eu & Rs & Rb & H).
  unfold obs_q in H. destruct (mu_qs b) as [|[n0 t0 f0 q0] [|[n1 t1 f1 q1] [|]]] eqn:Eq; try discriminate H; destruct q0; try discriminate H; destruct q1; try discriminate H.
  destruct (mu_threads b) as [|th0 [|[[pc m] cs] [|]]] eqn:Et; try discriminate H.
  injection H as -> -> -> -> -> H1 H2 H3 H4 H5. apply bool_decide_eq_true_1 in H1, H2, H3, H4. rewrite H1, H2 in Eq. clear H1 H2.
  exists a, b. eexists. split; [exact Ra|]. split; [exact Rs|]. split; [exact Rb|]. split; [by exists u|]. split; [exact H5|].
  split; [apply (good_log_case _ _ H3); repeat constructor; done|]. split; [exact H3|]. split; [|split; [|split; [exists n0; rewrite Eq; reflexivity|]]].
  - unfold moderate, times_saved, length_saved. rewrite H3. split; [|by vm_compute]. intros c Hc. change (c ∈ [Save "d1" x_a; Save "d2" x_b]) in Hc. rewrite !elem_of_cons in Hc. destruct Hc as [->|[->|Hc%elem_of_nil]]; [done|done|done].
  - rewrite H3. intros c Hc. rewrite !elem_of_cons in Hc. destruct Hc as [->|[->|Hc%elem_of_nil]]; [..|done]; apply plain_case; done.
  - rewrite Eq. split; [reflexivity|]. split; [done|]. split; [intros q Hq; rewrite !elem_of_cons in Hq; destruct Hq as [->|[->|Hq%elem_of_nil]]; done|]. exists (pc, m, cs). split; [rewrite Et; by right; left|done].
Qed.

(** Those of C68_finds_unsaved, with room for one document in the cache: another document
    is being saved when the search for "a" and "b" starts, and its document part comes
    between the steps of the search. *)
Definition run_o1 : list (bool * qact) := qm (mopen ++ [(false, MReq [Save "d1" x_a]); (false, MCall 0); (true, MStep 0)] ++
  ms [(true, ARecv); (false, TMetrics); (true, AMetrics); (false, TNft); (true, ANft); (false, TDocs); (true, ADocs); (false, TIndex); (true, AIndex "u1"); (false, ACrash); (false, AStart); (true, ALoad)]).
Definition sh_o : shared := mkSh {["text" := 1%Z]} {["text" := 2%Z]} {["text" := 0]} {[0 := {["a" := 0]}]} {[0 := {["d1" := true]}]} {["text" := 0]} {[0 := {["a" := 1%Z]}]} ∅ ∅.
Definition run_o2 : list (bool * qact) := qm [(false, MReq [Save "d2" x_b]); (false, MCall 0)] ++ qm (msteps 20 0) ++ (false, QCall 4 ["a"; "b"] "text") :: repeat (false, QSearch 0) 20 ++ qm [(true, MStep 0)] ++ [(true, QSearch 0)].
Definition obs_o (b c : multi) :=
  match y_proc (mu_sys b), mu_qs c with
  | Up u, [mkMQ n0 t0 f0 (MqRet len n nft docs)] =>
      Some (t0, f0, len, n, bool_decide (nft = {["a" := 1%Z; "b" := 1%Z]}), bool_decide (docs = {["d1" := x_a]}), bool_decide (calls_of (mu_log b) = [Save "d1" x_a]), bool_decide (calls_of (mu_log c) = [Save "d1" x_a; Save "d2" x_b]),
        hasb (disk_get_index (u_mem u) "text") "a" "d1", bool_decide (load_doc Some (y_fs (mu_sys b)) "d1" = Some (Some {["text" := x_a]})), length (mu_threads c))
  | _, _ => None
  end.
Example C68_case_unsaved : exists a b c u ev,
  multi_reachable id Some 1 a /\ mu_opens id Some 1 a b u /\ plain_doc "d1" /\ has (disk_get_index (u_mem u) "text") "a" "d1" /\
  load_doc Some (y_fs (mu_sys b)) "d1" = Some (Some {["text" := x_a]}) /\ mu_session id Some 1 b c /\ mu_log c = mu_log b ++ ev /\ (forall z, Save "d1" z ∉ calls_of ev) /\ good_log (mu_log c) /\
  mu_returned c 0 ["a"; "b"] "text" 3 2 {["a" := 1%Z; "b" := 1%Z]} {["d1" := x_a]} /\ mu_threads c <> [].
Proof.
  destruct (qplay_open 1 run_o1 sh_o {[0:="text"]} {[0:=("text","a")]} {[0:="text"]} run_o2 obs_o (Some (["a"; "b"], "text", 3%Z, 2%Z, true, true, true, true, true, true, 1)) ltac:(reflexivity) ltac:(vm_compute; reflexivity)) as (a & b & c & u & Ra & Ho & Rs & Rc & H).
  pose proof Ho as (_ & _ & Eu). unfold obs_o in H. unfold mu_open in Eu. rewrite Eu in H. destruct (mu_qs c) as [|[n0 t0 f0 q0] [|]] eqn:Eq; try discriminate H; destruct q0; try discriminate H.
  injection H as -> -> -> -> H1 H2 H3 H4 H5 H6 H7. apply bool_decide_eq_true_1 in H1, H2, H3, H4, H6. apply hasb_true in H5. rewrite H1, H2 in Eq.
  destruct (session_log id Some 1 b c Rs) as [ev E]. exists a, b, c, u, ev. split; [exact Ra|]. split; [exact Ho|]. split; [by apply plain_case|]. split; [exact H5|]. split; [exact H6|]. split; [exact Rs|]. split; [exact E|].
  split. { intros z Hz. assert (calls_of ev = [Save "d2" x_b]) as E2. { unfold calls_of in H3, H4 |- *. rewrite E, omap_app, H3 in H4. by injection H4. } rewrite E2 in Hz. rewrite elem_of_list_singleton in Hz. discriminate Hz. }
  split; [apply (good_log_case _ _ H4); repeat constructor; done|]. split; [exists n0; rewrite Eq; reflexivity|]. intros E0. rewrite E0 in H7. discriminate H7.
Qed.
