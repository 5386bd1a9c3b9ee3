(** C64: searches on the disk storage while the client saves. *)
From Verif Require Import Base M_Field M_LRU S_Visits M_Memory M_File M_Serialize M_Num M_FanIn M_Search M_SearchConc M_Disk P_Base P_LRU P_FanIn2 P_SearchConc P_DiskBase P_DiskInv P_DiskMem P_DiskWriter P_DiskDocs P_DiskBusy P_DiskBusy2 P_DiskBusy3 P_DiskBusy4 P_DiskBusy5 P_DiskBusy6 P_DiskBusy7 P_DiskBusy8 P_DiskBusy9 P_DiskBusy10 P_DiskBusy11 P_DiskBusy12 P_DiskBusy13 P_DiskBusy14 M_DiskBusy S_Disk S_DiskBusy.
#[local] Open Scope nat_scope.
#[local] Opaque serialize_metrics serialize_nft serialize_field_map serialize_index deserialize_index deserialize_nft deserialize_field_map deserialize_metrics.

Section busy.
  Context {N : numops}.
  Variables (compress : bytes -> bytes) (decompress : bytes -> option bytes) (cs : Z) (ncpu : nat).
  Lemma nobody_alone (b : busy N) : nobody_searching b -> alone N b.
  Proof. intros H i [[terms f] q] Hi. destruct (H _ _ _ _ Hi) as [r Hr]. unfold search_returned in Hr. rewrite Hi in Hr. injection Hr as ->. by exists r. Qed.
  Lemma quiet_alone (a b : busy N) : quiet_run compress decompress cs ncpu a b -> rtc (quiet_live compress decompress cs N ncpu) a b.
  Proof. intros H. eapply rtc_subrel; [|exact H]. intros x y [H1 H2]. split; [done|]. by apply nobody_alone. Qed.
  Lemma room_fits (b : busy N) D : (forall d, doc_known b d -> d ∈ D) -> fits N D b.
  Proof.
    intros H k (u & Hu & [(f & t & Hk)|Hk]); apply H; [left|by right]. exists u, f, t. split; [done|]. by apply listed_has.
  Qed.
  Lemma run_reach (a b : busy N) : busy_reachable compress decompress cs N ncpu a -> busy_run compress decompress cs ncpu a b -> busy_reachable compress decompress cs N ncpu b.
  Proof. unfold busy_reachable. intros Ha H. etransitivity; [exact Ha|]. eapply rtc_subrel; [|exact H]. intros x y Hxy. by left. Qed.
  Lemma returned_up (b : busy N) i t : busy_reachable compress decompress cs N ncpu b -> gzip_ok compress decompress -> (0 < cs)%Z -> good_log (y_log (by_sys b)) -> by_qs b !! i = Some t ->
    exists u own, y_proc (by_sys b) = Up u /\ files_ok compress (y_fs (by_sys b)) (y_log (by_sys b)) /\ up_ok compress cs u (y_log (by_sys b)) (by_doc b) own /\ q_ok N (u_mem u) (y_log (by_sys b)) own t.
  Proof.
    intros Hr gz pos Hg Hi. destruct (busy_sound _ _ _ _ _ gz pos _ Hr Hg) as [_ [Hf Hs]]. destruct (y_proc (by_sys b)) as [| |u].
    - destruct Hs as [_ E]. by rewrite E in Hi.
    - destruct Hs as [_ E]. by rewrite E in Hi.
    - destruct Hs as (own & HU & HQ). exists u, own. split_and!; try done. rewrite Forall_lookup in HQ. by apply HQ with i.
  Qed.
End busy.

(** A search that starts after a SaveOrUpdate has returned finds the document: the field
    saved, or one saved for it later.  No search is in progress during this
    SaveOrUpdate, any number afterwards; the cache has room for every document. *)
Theorem C64_finds_saved : forall compress decompress cs N ncpu, gzip_ok compress decompress -> (0 < cs)%Z ->
  forall (a b c : busy N) d x i terms r t,
  busy_reachable compress decompress cs N ncpu a -> nobody_searching a -> quiet_run compress decompress cs ncpu a b -> one_save d x a b ->
  busy_run compress decompress cs ncpu b c -> good_log (y_log (by_sys c)) -> room cs c ->
  search_returned c i terms (f_name x) r -> searches b <= i -> t ∈ terms -> is_Some (f_tf x !! t) ->
  exists y ev, sr_docs r !! d = Some y /\ y_log (by_sys c) = y_log (by_sys b) ++ ev /\ (y = x \/ (Save d y ∈ calls_of ev /\ f_name y = f_name x)).
Proof.
  intros compress decompress cs N ncpu gz pos a b c d x i terms r t Ha Hn Hab (Hia & Hib & ev & E & Hev) Hbc Hg (D & HD & Hroom) Hret Hi Ht Hx.
  pose proof (good_prefix _ _ _ _ _ _ _ Hbc Hg) as Hgb. pose proof (quiet_alone _ _ _ _ _ _ Hab) as Hq. pose proof (quiet_rtc _ _ _ _ _ _ _ Hq) as Hlab.
  pose proof (good_prefix _ _ _ _ _ _ _ Hlab Hgb) as Hga. pose proof (busy_sound _ _ _ _ _ gz pos _ Ha Hga) as Ga. pose proof (rtc_good _ _ _ _ _ gz pos _ _ Hlab Ga Hgb) as Gb.
  eapply (keeping_found N D); [|exact Hret|exact Hi|exact Ht|exact Hx]. eapply (rtc_keeping compress decompress cs N ncpu gz pos D HD); [exact Hbc|exact Gb|exact Hg|by apply room_fits|]. apply (first_keeping compress decompress cs N ncpu gz pos D HD d x a b ev Ga Hia (nobody_alone a Hn) Hq Hgb E Hev Hib).
Qed.
Print Assumptions C64_finds_saved.

(** The same for a later SaveOrUpdate of a document first saved while nobody searched:
    searches may be in progress during the later one. *)
Theorem C64_finds_later : forall compress decompress cs N ncpu, gzip_ok compress decompress -> (0 < cs)%Z ->
  forall (a b a' b' c : busy N) d x0 x i terms r t,
  busy_reachable compress decompress cs N ncpu a -> nobody_searching a -> quiet_run compress decompress cs ncpu a b -> one_save d x0 a b ->
  busy_run compress decompress cs ncpu b a' -> busy_run compress decompress cs ncpu a' b' -> one_save d x a' b' ->
  busy_run compress decompress cs ncpu b' c -> good_log (y_log (by_sys c)) -> room cs c ->
  search_returned c i terms (f_name x) r -> searches b' <= i -> t ∈ terms -> is_Some (f_tf x !! t) ->
  exists y ev, sr_docs r !! d = Some y /\ y_log (by_sys c) = y_log (by_sys b') ++ ev /\ (y = x \/ (Save d y ∈ calls_of ev /\ f_name y = f_name x)).
Proof.
  intros compress decompress cs N ncpu gz pos a b a' b' c d x0 x i terms r t Ha Hn Hab (Hia & Hib & ev & E & Hev) Hba' Ha'b' (Hia' & Hib' & ev' & E' & Hev') Hbc Hg (D & HD & Hroom) Hret Hi Ht Hx.
  pose proof (good_prefix _ _ _ _ _ _ _ Hbc Hg) as Hgb'. pose proof (good_prefix _ _ _ _ _ _ _ Ha'b' Hgb') as Hga'. pose proof (good_prefix _ _ _ _ _ _ _ Hba' Hga') as Hgb.
  pose proof (quiet_alone _ _ _ _ _ _ Hab) as Hq. pose proof (quiet_rtc _ _ _ _ _ _ _ Hq) as Hlab.
  pose proof (good_prefix _ _ _ _ _ _ _ Hlab Hgb) as Hga. pose proof (busy_sound _ _ _ _ _ gz pos _ Ha Hga) as Ga. pose proof (rtc_good _ _ _ _ _ gz pos _ _ Hlab Ga Hgb) as Gb.
  pose proof (rtc_good _ _ _ _ _ gz pos _ _ Hba' Gb Hga') as Ga'. pose proof (rtc_good _ _ _ _ _ gz pos _ _ Ha'b' Ga' Hgb') as Gb'.
  pose proof (room_fits _ _ Hroom) as Fc. assert (fits N D b') as Fb' by (by eapply (fits_back _ _ _ _ _ gz pos)). assert (fits N D a') as Fa' by (by eapply (fits_back _ _ _ _ _ gz pos)).
  assert (keeping N d x0 (y_log (by_sys b)) (length (by_qs b)) b) as Kb by (apply (first_keeping compress decompress cs N ncpu gz pos D HD d x0 a b ev Ga Hia (nobody_alone a Hn) Hq Hgb E Hev Hib)).
  assert (keeping N d x0 (y_log (by_sys b)) (length (by_qs b)) a') as Ka' by (by eapply (rtc_keeping compress decompress cs N ncpu gz pos D HD)).
  eapply (keeping_found N D); [|exact Hret|exact Hi|exact Ht|exact Hx]. eapply (rtc_keeping compress decompress cs N ncpu gz pos D HD); [exact Hbc|exact Gb'|exact Hg|done|]. exact (later_keeping compress decompress cs N ncpu gz pos D HD d x x0 _ _ a' b' ev' Ga' Hia' Ka' Ha'b' Hgb' Fb' E' Hev' Hib').
Qed.
Print Assumptions C64_finds_later.

(** A document of an earlier session that is not saved in this one: if, when the store is
    opened, the index lists it under a term and its file holds the field, then every
    search of the session for that term finds it with that field, whatever the size of
    the cache, whoever else searches and whatever else is saved or indexed. *)
Theorem C64_finds_unsaved : forall compress decompress cs N ncpu, gzip_ok compress decompress -> (0 < cs)%Z ->
  forall (a b c : busy N) u d f fd x t ev i terms r,
  busy_reachable compress decompress cs N ncpu a -> opens compress decompress cs ncpu a b u -> plain_doc d ->
  has (disk_get_index (u_mem u) f) t d -> load_doc decompress (y_fs (by_sys b)) d = Some (Some fd) -> fd !! f = Some x ->
  busy_run compress decompress cs ncpu b c -> y_log (by_sys c) = y_log (by_sys b) ++ ev -> (forall z, Save d z ∉ calls_of ev) -> good_log (y_log (by_sys c)) ->
  search_returned c i terms f r -> t ∈ terms -> sr_docs r !! d = Some x.
Proof.
  intros compress decompress cs N ncpu gz pos a b c u d f fd x t ev i terms r Ha (Hab & [g Hg] & Hu) Hd Hh Hl Hx Hbc E Hev Hgc Hret Ht.
  pose proof (good_prefix _ _ _ _ _ _ _ Hbc Hgc) as Hgb. pose proof (good_prefix _ _ _ _ _ _ _ (rtc_once _ _ Hab) Hgb) as Hga.
  pose proof (busy_sound _ _ _ _ _ gz pos _ Ha Hga) as Ga. pose proof (live_good _ _ _ _ _ gz pos _ _ Hab Ga Hgb) as Gb.
  assert (frozen decompress N d f fd t b) as Fb. { eapply frozen_open; [apply Ga|exact Hg|exact Hab|exact Hu|by apply listed_has|exact Hl]. }
  eapply frozen_found; [exact Hx| |exact Hret|exact Ht]. eapply frozen_run; [exact gz|exact pos|exact Hd|exact Hx|exact Hbc|exact Gb|exact Hgc|exact E|exact Hev|exact Fb].
Qed.
Print Assumptions C64_finds_unsaved.

(** Whatever the cache size and whoever is searching: a document in the answer of a
    search of field [f] was at some time saved or indexed under a term of the query, and
    the field returned with it is one that was saved for this document under the
    searched name (or what the file format keeps of it: the length as a 32-bit number). *)
Theorem C64_only_saved : forall compress decompress cs N ncpu, gzip_ok compress decompress -> (0 < cs)%Z ->
  forall (b : busy N) i terms f r d y, busy_reachable compress decompress cs N ncpu b -> good_log (y_log (by_sys b)) -> f <> "docs" ->
  search_returned b i terms f r -> sr_docs r !! d = Some y ->
  (exists t, t ∈ terms /\ saved_posting (y_log (by_sys b)) f t d) /\
  (plain_doc d -> exists x, Save d x ∈ history b /\ f_name x = f /\ (y = x \/ y = field32 x)).
Proof.
  intros compress decompress cs N ncpu gz pos b i terms f r d y Hr Hg Hf Hret Hd. destruct (returned_up _ _ _ _ _ _ _ Hr gz pos Hg Hret) as (u & own & Hu & _ & _ & Q). cbn in Q.
  destruct (Q d y Hd) as [(t & Ht & Hl) Hs]. split; [|exact Hs]. exists t. split; [done|]. by eapply busy_listed.
Qed.
Print Assumptions C64_only_saved.

(** The statistics in the answer were all true at some moment while the search ran, not
    necessarily the same. *)
Theorem C64_statistics : forall compress decompress cs N ncpu (a b : busy N) i terms f r,
  busy_run compress decompress cs ncpu a b -> searches a <= i -> search_returned b i terms f r ->
  exists len n, sr_avg r = ndiv N (of_int N len) (of_int N n) /\ sr_total r = of_int N n /\
    some_moment compress decompress cs ncpu a b (fun u => disk_get_length (u_mem u) f = len) /\
    some_moment compress decompress cs ncpu a b (fun u => disk_get_size (u_mem u) f = n) /\
    dom (sr_nft r) = list_to_set terms /\
    forall t v, sr_nft r !! t = Some v -> some_moment compress decompress cs ncpu a b (fun u => geti (default ∅ (nft_now u f)) t = v).
Proof.
  intros compress decompress cs N ncpu a b i terms f r Hab Hi Hret. destruct (stat_run _ _ _ _ _ _ _ Hab _ _ Hi Hret) as (len & n & (H1 & H2 & H3 & H4) & H5 & H6). cbn in *.
  exists len, n. split; [done|]. split; [done|]. assert (forall P P' : up -> Prop, (forall u, P u -> P' u) -> at_moment compress decompress cs N ncpu a b P -> some_moment compress decompress cs ncpu a b P') as K.
  { intros P P' HP (m & u & M1 & M2 & M3 & M4). exists m, u. split_and!; try done. by apply HP. }
  split; [eapply K; [|exact H1]; by intros|]. split; [eapply K; [|exact H2]; by intros|]. split; [done|]. intros t v Hv. eapply K; [|exact (H3 t v Hv)]. by intros.
Qed.
Print Assumptions C64_statistics.

(** In terms of the calls: let the client be idle at [b], before the search is called.  The
    total length, the number of documents and the count of each term in the answer are
    those of the store at [b] after some of the calls made since, in their order (not
    necessarily the same number of calls for each): a call in progress counts or not. *)
Theorem C64_counts : forall compress decompress cs N ncpu (b c : busy N) u ev i terms f r,
  y_proc (by_sys b) = Up u -> u_pc u = CIdle -> busy_run compress decompress cs ncpu b c -> y_log (by_sys c) = y_log (by_sys b) ++ ev ->
  searches b <= i -> search_returned c i terms f r ->
  exists h1 h2, h1 `prefix_of` calls_of ev /\ h2 `prefix_of` calls_of ev /\
    sr_avg r = ndiv N (of_int N (add_lengths f (disk_get_length (u_mem u) f) h1)) (of_int N (add_docs f (disk_get_size (u_mem u) f) h2)) /\
    sr_total r = of_int N (add_docs f (disk_get_size (u_mem u) f) h2) /\ dom (sr_nft r) = list_to_set terms /\
    forall t n v, disk_get_nft (u_mem u) f [t] = {[t := n]} -> sr_nft r !! t = Some v -> exists h, h `prefix_of` calls_of ev /\ v = add_term f t n h.
Proof.
  intros compress decompress cs N ncpu b c u ev i terms f r Hu Hi Hbc El Hn Hret.
  destruct (C64_statistics compress decompress cs N ncpu b c i terms f r Hbc Hn Hret) as (len & n & E1 & E2 & M1 & M2 & Hdom & M3).
  set (L0 := disk_get_length (u_mem u) f) in *. set (S0 := disk_get_size (u_mem u) f) in *.
  assert (forall P, some_moment compress decompress cs ncpu b c P -> forall t T0, geti (default (∅ : gmap string Z) (c_nft (u_mem u) !! f)) t = T0 -> exists u' h, h `prefix_of` calls_of ev /\ P u' /\ pcq f t L0 S0 T0 u' h) as K.
  { intros P (m & u' & R1 & R2 & Hu' & HP) t T0 HT. destruct (stat_rtc compress decompress cs N ncpu f t L0 S0 T0 b m u (y_log (by_sys b)) [] R1 Hu) as (u1 & ev1 & Hu1 & El1 & Q1); [by rewrite app_nil_r|unfold pcq; rewrite Hi; done|].
    rewrite Hu' in Hu1. injection Hu1 as <-. exists u', (calls_of ev1). split; [|done].
    destruct (live_log _ _ _ _ _ _ _ R2) as [ev3 E3]. rewrite El, El1, <- app_assoc in E3. apply app_inv_head in E3. rewrite E3. unfold calls_of. rewrite omap_app. by eexists. }
  destruct (K _ M1 "" _ eq_refl) as (u1 & g1 & G1 & X1 & Q1). apply pcq_lens in Q1 as (h1 & P1 & [L1 _]). destruct (K _ M2 "" _ eq_refl) as (u2 & g2 & G2 & X2 & Q2). apply pcq_lens in Q2 as (h2 & P2 & [_ L2]).
  exists h1, h2. split; [by etransitivity|]. split; [by etransitivity|]. rewrite X1 in L1. rewrite X2 in L2. rewrite <- L1, <- L2. split; [done|]. split; [done|]. split; [done|].
  intros t n0 v H0 Hv. assert (geti (default (∅ : gmap string Z) (c_nft (u_mem u) !! f)) t = n0) as HT.
  { apply (f_equal (lookup t)) in H0. unfold disk_get_nft in H0. cbn [fold_left] in H0. rewrite lookup_insert, lookup_singleton in H0. by injection H0. }
  destruct (K _ (M3 t v Hv) t n0 HT) as (u3 & g3 & G3 & X3 & Q3). apply pcq_now in Q3 as (h & P3 & E3). exists h. split; [by etransitivity|]. by rewrite <- X3.
Qed.
Print Assumptions C64_counts.

(** No search panics, however it interleaves with the client, the writers and the other
    searches: no send on a closed channel, no unreadable file, no failing cache. *)
Theorem C64_no_panic : forall compress decompress cs N ncpu, gzip_ok compress decompress -> (0 < cs)%Z ->
  forall b : busy N, busy_reachable compress decompress cs N ncpu b -> good_log (y_log (by_sys b)) ->
  (forall c, c ∈ history b -> plain_doc (call_doc' c)) -> (forall terms f q, (terms, f, q) ∈ by_qs b -> f <> "docs") ->
  ~ search_fatal decompress N b /\ forall terms f q, (terms, f, q) ∈ by_qs b -> ~ search_panics N q.
Proof.
  intros compress decompress cs N ncpu gz pos b Hr Hg Hp Hf. split.
  - intros (u & terms & f & len & n & nft & w & p & Hu & Hin & Hw & Hx). pose proof (Hf _ _ _ Hin) as Hnd. apply elem_of_list_lookup in Hin as [i Hi].
    destruct (returned_up _ _ _ _ _ _ _ Hr gz pos Hg Hi) as (u' & own & Hu' & Hfi & HU & Q). rewrite Hu in Hu'. injection Hu' as <-. destruct Q as [_ [HA _]]. cbn in HA. revert Hx. eapply batch_not_fatal; [done|done|exact Hfi|apply HU| |].
    + intros id (t & _ & Hl). assert (saved_posting (y_log (by_sys b)) f t id) as (c & H1 & <- & _) by (by eapply busy_listed). by apply Hp.
    + destruct HA as [HA _]. eapply Forall_forall in HA; [|exact Hw]. exact HA.
  - intros terms f q Hin Hx. apply elem_of_list_lookup in Hin as [i Hi]. destruct (returned_up _ _ _ _ _ _ _ Hr gz pos Hg Hi) as (u' & own & Hu' & _ & _ & Q). destruct q; try done; cbn in Q, Hx.
    + destruct Q as [Q _]. pose proof (j_panic _ _ _ _ _ Q). congruence.
    + destruct Q as [[tasks Q] _]. pose proof (j_panic _ _ _ _ _ Q). congruence.
Qed.
Print Assumptions C64_no_panic.

(** From every reachable state a search in progress can run to its end by its own steps
    alone: it waits for nobody. *)
Theorem C64_can_return : forall compress decompress cs N ncpu, gzip_ok compress decompress -> (0 < cs)%Z -> 0 < ncpu ->
  forall (b : busy N) i terms f q, busy_reachable compress decompress cs N ncpu b -> good_log (y_log (by_sys b)) ->
  (forall c, c ∈ history b -> plain_doc (call_doc' c)) -> f <> "docs" -> by_qs b !! i = Some (terms, f, q) ->
  exists b' r, rtc (step_of_search compress decompress cs ncpu i) b b' /\ search_returned b' i terms f r.
Proof.
  intros compress decompress cs N ncpu gz pos Hc b i terms f q Hr Hg Hp Hf Hi. destruct (returned_up _ _ _ _ _ _ _ Hr gz pos Hg Hi) as (u & own & Hu & _ & _ & _).
  destruct (finish_any compress decompress cs N ncpu gz pos i terms f Hc b q) as (b' & r & R1 & R2).
  - split; [by apply (busy_sound compress decompress cs N ncpu gz pos)|]. split; [by apply (busy_musts compress decompress cs N ncpu gz pos)|]. split; [done|]. split; [done|]. exists u. split; [done|].
    intros id (t & _ & Hl). assert (saved_posting (y_log (by_sys b)) f t id) as (c & H1 & <- & _) by (by eapply busy_listed). by apply Hp.
  - exists b', r. split; [|apply R2]. eapply rtc_subrel; [|exact R1]. intros x y Hxy. pose proof (own_live compress _ cs _ _ _ _ _ Hxy) as HL. destruct Hxy as (s & u1 & log & dp & qs & terms1 & f1 & q1 & m & q' & -> & Hq & HS & ->).
    split; [done|]. cbn. split_and!; try done; [by rewrite insert_length|intros j Hj; by rewrite list_lookup_insert_ne|]. eexists _, _. split_and!; done.
Qed.
Print Assumptions C64_can_return.
