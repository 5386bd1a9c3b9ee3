(** C59: under fair scheduling with running tickers everything saved reaches the disk. *)
From Verif Require Import Base M_Field M_LRU S_LRU S_Visits M_Memory M_File M_Serialize M_Disk P_Base P_File P_LRU S_Disk P_DiskBase P_DiskInv P_DiskMem P_DiskWriter P_DiskTerm P_DiskIndex P_DiskIndex2 P_DiskIndex3 P_DiskIndex4 P_DiskDocs P_DiskDocs2 P_DiskDocs3 X_DiskExec T_LRU T_DiskMetrics T_DiskNft T_DiskIndex T_DiskDocs S_DiskFair P_DiskFair P_DiskFair2 T_DiskFair S_DiskDurable P_DiskDurable.
#[local] Open Scope nat_scope.
#[local] Opaque serialize_metrics deserialize_metrics serialize_nft deserialize_nft serialize_field_map deserialize_field_map serialize_index deserialize_index.

(** Every posting in memory at some moment is in the index files from some later moment
    on, for ever, whatever else is saved meanwhile. *)
Theorem C59_posting_reaches_disk : forall compress decompress cache_size, gzip_ok compress decompress -> (0 < cache_size)%Z ->
  forall r, reachable compress decompress cache_size (r 0) -> (forall i, good_log (y_log (r i))) ->
  execution compress decompress cache_size r -> fair compress decompress r -> ticking r ->
  forall i u f t d, y_proc (r i) = Up u -> f <> "docs" -> has (disk_get_index (u_mem u) f) t d ->
  exists j, i <= j /\ forall k, j <= k -> kept decompress (r k) f t d.
Proof. intros compress decompress cs gz pos r Hr Hg Hx Hf Ht. by apply (posting_kept compress decompress cs gz pos r Hx Hf Ht Hr Hg). Qed.
Print Assumptions C59_posting_reaches_disk.

(** If saving stops, then from some moment on nothing waits to be written. *)
Theorem C59_all_flushed : forall compress decompress cache_size, (0 < cache_size)%Z ->
  forall r, reachable compress decompress cache_size (r 0) -> (forall i, good_log (y_log (r i))) ->
  execution compress decompress cache_size r -> fair compress decompress r -> ticking r ->
  forall i, no_saves_after r i ->
  exists j, i <= j /\ forall k, j <= k -> exists u, y_proc (r k) = Up u /\ flushed u.
Proof. intros compress decompress cs pos r Hr Hg Hx Hf Ht. by apply (all_settles compress decompress cs pos r Hx Hf Ht Hr Hg). Qed.
Print Assumptions C59_all_flushed.

(** If saving stops, then from some moment on the process may end at any point (for the
    index: not between the two renames of the merger) and reopening the folder gives the
    index in memory at that point, and the sizes and lengths reduced to 32 bits. *)
Theorem C59_restart_after : forall compress decompress cache_size, gzip_ok compress decompress -> (0 < cache_size)%Z ->
  forall r, reachable compress decompress cache_size (r 0) -> (forall i, good_log (y_log (r i))) ->
  execution compress decompress cache_size r -> fair compress decompress r -> ticking r ->
  forall i, no_saves_after r i ->
  exists j, i <= j /\ forall k, j <= k -> exists u, y_proc (r k) = Up u /\
    forall cache_size' u' s', reopen compress decompress cache_size' (y_fs (r k)) u' s' ->
    forall f, f <> "docs" ->
      (~ in_gap (u_mg u) f -> disk_get_index (u_mem u') f = disk_get_index (u_mem u) f) /\
      disk_get_size (u_mem u') f = wrap32 (disk_get_size (u_mem u) f) /\
      disk_get_length (u_mem u') f = wrap32 (disk_get_length (u_mem u) f).
Proof.
  intros compress decompress cs gz pos r Hr Hg Hx Hf Ht i Hn. destruct (all_settles compress decompress cs pos r Hx Hf Ht Hr Hg i Hn) as (j & Hj & H).
  exists j. split; [done|]. intros k Hk. destruct (H k Hk) as (u & Hu & (F1 & F2 & F3 & F4 & _)). exists u. split; [done|]. intros cs' u' s' Ho f Hfd.
  pose proof (r_reach compress decompress cs r Hx Hr k) as Rk. split.
  - intros Hgap. destruct (x_reach _ _ cs gz (r k) Rk (Hg k)) as ([Bl _] & Hv & _ & Hxx). rewrite Hu in Hxx.
    destruct (reopen_inv compress decompress cs' gz _ _ _ Bl Hv Ho) as (_ & _ & HR). destruct (HR f Hfd) as (_ & P & HH).
    apply proper_eq; [done|by apply (xu_proper _ _ _ _ Hxx)|]. intros t d. rewrite (proj1 (HH t d)), (xu_cons _ _ _ _ Hxx f t d Hfd), safe_no_gap by done. split; [auto|].
    intros [[(? & ? & ? & E & _)|[Hin|Hb]]|?]; [rewrite E in F1; done| | |done].
    + rewrite F2 in Hin. by apply elem_of_nil in Hin.
    + rewrite F3, lookup_empty in Hb. by apply has_empty in Hb.
  - apply (C53_metrics_survive compress decompress cs gz (r k) u f Rk (Hg k) Hu Hfd) with (cache_size' := cs') (s' := s'); [|by rewrite F4|done].
    intros d x E. by rewrite E in F1.
Qed.
Print Assumptions C59_restart_after.

(** If saving stops in a session that was never restarted and whose documents fit the
    cache, then from some moment on the file of every document holds exactly the latest
    field saved under each name, whenever no GetFields call is in progress. *)
Theorem C59_documents_after : forall compress decompress cache_size, gzip_ok compress decompress -> (0 < cache_size)%Z ->
  forall r, reachable compress decompress cache_size (r 0) -> (forall i, good_log (y_log (r i))) ->
  execution compress decompress cache_size r -> fair compress decompress r -> ticking r ->
  forall i, no_saves_after r i ->
  (forall k, ECrash ∉ y_log (r k) /\ docs_saved_at_most cache_size (calls_of (y_log (r k))) /\ forall d, requested (y_log (r k)) d -> plain_doc d) ->
  exists j, i <= j /\ forall k u, j <= k -> y_proc (r k) = Up u -> u_pc u = CIdle -> forall d x, plain_doc d -> Save d x ∈ calls_of (y_log (r k)) ->
    load_doc decompress (y_fs (r k)) d = Some (Some (field32 <$> doc_map (calls_of (y_log (r k))) d)).
Proof.
  intros compress decompress cs gz pos r Hr Hg Hx Hf Ht i Hn Hc. destruct (all_settles compress decompress cs pos r Hx Hf Ht Hr Hg i Hn) as (j & Hj & H).
  exists j. split; [done|]. intros k u Hk Hu Hp d x Hd Hs. destruct (H k Hk) as (u1 & Hu1 & F). rewrite Hu in Hu1. injection Hu1 as <-.
  destruct F as (_ & _ & _ & _ & _ & F). destruct (Hc k) as (C1 & C2 & C3). pose proof (r_reach compress decompress cs r Hx Hr k) as Rk.
  destruct (C54_latest compress decompress cs gz pos (r k) u d Rk (Hg k) C1 C2 C3 Hu Hp) as [L _]; [by rewrite F|done|]. apply L. by exists x.
Qed.
Print Assumptions C59_documents_after.

(** * A case: an execution in which everything is flushed and the tickers run for ever *)
(** The only entry of a map. *)
Definition single {A} (m : gmap string A) : option (string * A) := match map_to_list m with [kv] => Some kv | _ => None end.
Lemma single_visits {A} (m : gmap string A) kv l : single m = Some kv -> visits m l -> l = [kv].
Proof. unfold single, visits. intros H P. destruct (map_to_list m) as [|k [|]]; try done. injection H as ->. by apply Permutation_singleton_r in P || apply Permutation_singleton_l in P. Qed.
Definition oks {A} (o : option A) : bool := match o with Some _ => true | None => false end.
Definition w_fine {V} (dirof : string -> path) (serok : string -> V -> bool) (w : writer V) (s : fs) : bool :=
  match w_pc w with
  | WLoop (k :: _) => oks (mkdir_all s (dirof k))
  | WSer k _ => match w_buf w !! k with Some v => serok k v | None => true end
  | WSave _ _ _ SSErr => false
  | _ => true
  end.
Lemma w_fine_ok {V} (dirof : string -> path) (fails : string -> V -> Prop) serok w s : (forall k v, serok k v = true -> ~ fails k v) -> w_fine dirof serok w s = true -> ~ w_fatal dirof fails (w, s).
Proof.
  intros Hs H F. inversion F as [? ? ? ? E|? ? ? ? ? E1 E2|]; subst; cbn in H.
  - by rewrite E in H.
  - rewrite E1 in H. by apply Hs in H.
  - discriminate H.
Qed.
Definition m_serok (f : string) (v : Z * Z) : bool := oks (serialize_metrics f (wrap32 v.1) (wrap32 v.2)).
Definition n_serok (f : string) (m : gmap string Z) : bool := match single m with Some kv => oks (serialize_nft [kv]) | None => false end.
Definition d_serok (h : gmap nat (gmap string field)) (d : string) (l : nat) : bool :=
  match h !! l with
  | Some m => match single m with Some (k, x) => match single (f_tf x) with Some kv => oks (serialize_field_map [(k, (f_name x, f_length x, [kv]))]) | None => false end | None => false end
  | None => false
  end.
Definition i_serok (m : gmap string (gmap string bool)) : bool :=
  match single m with Some (t, ds) => match single ds with Some (d, _) => oks (serialize_index [(t, [d])]) | None => false end | None => false end.
Lemma m_serok_ok f v : m_serok f v = true -> ~ m_ser_fails f v.
Proof. unfold m_serok, m_ser_fails. intros H E. by rewrite E in H. Qed.
Lemma n_serok_ok f v : n_serok f v = true -> ~ n_ser_fails f v.
Proof. unfold n_serok, n_ser_fails. intros H (l & Hv & E). destruct (single v) as [kv|] eqn:Es; [|done]. rewrite (single_visits _ _ _ Es Hv) in E. rewrite E in H. discriminate H. Qed.
Lemma d_serok_ok h f v : d_serok h f v = true -> ~ d_ser_fails h f v.
Proof.
  unfold d_serok, d_ser_fails. intros H (m & es & Hm & (l & Hv & Hl) & E). rewrite Hm in H. destruct (single m) as [[k x]|] eqn:Es; [|done]. rewrite (single_visits _ _ _ Es Hv) in Hl.
  inversion Hl as [|? [k' [[n le] tf]] ? ? (E1 & E2 & E3 & E4) Hl' ]; subst. inversion Hl'; subst. cbn in *. subst. destruct (single (f_tf x)) as [kv|] eqn:Et; [|done]. rewrite (single_visits _ _ _ Et E4) in E. rewrite E in H. discriminate H.
Qed.
Lemma i_serok_ok m : i_serok m = true -> ~ idx_ser_fails m.
Proof.
  unfold i_serok, idx_ser_fails. intros H (es & (l & Hv & Hl) & E). destruct (single m) as [[t ds]|] eqn:Es; [|done]. rewrite (single_visits _ _ _ Es Hv) in Hl.
  inversion Hl as [|? [t' l'] ? ? (E1 & l2 & E3 & E4) Hl' ]; subst. inversion Hl'; subst. cbn in *. subst. destruct (single ds) as [[d b]|] eqn:Et; [|done]. rewrite (single_visits _ _ _ Et E3) in E. cbn in E. rewrite E in H. discriminate H.
Qed.
Definition i_fine (w : iwriter) (s : fs) : bool :=
  match i_pc w with
  | ILoop (k :: _) => match i_buf w !! k with Some m => i_serok m | None => true end
  | IMkdir k _ _ => oks (mkdir_all s [k; "temp"])
  | IOpen k _ _ => is_dir s [k; "temp"] && forallb (fun p => negb (length p =? 3)) (elements (fs_dirs s))
  | _ => true
  end.
Lemma i_fine_ok w s : i_fine w s = true -> ~ i_fatal (w, s).
Proof.
  intros H F. inversion F as [? ? ? ? ? E1 E2|? ? ? ? ? E|? ? ? ? u ? E]; subst; cbn in H.
  - rewrite E1 in H. by apply i_serok_ok in H.
  - by rewrite E in H.
  - apply andb_true_iff in H as [H1 H2]. unfold open_trunc in E. cbn in E. rewrite H1 in E. cbn in E.
    destruct (is_dir s [k; "temp"; u]) eqn:E2; [|discriminate E]. unfold is_dir in E2. apply bool_decide_eq_true_1 in E2.
    rewrite forallb_forall in H2. specialize (H2 [k; "temp"; u]). cbn in H2. discriminate H2. apply elem_of_list_In. by apply elem_of_elements.
Qed.
(** No goroutine is at a point where it panics; the caller and the merger are idle. *)
Definition fine (y : sys) : bool :=
  match y_proc y with
  | Up u => match u_pc u, m_pc (u_mg u) with
            | CIdle, MIdle => w_fine m_dir m_serok (u_mw u) (y_fs y) && w_fine n_dir n_serok (u_nw u) (y_fs y) && w_fine d_dir (d_serok (c_heap (u_mem u))) (u_dw u) (y_fs y) && i_fine (u_iw u) (y_fs y)
            | _, _ => false
            end
  | _ => false
  end.
Lemma fine_ok y : fine y = true -> exists u, y_proc y = Up u /\ ~ up_fatal Some (u, y_fs y).
Proof.
  unfold fine. intros H. destruct (y_proc y) as [| |u]; try discriminate H. exists u. split; [done|].
  destruct u as [m pc ich mw nw dw iw [ga gp]]. cbn [u_mw u_nw u_dw u_iw u_mg m_pc u_pc u_mem] in *. destruct pc; try discriminate H. destruct gp; try discriminate H.
  apply andb_true_iff in H as [H H4]. apply andb_true_iff in H as [H H3]. apply andb_true_iff in H as [H1 H2].
  intros F. inversion F as [? ? ? ? ? ? ? ? ? G| ? ? ? ? ? ? ? ? ? ? ? ? ? G1 G2| ? ? ? ? ? ? ? ? ? G| ? ? ? ? ? ? ? ? ? G| ? ? ? ? ? ? ? ? ? G| ? ? ? ? ? ? ? ? ? G| ? ? ? ? ? ? ? ? ? G]; subst.
  - inversion G.
  - match goal with K : c_doc _ _ _ |- _ => inversion K end.
  - revert G. apply (w_fine_ok _ _ m_serok); [apply m_serok_ok|done].
  - revert G. apply (w_fine_ok _ _ n_serok); [apply n_serok_ok|done].
  - revert G. apply (w_fine_ok _ _ (d_serok (c_heap m))); [apply d_serok_ok|done].
  - revert G. by apply i_fine_ok.
  - inversion G.
Qed.
Definition x_1 : field := mkField "title" 2 {[ "go" := 2%Z ]}.
Definition y_saved : sys := default sys_init (play 2 (dopen ++ dsave "d1" x_1)).
(** Receive the posting; each writer ticks and runs until it is at its select again. *)
Definition flush_script : list act :=
  flatten 2 [(true, ARecv); (false, TMetrics); (true, AMetrics); (false, TNft); (true, ANft); (false, TDocs); (true, ADocs); (false, TIndex); (true, AIndex "u1")] y_saved.
Definition y_flushed : sys := run flush_script y_saved 40.
Lemma y_saved_reach : reachable id Some 2 y_saved.
Proof. assert (oks (play 2 (dopen ++ dsave "d1" x_1)) = true) as H by (vm_compute; reflexivity). unfold y_saved. destruct (play 2 (dopen ++ dsave "d1" x_1)) as [y|] eqn:E; [exact (play_reach _ _ _ E)|discriminate H]. Qed.
Lemma y_flushed_eq : y_flushed = run flush_script y_saved 40. Proof. reflexivity. Qed.
#[local] Opaque flush_script y_saved y_flushed.
(** One round of the four tickers with empty buffers. *)
Definition cyc (m : cmem) (s : fs) (log : list event) (i : nat) : sys :=
  let w {V} (n : nat) : writer V := mkW ∅ (if decide (i = n) then WLoop [] else WIdle) in
  mkSys s (Up (mkUp m CIdle [] (w 1) (w 3) (w 5) (mkI ∅ (if decide (i = 7) then ILoop [] else IIdle)) (mkM ∅ MIdle))) log.
(** Flush, then tick for ever. *)
Definition tick_run (l : list act) (y0 : sys) (m : cmem) (s : fs) (log : list event) (i : nat) : sys :=
  if i <? 40 then run l y0 i else cyc m s log ((i - 40) mod 8).
Definition flushedb (y : sys) : bool :=
  match y_proc y with
  | Up (mkUp _ CIdle [] (mkW mb WIdle) (mkW nb WIdle) (mkW db WIdle) (mkI ib IIdle) (mkM ga MIdle)) => bool_decide (mb = ∅) && bool_decide (nb = ∅) && bool_decide (db = ∅) && bool_decide (ib = ∅) && bool_decide (ga = ∅)
  | _ => false
  end.
Lemma flushedb_ok y : flushedb y = true -> exists m, y = cyc m (y_fs y) (y_log y) 0.
Proof.
  intros H. unfold flushedb in H. destruct y as [s p log]. cbn [y_proc y_fs y_log] in *. destruct p as [| |u]; [discriminate H..|]. destruct u as [m pc ich mw nw dw iw mg]. destruct pc; try discriminate H. destruct ich; [|discriminate H].
  destruct mw as [mb mp]. destruct mp; try discriminate H. destruct nw as [nb np]. destruct np; try discriminate H. destruct dw as [db dp]. destruct dp; try discriminate H. destruct iw as [ib ip]. destruct ip; try discriminate H. destruct mg as [ga gp]. destruct gp; try discriminate H.
  apply andb_true_iff in H as [H H5]. apply andb_true_iff in H as [H H4]. apply andb_true_iff in H as [H H3]. apply andb_true_iff in H as [H1 H2].
  apply bool_decide_eq_true_1 in H1, H2, H3, H4, H5. subst. by exists m.
Qed.
Lemma cyc_step m s log i : i < 8 -> live_step id Some 2 (cyc m s log i) (cyc m s log (S i mod 8)).
Proof.
  intros Hi. unfold cyc. destruct i as [|[|[|[|[|[|[|[|]]]]]]]]; [cbn..|lia].
  all: try (apply y_tick; constructor; constructor; unfold range_order; by rewrite map_to_list_empty).
  all: rewrite <- (app_nil_r log) at 2; apply y_up.
  - apply u_metrics, w_end.
  - apply (u_nft _ _ _ _ _ _ (mkW ∅ (WLoop []))), w_end.
  - apply u_docs, w_end.
  - apply u_index, i_end.
Qed.
Definition saved_ok (y : sys) : bool := match calls_of (y_log y) with [c] => bool_decide (c = Save "d1" x_1) | _ => false end.
Lemma crash_not_fine a b : crash_step a b -> fine b = false.
Proof. intros H. by destruct H. Qed.
Definition hasb (y : sys) : bool :=
  match y_proc y with Up u => match disk_get_index (u_mem u) "title" !! "go" with Some sd => oks (sd !! "d1") | None => false end | _ => false end.
Lemma run_0 l y : run l y 0 = y.
Proof. by destruct l. Qed.
Definition quiet_log (y : sys) : bool := forallb (fun e => match e with EGet _ _ | ECrash => false | _ => true end) (y_log y).
Lemma lasso l y0 m s log : reachable id Some 2 y0 -> run l y0 0 = y0 -> run l y0 40 = cyc m s log 0 -> (forall i, fine (run l y0 i) = true) -> (forall i, saved_ok (run l y0 i) = true) -> (forall i, quiet_log (run l y0 i) = true) ->
  let r := tick_run l y0 m s log in reachable id Some 2 (r 0) /\ (forall i, good_log (y_log (r i))) /\ execution id Some 2 r /\ fair id Some r /\ ticking r /\ no_saves_after r 0 /\ r 0 = y0 /\
  (forall k, ECrash ∉ y_log (r k) /\ docs_saved_at_most 2 (calls_of (y_log (r k))) /\ forall d, requested (y_log (r k)) d -> plain_doc d).
Proof.
  intros Hr H0 Em Hfine Hsaved Hquiet r.
  assert (forall i, i <= 40 -> r i = run l y0 i) as R1.
  { intros i Hi. unfold r, tick_run. destruct (i <? 40) eqn:E; [done|]. apply Nat.ltb_ge in E. assert (i = 40) as -> by lia. rewrite Nat.sub_diag. change (0 mod 8) with 0. symmetry. exact Em. }
  assert (forall i, 40 <= i -> r i = cyc m s log ((i - 40) mod 8)) as R2.
  { intros i Hi. unfold r, tick_run. by rewrite (proj2 (Nat.ltb_ge i 40) Hi). }
  assert (forall i q j, i = 40 + 8 * q + j -> j < 8 -> r i = cyc m s log j /\ r (S i) = cyc m s log (S j mod 8)) as R3.
  { intros i q j -> Hj. rewrite !R2 by lia. split; f_equal.
    - replace (40 + 8 * q + j - 40) with (j + q * 8) by lia. rewrite Nat.mod_add by done. by apply Nat.mod_small.
    - replace (S (40 + 8 * q + j) - 40) with (S j + q * 8) by lia. by rewrite Nat.mod_add by done. }
  assert (forall i, fine (r i) = true) as Fi.
  { intros i. destruct (Nat.le_gt_cases i 40) as [Hi|Hi].
    - rewrite R1 by done. apply Hfine.
    - rewrite R2 by lia. pose proof (Nat.mod_upper_bound (i - 40) 8 ltac:(lia)) as Hb. destruct ((i - 40) mod 8) as [|[|[|[|[|[|[|[|]]]]]]]]; [reflexivity..|lia]. }
  assert (forall i, y_log (r i) = y_log (run l y0 (i `min` 40))) as Lg.
  { intros i. destruct (Nat.le_gt_cases i 40) as [Hi|Hi]; [rewrite R1, Nat.min_l by done; done|]. rewrite R2, Nat.min_r by lia. rewrite Em. reflexivity. }
  assert (forall i, calls_of (y_log (r i)) = [Save "d1" x_1]) as Cl.
  { intros i. rewrite Lg. enough (saved_ok (run l y0 (i `min` 40)) = true) as G.
    - unfold saved_ok in G. destruct (calls_of _) as [|c [|]]; try discriminate G. apply bool_decide_eq_true_1 in G. by subst.
    - apply Hsaved. }
  assert (forall i, r (S i) = r i \/ live_step id Some 2 (r i) (r (S i))) as St.
  { intros i. destruct (Nat.lt_ge_cases i 40) as [Hi|Hi].
    - rewrite !R1 by lia. destruct (run_step l y0 i) as [E|[E|E]]; [by left|by right|]. exfalso. specialize (Fi (S i)). rewrite R1 in Fi by lia. rewrite (crash_not_fine _ _ E) in Fi. discriminate Fi.
    - right. destruct (R3 i ((i - 40) / 8) ((i - 40) mod 8)) as [-> ->]; [|apply Nat.mod_upper_bound; lia|apply cyc_step, Nat.mod_upper_bound; lia].
      pose proof (Nat.div_mod (i - 40) 8 ltac:(lia)). lia. }
  split.
  { rewrite R1, H0 by lia. done. }
  split.
  { intros i c Hc. rewrite Cl in Hc. apply elem_of_list_singleton in Hc. subst c. by vm_compute. }
  split; [intros i; split; [apply St|by apply fine_ok]|]. split.
  { assert (forall A, A = Caller \/ A = IndexReceive -> forall k, 40 <= k -> ~ can_move id Some A (r k)) as Hno.
    { intros A HA k Hk (b & u & ev & u' & Hu & _ & _ & G & Ga). rewrite R2 in Hu by done. cbn in Hu. injection Hu as <-.
      inversion G; subst; destruct HA as [-> | ->]; cbn in Ga; try (match goal with K : c_step _ _ _ _ |- _ => inversion K | K : c_doc _ _ _ |- _ => inversion K end); try done; by destruct Ga. }
    assert (forall A j, j < 8 -> moves id Some A (cyc m s log j) (cyc m s log (S j mod 8)) -> forall i, exists k, i <= k /\ moves id Some A (r k) (r (S k))) as Hyes.
    { intros A j Hj H i. exists (40 + 8 * i + j). split; [lia|]. destruct (R3 _ i j eq_refl Hj) as [-> ->]. done. }
    assert (forall u u', (exists ev, up_step id Some (u, s) ev (u', s) /\ ev = []) -> forall A, acts A u u' -> moves id Some A (mkSys s (Up u) log) (mkSys s (Up u') log)) as Hm.
    { intros u u' (ev & G & ->) A Ga. exists u, [], u'. cbn. rewrite app_nil_r. done. }
    intros [] i.
    - right. exists (40 + i). split; [lia|]. intros k Hk. apply Hno; [by left|lia].
    - left. apply (Hyes _ 1); [lia|]. apply Hm; [exists []; split; [apply u_metrics, w_end|done]|done].
    - left. apply (Hyes _ 3); [lia|]. apply Hm; [exists []; split; [apply (u_nft _ _ _ _ _ _ (mkW ∅ (WLoop []))), w_end|done]|done].
    - left. apply (Hyes _ 5); [lia|]. apply Hm; [exists []; split; [apply u_docs, w_end|done]|done].
    - right. exists (40 + i). split; [lia|]. intros k Hk. apply Hno; [by right|lia].
    - left. apply (Hyes _ 7); [lia|]. apply Hm; [exists []; split; [apply u_index, i_end|done]|done]. }
  split.
  { assert (forall T j, j < 8 -> fires T (cyc m s log j) (cyc m s log (S j mod 8)) -> forall i, exists k, i <= k /\ fires T (r k) (r (S k))) as Hyes.
    { intros A j Hj H i. exists (40 + 8 * i + j). split; [lia|]. destruct (R3 _ i j eq_refl Hj) as [-> ->]. done. }
    intros []; [apply (Hyes _ 0)|apply (Hyes _ 2)|apply (Hyes _ 4)|apply (Hyes _ 6)]; try lia; (eexists _, _; split; [reflexivity|]; split; [reflexivity|]; cbn; constructor; unfold range_order; by rewrite map_to_list_empty). }
  split.
  { intros k c _ E. apply (f_equal calls_of) in E. unfold calls_of at 2 in E. rewrite omap_app in E. fold (calls_of (y_log (r k))) in E. rewrite !Cl in E. cbn in E. discriminate E. }
  split; [by rewrite R1 by lia|].
  intros k. split; [|split].
    + rewrite Lg. intros H. specialize (Hquiet (k `min` 40)). unfold quiet_log in Hquiet. rewrite forallb_forall in Hquiet. apply elem_of_list_In in H. specialize (Hquiet _ H). discriminate Hquiet.
    + rewrite Cl. apply (at_most_case _ _ ["d1"]); [|cbn; lia]. intros d x H. apply elem_of_list_singleton in H. injection H as -> _. by apply elem_of_list_singleton.
    + intros d (ids & f & H & _). exfalso. rewrite Lg in H. specialize (Hquiet (k `min` 40)). unfold quiet_log in Hquiet. rewrite forallb_forall in Hquiet. apply elem_of_list_In in H. specialize (Hquiet _ H). discriminate Hquiet.
Qed.
Example C59_case : exists r, reachable id Some 2 (r 0) /\ (forall i, good_log (y_log (r i))) /\ execution id Some 2 r /\ fair id Some r /\ ticking r /\ no_saves_after r 0 /\
  (exists u, y_proc (r 0) = Up u /\ has (disk_get_index (u_mem u) "title") "go" "d1") /\ ~ kept Some (r 0) "title" "go" "d1" /\
  (forall k, ECrash ∉ y_log (r k) /\ docs_saved_at_most 2 (calls_of (y_log (r k))) /\ forall d, requested (y_log (r k)) d -> plain_doc d).
Proof.
  assert (flushedb y_flushed = true) as Hf by (vm_compute; reflexivity). destruct (flushedb_ok _ Hf) as [m Em]. clear Hf. rewrite y_flushed_eq in Em at 1.
  destruct (lasso flush_script y_saved m _ _ y_saved_reach (run_0 _ _) Em) as (L1 & L2 & L3 & L4 & L5 & L6 & L7 & L8).
  { apply all_run_at. vm_compute. reflexivity. }
  { apply all_run_at. vm_compute. reflexivity. }
  { apply all_run_at. vm_compute. reflexivity. }
  clear Em. revert L1 L2 L3 L4 L5 L6 L7 L8. generalize (tick_run flush_script y_saved m (y_fs y_flushed) (y_log y_flushed)). intros r L1 L2 L3 L4 L5 L6 L7 L8. exists r. do 6 (split; [done|]). rewrite L7. split; [|split; [|exact L8]].
  - assert (hasb y_saved = true) as Hh by (vm_compute; reflexivity). revert Hh. generalize y_saved. intros y Hh. unfold hasb in Hh. destruct (y_proc y) as [| |u]; try discriminate Hh. exists u. split; [reflexivity|].
    destruct (disk_get_index (u_mem u) "title" !! "go") as [sd|] eqn:E1; [|discriminate Hh]. exists sd. split; [exact E1|]. destruct (sd !! "d1") as [x|]; [by exists x|discriminate Hh].
  - assert (fs_files (y_fs y_saved) = ∅) as E0. { apply map_to_list_empty_iff. vm_compute. reflexivity. }
    revert E0. generalize (y_saved). intros y E0 [[(x & H & _)|(u & x & H & _)]|[_ (x & H & _)]]; rewrite E0, lookup_empty in H; discriminate H.
Qed.
