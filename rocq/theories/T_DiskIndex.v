(** C48-C51: the index on disk. *)
From Verif Require Import Base M_Field M_LRU S_Visits M_Memory M_File M_Serialize M_Disk P_Base S_Disk P_DiskBase P_DiskInv P_DiskMem P_DiskIndex P_DiskIndex2 P_DiskIndex3 P_DiskIndex4 P_DiskTerm X_DiskExec T_DiskMetrics T_DiskNft.
#[local] Open Scope Z_scope.
#[local] Opaque serialize_metrics deserialize_metrics serialize_nft deserialize_nft serialize_field_map deserialize_field_map serialize_index deserialize_index.

(** * C48: no posting is lost *)
(** In every reachable state: the postings in memory are exactly those about to be
    sent, in the channel, in the writer's buffer, in a fragment or in the index file
    (or, for an instant, in index_temp). *)
Theorem C48_conservation : forall compress decompress cache_size, gzip_ok compress decompress ->
  forall y u f t d, reachable compress decompress cache_size y -> good_log (y_log y) -> y_proc y = Up u -> f <> "docs" ->
  has (disk_get_index (u_mem u) f) t d <-> in_flight u f t d \/ safe decompress (y_fs y) (u_mg u) f t d.
Proof.
  intros compress decompress cs gz y u f t d Hr Hg Hu Hf. destruct (x_reach _ _ cs gz y Hr Hg) as (_ & _ & _ & Hx). rewrite Hu in Hx. by apply (xu_cons _ _ _ _ Hx).
Qed.
Print Assumptions C48_conservation.

(** Every posting of every call that has returned since the store was opened is there. *)
Theorem C48_saved_not_lost : forall compress decompress cache_size, gzip_ok compress decompress ->
  forall y u l1 l2 c t, reachable compress decompress cache_size y -> good_log (y_log y) -> y_proc y = Up u -> u_pc u = CIdle ->
  y_log y = l1 ++ EOpened :: l2 -> EOpened ∉ l2 -> c ∈ calls_of l2 -> is_Some (f_tf (call_field' c) !! t) ->
  has (disk_get_index (u_mem u) (f_name (call_field' c))) t (call_doc' c) /\
  (in_flight u (f_name (call_field' c)) t (call_doc' c) \/ safe decompress (y_fs y) (u_mg u) (f_name (call_field' c)) t (call_doc' c)).
Proof.
  intros compress decompress cs gz y u l1 l2 c t Hr Hg Hu Hi Hl Hn Hc Ht.
  assert (has (disk_get_index (u_mem u) (f_name (call_field' c))) t (call_doc' c)) as Hh.
  { destruct (x_reach _ _ cs gz y Hr Hg) as (_ & _ & _ & Hx). rewrite Hu in Hx. destruct (xu_calls _ _ _ _ Hx) as (k1 & k2 & E & Hn2 & H).
    assert (k2 = l2) as ->.
    { rewrite Hl in E. clear - E Hn Hn2. revert k1 E. induction l1 as [|e l1 IH]; intros [|e' k1] E; cbn in E.
      - by injection E as ->.
      - injection E as <- E. subst l2. exfalso. apply Hn. apply elem_of_app. right. left.
      - injection E as -> E. subst k2. exfalso. apply Hn2. apply elem_of_app. right. left.
      - injection E as <- E. by apply (IH k1). }
    destruct (H c t Hc Ht) as [?|[Hp _]]; [done|]. rewrite Hi in Hp. by apply elem_of_nil in Hp. }
  split; [done|]. apply (C48_conservation compress decompress cs gz y u); try done.
  assert (c ∈ calls_of (y_log y)) as Hc'. { rewrite Hl, calls_app. apply elem_of_app. right. done. }
  by destruct (Hg c Hc') as (_ & _ & ?).
Qed.
Print Assumptions C48_saved_not_lost.

(** Nothing in flight and the merger not between its two renames: reopening the folder
    yields exactly the index in memory. *)
Theorem C48_quiet_reopen : forall compress decompress cache_size, gzip_ok compress decompress ->
  forall y u f, reachable compress decompress cache_size y -> good_log (y_log y) -> y_proc y = Up u -> f <> "docs" ->
  index_quiet u -> ~ in_gap (u_mg u) f ->
  forall cache_size' u' s', reopen compress decompress cache_size' (y_fs y) u' s' -> disk_get_index (u_mem u') f = disk_get_index (u_mem u) f.
Proof.
  intros compress decompress cs gz y u f Hr Hg Hu Hf (Q1 & Q2 & Q3) Hgap cs' u' s' Ho.
  destruct (x_reach _ _ cs gz y Hr Hg) as ([Bl _] & Hv & _ & Hx). rewrite Hu in Hx.
  destruct (reopen_inv compress decompress cs' gz _ _ _ Bl Hv Ho) as (_ & _ & HR). destruct (HR f Hf) as (_ & P & HH).
  apply proper_eq; [done|by apply (xu_proper _ _ _ _ Hx)|]. intros t d. rewrite (proj1 (HH t d)), (xu_cons _ _ _ _ Hx f t d Hf), safe_no_gap by done. split; [auto|].
  intros [[(? & ? & ? & E & _)|[Hin|Hb]]|?]; [congruence| | |done].
  - rewrite Q2 in Hin. by apply elem_of_nil in Hin.
  - rewrite Q3, lookup_empty in Hb. by apply has_empty in Hb.
Qed.
Print Assumptions C48_quiet_reopen.

(** If nothing is in flight, the merger sleeps, and then a merge runs to completion with
    no further saves, every posting in memory is in the index file, no fragment and no
    temporary file is left. *)
Theorem C48_merge_completes : forall compress decompress cache_size, gzip_ok compress decompress ->
  forall a ev b u u', reachable compress decompress cache_size a -> good_log (y_log a) -> y_proc a = Up u ->
  index_quiet u -> i_pc (u_iw u) = IIdle -> m_pc (u_mg u) = MIdle ->
  session compress decompress cache_size a ev b -> calls_of ev = [] -> y_proc b = Up u' -> m_pc (u_mg u') = MFields [] ->
  forall f, f <> "docs" ->
    (forall t d, has (disk_get_index (u_mem u') f) t d <-> has (disk_get_index (u_mem u) f) t d) /\
    (forall t d, in_index_file decompress (y_fs b) f t d <-> has (disk_get_index (u_mem u') f) t d) /\
    (forall n, fs_files (y_fs b) !! [f; "temp"; n] = None) /\
    fs_files (y_fs b) !! [f; "index_temp"] = None /\ fs_files (y_fs b) !! [f; "index_old"] = None.
Proof.
  intros compress decompress cs gz a ev b u u' Hr Hg Ha (Q1 & Q2 & Q3) Q4 Q5 Hs Hc Hb Hm f Hf.
  assert (q_inv decompress u (y_fs a)) as Hq. { split; [by rewrite Q1|]. split; [done|]. split; [done|]. split; by left. }
  destruct (q_session compress decompress cs gz a ev b u Hr Hg Ha Hq Hs Hc) as (Rb & Gb & u2 & E & (B1 & B2 & B3 & B4 & B5) & EI). rewrite Hb in E. injection E as <-.
  assert (disk_get_index (u_mem u') f = disk_get_index (u_mem u) f) as EI' by (unfold disk_get_index; by rewrite EI).
  destruct B5 as [B5|[_ B5]]; [congruence|]. unfold remaining in B5. rewrite Hm in B5. destruct (B5 f Hf) as (C & _); [apply not_elem_of_nil|].
  destruct (x_reach _ _ cs gz b Rb Gb) as (_ & _ & _ & Hx). rewrite Hb in Hx.
  split; [by rewrite EI'|]. split; [|by destruct C as (? & ? & ?)]. intros t d. rewrite (xu_cons _ _ _ _ Hx f t d Hf), safe_no_gap by (apply no_gap; by rewrite Hm).
  unfold in_index_file. rewrite (clean_disk decompress _ _ _ _ C). split; [by right|]. intros [[(? & ? & ? & E & _)|[Hin|Hbf]]|?]; [rewrite E in B1; done| | |done].
  - rewrite B2 in Hin. by apply elem_of_nil in Hin.
  - rewrite B3, lookup_empty in Hbf. by apply has_empty in Hbf.
Qed.
Print Assumptions C48_merge_completes.

(** * C49: merging is idempotent, interruptions are harmless *)
Theorem C49_load_twice : forall compress decompress cache_size, gzip_ok compress decompress ->
  forall y c1 c2 u1 s1 u2 s2, reachable compress decompress cache_size y -> good_log (y_log y) ->
  reopen compress decompress c1 (y_fs y) u1 s1 -> reopen compress decompress c2 s1 u2 s2 ->
  forall f, f <> "docs" -> disk_get_index (u_mem u2) f = disk_get_index (u_mem u1) f /\
    (forall t d, in_index_file decompress s2 f t d <-> in_index_file decompress s1 f t d) /\
    (forall n, fs_files s1 !! [f; "temp"; n] = None /\ fs_files s2 !! [f; "temp"; n] = None).
Proof.
  intros compress decompress cs gz y c1 c2 u1 s1 u2 s2 Hr Hg R1 R2 f Hf.
  destruct (x_reach _ _ cs gz y Hr Hg) as ([Bl _] & Hv & _).
  destruct (reopen_inv compress decompress c1 gz _ _ _ Bl Hv R1) as (L1 & V1 & H1). destruct (reopen_inv compress decompress c2 gz _ _ _ L1 V1 R2) as (L2 & V2 & H2).
  destruct (H1 f Hf) as (C1 & P1 & D1). destruct (H2 f Hf) as (C2 & P2 & D2). split; [|split].
  - apply proper_eq; [done|done|]. intros t d. rewrite (proj1 (D1 t d)), (proj1 (D2 t d)). apply D1.
  - intros t d. unfold in_index_file. rewrite <- (clean_disk decompress s2 f t d C2), <- (clean_disk decompress s1 f t d C1). apply D2.
  - intros n. destruct C1 as [C1 _], C2 as [C2 _]. auto.
Qed.
Print Assumptions C49_load_twice.

(** NewDiskStore interrupted at any point (of any field, while reading, writing or
    deleting) except between the two renames of this field: the next opening gives the
    same index as an uninterrupted one. *)
Theorem C49_interrupted_load : forall compress decompress cache_size, gzip_ok compress decompress ->
  forall y g s' c1 c2 u1 s1 u2 s2, reachable compress decompress cache_size y -> good_log (y_log y) ->
  loads compress decompress (y_fs y) g s' ->
  reopen compress decompress c1 (y_fs y) u1 s1 -> reopen compress decompress c2 s' u2 s2 ->
  forall f, f <> "docs" -> ~ in_gap g f -> disk_get_index (u_mem u2) f = disk_get_index (u_mem u1) f.
Proof.
  intros compress decompress cs gz y g s' c1 c2 u1 s1 u2 s2 Hr Hg Hl R1 R2 f Hf Hgap.
  destruct (x_reach _ _ cs gz y Hr Hg) as ([Bl _] & Hv & _).
  destruct (loads_inv compress decompress gz _ _ _ Bl Hv Hl) as (L1 & _ & V1 & _ & _ & D1).
  destruct (reopen_inv compress decompress c1 gz _ _ _ Bl Hv R1) as (_ & _ & H1). destruct (reopen_inv compress decompress c2 gz _ _ _ L1 V1 R2) as (_ & _ & H2).
  destruct (H1 f Hf) as (_ & P1 & E1). destruct (H2 f Hf) as (_ & P2 & E2). apply proper_eq; [done|done|]. intros t d.
  rewrite (proj1 (E1 t d)), (proj1 (E2 t d)), (D1 f t d Hf), safe_no_gap by done. done.
Qed.
Print Assumptions C49_interrupted_load.

(** * C50: what reopening can and cannot lose *)
(** After a crash in any reachable state, the reopened index is exactly what is in the
    index file and the fragments, and only contains postings that were really saved. *)
Theorem C50_reopened_index : forall compress decompress cache_size, gzip_ok compress decompress ->
  forall y, reachable compress decompress cache_size y -> good_log (y_log y) ->
  forall cache_size' u' s', reopen compress decompress cache_size' (y_fs y) u' s' -> forall f t d, f <> "docs" ->
    (has (disk_get_index (u_mem u') f) t d <-> on_disk decompress (y_fs y) f t d) /\
    (has (disk_get_index (u_mem u') f) t d -> saved_posting (y_log y) f t d).
Proof.
  intros compress decompress cs gz y Hr Hg cs' u' s' Ho f t d Hf. destruct (x_reach _ _ cs gz y Hr Hg) as ([Bl _] & Hv & Hs & _).
  destruct (reopen_inv compress decompress cs' gz _ _ _ Bl Hv Ho) as (_ & _ & HR). destruct (HR f Hf) as (_ & _ & HH). split; [apply HH|].
  intros Hh. apply HH in Hh. apply Hs; [done|]. apply kept_safe. by left.
Qed.
Print Assumptions C50_reopened_index.

(** What is on disk stays there, over any number of steps, crashes and reopenings of
    the whole system, as long as the process never ends between the two renames of
    this field's index file. *)
Theorem C50_persistent : forall compress decompress cache_size, gzip_ok compress decompress ->
  forall f y y' t d, f <> "docs" -> reachable compress decompress cache_size y -> good_log (y_log y') ->
  rtc (fun a b => sys_step compress decompress cache_size a b /\ no_gap_crash f a b) y y' ->
  kept decompress y f t d -> kept decompress y' f t d.
Proof.
  intros compress decompress cs gz f y y' t d Hf Hr Hg H. revert Hr Hg.
  induction H as [y|a b c [Hab Hc] Hbc IH]; intros Hr Hg Hk; [done|].
  assert (good_log (y_log b)) as Gb.
  { clear - Hbc Hg. induction Hbc as [|a b c [Hab _] _ IH]; [done|]. by eapply good_mono, IH. }
  assert (good_log (y_log a)) as Ga by (by eapply good_mono).
  apply IH; [by eapply rtc_r|done|]. rewrite kept_safe in *. destruct (x_reach _ _ cs gz a Hr Ga) as ([Bl Bp] & Xv & Xs & Xp).
  destruct Hab as [H|H]; inversion H; subst; unfold y_safe in *; cbn [y_fs y_proc y_log] in *.
  - match goal with G : mkdir_all _ _ = _ |- _ => destruct (mkdir_effect _ [] _ Bl eq_refl (Nat.le_0_l 2) G) as (E1 & E2 & _) end.
    match goal with G : g_start _ _ |- _ => inversion G; subst end. rewrite safe_no_gap by (by apply no_gap). revert Hk. apply disk_same; by rewrite E2.
  - destruct Bp as [_ Bp]. destruct Xp as [Xg _]. match goal with G : g_step _ _ _ _ |- _ => destruct (g_step_inv compress decompress gz _ _ _ _ Bl Bp Xv Xg G) as (_ & _ & I3) end. by apply I3.
  - match goal with G : opened _ _ _ _ _ |- _ => inversion G; subst end. cbn. rewrite safe_no_gap in * by (by apply no_gap). done.
  - destruct Bp as [_ Bp]. match goal with G : up_step _ _ _ _ _ |- _ => destruct (up_step_x compress decompress gz _ _ _ _ _ _ Bl Bp Xv Xp G) as (_ & _ & U) end. by apply U.
  - destruct Bp as [_ Bp]. match goal with G : up_tick _ _ |- _ => destruct (up_tick_x decompress _ _ _ _ _ Bp Xp G) as (-> & _ & U) end. by apply U.
  - match goal with G : up_call _ _ _ |- _ => destruct (up_call_x decompress _ _ _ _ _ Xp G) as (_ & ->) end. done.
  - specialize (Hc H). unfold gap in Hc. cbn in Hc. destruct p; [done|..]; by apply safe_no_gap in Hk.
Qed.
Print Assumptions C50_persistent.

(** A crash between the two renames: the reopened index of that field holds only what is
    still in fragments (the merged index is gone), and reopening removes both remaining
    copies. *)
Theorem C50_gap_crash : forall compress decompress cache_size, gzip_ok compress decompress ->
  forall y f, reachable compress decompress cache_size y -> good_log (y_log y) -> f <> "docs" -> gap y f ->
  forall cache_size' u' s', reopen compress decompress cache_size' (y_fs y) u' s' ->
    (forall t d, has (disk_get_index (u_mem u') f) t d <-> in_fragment decompress (y_fs y) f t d) /\
    fs_files s' !! [f; "index_temp"] = None /\ fs_files s' !! [f; "index_old"] = None.
Proof.
  intros compress decompress cs gz y f Hr Hg Hf Hgap cs' u' s' Ho. destruct (x_reach _ _ cs gz y Hr Hg) as ([Bl Bp] & Hv & Hs & Hx).
  destruct (reopen_inv compress decompress cs' gz _ _ _ Bl Hv Ho) as (_ & _ & HR). destruct (HR f Hf) as ((C1 & C2 & C3) & _ & HH). split; [|done].
  assert (fs_files (y_fs y) !! [f; "index"] = None) as E.
  { assert (exists g, g_wf g (y_fs y) /\ in_gap g f) as (g & Hw & fs0 & files & td & b & E).
    { unfold gap in Hgap. destruct (y_proc y) as [|g|u]; [done|exists g|exists (u_mg u)]; destruct Bp as [_ Bp]; [done|]. by destruct Bp. }
    unfold g_wf in Hw. rewrite E in Hw. destruct Hw as (_ & _ & _ & Hok). unfold ss_ok, cur_path in Hok. cbn in Hok. by destruct Hok. }
  intros t d. rewrite (proj1 (HH t d)). unfold on_disk, in_index_file. rewrite E. split; [|by right]. intros [G|?]; [|done]. by apply inf_none in G.
Qed.
Print Assumptions C50_gap_crash.

(** * C51: a half-written fragment *)
(** Once the process has ended with a partially written fragment in the folder, no
    sequence of openings ever produces a store again. *)
Theorem C51_never_opens_again : forall compress decompress cache_size, gzip_ok compress decompress ->
  forall y f n, reachable compress decompress cache_size y -> good_log (y_log y) -> f <> "docs" -> y_proc y = Down -> torn_fragment (y_fs y) f n ->
  forall y', rtc (sys_step compress decompress cache_size) y y' -> (forall u, y_proc y' <> Up u) /\ torn_fragment (y_fs y') f n.
Proof.
  intros compress decompress cs gz y f n Hr Hg Hf Hd Ht y' H.
  assert (doomed f n y) as Hdo by (split; [done|]; by rewrite Hd).
  destruct (doomed_forever compress decompress cs gz f n y y' Hf Hr Hg Hdo H) as ([T1 T2] & _ & _). split; [|done]. intros u E. by rewrite E in T2.
Qed.
Print Assumptions C51_never_opens_again.

(** Every opening ends: there is no infinite run of LoadIndexOnHD. *)
Theorem C51_opening_ends : forall compress decompress, well_founded (fun b a : merger * fs => g_step compress decompress a b).
Proof. exact g_terminates. Qed.
Print Assumptions C51_opening_ends.
Lemma loading_not_idle compress decompress cs y g : reachable compress decompress cs y -> y_proc y = Loading g -> m_pc g <> MIdle.
Proof.
  intros H. revert g. apply (rtc_ind_r (R:=sys_step compress decompress cs) (fun y => forall g, y_proc y = Loading g -> m_pc g <> MIdle) sys_init); [done| |exact H].
  intros a b _ Hab IH g Hb. destruct Hab as [Hab|Hab]; inversion Hab; subst; cbn in *; try done; injection Hb as <-.
  - match goal with G : g_start _ _ |- _ => by inversion G end.
  - match goal with G : g_step _ _ _ _ |- _ => by inversion G end.
Qed.
(** An opening in progress can always continue (up to returning a store), unless it has
    met a torn fragment, or the postings of one field are too many for one flatbuffers
    table. *)
Theorem C51_opening_outcome : forall compress decompress cache_size, gzip_ok compress decompress ->
  forall y g, reachable compress decompress cache_size y -> good_log (y_log y) -> y_proc y = Loading g ->
  (exists y', live_step compress decompress cache_size y y') \/
  (g_fatal decompress (g, y_fs y) /\
   ((exists f n, f <> "docs" /\ torn_fragment (y_fs y) f n) \/
    (exists f td es, f <> "docs" /\ (forall t d, has td t d <-> on_disk decompress (y_fs y) f t d) /\ visits_index td es /\ serialize_index es = None))).
Proof.
  intros compress decompress cs gz y g Hr Hg Hy. destruct (x_reach _ _ cs gz y Hr Hg) as ([Bl Bp] & Hv & _ & Hx). rewrite Hy in Bp, Hx. destruct Bp as [Bn Bp]. destruct Hx as [Xg Xl].
  pose proof (loading_not_idle _ _ _ _ _ Hr Hy) as Xn.
  destruct y as [s p log]. cbn in *. subst p.
  destruct (g_progress compress decompress g s Bl Bp Hv Xg Xl Xn) as [(acc & ->)|[(g' & s' & H)|[(f & fs & files & u & todo & td & Hf & E & Ht)|(f & fs & files & td & es & E & He & Hs)]]].
  - left. pose proof (C53_metrics_always_load compress decompress cs gz _ (list_dirs s) Hr Hg (list_dirs_ok s)) as [[size len] E1]. pose proof (C52_tables_always_load compress decompress cs gz _ (list_dirs s) Hr Hg (list_dirs_ok s)) as [nft E2].
    eexists. apply y_opened. econstructor; [apply list_dirs_ok|exact E1|apply list_dirs_ok|exact E2].
  - left. eexists. by apply y_load.
  - right. destruct g as [acc pc]. cbn in E. subst pc. split; [|left; by exists f, u]. unfold torn_fragment in Ht. apply g_fatal_frag; rewrite Ht; [by eexists|done].
  - right. destruct g as [acc pc]. cbn in E. subst pc. split; [apply g_fatal_ser; by exists es|]. right. exists f, td, es.
    unfold g_wf in Bp. cbn in Bp. destruct Bp as [Bf _]. split; [by apply (g_names_hd _ _ Bf)|]. split; [|done]. cbn in Xg. destruct Xg as (_ & _ & (dn & -> & D) & D1 & D2). destruct Xl as [Xl _]. cbn in Xl.
    intros t d. split; [apply D2|]. rewrite app_nil_r in Xl. intros [H|[u H]]; [by apply D1|]. destruct (D u) as [_ D3]; [|by apply D3]. apply Xl. destruct H as (m & H & _). destruct (fs_files s !! [f; "temp"; u]); [by eexists|done].
Qed.
Print Assumptions C51_opening_outcome.

(** * Cases *)
Definition hasb (m : gmap string set_data) (t d : string) : bool :=
  match m !! t with Some s => match s !! d with Some _ => true | None => false end | None => false end.
Lemma hasb_true m t d : hasb m t d = true -> has m t d.
Proof. unfold hasb. destruct (m !! t) as [s|] eqn:E; [|done]. destruct (s !! d) as [v|] eqn:E2; [|done]. intros _. exists s. split; [done|by eexists]. Qed.
Lemma hasb_false m t d : hasb m t d = false -> ~ has m t d.
Proof. unfold hasb. intros H (s & E & v & E2). by rewrite E, E2 in H. Qed.
Definition indexed : list (bool * act) :=
  [(false, AStart); (false, AOpen); (false, ACall (Save "d1" x_a)); (true, AClient); (true, ARecv); (false, TIndex); (true, AIndex "u1"); (false, TMerge); (true, AMerge)].
Lemma good_log_case log l : calls_of log = l -> Forall (fun c => simple_name (call_doc' c) /\ simple_name (f_name (call_field' c)) /\ f_name (call_field' c) <> "docs") l -> good_log log.
Proof. intros E H c Hc. rewrite E in Hc. rewrite Forall_forall in H. by apply H. Qed.

(** Two saves, one merged and one still in a fragment; quiet; the reopened index. *)
Example C48_case : exists y u u' s', reachable id Some 2 y /\ good_log (y_log y) /\ y_proc y = Up u /\ index_quiet u /\ ~ in_gap (u_mg u) "text" /\
  i_pc (u_iw u) = IIdle /\ m_pc (u_mg u) = MIdle /\
  (exists n, is_Some (fs_files (y_fs y) !! ["text"; "temp"; n])) /\ is_Some (fs_files (y_fs y) !! ["text"; "index"]) /\
  has (disk_get_index (u_mem u) "text") "a" "d1" /\ has (disk_get_index (u_mem u) "text") "b" "d2" /\
  reopen id Some 2 (y_fs y) u' s' /\ has (disk_get_index (u_mem u') "text") "a" "d1" /\ has (disk_get_index (u_mem u') "text") "b" "d2".
Proof.
  destruct (play_obs 2 (indexed ++ [(false, ACall (Save "d2" x_b)); (true, AClient); (true, ARecv); (false, TIndex); (true, AIndex "u2")])
    (fun y => (match y_proc y with Up u => match u_pc u, u_ich u, i_pc (u_iw u), m_pc (u_mg u) with CIdle, [], IIdle, MIdle =>
                   Some (bool_decide (i_buf (u_iw u) = ∅), hasb (disk_get_index (u_mem u) "text") "a" "d1", hasb (disk_get_index (u_mem u) "text") "b" "d2") | _, _, _, _ => None end | _ => None end,
               bool_decide (calls_of (y_log y) = [Save "d1" x_a; Save "d2" x_b]),
               (bool_decide (is_Some (fs_files (y_fs y) !! ["text"; "temp"; "u2"])), bool_decide (is_Some (fs_files (y_fs y) !! ["text"; "index"]))),
               match reopen_exec id Some 2 (y_fs y) with Some (u', _) =>
                 Some (hasb (disk_get_index (u_mem u') "text") "a" "d1", hasb (disk_get_index (u_mem u') "text") "b" "d2") | None => None end))
    (Some (true, true, true), true, (true, true), Some (true, true))) as (y & Hr & H); [vm_compute; reflexivity|].
  apply pair_equal_spec in H as [H H4]. apply pair_equal_spec in H as [H H3]. apply pair_equal_spec in H as [H1 H2]. apply bool_decide_eq_true_1 in H2.
  apply pair_equal_spec in H3 as [H31 H32]. apply bool_decide_eq_true_1 in H31, H32.
  destruct (y_proc y) as [| |u] eqn:E; try discriminate H1. destruct (u_pc u) eqn:E1; try discriminate H1. destruct (u_ich u) eqn:E2; try discriminate H1.
  destruct (i_pc (u_iw u)) eqn:E3; try discriminate H1. destruct (m_pc (u_mg u)) eqn:E4; try discriminate H1. apply (inj Some) in H1. apply pair_equal_spec in H1 as [H1 H13]. apply pair_equal_spec in H1 as [H11 H12].
  apply bool_decide_eq_true_1 in H11. apply hasb_true in H12, H13.
  destruct (reopen_exec id Some 2 (y_fs y)) as [[u' s']|] eqn:E5; [|discriminate H4]. apply (inj Some) in H4. apply pair_equal_spec in H4 as [H41 H42]. apply hasb_true in H41, H42.
  apply reopen_exec_ok in E5. exists y, u, u', s'. split; [done|]. split.
  { apply (good_log_case _ _ H2). repeat constructor; done. }
  split; [done|]. split; [done|]. split; [apply no_gap; by rewrite E4|]. split; [done|]. split; [done|]. split; [by exists "u2"|]. done.
Qed.

(** C50 is tight: a crash between the two renames loses a posting that was saved,
    indexed and merged long before. *)
Theorem C50_gap_crash_refuted : exists y u u' s', reachable id Some 2 y /\ good_log (y_log y) /\ y_proc y = Up u /\ u_pc u = CIdle /\ gap y "text" /\
  calls_of (y_log y) = [Save "d1" x_a] /\ index_quiet u /\ has (disk_get_index (u_mem u) "text") "a" "d1" /\
  sys_step id Some 2 y (mkSys (y_fs y) Down (y_log y ++ [ECrash])) /\ reopen id Some 2 (y_fs y) u' s' /\ forall t d, ~ has (disk_get_index (u_mem u') "text") t d.
Proof.
  destruct (play_obs 2 (indexed ++ (false, TMerge) :: map (fun a => (false, a)) (rep 9 AMerge))
    (fun y => (match y_proc y with Up u => match u_pc u, u_ich u, m_pc (u_mg u) with CIdle, [], MSave "text" _ _ _ _ SSRenameCur =>
                   Some (bool_decide (i_buf (u_iw u) = ∅), hasb (disk_get_index (u_mem u) "text") "a" "d1") | _, _, _ => None end | _ => None end,
               bool_decide (calls_of (y_log y) = [Save "d1" x_a]),
               match reopen_exec id Some 2 (y_fs y) with Some (u', _) => Some (bool_decide (disk_get_index (u_mem u') "text" = ∅)) | None => None end))
    (Some (true, true), true, Some true)) as (y & Hr & H); [vm_compute; reflexivity|].
  apply pair_equal_spec in H as [H H3]. apply pair_equal_spec in H as [H1 H2]. apply bool_decide_eq_true_1 in H2.
  destruct (y_proc y) as [| |u] eqn:E; try discriminate H1. destruct (u_pc u) eqn:E1; try discriminate H1. destruct (u_ich u) eqn:E2; try discriminate H1.
  assert (in_gap (u_mg u) "text" /\ (bool_decide (i_buf (u_iw u) = ∅), hasb (disk_get_index (u_mem u) "text") "a" "d1") = (true, true)) as [Hgap H1'].
  { destruct (m_pc (u_mg u)) as [| | | | | |f fs0 files td b pc| |] eqn:E3; try discriminate H1. destruct pc; try (by repeat (destruct f as [|[[] [] [] [] [] [] [] []] f]; try discriminate H1)).
    destruct (decide (f = "text")) as [->|Hn].
    - split; [by exists fs0, files, td, b|]. by apply (inj Some) in H1.
    - exfalso. repeat (destruct f as [|[[] [] [] [] [] [] [] []] f]; try discriminate H1). done. }
  apply pair_equal_spec in H1' as [H11 H12]. apply bool_decide_eq_true_1 in H11. apply hasb_true in H12.
  destruct (reopen_exec id Some 2 (y_fs y)) as [[u' s']|] eqn:E5; [|discriminate H3]. apply (inj Some), bool_decide_eq_true_1 in H3.
  apply reopen_exec_ok in E5. exists y, u, u', s'. split; [done|]. split.
  { apply (good_log_case _ _ H2). repeat constructor; done. }
  split; [done|]. split; [done|]. split; [unfold gap; by rewrite E|]. split; [done|]. split; [done|]. split; [done|]. split.
  { right. destruct y as [s p log]. cbn in *. subst p. by constructor. }
  split; [done|]. intros t d. rewrite H3, has_empty. tauto.
Qed.
Print Assumptions C50_gap_crash_refuted.

(** C51 is not vacuous: a crash while a fragment is being written.  Saved data of every
    other field becomes unreachable too: the store cannot be opened. *)
Theorem C51_crash_blocks_store : exists y, reachable id Some 2 y /\ good_log (y_log y) /\ y_proc y = Down /\ calls_of (y_log y) = [Save "d1" x_a] /\
  (exists n, torn_fragment (y_fs y) "text" n) /\
  forall y' u, rtc (sys_step id Some 2) y y' -> y_proc y' <> Up u.
Proof.
  destruct (play_obs 2 [(false, AStart); (false, AOpen); (false, ACall (Save "d1" x_a)); (true, AClient); (true, ARecv); (false, TIndex); (false, AIndex "u1"); (false, AIndex "u1"); (false, AIndex "u1"); (false, ACrash)]
    (fun y => (match y_proc y with Down => true | _ => false end, match fs_files (y_fs y) !! ["text"; "temp"; "u1"] with Some Torn => true | _ => false end, bool_decide (calls_of (y_log y) = [Save "d1" x_a])))
    (true, true, true)) as (y & Hr & H); [vm_compute; reflexivity|].
  apply pair_equal_spec in H as [H H3]. apply pair_equal_spec in H as [H1 H2]. apply bool_decide_eq_true_1 in H3.
  destruct (y_proc y) eqn:E; try discriminate H1. assert (torn_fragment (y_fs y) "text" "u1") as Ht.
  { unfold torn_fragment. destruct (fs_files (y_fs y) !! ["text"; "temp"; "u1"]) as [[|b]|]; done. }
  assert (good_log (y_log y)) as Hg. { apply (good_log_case _ _ H3). repeat constructor; done. }
  exists y. split; [done|]. split; [done|]. split; [done|]. split; [done|]. split; [by exists "u1"|]. intros y' u Hy.
  assert (gzip_ok id Some) as gz by done. assert ("text" <> "docs") as Hnd by done.
  by apply (C51_never_opens_again id Some 2 gz y "text" "u1" Hr Hg Hnd E Ht y' Hy).
Qed.
Print Assumptions C51_crash_blocks_store.

(** Without any crash: the background merge reads a fragment that the index writer has
    opened and not yet written, and panics. *)
Theorem C51_merge_race_panics : exists y u, reachable id Some 2 y /\ good_log (y_log y) /\ y_proc y = Up u /\ ECrash ∉ y_log y /\
  u_pc u = CIdle /\ up_fatal Some (u, y_fs y) /\ (exists k ks b n, i_pc (u_iw u) = IWrite k ks b n).
Proof.
  destruct (play_obs 2 [(false, AStart); (false, AOpen); (false, ACall (Save "d1" x_a)); (true, AClient); (true, ARecv); (false, TIndex); (false, AIndex "u1"); (false, AIndex "u1"); (false, AIndex "u1"); (false, TMerge); (true, AMerge)]
    (fun y => (match y_proc y with Up u => match u_pc u, i_pc (u_iw u), m_pc (u_mg u) with CIdle, IWrite _ _ _ _, MFrag f _ _ (n :: _) _ => match fs_files (y_fs y) !! [f; "temp"; n] with Some Torn => true | _ => false end | _, _, _ => false end | _ => false end,
      bool_decide (ECrash ∉ y_log y), bool_decide (calls_of (y_log y) = [Save "d1" x_a])))
    (true, true, true)) as (y & Hr & H); [vm_compute; reflexivity|].
  apply pair_equal_spec in H as [H H3]. apply pair_equal_spec in H as [H1 H2]. apply bool_decide_eq_true_1 in H2, H3.
  destruct (y_proc y) as [| |u] eqn:E; try discriminate H1. destruct (u_pc u) eqn:E1; try discriminate H1. destruct (i_pc (u_iw u)) as [| | | |k ks b n] eqn:E2; try discriminate H1.
  destruct (m_pc (u_mg u)) as [| | | |f fs0 files [|n' todo] td| | | |] eqn:E3; try discriminate H1.
  exists y, u. split; [done|]. split. { apply (good_log_case _ _ H3). repeat constructor; done. } split; [done|]. split; [done|]. split; [done|]. split; [|by exists k, ks, b, n].
  destruct u as [m pc ich mw nw dw iw [acc mpc]]. cbn in *. subst mpc. apply f_merge. destruct (fs_files (y_fs y) !! [f; "temp"; n']) as [[|]|] eqn:E4; try discriminate H1. apply g_fatal_frag; rewrite E4; [by eexists|done].
Qed.
Print Assumptions C51_merge_race_panics.

(** A folder with an index file and a fragment: opening it twice; opening it after an
    opening that stopped with the index file already replaced and the fragment not yet
    deleted. *)
Fixpoint load_k (n : nat) (g : merger) (s : fs) : option (merger * fs) :=
  match n with O => Some (g, s) | S n => r ← g_exec id Some g s; load_k n r.1 r.2 end.
Lemma load_k_ok n : forall g s g' s', load_k n g s = Some (g', s') -> rtc (g_step id Some) (g, s) (g', s').
Proof.
  induction n as [|n IH]; intros g s g' s' H; cbn in H; [injection H as <- <-; constructor|].
  destruct (g_exec id Some g s) as [[g1 s1]|] eqn:E; [|done]. cbn in H. apply g_exec_ok in E. econstructor; [exact E|]. by apply IH.
Qed.
Definition loads_k (n : nat) (s : fs) : option (merger * fs) := s0 ← mkdir_all s []; load_k n (mkM ∅ (MFields (list_dirs s0))) s0.
Lemma loads_k_ok n s g s' : loads_k n s = Some (g, s') -> loads id Some s g s'.
Proof.
  unfold loads_k. intros H. destruct (mkdir_all s []) as [s0|] eqn:E; [|done]. cbn [mbind option_bind] in H. exists s0, (mkM ∅ (MFields (list_dirs s0))).
  split; [done|]. split; [constructor; apply list_dirs_ok|]. by apply (load_k_ok n).
Qed.
Example C49_case : exists y u1 s1 u2 s2 g s' u3 s3, reachable id Some 2 y /\ good_log (y_log y) /\
  reopen id Some 2 (y_fs y) u1 s1 /\ reopen id Some 3 s1 u2 s2 /\ has (disk_get_index (u_mem u2) "text") "b" "d2" /\
  loads id Some (y_fs y) g s' /\ ~ in_gap g "text" /\ is_Some (fs_files s' !! ["text"; "temp"; "u2"]) /\ fs_files s' !! ["text"; "index"] <> fs_files (y_fs y) !! ["text"; "index"] /\
  reopen id Some 3 s' u3 s3 /\ disk_get_index (u_mem u3) "text" = disk_get_index (u_mem u1) "text".
Proof.
  destruct (play_obs 2 (indexed ++ [(false, ACall (Save "d2" x_b)); (true, AClient); (true, ARecv); (false, TIndex); (true, AIndex "u2")])
    (fun y => (bool_decide (calls_of (y_log y) = [Save "d1" x_a; Save "d2" x_b]),
               match reopen_exec id Some 2 (y_fs y) with Some (u1, s1) =>
                 match reopen_exec id Some 3 s1 with Some (u2, s2) => hasb (disk_get_index (u_mem u2) "text") "b" "d2" | None => false end
               | None => false end,
               match loads_k 14 (y_fs y) with Some (g, s') => 
                  match m_pc g, reopen_exec id Some 3 s' with
                  | MDel _ _ _ _, Some _ => bool_decide (is_Some (fs_files s' !! ["text"; "temp"; "u2"])) && bool_decide (fs_files s' !! ["text"; "index"] <> fs_files (y_fs y) !! ["text"; "index"])
                  | _, _ => false end | None => false end))
    (true, true, true)) as (y & Hr & H); [vm_compute; reflexivity|].
  apply pair_equal_spec in H as [H H3]. apply pair_equal_spec in H as [H1 H2]. apply bool_decide_eq_true_1 in H1.
  destruct (reopen_exec id Some 2 (y_fs y)) as [[u1 s1]|] eqn:E1; [|done]. destruct (reopen_exec id Some 3 s1) as [[u2 s2]|] eqn:E2; [|done]. apply hasb_true in H2.
  destruct (loads_k 14 (y_fs y)) as [[g s']|] eqn:E3; [|done]. destruct (m_pc g) eqn:E4; try discriminate H3. destruct (reopen_exec id Some 3 s') as [[u3 s3]|] eqn:E5; [|done].
  apply andb_true_iff in H3 as [H31 H32]. apply bool_decide_eq_true_1 in H31, H32. apply reopen_exec_ok in E1, E2, E5. apply loads_k_ok in E3.
  assert (good_log (y_log y)) as Hg. { apply (good_log_case _ _ H1). repeat constructor; done. }
  assert (~ in_gap g "text") as Hgap by (apply no_gap; by rewrite E4).
  assert (gzip_ok id Some) as gz by done. assert ("text" <> "docs") as Hnd by done.
  exists y, u1, s1, u2, s2, g, s', u3, s3. do 9 (split; [done|]). split; [done|].
  by apply (C49_interrupted_load id Some 2 gz y g s' 2 3 u1 s1 u3 s3 Hr Hg E3 E1 E5 "text" Hnd Hgap).
Qed.
