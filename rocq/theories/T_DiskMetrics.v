(** C53: field sizes and lengths survive a flush and reopen. *)
From Verif Require Import Base M_Field M_LRU S_Visits M_Memory M_File M_Serialize M_Disk P_Base S_Disk P_DiskBase P_DiskInv P_DiskWriter P_DiskMetrics X_DiskExec.
#[local] Open Scope Z_scope.
#[local] Opaque serialize_metrics deserialize_metrics serialize_nft deserialize_nft serialize_field_map deserialize_field_map serialize_index deserialize_index.

(** In every reachable state, for every field without an update waiting in the metrics
    writer's buffer or about to be sent to it: a crash now and a reopening give the
    size and length of the running store, reduced to 32 bits. *)
Theorem C53_metrics_survive : forall compress decompress cache_size, gzip_ok compress decompress ->
  forall y u f, reachable compress decompress cache_size y -> good_log (y_log y) -> y_proc y = Up u -> f <> "docs" ->
  (forall d x, u_pc u = CFieldSend d x -> f_name x <> f) -> w_buf (u_mw u) !! f = None ->
  forall cache_size' u' s', reopen compress decompress cache_size' (y_fs y) u' s' ->
    disk_get_size (u_mem u') f = wrap32 (disk_get_size (u_mem u) f) /\ disk_get_length (u_mem u') f = wrap32 (disk_get_length (u_mem u) f).
Proof.
  intros compress decompress cs gz y u f Hr Hg Hu Hf Hpc Hb cs' u' s' (acc & Hl & Ho).
  destruct (m_inv_reach _ _ cs gz y Hr Hg) as [[By _] [Hv Hi]]. rewrite Hu in Hi. destruct Hi as [_ Hi].
  destruct (loads_frame _ _ _ _ _ By Hl) as (L1 & L2 & L3 & L4).
  assert (keeps OM (y_fs y) s') as HK by (intros p Hp; apply L4; congruence).
  assert (m_valid compress s') as Hv' by (by eapply m_valid_keeps).
  assert (~ m_stale (u_pc u) f) as Hst. { unfold m_stale. destruct (u_pc u); try tauto. by eapply Hpc. }
  specialize (Hi f Hf Hst). rewrite Hb in Hi.
  assert (m_disk compress s' f (m_cur (u_mem u) f)) as Hd. { unfold m_disk in *. rewrite (HK [f; "metrics"]); [done|]. by apply owner_m. }
  inversion Ho; subst. match goal with G1 : lists_dirs _ _ ?n1, G2 : load_metrics _ _ ?n1 = _ |- _ => destruct (load_metrics_spec _ _ gz s' n1 _ _ L1 Hv' G1 G2 f Hf) as [_ G0] end.
  specialize (G0 _ Hd). unfold m_cur in G0. cbn [fst snd] in G0. injection G0 as E1 E2. unfold disk_get_size, disk_get_length. cbn. done.
Qed.
Print Assumptions C53_metrics_survive.

(** When the writer has just gone through its buffer, nothing is left in it. *)
Theorem C53_flush_complete : forall compress decompress cache_size y u, reachable compress decompress cache_size y -> y_proc y = Up u ->
  w_pc (u_mw u) = WLoop [] -> w_buf (u_mw u) = ∅.
Proof.
  intros compress decompress cs y u Hr Hu Hp. pose proof (full_reach _ _ _ _ Hr) as H. unfold full_inv in H. rewrite Hu in H. destruct H as (H & _).
  unfold w_full in H. rewrite Hp in H. apply map_empty. intros k. apply eq_None_not_Some. intros Hs. apply H in Hs. by apply elem_of_nil in Hs.
Qed.
Print Assumptions C53_flush_complete.
(** Opening never fails because of the metrics files, whatever crashes happened. *)
Theorem C53_metrics_always_load : forall compress decompress cache_size, gzip_ok compress decompress ->
  forall y ns, reachable compress decompress cache_size y -> good_log (y_log y) -> lists_dirs (y_fs y) [] ns ->
  is_Some (load_metrics decompress (y_fs y) ns).
Proof.
  intros compress decompress cs gz y ns Hr Hg [Hn Hm]. destruct (m_inv_reach _ _ cs gz y Hr Hg) as [[By _] [Hv _]].
  assert (Forall nd ns) as Hnd. { apply Forall_forall. intros n Hin. by apply Hm in Hin as [_ ?]. }
  unfold load_metrics. clear Hm Hn. generalize (∅ : gmap string Z) at 1 as size. generalize (∅ : gmap string Z) as len.
  induction Hnd as [|n ns Hd _ IH]; intros len size; [by eexists|]. cbn [fold_left]. unfold load_metric at 2.
  assert ([n; "metrics"] ∉ fs_dirs (y_fs y)) as Hnd'. { apply layout_not_dir; [done|]. destruct (owner_m n Hd) as [E _]. by eexists. }
  destruct (fs_files (y_fs y) !! [n; "metrics"]) as [c|] eqn:Ec.
  - assert (exists_path (y_fs y) [n; "metrics"] = true) as ->.
    { unfold exists_path, is_file. rewrite Ec. rewrite bool_decide_true by by eexists. done. }
    destruct (Hv n c Hd Ec) as [v Hcv]. destruct (m_holds_load _ _ gz n c v Hcv) as (b & -> & Eb).
    destruct (decompress b) as [T|]; [|discriminate Eb]. cbn in Eb |- *. rewrite Eb. cbn. apply IH.
  - assert (exists_path (y_fs y) [n; "metrics"] = false) as ->.
    { unfold exists_path, is_file. rewrite Ec. rewrite bool_decide_false by (by intros [? ?]). by rewrite P_File.is_dir_false. }
    apply IH.
Qed.
Print Assumptions C53_metrics_always_load.

Definition x_ab : field := mkField "text" (2 ^ 31 + 3) {["a" := 2; "b" := 1]}.
Definition x_c : field := mkField "title" 1 {["c" := 1]}.
Example C53_case : exists y u u' s', reachable id Some 2 y /\ y_proc y = Up u /\ calls_of (y_log y) = [Save "d1" x_ab; Save "d2" x_c; Save "d2" x_ab] /\
  u_pc u = CIdle /\ w_buf (u_mw u) !! "text" = None /\ reopen id Some 2 (y_fs y) u' s' /\
  disk_get_length (u_mem u) "text" = 2 ^ 32 + 6 /\ disk_get_length (u_mem u') "text" = 6 /\ disk_get_size (u_mem u') "text" = 2 /\ disk_get_size (u_mem u') "title" = 1.
Proof.
  destruct (play_obs 2 [(false, AStart); (false, AOpen); (false, ACall (Save "d1" x_ab)); (true, AClient); (false, ACall (Save "d2" x_c)); (true, AClient);
      (true, ARecv); (false, TMetrics); (true, AMetrics); (false, ACall (Save "d2" x_ab)); (true, AClient); (false, TMetrics); (true, AMetrics)]
    (fun y => (match y_proc y with Up u => match u_pc u with CIdle => Some (w_buf (u_mw u) !! "text", disk_get_length (u_mem u) "text") | _ => None end | _ => None end,
               bool_decide (calls_of (y_log y) = [Save "d1" x_ab; Save "d2" x_c; Save "d2" x_ab]),
               match reopen_exec id Some 2 (y_fs y) with Some (u', _) => Some (disk_get_length (u_mem u') "text", disk_get_size (u_mem u') "text", disk_get_size (u_mem u') "title") | None => None end))
    (Some (None, 2 ^ 32 + 6), true, Some (6, 2, 1))) as (y & Hr & H); [vm_compute; reflexivity|].
  apply pair_equal_spec in H as [H H3]. apply pair_equal_spec in H as [H1 H2]. apply bool_decide_eq_true_1 in H2.
  destruct (y_proc y) as [| |u] eqn:E; try discriminate H1. destruct (u_pc u) eqn:E1; try discriminate H1. apply (inj Some) in H1. apply pair_equal_spec in H1 as [H11 H12].
  destruct (reopen_exec id Some 2 (y_fs y)) as [[u' s']|] eqn:E2; [|discriminate H3]. apply (inj Some) in H3. apply pair_equal_spec in H3 as [H3 H33]. apply pair_equal_spec in H3 as [H31 H32].
  apply reopen_exec_ok in E2. exists y, u, u', s'. do 9 (split; [done|]). done.
Qed.
(** The exception: a field called docs is never read back. *)
Definition x_docs : field := mkField "docs" 2 {["a" := 2]}.
Theorem C53_docs_field_refuted : exists y u u' s', reachable id Some 2 y /\ y_proc y = Up u /\ u_pc u = CIdle /\ w_buf (u_mw u) = ∅ /\
  reopen id Some 2 (y_fs y) u' s' /\ is_Some (fs_files (y_fs y) !! ["docs"; "metrics"]) /\ disk_get_size (u_mem u) "docs" = 1 /\ disk_get_size (u_mem u') "docs" = 0.
Proof.
  destruct (play_obs 2 [(false, AStart); (false, AOpen); (false, ACall (Save "d1" x_docs)); (true, AClient); (false, TMetrics); (true, AMetrics)]
    (fun y => (match y_proc y with Up u => match u_pc u with CIdle => Some (bool_decide (w_buf (u_mw u) = ∅), disk_get_size (u_mem u) "docs") | _ => None end | _ => None end,
               bool_decide (is_Some (fs_files (y_fs y) !! ["docs"; "metrics"])),
               match reopen_exec id Some 2 (y_fs y) with Some (u', _) => Some (disk_get_size (u_mem u') "docs") | None => None end))
    (Some (true, 1), true, Some 0)) as (y & Hr & H); [vm_compute; reflexivity|].
  apply pair_equal_spec in H as [H H3]. apply pair_equal_spec in H as [H1 H2]. apply bool_decide_eq_true_1 in H2.
  destruct (y_proc y) as [| |u] eqn:E; try discriminate H1. destruct (u_pc u) eqn:E1; try discriminate H1. apply (inj Some) in H1. apply pair_equal_spec in H1 as [H11 H12].
  apply bool_decide_eq_true_1 in H11.
  destruct (reopen_exec id Some 2 (y_fs y)) as [[u' s']|] eqn:E2; [|discriminate H3]. apply (inj Some) in H3.
  apply reopen_exec_ok in E2. exists y, u, u', s'. do 7 (split; [done|]). done.
Qed.
Print Assumptions C53_docs_field_refuted.
