(** C66: concurrent saves on the disk storage: the counters on disk. *)
From Verif Require Import Base M_Field M_LRU S_Visits M_Memory M_File M_Serialize M_Num M_FanIn M_Search M_Concurrent M_SearchConc M_Disk P_Base P_File S_Memory S_Concurrent P_Concurrent P_Concurrent2 P_DiskBase P_DiskInv P_DiskMem P_DiskWriter P_DiskMetrics M_DiskBusy M_DiskMulti P_DiskIndex3 P_DiskIndex4 X_DiskExec T_DiskMetrics T_DiskNft T_DiskIndex S_Disk S_DiskMulti S_DiskMulti2 P_DiskMulti P_DiskMulti2 P_DiskMulti3 P_DiskMulti8 X_DiskMulti T_DiskMulti T_DiskMulti2.
#[local] Open Scope Z_scope.
#[local] Opaque serialize_metrics deserialize_metrics serialize_nft deserialize_nft serialize_field_map deserialize_field_map serialize_index deserialize_index.

(** What a reopening reads for a field. *)
Lemma reread compress decompress cache_size cache_size' a f u' s' : gzip_ok compress decompress -> multi_reachable compress decompress cache_size a -> good_log (mu_log a) -> f <> "docs" -> moderate f (mu_log a) ->
  reopen compress decompress cache_size' (y_fs (mu_sys a)) u' s' ->
  match fs_files (y_fs (mu_sys a)) !! [f; "metrics"] with
  | Some _ => in_est (times_saved f (mu_log a)) (length_saved f (mu_log a)) (disk_get_size (u_mem u') f, disk_get_length (u_mem u') f)
  | None => disk_get_size (u_mem u') f = 0 /\ disk_get_length (u_mem u') f = 0
  end.
Proof.
  intros gz R Hg Hf Hm (acc & Hl & Ho). destruct (e_reach compress decompress cache_size gz a R Hg) as [[[By _] _] (Hv & He & _)].
  destruct (loads_frame _ _ _ _ _ By Hl) as (L1 & L2 & L3 & L4).
  assert (keeps OM (y_fs (mu_sys a)) s') as HK by (intros p Hp; apply L4; congruence).
  assert (m_valid compress s') as Hv' by (by eapply m_valid_keeps).
  inversion Ho; subst. match goal with G1 : lists_dirs _ _ ?n1, G2 : load_metrics _ _ ?n1 = _ |- _ => destruct (load_metrics_spec _ _ gz s' n1 _ _ L1 Hv' G1 G2 f Hf) as [_ G0] end.
  unfold disk_get_size, disk_get_length. cbn [u_mem c_size c_length]. unfold m_disk in G0. rewrite (HK [f; "metrics"]) in G0 by (by apply owner_m).
  destruct (fs_files (y_fs (mu_sys a)) !! [f; "metrics"]) as [c|] eqn:Ec.
  - destruct (He f c Hf Hm Ec) as (v & V1 & V2 & V3). specialize (G0 v V1). injection G0 as -> ->. pose proof Hm as (_ & W1 & W2). unfold mu_log in *. rewrite !wrap32_id by (unfold int32_range; lia). split; cbn; lia.
  - specialize (G0 (0, 0) eq_refl). injection G0 as -> ->. done.
Qed.
Lemma length_saved_pos f log : moderate f log -> 0 <= length_saved f log.
Proof. intros (H & _). apply zsum_pos. intros z Hz. apply elem_of_list_fmap in Hz as (c & -> & Hc). by apply H. Qed.

(** Whatever the interleaving of the saves, and after any crashes and reopenings: the number
    of documents of a field and its total length never exceed what was saved, neither in
    memory nor when the folder is opened again. *)
Theorem C66_metrics_bounds : forall compress decompress cache_size, gzip_ok compress decompress ->
  forall a f, multi_reachable compress decompress cache_size a -> good_log (mu_log a) -> f <> "docs" -> moderate f (mu_log a) ->
  (forall u, mu_open a u -> 0 <= mem_get_size (view (mu_sh a)) f <= times_saved f (mu_log a) /\ 0 <= mem_get_length (view (mu_sh a)) f <= length_saved f (mu_log a)) /\
  (forall cache_size' u' s', reopen compress decompress cache_size' (y_fs (mu_sys a)) u' s' ->
     0 <= disk_get_size (u_mem u') f <= times_saved f (mu_log a) /\ 0 <= disk_get_length (u_mem u') f <= length_saved f (mu_log a)).
Proof.
  intros compress decompress cs gz a f R Hg Hf Hm. split.
  - intros u Hu. destruct (e_reach compress decompress cs gz a R Hg) as [_ (_ & _ & H)]. unfold mu_open in Hu. rewrite Hu in H. destruct H as [_ _ H _]. specialize (H f Hf Hm). destruct (tm_tot _ _ _ _ _ H) as [T1 T2]. destruct H as [T3 T4 _].
    unfold mem_get_size, mem_get_length, mu_log. cbn [mm_size mm_length view]. lia.
  - intros cs' u' s' Ho. pose proof (reread _ _ _ _ _ _ _ _ gz R Hg Hf Hm Ho) as H. pose proof (length_saved_pos _ _ Hm). destruct (_ !! _); [destruct H as [H1 H2]; cbn in *; lia|]. destruct H as [-> ->]. unfold times_saved. lia.
Qed.
Print Assumptions C66_metrics_bounds.

(** When every request has been served and the metrics writer has nothing left to write for
    the field: if it was saved since the store was opened, the reopened store counts at
    least one document. *)
Theorem C66_metrics_durable : forall compress decompress cache_size, gzip_ok compress decompress ->
  forall a u l1 l2 d x, multi_reachable compress decompress cache_size a -> good_log (mu_log a) -> mu_open a u -> served a ->
  mu_log a = l1 ++ EOpened :: l2 -> EOpened ∉ l2 -> Save d x ∈ calls_of l2 -> f_name x <> "docs" -> moderate (f_name x) (mu_log a) -> w_buf (u_mw u) !! f_name x = None ->
  forall cache_size' u' s', reopen compress decompress cache_size' (y_fs (mu_sys a)) u' s' -> 1 <= disk_get_size (u_mem u') (f_name x).
Proof.
  intros compress decompress cs gz a u l1 l2 d x R Hg Hu Hs El Hn Hc Hx Hm Hb cs' u' s' Ho. pose proof (reread _ _ _ _ _ _ _ _ gz R Hg Hx Hm Ho) as H.
  destruct (e_reach compress decompress cs gz a R Hg) as [_ (_ & _ & E)]. unfold mu_open in Hu. rewrite Hu in E. destruct E as [_ _ _ (k1 & k2 & Ek & Hk & K)]. unfold mu_log in El. rewrite El in Ek.
  assert (k2 = l2) as -> by (by apply (session_eq _ _ _ _ Ek)).
  destruct (K d x Hx Hc) as [[v Hv]|[[c Hc']|(th & T1 & T2)]].
  - rewrite Hb in Hv. discriminate Hv.
  - rewrite Hc' in H. destruct H as [[H _] _]. exact H.
  - rewrite (Hs th T1) in T2. done.
Qed.
Print Assumptions C66_metrics_durable.

(** Opening never fails because of the metrics files. *)
Theorem C66_metrics_always_load : forall compress decompress cache_size, gzip_ok compress decompress ->
  forall a ns, multi_reachable compress decompress cache_size a -> good_log (mu_log a) -> lists_dirs (y_fs (mu_sys a)) [] ns ->
  is_Some (load_metrics decompress (y_fs (mu_sys a)) ns).
Proof.
  intros compress decompress cs gz a ns R Hg [Hn Hm]. destruct (e_reach compress decompress cs gz a R Hg) as [[[By _] _] (Hv & _)]. set (s := y_fs (mu_sys a)) in *.
  assert (Forall nd ns) as Hnd. { apply Forall_forall. intros n Hin. by apply Hm in Hin as [_ ?]. }
  unfold load_metrics. clear Hm Hn. generalize (∅ : gmap string Z) at 1 as size. generalize (∅ : gmap string Z) as len.
  induction Hnd as [|n ns Hd _ IH]; intros len size; [by eexists|]. cbn [fold_left]. unfold load_metric at 2.
  assert ([n; "metrics"] ∉ fs_dirs s) as Hnd'. { apply layout_not_dir; [done|]. destruct (owner_m n Hd) as [E _]. by eexists. }
  destruct (fs_files s !! [n; "metrics"]) as [c|] eqn:Ec.
  - assert (exists_path s [n; "metrics"] = true) as ->.
    { unfold exists_path, is_file. rewrite Ec. rewrite bool_decide_true by by eexists. done. }
    destruct (Hv n c Hd Ec) as [v Hcv]. destruct (m_holds_load _ _ gz n c v Hcv) as (b & -> & Eb).
    destruct (decompress b) as [T|]; [|discriminate Eb]. cbn in Eb |- *. rewrite Eb. cbn. apply IH.
  - assert (exists_path s [n; "metrics"] = false) as ->.
    { unfold exists_path, is_file. rewrite Ec. rewrite bool_decide_false by (by intros [? ?]). by rewrite P_File.is_dir_false. }
    apply IH.
Qed.
Print Assumptions C66_metrics_always_load.

(** The state of C66_stale_metrics meets the hypotheses: two saves, and one document
    counted after the restart. *)
Example C66_metrics_case : exists a u u' s' l2, multi_reachable id Some 2 a /\ good_log (mu_log a) /\ mu_open a u /\ served a /\ w_buf (u_mw u) !! "text" = None /\ moderate "text" (mu_log a) /\ times_saved "text" (mu_log a) = 2 /\
  mu_log a = [EOpened] ++ l2 /\ EOpened ∉ l2 /\ Save "d1" x_a ∈ calls_of l2 /\ reopen id Some 2 (y_fs (mu_sys a)) u' s' /\ disk_get_size (u_mem u') "text" = 1.
Proof.
  destruct (mplay_obs 2 run_stale
    (fun a => (match y_proc (mu_sys a) with Up u => match w_pc (u_mw u) with WIdle => Some (bool_decide (w_buf (u_mw u) = ∅)) | _ => None end | _ => None end,
               bool_decide (calls_of (mu_log a) = [Save "d1" x_a; Save "d2" x_b]), servedb a,
               match mu_log a with EOpened :: l2 => forallb (fun e => match e with EOpened => false | _ => true end) l2 | _ => false end,
               match reopen_exec id Some 2 (y_fs (mu_sys a)) with Some (u', _) => Some (disk_get_size (u_mem u') "text") | None => None end))
    (Some true, true, true, true, Some 1)) as (a & Hr & H); [vm_compute; reflexivity|].
  apply pair_equal_spec in H as [H H5]. apply pair_equal_spec in H as [H H4]. apply pair_equal_spec in H as [H H3]. apply pair_equal_spec in H as [H1 H2].
  apply bool_decide_eq_true_1 in H2. apply servedb_ok in H3.
  destruct (y_proc (mu_sys a)) as [| |u] eqn:E; try discriminate H1. destruct (u_mw u) as [buf pc] eqn:E2. cbn in H1. destruct pc; try discriminate H1. apply (inj Some), bool_decide_eq_true_1 in H1.
  destruct (reopen_exec id Some 2 (y_fs (mu_sys a))) as [[u' s']|] eqn:E5; [|discriminate H5]. apply (inj Some) in H5. apply reopen_exec_ok in E5.
  destruct (mu_log a) as [|[] l2] eqn:El; try discriminate H4.
  exists a, u, u', s', l2. split; [done|]. rewrite El. split; [apply (good_log_case _ _ H2); repeat constructor; done|]. split; [done|]. split; [done|]. rewrite E2. subst buf. split; [done|].
  split; [unfold moderate, times_saved, length_saved; rewrite H2; split; [|done]; intros c Hc; apply elem_of_list_In in Hc; cbn in Hc; destruct Hc as [<-|[<-|[]]]; done|].
  split; [unfold times_saved; by rewrite H2|]. split; [done|]. split; [intros Hin; rewrite forallb_forall in H4; apply elem_of_list_In in Hin; by specialize (H4 _ Hin)|].
  split; [|done]. change (calls_of (EOpened :: l2)) with (calls_of l2) in H2. rewrite H2. by left.
Qed.
