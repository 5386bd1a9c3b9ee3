(** C66: concurrent saves on the disk storage: the document frequencies. *)
From Verif Require Import Base M_Field M_LRU S_Visits M_Memory M_File M_Serialize M_Num M_FanIn M_Search M_Concurrent M_SearchConc M_Disk P_Base P_File S_Memory S_Concurrent P_Concurrent P_Concurrent2 P_DiskBase P_DiskInv P_DiskMem P_DiskWriter P_DiskNft M_DiskBusy M_DiskMulti P_DiskIndex3 P_DiskIndex4 X_DiskExec T_DiskMetrics T_DiskNft T_DiskIndex S_Disk S_DiskMulti S_DiskMulti2 P_DiskMulti P_DiskMulti2 P_DiskMulti3 P_DiskMulti8 P_DiskMulti9 X_DiskMulti T_DiskMulti T_DiskMulti2.
#[local] Open Scope Z_scope.
#[local] Opaque serialize_metrics deserialize_metrics serialize_nft deserialize_nft serialize_field_map deserialize_field_map serialize_index deserialize_index.

(** Whatever the interleaving of the saves, and after any crashes and reopenings: the
    document frequency of a term never exceeds the number of saves with it, neither in
    memory nor when the folder is opened again. *)
Theorem C66_frequencies : forall compress decompress cache_size, gzip_ok compress decompress ->
  forall a f t, multi_reachable compress decompress cache_size a -> good_log (mu_log a) -> f <> "docs" -> times_term f t (mu_log a) < 2 ^ 31 ->
  (forall u, mu_open a u -> exists n, mem_get_nft (view (mu_sh a)) f [t] = {[t := n]} /\ 0 <= n <= times_term f t (mu_log a)) /\
  (forall cache_size' u' s', reopen compress decompress cache_size' (y_fs (mu_sys a)) u' s' -> exists n, disk_get_nft (u_mem u') f [t] = {[t := n]} /\ 0 <= n <= times_term f t (mu_log a)).
Proof.
  intros compress decompress cs gz a f t R Hg Hf Hm. destruct (n_reach compress decompress cs gz a R Hg) as [[[By _] _] (He & H)]. unfold mu_log in *. split.
  - intros u Hu. unfold mu_open in Hu. rewrite Hu in H. destruct H as [_ _ (on & O & K & _)]. destruct (K f t Hf Hm) as [K0 K1 _]. assert (0 <= tsum (pn f t) (mu_threads a)) by (apply tsum_pos; intros; apply pn_pos).
    eexists. split; [reflexivity|]. cbn [mm_nft view]. rewrite lookup_fmap. destruct (k_nft (mu_sh a) !! f) as [l|] eqn:El; cbn.
    + specialize (K1 l (no_idx _ _ _ O _ _ El)). lia.
    + change (geti ∅ t) with 0. unfold times_term, count. lia.
  - intros cs' u' s' (acc & Hl & Ho). destruct (loads_frame _ _ _ _ _ By Hl) as (L1 & L2 & L3 & L4).
    assert (keeps ON (y_fs (mu_sys a)) s') as HK by (intros p Hp; apply L4; congruence).
    inversion Ho; subst. match goal with G1 : lists_dirs _ _ ?n1, G2 : load_nft _ _ ?n1 = _ |- _ => pose proof (nft_loaded compress decompress gz s' n1 _ _ f t L1 (nfile_keeps _ _ _ _ HK He) G1 G2 Hf Hm) as G0 end.
    eexists. split; [reflexivity|]. exact G0.
Qed.
Print Assumptions C66_frequencies.

(** Opening never fails because of the document-frequency files. *)
Theorem C66_tables_always_load : forall compress decompress cache_size, gzip_ok compress decompress ->
  forall a ns, multi_reachable compress decompress cache_size a -> good_log (mu_log a) -> lists_dirs (y_fs (mu_sys a)) [] ns ->
  is_Some (load_nft decompress (y_fs (mu_sys a)) ns).
Proof.
  intros compress decompress cs gz a ns R Hg [Hn Hm]. destruct (n_reach compress decompress cs gz a R Hg) as [[[By _] _] (He & _)]. apply nfile_valid in He. set (s := y_fs (mu_sys a)) in *.
  assert (Forall nd ns) as Hnd. { apply Forall_forall. intros n Hin. by apply Hm in Hin as [_ ?]. }
  unfold load_nft. clear Hm Hn. generalize (∅ : gmap string (gmap string Z)) as nft.
  induction Hnd as [|n ns Hd _ IH]; intros nft; [by eexists|]. cbn [fold_left]. unfold load_nft1 at 2.
  assert ([n; "nfterm"] ∉ fs_dirs s) as Hnd'. { apply layout_not_dir; [done|]. destruct (owner_n n Hd) as [E _]. by eexists. }
  destruct (fs_files s !! [n; "nfterm"]) as [c|] eqn:Ec.
  - assert (exists_path s [n; "nfterm"] = true) as ->.
    { unfold exists_path, is_file. rewrite Ec. rewrite bool_decide_true by by eexists. done. }
    destruct (He n c Hd Ec) as [v Hcv]. destruct (n_holds_load compress n c v Hcv) as (T & -> & Eb).
    rewrite gz. cbn. rewrite Eb. cbn. apply IH.
  - assert (exists_path s [n; "nfterm"] = false) as ->.
    { unfold exists_path, is_file. rewrite Ec. rewrite bool_decide_false by (by intros [? ?]). by rewrite P_File.is_dir_false. }
    apply IH.
Qed.
Print Assumptions C66_tables_always_load.

(** Two saves with the same term at once, flushed: the reopened store counts two documents. *)
Definition run_twice : list (bool * mact) := mopen ++ [(false, MReq [Save "d1" x_a]); (false, MReq [Save "d2" x_a]); (false, MCall 0); (false, MCall 1); (true, MStep 0); (true, MStep 1)] ++ ms [(true, ARecv); (false, X_DiskExec.TNft); (true, ANft)].
Example C66_frequencies_case : exists a u u' s', multi_reachable id Some 2 a /\ good_log (mu_log a) /\ mu_open a u /\ served a /\ times_term "text" "a" (mu_log a) = 2 /\
  reopen id Some 2 (y_fs (mu_sys a)) u' s' /\ disk_get_nft (u_mem u') "text" ["a"] = {["a" := 2]}.
Proof.
  destruct (mplay_obs 2 run_twice
    (fun a => (match y_proc (mu_sys a) with Up u => true | _ => false end,
               bool_decide (calls_of (mu_log a) = [Save "d1" x_a; Save "d2" x_a]), servedb a,
               match reopen_exec id Some 2 (y_fs (mu_sys a)) with Some (u', _) => Some (bool_decide (disk_get_nft (u_mem u') "text" ["a"] = {["a" := 2]})) | None => None end))
    (true, true, true, Some true)) as (a & Hr & H); [vm_compute; reflexivity|].
  apply pair_equal_spec in H as [H H4]. apply pair_equal_spec in H as [H H3]. apply pair_equal_spec in H as [H1 H2].
  apply bool_decide_eq_true_1 in H2. apply servedb_ok in H3.
  destruct (y_proc (mu_sys a)) as [| |u] eqn:E; try discriminate H1.
  destruct (reopen_exec id Some 2 (y_fs (mu_sys a))) as [[u' s']|] eqn:E5; [|discriminate H4]. apply (inj Some), bool_decide_eq_true_1 in H4. apply reopen_exec_ok in E5.
  exists a, u, u', s'. split; [done|]. split; [apply (good_log_case _ _ H2); repeat constructor; done|]. split; [done|]. split; [done|]. split; [unfold times_term; by rewrite H2|]. done.
Qed.
