(** C52: the document frequencies kept on disk. *)
From Verif Require Import Base M_Field M_LRU S_Visits M_Memory M_File M_Serialize M_Disk P_Base S_Disk P_DiskBase P_DiskInv P_DiskWriter P_DiskNft X_DiskExec.
#[local] Open Scope Z_scope.
#[local] Opaque serialize_metrics deserialize_metrics serialize_nft deserialize_nft serialize_field_map deserialize_field_map serialize_index deserialize_index.

Lemma get_nft_one m f t : disk_get_nft m f [t] = {[t := geti (table m f) t]}.
Proof. reflexivity. Qed.
Lemma get_nft_one_inj (m1 : cmem) f t n : disk_get_nft m1 f [t] = {[t := n]} <-> geti (table m1 f) t = n.
Proof. rewrite get_nft_one. split; [|by intros ->]. intros E. apply (f_equal (lookup t)) in E. rewrite !lookup_singleton in E. by injection E. Qed.

Lemma reopen_table compress decompress cs (gz : gzip_ok compress decompress) y f : reachable compress decompress cs y -> good_log (y_log y) -> f <> "docs" ->
  forall cs' u' s', reopen compress decompress cs' (y_fs y) u' s' -> n_read compress (y_fs y) f (table (u_mem u') f).
Proof.
  intros Hr Hg Hf cs' u' s' (acc & Hl & Ho). destruct (n_inv_reach _ _ cs gz y Hr Hg) as [[By _] [Hv _]].
  destruct (loads_frame _ _ _ _ _ By Hl) as (L1 & L2 & L3 & L4).
  assert (keeps ON (y_fs y) s') as HK by (intros p Hp; apply L4; congruence).
  assert (n_valid compress s') as Hv' by (by eapply n_valid_keeps).
  inversion Ho; subst. match goal with G1 : lists_dirs _ _ ?n1, G2 : load_nft _ _ ?n1 = _ |- _ => pose proof (load_nft_spec _ _ gz s' n1 _ L1 Hv' G1 G2 f Hf) as G0 end.
  unfold n_read in *. rewrite <- (HK [f; "nfterm"]); [|by apply owner_n]. exact G0.
Qed.
Lemma flushed_table compress decompress cs (gz : gzip_ok compress decompress) y u f l1 l2 : reachable compress decompress cs y -> good_log (y_log y) -> y_proc y = Up u -> f <> "docs" ->
  y_log y = l1 ++ ENftSaved f :: l2 -> EOpened ∉ l2 -> ENftSaved f ∉ l2 -> ~ saving (u_nw u) f ->
  forall cs' u' s', reopen compress decompress cs' (y_fs y) u' s' -> table (u_mem u') f = wrap32 <$> nft_since f l1.
Proof.
  intros Hr Hg Hu Hf Hl H1 H2 Hs cs' u' s' Ho. pose proof (reopen_table _ _ _ gz y f Hr Hg Hf _ _ _ Ho) as HR.
  destruct (n_inv_reach _ _ cs gz y Hr Hg) as [_ [_ Hi]]. rewrite Hu in Hi. destruct Hi as [_ _ _ Hd _ _ _ _].
  specialize (Hd f (nft_since f l1) Hf). rewrite Hl, nft_disk_split in Hd by done. destruct (Hd eq_refl Hs) as (c & Hc & Hh).
  destruct (n_holds_load compress f c _ Hh) as (T & -> & ET). apply (n_read_fun compress decompress gz (y_fs y) f); [done|]. unfold n_read. rewrite Hc. eauto.
Qed.
Lemma since_last f t log n : nft_since f log !! t = Some n -> nft_last f t log = Some n.
Proof.
  revert n. induction log as [|e log IH] using rev_ind; intros n H; [done|]. rewrite nft_since_snoc in H. rewrite nft_last_snoc. destruct e; cbn in *; auto.
  - destruct (decide (f0 = f)) as [->|Hne]; [|rewrite decide_False by tauto; auto].
    destruct (decide (t0 = t)) as [->|Hne]; [rewrite lookup_insert in H; by rewrite decide_True by done|]. rewrite lookup_insert_ne in H by done.
    rewrite decide_False by tauto. auto.
  - destruct (decide (f0 = f)); [change ((∅ : gmap string Z) !! t = Some n) in H; by rewrite lookup_empty in H|]. auto.
Qed.
Lemma last_quiet f t l1 l2 : EOpened ∉ l2 -> (forall t n, ENft f t n ∉ l2) -> nft_last f t (l1 ++ l2) = nft_last f t l1.
Proof.
  induction l2 as [|e l2 IH] using rev_ind; intros H1 H2; [by rewrite app_nil_r|]. rewrite elem_of_app, elem_of_list_singleton in H1.
  assert (forall t n, ENft f t n ∉ l2 /\ ENft f t n <> e) as H3. { intros t' n. specialize (H2 t' n). rewrite elem_of_app, elem_of_list_singleton in H2. tauto. }
  rewrite app_assoc, nft_last_snoc, IH; [|tauto|intros t' n; by destruct (H3 t' n)]. destruct e; cbn; try done; [tauto|].
  destruct (decide (f0 = f /\ t0 = t)) as [[-> ->]|]; [|done]. by destruct (H3 t n).
Qed.

(** After the writer has replaced the file of a field, and until it replaces it again,
    the folder gives back exactly the terms received since the previous replacement
    (or since the store was opened), with their counts at 32 bits; every other term
    gets 0. *)
Theorem C52_flushed_table : forall compress decompress cache_size, gzip_ok compress decompress ->
  forall y u f l1 l2, reachable compress decompress cache_size y -> good_log (y_log y) -> y_proc y = Up u -> f <> "docs" ->
  y_log y = l1 ++ ENftSaved f :: l2 -> EOpened ∉ l2 -> ENftSaved f ∉ l2 -> ~ saving (u_nw u) f ->
  forall cache_size' u' s', reopen compress decompress cache_size' (y_fs y) u' s' ->
  forall t, disk_get_nft (u_mem u') f [t] = {[t := match nft_since f l1 !! t with Some n => wrap32 n | None => 0 end]}.
Proof.
  intros compress decompress cs gz y u f l1 l2 Hr Hg Hu Hf Hl H1 H2 Hs cs' u' s' Ho t. apply (get_nft_one_inj (u_mem u')).
  rewrite (flushed_table _ _ _ gz y u f l1 l2 Hr Hg Hu Hf Hl H1 H2 Hs _ _ _ Ho). unfold geti. rewrite lookup_fmap. by destruct (nft_since f l1 !! t).
Qed.
Print Assumptions C52_flushed_table.

(** The counts received are the counts in memory: whenever no call is in progress, the
    last count received for a term in this session is the one the store answers; and a
    count waiting to be flushed is the last one received. *)
Theorem C52_counts_are_current : forall compress decompress cache_size, gzip_ok compress decompress ->
  forall y u f t n, reachable compress decompress cache_size y -> good_log (y_log y) -> y_proc y = Up u -> u_pc u = CIdle ->
  nft_last f t (y_log y) = Some n -> disk_get_nft (u_mem u) f [t] = {[t := n]}.
Proof.
  intros compress decompress cs gz y u f t n Hr Hg Hu Hpc H. apply (get_nft_one_inj (u_mem u)). destruct (n_inv_reach _ _ cs gz y Hr Hg) as [_ [_ Hi]]. rewrite Hu in Hi.
  destruct Hi as [_ _ _ _ Hi _ _ _]. specialize (Hi f t n H). rewrite Hi; [|rewrite Hpc; cbn; tauto]. unfold live. by rewrite Hpc.
Qed.
Print Assumptions C52_counts_are_current.
Theorem C52_waiting_is_last : forall f t log n, nft_since f log !! t = Some n -> nft_last f t log = Some n.
Proof. exact since_last. Qed.
Print Assumptions C52_waiting_is_last.

(** Reopening reproduces the table (at 32 bits) exactly when every term with a non-zero
    count was updated after the previous flush. *)
Theorem C52_reproduces_iff : forall compress decompress cache_size, gzip_ok compress decompress ->
  forall y u f l1 l2, reachable compress decompress cache_size y -> good_log (y_log y) -> y_proc y = Up u -> u_pc u = CIdle -> f <> "docs" ->
  y_log y = l1 ++ ENftSaved f :: l2 -> EOpened ∉ l2 -> ENftSaved f ∉ l2 -> (forall t n, ENft f t n ∉ l2) -> ~ saving (u_nw u) f ->
  forall cache_size' u' s', reopen compress decompress cache_size' (y_fs y) u' s' ->
  (forall t n, disk_get_nft (u_mem u) f [t] = {[t := n]} -> disk_get_nft (u_mem u') f [t] = {[t := wrap32 n]}) <->
  (forall t n, disk_get_nft (u_mem u) f [t] = {[t := n]} -> wrap32 n <> 0 -> is_Some (nft_since f l1 !! t)).
Proof.
  intros compress decompress cs gz y u f l1 l2 Hr Hg Hu Hpc Hf Hl H1 H2 H3 Hs cs' u' s' Ho.
  pose proof (flushed_table _ _ _ gz y u f l1 l2 Hr Hg Hu Hf Hl H1 H2 Hs _ _ _ Ho) as HT.
  split; intros H t n Hn.
  - intros Hne. specialize (H t n Hn). apply (get_nft_one_inj (u_mem u')) in H. rewrite HT in H. unfold geti in H. rewrite lookup_fmap in H.
    destruct (nft_since f l1 !! t) eqn:E; [by eexists|]. cbn in H. congruence.
  - apply (get_nft_one_inj (u_mem u')). rewrite HT. unfold geti. rewrite lookup_fmap. destruct (nft_since f l1 !! t) as [k|] eqn:E; cbn.
    + assert (nft_last f t (y_log y) = Some k) as HL.
      { rewrite Hl. assert (l1 ++ ENftSaved f :: l2 = (l1 ++ [ENftSaved f]) ++ l2) as -> by (by rewrite <- app_assoc). rewrite last_quiet by done. rewrite nft_last_snoc. cbn. by apply since_last. }
      pose proof (C52_counts_are_current _ _ _ gz y u f t k Hr Hg Hu Hpc HL) as HC. apply (get_nft_one_inj (u_mem u)) in HC, Hn. congruence.
    + destruct (decide (wrap32 n = 0)) as [->|Hne]; [done|]. destruct (H t n Hn Hne) as [? ?]. congruence.
Qed.
Print Assumptions C52_reproduces_iff.

(** A field whose counts were not touched since the store was opened is read again
    unchanged, whatever is done to the other fields. *)
Theorem C52_untouched_field : forall compress decompress cache_size, gzip_ok compress decompress ->
  forall y u f, reachable compress decompress cache_size y -> good_log (y_log y) -> y_proc y = Up u -> f <> "docs" ->
  (forall t, nft_last f t (y_log y) = None) ->
  forall cache_size' u' s', reopen compress decompress cache_size' (y_fs y) u' s' ->
  forall t, disk_get_nft (u_mem u') f [t] = disk_get_nft (u_mem u) f [t].
Proof.
  intros compress decompress cs gz y u f Hr Hg Hu Hf Hq cs' u' s' Ho t. pose proof (reopen_table _ _ _ gz y f Hr Hg Hf _ _ _ Ho) as HR.
  destruct (n_inv_reach _ _ cs gz y Hr Hg) as [_ [_ Hi]]. rewrite Hu in Hi. destruct Hi as [_ _ _ _ _ Hi _ _].
  rewrite !get_nft_one. by rewrite (n_read_fun compress decompress gz (y_fs y) f _ _ HR (Hi f Hf Hq)).
Qed.
Print Assumptions C52_untouched_field.

(** When the writer has just gone through its buffer, nothing is left in it. *)
Theorem C52_flush_complete : forall compress decompress cache_size y u, reachable compress decompress cache_size y -> y_proc y = Up u ->
  w_pc (u_nw u) = WLoop [] -> w_buf (u_nw u) = ∅.
Proof.
  intros compress decompress cs y u Hr Hu Hp. pose proof (full_reach _ _ _ _ Hr) as H. unfold full_inv in H. rewrite Hu in H. destruct H as (_ & H & _).
  unfold w_full in H. rewrite Hp in H. apply map_empty. intros k. apply eq_None_not_Some. intros Hs. apply H in Hs. by apply elem_of_nil in Hs.
Qed.
Print Assumptions C52_flush_complete.

(** Opening never fails because of these files, whatever crashes happened. *)
Theorem C52_tables_always_load : forall compress decompress cache_size, gzip_ok compress decompress ->
  forall y ns, reachable compress decompress cache_size y -> good_log (y_log y) -> lists_dirs (y_fs y) [] ns ->
  is_Some (load_nft decompress (y_fs y) ns).
Proof.
  intros compress decompress cs gz y ns Hr Hg [Hn Hm]. destruct (n_inv_reach _ _ cs gz y Hr Hg) as [[By _] [Hv _]].
  assert (Forall nd ns) as Hnd. { apply Forall_forall. intros n Hin. by apply Hm in Hin as [_ ?]. }
  unfold load_nft. clear Hm Hn. generalize (∅ : gmap string (gmap string Z)) as nft.
  induction Hnd as [|n ns Hd _ IH]; intros nft; [by eexists|]. cbn [fold_left]. unfold load_nft1 at 2.
  assert ([n; "nfterm"] ∉ fs_dirs (y_fs y)) as Hnd'. { apply layout_not_dir; [done|]. destruct (owner_n n Hd) as [E _]. by eexists. }
  destruct (fs_files (y_fs y) !! [n; "nfterm"]) as [c|] eqn:Ec.
  - assert (exists_path (y_fs y) [n; "nfterm"] = true) as ->.
    { unfold exists_path, is_file. rewrite Ec. rewrite bool_decide_true by by eexists. done. }
    destruct (Hv n c Hd Ec) as [v Hcv]. destruct (n_holds_load compress n c v Hcv) as (T & -> & Eb).
    rewrite gz. cbn. rewrite Eb. cbn. apply IH.
  - assert (exists_path (y_fs y) [n; "nfterm"] = false) as ->.
    { unfold exists_path, is_file. rewrite Ec. rewrite bool_decide_false by (by intros [? ?]). by rewrite P_File.is_dir_false. }
    apply IH.
Qed.
Print Assumptions C52_tables_always_load.

(** The loss is real: two saves, each flushed; the term a of the first one is still
    indexed after reopening, but its document frequency is 0 instead of 1. *)
Definition x_a : field := mkField "text" 2 {["a" := 2]}.
Definition x_b : field := mkField "text" 1 {["b" := 1]}.
Theorem C52_untouched_term_lost : exists y u u' s' l1, reachable id Some 2 y /\ good_log (y_log y) /\ y_proc y = Up u /\ u_pc u = CIdle /\
  y_log y = l1 ++ [ENftSaved "text"] /\ ~ saving (u_nw u) "text" /\
  calls_of (y_log y) = [Save "d1" x_a; Save "d2" x_b] /\ reopen id Some 2 (y_fs y) u' s' /\
  disk_get_nft (u_mem u) "text" ["a"; "b"] = {["a" := 1; "b" := 1]} /\ disk_get_nft (u_mem u') "text" ["a"; "b"] = {["a" := 0; "b" := 1]} /\
  (exists s, disk_get_documents (u_mem u') "text" "a" = Some s /\ set_contains s "d1" = true).
Proof.
  set (L := [EOpened; ECall (Save "d1" x_a); ENft "text" "a" 1; ENftSaved "text"; ECall (Save "d2" x_b); ENft "text" "b" 1]).
  destruct (play_obs 2 [(false, AStart); (false, AOpen); (false, ACall (Save "d1" x_a)); (true, AClient); (false, TNft); (true, ANft); (true, ARecv);
      (false, ACall (Save "d2" x_b)); (true, AClient); (true, ARecv); (false, TNft); (true, ANft); (false, TIndex); (true, AIndex "u1")]
    (fun y => (match y_proc y with Up u => match u_pc u, w_pc (u_nw u) with CIdle, WIdle => Some (bool_decide (disk_get_nft (u_mem u) "text" ["a"; "b"] = {["a" := 1; "b" := 1]})) | _, _ => None end | _ => None end,
               bool_decide (y_log y = L ++ [ENftSaved "text"]),
               match reopen_exec id Some 2 (y_fs y) with Some (u', _) =>
                 Some (bool_decide (disk_get_nft (u_mem u') "text" ["a"; "b"] = {["a" := 0; "b" := 1]}), (fun s => set_contains s "d1") <$> disk_get_documents (u_mem u') "text" "a") | None => None end))
    (Some true, true, Some (true, Some true))) as (y & Hr & H); [vm_compute; reflexivity|].
  apply pair_equal_spec in H as [H H3]. apply pair_equal_spec in H as [H1 H2]. apply bool_decide_eq_true_1 in H2.
  destruct (y_proc y) as [| |u] eqn:E; try discriminate H1. destruct (u_pc u) eqn:E1; try discriminate H1. destruct (w_pc (u_nw u)) eqn:E3; try discriminate H1.
  apply (inj Some), bool_decide_eq_true_1 in H1.
  destruct (reopen_exec id Some 2 (y_fs y)) as [[u' s']|] eqn:E2; [|discriminate H3]. apply (inj Some) in H3. apply pair_equal_spec in H3 as [H31 H32].
  apply bool_decide_eq_true_1 in H31.
  apply reopen_exec_ok in E2. exists y, u, u', s', L. split; [done|]. split.
  { intros c Hc. rewrite H2 in Hc. assert (c ∈ [Save "d1" x_a; Save "d2" x_b]) as Hc' by exact Hc. rewrite !elem_of_cons, elem_of_nil in Hc'.
    destruct Hc' as [-> | [-> |[]]]; (split; [repeat split|repeat split]); try discriminate; try done. }
  do 3 (split; [done|]). split; [intros (? & ? & ? & E4); congruence|]. split; [by rewrite H2|]. do 3 (split; [done|]).
  destruct (disk_get_documents (u_mem u') "text" "a") as [sd|]; [|discriminate H32]. exists sd. split; [done|]. by injection H32.
Qed.
Print Assumptions C52_untouched_term_lost.
