(** C66: concurrent saves on the disk storage: counters, and what goes wrong. *)
From Verif Require Import Base M_Field M_LRU S_Visits M_Memory M_File M_Serialize M_Num M_FanIn M_Search M_Concurrent M_SearchConc M_Disk M_DiskBusy M_DiskMulti P_Base P_File S_Memory S_Concurrent P_Concurrent P_Concurrent2 P_Concurrent4 S_Disk P_DiskBase P_DiskInv P_DiskMem P_DiskWriter P_DiskIndex P_DiskIndex2 P_DiskIndex3 P_DiskIndex4 X_DiskExec T_DiskMetrics T_DiskNft T_DiskIndex T_Concurrent S_DiskMulti P_DiskMulti P_DiskMulti2 P_DiskMulti3 P_DiskMulti4 P_DiskMulti5 X_DiskMulti T_DiskMulti.
#[local] Open Scope Z_scope.
#[local] Opaque serialize_metrics deserialize_metrics serialize_nft deserialize_nft serialize_field_map deserialize_field_map serialize_index deserialize_index.

(** * The counters *)
(** Until the next crash the maps of the callers are those of the concurrent executions
    of C56, started with the content that was loaded. *)
Lemma session_run compress decompress cache_size a b u ev : rtc (multi_live compress decompress cache_size) a b -> mu_open a u -> mu_threads a = [] -> served b -> mu_log b = mu_log a ++ ev ->
  exists progs, conc_run true (mu_sh a) progs (mu_sh b) /\ concat progs ≡ₚ calls_of ev.
Proof.
  intros R Hu Ht Hs El. destruct (session_conc _ _ _ a b u R Hu Ht) as (_ & progs & h & y & Ry & E1 & E2 & E3 & E4).
  assert (all_done y) as D. { intros th Hth. rewrite E2 in Hth. apply elem_of_list_fmap in Hth as (th' & -> & Hth). by rewrite (Hs th' Hth). }
  exists progs. split; [by exists y|]. rewrite El, calls_app in E4. apply (inj (app (calls_of (mu_log a)))) in E4. rewrite E4, <- E3. symmetry. by apply (log_done true (mu_sh a)).
Qed.
(** When all requests of a session have been served, the number of documents of a field
    exceeds the one loaded from disk by at most the number of saves of that field, and by
    at least one if there was one. *)
Theorem C66_size_bounds : forall compress decompress cache_size a b u ev f,
  rtc (multi_live compress decompress cache_size) a b -> mu_open a u -> mu_threads a = [] -> served b -> mu_log b = mu_log a ++ ev ->
  0 <= mem_get_size (view (mu_sh a)) f ->
  let n := Z.of_nat (length (counted_calls true f (calls_of ev))) in
  mem_get_size (view (mu_sh a)) f + n < 2 ^ 63 ->
  mem_get_size (view (mu_sh a)) f + Z.min 1 n <= mem_get_size (view (mu_sh b)) f <= mem_get_size (view (mu_sh a)) f + n.
Proof.
  intros compress decompress cs a b u ev f R Hu Ht Hs El H0 n Hn. destruct (session_run _ _ _ _ _ _ _ R Hu Ht Hs El) as (progs & Rc & P).
  assert (n = Z.of_nat (length (counted_calls true f (concat progs)))) as E. { subst n. by rewrite (counted_perm true f _ _ P). }
  rewrite E in *. by apply (C56_size_bounds true (mu_sh a) progs).
Qed.
Print Assumptions C66_size_bounds.
(** The total length grows by the lengths of some of the saves, of at least one of them. *)
Theorem C66_length : forall compress decompress cache_size a b u ev f,
  rtc (multi_live compress decompress cache_size) a b -> mu_open a u -> mu_threads a = [] -> served b -> mu_log b = mu_log a ++ ev ->
  int64_range (mem_get_length (view (mu_sh a)) f) ->
  let lengths := map (fun c => f_length (call_field' c)) (counted_calls true f (calls_of ev)) in
  exists kept, kept ⊆+ lengths /\ (lengths <> [] -> kept <> []) /\ mem_get_length (view (mu_sh b)) f = wrap64 (mem_get_length (view (mu_sh a)) f + zsum kept).
Proof.
  intros compress decompress cs a b u ev f R Hu Ht Hs El H0 lengths. destruct (session_run _ _ _ _ _ _ _ R Hu Ht Hs El) as (progs & Rc & P).
  destruct (C56_length true (mu_sh a) progs (mu_sh b) f Rc H0) as (kept & K1 & K2 & K3). exists kept.
  assert (map (fun c => f_length (call_field c)) (counted_calls true f (concat progs)) ≡ₚ lengths) as E.
  { unfold lengths. rewrite (counted_perm true f _ _ P). apply reflexive_eq. apply map_ext. by intros []. }
  rewrite E in K1. split; [done|]. split; [|done]. intros Hn. apply K2. intros E0. rewrite E0 in E. by apply Permutation_nil in E.
Qed.
Print Assumptions C66_length.
(** Opening always succeeds in building the maps. *)
Theorem C66_maps_loaded : forall compress decompress cache_size y y' g u sh ths qs, live_step compress decompress cache_size y y' -> y_proc y = Loading g -> y_proc y' = Up u ->
  exists sh', multi_live compress decompress cache_size (mkMulti y sh ths qs) (mkMulti y' sh' [] []) /\
    view sh' = mkMem (c_index (u_mem u)) ∅ (c_length (u_mem u)) (c_size (u_mem u)) (c_nft (u_mem u)).
Proof.
  intros compress decompress cs y y' g u sh ths St E1 E2. destruct (loaded_total (u_mem u)) as [sh' L]. exists sh'. split; [by eapply mz_opened|]. apply L.
Qed.
Print Assumptions C66_maps_loaded.

(** * What goes wrong *)
Definition ms (l : list (bool * act)) : list (bool * mact) := map (fun p => (p.1, MSys p.2)) l.
Definition mopen : list (bool * mact) := ms [(false, AStart); (false, AOpen)].
Definition msteps (n i : nat) : list (bool * mact) := repeat (false, MStep i) n.
Definition two_saves : list (bool * mact) := mopen ++ [(false, MReq [Save "d1" x_a]); (false, MReq [Save "d2" x_b]); (false, MCall 0); (false, MCall 1)].
(** Both goroutines have found no index for the field before either has created it. *)
Definition run_lost : list (bool * mact) := two_saves ++ msteps 8 0 ++ msteps 8 1 ++ [(true, MStep 0); (true, MStep 1)] ++ ms [(true, ARecv); (false, TIndex); (true, AIndex "u1")].
(** The first goroutine has read the counters, the second updates and sends them first. *)
Definition run_stale : list (bool * mact) := two_saves ++ msteps 6 0 ++ [(true, MStep 1); (true, MStep 0)] ++ ms [(false, TMetrics); (true, AMetrics)].
Definition servedb (a : multi) : bool := forallb (fun th => match th with (TIdle, NoMsg, []) => true | _ => false end) (mu_threads a).
Lemma servedb_ok a : servedb a = true -> served a.
Proof.
  unfold servedb. intros H th Hth. rewrite forallb_forall in H. apply elem_of_list_In in Hth. specialize (H th Hth). destruct th as [[pc m] cs]. destruct pc; try discriminate H. destruct m; try discriminate H. by destruct cs.
Qed.
Definition showb (s : shared) (f t d : string) : bool := match mem_get_documents (view s) f t with Some D => bool_decide (is_Some (D !! d)) | None => false end.
Lemma showb_ok s f t d : showb s f t d = true <-> shown s f t d.
Proof.
  unfold showb, shown. split.
  - destruct (mem_get_documents (view s) f t) as [D|]; [|done]. intros H. apply bool_decide_eq_true_1 in H. by exists D.
  - intros (D & -> & H). by apply bool_decide_eq_true_2.
Qed.

(** Two first saves of a field at once: both have returned, nothing is on its way, and the
    posting of the first is not found in memory; after a restart it is. *)
Theorem C66_lost_until_restart : exists a u u' s', multi_reachable id Some 2 a /\ good_log (mu_log a) /\ mu_open a u /\ multi_quiet a u /\ ~ in_gap (u_mg u) "text" /\
  calls_of (mu_log a) = [Save "d1" x_a; Save "d2" x_b] /\ ~ shown (mu_sh a) "text" "a" "d1" /\ shown (mu_sh a) "text" "b" "d2" /\
  reopen id Some 2 (y_fs (mu_sys a)) u' s' /\ has (disk_get_index (u_mem u') "text") "a" "d1" /\ has (disk_get_index (u_mem u') "text") "b" "d2".
Proof.
  destruct (mplay_obs 2 run_lost
    (fun a => (match y_proc (mu_sys a) with Up u => match u_ich u, m_pc (u_mg u) with [], MIdle => Some (bool_decide (i_buf (u_iw u) = ∅)) | _, _ => None end | _ => None end,
               bool_decide (calls_of (mu_log a) = [Save "d1" x_a; Save "d2" x_b]), servedb a, showb (mu_sh a) "text" "a" "d1", showb (mu_sh a) "text" "b" "d2",
               match reopen_exec id Some 2 (y_fs (mu_sys a)) with Some (u', _) =>
                 Some (hasb (disk_get_index (u_mem u') "text") "a" "d1", hasb (disk_get_index (u_mem u') "text") "b" "d2") | None => None end))
    (Some true, true, true, false, true, Some (true, true))) as (a & Hr & H); [vm_compute; reflexivity|].
  apply pair_equal_spec in H as [H H6]. apply pair_equal_spec in H as [H H5]. apply pair_equal_spec in H as [H H4]. apply pair_equal_spec in H as [H H3]. apply pair_equal_spec in H as [H1 H2].
  apply bool_decide_eq_true_1 in H2. apply servedb_ok in H3. apply showb_ok in H5.
  destruct (y_proc (mu_sys a)) as [| |u] eqn:E; try discriminate H1. destruct (u_ich u) eqn:E2; try discriminate H1. destruct (m_pc (u_mg u)) eqn:E4; try discriminate H1. apply (inj Some), bool_decide_eq_true_1 in H1.
  destruct (reopen_exec id Some 2 (y_fs (mu_sys a))) as [[u' s']|] eqn:E5; [|discriminate H6]. apply (inj Some) in H6. apply pair_equal_spec in H6 as [H61 H62]. apply hasb_true in H61, H62.
  apply reopen_exec_ok in E5. exists a, u, u', s'. split; [done|]. split.
  { apply (good_log_case _ _ H2). repeat constructor; done. }
  split; [done|]. split; [done|]. split; [apply no_gap; by rewrite E4|]. split; [done|]. split; [|done]. rewrite <- showb_ok, H4. done.
Qed.
Print Assumptions C66_lost_until_restart.

(** The counters on disk can stay behind those in memory: the two goroutines send them in
    the other order than they wrote them.  All calls have returned and the writer has
    nothing left to write; memory counts two documents, the reopened store one. *)
Theorem C66_stale_metrics : exists a u u' s', multi_reachable id Some 2 a /\ good_log (mu_log a) /\ mu_open a u /\ served a /\ u_mw u = mkW ∅ WIdle /\
  calls_of (mu_log a) = [Save "d1" x_a; Save "d2" x_b] /\ mem_get_size (view (mu_sh a)) "text" = 2 /\
  reopen id Some 2 (y_fs (mu_sys a)) u' s' /\ disk_get_size (u_mem u') "text" = 1.
Proof.
  destruct (mplay_obs 2 run_stale
    (fun a => (match y_proc (mu_sys a) with Up u => match w_pc (u_mw u) with WIdle => Some (bool_decide (w_buf (u_mw u) = ∅)) | _ => None end | _ => None end,
               bool_decide (calls_of (mu_log a) = [Save "d1" x_a; Save "d2" x_b]), servedb a, mem_get_size (view (mu_sh a)) "text",
               match reopen_exec id Some 2 (y_fs (mu_sys a)) with Some (u', _) => Some (disk_get_size (u_mem u') "text") | None => None end))
    (Some true, true, true, 2, Some 1)) as (a & Hr & H); [vm_compute; reflexivity|].
  apply pair_equal_spec in H as [H H5]. apply pair_equal_spec in H as [H H4]. apply pair_equal_spec in H as [H H3]. apply pair_equal_spec in H as [H1 H2].
  apply bool_decide_eq_true_1 in H2. apply servedb_ok in H3.
  destruct (y_proc (mu_sys a)) as [| |u] eqn:E; try discriminate H1. destruct (u_mw u) as [buf pc] eqn:E2. cbn in H1. destruct pc; try discriminate H1. apply (inj Some), bool_decide_eq_true_1 in H1.
  destruct (reopen_exec id Some 2 (y_fs (mu_sys a))) as [[u' s']|] eqn:E5; [|discriminate H5]. apply (inj Some) in H5. apply reopen_exec_ok in E5.
  exists a, u, u', s'. split; [done|]. split; [apply (good_log_case _ _ H2); repeat constructor; done|]. subst buf. done.
Qed.
Print Assumptions C66_stale_metrics.
