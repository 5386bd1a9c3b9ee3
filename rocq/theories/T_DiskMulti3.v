(** C66: concurrent saves on the disk storage: the documents. *)
From Verif Require Import Base M_Field M_LRU S_Visits M_Memory M_File M_Serialize M_Num M_FanIn M_Search M_Concurrent M_SearchConc M_Disk P_Base P_File P_LRU S_Memory S_Concurrent P_Concurrent P_Concurrent2 P_DiskBase P_DiskInv P_DiskMem P_DiskWriter P_DiskDocs P_DiskBusy P_DiskBusy2 P_DiskBusy3 P_DiskBusy4 P_DiskBusy5 P_DiskBusy6 M_DiskBusy M_DiskMulti P_DiskIndex3 P_DiskIndex4 X_DiskExec T_DiskMetrics T_DiskNft T_DiskIndex S_Disk S_DiskMulti P_DiskMulti P_DiskMulti2 P_DiskMulti3 P_DiskMulti6 X_DiskMulti T_DiskMulti T_DiskMulti2.
#[local] Open Scope Z_scope.
#[local] Opaque serialize_metrics deserialize_metrics serialize_nft deserialize_nft serialize_field_map deserialize_field_map serialize_index deserialize_index.

(** Whatever the interleaving of the saves and wherever the process was killed: the file of
    a document can be read, and each field in it was saved for that document under that
    name (the file keeps 32 bits of each count). *)
Theorem C66_documents : forall compress decompress cache_size, gzip_ok compress decompress -> (0 < cache_size)%Z ->
  forall a d, multi_reachable compress decompress cache_size a -> good_log (mu_log a) -> plain_doc d -> is_Some (doc_file (y_fs (mu_sys a)) d) ->
  exists fd, load_doc decompress (y_fs (mu_sys a)) d = Some (Some fd) /\
    forall f x, fd !! f = Some x -> exists y, Save d y ∈ calls_of (mu_log a) /\ f_name y = f /\ x = field32 y.
Proof.
  intros compress decompress cs gz pos a d R Hg Hd Hf. destruct (d_reach_multi compress decompress cs gz pos a R Hg) as [F _]. destruct (F d Hd Hf) as (m & H1 & H2).
  exists (field32 <$> m). split; [by apply (d_holds_load compress decompress gz)|]. intros f x Hx. apply lookup_fmap_Some in Hx as (z & <- & Hz).
  destruct (H2 Hd _ _ Hz) as (y & Y1 & Y2 & [->| ->]); exists y; (split; [done|]; split; [done|]); [done|apply field32_twice].
Qed.
Print Assumptions C66_documents.

(** A document's cached field map holds only saved fields. *)
Theorem C66_cached_documents : forall compress decompress cache_size, gzip_ok compress decompress -> (0 < cache_size)%Z ->
  forall a u d c e l fd f x, multi_reachable compress decompress cache_size a -> good_log (mu_log a) -> mu_open a u -> plain_doc d ->
  lru_get (c_cache (u_mem u)) d = Some (c, Some e) -> lru_deref c e = Some l -> c_heap (u_mem u) !! l = Some fd -> fd !! f = Some x ->
  exists y, Save d y ∈ calls_of (mu_log a) /\ f_name y = f /\ (x = y \/ x = field32 y).
Proof.
  intros compress decompress cs gz pos a u d c e l fd f x R Hg Hu Hd H1 H2 H3 H4. destruct (d_reach_multi compress decompress cs gz pos a R Hg) as [_ F]. unfold mu_open in Hu. rewrite Hu in F. destruct F as (own & [K _ _ _ _ _ _] & _).
  destruct (mem_get _ _ _ _ _ _ _ _ H1 K) as ([_ _ G3 G4] & _ & G). destruct (G e eq_refl) as (l' & El). cbn in *.
  unfold lru_deref in H2. rewrite El in H2. cbn in H2. injection H2 as ->. exact (G4 _ _ _ (G3 _ _ _ El) H3 Hd _ _ H4).
Qed.
Print Assumptions C66_cached_documents.

(** Two saves of different fields of one document at once: both have returned, nothing is
    left to write, and the document's file has one of the two fields only. *)
Definition x_title : field := mkField "title" 1 {[ "b" := 1 ]}.
Definition run_doc : list (bool * mact) := mopen ++ [(false, MReq [Save "d1" x_a]); (false, MReq [Save "d1" x_title]); (false, MCall 0); (false, MCall 1)] ++ msteps 20 0 ++ msteps 20 1 ++ [(true, MStep 0); (true, MStep 1)] ++ ms [(false, TDocs); (true, ADocs)].
Theorem C66_field_lost : exists a u, multi_reachable id Some 2 a /\ good_log (mu_log a) /\ mu_open a u /\ served a /\ u_dw u = mkW ∅ WIdle /\
  calls_of (mu_log a) = [Save "d1" x_a; Save "d1" x_title] /\ load_doc Some (y_fs (mu_sys a)) "d1" = Some (Some {["title" := x_title]}).
Proof.
  destruct (mplay_obs 2 run_doc
    (fun a => (match y_proc (mu_sys a) with Up u => match w_pc (u_dw u) with WIdle => Some (bool_decide (w_buf (u_dw u) = ∅)) | _ => None end | _ => None end,
               bool_decide (calls_of (mu_log a) = [Save "d1" x_a; Save "d1" x_title]), servedb a, bool_decide (load_doc Some (y_fs (mu_sys a)) "d1" = Some (Some {["title" := x_title]}))))
    (Some true, true, true, true)) as (a & Hr & H); [vm_compute; reflexivity|].
  apply pair_equal_spec in H as [H H4]. apply pair_equal_spec in H as [H H3]. apply pair_equal_spec in H as [H1 H2].
  apply bool_decide_eq_true_1 in H2, H4. apply servedb_ok in H3.
  destruct (y_proc (mu_sys a)) as [| |u] eqn:E; try discriminate H1. destruct (u_dw u) as [buf pc] eqn:E2. cbn in H1. destruct pc; try discriminate H1. apply (inj Some), bool_decide_eq_true_1 in H1.
  exists a, u. split; [done|]. split; [apply (good_log_case _ _ H2); repeat constructor; done|]. subst buf. done.
Qed.
Print Assumptions C66_field_lost.
