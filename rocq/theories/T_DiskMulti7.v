(** C66: concurrent saves on the disk storage: every saved document reaches its file. *)
From Verif Require Import Base M_Field M_LRU S_Visits M_Memory M_File M_Serialize M_Num M_FanIn M_Search M_Concurrent M_SearchConc M_Disk P_Base P_File P_LRU S_Memory S_Concurrent P_Concurrent P_Concurrent2 P_DiskBase P_DiskInv P_DiskMem P_DiskWriter P_DiskDocs P_DiskBusy P_DiskBusy2 P_DiskBusy3 P_DiskBusy4 P_DiskBusy5 P_DiskBusy6 M_DiskBusy M_DiskMulti P_DiskIndex3 P_DiskIndex4 X_DiskExec T_DiskMetrics T_DiskNft T_DiskDocs T_DiskIndex S_Disk S_DiskMulti P_DiskMulti P_DiskMulti2 P_DiskMulti3 P_DiskMulti6 P_DiskMulti10 X_DiskMulti T_DiskMulti T_DiskMulti2 T_DiskMulti3.
#[local] Open Scope Z_scope.
#[local] Opaque serialize_metrics deserialize_metrics serialize_nft deserialize_nft serialize_field_map deserialize_field_map serialize_index deserialize_index.

(** Whatever the interleaving: when every request has been served and the document writer
    has nothing left to write for a document that was saved since the store was opened,
    the document's file holds a field of it that was saved since then; if that is the only
    one, it holds that field (C66_field_lost: not necessarily both of two). *)
Theorem C66_document_durable : forall compress decompress cache_size, gzip_ok compress decompress -> (0 < cache_size)%Z ->
  forall a u l1 l2 d x, multi_reachable compress decompress cache_size a -> good_log (mu_log a) -> mu_open a u -> served a ->
  mu_log a = l1 ++ EOpened :: l2 -> EOpened ∉ l2 -> Save d x ∈ calls_of l2 -> plain_doc d -> w_buf (u_dw u) !! d = None ->
  exists fd y, load_doc decompress (y_fs (mu_sys a)) d = Some (Some fd) /\ Save d y ∈ calls_of l2 /\ fd !! f_name y = Some (field32 y) /\
    ((forall z, Save d z ∈ calls_of l2 -> z = x) -> fd !! f_name x = Some (field32 x)).
Proof.
  intros compress decompress cs gz pos a u l1 l2 d x R Hg Hu Hs El Hn Hc Hd Hb. pose proof (k_reach compress decompress cs gz pos a R Hg) as K. unfold k_inv in K. unfold mu_open in Hu. rewrite Hu in K.
  destruct K as (k1 & k2 & Ek & Hk & [_ _ _ K]). unfold mu_log in El. rewrite El in Ek. assert (k2 = l2) as -> by (by apply (session_eq _ _ _ _ Ek)).
  destruct (K d x Hd Hc) as [[v Hv]|[(m & H1 & y & Y1 & Y2)|(th & T1 & z & T2)]].
  - rewrite Hb in Hv. discriminate Hv.
  - assert ((field32 <$> m) !! f_name y = Some (field32 y)) as G by (rewrite lookup_fmap, Y2; done).
    exists (field32 <$> m), y. split; [by apply (d_holds_load compress decompress gz)|]. split; [done|]. split; [done|]. intros Ha. by rewrite (Ha y Y1) in G.
  - rewrite (Hs th T1) in T2. done.
Qed.
Print Assumptions C66_document_durable.

(** Two saves of different documents at once: the hypotheses hold for both. *)
Definition run_docs2 : list (bool * mact) := mopen ++ [(false, MReq [Save "d1" x_a]); (false, MReq [Save "d2" x_title]); (false, MCall 0); (false, MCall 1)] ++ msteps 20 0 ++ msteps 20 1 ++ [(true, MStep 0); (true, MStep 1)] ++ ms [(false, TDocs); (true, ADocs)].
Example C66_document_case : exists a u l2, multi_reachable id Some 2 a /\ good_log (mu_log a) /\ mu_open a u /\ served a /\ u_dw u = mkW ∅ WIdle /\
  mu_log a = [] ++ EOpened :: l2 /\ EOpened ∉ l2 /\ calls_of l2 = [Save "d1" x_a; Save "d2" x_title] /\ plain_doc "d1" /\ load_doc Some (y_fs (mu_sys a)) "d1" = Some (Some {["text" := x_a]}).
Proof.
  destruct (mplay_obs 2 run_docs2
    (fun a => (match y_proc (mu_sys a) with Up u => match w_pc (u_dw u) with WIdle => Some (bool_decide (w_buf (u_dw u) = ∅)) | _ => None end | _ => None end,
               bool_decide (calls_of (mu_log a) = [Save "d1" x_a; Save "d2" x_title]), servedb a,
               match mu_log a with EOpened :: l2 => forallb (fun e => match e with EOpened => false | _ => true end) l2 | _ => false end, bool_decide (load_doc Some (y_fs (mu_sys a)) "d1" = Some (Some {["text" := x_a]}))))
    (Some true, true, true, true, true)) as (a & Hr & H); [vm_compute; reflexivity|].
  apply pair_equal_spec in H as [H H5]. apply pair_equal_spec in H as [H H4]. apply pair_equal_spec in H as [H H3]. apply pair_equal_spec in H as [H1 H2].
  apply bool_decide_eq_true_1 in H2, H5. apply servedb_ok in H3.
  destruct (y_proc (mu_sys a)) as [| |u] eqn:E; try discriminate H1. destruct (u_dw u) as [buf pc] eqn:E2. cbn in H1. destruct pc; try discriminate H1. apply (inj Some), bool_decide_eq_true_1 in H1.
  destruct (mu_log a) as [|[] l2] eqn:El; try discriminate H4.
  exists a, u, l2. split; [done|]. rewrite El. split; [apply (good_log_case _ _ H2); repeat constructor; done|]. subst buf. split; [done|]. split; [done|]. split; [done|]. split; [done|].
  split; [intros Hin; rewrite forallb_forall in H4; apply elem_of_list_In in Hin; by specialize (H4 _ Hin)|]. split; [done|]. split; [|done].
  by apply plain_case.
Qed.
