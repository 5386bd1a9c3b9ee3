(** The disk storage: the metrics files (C53). *)
From Verif Require Import Base M_Field M_LRU S_Visits M_Memory M_File M_Serialize M_Disk P_Base P_File P_Serialize S_Disk P_DiskBase P_DiskInv P_DiskWriter T_Serialize.
#[local] Open Scope Z_scope.
#[local] Opaque serialize_metrics deserialize_metrics serialize_nft deserialize_nft serialize_field_map deserialize_field_map serialize_index deserialize_index.

Section metrics.
  Variables (compress : bytes -> bytes) (decompress : bytes -> option bytes) (cache_size : Z).
  Hypothesis gz : gzip_ok compress decompress.

  (** The file content [c] is that of field [f] with size and length [v]. *)
  Definition m_holds (f : string) (c : content) (v : Z * Z) : Prop := exists T, m_ser f v T /\ c = Whole (compress T).
  Definition m_disk (s : fs) (f : string) (v : Z * Z) : Prop :=
    match fs_files s !! [f; "metrics"] with None => v = (0, 0) | Some c => m_holds f c v end.
  Definition m_valid (s : fs) : Prop := forall f c, nd f -> fs_files s !! [f; "metrics"] = Some c -> exists v, m_holds f c v.
  Definition m_cur (M : cmem) (f : string) : Z * Z := (geti (c_size M) f, geti (c_length M) f).
  Definition m_stale (pc : cpc) (f : string) : Prop := match pc with CFieldSend _ x => f_name x = f | _ => False end.
  Definition m_up (s : fs) (u : up) : Prop :=
    w_flight compress m_ser (u_mw u) /\ forall f, nd f -> ~ m_stale (u_pc u) f ->
      match w_buf (u_mw u) !! f with Some v => v = m_cur (u_mem u) f | None => m_disk s f (m_cur (u_mem u) f) end.
  Definition m_inv (y : sys) : Prop := m_valid (y_fs y) /\ match y_proc y with Up u => m_up (y_fs y) u | _ => True end.

  Lemma m_sep k k' : nd k -> nd k' -> cur_path (m_dir k') (m_name k') <> temp_path (m_dir k) (m_name k) /\
    cur_path (m_dir k') (m_name k') <> old_path (m_dir k) (m_name k) /\ (cur_path (m_dir k') (m_name k') = cur_path (m_dir k) (m_name k) -> k' = k).
  Proof. intros _ _. cbn. split; [done|]. split; [done|]. congruence. Qed.

  Lemma m_valid_keeps s s' : keeps OM s s' -> m_valid s -> m_valid s'.
  Proof. intros Hf Hv f c Hn Hc. apply (Hv f c Hn). rewrite <- Hc. symmetry. apply Hf. by apply owner_m. Qed.
  Lemma m_up_keeps s s' u u' : keeps OM s s' -> u_mem u' = u_mem u -> u_pc u' = u_pc u -> u_mw u' = u_mw u -> m_up s u -> m_up s' u'.
  Proof.
    intros Hf E1 E2 E3 [H1 H2]. unfold m_up. rewrite E1, E2, E3. split; [done|]. intros f Hn Hs. specialize (H2 f Hn Hs).
    destruct (w_buf (u_mw u) !! f); [done|]. unfold m_disk in *. rewrite (Hf [f; "metrics"]); [done|]. by apply owner_m.
  Qed.
  Lemma m_run s s' u u' ev : layout s -> up_wf u s -> m_valid s -> m_up s u -> runs compress decompress WhoM u s ev u' s' -> m_valid s' /\ m_up s' u'.
  Proof.
    intros Hl Hw Hv [H1 H2] (Hs & Hu & _).
    assert (forall f, nd f -> _) as HC by (intros f Hn; exact (w_cases compress m_dir m_name m_ser OM nd nd m_dir_ok m_own m_sep _ _ _ _ f Hl (wf_mw _ _ Hw) Hs Hn)).
    split.
    - intros f c Hn Hc. destruct (HC f Hn) as [(E1 & _)|[(ks & b & pc & E1 & _ & _ & E2)|(ks & b & E1 & _ & -> & E2 & _)]].
      + change (cur_path (m_dir f) (m_name f)) with [f; "metrics"] in E1. rewrite E1 in Hc. by apply (Hv f).
      + change (cur_path (m_dir f) (m_name f)) with [f; "metrics"] in E2. destruct E2 as [E2|E2]; rewrite E2 in Hc; [done|]. injection Hc as <-.
        unfold w_flight in H1. rewrite E1 in H1. destruct H1 as (v & T & _ & G1 & ->). exists v, T. done.
      + by apply (Hv f).
    - split; [by eapply w_flight_step|]. intros f Hn Hst. rewrite Hu in Hst |- *. cbn [u_pc u_mem u_mw] in *. specialize (H2 f Hn Hst).
      destruct (HC f Hn) as [(E1 & E2)|[(ks & b & pc & E1 & [v Ev] & E3 & E2)|(ks & b & E1 & _ & -> & E2 & [v Ev] & E3)]].
      + change (cur_path (m_dir f) (m_name f)) with [f; "metrics"] in E1. rewrite E2. unfold m_disk. by rewrite E1.
      + rewrite E3, Ev. by rewrite Ev in H2.
      + rewrite E3. rewrite Ev in H2. subst v. unfold m_disk. change (cur_path (m_dir f) (m_name f)) with [f; "metrics"] in E2. rewrite E2.
        unfold w_flight in H1. rewrite E1 in H1. destruct H1 as (v & T & G0 & G1 & ->). rewrite Ev in G0. injection G0 as <-. exists T. done.
  Qed.
  Lemma m_quick s u ev u' : m_up s u -> quick decompress s u ev u' -> m_up s u'.
  Proof.
    intros [H1 H2] H. inversion H; subst; cbn [u_pc u_mem u_mw] in *; try done.
    - match goal with G : c_step _ _ _ _ |- _ => inversion G; subst end; try (split; [exact H1|]; intros g Hn Hst; exact (H2 g Hn Hst)); try (split; [exact H1|]; intros g Hn Hst; cbn; apply (H2 g Hn); cbn; tauto).
      + split; [exact H1|]. intros g Hn Hst. cbn in *. unfold m_cur. cbn. specialize (H2 g Hn (fun e => e)). rewrite !geti_addi_ne by done. exact H2.
      + split; [exact H1|]. intros g Hn Hst. specialize (H2 g Hn (fun e => e)). cbn. by destruct (c_index m !! f_name x).
    - match goal with G : c_doc _ _ _ |- _ => inversion G; subst end; split; try exact H1; intros g Hn Hst; exact (H2 g Hn Hst).
    - split; [exact H1|]. intros g Hn Hst. cbn. unfold m_recv. destruct (decide (f_name x = g)) as [<-|Hne].
      + by rewrite lookup_insert.
      + rewrite lookup_insert_ne by done. apply (H2 g Hn). cbn. done.
  Qed.

  (** * Loading *)
  Lemma m_holds_load f c v : m_holds f c v -> exists b, c = Whole b /\ (T ← decompress b; deserialize_metrics T) = Some (f, wrap32 v.1, wrap32 v.2).
  Proof.
    intros (T & HT & ->). exists (compress T). split; [done|]. rewrite gz. cbn. unfold m_ser in HT.
    pose proof (C42_metrics_round_trip f (v.1) (v.2) T HT) as E. rewrite E. done.
  Qed.
  Lemma load_metrics_fold s ns : layout s -> m_valid s -> NoDup ns -> Forall nd ns ->
    forall size len size' len', fold_left (load_metric decompress s) ns (Some (size, len)) = Some (size', len') ->
    forall f, (f ∉ ns -> size' !! f = size !! f /\ len' !! f = len !! f) /\
      (f ∈ ns -> fs_files s !! [f; "metrics"] = None -> size' !! f = size !! f /\ len' !! f = len !! f) /\
      (f ∈ ns -> forall c v, fs_files s !! [f; "metrics"] = Some c -> m_holds f c v -> size' !! f = Some (wrap32 v.1) /\ len' !! f = Some (wrap32 v.2)).
  Proof.
    intros Hl Hv. induction ns as [|n ns IH]; intros Hn Hd size len size' len' H f.
    - cbn in H. injection H as <- <-. split; [done|]. split; intros Hf; by apply elem_of_nil in Hf.
    - apply NoDup_cons in Hn as [Hni Hn]. apply Forall_cons in Hd as [Hd0 Hd]. cbn [fold_left load_metric] in H.
      assert ([n; "metrics"] ∉ fs_dirs s) as Hnd. { apply layout_not_dir; [done|]. destruct (owner_m n Hd0) as [E _]. by eexists. }
      destruct (fs_files s !! [n; "metrics"]) as [c|] eqn:Ec.
      + assert (exists_path s [n; "metrics"] = true) as Hex.
        { unfold exists_path, is_file. rewrite Ec. rewrite bool_decide_true by by eexists. done. }
        rewrite Hex in H. destruct (Hv n c Hd0 Ec) as [v0 Hv0]. destruct (m_holds_load n c v0 Hv0) as (b & -> & Eb).
        assert ((T ← decompress b; r ← deserialize_metrics T; Some (<[r.1.1:=r.1.2]> size, <[r.1.1:=r.2]> len)) = Some (<[n := wrap32 v0.1]> size, <[n := wrap32 v0.2]> len)) as Eb'.
        { destruct (decompress b) as [T|]; [|discriminate Eb]. cbn in Eb |- *. rewrite Eb. done. }
        rewrite Eb' in H. destruct (IH Hn Hd _ _ _ _ H f) as (I1 & I2 & I3). split; [|split].
        * intros Hf. apply not_elem_of_cons in Hf as [Hf1 Hf2]. destruct (I1 Hf2) as [-> ->]. by rewrite !lookup_insert_ne by done.
        * intros Hf Hf'. apply elem_of_cons in Hf as [->|Hf]; [congruence|]. destruct (I2 Hf Hf') as [-> ->].
          rewrite !lookup_insert_ne by (intros <-; done). done.
        * intros Hf c v Hc Hcv. destruct (decide (f = n)) as [->|Hne].
          { destruct (I1 Hni) as [-> ->]. rewrite !lookup_insert. rewrite Ec in Hc. injection Hc as <-.
            destruct (m_holds_load n _ v Hcv) as (b' & [= <-] & Eb2). rewrite Eb in Eb2. injection Eb2 as -> ->. done. }
          apply elem_of_cons in Hf as [->|Hf]; [done|]. by apply (I3 Hf c v).
      + assert (exists_path s [n; "metrics"] = false) as Hex.
        { unfold exists_path, is_file. rewrite Ec. rewrite bool_decide_false by (by intros [? ?]). rewrite is_dir_false; done. }
        rewrite Hex in H. destruct (IH Hn Hd _ _ _ _ H f) as (I1 & I2 & I3). split; [|split].
        * intros Hf. apply not_elem_of_cons in Hf as [Hf1 Hf2]. auto.
        * intros Hf Hf'. destruct (decide (f = n)) as [->|Hne]; [auto|]. apply elem_of_cons in Hf as [->|Hf]; [done|]. auto.
        * intros Hf c v Hc Hcv. apply elem_of_cons in Hf as [->|Hf]; [congruence|]. by apply (I3 Hf c v).
  Qed.
  Lemma load_metrics_spec s ns size len : layout s -> m_valid s -> lists_dirs s [] ns -> load_metrics decompress s ns = Some (size, len) ->
    forall f, nd f -> m_disk s f (geti size f, geti len f) /\ (forall v, m_disk s f v -> (geti size f, geti len f) = (wrap32 v.1, wrap32 v.2)).
  Proof.
    intros Hl Hv [Hn Hm] H f Hf. assert (Forall nd ns) as Hnd. { apply Forall_forall. intros n Hin. by apply Hm in Hin as [_ ?]. }
    destruct (load_metrics_fold s ns Hl Hv Hn Hnd _ _ _ _ H f) as (I1 & I2 & I3).
    assert (fs_files s !! [f; "metrics"] = None -> size !! f = None /\ len !! f = None) as HN.
    { intros E. destruct (decide (f ∈ ns)) as [Hin|Hin]; [|by apply I1]. by apply I2. }
    unfold m_disk. destruct (fs_files s !! [f; "metrics"]) as [c|] eqn:Ec.
    - assert (f ∈ ns) as Hin. { apply Hm. split; [|done]. destruct (l_files _ Hl [f; "metrics"]) as [_ Hp]; [by eexists|]. exact Hp. }
      assert (forall v, m_holds f c v -> (geti size f, geti len f) = (wrap32 v.1, wrap32 v.2)) as HW.
      { intros v Hcv. destruct (I3 Hin c v eq_refl Hcv) as [E1 E2]. unfold geti. by rewrite E1, E2. }
      split; [|exact HW]. destruct (Hv f c Hf Ec) as [v Hcv]. rewrite (HW v Hcv). destruct Hcv as (T & HT & ->). exists T. split; [|done].
      unfold m_ser in *. cbn. by rewrite !wrap32_idem.
    - destruct (HN eq_refl) as [E1 E2]. unfold geti. rewrite E1, E2. split; [done|]. intros v ->. done.
  Qed.

  Lemma m_inv_step a b : base a -> base b -> m_inv a -> sys_step compress decompress cache_size a b -> m_inv b.
  Proof.
    intros [Ba Ba'] Bb [Hv Hu] [H|H]; inversion H; subst; cbn [y_fs y_proc y_log] in *.
    - split; [|done]. cbn. eapply m_valid_keeps; [|exact Hv].
      match goal with G : mkdir_all _ _ = _ |- _ => destruct (mkdir_effect _ [] _ Ba eq_refl (Nat.le_0_l 2) G) as (_ & E & _) end. intros p _. by rewrite E.
    - split; [|done]. cbn. eapply m_valid_keeps; [|exact Hv]. destruct Ba' as [_ Bg].
      match goal with G : g_step _ _ _ _ |- _ => destruct (g_step_base _ _ _ _ _ _ Ba Bg G) as (_ & _ & _ & E) end. intros p Hp. apply E; congruence.
    - split; [exact Hv|]. cbn. match goal with G : opened _ _ _ _ _ |- _ => inversion G; subst end. split; [done|]. intros f Hn _. cbn [u_mw w_buf u_mem]. rewrite lookup_empty. unfold m_cur. cbn [c_size c_length].
      match goal with G1 : lists_dirs _ _ ?n1, G2 : load_metrics _ _ ?n1 = _ |- _ => destruct (load_metrics_spec s n1 _ _ Ba Hv G1 G2 f Hn) as [G0 _] end. exact G0.
    - destruct Ba' as [Br Bw]. match goal with G : up_step _ _ _ _ _ |- _ => destruct (up_step_who _ _ _ _ _ _ _ Ba Bw G) as [[-> G1]|[G1|[G1|[G1|[G1|G1]]]]] end.
      + split; [exact Hv|]. by eapply m_quick.
      + by apply (m_run s s' u u' ev).
      + destruct G1 as (_ & G2 & G3 & _). split; [by eapply m_valid_keeps|]. eapply m_up_keeps; eauto; by rewrite G2.
      + destruct G1 as (_ & G2 & G3 & _). split; [by eapply m_valid_keeps|]. eapply m_up_keeps; eauto; by rewrite G2.
      + destruct G1 as (_ & G2 & G3 & _). split; [by eapply m_valid_keeps|]. eapply m_up_keeps; eauto; by rewrite G2.
      + destruct G1 as (_ & G2 & G3 & _). split; [by eapply m_valid_keeps|]. eapply m_up_keeps; eauto; by rewrite G2.
    - destruct Hu as [U1 U2]. match goal with G : up_tick _ _ |- _ => inversion G; subst end; (split; [exact Hv|]); cbn [y_fs y_proc] in *; try (split; [exact U1|exact U2]).
      match goal with G : w_tick _ _ |- _ => inversion G; subst end. split; [done|exact U2].
    - destruct Hu as [U1 U2]. split; [exact Hv|]. match goal with G : up_call _ _ _ |- _ => inversion G; subst end; (split; [exact U1|exact U2]).
    - split; [exact Hv|done].
  Qed.
  Lemma m_inv_reach y : reachable compress decompress cache_size y -> good_log (y_log y) -> base y /\ m_inv y.
  Proof.
    apply reach_ind.
    - split; [|done]. intros f c _ Hc. cbn in Hc. by rewrite lookup_empty in Hc.
    - intros a b _ Ba Bb _ Ha Hs. exact (m_inv_step a b Ba Bb Ha Hs).
  Qed.
End metrics.
