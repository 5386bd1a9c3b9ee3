(** C66: concurrent saves on the disk storage: no deadlock, and every request is served. *)
From Verif Require Import Base M_Field M_LRU S_Visits M_Memory M_File M_Serialize M_Num M_FanIn M_Search M_Concurrent M_SearchConc M_Disk P_Base P_File S_Memory S_Concurrent P_Concurrent P_Concurrent2 P_DiskBase P_DiskInv P_DiskMem P_DiskWriter M_DiskBusy M_DiskMulti P_DiskIndex3 P_DiskIndex4 X_DiskExec T_DiskMetrics T_DiskNft T_DiskIndex S_Disk S_DiskMulti P_DiskMulti P_DiskMulti2 P_DiskMulti3 P_DiskMulti6 P_DiskMulti7 X_DiskMulti T_DiskMulti T_DiskMulti2.
#[local] Open Scope Z_scope.
#[local] Opaque serialize_metrics deserialize_metrics serialize_nft deserialize_nft serialize_field_map deserialize_field_map serialize_index deserialize_index.

(** As long as a request is not served, one of the goroutines that have work to do can take a
    step, unless the process is about to end with an error. *)
Theorem C66_no_deadlock : forall compress decompress cache_size, gzip_ok compress decompress -> (0 < cache_size)%Z ->
  forall a u, multi_reachable compress decompress cache_size a -> good_log (mu_log a) -> mu_open a u -> ~ served a -> ~ stopping decompress a ->
  exists b, works compress decompress a b.
Proof.
  intros compress decompress cs gz pos a u R Hg Hu Hs Hf. apply (no_deadlock compress decompress cs gz pos a u R Hg Hu Hs). intros H. apply Hf. by exists u.
Qed.
Print Assumptions C66_no_deadlock.

(** In whatever order they take their steps: without further requests they come to rest, and
    then every request is served, unless the process is about to end with an error. *)
Theorem C66_served : forall compress decompress cache_size, gzip_ok compress decompress -> (0 < cache_size)%Z ->
  forall a u, multi_reachable compress decompress cache_size a -> good_log (mu_log a) -> mu_open a u ->
  (forall r : nat -> multi, r 0%nat = a -> ~ (forall i, works compress decompress (r i) (r (S i)))) /\
  (forall b, rtc (works compress decompress) a b -> good_log (mu_log b) -> (forall c, ~ works compress decompress b c) -> ~ stopping decompress b -> served b).
Proof.
  intros compress decompress cs gz pos a u R Hg Hu. destruct (m_up compress decompress cs gz a u R Hg Hu) as (_ & _ & G & L & ol & oa & I). pose proof (mi_pc _ _ _ _ _ _ _ _ _ _ I) as Ip.
  assert (quiet_up a) as Hq. { intros v Hv. unfold mu_open in Hu. rewrite Hu in Hv. by injection Hv as <-. }
  split.
  - intros r E Hr. pose proof (works_acc compress decompress a Hq) as A. rewrite <- E in A. clear - A Hr. remember (r 0%nat) as x eqn:Ex. revert r Ex Hr. induction A as [x _ IH]. intros r -> Hr.
    apply (IH (r 1%nat) (Hr 0%nat) (fun i => r (S i))); [done|]. intros i. apply Hr.
  - intros b Hab. assert (multi_reachable compress decompress cs b /\ exists v, mu_open b v) as [Rb [v Hv]].
    { assert (rtc (multi_live compress decompress cs) a b /\ quiet_up b /\ exists v, mu_open b v) as (X1 & X2 & X3).
      { clear - Hab Hq Hu. revert u Hu Hq. induction Hab as [a|a b c H1 H2 IH]; intros u Hu Hq; [split; [apply rtc_refl|]; eauto|].
        assert (exists v, mu_open b v) as [v Hv]. { inversion H1; subst; eexists; reflexivity. }
        specialize (IH v Hv (works_quiet _ _ _ _ H1 Hq)) as (Y1 & Y2 & Y3). split; [|done]. eapply rtc_l; [by apply (works_live compress decompress cs)|done]. }
      split; [|done]. unfold multi_reachable in *. etransitivity; [exact R|]. eapply (rtc_subrel _ _ _ _ _ X1). Unshelve. intros x y Hxy. by left. }
    intros Hgb Hend Hst. destruct (served_or (mu_threads b)) as [?|(i & th & E1 & E2)]; [done|]. exfalso.
    assert (~ served b) as Hn by (intros X; apply E2, X; by eapply elem_of_list_lookup_2). destruct (no_deadlock compress decompress cs gz pos b v Rb Hgb Hv Hn) as [c Hc]; [|by apply (Hend c)]. intros Hx. apply Hst. by exists v.
Qed.
Print Assumptions C66_served.

(** A state that meets the hypotheses: the first caller waits for the metrics writer, which
    is writing; the second has not started. *)
Example C66_waiting : exists a u, multi_reachable id Some 2 a /\ good_log (mu_log a) /\ mu_open a u /\ ~ served a /\ ~ stopping Some a /\ w_pc (u_mw u) = WLoop [].
Proof.
  destruct (mplay_obs 2 (two_saves ++ msteps 6 0 ++ ms [(false, TMetrics)])
    (fun a => (match y_proc (mu_sys a) with Up u => match u_pc u, u_ich u, w_pc (u_mw u), w_pc (u_nw u), w_pc (u_dw u), i_pc (u_iw u), m_pc (u_mg u) with CIdle, [], WLoop [], WIdle, WIdle, IIdle, MIdle => true | _, _, _, _, _, _, _ => false end | _ => false end,
               bool_decide (calls_of (mu_log a) = [Save "d1" x_a; Save "d2" x_b]), servedb a))
    (true, true, false)) as (a & Hr & H); [vm_compute; reflexivity|].
  apply pair_equal_spec in H as [H H3]. apply pair_equal_spec in H as [H1 H2]. apply bool_decide_eq_true_1 in H2.
  destruct (y_proc (mu_sys a)) as [| |u] eqn:E; try discriminate H1. exists a, u. split; [done|]. split; [apply (good_log_case _ _ H2); repeat constructor; done|]. split; [done|].
  split.
  { intros Hs. assert (servedb a = true) as X; [|rewrite X in H3; discriminate H3]. unfold servedb. apply forallb_forall. intros th Hth. apply elem_of_list_In in Hth. by rewrite (Hs th Hth). }
  destruct u as [m pc ich [mb mp] [nb np] [db dp] [ib ip] [acc gp]]. cbn in H1.
  destruct pc; try discriminate H1. destruct ich; try discriminate H1. destruct mp as [|[|]| | |]; try discriminate H1. destruct np; try discriminate H1. destruct dp; try discriminate H1. destruct ip; try discriminate H1. destruct gp; try discriminate H1.
  split; [|done]. intros (v & Hv & Hx). unfold mu_open in Hv. rewrite E in Hv. injection Hv as <-.
  inversion Hx; subst; match goal with K : _ |- _ => by inversion K end.
Qed.
