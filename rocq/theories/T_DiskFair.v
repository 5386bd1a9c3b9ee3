(** C55: SaveOrUpdate, UpdateIndex and GetFields never deadlock against the background
    goroutines, and under fair scheduling every call returns. *)
From Verif Require Import Base M_Field M_LRU S_LRU S_Visits M_Memory M_File M_Serialize M_Disk P_Base P_File P_LRU S_Disk P_DiskBase P_DiskInv P_DiskMem P_DiskWriter P_DiskTerm P_DiskDocs P_DiskDocs2 P_DiskDocs3 X_DiskExec T_LRU T_DiskMetrics T_DiskNft T_DiskIndex T_DiskDocs S_DiskFair P_DiskFair P_DiskFair2.
#[local] Open Scope nat_scope.
#[local] Opaque serialize_metrics deserialize_metrics serialize_nft deserialize_nft serialize_field_map deserialize_field_map serialize_index deserialize_index.

(** In every reachable state with a call in progress some goroutine can take a step,
    unless one is at a point where it panics or calls log.Fatalf. *)
Theorem C55_no_deadlock : forall compress decompress cache_size, (0 < cache_size)%Z ->
  forall y u, reachable compress decompress cache_size y -> good_log (y_log y) -> y_proc y = Up u -> u_pc u <> CIdle ->
  ~ up_fatal decompress (u, y_fs y) -> exists A, can_move compress decompress A y.
Proof.
  intros compress decompress cs pos y u Hr Hg Hu Hn Hf. destruct (d_reach compress decompress cs pos y Hr Hg) as [[_ B] [_ D]].
  pose proof (idx_reach compress decompress cs y u Hr Hu) as Hi. rewrite Hu in B, D. destruct B as [_ Hw]. destruct D as (kvs & own & HD).
  assert (forall A, (exists ev u' s', up_step compress decompress (u, y_fs y) ev (u', s') /\ acts A u u') -> exists A, can_move compress decompress A y) as K.
  { intros A (ev & u' & s' & G & Ga). exists A, (mkSys s' (Up u') (y_log y ++ ev)). exists u, ev, u'. done. }
  assert (forall V (w : writer V), {w_pc w = WIdle} + {w_pc w <> WIdle}) as dec by (intros V w; destruct (w_pc w); by (left + right)).
  destruct (dec _ (u_mw u)) as [E1|E1]; [|apply (K MetricsWriter); by eapply mw_ready].
  destruct (dec _ (u_nw u)) as [E2|E2]; [|apply (K NftWriter); by eapply nw_ready].
  destruct (dec _ (u_dw u)) as [E3|E3]; [|apply (K DocsWriter); by eapply dw_ready].
  assert ({i_pc (u_iw u) = IIdle} + {i_pc (u_iw u) <> IIdle}) as [E4|E4] by (destruct (i_pc (u_iw u)); by (left + right)); [|apply (K IndexWriter); by eapply iw_ready].
  destruct (u_ich u) as [|p ich] eqn:E5; [|apply (K IndexReceive); apply recv_ready; [by rewrite E5|done]].
  apply (K Caller). eapply client_ready; [exact pos|exact HD|done..|]. unfold waits. rewrite E1, E2, E3, E5. cbn. destruct (u_pc u); intros W; try done; lia.
Qed.
Print Assumptions C55_no_deadlock.

(** In every infinite fair execution without crashes and fatal errors, from every
    moment on there is a later moment at which the caller has no call in progress, and
    no other call was started in between: the call in progress returns. *)
Theorem C55_call_completes : forall compress decompress cache_size, (0 < cache_size)%Z ->
  forall r, reachable compress decompress cache_size (r 0) -> (forall i, good_log (y_log (r i))) ->
  execution compress decompress cache_size r -> fair compress decompress r ->
  forall i, exists j u ev, i <= j /\ y_proc (r j) = Up u /\ u_pc u = CIdle /\
    y_log (r j) = y_log (r i) ++ ev /\ forall e, e ∈ ev -> (forall c, e <> ECall c) /\ (forall ids f, e <> EGet ids f).
Proof.
  intros compress decompress cs pos r Hr Hg Hx Hf i. by apply (call_returns compress decompress cs pos r Hx Hf Hr Hg i).
Qed.
Print Assumptions C55_call_completes.

(** The writers too: each is back at its select again and again, so every channel
    becomes ready again. *)
Theorem C55_channels_ready : forall compress decompress cache_size, (0 < cache_size)%Z ->
  forall r, reachable compress decompress cache_size (r 0) -> (forall i, good_log (y_log (r i))) ->
  execution compress decompress cache_size r -> fair compress decompress r ->
  forall i, (exists j u, i <= j /\ y_proc (r j) = Up u /\ w_pc (u_mw u) = WIdle) /\
            (exists j u, i <= j /\ y_proc (r j) = Up u /\ w_pc (u_nw u) = WIdle) /\
            (exists j u, i <= j /\ y_proc (r j) = Up u /\ w_pc (u_dw u) = WIdle) /\
            (exists j u, i <= j /\ y_proc (r j) = Up u /\ i_pc (u_iw u) = IIdle) /\
            (exists j u, i <= j /\ y_proc (r j) = Up u /\ length (u_ich u) < 100).
Proof.
  intros compress decompress cs pos r Hr Hg Hx Hf i.
  destruct (mw_often compress decompress cs pos r Hx Hf Hr Hg i) as (j1 & Hj1 & u1 & Hu1 & E1).
  destruct (nw_often compress decompress cs pos r Hx Hf Hr Hg i) as (j2 & Hj2 & u2 & Hu2 & E2).
  destruct (dw_often compress decompress cs pos r Hx Hf Hr Hg i) as (j3 & Hj3 & u3 & Hu3 & E3).
  destruct (iw_often compress decompress cs pos r Hx Hf Hr Hg i) as (j4 & Hj4 & u4 & Hu4 & E4).
  do 4 (split; [eauto 6|]). apply (ich_often compress decompress cs pos r Hx Hf Hr Hg i).
Qed.
Print Assumptions C55_channels_ready.

(** * A case: a fair execution with a complete SaveOrUpdate call *)
(** Follow a script, then stay. *)
Fixpoint run (l : list act) (y : sys) (i : nat) : sys :=
  match l, i with
  | a :: l', S i' => match exec id Some 2 a y with Some y' => run l' y' i' | None => y end
  | _, _ => y
  end.
Fixpoint all_run (chk : sys -> bool) (l : list act) (y : sys) : bool :=
  chk y && match l with a :: l' => match exec id Some 2 a y with Some y' => all_run chk l' y' | None => true end | [] => true end.
Lemma all_run_at chk l : forall y, all_run chk l y = true -> forall i, chk (run l y i) = true.
Proof.
  induction l as [|a l IH]; intros y H i; cbn in H; apply andb_true_iff in H as [H1 H2]; destruct i as [|i]; cbn; try done.
  destruct (exec id Some 2 a y) as [y'|]; [by apply IH|done].
Qed.
Lemma run_step l : forall y i, run l y (S i) = run l y i \/ sys_step id Some 2 (run l y i) (run l y (S i)).
Proof.
  induction l as [|a l IH]; intros y i; [by left|]. destruct i as [|i]; cbn.
  - destruct (exec id Some 2 a y) as [y'|] eqn:E; [|by left]. right. apply exec_ok in E. by destruct l.
  - destruct (exec id Some 2 a y) as [y'|] eqn:E; [|by left]. apply IH.
Qed.
Lemma run_stays l : forall y i, length l <= i -> run l y i = run l y (length l).
Proof.
  induction l as [|a l IH]; intros y i Hi; [by destruct i|]. destruct i as [|i]; cbn in Hi; [lia|]. cbn. destruct (exec id Some 2 a y); [|done]. apply IH. lia.
Qed.
(** Nothing runs in the background. *)
Definition still (y : sys) : bool :=
  match y_proc y with
  | Up u => match w_pc (u_mw u), w_pc (u_nw u), w_pc (u_dw u), i_pc (u_iw u), m_pc (u_mg u), u_pc u with
            | WIdle, WIdle, WIdle, IIdle, MIdle, CGetLoad _ _ _ _ _ => false
            | WIdle, WIdle, WIdle, IIdle, MIdle, _ => true
            | _, _, _, _, _, _ => false
            end
  | _ => false
  end.
Lemma still_ok y : reachable id Some 2 y -> good_log (y_log y) -> still y = true -> exists u, y_proc y = Up u /\ ~ up_fatal Some (u, y_fs y).
Proof.
  intros Hr Hg H. assert (0 < 2)%Z as pos by lia. destruct (d_reach id Some 2 pos y Hr Hg) as [_ [_ D]]. unfold still in H. destruct (y_proc y) as [| |u]; try discriminate H. exists u. split; [done|]. destruct D as (kvs & own & HD).
  pose proof (du_R _ _ _ _ _ HD) as HR. pose proof (du_cap _ _ _ _ _ HD) as Hc. clear HD.
  destruct u as [m pc ich [mb mp] [nb np] [db dp] [ib ip] [ga gp]]. cbn [u_mw u_nw u_dw u_iw u_mg w_pc i_pc m_pc u_pc u_mem] in *.
  destruct mp; try discriminate H. destruct np; try discriminate H. destruct dp; try discriminate H. destruct ip; try discriminate H. destruct gp; try discriminate H.
  intros F. inversion F as [? ? ? ? ? ? ? ? ? G| ? ? ? ? ? ? ? ? ? ? ? ? ? G1 G2| ? ? ? ? ? ? ? ? ? G| ? ? ? ? ? ? ? ? ? G| ? ? ? ? ? ? ? ? ? G| ? ? ? ? ? ? ? ? ? G| ? ? ? ? ? ? ? ? ? G]; subst.
  - inversion G; subst.
    + match goal with K : lru_get _ ?i = None |- _ => pose proof (get_refine _ _ i HR) as Q; rewrite K in Q end. done.
    + discriminate H.
    + discriminate H.
    + pose proof (get_refine _ _ d HR) as Q. match goal with K : lru_get _ _ = None |- _ => rewrite K in Q end. done.
    + pose proof (get_refine _ _ d HR) as Q. match goal with K : lru_get _ _ = Some _ |- _ => rewrite K in Q end. destruct r as [e|].
      * destruct Q as (_ & _ & _ & Qc & v & _ & _ & Q). destruct (put_refine _ _ d l Q) as (c2 & Q2 & _); [rewrite Qc, Hc; lia|]. congruence.
      * destruct Q as [_ ->]. destruct (put_refine _ _ d l HR) as (c2 & Q2 & _); [rewrite Hc; lia|]. congruence.
  - match goal with K : iterating _ _ |- _ => destruct K as (? & ? & ? & K & _); discriminate K end.
  - match goal with K : w_fatal _ _ _ |- _ => inversion K end.
  - match goal with K : w_fatal _ _ _ |- _ => inversion K end.
  - match goal with K : w_fatal _ _ _ |- _ => inversion K end.
  - match goal with K : i_fatal _ |- _ => inversion K end.
  - match goal with K : g_fatal _ _ |- _ => inversion K end.
Qed.
(** Everything is at rest. *)
Definition at_rest (y : sys) : bool :=
  match y_proc y with Up u => match u_pc u, u_ich u with CIdle, [] => true | _, _ => false end | _ => false end.
Lemma rest_ok y A : still y = true -> at_rest y = true -> ~ can_move id Some A y.
Proof.
  unfold still, at_rest. intros H1 H2 (b & u & ev & u' & Hu & _ & _ & G & Ga). rewrite Hu in H1, H2.
  destruct u as [m pc ich [mb mp] [nb np] [db dp] [ib ip] [ga gp]]. cbn [u_mw u_nw u_dw u_iw u_mg w_pc i_pc m_pc u_pc u_mem u_ich] in *.
  destruct mp; try discriminate H1. destruct np; try discriminate H1. destruct dp; try discriminate H1. destruct ip; try discriminate H1. destruct gp; try discriminate H1. destruct pc; try discriminate H2. destruct ich; try discriminate H2.
  inversion G; subst; try (match goal with K : c_step _ _ _ _ |- _ => inversion K | K : c_doc _ _ _ |- _ => inversion K | K : w_step _ _ _ _ _ _ |- _ => inversion K | K : i_step _ _ _ |- _ => inversion K | K : g_step _ _ _ _ |- _ => inversion K end).
Qed.
Definition y_open : sys := default sys_init (play 2 dopen).
Definition save_script : list act := flatten 2 (dsave "d1" x_a ++ [(true, ARecv)]) y_open.
Definition save_run : nat -> sys := run save_script y_open.
Definition log_ok (y : sys) : bool := match calls_of (y_log y) with [] => true | [c] => bool_decide (c = Save "d1" x_a) | _ => false end.
(** The hypotheses of the theorems hold of an execution in which a field with several
    terms is saved: at moment 1 the call is in progress, at the end it has returned. *)
Example C55_case : reachable id Some 2 (save_run 0) /\ (forall i, good_log (y_log (save_run i))) /\ execution id Some 2 save_run /\ fair id Some save_run /\
  (exists u, y_proc (save_run 1) = Up u /\ u_pc u = CSave "d1" x_a) /\ exists n u, 10 <= n /\ y_proc (save_run n) = Up u /\ u_pc u = CIdle /\ geti (c_size (u_mem u)) (f_name x_a) = 1%Z.
Proof.
  assert (exists n, length save_script = n /\ 10 <= n) as (n & En & Hn). { eexists. split; [reflexivity|]. apply Nat.leb_le. vm_compute. reflexivity. }
  assert (reachable id Some 2 y_open) as R0. { unfold y_open. destruct (play 2 dopen) as [y|] eqn:E; [by eapply play_reach|]. vm_compute in E. discriminate E. }
  assert (forall i, still (save_run i) = true) as St. { apply all_run_at. vm_compute. reflexivity. }
  assert (forall i, calls_of (y_log (save_run i)) = [] \/ calls_of (y_log (save_run i)) = [Save "d1" x_a]) as Lg.
  { intros i. enough (log_ok (save_run i) = true) as G.
    - unfold log_ok in G. destruct (calls_of (y_log (save_run i))) as [|c [|]]; [by left| |discriminate G]. right. apply bool_decide_eq_true_1 in G. by subst.
    - revert i. apply (all_run_at log_ok). vm_compute. reflexivity. }
  assert (forall i, good_log (y_log (save_run i))) as Gd.
  { intros i c Hc. destruct (Lg i) as [E|E]; rewrite E in Hc; [by apply elem_of_nil in Hc|]. apply elem_of_list_singleton in Hc. subst c. by vm_compute. }
  assert (forall i, reachable id Some 2 (save_run i)) as Re.
  { induction i as [|i IH]; [done|]. destruct (run_step save_script y_open i) as [E|E]; [unfold save_run; by rewrite E|]. unfold reachable in *. eapply rtc_r; [exact IH|exact E]. }
  split; [apply Re|]. split; [done|]. split.
  { intros i. split; [|by apply still_ok]. destruct (run_step save_script y_open i) as [E|[E|E]]; [by left|by right|]. exfalso. specialize (St (S i)). fold save_run in E. inversion E as [? ? ? ? E1 E2]. rewrite <- E2 in St. cbn in St. discriminate St. }
  split.
  { intros A i. right. exists (i `max` n). split; [lia|]. intros m Hm. apply rest_ok; [done|]. unfold save_run. rewrite run_stays by lia. vm_compute. reflexivity. }
  split; [eexists; split; vm_compute; reflexivity|].
  exists (length save_script). eexists. split; [by rewrite En|]. split; [vm_compute; reflexivity|]. split; vm_compute; reflexivity.
Qed.
