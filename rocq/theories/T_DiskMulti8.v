(** C66: with fair scheduling, and the tickers running for ever, every request is served. *)
From Verif Require Import Base M_Field M_LRU S_Visits M_Memory M_File M_Serialize M_Num M_FanIn M_Search M_Concurrent M_SearchConc M_Disk P_Base P_File S_Memory S_Concurrent P_Concurrent P_Concurrent2 P_DiskBase P_DiskInv P_DiskMem P_DiskWriter M_DiskBusy M_DiskMulti P_DiskIndex3 P_DiskIndex4 X_DiskExec T_DiskMetrics T_DiskNft T_DiskIndex S_Disk S_DiskFair S_DiskMulti S_DiskMultiFair P_DiskMulti P_DiskMulti2 P_DiskMulti3 P_DiskMulti6 P_DiskMulti7 P_DiskMultiFair X_DiskMulti T_DiskMulti T_DiskMulti2.
#[local] Open Scope nat_scope.
#[local] Opaque serialize_metrics deserialize_metrics serialize_nft deserialize_nft serialize_field_map deserialize_field_map serialize_index deserialize_index.

(** In every run in which no POST request arrives any more, each writer moves again unless
    it can never move from some time on, and so do the goroutines of the requests: from
    every moment on there is a moment at which every request has been served.  Searches may
    be called, the tickers may fire and the index files may be merged at any moments. *)
Theorem C66_served_fairly : forall compress decompress cache_size, gzip_ok compress decompress -> (0 < cache_size)%Z ->
  forall r : nat -> multi, multi_reachable compress decompress cache_size (r 0) -> multi_run compress decompress cache_size r -> multi_fair compress decompress r ->
  (forall i, good_log (mu_log (r i))) -> forall i, exists j, i <= j /\ served (r j).
Proof. intros compress decompress cs gz pos r Hr Hx Hf Hg. by apply (served_at compress decompress cs gz pos r Hx Hf Hr Hg). Qed.
Print Assumptions C66_served_fairly.

(** * A run that meets the hypotheses *)
Definition calmb (a : multi) : bool :=
  match y_proc (mu_sys a) with
  | Up u => match u_pc u, w_pc (u_mw u), w_pc (u_nw u), w_pc (u_dw u), i_pc (u_iw u), m_pc (u_mg u) with CIdle, WIdle, WIdle, WIdle, IIdle, MIdle => true | _, _, _, _, _, _ => false end
  | _ => false end && forallb (fun c => bool_decide (c = Save "d1" x_a) || bool_decide (c = Save "d2" x_b)) (calls_of (mu_log a)).
Definition emptyb (a : multi) : bool := match y_proc (mu_sys a) with Up u => match u_ich u with [] => true | _ => false end | _ => false end && forallb (fun th => match th with (TIdle, NoMsg, []) => true | _ => false end) (mu_threads a).
Fixpoint calm_path (l : list mact) (a : multi) : bool :=
  calmb a && match l with [] => emptyb a | x :: l => match mexec id Some 2 x a with Some b => (length (mu_threads b) <=? length (mu_threads a)) && calm_path l b | None => false end end.
Definition calm (a : multi) : Prop := (exists u, mu_open a u /\ u_pc u = CIdle /\ w_pc (u_mw u) = WIdle /\ w_pc (u_nw u) = WIdle /\ w_pc (u_dw u) = WIdle /\ i_pc (u_iw u) = IIdle /\ m_pc (u_mg u) = MIdle) /\ good_log (mu_log a).
Lemma calmb_ok a : calmb a = true -> calm a.
Proof.
  unfold calmb, calm, mu_open. intros H. apply andb_true_iff in H as [H1 H2]. split.
  - destruct (y_proc (mu_sys a)) as [| |u]; try discriminate H1. exists u. split; [done|].
    destruct (u_pc u); try discriminate H1. destruct (w_pc (u_mw u)); try discriminate H1. destruct (w_pc (u_nw u)); try discriminate H1. destruct (w_pc (u_dw u)); try discriminate H1.
    destruct (i_pc (u_iw u)); try discriminate H1. destruct (m_pc (u_mg u)); try discriminate H1. by repeat split.
  - intros c Hc. rewrite forallb_forall in H2. specialize (H2 c ltac:(by apply elem_of_list_In)). apply orb_true_iff in H2 as [H2|H2]; apply bool_decide_eq_true_1 in H2 as ->; repeat constructor; done.
Qed.
Lemma calm_alive a : calm a -> (exists u, mu_open a u) /\ ~ stopping Some a.
Proof.
  intros [(u & Hu & E1 & E2 & E3 & E4 & E5 & E6) _]. split; [by exists u|]. intros (v & Hv & Hx). assert (v = u) as -> by (unfold mu_open in *; congruence).
  destruct u as [m pc ich [mb mp] [nb np] [db dp] [ib ip] [acc gp]]. cbn in *. subst. inversion Hx; subst; match goal with K : _ |- _ => by inversion K end.
Qed.
Lemma empty_rest a : calm a -> emptyb a = true -> (forall A, A <> Caller -> ~ can_move id Some A (mu_sys a)) /\ (forall b, ~ request_step id Some a b) /\ served a.
Proof.
  intros [(u & Hu & E1 & E2 & E3 & E4 & E5 & E6) _] H. unfold emptyb in H. unfold mu_open in Hu. rewrite Hu in H. apply andb_true_iff in H as [H1 H2].
  assert (served a) as Hs. { intros th Hth. rewrite forallb_forall in H2. specialize (H2 th ltac:(by apply elem_of_list_In)). destruct th as [[pc m] cs]. destruct pc, m, cs; done. }
  destruct (u_ich u) eqn:E7; [|discriminate H1]. split; [|split; [|done]].
  - intros A HA (b & v & ev & v' & Hv & _ & _ & St & Ha). assert (v = u) as -> by congruence. destruct u as [m pc ich [mb mp] [nb np] [db dp] [ib ip] [acc gp]]. cbn in *. subst.
    inversion St; subst; try (match goal with K : _ |- _ => by inversion K end). all: destruct A; cbn in Ha; tauto.
  - intros b [W Ht]. inversion W as [s v log sh ths qs ev v' s' St Ep|s v log sh ths qs i c cl Hi|s v log sh ths qs i th cl ev sh' v' th' Hi HC]; subst; cbn in *; [done| |].
    + apply elem_of_list_lookup_2 in Hi. by apply Hs in Hi.
    + apply elem_of_list_lookup_2 in Hi. apply Hs in Hi. injection Hi as -> ->. inversion HC; subst. match goal with K : t_step _ _ |- _ => inversion K end.
Qed.
Lemma calm_run l : forall a, calm_path l a = true -> exists (r : nat -> multi) n, r 0 = a /\ (forall i, calm (r i)) /\
  (forall i, r (S i) = r i \/ (multi_live id Some 2 (r i) (r (S i)) /\ length (mu_threads (r (S i))) <= length (mu_threads (r i)))) /\ (forall i, n <= i -> r i = r n) /\ emptyb (r n) = true.
Proof.
  induction l as [|x l IH]; intros a H; cbn [calm_path] in H; apply andb_true_iff in H as [H1 H].
  - exists (fun _ => a), 0. split; [done|]. split; [intros _; by apply calmb_ok|]. split; [by left|]. done.
  - destruct (mexec id Some 2 x a) as [b|] eqn:E; [|discriminate H]. apply andb_true_iff in H as [H2 H]. apply Nat.leb_le in H2. destruct (IH b H) as (r & n & R0 & R1 & R2 & R3 & R4).
    exists (fun i => match i with 0 => a | S j => r j end), (S n). split; [done|]. split; [intros [|i]; [by apply calmb_ok|apply R1]|]. split; [|split; [intros [|i] Hi; [lia|apply R3; lia]|done]].
    intros [|i]; [|apply R2]. right. rewrite R0. split; [|done]. apply mexec_ok in E as [E|(y & Hc & Eb)]; [done|]. exfalso. pose proof (R1 0) as [(u & Hu & _) _]. rewrite R0 in Hu. unfold mu_open in Hu. subst b. cbn in Hu. inversion Hc; subst. discriminate.
Qed.
(** Two requests are being handled at the same time; the run serves them. *)
Example C66_fair_run : exists r : nat -> multi, multi_reachable id Some 2 (r 0) /\ multi_run id Some 2 r /\ multi_fair id Some r /\ (forall i, good_log (mu_log (r i))) /\ ~ served (r 0).
Proof.
  assert (match mplay id Some 2 two_saves multi_init with Some a => calm_path (repeat (MStep 0) 23 ++ repeat (MStep 1) 22 ++ repeat (MSys ARecv) 2) a && negb (servedb a) | None => false end = true) as H by (vm_compute; reflexivity).
  destruct (mplay id Some 2 two_saves multi_init) as [a|] eqn:Ea; [|discriminate H]. apply andb_true_iff in H as [H Hs]. apply mplay_ok in Ea.
  destruct (calm_run _ a H) as (r & n & R0 & R1 & R2 & R3 & R4). exists r. subst a.
  destruct (empty_rest (r n) (R1 n) R4) as (E1 & E2 & _).
  split; [exact Ea|]. split; [intros i; split; [apply R2|by apply calm_alive]|]. split; [|split; [intros i; apply R1|]].
  - split.
    + intros A i HA. right. exists (i + n). split; [lia|]. intros m Hm. rewrite (R3 m) by lia. by apply E1.
    + intros i. right. exists (i + n). split; [lia|]. intros m b Hm. rewrite (R3 m) by lia. apply E2.
  - intros K. apply negb_true_iff in Hs. assert (servedb (r 0) = true) as X; [|by rewrite X in Hs]. unfold servedb. apply forallb_forall. intros th Hth. apply elem_of_list_In in Hth. by rewrite (K th Hth).
Qed.
