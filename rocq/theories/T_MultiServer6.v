(** C69: with fair scheduling, and the tickers running for ever, every POST request is
    served, whatever GET requests arrive. *)
From Verif Require Import Base M_Text M_Language M_Field M_LRU S_Visits M_Memory M_File M_Serialize M_Num M_FanIn M_Search M_Concurrent M_SearchConc M_Disk M_DiskBusy M_DiskMulti M_Standard M_Server M_BusyServer M_MultiServer S_Search S_Server S_Concurrent S_Disk S_DiskFair S_DiskMulti S_DiskMultiFair S_DiskQuery S_BusyServer S_MultiServer S_MultiServer3 S_MultiServer4 P_Base P_Server P_DiskIndex3 P_MultiServer P_MultiServer2 X_DiskExec X_DiskMulti X_DiskQuery T_Server T_BusyServer T_BusyServer2 T_DiskNft T_DiskIndex T_DiskMulti T_DiskMulti8 T_MultiServer X_MultiServer T_MultiServer2 T_DiskMulti2.
#[local] Open Scope nat_scope.
#[local] Opaque serialize_metrics serialize_nft serialize_field_map serialize_index deserialize_index deserialize_nft deserialize_field_map deserialize_metrics.

(** In every run in which no POST request arrives any more, each writer moves again unless
    it can never move from some time on, and so do the handlers of the POST requests: from
    every moment on there is a moment at which all POST requests received have been served. *)
Theorem C69_served_fairly : forall compress decompress cs, gzip_ok compress decompress -> (0 < cs)%Z ->
  forall bind is_letter is_number to_lower stem fold N ncpu (r : nat -> mserver N),
  mserver_reachable compress decompress cs bind is_letter is_number to_lower stem fold N ncpu (r 0) -> plain_ids bind (r 0) ->
  ms_no_posts compress decompress cs bind is_letter is_number to_lower stem fold ncpu r -> multi_fair compress decompress (fun i => ms_store (r i)) ->
  forall i, exists j, i <= j /\ served (ms_store (r j)).
Proof.
  intros compress decompress cs gz pos bind il inum tl st fo N ncpu r R0 P0 Hr Hf.
  assert (forall i, mserver_reachable compress decompress cs bind il inum tl st fo N ncpu (r i) /\ plain_ids bind (r i)) as HR.
  { intros i. induction i as [|i [IR IP]]; [done|]. destruct (Hr i) as ([E|[L En]] & (u & Hu) & _); [by rewrite E|]. split; [unfold mserver_reachable in *; eapply rtc_r; [exact IR|by left]|].
    assert (ms_past (r (S i)) = ms_past (r i)) as Ep by (inversion L; subst; done). intros body doc. rewrite Ep, En. apply IP. }
  apply (C66_served_fairly compress decompress cs gz pos (fun i => ms_store (r i))).
  - by eapply ms_store_reach.
  - intros i. cbn beta. destruct (Hr i) as (Hs & Ho & Hn). split; [|done]. destruct Hs as [->|[L En]]; [by left|].
    revert L En. generalize (r i) (r (S i)). clear. intros x y L En.
    destruct L as [b b' gs now past K K2|s u log sh ths qs gs now past body status calls K|b gs now past u queries K|s u log sh ths qs gs now past k queries w w' q K K2 K3|b gs now past k queries w w' K K2]; cbn [ms_store ms_now] in *.
    + right. split; [done|]. by destruct K2.
    + exfalso. apply (f_equal length) in En. rewrite app_length in En. cbn in En. lia.
    + by left.
    + right. split; [by constructor|done].
    + by left.
  - exact Hf.
  - intros i. destruct (HR i) as [IR IP]. by destruct (plain_good _ _ _ _ _ _ _ _ _ _ _ _ IR IP).
Qed.
Print Assumptions C69_served_fairly.

(** * A run that meets the hypotheses *)
Definition calmv (a : multi) : bool :=
  match y_proc (mu_sys a) with
  | Up u => match u_pc u, w_pc (u_mw u), w_pc (u_nw u), w_pc (u_dw u), i_pc (u_iw u), m_pc (u_mg u) with CIdle, WIdle, WIdle, WIdle, IIdle, MIdle => true | _, _, _, _, _, _ => false end
  | _ => false end.
(** The goroutines of the two requests take turns, then the index writer takes what is in
    its channel. *)
Fixpoint first_of (l : list mact) (a : multi) : option multi := match l with [] => None | x :: l => match mexec id Some 1 x a with Some b => Some b | None => first_of l a end end.
Fixpoint calm_states (n : nat) (a : multi) : option (list multi) :=
  if emptyb a then Some [] else match n with 0 => None | S n =>
    match first_of (if Nat.even n then [MStep 0; MStep 1; MCall 0; MCall 1; MSys ARecv] else [MStep 1; MStep 0; MCall 1; MCall 0; MSys ARecv]) a with
    | Some b => if calmv b && (length (mu_threads b) <=? length (mu_threads a)) && (length (mu_qs b) <=? length (mu_qs a)) then match calm_states n b with Some l => Some (b :: l) | None => None end else None
    | None => None end end.
Definition calm2 (a : multi) : Prop := exists u, mu_open a u /\ u_pc u = CIdle /\ w_pc (u_mw u) = WIdle /\ w_pc (u_nw u) = WIdle /\ w_pc (u_dw u) = WIdle /\ i_pc (u_iw u) = IIdle /\ m_pc (u_mg u) = MIdle.
Lemma calmv_ok a : calmv a = true -> calm2 a.
Proof.
  unfold calmv, calm2, mu_open. intros H1. destruct (y_proc (mu_sys a)) as [| |u]; try discriminate H1. exists u. split; [done|].
  destruct (u_pc u); try discriminate H1. destruct (w_pc (u_mw u)); try discriminate H1. destruct (w_pc (u_nw u)); try discriminate H1. destruct (w_pc (u_dw u)); try discriminate H1.
  destruct (i_pc (u_iw u)); try discriminate H1. destruct (m_pc (u_mg u)); try discriminate H1. by repeat split.
Qed.
Lemma calm2_alive a : calm2 a -> (exists u, mu_open a u) /\ ~ stopping Some a.
Proof.
  intros (u & Hu & E1 & E2 & E3 & E4 & E5 & E6). split; [by exists u|]. intros (v & Hv & Hx). assert (v = u) as -> by (unfold mu_open in *; congruence).
  destruct u as [m pc ich [mb mp] [nb np] [db dp] [ib ip] [acc gp]]. cbn in *. subst. inversion Hx; subst; match goal with K : _ |- _ => by inversion K end.
Qed.
Lemma empty_rest2 a : calm2 a -> emptyb a = true -> (forall A, A <> Caller -> ~ can_move id Some A (mu_sys a)) /\ (forall b, ~ request_step id Some a b).
Proof.
  intros (u & Hu & E1 & E2 & E3 & E4 & E5 & E6) H. unfold emptyb in H. unfold mu_open in Hu. rewrite Hu in H. apply andb_true_iff in H as [H1 H2].
  assert (served a) as Hs. { intros th Hth. rewrite forallb_forall in H2. specialize (H2 th ltac:(by apply elem_of_list_In)). destruct th as [[pc m] cs]. destruct pc, m, cs; done. }
  destruct (u_ich u) eqn:E7; [|discriminate H1]. split.
  - intros A HA (b & v & ev & v' & Hv & _ & _ & St & Ha). assert (v = u) as -> by congruence. destruct u as [m pc ich [mb mp] [nb np] [db dp] [ib ip] [acc gp]]. cbn in *. subst.
    inversion St; subst; try (match goal with K : _ |- _ => by inversion K end). all: destruct A; cbn in Ha; tauto.
  - intros b [W Ht]. inversion W as [s v log sh ths qs ev v' s' St Ep|s v log sh ths qs i c cl Hi|s v log sh ths qs i th cl ev sh' v' th' Hi HC]; subst; cbn in *; [done| |].
    + apply elem_of_list_lookup_2 in Hi. by apply Hs in Hi.
    + apply elem_of_list_lookup_2 in Hi. apply Hs in Hi. injection Hi as -> ->. inversion HC; subst. match goal with K : t_step _ _ |- _ => inversion K end.
Qed.
Lemma first_of_ok l a b : first_of l a = Some b -> calm2 b -> multi_live id Some 1 a b.
Proof.
  induction l as [|x l IH]; intros H Hb; [discriminate H|]. cbn in H. destruct (mexec id Some 1 x a) as [c|] eqn:E; [|by apply IH]. injection H as ->.
  apply mexec_ok in E as [E|(y & Hc & ->)]; [done|]. exfalso. destruct Hb as (u & Hu & _). unfold mu_open in Hu. cbn in Hu. inversion Hc; subst. discriminate.
Qed.
Lemma calm_states_run n : forall a l, calm2 a -> calm_states n a = Some l -> exists (r : nat -> multi) m, r 0 = a /\ (forall i, calm2 (r i)) /\
  (forall i, r (S i) = r i \/ (multi_live id Some 1 (r i) (r (S i)) /\ no_arrival (r i) (r (S i)))) /\ (forall i, m <= i -> r i = r m) /\ emptyb (r m) = true.
Proof.
  induction n as [|n IH]; intros a l Ha H; cbn [calm_states] in H.
  all: destruct (emptyb a) eqn:Ee; [exists (fun _ => a), 0; split; [done|]; split; [done|]; split; [by left|]; done|]. 1: discriminate H.
  destruct (first_of _ a) as [b|] eqn:E; [|discriminate H]. destruct (calmv b && _ && _) eqn:Hc; [|discriminate H]. apply andb_true_iff in Hc as [Hc H3]. apply andb_true_iff in Hc as [Hc H2]. apply Nat.leb_le in H2, H3. apply calmv_ok in Hc.
  destruct (calm_states n b) as [l'|] eqn:El; [|discriminate H]. destruct (IH b l' Hc El) as (r & m & R0 & R1 & R2 & R3 & R4).
  exists (fun i => match i with 0 => a | S j => r j end), (S m). split; [done|]. split; [intros [|i]; [done|apply R1]|]. split; [|split; [intros [|i] Hi; [lia|apply R3; lia]|done]].
  intros [|i]; [|apply R2]. right. rewrite R0. split; [by eapply first_of_ok|done].
Qed.
(** Two documents have been posted and neither POST request is served; in the run both are. *)
Example C69_fair_run : forall N, exists r : nat -> mserver N,
  mserver_reachable id Some 1 mb_bind bs_letter bs_number same same same N 4 (r 0) /\ plain_ids mb_bind (r 0) /\ ms_now (r 0) = ["one"; "two"] /\
  ms_no_posts id Some 1 mb_bind bs_letter bs_number same same same 4 r /\ multi_fair id Some (fun i => ms_store (r i)) /\ ~ served (ms_store (r 0)).
Proof.
  intros N.
  assert (match vplay 1 v_any (run_v1 ++ [(false, VPost "one"); (false, VPost "two")]) (mserver_init N) with
    | Some x => calmv (ms_store x) && bool_decide (ms_now x = ["one"; "two"]) && negb (servedb (ms_store x)) && match calm_states 2000 (ms_store x) with Some _ => true | None => false end
    | None => false end = true) as H by (vm_compute; reflexivity).
  destruct (vplay 1 v_any _ (mserver_init N)) as [x|] eqn:Ex; [|discriminate H]. pose proof (vplay_step 1 4 _ _ _ _ Ex) as Rx. clear Ex.
  apply andb_true_iff in H as [H H4]. apply andb_true_iff in H as [H H3]. apply andb_true_iff in H as [H1 H2]. apply bool_decide_eq_true_1 in H2. apply calmv_ok in H1.
  destruct (calm_states 2000 (ms_store x)) as [l|] eqn:El; [|discriminate H4]. destruct (calm_states_run _ _ _ H1 El) as (r & m & R0 & R1 & R2 & R3 & R4).
  destruct (empty_rest2 (r m) (R1 m) R4) as (E1 & E2). destruct x as [b gs now past]. cbn [ms_store ms_now] in *.
  exists (fun i => mkMServer (r i) gs now past). cbn [ms_store ms_now]. rewrite R0.
  split; [exact Rx|]. split; [apply mb_plain|]. split; [exact H2|]. split; [|split].
  - intros i. cbn [ms_store ms_now]. split; [|by apply calm2_alive]. destruct (R2 i) as [->|[L Q]]; [by left|]. right. split; [|done]. by apply mv_step.
  - split.
    + intros A i HA. right. exists (i + m). split; [lia|]. intros k Hk. rewrite (R3 k) by lia. by apply E1.
    + intros i. right. exists (i + m). split; [lia|]. intros k c Hk. rewrite (R3 k) by lia. apply E2.
  - intros K. apply negb_true_iff in H3. assert (servedb b = true) as X; [|by rewrite X in H3]. unfold servedb. apply forallb_forall. intros th Hth. apply elem_of_list_In in Hth. by rewrite (K th Hth).
Qed.
