(** Property theorems C17-C21 (cache/RCU.go, cache/Map.go, cache/Shard.go,
    cache/LocalMap.go). *)
From Verif Require Import Base M_Cache S_Cache P_Base P_Cache P_Cache2.
#[local] Open Scope Z_scope.

(* ------------------------------------------------------------------ *)
(** C17.  In every interleaving, what a reader sees at one moment is the table
    obtained from the first n Puts, for all keys at once, n never decreases,
    and n counts only Puts that were already accepted. *)
Theorem C17_rcu_snapshots : forall (T : Type) tr1 (s1 : rcu T) tr2 s2,
  rcu_exec rcu_new tr1 s1 -> rcu_exec s1 tr2 s2 ->
  exists n m, (n <= m <= length (puts_of (tr1 ++ tr2)))%nat /\ (n <= length (puts_of tr1))%nat /\
    (forall k r s', rcu_step s1 (RGet k r) s' -> r = last_values (take n (puts_of (tr1 ++ tr2))) !! k) /\
    (forall k r s', rcu_step s2 (RGet k r) s' -> r = last_values (take m (puts_of (tr1 ++ tr2))) !! k).
Proof.
  intros T tr1 s1 tr2 s2 H1 H2. destruct (rcu_snapshots _ _ _ _ H1 H2) as (n & m & A & B & C & D).
  exists n, m. split; [exact A|]. split; [exact B|].
  split; intros k r s' G; apply rcu_get_answer in G as [-> _]; auto.
Qed.
Print Assumptions C17_rcu_snapshots.

Theorem C17_rcu_get_returns_an_earlier_put : forall (T : Type) tr (s : rcu T) k v s',
  rcu_exec rcu_new tr s -> rcu_step s (RGet k (Some v)) s' -> (k, v) ∈ puts_of tr.
Proof. intros T. exact rcu_get_sound. Qed.
Print Assumptions C17_rcu_get_returns_an_earlier_put.

Theorem C17_rcu_get_never_fails_again : forall (T : Type) tr1 (s1 : rcu T) tr2 s2 k v r s1' s2',
  rcu_exec rcu_new tr1 s1 -> rcu_step s1 (RGet k (Some v)) s1' -> rcu_exec s1' tr2 s2 ->
  rcu_step s2 (RGet k r) s2' -> is_Some r.
Proof. intros T. exact rcu_get_stays. Qed.
Print Assumptions C17_rcu_get_never_fails_again.

(* ------------------------------------------------------------------ *)
(** C18.  Drained and flushed: exactly the last Put of every key. *)
Theorem C18_rcu_drained_is_exact : forall (T : Type) tr (s : rcu T),
  rcu_exec rcu_new tr s -> rc_ch s = [] -> rc_buffer s = ∅ -> rc_pc s = RIdle ->
  forall k r s', rcu_step s (RGet k r) s' -> r = last_values (puts_of tr) !! k.
Proof.
  intros T tr s H A B C k r s' G. apply rcu_get_answer in G as [-> _]. exact (rcu_drained tr s H A B C k).
Qed.
Print Assumptions C18_rcu_drained_is_exact.

(** Every Put received before a tick is published by the writer's next step. *)
Theorem C18_rcu_flush_publishes : forall (T : Type) tr1 (s1 s2 : rcu T) tr2 s3,
  rcu_exec rcu_new tr1 s1 -> rcu_step s1 RInternal s2 -> (exists copy, rc_pc s2 = RStore copy) ->
  rcu_exec s2 tr2 s3 -> RInternal ∈ tr2 ->
  exists m, (length (puts_of tr1) - length (rc_ch s1) <= m)%nat /\
    forall k, rc_data s3 !! k = last_values (take m (puts_of (tr1 ++ [RInternal] ++ tr2))) !! k.
Proof. intros T. exact rcu_flush. Qed.
Print Assumptions C18_rcu_flush_publishes.

(** From every state the writer by itself can reach a drained, flushed state. *)
Theorem C18_rcu_writer_can_publish : forall (T : Type) (s : rcu T),
  exists tr s', rcu_exec s tr s' /\ Forall (fun l => l = RInternal) tr /\
    rc_ch s' = [] /\ rc_buffer s' = ∅ /\ rc_pc s' = RIdle.
Proof. intros T. exact rcu_can_publish. Qed.
Print Assumptions C18_rcu_writer_can_publish.

(** Put is accepted exactly while fewer than 1000 sends are undelivered, and a
    blocked Put can always be unblocked by the writer alone. *)
Theorem C18_rcu_put_blocks_only_when_full : forall (T : Type) (s : rcu T) k v,
  (exists s', rcu_step s (RPut k v) s') <-> (length (rc_ch s) < 1000)%nat.
Proof. intros T. exact rcu_put_enabled. Qed.
Print Assumptions C18_rcu_put_blocks_only_when_full.
Theorem C18_rcu_put_can_be_unblocked : forall (T : Type) tr (s : rcu T), rcu_exec rcu_new tr s ->
  exists tr' s', rcu_exec s tr' s' /\ Forall (fun l => l = RInternal) tr' /\
    forall k v, exists s'', rcu_step s' (RPut k v) s''.
Proof. intros T. exact rcu_can_unblock. Qed.
Print Assumptions C18_rcu_put_can_be_unblocked.

(** Non-vacuity: Put a=1, Put a=2, tick with only the first received; later Get
    answers 1, then 2. *)
Example C17_witness : exists s1 s2 : rcu Z,
  rcu_exec rcu_new ([] ++ [RPut "a" 1] ++ [RPut "a" 2] ++ [RInternal] ++ [RInternal] ++ [RInternal]) s1 /\
  rcu_step s1 (RGet "a" (Some 1)) s1 /\
  rcu_exec s1 ([] ++ [RInternal] ++ [RInternal] ++ [RInternal] ++ [RInternal] ++ [RInternal]) s2 /\
  rcu_step s2 (RGet "a" (Some 2)) s2 /\ rc_ch s2 = [] /\ rc_buffer s2 = ∅ /\ rc_pc s2 = RIdle.
Proof.
  assert (forall (s : rcu Z) k r, rc_data s !! k = r -> rcu_step s (RGet k r) s) as rcu_get'.
  { intros [d ch b pc] k r <-. apply rcu_get. }
  eexists _, _. rewrite !app_assoc. split; [|split; [|split; [|split; [|split; [|split]]]]].
  - eapply rcu_exec_snoc; [eapply rcu_exec_snoc; [eapply rcu_exec_snoc; [eapply rcu_exec_snoc; [eapply rcu_exec_snoc; [constructor|]|]|]|]|].
    + eapply rcu_put. cbn. unfold rcu_chan_cap. lia.
    + eapply rcu_put. cbn. unfold rcu_chan_cap. lia.
    + eapply rcu_recv.
    + eapply (rcu_tick _ _ _ [] ["a"]); vm_compute; reflexivity.
    + eapply rcu_store.
  - eapply rcu_get'; vm_compute; reflexivity.
  - eapply rcu_exec_snoc; [eapply rcu_exec_snoc; [eapply rcu_exec_snoc; [eapply rcu_exec_snoc; [eapply rcu_exec_snoc; [constructor|]|]|]|]|].
    + eapply rcu_reset.
    + eapply rcu_recv.
    + eapply (rcu_tick _ _ _ ["a"] ["a"]); vm_compute; reflexivity.
    + eapply rcu_store.
    + eapply rcu_reset.
  - eapply rcu_get'; vm_compute; reflexivity.
  - reflexivity.
  - reflexivity.
  - reflexivity.
Qed.

(* ------------------------------------------------------------------ *)
(** C19 *)
Theorem C19_syncmap_get_never_answers : forall (T : Type) tr (s : smap T) k r s',
  sm_exec smap_new tr s -> sm_step s (RGet k r) s' -> r = None.
Proof. intros T. exact sm_never. Qed.
Print Assumptions C19_syncmap_get_never_answers.
Theorem C19_syncmap_put_blocks_forever_after_1000 : forall (T : Type) tr (s : smap T) tr' s' k v s'',
  sm_exec smap_new tr s -> length (puts_of tr) = 1000%nat -> sm_exec s tr' s' -> ~ sm_step s' (RPut k v) s''.
Proof. intros T. exact sm_block. Qed.
Print Assumptions C19_syncmap_put_blocks_forever_after_1000.
Theorem C19_syncmap_put_accepted_before : forall (T : Type) tr (s : smap T) k v,
  sm_exec smap_new tr s -> (length (puts_of tr) < 1000)%nat -> exists s', sm_step s (RPut k v) s'.
Proof. intros T. exact sm_accepts. Qed.
Print Assumptions C19_syncmap_put_accepted_before.
Theorem C19_syncmap_with_writer_is_frozen : forall (T : Type) tr (s : smap T) k v s1 tr' s2 r s3,
  sm_exec smap_new_with_writer tr s -> sm_step s (RGet k (Some v)) s1 -> sm_exec s1 tr' s2 ->
  sm_step s2 (RGet k r) s3 -> r = Some v.
Proof. intros T. exact sm_get_frozen. Qed.
Print Assumptions C19_syncmap_with_writer_is_frozen.

(** The 1000th Put is reachable. *)
Example C19_full_reachable : forall n, (n <= 1000)%nat -> exists tr (s : smap Z),
  sm_exec smap_new tr s /\ length (puts_of tr) = n.
Proof.
  induction n as [|n IH]; intros Hn; [exists [], smap_new; split; [constructor|done]|].
  destruct IH as (tr & s & H & E); [lia|].
  destruct (C19_syncmap_put_accepted_before Z tr s "k" 0 H) as [s' Hs]; [lia|].
  exists (tr ++ [RPut "k" 0]), s'. split; [by econstructor|]. rewrite puts_of_snoc, app_length, E. cbn. lia.
Qed.
(** With the writer running, an update of a published key is really lost. *)
Example C19_writer_witness : exists s1 s2 : smap Z,
  sm_exec smap_new_with_writer ([] ++ [RPut "a" 1] ++ [RInternal] ++ [RInternal] ++ [RInternal]) s1 /\
  sm_step s1 (RGet "a" (Some 1)) s1 /\
  sm_exec s1 ([] ++ [RPut "a" 2] ++ [RInternal] ++ [RInternal] ++ [RInternal]) s2 /\
  sm_step s2 (RGet "a" (Some 1)) s2 /\ sm_ch s2 = [] /\ sm_buffer s2 = ∅ /\ sm_pc_ s2 = SMIdle.
Proof.
  assert (forall (s : smap Z) k r, sm_data s !! k = r -> sm_step s (RGet k r) s) as sm_get'.
  { intros [d ch b pc] k r <-. apply sm_get. }
  eexists _, _. rewrite !app_assoc. split; [|split; [|split; [|split; [|split; [|split]]]]].
  - eapply sm_exec_snoc; [eapply sm_exec_snoc; [eapply sm_exec_snoc; [eapply sm_exec_snoc; [constructor|]|]|]|].
    + eapply sm_put. cbn. unfold sm_chan_cap. lia.
    + eapply sm_recv.
    + eapply (sm_tick _ _ _ ["a"] []); vm_compute; reflexivity.
    + eapply sm_store.
  - eapply sm_get'; vm_compute; reflexivity.
  - eapply sm_exec_snoc; [eapply sm_exec_snoc; [eapply sm_exec_snoc; [eapply sm_exec_snoc; [constructor|]|]|]|].
    + eapply sm_put. cbn. unfold sm_chan_cap. lia.
    + eapply sm_recv.
    + eapply (sm_tick _ _ _ ["a"] ["a"]); vm_compute; reflexivity.
    + eapply sm_store.
  - eapply sm_get'; vm_compute; reflexivity.
  - reflexivity.
  - reflexivity.
  - reflexivity.
Qed.

(* ------------------------------------------------------------------ *)
(** C20.  [shard_get] is [None] exactly when Go panics. *)
Theorem C20_shard_routing : forall (T : Type) f ops (s : shard T) k, f > 0 ->
  shard_run (shard_new f) ops = Some s ->
  shard_get s k = Some (Z.to_nat (Z.of_N (crc32 k) mod f)) /\
  (0 <= Z.of_N (crc32 k) mod f < f) /\
  exists m, sh_shard s !! (Z.of_N (crc32 k) mod f) = Some m /\ shard_get s k = Some m.
Proof. intros T. exact shard_routing. Qed.
Print Assumptions C20_shard_routing.
Theorem C20_shard_never_panics : forall (T : Type) f (ops : list (shard_op T)), f > 0 ->
  exists s, shard_run (shard_new f) ops = Some s.
Proof. intros T. exact shard_run_total. Qed.
Print Assumptions C20_shard_never_panics.
Theorem C20_shard_nonpositive_panics : forall (T : Type) f k, f <= 0 -> shard_get (@shard_new T f) k = None.
Proof. intros T. exact shard_nonpos. Qed.
Print Assumptions C20_shard_nonpositive_panics.
Theorem C20_crc_is_32_bit : forall s, (crc32 s < 2 ^ 32)%N.
Proof. exact crc32_lt. Qed.
Print Assumptions C20_crc_is_32_bit.
(** The CRC-32 model against the standard check value. *)
Example crc32_check_value : crc32 "123456789" = 3421780262%N.
Proof. vm_compute. reflexivity. Qed.
Example C20_witness : shard_get (@shard_new Z 7) "123456789" = Some (Z.to_nat (3421780262 mod 7)).
Proof. vm_compute. reflexivity. Qed.

(* ------------------------------------------------------------------ *)
(** C21 *)
Theorem C21_shard_is_a_map_per_fragment : forall (T : Type) f ops (s : shard T), f > 0 ->
  shard_run (shard_new f) ops = Some s ->
  forall k1 k2, shard_lookup s k1 k2 =
    latest (fun a b => bool_decide (Z.of_N (crc32 a) mod f = Z.of_N (crc32 k1) mod f /\ b = k2)) ops.
Proof. intros T f ops s Hf H. exact (proj2 (shard_refines f ops s Hf H)). Qed.
Print Assumptions C21_shard_is_a_map_per_fragment.
Theorem C21_local_map_pointers_are_snapshots : forall (T : Type) f ops1 (s1 : shard T) ops2 s2 p v,
  shard_run (shard_new f) ops1 = Some s1 -> shard_deref s1 p = Some v ->
  shard_run s1 ops2 = Some s2 -> shard_deref s2 p = Some v.
Proof. intros T. exact shard_pointer. Qed.
Print Assumptions C21_local_map_pointers_are_snapshots.
(** "a" and "c" collide modulo 2, "a" and "b" do not. *)
Example C21_witness : exists s : shard Z,
  shard_run (shard_new 2) [ShSet "a" "x" 1; ShSet "c" "x" 2; ShSet "b" "x" 3] = Some s /\
  shard_lookup s "a" "x" = Some (if decide (Z.of_N (crc32 "a") mod 2 = Z.of_N (crc32 "b") mod 2) then 3 else
     if decide (Z.of_N (crc32 "a") mod 2 = Z.of_N (crc32 "c") mod 2) then 2 else 1) /\
  shard_lookup s "b" "x" = Some 3.
Proof. eexists. split; [vm_compute; reflexivity|]. split; vm_compute; reflexivity. Qed.
