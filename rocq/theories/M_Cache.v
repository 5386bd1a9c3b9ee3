(** Models of cache/RCU.go, cache/Map.go (SyncMap), cache/Shard.go and
    cache/LocalMap.go. *)
From Verif Require Import Base.
#[local] Open Scope Z_scope.

(** Copying a map entry by entry, in iteration order [ks]:
    [for key, value := range m { dst[key] = value }]. *)
Definition copy_into {T} (m : gmap string T) (ks : list string) (dst : gmap string T) : gmap string T :=
  fold_left (fun d k => match m !! k with Some v => <[k := v]> d | None => d end) ks dst.

(* ------------------------------------------------------------------ *)
(** * cache/RCU.go *)
Section rcu.
  Context {T : Type}.

  (** Program counter of the writer goroutine (RCU.go:31-56). *)
  Inductive rcu_pc :=
  | RIdle                              (* blocked in select, line 37 *)
  | RStore (copy : gmap string T)      (* copy built, about to Store, line 50 *)
  | RReset.                            (* about to reset the buffer, line 51 *)

  Record rcu := mkRcu {
    rc_data : gmap string T;           (* the published map (immutable once stored) *)
    rc_ch : list (string * T);         (* buffered channel, oldest first *)
    rc_buffer : gmap string T;         (* the writer's private buffer *)
    rc_pc : rcu_pc
  }.

  Definition rcu_chan_cap : nat := 1000.      (* RCU.go:15 *)

  (** RCU.go:13-20  NewCacheRCU *)
  Definition rcu_new : rcu := mkRcu ∅ [] ∅ RIdle.

  Inductive rcu_label :=
  | RPut (k : string) (v : T)          (* a Put whose send completes *)
  | RGet (k : string) (r : option T)   (* a Get and its answer *)
  | RInternal.                         (* a step of the writer *)

  Inductive rcu_step : rcu -> rcu_label -> rcu -> Prop :=
  | rcu_put d ch b pc k v :            (* RCU.go:28-30; blocks when full *)
      (length ch < rcu_chan_cap)%nat ->
      rcu_step (mkRcu d ch b pc) (RPut k v) (mkRcu d (ch ++ [(k, v)]) b pc)
  | rcu_get d ch b pc k :              (* RCU.go:22-26: atomic Load, then a read of an
                                          immutable map *)
      rcu_step (mkRcu d ch b pc) (RGet k (d !! k)) (mkRcu d ch b pc)
  | rcu_recv d k v ch b :              (* RCU.go:38-39 *)
      rcu_step (mkRcu d ((k, v) :: ch) b RIdle) RInternal (mkRcu d ch (<[k := v]> b) RIdle)
  | rcu_tick d ch b ks1 ks2 :          (* RCU.go:40-48: tick, copy both maps *)
      range_order d ks1 -> range_order b ks2 ->
      rcu_step (mkRcu d ch b RIdle) RInternal
               (mkRcu d ch b (RStore (copy_into b ks2 (copy_into d ks1 ∅))))
  | rcu_store d ch b copy :            (* RCU.go:50 *)
      rcu_step (mkRcu d ch b (RStore copy)) RInternal (mkRcu copy ch b RReset)
  | rcu_reset d ch b :                 (* RCU.go:51 *)
      rcu_step (mkRcu d ch b RReset) RInternal (mkRcu d ch ∅ RIdle).

  (** [rcu_exec s tr s']: an execution with the given sequence of labels. *)
  Inductive rcu_exec : rcu -> list rcu_label -> rcu -> Prop :=
  | rcu_exec_nil s : rcu_exec s [] s
  | rcu_exec_snoc s tr s1 l s2 :
      rcu_exec s tr s1 -> rcu_step s1 l s2 -> rcu_exec s (tr ++ [l]) s2.
End rcu.
Arguments rcu : clear implicits.
Arguments rcu_label : clear implicits.

(* ------------------------------------------------------------------ *)
(** * cache/Map.go: SyncMap *)
Section syncmap.
  Context {T : Type}.
  Inductive sm_pc := SMIdle | SMStore (copy : gmap string T).
  Record smap := mkSmap {
    sm_data : gmap string T;
    sm_ch : list (string * T);
    sm_buffer : gmap string T;
    sm_pc_ : sm_pc;
    sm_running : bool       (* is the writer goroutine running? *)
  }.
  Definition sm_chan_cap : nat := 1000.      (* Map.go:31 *)
  (** Map.go:28-36: the [go i.writer()] line is commented out. *)
  Definition smap_new : smap := mkSmap ∅ [] ∅ SMIdle false.
  (** What the object would be if that line were active. *)
  Definition smap_new_with_writer : smap := mkSmap ∅ [] ∅ SMIdle true.

  Inductive sm_step : smap -> rcu_label T -> smap -> Prop :=
  | sm_put d ch b pc w k v :           (* Map.go:86-91 *)
      (length ch < sm_chan_cap)%nat ->
      sm_step (mkSmap d ch b pc w) (RPut k v) (mkSmap d (ch ++ [(k, v)]) b pc w)
  | sm_get d ch b pc w k :             (* Map.go:77-84, under the read lock *)
      sm_step (mkSmap d ch b pc w) (RGet k (d !! k)) (mkSmap d ch b pc w)
  | sm_recv d k v ch b :               (* Map.go:52-55 *)
      sm_step (mkSmap d ((k, v) :: ch) b SMIdle true) RInternal (mkSmap d ch (<[k := v]> b) SMIdle true)
  | sm_tick d ch b ks1 ks2 :           (* Map.go:56-69: buffer first, then Data over it *)
      range_order b ks1 -> range_order d ks2 ->
      sm_step (mkSmap d ch b SMIdle true) RInternal
              (mkSmap d ch ∅ (SMStore (copy_into d ks2 (copy_into b ks1 ∅))) true)
  | sm_store d ch b copy :             (* Map.go:71-73 *)
      sm_step (mkSmap d ch b (SMStore copy) true) RInternal (mkSmap copy ch b SMIdle true).

  Inductive sm_exec : smap -> list (rcu_label T) -> smap -> Prop :=
  | sm_exec_nil s : sm_exec s [] s
  | sm_exec_snoc s tr s1 l s2 :
      sm_exec s tr s1 -> sm_step s1 l s2 -> sm_exec s (tr ++ [l]) s2.
End syncmap.
Arguments smap : clear implicits.

(* ------------------------------------------------------------------ *)
(** * hash/crc32.ChecksumIEEE (Go standard library), bit by bit: reflected
    polynomial 0xEDB88320, initial value and final xor 0xFFFFFFFF. *)
Section crc.
  #[local] Open Scope N_scope.
  Definition crc_poly : N := 3988292384.
  Definition crc_mask : N := 4294967295.
  Definition crc_bit (c : N) : N :=
    if N.odd c then N.lxor (N.shiftr c 1) crc_poly else N.shiftr c 1.
  Definition crc_byte (c : N) (b : ascii) : N :=
    Nat.iter 8 crc_bit (N.lxor c (N_of_ascii b)).
  Fixpoint crc_loop (c : N) (s : string) : N :=
    match s with EmptyString => c | String b s' => crc_loop (crc_byte c b) s' end.
  Definition crc32 (s : string) : N := N.lxor (crc_loop crc_mask s) crc_mask.
End crc.

(* ------------------------------------------------------------------ *)
(** * cache/Shard.go and cache/LocalMap.go *)
Section shard.
  Context {T : Type}.

  (** [sh_heap]: the variables whose address LocalMap.Set stores (a fresh one
      per call, LocalMap.go:16-20). *)
  Record shard := mkShard {
    sh_fragments : Z;
    sh_shard : gmap Z nat;                     (* fragment number -> *LocalMap *)
    sh_maps : gmap nat (gmap string nat);      (* *LocalMap -> store *)
    sh_heap : gmap nat T;                      (* *T -> value *)
    sh_next : nat                              (* next *T address *)
  }.

  (** Shard.go:13-24  NewShardMap: [for i := 0; i < fragments; i++]. *)
  Definition shard_new (fragments : Z) : shard :=
    fold_left (fun s i =>
        mkShard (sh_fragments s) (<[Z.of_nat i := i]> (sh_shard s)) (<[i := ∅]> (sh_maps s))
                (sh_heap s) (sh_next s))
      (seq 0 (Z.to_nat fragments)) (mkShard fragments ∅ ∅ ∅ 0).

  (** Shard.go:41-44  getShardId; [None] is the division-by-zero panic.  The
      hash is a uint32, so int(hash) is non-negative; Go's % truncates. *)
  Definition shard_id (s : shard) (key : string) : option Z :=
    if sh_fragments s =? 0 then None
    else Some (Z.rem (Z.of_N (crc32 key)) (sh_fragments s)).

  (** Shard.go:31-39  Get; [None] is a panic. *)
  Definition shard_get (s : shard) (key : string) : option nat :=
    match shard_id s key with
    | Some i => sh_shard s !! i
    | None => None
    end.

  (** LocalMap.go:16-20  Set: stores the address of a fresh copy. *)
  Definition local_set (s : shard) (m : nat) (key : string) (value : T) : shard :=
    mkShard (sh_fragments s) (sh_shard s)
      (<[m := <[key := sh_next s]> (default ∅ (sh_maps s !! m))]> (sh_maps s))
      (<[sh_next s := value]> (sh_heap s)) (S (sh_next s)).

  (** LocalMap.go:26-33  Get: the stored pointer. *)
  Definition local_get (s : shard) (m : nat) (key : string) : option nat :=
    default ∅ (sh_maps s !! m) !! key.
  Definition shard_deref (s : shard) (p : nat) : option T := sh_heap s !! p.

  (** A client: [m, _ := sh.Get(k1); m.Set(k2, v)]. *)
  Inductive shard_op := ShSet (k1 k2 : string) (v : T).
  Definition shard_step (s : shard) (o : shard_op) : option shard :=
    match o with
    | ShSet k1 k2 v =>
      match shard_get s k1 with
      | Some m => Some (local_set s m k2 v)
      | None => None
      end
    end.
  Fixpoint shard_run (s : shard) (ops : list shard_op) : option shard :=
    match ops with
    | [] => Some s
    | o :: ops' => match shard_step s o with Some s' => shard_run s' ops' | None => None end
    end.
  (** [m, _ := sh.Get(k1); p, ok := m.Get(k2); *p] *)
  Definition shard_lookup (s : shard) (k1 k2 : string) : option T :=
    match shard_get s k1 with
    | Some m => match local_get s m k2 with Some p => shard_deref s p | None => None end
    | None => None
    end.
End shard.
Arguments shard : clear implicits.
Arguments shard_op : clear implicits.
