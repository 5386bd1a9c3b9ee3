(** Specification of an LRU cache in terms of its history only. *)
From Verif Require Import Base M_LRU.
#[local] Open Scope Z_scope.

(** What a client sees: a Put, a Get that hit (with the value returned), a Get
    that missed. *)
Inductive lru_event {T} := EPut (k : string) (v : T) | EHit (k : string) (v : T) | EMiss (k : string).
Arguments lru_event : clear implicits.

(** A key is used by a Put or by a successful Get. *)
Definition uses {T} (e : lru_event T) (k : string) : Prop :=
  match e with EPut k' _ | EHit k' _ => k' = k | EMiss _ => False end.

(** [k] has been used, and since its last use fewer than [cap] distinct other
    keys have been used. *)
Definition recently_used {T} (cap : Z) (h : list (lru_event T)) (k : string) : Prop :=
  exists h1 e h2, h = h1 ++ e :: h2 /\ uses e k /\
    (forall e', e' ∈ h2 -> ¬ uses e' k) /\
    (forall ks, NoDup ks -> (forall x, x ∈ ks -> exists e', e' ∈ h2 /\ uses e' x) ->
       Z.of_nat (length ks) < cap).

(** The latest Put to [k] stored [v]. *)
Definition last_put {T} (h : list (lru_event T)) (k : string) (v : T) : Prop :=
  exists h1 h2, h = h1 ++ EPut k v :: h2 /\ (forall w, EPut k w ∉ h2).

(** [lru_run cap h s]: starting from an empty cache of capacity [cap], some
    sequence of calls produced the client-visible history [h] and state [s]. *)
Inductive lru_run {T} (cap : Z) : list (lru_event T) -> lru T -> Prop :=
| run_nil : lru_run cap [] (lru_new cap)
| run_put h s k v s' :
    lru_run cap h s -> lru_put s k v = Some s' -> lru_run cap (h ++ [EPut k v]) s'
| run_hit h s k v s' e :
    lru_run cap h s -> lru_get s k = Some (s', Some e) -> lru_deref s' e = Some v ->
    lru_run cap (h ++ [EHit k v]) s'
| run_miss h s k s' :
    lru_run cap h s -> lru_get s k = Some (s', None) -> lru_run cap (h ++ [EMiss k]) s'.

(** What the cache holds. *)
Definition holds {T} (s : lru T) (k : string) (v : T) : Prop :=
  exists e, lr_table s !! k = Some e /\ lru_deref s e = Some v.

(** Operations of container/list on a list whose elements are addresses, and
    what they should do to the sequence of live elements. *)
Inductive list_op {T} := LPush (k : string) (v : T) | LFront (e : nat) | LRemove (e : nat).
Arguments list_op : clear implicits.
Definition drop_elem (e : nat) (l : list nat) : list nat := filter (fun x => x <> e) l.
Definition list_spec {T} (l : list nat) (fresh_addr : nat) (o : list_op T) : list nat :=
  match o with
  | LPush _ _ => fresh_addr :: l
  | LFront e => if decide (e ∈ l) then e :: drop_elem e l else l
  | LRemove e => drop_elem e l
  end.
Definition list_exec {T} (s : lru T) (o : list_op T) : option (lru T) :=
  match o with
  | LPush k v => fst <$> push_front s k v
  | LFront e => move_to_front s e
  | LRemove e => list_remove s e
  end.
Inductive list_run {T} (s0 : lru T) : list (list_op T) -> lru T -> list nat -> Prop :=
| list_run_nil : list_run s0 [] s0 []
| list_run_snoc os o s l s' :
    list_run s0 os s l -> list_exec s o = Some s' ->
    list_run s0 (os ++ [o]) s' (list_spec l (lr_next s) o).
