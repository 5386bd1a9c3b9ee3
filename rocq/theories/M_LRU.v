(** Model of container/list (Go standard library) at pointer level, and of
    cache/LRU.go on top of it. *)
From Verif Require Import Base.
#[local] Open Scope Z_scope.

(* ------------------------------------------------------------------ *)
(** * container/list

    Elements are addresses; address 0 is the list's root element.  [nx] and
    [pv] hold the [next] and [prev] pointers; an absent entry is a nil pointer.
    A function returns [None] when the Go code would dereference nil. *)
Record ring := mkRing { nx : gmap nat nat; pv : gmap nat nat }.

Definition root : nat := 0.

(** list.New / Init: root.next = root.prev = &root. *)
Definition ring_init : ring := mkRing {[root := root]} {[root := root]}.

(** The assignments of [List.move] (and of [remove], [insert]), one definition
    per Go statement, so that concurrent executions can interleave them.
    [e.prev.next = e.next] *)
Definition st_unlink_next (e : nat) (r : ring) : option ring :=
  match pv r !! e, nx r !! e with
  | Some p, Some n => Some (mkRing (<[p := n]> (nx r)) (pv r))
  | _, _ => None
  end.
(** [e.next.prev = e.prev] *)
Definition st_unlink_prev (e : nat) (r : ring) : option ring :=
  match nx r !! e, pv r !! e with
  | Some n, Some p => Some (mkRing (nx r) (<[n := p]> (pv r)))
  | _, _ => None
  end.
(** [e.prev = at] *)
Definition st_set_prev (e at_ : nat) (r : ring) : option ring :=
  Some (mkRing (nx r) (<[e := at_]> (pv r))).
(** [e.next = at.next] *)
Definition st_set_next (e at_ : nat) (r : ring) : option ring :=
  match nx r !! at_ with
  | Some n => Some (mkRing (<[e := n]> (nx r)) (pv r))
  | None => None
  end.
(** [e.prev.next = e] *)
Definition st_link_next (e : nat) (r : ring) : option ring :=
  match pv r !! e with
  | Some p => Some (mkRing (<[p := e]> (nx r)) (pv r))
  | None => None
  end.
(** [e.next.prev = e] *)
Definition st_link_prev (e : nat) (r : ring) : option ring :=
  match nx r !! e with
  | Some n => Some (mkRing (nx r) (<[n := e]> (pv r)))
  | None => None
  end.
(** [e.next = nil; e.prev = nil] (in [remove]) *)
Definition st_clear (e : nat) (r : ring) : option ring :=
  Some (mkRing (delete e (nx r)) (delete e (pv r))).

Fixpoint run_stmts (l : list (ring -> option ring)) (r : ring) : option ring :=
  match l with
  | [] => Some r
  | f :: l' => match f r with Some r' => run_stmts l' r' | None => None end
  end.

(** Body of [func (l *List) move(e, at *Element)] after the [e == at] test. *)
Definition move_stmts (e at_ : nat) : list (ring -> option ring) :=
  [st_unlink_next e; st_unlink_prev e; st_set_prev e at_; st_set_next e at_;
   st_link_next e; st_link_prev e].
(** Body of [insert(e, at)]. *)
Definition insert_stmts (e at_ : nat) : list (ring -> option ring) :=
  [st_set_prev e at_; st_set_next e at_; st_link_next e; st_link_prev e].
(** Body of [remove(e)]. *)
Definition remove_stmts (e : nat) : list (ring -> option ring) :=
  [st_unlink_next e; st_unlink_prev e; st_clear e].

(* ------------------------------------------------------------------ *)
(** * cache/LRU.go *)
Section lru.
  Context {T : Type}.

  (** cache/LRU.go:13-26.  [lr_owned] are the elements whose [list] field points
      to this list; [lr_page] the *Page of each element ever created. *)
  Record lru := mkLru {
    lr_cap : Z;
    lr_ring : ring;
    lr_owned : gset nat;
    lr_len : Z;
    lr_page : gmap nat (string * T);
    lr_table : gmap string nat;
    lr_next : nat                       (* next fresh address *)
  }.

  (** cache/LRU.go:20-26  NewLRUCache *)
  Definition lru_new (capacity : Z) : lru :=
    mkLru capacity ring_init ∅ 0 ∅ ∅ 1.

  Definition with_ring (s : lru) (r : ring) : lru :=
    mkLru (lr_cap s) r (lr_owned s) (lr_len s) (lr_page s) (lr_table s) (lr_next s).

  (** [List.MoveToFront(e)]: [None] is a nil dereference. *)
  Definition move_to_front (s : lru) (e : nat) : option lru :=
    if bool_decide (e ∉ lr_owned s) || bool_decide (nx (lr_ring s) !! root = Some e) then Some s
    else match run_stmts (move_stmts e root) (lr_ring s) with
         | Some r => Some (with_ring s r)
         | None => None
         end.

  (** [List.Back()]: [None] is the nil pointer. *)
  Definition back (s : lru) : option nat :=
    if lr_len s =? 0 then None else pv (lr_ring s) !! root.

  (** [List.Remove(e)] *)
  Definition list_remove (s : lru) (e : nat) : option lru :=
    if bool_decide (e ∈ lr_owned s) then
      match run_stmts (remove_stmts e) (lr_ring s) with
      | Some r => Some (mkLru (lr_cap s) r (lr_owned s ∖ {[e]}) (lr_len s - 1)
                          (lr_page s) (lr_table s) (lr_next s))
      | None => None
      end
    else Some s.

  (** [List.PushFront(&Page{key, value})]: the new element's address. *)
  Definition push_front (s : lru) (key : string) (value : T) : option (lru * nat) :=
    let e := lr_next s in
    match run_stmts (insert_stmts e root) (lr_ring s) with
    | Some r => Some (mkLru (lr_cap s) r (lr_owned s ∪ {[e]}) (lr_len s + 1)
                        (<[e := (key, value)]> (lr_page s)) (lr_table s) (S e), e)
    | None => None
    end.

  Definition with_table (s : lru) (t : gmap string nat) : lru :=
    mkLru (lr_cap s) (lr_ring s) (lr_owned s) (lr_len s) (lr_page s) t (lr_next s).

  (** cache/LRU.go:28-36  Get.  Result: the pointer to the page's value (named
      by the element) or a miss; [None] is a panic. *)
  Definition lru_get (s : lru) (key : string) : option (lru * option nat) :=
    match lr_table s !! key with
    | Some e =>
      match move_to_front s e with
      | Some s' => Some (s', Some e)
      | None => None
      end
    | None => Some (s, None)
    end.

  (** The value behind a pointer returned by Get. *)
  Definition lru_deref (s : lru) (e : nat) : option T := snd <$> lr_page s !! e.

  (** cache/LRU.go:38-53  Put; [None] is a panic. *)
  Definition lru_put (s : lru) (key : string) (value : T) : option lru :=
    match lr_table s !! key with
    | Some e =>                                     (* lines 41-45 *)
      match move_to_front s e with
      | Some s' =>
        match lr_page s' !! e with
        | Some (k, _) =>
          Some (mkLru (lr_cap s') (lr_ring s') (lr_owned s') (lr_len s')
                  (<[e := (k, value)]> (lr_page s')) (lr_table s') (lr_next s'))
        | None => None
        end
      | None => None
      end
    | None =>
      let evicted :=                                (* lines 47-50 *)
        if lr_len s >=? lr_cap s then
          match back s with
          | Some b =>
            match lr_page s !! b with
            | Some (bk, _) => list_remove (with_table s (delete bk (lr_table s))) b
            | None => None
            end
          | None => None                            (* Back() is nil *)
          end
        else Some s in
      match evicted with
      | Some s1 =>                                  (* line 52 *)
        match push_front s1 key value with
        | Some (s2, e) => Some (with_table s2 (<[key := e]> (lr_table s2)))
        | None => None
        end
      | None => None
      end
    end.
End lru.
Arguments lru : clear implicits.

(** Forward traversal from the root (l.Front(), e.Next()) and backward traversal
    (l.Back(), e.Prev()), at most [n] elements. *)
Fixpoint traverse (m : gmap nat nat) (n : nat) (e : nat) : list nat :=
  match n with
  | O => []
  | S n' =>
    match m !! e with
    | Some e' => if bool_decide (e' = root) then [] else e' :: traverse m n' e'
    | None => []
    end
  end.
Definition forward (n : nat) (r : ring) : list nat := traverse (nx r) n root.
Definition backward (n : nat) (r : ring) : list nat := traverse (pv r) n root.

(** * Concurrent Gets (cache/LRU.go:28-36 hold only the read lock, so they may
    overlap).  Each goroutine looks its key up, performs the tests of
    MoveToFront, and then executes the statements of [move] one at a time;
    steps of different goroutines interleave arbitrarily.  (Go gives no
    guarantee at all for such racy accesses; statement-level interleaving is
    the most favourable assumption.) *)
Inductive get_thread := TGet (key : string) | TMove (e : nat) (l : list (ring -> option ring)).

Inductive par_step {T} : lru T * list get_thread -> lru T * list get_thread -> Prop :=
| par_start s key e ts1 ts2 :
    lr_table s !! key = Some e ->
    par_step (s, ts1 ++ TGet key :: ts2)
             (s, ts1 ++ TMove e (if bool_decide (e ∉ lr_owned s) ||
                                    bool_decide (nx (lr_ring s) !! root = Some e)
                                 then [] else move_stmts e root) :: ts2)
| par_run s r' e f l ts1 ts2 :
    f (lr_ring s) = Some r' ->
    par_step (s, ts1 ++ TMove e (f :: l) :: ts2) (with_ring s r', ts1 ++ TMove e l :: ts2).
