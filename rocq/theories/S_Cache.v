(** Specification vocabulary for the caches. *)
From Verif Require Import Base M_Cache.
#[local] Open Scope Z_scope.

(** The Puts of a trace, in the order their sends completed. *)
Definition puts_of {T} (tr : list (rcu_label T)) : list (string * T) :=
  omap (fun l => match l with RPut k v => Some (k, v) | _ => None end) tr.

(** The table obtained by applying puts in order: last value per key. *)
Definition last_values {T} (l : list (string * T)) : gmap string T :=
  fold_left (fun m kv => <[kv.1 := kv.2]> m) l ∅.

(** Latest write for which [same] holds. *)
Fixpoint latest {T} (same : string -> string -> bool) (ops : list (shard_op T)) : option T :=
  match ops with
  | [] => None
  | ShSet k1 k2 v :: ops' =>
    match latest same ops' with
    | Some w => Some w
    | None => if same k1 k2 then Some v else None
    end
  end.
