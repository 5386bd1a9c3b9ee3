(** Specification vocabulary for flattening and sets. *)
From Verif Require Import Base M_Field S_Text.

(** [leaf_at kvs p v]: following the keys [p] from the object [kvs] leads to
    the non-object value [v]. *)
Inductive leaf_at {num} : list (string * json num) -> list string -> json num -> Prop :=
| leaf_here kvs k v : (k, v) ∈ kvs -> is_object v = false -> leaf_at kvs [k] v
| leaf_deep kvs k o p v : (k, JObject o) ∈ kvs -> leaf_at o p v -> leaf_at kvs (k :: p) v.

(** No map has the same key twice, at any level reachable through objects. *)
Inductive wf_object {num} : list (string * json num) -> Prop :=
| wf_intro kvs : NoDup kvs.*1 -> (forall k o, (k, JObject o) ∈ kvs -> wf_object o) -> wf_object kvs.

(** [same_object a b]: the same object up to the iteration order of the maps
    at every level. *)
Inductive same_object {num} : list (string * json num) -> list (string * json num) -> Prop :=
| same_perm a b c : same_entries a b -> b ≡ₚ c -> same_object a c
with same_entries {num} : list (string * json num) -> list (string * json num) -> Prop :=
| same_nil : same_entries [] []
| same_leaf k v a b : is_object v = false -> same_entries a b -> same_entries ((k, v) :: a) ((k, v) :: b)
| same_obj k o o' a b : same_object o o' -> same_entries a b ->
    same_entries ((k, JObject o) :: a) ((k, JObject o') :: b).

Fixpoint has_char (c : ascii) (s : string) : bool :=
  match s with EmptyString => false | String a s' => Ascii.eqb a c || has_char c s' end.
Definition no_dot (s : string) : Prop := has_char "."%char s = false.

(** Dotted path: keys joined with '.'. *)
Definition dotted (p : list string) : string := join_strings "." p.

(** Leading empty keys leave no trace in the path (as long as a key follows). *)
Fixpoint strip_empty (p : list string) : list string :=
  match p with
  | "" :: (_ :: _) as p' => match p with "" :: q => strip_empty q | _ => p end
  | _ => p
  end%string.

(** The last operation on [x] in a history of set operations was an Add. *)
Definition last_op_adds (x : string) (ops : list set_op) : Prop :=
  exists l1 l2, ops = l1 ++ SAdd x :: l2 /\
    Forall (fun o => o <> SAdd x /\ o <> SRemove x) l2.
