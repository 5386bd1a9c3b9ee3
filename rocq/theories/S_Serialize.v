(** Specification side of the serialization properties (C42-C45, C58). *)
From Verif Require Import Base M_Memory M_Flat.
From Verif Require Export S_Visits.
#[local] Open Scope Z_scope.

(** Upper bounds on the encoded sizes, in bytes. *)
Definition bytes_counts (l : list (string * Z)) : Z := foldr (fun kv s => Z.of_nat (String.length kv.1) + 64 + s) 0 l.
Definition bytes_fields (l : list (string * (string * Z * list (string * Z)))) : Z :=
  foldr (fun e s => Z.of_nat (String.length e.1) + Z.of_nat (String.length e.2.1.1) + bytes_counts e.2.2 + 124 + s) 0 l.
Definition bytes_index (l : list (string * list string)) : Z :=
  foldr (fun e s => Z.of_nat (String.length e.1) + foldr (fun d s => Z.of_nat (String.length d) + 16 + s) 0 e.2 + 124 + s) 0 l.

(** A program over the builder API: strings, vectors of offsets and tables, each
    call receiving the offsets returned by earlier calls. *)
Inductive call :=
| CString (s : string)
| CVector (offs : list nat)
| CTable (numfields : nat) (adds : list add).
Definition do_call (c : call) (b : builder) : builder * nat :=
  match c with
  | CString s => create_string s b
  | CVector offs => build_vector offs b
  | CTable n adds => build_table n adds b
  end.
(** [calls cs b b' os]: the calls [cs], starting in state [b], return the offsets [os]. *)
Inductive calls : list call -> builder -> builder -> list nat -> Prop :=
| calls_nil b : calls [] b b []
| calls_cons c cs b b1 b' o os : do_call c b = (b1, o) -> calls cs b1 b' os -> calls (c :: cs) b b' (o :: os).
Definition slot_number (a : add) : nat := match a with AddU i _ => i | AddI i _ => i end.
(** The discipline of generated code: each slot at most once, slots in range. *)
Definition well_formed (c : call) : Prop :=
  match c with
  | CTable n adds => NoDup (slot_number <$> adds) /\ Forall (fun a => (slot_number a < n)%nat) adds /\ (n <= 100)%nat
  | _ => True
  end.
(** Position (from the start of the finished bytes [T]) of the object at offset [o]. *)
Definition pos (T : bytes) (o : nat) : Z := Z.of_nat (length T) - Z.of_nat o.
(** The argument of Table.Offset for slot [i]. *)
Definition vo (i : nat) : Z := 4 + 2 * Z.of_nat i.
