(** Specification vocabulary for storages: everything is said about the list of
    calls made so far (oldest first). *)
From Verif Require Import Base M_Field M_Memory.
#[local] Open Scope Z_scope.

Definition call_doc (c : call) : string := match c with Save d _ => d | Index d _ => d end.
Definition call_field (c : call) : field := match c with Save _ x => x | Index _ x => x end.
Definition is_save (c : call) : bool := match c with Save _ _ => true | Index _ _ => false end.

(** The call concerns the field named [f]. *)
Definition for_field (f : string) (c : call) : bool := String.eqb (f_name (call_field c)) f.
Definition has_term (t : string) (c : call) : bool :=
  match f_tf (call_field c) !! t with Some _ => true | None => false end.

(** The calls that indexed term [t] of field [f]. *)
Definition indexed (f t : string) (h : list call) : list call :=
  List.filter (fun c => for_field f c && has_term t c) h.

Definition calls_for (f : string) (h : list call) : list call := List.filter (for_field f) h.
Definition saves_with (f t : string) (h : list call) : list call :=
  List.filter (fun c => is_save c && for_field f c && has_term t c) h.

(** Number of elements, and sum of lengths, as unbounded integers. *)
Definition count (h : list call) : Z := Z.of_nat (List.length h).
Definition total_length (h : list call) : Z :=
  fold_right (fun c acc => f_length (call_field c) + acc) 0 h.

(** The field of the latest Save of document [d] and field [f]. *)
Fixpoint last_saved (d f : string) (h : list call) : option field :=
  match h with
  | [] => None
  | c :: h' =>
    match last_saved d f h' with
    | Some x => Some x
    | None => if is_save c && String.eqb (call_doc c) d && for_field f c then Some (call_field c) else None
    end
  end.

(** The (document, field) pair a call is about. *)
Definition call_key (c : call) : string * string := (call_doc c, f_name (call_field c)).
