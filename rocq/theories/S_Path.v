(** What a path means (C57): the list of its components. *)
From Verif Require Import Base M_Path.
From Coq Require Import Ascii.
#[local] Open Scope nat_scope.

(** The pieces between the slashes. *)
Fixpoint pieces_chars (p : chars) : list chars :=
  match p with
  | [] => [[]]
  | c :: r => if decide (c = slash) then [] :: pieces_chars r
              else match pieces_chars r with s :: ss => (c :: s) :: ss | [] => [[c]] end
  end.
Definition pieces (p : string) : list string := map string_of_list_ascii (pieces_chars (list_ascii_of_string p)).
Definition absolute (p : string) : bool := match p with String c _ => bool_decide (c = slash) | EmptyString => false end.
(** Walking along pieces from the components [cs] (last first): empty pieces and "." stay,
    ".." goes up (from the top of an absolute path nowhere), anything else goes down. *)
Definition walk1 (abs : bool) (cs : list string) (s : string) : list string :=
  if decide (s = "" \/ s = ".")%string then cs
  else if decide (s = "..")%string then
    match cs with
    | c :: cs' => if decide (c = "..")%string then s :: cs else cs'
    | [] => if abs then [] else [s]
    end
  else s :: cs.
Definition walk (abs : bool) (cs : list string) (ss : list string) : list string := fold_left (walk1 abs) ss cs.
(** The components a path leads to, first one first. *)
Definition target (p : string) : list string := rev (walk (absolute p) [] (pieces p)).
(** The shortest path to given components. *)
Fixpoint with_slashes (cs : list string) : string :=
  match cs with [] => "" | [c] => c | c :: cs => (c ++ "/" ++ with_slashes cs)%string end.
Definition path_to (abs : bool) (cs : list string) : string :=
  if abs then ("/" ++ with_slashes cs)%string else match cs with [] => "."%string | _ => with_slashes cs end.

(** Names that are single path components. *)
Definition no_slash (s : string) : Prop := slash ∉ list_ascii_of_string s.
Definition simple (s : string) : Prop := s <> ""%string /\ s <> "."%string /\ s <> ".."%string /\ no_slash s.
(** The path leads to something inside the folder [root]. *)
Definition inside (root p : string) : Prop := exists cs, cs <> [] /\ Forall simple cs /\ absolute p = absolute root /\ target p = target root ++ cs.
