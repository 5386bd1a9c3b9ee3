(** Specification vocabulary for the HTTP service. *)
From Verif Require Import Base M_Text M_Language M_Field M_Memory M_Num M_FanIn M_Search M_Standard S_Search M_Server.

(** Document [d] matches the terms in its title or its text, and that field is
    stored for it. *)
Definition in_title_or_text (v : view) (terms : list string) (d : string) : Prop :=
  exists f, (f = "title" \/ f = "text") /\ matches v terms f d = true /\ is_Some (v_fields v [d] f !! d).

(** [ds] lists the matching documents, each once. *)
Definition all_matching (v : view) (terms : list string) (ds : list string) : Prop :=
  NoDup ds /\ forall d, d ∈ ds <-> in_title_or_text v terms d.

(** The terms of a text: words of the text that are not English stop words once
    lower-cased, stemmed and folded. *)
Definition terms_of (is_letter is_number : Z -> bool) (to_lower stem fold : string -> string) (text : string) : list string :=
  map fold (map stem (filter (fun w => stop_words_english !! w <> Some true) (map to_lower (tokenize is_letter is_number text)))).

(** The documents accepted by a sequence of POST requests, oldest first. *)
Definition accepted (bind : string -> option document) (bodies : list string) : list document :=
  omap (fun b => match bind b with Some d => if String.eqb (d_id d) "" then None else Some d | None => None end) bodies.
(** The text of a document that goes into a field. *)
Definition part (f : string) (d : document) : option string :=
  if String.eqb f "id" then Some (d_id d) else if String.eqb f "title" then Some (d_title d)
  else if String.eqb f "text" then Some (d_text d) else None.
(** The latest document with an id. *)
Fixpoint latest (id : string) (ds : list document) : option document :=
  match ds with
  | [] => None
  | d :: ds' => match latest id ds' with Some e => Some e | None => if String.eqb (d_id d) id then Some d else None end
  end.
