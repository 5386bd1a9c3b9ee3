(** Vocabulary of C67 and of C54_grouped. *)
From Verif Require Import Base M_Field M_Memory M_Disk S_Field S_Disk.

(** A JSON object whose keys can be told apart after flattening: no key twice in a map, no
    dot in a key, no empty key at the top. *)
Definition usual_keys {num} (o : list (string * json num)) : Prop :=
  wf_object o /\ forall p v, leaf_at o p v -> Forall no_dot p /\ head p <> Some ""%string.

(** The decoded documents of an import: usual keys. *)
Definition usual_objects {num} (decode : string -> option (list (string * json num))) (docs : list (string * string)) : Prop :=
  forall document id obs, (document, id) ∈ docs -> decode document = Some obs -> usual_keys obs.
(** Names that the storage can use as file names. *)
Definition usual_file_names {num} (decode : string -> option (list (string * json num))) (docs : list (string * string)) : Prop :=
  forall document id obs p v, (document, id) ∈ docs -> decode document = Some obs -> leaf_at obs p v ->
    simple_name id /\ plain_doc id /\ simple_name (dotted p) /\ dotted p <> "docs"%string.

(** During the events [g] the only calls save fields of document [d]. *)
Definition only_saves (d : string) (g : list event) : Prop :=
  (forall ids f, EGet ids f ∉ g) /\ forall c, c ∈ calls_of g -> exists x, c = Save d x.

(** What each document has in field [f]: the terms of the leaf at [f], if there is one. *)
Definition in_field {num} (decode : string -> option (list (string * json num))) (fmt_num : num -> string) (terms : string -> list string)
    (f : string) (doc : string * string) (o : option (list string)) : Prop :=
  forall obs, decode doc.1 = Some obs ->
  match o with
  | Some ts => exists p v, leaf_at obs p v /\ dotted p = f /\ ts = terms (sprint fmt_num v)
  | None => forall p v, leaf_at obs p v -> dotted p <> f
  end.
