(** main.go:228-263  mainxcrt: JSON documents are decoded, flattened, preprocessed and
    indexed one after the other, on the disk storage (main.go:230).  Not modelled: the
    list of documents itself (testecolection.GetTextDocuments, a file) and the progress
    messages (main.go:260-262); a document that is not a JSON object makes
    StringToObject panic (FieldProcess.go:13-15), which ends the process. *)
From Verif Require Import Base M_Text M_Field M_Memory M_Search M_Server M_File M_Disk S_Field S_Disk.

Section import.
  (** External functions: json.Unmarshal into a map ([None] = error), the formatting of a
      float64, the Unicode tables, strings.ToLower, porter2.Stem and the ASCII transform. *)
  Context {num : Type}.
  Variables (decode : string -> option (list (string * json num))) (fmt_num : num -> string).
  Variables (is_letter is_number : Z -> bool) (to_lower stem fold : string -> string).

  (** main.go:249-256: one turn of the loop that fills [fields]. *)
  Definition import_field (kv : string * json num) (x : field) : Prop :=
    exists r, preprocess is_letter is_number to_lower stem fold (sprint fmt_num kv.2) r /\ x = posted_field kv.1 r.

  (** main.go:238-259: one document of the loop, the id it is given and the calls made.
      The maps are iterated in any order: [kvs] while flattening (line 240), [r1] in
      GetID (243), [r2] in the loop over [flatted] (249).  [uuid] is the random id of
      line 245, any string. *)
  Inductive import_one : string -> string -> list call -> Prop :=
  | import_one_intro document obs kvs r1 r2 id uuid fields :
      decode document = Some obs -> same_object obs kvs ->
      r1 ≡ₚ map_to_list (flatten kvs) ->
      id = (let id := get_id fmt_num r1 in if String.eqb id "" then uuid else id) ->
      r2 ≡ₚ map_to_list (flatten kvs) -> Forall2 import_field r2 fields ->
      import_one document id (index_document id fields).

  (** main.go:237-263: the documents, the ids they were given and all the calls. *)
  Inductive imported : list (string * string) -> list call -> Prop :=
  | imported_nil : imported [] []
  | imported_cons document id calls docs rest : import_one document id calls -> imported docs rest ->
      imported ((document, id) :: docs) (calls ++ rest).
End import.

(** The store was created on an empty folder, has not been closed, and the documents
    [docs] have been indexed. *)
Definition importing {num} (compress : bytes -> bytes) (decompress : bytes -> option bytes) (cache_size : Z)
    (decode : string -> option (list (string * json num))) (fmt_num : num -> string)
    (is_letter is_number : Z -> bool) (to_lower stem fold : string -> string)
    (y : sys) (u : up) (docs : list (string * string)) : Prop :=
  reachable compress decompress cache_size y /\ y_proc y = Up u /\ u_pc u = CIdle /\
  exists l1 l2, y_log y = l1 ++ EOpened :: l2 /\ EOpened ∉ l2 /\ calls_of l1 = [] /\
    imported decode fmt_num is_letter is_number to_lower stem fold docs (calls_of l2).
