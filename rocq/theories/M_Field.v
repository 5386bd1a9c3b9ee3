(** Model of field/FieldProcess.go (Flatten, GetID) and model/Set.go. *)
From Verif Require Import Base.
#[local] Open Scope Z_scope.

(** A decoded JSON value, as produced by encoding/json into interface{}
    (field/FieldProcess.go:10-17).  An object is a Go map; here it is the list
    of its entries *in the order the runtime happens to iterate them*, so that a
    theorem about every list is a theorem about every iteration order.  Numbers
    are float64 and kept abstract ([num]). *)
Inductive json {num : Type} :=
| JNull
| JBool (b : bool)
| JNumber (n : num)
| JString (s : string)
| JArray (l : list json)
| JObject (kvs : list (string * json)).
Arguments json : clear implicits.

Definition is_object {num} (v : json num) : bool :=
  match v with JObject _ => true | _ => false end.

(** field/FieldProcess.go:34-47  recFlatten.  [v] is the input map (anything
    else is impossible by typing and returns [out]). *)
Fixpoint rec_flatten {num} (v : json num) (out : gmap string (json num)) (prefix : string)
    : gmap string (json num) :=
  match v with
  | JObject kvs =>
    (fix loop kvs out :=
       match kvs with
       | [] => out
       | (k, w) :: kvs' =>
         (* lines 36-39 *)
         let key := if String.eqb prefix "" then k else (prefix +:+ "." +:+ k)%string in
         (* lines 40-45: type switch *)
         loop kvs' (match w with
                    | JObject _ => rec_flatten w out key
                    | _ => <[key := w]> out
                    end)
       end) kvs out
  | _ => out
  end.

(** field/FieldProcess.go:28-32  Flatten *)
Definition flatten {num} (kvs : list (string * json num)) : gmap string (json num) :=
  rec_flatten (JObject kvs) ∅ "".

(** fmt.Sprintf("%s", v) for decoded JSON values (Go package fmt: printArg,
    printValue, badVerb).  [fmt_num] is the shortest decimal formatting of a
    float64, not modelled.  A nil at top level prints as %!s(<nil>), inside an
    array or map as <nil>; map keys are printed in increasing byte order. *)
Section fmt.
  Context {num : Type} (fmt_num : num -> string).

  Fixpoint insert_sorted (p : string * string) (l : list (string * string))
      : list (string * string) :=
    match l with
    | [] => [p]
    | q :: l' => if String.leb p.1 q.1 then p :: l else q :: insert_sorted p l'
    end.
  Definition sort_keys (l : list (string * string)) : list (string * string) :=
    fold_right insert_sorted [] l.
  Fixpoint spaced (l : list string) : string :=
    match l with
    | [] => ""
    | [s] => s
    | s :: l' => (s +:+ " " +:+ spaced l')%string
    end.

  Fixpoint sprint_inner (v : json num) : string :=
    match v with
    | JNull => "<nil>"
    | JBool b => ("%!s(bool=" +:+ (if b then "true" else "false") +:+ ")")%string
    | JNumber n => ("%!s(float64=" +:+ fmt_num n +:+ ")")%string
    | JString s => s
    | JArray l => ("[" +:+ spaced (map sprint_inner l) +:+ "]")%string
    | JObject kvs =>
      ("map[" +:+
       spaced (map (fun kv => kv.1 +:+ ":" +:+ kv.2)
                 (sort_keys (map (fun kv => (kv.1, sprint_inner kv.2)) kvs)))
       +:+ "]")%string
    end.
  Definition sprint (v : json num) : string :=
    match v with JNull => "%!s(<nil>)" | _ => sprint_inner v end.

  (** field/FieldProcess.go:19-26  GetID: scan in iteration order. *)
  Fixpoint get_id (kvs : list (string * json num)) : string :=
    match kvs with
    | [] => ""
    | (k, v) :: kvs' => if String.eqb k "Id" then sprint v else get_id kvs'
    end.
End fmt.

(** model/Set.go.  The data map. *)
Notation set_data := (gmap string bool).
Inductive set_op := SAdd (x : string) | SRemove (x : string).
(** model/Set.go:7-11 NewSet *)
Definition set_new : set_data := ∅.
(** model/Set.go:17-23 Add, Remove *)
Definition set_step (s : set_data) (o : set_op) : set_data :=
  match o with
  | SAdd x => <[x := true]> s
  | SRemove x => delete x s
  end.
(** model/Set.go:25-28 Contains *)
Definition set_contains (s : set_data) (x : string) : bool :=
  match s !! x with Some _ => true | None => false end.
(** model/Set.go:30-32 Size *)
Definition set_size (s : set_data) : nat := size s.
