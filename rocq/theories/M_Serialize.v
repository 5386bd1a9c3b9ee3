(** Model of storage/Serialize.go over the byte-level flatbuffers model.  A map is
    given to a serializer as the list of its entries in the order in which the
    range loop visits them.  [None] is a panic. *)
From Verif Require Import Base M_Field M_Memory M_Flat.
#[local] Open Scope nat_scope.

(** A loop [for k, v := range data { ...; offsets = append(offsets, off) }]. *)
Fixpoint build_all {A} (f : A -> builder -> builder * nat) (l : list A) (b : builder) : builder * list nat :=
  match l with
  | [] => (b, [])
  | x :: l' => let '(b, o) := f x b in let '(b, os) := build_all f l' b in (b, o :: os)
  end.

(** Serialize.go:10-24.  The caller converts size and length with int32(). *)
Definition serialize_metrics (name : string) (size length : Z) : option bytes :=
  let '(b, no) := create_string name new_builder in
  let '(b, t) := build_table 3 [AddU 0 no; AddI 1 size; AddI 2 length] b in
  finish t b.
(** Serialize.go:26-34 *)
Definition deserialize_metrics (T : bytes) : option (string * Z * Z) :=
  p ← get_root T;
  name ← acc_bytes T p 4; size ← acc_int32 T p 6; length ← acc_int32 T p 8;
  Some (string_of name, size, length).

(** Serialize.go:41-48: one (term, count) table; also :93-97 for TermFrequency
    (the same two slots). *)
Definition build_count (kv : string * Z) (b : builder) : builder * nat :=
  let '(b, ko) := create_string kv.1 b in
  build_table 2 [AddU 0 ko; AddI 1 (wrap32 kv.2)] b.
(** Serialize.go:36-64 *)
Definition serialize_nft (entries : list (string * Z)) : option bytes :=
  let '(b, os) := build_all build_count entries new_builder in
  let '(b, v) := build_vector os b in
  let '(b, t) := build_table 1 [AddU 0 v] b in
  finish t b.

(** A loop [for i := 0; i < n; i++ { ... }] over a map under construction. *)
Fixpoint loop {A} (body : nat -> A -> option A) (todo : nat) (i : nat) (st : A) : option A :=
  match todo with O => Some st | S n => match body i st with Some st' => loop body n (S i) st' | None => None end end.

(** Serialize.go:73-77 *)
Definition read_count (T : bytes) (p : Z) (vo : Z) (i : nat) (data : gmap string Z) : option (gmap string Z) :=
  e ← acc_table_elem T p vo i;
  match e with
  | Some q => key ← acc_bytes T q 4; value ← acc_int32 T q 6; Some (<[string_of key := value]> data)
  | None => Some data
  end.
(** Serialize.go:66-80 *)
Definition deserialize_nft (T : bytes) : option (gmap string Z) :=
  p ← get_root T;
  n ← acc_len T p 4;
  loop (read_count T p 4) (Z.to_nat n) 0 ∅.

(** Serialize.go:87-119: one entry of the field map; [tf] is the visiting order of
    field.TF. *)
Definition build_field (e : string * (string * Z * list (string * Z))) (b : builder) : builder * nat :=
  let '(key, (name, len, tf)) := e in
  let '(b, ko) := create_string key b in
  let '(b, no) := create_string name b in
  let '(b, tfs) := build_all build_count tf b in
  let '(b, tv) := build_vector tfs b in
  let '(b, fo) := build_table 3 [AddU 0 no; AddI 1 (wrap32 len); AddU 2 tv] b in
  build_table 2 [AddU 0 ko; AddU 1 fo] b.
(** Serialize.go:82-134 *)
Definition serialize_field_map (entries : list (string * (string * Z * list (string * Z)))) : option bytes :=
  let '(b, os) := build_all build_field entries new_builder in
  let '(b, v) := build_vector os b in
  let '(b, t) := build_table 1 [AddU 0 v] b in
  finish t b.

(** Serialize.go:144-162.  The variables fieldMap, field and termFrequency are reused
    across iterations; [field] would keep its old table if Value() found nothing:
    the state carries it. *)
Definition read_field (T : bytes) (p : Z) (i : nat) (st : option Z * gmap string field)
    : option (option Z * gmap string field) :=
  e ← acc_table_elem T p 4 i;
  match e with
  | Some q =>
      key ← acc_bytes T q 4;
      v ← acc_table T q 6;
      let cur := match v with Some x => Some x | None => st.1 end in
      f ← cur;                                   (* a nil table panics *)
      name ← acc_bytes T f 4; len ← acc_int32 T f 6; n ← acc_len T f 8;
      tf ← loop (read_count T f 8) (Z.to_nat n) 0 ∅;
      Some (cur, <[string_of key := mkField (string_of name) len tf]> st.2)
  | None => Some st
  end.
(** Serialize.go:136-165 *)
Definition deserialize_field_map (T : bytes) : option (gmap string field) :=
  p ← get_root T;
  n ← acc_len T p 4;
  r ← loop (read_field T p) (Z.to_nat n) 0 (None, ∅);
  Some r.2.

(** Serialize.go:172-197: one term with its documents. *)
Definition build_term (e : string * list string) (b : builder) : builder * nat :=
  let '(b, ko) := create_string e.1 b in
  let '(b, vs) := build_all create_string e.2 b in
  let '(b, vv) := build_vector vs b in
  let '(b, d) := build_table 1 [AddU 0 vv] b in
  build_table 2 [AddU 0 ko; AddU 1 d] b.
(** Serialize.go:167-212 *)
Definition serialize_index (entries : list (string * list string)) : option bytes :=
  let '(b, os) := build_all build_term entries new_builder in
  let '(b, v) := build_vector os b in
  let '(b, t) := build_table 1 [AddU 0 v] b in
  finish t b.

(** Serialize.go:235-238 *)
Definition read_value (T : bytes) (d : Z) (j : nat) (values : gmap string bool) : option (gmap string bool) :=
  v ← acc_string_elem T d 4 j; Some (<[string_of v := true]> values).
(** Serialize.go:221-241.  log.Fatalf on a missing entry ends the process: [None];
    so does reading a Document that Values() left uninitialised. *)
Definition read_term (T : bytes) (p : Z) (i : nat) (data : gmap string (gmap string bool))
    : option (gmap string (gmap string bool)) :=
  e ← acc_table_elem T p 4 i;
  q ← e;
  key ← acc_bytes T q 4;
  v ← acc_table T q 6;
  d ← v;
  n ← acc_len T d 4;
  values ← loop (read_value T d) (Z.to_nat n) 0 ∅;
  Some (<[string_of key := values]> data).
(** Serialize.go:214-244 *)
Definition deserialize_index (T : bytes) : option (gmap string (gmap string bool)) :=
  p ← get_root T;
  n ← acc_len T p 4;
  loop (read_term T p) (Z.to_nat n) 0 ∅.
