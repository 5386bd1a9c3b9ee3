(** Byte-level model of the parts of github.com/google/flatbuffers/go v23.5.26 used
    by storage/Serialize.go: builder.go, table.go, encode.go.  The library source is
    not in /repo; it is modelled from its published code.

    The builder fills its buffer from the end; [bb] is Bytes[head:], the part already
    written, and an offset is a distance from the end of the buffer, so
    Offset() = length bb.  A failed assertion or the 2 GB limit panics: the sticky flag
    [bbad] records it and FinishedBytes then has no value. *)
From Verif Require Import Base.
#[local] Open Scope nat_scope.

Notation bytes := (list Z).

(** encode.go: little-endian integers of [n] bytes (two's complement). *)
Fixpoint le (n : nat) (z : Z) : bytes :=
  match n with O => [] | S n' => (z mod 256)%Z :: le n' (z / 256)%Z end.
Fixpoint unle (l : bytes) : Z :=
  match l with [] => 0%Z | b :: l' => (b + 256 * unle l')%Z end.

Fixpoint bytes_of (s : string) : bytes :=
  match s with EmptyString => [] | String a s' => Z.of_N (N_of_ascii a) :: bytes_of s' end.
Fixpoint string_of (l : bytes) : string :=
  match l with [] => EmptyString | b :: l' => String (ascii_of_N (Z.to_N b)) (string_of l') end.

Record builder := mkB {
  bb : bytes;             (* Bytes[head:] *)
  bmin : nat;             (* minalign *)
  bvts : list nat;        (* vtables: offsets of the vtables written so far *)
  bvt : list nat;         (* vtable of the object under construction, 0 = unset *)
  bobj : nat;             (* objectEnd *)
  bnest : bool;           (* nested *)
  bbad : bool             (* a panic has occurred *)
}.

(** NewBuilder(0) *)
Definition new_builder : builder := mkB [] 1 [] [] 0 false false.
Definition offset (b : builder) : nat := length (bb b).
Definition with_bb (b : builder) (l : bytes) : builder := mkB l (bmin b) (bvts b) (bvt b) (bobj b) (bnest b) (bbad b).
Definition place (l : bytes) (b : builder) : builder := with_bb b (l ++ bb b).
Definition check (ok : bool) (b : builder) : builder :=
  mkB (bb b) (bmin b) (bvts b) (bvt b) (bobj b) (bnest b) (bbad b || negb ok).
Definition set_nested (n : bool) (b : builder) : builder :=
  mkB (bb b) (bmin b) (bvts b) (bvt b) (bobj b) n (bbad b).
Definition assert_not_nested (b : builder) : builder := check (negb (bnest b)) b.
Definition assert_nested (b : builder) : builder := check (bnest b) b.

(** Prep: alignment padding.  growByteBuffer panics when it would have to grow a
    buffer of 2^30 bytes, i.e. when head <= alignSize+size+additional at that
    capacity. *)
Definition prep (size additional : nat) (b : builder) : builder :=
  let align := Z.to_nat ((- Z.of_nat (offset b + additional)) mod Z.of_nat size)%Z in
  let b := check (Z.of_nat (offset b + align + size + additional) <? 2 ^ 30)%Z b in
  mkB (replicate align 0%Z ++ bb b) (Nat.max (bmin b) size) (bvts b) (bvt b) (bobj b) (bnest b) (bbad b).

(** PrependUOffsetT, PrependInt32 (PrependSOffsetT(0) is PrependInt32(0) here),
    PrependVOffsetT *)
Definition prepend_uoffset (off : nat) (b : builder) : builder :=
  let b := prep 4 0 b in
  let b := check (off <=? offset b) b in
  place (le 4 (Z.of_nat (offset b) - Z.of_nat off + 4)) b.
Definition prepend_int32 (x : Z) (b : builder) : builder := place (le 4 x) (prep 4 0 b).
Definition prepend_voffset (x : Z) (b : builder) : builder := place (le 2 x) (prep 2 0 b).

(** StartVector(elemSize, numElems, alignment), EndVector *)
Definition start_vector (elem_size num_elems alignment : nat) (b : builder) : builder :=
  let b := set_nested true (assert_not_nested b) in
  prep alignment (elem_size * num_elems) (prep 4 (elem_size * num_elems) b).
Definition end_vector (num_elems : nat) (b : builder) : builder * nat :=
  let b := place (le 4 (Z.of_nat num_elems)) (assert_nested b) in
  (set_nested false b, offset b).

(** CreateString *)
Definition create_string (s : string) (b : builder) : builder * nat :=
  let b := set_nested true (assert_not_nested b) in
  let b := prep 4 (String.length s + 1) b in
  let b := place [0%Z] b in
  let b := place (bytes_of s) b in
  end_vector (String.length s) b.

(** StartObject(numfields) *)
Definition start_object (numfields : nat) (b : builder) : builder :=
  let b := set_nested true (assert_not_nested b) in
  mkB (bb b) (bmin b) (bvts b) (replicate numfields 0) (offset b) (bnest b) (bbad b).
(** Slot(slotnum); out of range panics. *)
Definition slot (i : nat) (b : builder) : builder :=
  let b := check (i <? length (bvt b)) b in
  mkB (bb b) (bmin b) (bvts b) (<[i := offset b]> (bvt b)) (bobj b) (bnest b) (bbad b).
(** PrependUOffsetTSlot(o, x, 0) and PrependInt32Slot(o, x, 0): nothing is written
    for the default value 0. *)
Inductive add := AddU (i : nat) (off : nat) | AddI (i : nat) (x : Z).
Definition add_slot (b : builder) (a : add) : builder :=
  match a with
  | AddU i off => if off =? 0 then b else slot i (prepend_uoffset off b)
  | AddI i x => if (x =? 0)%Z then b else slot i (prepend_int32 x b)
  end.

(** Writing [l] at offset [o] (counted from the end). *)
Definition patch (o : nat) (l : bytes) (buf : bytes) : bytes :=
  take (length buf - o) buf ++ l ++ drop (length buf - o + length l) buf.
(** Reading [n] bytes at offset [o] from the end. *)
Definition rd (n : nat) (buf : bytes) (o : nat) : Z := unle (take n (drop (length buf - o) buf)).

(** WriteVtable: drop trailing zeros of the vtable. *)
Fixpoint trim (vt : list nat) : list nat :=
  match vt with
  | [] => []
  | x :: vt' => match trim vt' with
                | [] => if x =? 0 then [] else [x]
                | t => x :: t
                end
  end.
(** vtableEqual(a, objectStart, vt2) with vt2 = the entries of the vtable at offset [vt2]. *)
Definition vtable_equal (a : list nat) (object_start : nat) (buf : bytes) (vt2 : nat) : bool :=
  let len2 := rd 2 buf vt2 in
  (Z.of_nat (length a) * 2 =? len2 - 4)%Z &&
  forallb (fun ix : nat * nat =>
    let x := rd 2 buf (vt2 - 4 - 2 * ix.1) in
    ((x =? 0)%Z && (ix.2 =? 0)) || (x =? Z.of_nat object_start - Z.of_nat ix.2)%Z)
    (imap pair a).
(** The search runs from the most recent vtable to the oldest. *)
Definition find_vtable (a : list nat) (object_start : nat) (b : builder) : option nat :=
  List.find (fun vt2 => vtable_equal a object_start (bb b) vt2) (rev (bvts b)).

Definition write_vtable_entries (vt : list nat) (object_offset : nat) (b : builder) : builder :=
  fold_left (fun b x => prepend_voffset (if (x =? 0)%nat then 0 else Z.of_nat object_offset - Z.of_nat x)%Z b) (rev vt) b.

(** EndObject = assertNested; WriteVtable; nested = false *)
Definition end_object (b : builder) : builder * nat :=
  let b := assert_nested b in
  let b := prepend_int32 0 b in
  let o := offset b in
  let vt := trim (bvt b) in
  let b :=
    match find_vtable vt o b with
    | None =>
        let b := write_vtable_entries vt o b in
        let b := prepend_voffset (Z.of_nat o - Z.of_nat (bobj b)) b in
        let b := prepend_voffset (Z.of_nat ((length vt + 2) * 2)) b in
        let v := offset b in
        let b := with_bb b (patch o (le 4 (Z.of_nat v - Z.of_nat o)) (bb b)) in
        mkB (bb b) (bmin b) (bvts b ++ [v]) (bvt b) (bobj b) (bnest b) (bbad b)
    | Some existing => with_bb b (patch o (le 4 (Z.of_nat existing - Z.of_nat o)) (bb b))
    end in
  (mkB (bb b) (bmin b) (bvts b) [] (bobj b) false (bbad b), o).

(** The calls XStart; XAdd...; XEnd of the generated code. *)
Definition build_table (numfields : nat) (adds : list add) (b : builder) : builder * nat :=
  end_object (fold_left add_slot adds (start_object numfields b)).

(** The calls XStartVector(len); for i := len-1..0 { PrependUOffsetT(offs[i]) }; EndVector(len). *)
Definition build_vector (offs : list nat) (b : builder) : builder * nat :=
  let b := start_vector 4 (length offs) 4 b in
  let b := fold_left (fun b off => prepend_uoffset off b) (rev offs) b in
  end_vector (length offs) b.

(** Finish, FinishedBytes *)
Definition finish (root : nat) (b : builder) : option bytes :=
  let b := assert_not_nested b in
  let b := prep (bmin b) 4 b in
  let b := prepend_uoffset root b in
  if bbad b then None else Some (bb b).

(** * Readers (table.go, encode.go).  [None] is a panic (index out of range).
    UOffsetT is uint32, SOffsetT is int32, VOffsetT is uint16. *)
#[local] Open Scope Z_scope.
Definition u32 (z : Z) : Z := z mod 2 ^ 32.
Definition slice (T : bytes) (a b : Z) : option bytes :=
  if (0 <=? a) && (a <=? b) && (b <=? Z.of_nat (length T))
  then Some (take (Z.to_nat (b - a)) (drop (Z.to_nat a) T)) else None.
Definition get_u (n : nat) (T : bytes) (pos : Z) : option Z :=
  match slice T pos (pos + Z.of_nat n) with Some l => Some (unle l) | None => None end.
Definition get_i32 (T : bytes) (pos : Z) : option Z :=
  match get_u 4 T pos with Some x => Some (wrap32 x) | None => None end.

(** Table.Offset(vtableOffset) *)
Definition t_offset (T : bytes) (pos vo : Z) : option Z :=
  s ← get_i32 T pos;
  let vt := u32 (pos - s) in
  vl ← get_u 2 T vt;
  if vo <? vl then get_u 2 T (u32 (vt + vo)) else Some 0.
(** Table.Indirect, ByteVector, VectorLen, Vector *)
Definition indirect (T : bytes) (off : Z) : option Z := d ← get_u 4 T off; Some (u32 (off + d)).
Definition byte_vector (T : bytes) (off : Z) : option bytes :=
  d ← get_u 4 T off;
  let off := u32 (off + d) in
  n ← get_u 4 T off;
  slice T (u32 (off + 4)) (u32 (off + 4 + n)).
Definition vector_len (T : bytes) (pos off : Z) : option Z :=
  let off := u32 (off + pos) in
  d ← get_u 4 T off; get_u 4 T (u32 (off + d)).
Definition vector (T : bytes) (pos off : Z) : option Z :=
  let off := u32 (off + pos) in
  d ← get_u 4 T off; Some (u32 (off + d + 4)).

(** The generated accessors all have one of these shapes ([vo] = 4 + 2*slot). *)
(** Name(), Key(): nil (empty) when the slot is absent. *)
Definition acc_bytes (T : bytes) (pos vo : Z) : option bytes :=
  o ← t_offset T pos vo; if o =? 0 then Some [] else byte_vector T (u32 (o + pos)).
(** Size(), Length(), Value() *)
Definition acc_int32 (T : bytes) (pos vo : Z) : option Z :=
  o ← t_offset T pos vo; if o =? 0 then Some 0 else get_i32 T (u32 (o + pos)).
(** EntriesLength(), TfLength(), ValuesLength() *)
Definition acc_len (T : bytes) (pos vo : Z) : option Z :=
  o ← t_offset T pos vo; if o =? 0 then Some 0 else vector_len T pos o.
(** Entries(obj, j), Tf(obj, j): the position of the element's table, [None] inside
    when the accessor returns false. *)
Definition acc_table_elem (T : bytes) (pos vo : Z) (j : nat) : option (option Z) :=
  o ← t_offset T pos vo;
  if o =? 0 then Some None
  else x ← vector T pos o; p ← indirect T (u32 (x + Z.of_nat j * 4)); Some (Some p).
(** Values(j) of Document: the j-th string. *)
Definition acc_string_elem (T : bytes) (pos vo : Z) (j : nat) : option bytes :=
  o ← t_offset T pos vo;
  if o =? 0 then Some []
  else a ← vector T pos o; byte_vector T (u32 (a + Z.of_nat (j * 4))).
(** Value(obj), Values(obj): the position of a sub-table; [None] inside leaves the
    receiver unchanged. *)
Definition acc_table (T : bytes) (pos vo : Z) : option (option Z) :=
  o ← t_offset T pos vo;
  if o =? 0 then Some None else x ← indirect T (u32 (o + pos)); Some (Some x).
(** GetRootAsX(buf, 0) *)
Definition get_root (T : bytes) : option Z := get_u 4 T 0.
