(** Model of storage/Memory.go and model/Field.go, value semantics (no sharing
    with the client; the sharing itself is the subject of M_MemHeap.v). *)
From Verif Require Import Base M_Field.
#[local] Open Scope Z_scope.

(** model/Field.go:3-7 *)
Record field := mkField { f_name : string; f_length : Z; f_tf : gmap string Z }.

#[global] Instance field_eq_dec : EqDecision field.
Proof. solve_decision. Defined.

(** storage/Memory.go:7-13 *)
Record memory := mkMem {
  mm_index : gmap string (gmap string set_data);
  mm_fdoc : gmap string (gmap string field);
  mm_length : gmap string Z;
  mm_size : gmap string Z;
  mm_nft : gmap string (gmap string Z)
}.

(** storage/Memory.go:38-46  NewMemory *)
Definition mem_new : memory := mkMem ∅ ∅ ∅ ∅ ∅.

(** storage/Memory.go:26-35: the loop body of UpdateIndex on one key. *)
Definition index_term (doc : string) (idx : gmap string set_data) (key : string) : gmap string set_data :=
  match idx !! key with
  | None => <[key := set_step set_new (SAdd doc)]> idx
  | Some s => <[key := set_step s (SAdd doc)]> idx
  end.

(** storage/Memory.go:15-36  UpdateIndex; [ks] is the order in which
    [range field.TF] visits the keys. *)
Definition mem_update_index (m : memory) (doc : string) (fld : field) (ks : list string) : memory :=
  let size' := addi (mm_size m) (f_name fld) 1 in
  let length' := addi (mm_length m) (f_name fld) (f_length fld) in
  let idx0 := default ∅ (mm_index m !! f_name fld) in
  let idx := fold_left (index_term doc) ks idx0 in
  mkMem (<[f_name fld := idx]> (mm_index m)) (mm_fdoc m) length' size' (mm_nft m).

(** storage/Memory.go:114-120  createFieldDocument *)
Definition mem_create_fdoc (m : memory) (doc : string) (fld : field) : memory :=
  let fd := match mm_fdoc m !! doc with
            | Some fi => <[f_name fld := fld]> fi
            | None => {[ f_name fld := fld ]}
            end in
  mkMem (mm_index m) (<[doc := fd]> (mm_fdoc m)) (mm_length m) (mm_size m) (mm_nft m).

(** storage/Memory.go:96-112  SaveOrUpdate; [ks1], [ks2] are the visiting
    orders of the two loops over field.TF. *)
Definition mem_save (m : memory) (doc : string) (fld : field) (ks1 ks2 : list string) : memory :=
  let m1 := mem_create_fdoc m doc fld in
  let m2 := mem_update_index m1 doc fld ks1 in
  let ft := fold_left (fun ft t => addi ft t 1) ks2 (default ∅ (mm_nft m2 !! f_name fld)) in
  mkMem (mm_index m2) (mm_fdoc m2) (mm_length m2) (mm_size m2) (<[f_name fld := ft]> (mm_nft m2)).

(** storage/Memory.go:48-54  GetNumberFieldTerm *)
Definition mem_get_nft (m : memory) (f : string) (terms : list string) : gmap string Z :=
  fold_left (fun tmp t => <[t := geti (default ∅ (mm_nft m !! f)) t]> tmp) terms ∅.
(** storage/Memory.go:56-62 *)
Definition mem_get_length (m : memory) (f : string) : Z := geti (mm_length m) f.
Definition mem_get_size (m : memory) (f : string) : Z := geti (mm_size m) f.
(** storage/Memory.go:68-70  GetIndex (a nil map reads as empty) *)
Definition mem_get_index (m : memory) (f : string) : gmap string set_data := default ∅ (mm_index m !! f).
(** storage/Memory.go:72-79  GetDocuments; [None] is the [false] result. *)
Definition mem_get_documents (m : memory) (f t : string) : option set_data :=
  match mm_index m !! f with
  | Some idx => match idx !! t with Some s => Some s | None => None end
  | None => None
  end.
(** storage/Memory.go:81-93  GetFields *)
Definition mem_get_fields (m : memory) (ids : list string) (f : string) : gmap string field :=
  fold_left (fun fs id =>
      match mm_fdoc m !! id with
      | Some fd => match fd !! f with Some fl => <[id := fl]> fs | None => fs end
      | None => fs
      end) ids ∅.

(** The mutating calls of the Storage interface. *)
Inductive call := Save (doc : string) (fld : field) | Index (doc : string) (fld : field).

(** One call, with whatever map iteration orders the runtime picks. *)
Inductive mem_step (m : memory) : call -> memory -> Prop :=
| mem_step_save doc fld ks1 ks2 : range_order (f_tf fld) ks1 -> range_order (f_tf fld) ks2 ->
    mem_step m (Save doc fld) (mem_save m doc fld ks1 ks2)
| mem_step_index doc fld ks : range_order (f_tf fld) ks ->
    mem_step m (Index doc fld) (mem_update_index m doc fld ks).

Inductive mem_run : memory -> list call -> memory -> Prop :=
| mem_run_nil m : mem_run m [] m
| mem_run_cons m c m1 h m2 : mem_step m c m1 -> mem_run m1 h m2 -> mem_run m (c :: h) m2.
