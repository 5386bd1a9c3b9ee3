(** Model of storage/Memory.go with explicit map references, for the sharing
    between the store and its clients.  A Go map value is a location; the store
    and the client may hold the same location.  [model.Set] is a struct with one
    map field, so the struct copy returned by GetDocuments shares that map.
    Simplification: maps the client stores into the map returned by GetIndex
    are not modelled (deleting from it is); GetFieldDocumentTest, which is not
    part of the Storage interface, is not modelled. *)
From Verif Require Import Base M_Field M_Memory.
#[local] Open Scope Z_scope.

(** A model.Field whose TF map is the location [hf_tf]. *)
Record hfield := mkHField { hf_name : string; hf_length : Z; hf_tf : nat }.

Record hmem := mkHMem {
  hm_index : gmap string nat;                 (* Memory.Index: field -> inner map *)
  hm_imaps : gmap nat (gmap string nat);      (* inner maps: term -> data map of the *Set *)
  hm_sets : gmap nat set_data;                (* data maps of the sets *)
  hm_fdoc : gmap string (gmap string hfield); (* Memory.FieldDocument *)
  hm_tfs : gmap nat (gmap string Z);          (* TF maps *)
  hm_length : gmap string Z;
  hm_size : gmap string Z;
  hm_nft : gmap string (gmap string Z);
  hm_next : nat                               (* next fresh location *)
}.

(** storage/Memory.go:38-46 *)
Definition hm_new : hmem := mkHMem ∅ ∅ ∅ ∅ ∅ ∅ ∅ ∅ 0.

Definition tf_of (h : hmem) (l : nat) : gmap string Z := default ∅ (hm_tfs h !! l).

(** storage/Memory.go:26-35, one key; [il] is the inner map [indexField]. *)
Definition hm_index_term (doc : string) (il : nat) (h : hmem) (key : string) : hmem :=
  let im := default ∅ (hm_imaps h !! il) in
  match im !! key with
  | None =>
    let sl := hm_next h in
    mkHMem (hm_index h) (<[il := <[key := sl]> im]> (hm_imaps h)) (<[sl := {[doc := true]}]> (hm_sets h))
           (hm_fdoc h) (hm_tfs h) (hm_length h) (hm_size h) (hm_nft h) (S (hm_next h))
  | Some sl =>
    mkHMem (hm_index h) (hm_imaps h) (<[sl := <[doc := true]> (default ∅ (hm_sets h !! sl))]> (hm_sets h))
           (hm_fdoc h) (hm_tfs h) (hm_length h) (hm_size h) (hm_nft h) (hm_next h)
  end.

(** storage/Memory.go:19-24: find or create [indexField]. *)
Definition hm_index_field (h : hmem) (f : string) : hmem * nat :=
  match hm_index h !! f with
  | Some il => (h, il)
  | None =>
    let il := hm_next h in
    (mkHMem (<[f := il]> (hm_index h)) (<[il := ∅]> (hm_imaps h)) (hm_sets h) (hm_fdoc h) (hm_tfs h)
            (hm_length h) (hm_size h) (hm_nft h) (S (hm_next h)), il)
  end.

(** storage/Memory.go:15-36  UpdateIndex *)
Definition hm_update_index (h : hmem) (doc : string) (fld : hfield) (ks : list string) : hmem :=
  let h1 := mkHMem (hm_index h) (hm_imaps h) (hm_sets h) (hm_fdoc h) (hm_tfs h)
              (addi (hm_length h) (hf_name fld) (hf_length fld)) (addi (hm_size h) (hf_name fld) 1)
              (hm_nft h) (hm_next h) in
  let '(h2, il) := hm_index_field h1 (hf_name fld) in
  fold_left (hm_index_term doc il) ks h2.

(** storage/Memory.go:96-120  SaveOrUpdate, createFieldDocument *)
Definition hm_save (h : hmem) (doc : string) (fld : hfield) (ks1 ks2 : list string) : hmem :=
  let fd := match hm_fdoc h !! doc with
            | Some fi => <[hf_name fld := fld]> fi
            | None => {[ hf_name fld := fld ]}
            end in
  let h1 := mkHMem (hm_index h) (hm_imaps h) (hm_sets h) (<[doc := fd]> (hm_fdoc h)) (hm_tfs h)
              (hm_length h) (hm_size h) (hm_nft h) (hm_next h) in
  let h2 := hm_update_index h1 doc fld ks1 in
  let ft := fold_left (fun ft t => addi ft t 1) ks2 (default ∅ (hm_nft h2 !! hf_name fld)) in
  mkHMem (hm_index h2) (hm_imaps h2) (hm_sets h2) (hm_fdoc h2) (hm_tfs h2)
         (hm_length h2) (hm_size h2) (<[hf_name fld := ft]> (hm_nft h2)) (hm_next h2).

(** References handed out: the inner map of GetIndex (:68-70), the data map of
    the set of GetDocuments (:72-79), the fields of GetFields (:81-93). *)
Definition hm_get_index (h : hmem) (f : string) : option nat := hm_index h !! f.
Definition hm_get_documents (h : hmem) (f t : string) : option nat :=
  match hm_index h !! f with
  | Some il => default ∅ (hm_imaps h !! il) !! t
  | None => None
  end.
Definition hm_get_field (h : hmem) (d f : string) : option hfield :=
  match hm_fdoc h !! d with Some fd => fd !! f | None => None end.

(** Everything a client can do. *)
Inductive hevent :=
| HNewTF (tf : gmap string Z)                        (* allocate a TF map *)
| HSave (doc : string) (fld : hfield)
| HIndex (doc : string) (fld : hfield)
| HSetAdd (l : nat) (x : string)                     (* set.Add(x) on a returned set *)
| HSetRemove (l : nat) (x : string)                  (* set.Remove(x) *)
| HIndexDelete (l : nat) (t : string)                (* delete(index, t) on a returned index *)
| HTFPut (l : nat) (k : string) (v : Z)              (* tf[k] = v *)
| HTFDelete (l : nat) (k : string).                  (* delete(tf, k) *)

Inductive hm_step (h : hmem) : hevent -> hmem -> Prop :=
| hs_new tf : hm_step h (HNewTF tf)
    (mkHMem (hm_index h) (hm_imaps h) (hm_sets h) (hm_fdoc h) (<[hm_next h := tf]> (hm_tfs h))
            (hm_length h) (hm_size h) (hm_nft h) (S (hm_next h)))
| hs_save doc fld ks1 ks2 : is_Some (hm_tfs h !! hf_tf fld) ->
    range_order (tf_of h (hf_tf fld)) ks1 -> range_order (tf_of h (hf_tf fld)) ks2 ->
    hm_step h (HSave doc fld) (hm_save h doc fld ks1 ks2)
| hs_index doc fld ks : is_Some (hm_tfs h !! hf_tf fld) ->
    range_order (tf_of h (hf_tf fld)) ks -> hm_step h (HIndex doc fld) (hm_update_index h doc fld ks)
| hs_set_add l x s : hm_sets h !! l = Some s -> hm_step h (HSetAdd l x)
    (mkHMem (hm_index h) (hm_imaps h) (<[l := <[x := true]> s]> (hm_sets h)) (hm_fdoc h) (hm_tfs h)
            (hm_length h) (hm_size h) (hm_nft h) (hm_next h))
| hs_set_remove l x s : hm_sets h !! l = Some s -> hm_step h (HSetRemove l x)
    (mkHMem (hm_index h) (hm_imaps h) (<[l := delete x s]> (hm_sets h)) (hm_fdoc h) (hm_tfs h)
            (hm_length h) (hm_size h) (hm_nft h) (hm_next h))
| hs_index_delete l t im : hm_imaps h !! l = Some im -> hm_step h (HIndexDelete l t)
    (mkHMem (hm_index h) (<[l := delete t im]> (hm_imaps h)) (hm_sets h) (hm_fdoc h) (hm_tfs h)
            (hm_length h) (hm_size h) (hm_nft h) (hm_next h))
| hs_tf_put l k v tf : hm_tfs h !! l = Some tf -> hm_step h (HTFPut l k v)
    (mkHMem (hm_index h) (hm_imaps h) (hm_sets h) (hm_fdoc h) (<[l := <[k := v]> tf]> (hm_tfs h))
            (hm_length h) (hm_size h) (hm_nft h) (hm_next h))
| hs_tf_delete l k tf : hm_tfs h !! l = Some tf -> hm_step h (HTFDelete l k)
    (mkHMem (hm_index h) (hm_imaps h) (hm_sets h) (hm_fdoc h) (<[l := delete k tf]> (hm_tfs h))
            (hm_length h) (hm_size h) (hm_nft h) (hm_next h)).

Inductive hm_run : hmem -> list hevent -> hmem -> Prop :=
| hm_run_nil h : hm_run h [] h
| hm_run_cons h e h1 es h2 : hm_step h e h1 -> hm_run h1 es h2 -> hm_run h (e :: es) h2.
