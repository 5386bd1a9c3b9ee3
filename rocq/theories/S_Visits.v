(** Orders in which Go visits maps, and reduction of integers to 32 bits. *)
From Verif Require Import Base M_Memory.
#[local] Open Scope Z_scope.

(** An order in which [range m] can visit a map: its entries, each exactly once. *)
Definition visits {A} (m : gmap string A) (l : list (string * A)) : Prop := l ≡ₚ map_to_list m.

(** A field map visited in some order, each field's TF map visited in some order. *)
Definition visits_fields (m : gmap string field) (l : list (string * (string * Z * list (string * Z)))) : Prop :=
  exists kvs, visits m kvs /\
    Forall2 (fun kv e => e.1 = kv.1 /\ e.2.1.1 = f_name kv.2 /\ e.2.1.2 = f_length kv.2 /\ visits (f_tf kv.2) e.2.2) kvs l.
(** term -> set of documents, each set visited in some order. *)
Definition visits_index (m : gmap string (gmap string bool)) (l : list (string * list string)) : Prop :=
  exists kvs, visits m kvs /\ Forall2 (fun kv e => e.1 = kv.1 /\ exists ds, visits kv.2 ds /\ e.2 = ds.*1) kvs l.

(** Every integer of the field reduced to 32 bits. *)
Definition field32 (f : field) : field := mkField (f_name f) (wrap32 (f_length f)) (wrap32 <$> f_tf f).
(** All numbers of a table fit in 32 bits. *)
Definition table32 (m : gmap string Z) : Prop := forall k v, m !! k = Some v -> int32_range v.
