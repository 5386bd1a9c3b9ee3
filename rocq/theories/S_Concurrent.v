(** Specification vocabulary for concurrent calls (C56). *)
From Verif Require Import Base M_Field M_Memory M_Concurrent S_Memory.
#[local] Open Scope Z_scope.

(** The calls of a list that add to the number and length counters of field [f]: every
    call for the Memory storage, the SaveOrUpdate calls for the Disk storage (whose
    UpdateIndex does not touch the counters). *)
Definition counted (disk : bool) (f : string) (c : call) : bool :=
  match c with Save _ x => bool_decide (f_name x = f) | Index _ x => negb disk && bool_decide (f_name x = f) end.
Definition counted_calls (disk : bool) (f : string) (h : list call) : list call := List.filter (counted disk f) h.
(** The call stores document [d] under term [t] of field [f]. *)
Definition posts (f t d : string) (c : call) : Prop :=
  match c with Save d' x | Index d' x => d' = d /\ f_name x = f /\ is_Some (f_tf x !! t) end.
Definition zsum (l : list Z) : Z := fold_right Z.add 0 l.
(** Document [d] is listed for term [t] of field [f]. *)
Definition shown (s : shared) (f t d : string) : Prop := exists S, mem_get_documents (view s) f t = Some S /\ is_Some (S !! d).

(** One call executed on its own, on the maps (for the Disk storage, the documents are
    kept elsewhere and UpdateIndex changes the index only). *)
Definition seq_step (disk : bool) (m : memory) (c : call) (m' : memory) : Prop :=
  if disk then
    exists m1, mem_step m c m1 /\
      m' = match c with
           | Save _ _ => mkMem (mm_index m1) (mm_fdoc m) (mm_length m1) (mm_size m1) (mm_nft m1)
           | Index _ _ => mkMem (mm_index m1) (mm_fdoc m) (mm_length m) (mm_size m) (mm_nft m)
           end
  else mem_step m c m'.
Inductive seq_run (disk : bool) : memory -> list call -> memory -> Prop :=
| seq_nil m : seq_run disk m [] m
| seq_cons m c m1 h m2 : seq_step disk m c m1 -> seq_run disk m1 h m2 -> seq_run disk m (c :: h) m2.

(** Every call has returned. *)
Definition quiet (y : conc) : Prop := forall th, th ∈ cs_threads y -> th.1 = TIdle.
(** At most one call is in progress. *)
Definition one_at_a_time (y : conc) : Prop :=
  forall i j p q, fst <$> cs_threads y !! i = Some p -> fst <$> cs_threads y !! j = Some q -> p <> TIdle -> q <> TIdle -> i = j.
(** A step of an execution in which calls never overlap. *)
Definition serial_step (disk : bool) (a b : conc) : Prop := conc_step disk a b /\ one_at_a_time b.
