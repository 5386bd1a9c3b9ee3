(** Vocabulary for concurrent SaveOrUpdate calls on the disk storage: counters (C66). *)
From Verif Require Import Base M_Field M_Memory M_Disk S_Memory S_Concurrent S_Disk.
#[local] Open Scope Z_scope.

(** The number of saves of field [f], and the sum of the lengths saved. *)
Definition times_saved (f : string) (log : list event) : Z := Z.of_nat (length (counted_calls true f (calls_of log))).
Definition length_saved (f : string) (log : list event) : Z := zsum (map (fun c => f_length (call_field' c)) (counted_calls true f (calls_of log))).
(** No length is negative, and neither number reaches 2^31 (the files keep 32 bits). *)
Definition moderate (f : string) (log : list event) : Prop :=
  (forall c, c ∈ counted_calls true f (calls_of log) -> 0 <= f_length (call_field' c)) /\ times_saved f log < 2 ^ 31 /\ length_saved f log < 2 ^ 31.
(** The number of saves of field [f] with term [t]. *)
Definition times_term (f t : string) (log : list event) : Z := count (saves_with f t (calls_of log)).
