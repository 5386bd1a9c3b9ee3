From Verif Require Import Base M_Search.

(** GetFields answers each requested id independently of the other ids. *)
Definition fields_pointwise (v : view) : Prop :=
  forall ids f d, v_fields v ids f !! d = if decide (d ∈ ids) then v_fields v [d] f !! d else None.
