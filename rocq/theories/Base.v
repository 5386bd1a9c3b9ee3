(** Go basics shared by all models. *)
From Coq Require Export String Ascii.
From Coq Require Export Datatypes List.
From stdpp Require Export base tactics numbers list gmap strings fin_maps sets relations.
From Coq Require Export ZArith Lia.
#[global] Open Scope Z_scope.

(** Two's-complement reduction of an integer to [bits] bits (Go spec, integer
    overflow and conversions). *)
Definition wrap (bits : Z) (z : Z) : Z :=
  (z + 2 ^ (bits - 1)) mod 2 ^ bits - 2 ^ (bits - 1).

(** Go [int] arithmetic on a 64-bit platform. *)
Definition wrap64 (z : Z) : Z := wrap 64 z.
(** Go conversion [int32(x)]. *)
Definition wrap32 (z : Z) : Z := wrap 32 z.

Definition int64_range (z : Z) : Prop := - 2 ^ 63 <= z < 2 ^ 63.
Definition int32_range (z : Z) : Prop := - 2 ^ 31 <= z < 2 ^ 31.

(** [range] over a Go map visits every key exactly once in an unspecified
    order: [ks] is an admissible visiting order of the keys of [m]. *)
Definition range_order {A} (m : gmap string A) (ks : list string) : Prop :=
  ks ≡ₚ (map_to_list m).*1.

(** Go [m[k]] for a map with integer values: zero when absent. *)
Definition geti (m : gmap string Z) (k : string) : Z := default 0 (m !! k).

(** Go [m[k] += d] on an [int]-valued map. *)
Definition addi (m : gmap string Z) (k : string) (d : Z) : gmap string Z :=
  <[k := wrap64 (geti m k + d)]> m.

(* std++ blocks [simpl] on string append; our proofs need it. *)
#[global] Arguments String.append !_ _ : simpl nomatch.
