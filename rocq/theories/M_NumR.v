(** The numeric operations on real numbers (no rounding). *)
From Coq Require Export Reals.
From Verif Require Import Base M_Num.
#[local] Open Scope R_scope.

(** [ln] is 0 on non-positive reals where math.Log gives -Inf or NaN; the theorems
    only use it on positive arguments. *)
Definition real_ops : numops := mkNumops R IZR Rplus Rminus Rmult Rdiv ln
  (fun x y => if Req_EM_T x y then true else false)
  (fun x y => if Rgt_dec x y then true else false)
  (1 / 2) (6 / 5) (3 / 4).
