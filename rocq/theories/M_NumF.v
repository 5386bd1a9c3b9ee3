(** The numeric operations on IEEE-754 binary64 numbers (Go float64), round to
    nearest even, with one NaN (Go's operators do not distinguish NaN payloads).
    [flog] is math.Log, left abstract.  Fused multiply-add, which the Go
    specification allows and the compiler uses on some architectures (not on
    amd64), is not modelled. *)
From Flocq Require Import Core.Zaux IEEE754.BinarySingleNaN.

From Verif Require Import Base M_Num.

Definition prec64 : Z := 53.
Definition emax64 : Z := 1024.
#[global] Instance prec64_gt_0 : FLX.Prec_gt_0 prec64 := eq_refl.
#[global] Instance prec64_lt_emax : Prec_lt_emax prec64 emax64 := eq_refl.
Definition f64 : Type := binary_float prec64 emax64.

(** float64(z), and the decimal literals: m * 2^e rounded to nearest even. *)
Definition f64_scale (m e : Z) : f64 := BinarySingleNaN.binary_normalize prec64 emax64 _ _ mode_NE m e false.
Definition f64_of_Z (z : Z) : f64 := f64_scale z 0.

(** 0.5 and 0.75 are exact; 1.2 is the double 0x3FF3333333333333 =
    5404319552844595 * 2^-52. *)
Definition float_ops (flog : f64 -> f64) : numops := mkNumops f64 f64_of_Z
  (Bplus mode_NE) (Bminus mode_NE) (Bmult mode_NE) (Bdiv mode_NE) flog
  Beqb (fun x y => Bltb y x)
  (f64_scale 1 (-1)) (f64_scale 5404319552844595 (-52)) (f64_scale 3 (-2)).
