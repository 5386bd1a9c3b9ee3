(** Vocabulary for binary64 scores (C62). *)
From Coq Require Import Reals.
From Flocq Require Import Core IEEE754.BinarySingleNaN.
From Verif Require Import Base M_Memory M_Num M_NumF M_NumR M_Search M_Standard S_Search.
#[local] Open Scope R_scope.

(** The real number a finite binary64 number stands for. *)
Notation val := (B2R (prec := prec64) (emax := emax64)).
Notation finite := (fun x : f64 => is_finite x = true).

(** math.Log on arguments at least 1: finite, with relative error at most 2^-51. *)
Definition accurate_log (flog : f64 -> f64) : Prop :=
  forall x, finite x -> 1 <= val x -> finite (flog x) /\ Rabs (val (flog x) - ln (val x)) <= / 2251799813685248 * ln (val x).
(** The correctly rounded logarithm. *)
Definition rounded_ln (x : f64) : f64 :=
  let fexp := SpecFloat.fexp prec64 emax64 in
  f64_scale (ZnearestE (scaled_mantissa radix2 fexp (ln (val x)))) (cexp radix2 fexp (ln (val x))).

(** A boost: 0 (which means 1), or between 2^-500 and 2^500. *)
Definition boost_ok (x : f64) : Prop := finite x /\ (val x = 0 \/ bpow radix2 (-500) <= val x <= bpow radix2 500).
(** The value a boost multiplies the score with. *)
Definition boost_of (x : f64) : R := if Req_EM_T (val x) 0 then 1 else val x.
(** The same query with the boost read as a real number. *)
Definition exact_query {flog} (q : query (float_ops flog)) : query real_ops :=
  mkQuery (N := real_ops) (q_field q) (val (q_boost q)) (q_terms q).

(** Integers that binary64 represents exactly. *)
Definition small_field (x : field) : Prop := (0 <= f_length x < 2 ^ 53)%Z /\ forall t, (0 <= geti (f_tf x) t < 2 ^ 53)%Z.
(** The statistics the storage gives for a query. *)
Definition small_stats (v : view) (f : string) (terms : list string) : Prop :=
  (0 < v_size v f < 2 ^ 53)%Z /\ (0 < v_length v f < 2 ^ 53)%Z /\
  forall t, t ∈ terms -> (0 <= geti (v_nft v f terms) t <= v_size v f)%Z.
(** A query with at most [n] terms whose boost is at most [beta], whose statistics
    and matching documents are small numbers. *)
Definition query_small {flog} (v : view) (n : nat) (beta : R) (q : query (float_ops flog)) : Prop :=
  boost_ok (q_boost q) /\ boost_of (q_boost q) <= beta /\ (length (q_terms q) <= n)%nat /\
  forall d x, matches v (q_terms q) (q_field q) d = true -> v_fields v [d] (q_field q) !! d = Some x ->
    small_field x /\ small_stats v (q_field q) (q_terms q).
(** The rounding error of [m] queries of at most [n] terms with boosts at most [beta]. *)
Definition search_err (m n : nat) (beta : R) : R := beta * INR m * INR n * (INR m + INR n + 8) / bpow radix2 43.
(** The score in exact arithmetic. *)
Definition exact_score {flog} (v : view) (qs : list (query (float_ops flog))) (d : string) : R :=
  fold_right Rplus 0 (contributions real_ops v (map exact_query qs) d).
