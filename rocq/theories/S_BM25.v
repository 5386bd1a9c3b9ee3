(** Vocabulary for the scoring laws over the real numbers. *)
From Verif Require Import Base M_Memory M_Num M_NumR.
#[local] Open Scope R_scope.

(** BM25 with the parameters used by search: k1 = 1.2, b = 0.75. *)
Definition score (q : list string) (boost avg : R) (total : Z) (nft : gmap string Z) (fld : field) : R :=
  bm25 real_ops q (6 / 5) (3 / 4) boost avg (IZR total) nft fld.
Definition idf (total n : R) : R := idf_bm25 real_ops total n.

(** Document frequencies between 0 and the number of documents; non-negative
    length and term frequencies. *)
Definition frequencies_ok (total : Z) (nft : gmap string Z) (q : list string) : Prop :=
  forall t, t ∈ q -> (0 <= geti nft t <= total)%Z.
Definition field_ok (fld : field) : Prop := (0 <= f_length fld)%Z /\ forall t, (0 <= geti (f_tf fld) t)%Z.

Definition rsum (l : list R) : R := fold_right Rplus 0 l.
(** Boost 0 means 1. *)
Definition eff_boost (boost : R) : R := if Req_EM_T boost 0 then 1 else boost.
