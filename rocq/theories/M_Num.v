(** Arithmetic used by metric/IDF.go and similarity/BM25.go, abstracted so that the
    same program text runs on real numbers and on IEEE-754 binary64 numbers. *)
From Verif Require Import Base M_Memory.

Record numops := mkNumops {
  num : Type;
  of_int : Z -> num;                       (* float64(i), i int *)
  nadd : num -> num -> num;
  nsub : num -> num -> num;
  nmul : num -> num -> num;
  ndiv : num -> num -> num;
  nlog : num -> num;                       (* math.Log *)
  neqb : num -> num -> bool;               (* == *)
  ngtb : num -> num -> bool;               (* > *)
  n_half : num;                            (* the literal 0.5 *)
  n_k1 : num;                              (* the literal 1.2 *)
  n_b : num                                (* the literal 0.75 *)
}.

Section metric.
  Variable N : numops.
  Notation "x + y" := (nadd N x y).
  Notation "x - y" := (nsub N x y).
  Notation "x * y" := (nmul N x y).
  Notation "x / y" := (ndiv N x y).

  (** metric/IDF.go:7-11  IdfBM25 *)
  Definition idf_bm25 (total n : num N) : num N :=
    let numerator := (total - n) + n_half N in
    let denominator := n + n_half N in
    nlog N (of_int N 1 + numerator / denominator).

  (** similarity/BM25.go:13-18: what one query term adds to the score ([boost]
      already defaulted). *)
  Definition bm25_term (k1 b boost avg total : num N) (nft : gmap string Z) (fld : field) (term : string) : num N :=
    let idf := idf_bm25 total (of_int N (geti nft term)) in
    let frequency := of_int N (geti (f_tf fld) term) in
    let numerator := frequency * (k1 + of_int N 1) in
    let denominator := frequency + k1 * ((of_int N 1 - b) + b * (of_int N (f_length fld) / avg)) in
    boost * idf * (numerator / denominator).

  (** similarity/BM25.go:9-11 *)
  Definition bm25_boost (boost : num N) : num N :=
    if neqb N boost (of_int N 0) then of_int N 1 else boost.

  (** similarity/BM25.go:8-36  BM25 *)
  Definition bm25 (query : list string) (k1 b boost avg total : num N) (nft : gmap string Z) (fld : field) : num N :=
    let boost := bm25_boost boost in
    fold_left (fun score term => score + bm25_term k1 b boost avg total nft fld term) query (of_int N 0).
End metric.
