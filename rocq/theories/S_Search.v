(** Specification vocabulary for searches, in terms of the answers of the storage. *)
From Verif Require Import Base M_Field M_Memory M_Num M_Search M_Standard.

(** Document [d] is in the posting set of one of the [terms] for field [f]. *)
Definition matches (v : view) (terms : list string) (f d : string) : bool :=
  existsb (fun t => match v_docs v f t with Some s => set_contains s d | None => false end) terms.

(** The score query [q] gives to a document whose stored field is [fld]: BM25 with
    k1 = 1.2, b = 0.75, the storage's document frequencies, field size and
    length/size. *)
Definition query_score (N : numops) (v : view) (q : query N) (fld : field) : num N :=
  bm25 N (q_terms q) (n_k1 N) (n_b N) (q_boost q)
    (ndiv N (of_int N (v_length v (q_field q))) (of_int N (v_size v (q_field q))))
    (of_int N (v_size v (q_field q)))
    (v_nft v (q_field q) (q_terms q)) fld.

(** What query [q] contributes to document [d]: nothing if [d] does not match or
    has no stored field. *)
Definition contribution (N : numops) (v : view) (q : query N) (d : string) : option (num N) :=
  if matches v (q_terms q) (q_field q) d then
    match v_fields v [d] (q_field q) !! d with Some fld => Some (query_score N v q fld) | None => None end
  else None.
Definition contributions (N : numops) (v : view) (qs : list (query N)) (d : string) : list (num N) :=
  omap (fun q => contribution N v q d) qs.

(** Left-to-right sum starting from 0. *)
Definition sum_num (N : numops) (l : list (num N)) : num N := fold_left (nadd N) l (of_int N 0).
