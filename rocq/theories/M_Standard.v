(** Model of search/Standard.go (search/AsyncStandard.go is entirely commented
    out in the source). *)
From Verif Require Import Base M_Field M_Memory M_Num M_FanIn M_Search.

(** model/Query.go:3-7 *)
Record query (N : numops) := mkQuery { q_field : string; q_boost : num N; q_terms : list string }.
Arguments mkQuery {N}. Arguments q_field {N}. Arguments q_boost {N}. Arguments q_terms {N}.

Section standard.
  Variables (N : numops) (ncpu : nat) (v : view).

  (** model/DocumentScore.go:3-6 *)
  Definition doc_score : Type := (string * num N)%type.

  (** search/Standard.go:28-40: the goroutine of one query runs Index.Search and
      then scores the documents in the order in which the range visits them. *)
  Definition qtask : Type := (query N * sstate N)%type.
  Definition q_start (q : query N) : qtask := (q, search_init (q_terms q) (q_field q)).
  Inductive q_step : qtask -> qtask -> Prop :=
  | q_step_intro q s s' : search_step N ncpu v s s' -> q_step (q, s) (q, s').
  Definition doc_bm25 (q : query N) (r : search_result N) (fld : field) : num N :=
    bm25 N (q_terms q) (n_k1 N) (n_b N) (q_boost q) (sr_avg r) (sr_total r) (sr_nft r) fld.
  Definition q_out (p : qtask) (ms : list (list doc_score)) : Prop :=
    exists r kxs, search_returns p.2 r /\ kxs ≡ₚ map_to_list (sr_docs r) /\
      ms = [map (fun kx : string * field => (kx.1, doc_bm25 p.1 r kx.2)) kxs].

  (** search/Standard.go:22-54: channel of capacity len(query), wg.Add(len(query))
      before the loop, no semaphore. *)
  Definition std_state : Type := fan qtask (list doc_score).
  Definition std_init (queries : list (query N)) : std_state := fan_init true 0 (map q_start queries).
  Definition std_step (queries : list (query N)) : std_state -> std_state -> Prop :=
    fan_step q_step q_out (length queries) None true.

  (** search/Standard.go:49-54: tempScores[document.Id] += document.Score *)
  Definition add_score (tmp : gmap string (num N)) (ds : doc_score) : gmap string (num N) :=
    <[ds.1 := nadd N (default (of_int N 0) (tmp !! ds.1)) ds.2]> tmp.
  Definition temp_scores (msgs : list (list doc_score)) : gmap string (num N) :=
    fold_left (fun tmp l => fold_left add_score l tmp) msgs ∅.

  (** The comparison function given to sort.Slice (search/Standard.go:66-68). *)
  Definition score_less (a b : doc_score) : bool := ngtb N a.2 b.2.
End standard.

(** Go's sort.Slice(l, less): the result is a permutation of the slice, and if
    [less] is a strict weak ordering on its elements no element is less than an
    earlier one.  (Nothing is promised otherwise.  sort.Slice is not stable.) *)
Definition strict_weak_on {A} (less : A -> A -> bool) (l : list A) : Prop :=
  (forall a, a ∈ l -> less a a = false) /\
  (forall a b c, a ∈ l -> b ∈ l -> c ∈ l -> less a b = true -> less b c = true -> less a c = true) /\
  (forall a b c, a ∈ l -> b ∈ l -> c ∈ l -> less a b = false -> less b c = false -> less a c = false).
Definition sort_slice {A} (less : A -> A -> bool) (l l' : list A) : Prop :=
  l' ≡ₚ l /\
  (strict_weak_on less l -> forall i j a b, (i < j)%nat -> l' !! i = Some a -> l' !! j = Some b -> less b a = false).

(** search/Standard.go:56-70: the slice built by ranging over tempScores, sorted. *)
Definition std_returns (N : numops) (s : std_state N) (res : list (doc_score N)) : Prop :=
  fan_done s /\
  exists ds, ds ≡ₚ map_to_list (temp_scores N (fn_got s)) /\ sort_slice (score_less N) ds res.

(** A panic in the collector, in the closer or in any of the concurrent index searches. *)
Definition std_panics (N : numops) (s : std_state N) : Prop :=
  fn_panic s = true \/ exists p, WRun p ∈ fn_workers s /\ search_panics p.2.
