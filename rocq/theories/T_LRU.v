(** Property theorems C12-C16: the LRU cache. *)
From Verif Require Import Base M_LRU S_LRU P_Ring P_LRU P_LRUHist P_LRURace.
#[local] Open Scope Z_scope.

(** C12.  [order] is the recency list: forward and backward traversals agree,
    its length is the table's size, at most the capacity; no two elements carry
    the same key; table and list describe the same entries. *)
Theorem C12_lru_bounded_consistent :
  forall (T : Type) cap (h : list (lru_event T)) s, 0 < cap -> lru_run cap h s ->
  Z.of_nat (size (lr_table s)) <= cap /\ lr_len s = Z.of_nat (size (lr_table s)) /\
  exists order : list nat,
    (forall n, (length order <= n)%nat -> forward n (lr_ring s) = order /\ backward n (lr_ring s) = rev order) /\
    Z.of_nat (length order) = lr_len s /\
    NoDup (map (fun e => fst <$> lr_page s !! e) order) /\
    (forall k e, lr_table s !! k = Some e <-> e ∈ order /\ fst <$> lr_page s !! e = Some k).
Proof. exact @lru_bounded. Qed.
Print Assumptions C12_lru_bounded_consistent.

Theorem C12_get_preserves_contents :
  forall (T : Type) cap (h : list (lru_event T)) s k s' r,
  0 < cap -> lru_run cap h s -> lru_get s k = Some (s', r) ->
  forall k' v, holds s' k' v <-> holds s k' v.
Proof. exact @lru_get_preserves. Qed.
Print Assumptions C12_get_preserves_contents.

(** C13 *)
Theorem C13_lru_exact :
  forall (T : Type) cap (h : list (lru_event T)) s k, 0 < cap -> lru_run cap h s ->
  (recently_used cap h k ->
     exists s' e v, lru_get s k = Some (s', Some e) /\ lru_deref s' e = Some v /\ last_put h k v) /\
  (¬ recently_used cap h k -> lru_get s k = Some (s, None)).
Proof. exact @lru_exact. Qed.
Print Assumptions C13_lru_exact.

(** A Put is seen through exactly the pointers to that key's current entry;
    every other pointer handed out before keeps its value, even after its entry
    has been evicted. *)
Theorem C13_pointers :
  forall (T : Type) cap (h : list (lru_event T)) s k v s',
  0 < cap -> lru_run cap h s -> lru_put s k v = Some s' ->
  forall e, is_Some (lr_page s !! e) ->
  lru_deref s' e = if decide (lr_table s !! k = Some e) then Some v else lru_deref s e.
Proof. exact @lru_pointers. Qed.
Print Assumptions C13_pointers.

Example C12_C13_example :
  exists s, lru_run 2 [EPut "a" 1; EPut "b" 2; EHit "a" 1; EPut "c" 3; EMiss "b"]%string s /\
  recently_used 2 [EPut "a" 1; EPut "b" 2; EHit "a" 1; EPut "c" 3; EMiss "b"]%string "a"%string.
Proof. exact lru_example. Qed.

(** C14 *)
Theorem C14_no_panic_positive :
  forall (T : Type) cap (h : list (lru_event T)) s k v, 0 < cap -> lru_run cap h s ->
  (exists s', lru_put s k v = Some s') /\ (exists r, lru_get s k = Some r).
Proof. exact @lru_no_panic. Qed.
Print Assumptions C14_no_panic_positive.

Theorem C14_panic_nonpositive :
  forall (T : Type) cap k (v : T), cap <= 0 ->
  lru_put (lru_new cap) k v = None /\ lru_get (lru_new cap : lru T) k = Some (lru_new cap, None).
Proof. exact @lru_nonpositive. Qed.
Print Assumptions C14_panic_nonpositive.

(** C15.  Any sequence of list operations (addresses arbitrary: operations on
    elements that are not in the list are no-ops) never dereferences nil, and
    the traversals are those of the abstract sequence. *)
Theorem C15_list_refines :
  forall (T : Type) cap os (s : lru T) l, list_run (lru_new cap) os s l ->
  (forall n, (length l <= n)%nat ->
     forward n (lr_ring s) = l /\ backward n (lr_ring s) = rev l /\
     NoDup l /\ lr_len s = Z.of_nat (length l)) /\
  (forall o, exists s', list_exec s o = Some s').
Proof. exact @list_refines. Qed.
Print Assumptions C15_list_refines.

Example C15_example : exists s : lru Z,
  list_run (lru_new 5) [LPush "a" 1; LPush "b" 2; LPush "c" 3; LFront 1; LRemove 2]%string s [1; 3]%nat.
Proof. exact list_example. Qed.

(** C16.  Two Gets of the same key on a full, well-formed cache: a schedule
    after which backward traversal sees an empty list while forward traversal
    sees both entries, and the next Put of a new key panics. *)
Theorem C16_concurrent_gets_corrupt :
  exists (h : list (lru_event Z)) s s' k v e,
    lru_run 2 h s /\
    rtc par_step (s, [TGet k; TGet k]) (s', [TMove e []; TMove e []]) /\
    forward 10 (lr_ring s') <> rev (backward 10 (lr_ring s')) /\
    lru_put s' v 3 = None.
Proof. exact concurrent_gets_corrupt. Qed.
Print Assumptions C16_concurrent_gets_corrupt.

(** Non-overlapping Gets are safe: if each Get finishes its statements before
    the next starts, the effect is that of the sequential Get. *)
Theorem C16_sequential_gets_safe :
  forall (T : Type) cap (h : list (lru_event T)) s k s' e, 0 < cap -> lru_run cap h s ->
  rtc par_step (s, [TGet k]) (s', [TMove e []]) -> lru_get s k = Some (s', Some e).
Proof. exact @sequential_get_safe. Qed.
Print Assumptions C16_sequential_gets_safe.
