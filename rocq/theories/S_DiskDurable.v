(** Specification vocabulary: tickers, and a store with nothing left to write (C59). *)
From Verif Require Import Base M_Field M_LRU M_Memory M_File M_Disk.
#[local] Open Scope nat_scope.

(** The tickers of the four writers (every 5 seconds). *)
Inductive ticker := MetricsTicker | NftTicker | DocsTicker | IndexTicker.
(** Between [a] and [b] the writer leaves its select because its ticker fired. *)
Definition fires (T : ticker) (a b : sys) : Prop :=
  exists u u', y_proc a = Up u /\ y_proc b = Up u' /\
    match T with
    | MetricsTicker => w_tick (u_mw u) (u_mw u')
    | NftTicker => w_tick (u_nw u) (u_nw u')
    | DocsTicker => w_tick (u_dw u) (u_dw u')
    | IndexTicker => i_tick (u_iw u) (u_iw u')
    end.
(** Every ticker fires again and again. *)
Definition ticking (r : nat -> sys) : Prop := forall T i, exists k, i <= k /\ fires T (r k) (r (S k)).
(** SaveOrUpdate and UpdateIndex are not called after moment [i]. *)
Definition no_saves_after (r : nat -> sys) (i : nat) : Prop :=
  forall k c, i <= k -> y_log (r (S k)) <> y_log (r k) ++ [ECall c].
(** No such call is in progress. *)
Definition not_saving (pc : cpc) : Prop :=
  match pc with CIdle | CGet _ _ _ _ | CGetLoad _ _ _ _ _ | CGot _ _ _ => True | _ => False end.
(** Nothing waits to be written: all buffers and the channel are empty. *)
Definition flushed (u : up) : Prop :=
  not_saving (u_pc u) /\ u_ich u = [] /\ i_buf (u_iw u) = ∅ /\ w_buf (u_mw u) = ∅ /\ w_buf (u_nw u) = ∅ /\ w_buf (u_dw u) = ∅.
