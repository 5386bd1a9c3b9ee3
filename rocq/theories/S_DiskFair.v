(** Specification vocabulary: infinite executions of the running store and fairness (C55). *)
From Verif Require Import Base M_Field M_LRU M_Memory M_File M_Disk.

(** The goroutines: the caller, the four writers, and the index writer's receive. *)
Inductive actor := Caller | MetricsWriter | NftWriter | DocsWriter | IndexReceive | IndexWriter.
(** Which goroutine made the step from [u] to [u'], by what it changes. *)
Definition acts (A : actor) (u u' : up) : Prop :=
  match A with
  | Caller => u_pc u' <> u_pc u
  | MetricsWriter => u_pc u' = u_pc u /\ u_mw u' <> u_mw u
  | NftWriter => u_pc u' = u_pc u /\ u_nw u' <> u_nw u
  | DocsWriter => u_pc u' = u_pc u /\ u_dw u' <> u_dw u
  | IndexReceive => u_pc u' = u_pc u /\ u_ich u' <> u_ich u
  | IndexWriter => u_pc u' = u_pc u /\ u_ich u' = u_ich u /\ u_iw u' <> u_iw u
  end.
#[local] Open Scope nat_scope.
Section fair.
  Variables (compress : bytes -> bytes) (decompress : bytes -> option bytes) (cache_size : Z).
  Definition moves (A : actor) (a b : sys) : Prop :=
    exists u ev u', y_proc a = Up u /\ y_proc b = Up u' /\ y_log b = y_log a ++ ev /\
      up_step compress decompress (u, y_fs a) ev (u', y_fs b) /\ acts A u u'.
  Definition can_move (A : actor) (a : sys) : Prop := exists b, moves A a b.
  (** An infinite execution: at each instant a step or nothing; no crash and no goroutine
      at a point where it must panic. *)
  Definition execution (r : nat -> sys) : Prop :=
    forall i, (r (S i) = r i \/ live_step compress decompress cache_size (r i) (r (S i))) /\
              exists u, y_proc (r i) = Up u /\ ~ up_fatal decompress (u, y_fs (r i)).
  (** Strong fairness: a goroutine moves again, or there is a time after which it can
      never move. *)
  Definition fair (r : nat -> sys) : Prop :=
    forall A i, (exists k, i <= k /\ moves A (r k) (r (S k))) \/ (exists k, i <= k /\ forall m, k <= m -> ~ can_move A (r m)).
End fair.
