(** Vocabulary for fair infinite runs of the store with several POST requests (C66). *)
From Verif Require Import Base M_Field M_Memory M_File M_Concurrent M_SearchConc M_Disk M_DiskBusy M_DiskMulti S_Concurrent S_DiskFair S_DiskMulti.
#[local] Open Scope nat_scope.

(** One step of the goroutine of a request: it starts a save or takes a step in it. *)
Definition request_step (compress : bytes -> bytes) (decompress : bytes -> option bytes) (a b : multi) : Prop :=
  works compress decompress a b /\ mu_threads b <> mu_threads a.
(** An infinite run in which no POST request arrives: at each moment a step of the store, of
    a ticker or of a search, or nothing; searches may be called.  The process stays up and
    is never about to end with an error. *)
Definition multi_run (compress : bytes -> bytes) (decompress : bytes -> option bytes) (cache_size : Z) (r : nat -> multi) : Prop :=
  forall i, (r (S i) = r i \/ (multi_live compress decompress cache_size (r i) (r (S i)) /\ length (mu_threads (r (S i))) <= length (mu_threads (r i)))) /\
            (exists u, mu_open (r i) u) /\ ~ stopping decompress (r i).
(** Each of the writers moves again, or there is a time after which it can never move; and
    so do the goroutines of the requests. *)
Definition multi_fair (compress : bytes -> bytes) (decompress : bytes -> option bytes) (r : nat -> multi) : Prop :=
  (forall A i, A <> Caller -> (exists k, i <= k /\ moves compress decompress A (mu_sys (r k)) (mu_sys (r (S k)))) \/
                              (exists k, i <= k /\ forall m, k <= m -> ~ can_move compress decompress A (mu_sys (r m)))) /\
  (forall i, (exists k, i <= k /\ request_step compress decompress (r k) (r (S k))) \/
             (exists k, i <= k /\ forall m b, k <= m -> ~ request_step compress decompress (r m) b)).
