(** Vocabulary for "every POST request is served" (C69): runs in which none arrives. *)
From Verif Require Import Base M_Text M_Language M_Field M_LRU S_Visits M_Memory M_File M_Serialize M_Num M_FanIn M_Search M_Concurrent M_SearchConc M_Disk M_DiskBusy M_DiskMulti M_Standard M_Server M_BusyServer M_MultiServer S_Server S_Concurrent S_Disk S_DiskMulti.
#[local] Open Scope nat_scope.

(** An infinite run in which no POST request arrives: at each moment a step of the service,
    of a ticker or of a background goroutine, or nothing.  GET requests may arrive at any
    moments.  The process stays up and is never about to end with an error. *)
Definition ms_no_posts {N : numops} (compress : bytes -> bytes) (decompress : bytes -> option bytes) (cache_size : Z)
    (bind : string -> option document) (is_letter is_number : Z -> bool) (to_lower stem fold : string -> string) (ncpu : nat) (r : nat -> mserver N) : Prop :=
  forall i, (r (S i) = r i \/
      (mserver_live compress decompress cache_size bind is_letter is_number to_lower stem fold N ncpu (r i) (r (S i)) /\ ms_now (r (S i)) = ms_now (r i))) /\
    (exists u, mu_open (ms_store (r i)) u) /\ ~ stopping decompress (ms_store (r i)).
