(** Vocabulary for a POST request handled while nothing else is in progress (C69). *)
From Verif Require Import Base M_Text M_Field M_Memory M_Num M_Search M_Concurrent M_Disk M_DiskBusy M_DiskMulti M_Standard M_Server M_MultiServer S_Server S_Concurrent S_Disk S_DiskMulti S_DiskQuery S_DiskQuery2 S_MultiServer.

(** Between [a] and [b] one POST request arrives, with [body], and is answered; no other POST
    request and no search is in progress meanwhile. *)
Definition ms_posted_alone {N : numops} (body : string) (a b : mserver N) : Prop :=
  served (ms_store a) /\ served (ms_store b) /\ mu_none_searching (ms_store a) /\ mu_searches (ms_store b) = mu_searches (ms_store a) /\
  ms_now b = ms_now a ++ [body].
