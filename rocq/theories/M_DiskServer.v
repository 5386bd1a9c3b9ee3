(** main.go:110-218 as it is deployed: the handlers of M_Server.v on the disk storage
    (main.go:114: NewDiskStore("disk_storage/", 300000)).  POST requests are handled one
    after the other; the writers and the merger run at their own pace. *)
From Verif Require Import Base M_Field M_Memory M_File M_Disk M_Server S_Disk.

(** The requests [bodies] were answered with the status codes [sts] and made these calls. *)
Inductive handled (P : string -> Z -> list call -> Prop) : list string -> list Z -> list call -> Prop :=
| handled_nil : handled P [] [] []
| handled_post body st calls bodies sts rest : P body st calls -> handled P bodies sts rest ->
    handled P (body :: bodies) (st :: sts) (calls ++ rest).

(** The server was started on an empty folder, has not been restarted, has answered the
    POST requests [bodies] and is handling none now: the store is [u]. *)
Definition serving (compress : bytes -> bytes) (decompress : bytes -> option bytes) (cache_size : Z)
    (P : string -> Z -> list call -> Prop) (y : sys) (u : up) (bodies : list string) (sts : list Z) : Prop :=
  reachable compress decompress cache_size y /\ y_proc y = Up u /\ u_pc u = CIdle /\
  exists l1 l2, y_log y = l1 ++ EOpened :: l2 /\ EOpened ∉ l2 /\ calls_of l1 = [] /\ handled P bodies sts (calls_of l2).
