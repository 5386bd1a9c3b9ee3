(** Vocabulary for GET requests handled while documents are posted (C65). *)
From Verif Require Import Base M_Text M_Language M_Field M_LRU S_Visits M_Memory M_File M_Serialize M_Num M_FanIn M_Search M_SearchConc M_Disk M_DiskBusy M_Standard M_Server M_BusyServer S_Disk S_DiskBusy.

Section server.
  Context {N : numops}.
  (** The call number [k] of Standard.Search since the store was opened, for [queries], has
      returned [rs]. *)
  Definition returned (x : server N) (k : nat) (queries : list (query N)) (rs : list (doc_score N)) : Prop :=
    exists w, sv_gets x !! k = Some (queries, w) /\ job_returns N w rs.
  (** How many calls of Standard.Search have been made. *)
  Definition gets (x : server N) : nat := length (sv_gets x).
  (** What a query adds to the score of document [d], from the result of its Index.Search. *)
  Definition adds (d : string) (qr : query N * search_result N) : option (num N) :=
    match sr_docs qr.2 !! d with Some fld => Some (doc_bm25 N qr.1 qr.2 fld) | None => None end.
  Section runs.
    Variables (compress : bytes -> bytes) (decompress : bytes -> option bytes) (cache_size : Z) (ncpu : nat).
    (** A run without a crash. *)
    Definition server_run : server N -> server N -> Prop := rtc (server_live compress decompress cache_size N ncpu).
    (** The same, and no Index.Search is in progress at any moment of it. *)
    Definition silent_run : server N -> server N -> Prop :=
      rtc (fun x y => server_live compress decompress cache_size N ncpu x y /\ nobody_searching (sv_store y)).
    (** The handler of POST requests makes the calls [cs], all of them SaveOrUpdate, one
        after the other; [run] says what else may happen meanwhile. *)
    Inductive makes (run : server N -> server N -> Prop) : list call -> server N -> server N -> Prop :=
    | makes_nil x : makes run [] x x
    | makes_save d fld cs x y z : run x y -> one_save d fld (sv_store x) (sv_store y) -> makes run cs y z -> makes run (Save d fld :: cs) x z.
    (** A step of anybody but the handler of POST requests and the background goroutines. *)
    Definition step_of_gets (x y : server N) : Prop :=
      server_live compress decompress cache_size N ncpu x y /\ y_fs (by_sys (sv_store y)) = y_fs (by_sys (sv_store x)) /\
      y_log (by_sys (sv_store y)) = y_log (by_sys (sv_store x)) /\ by_doc (sv_store y) = by_doc (sv_store x) /\
      exists u u', y_proc (by_sys (sv_store x)) = Up u /\ y_proc (by_sys (sv_store y)) = Up u' /\ u_pc u' = u_pc u.
  End runs.
End server.
