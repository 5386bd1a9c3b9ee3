(** Vocabulary for "every request is answered" (C69): the steps of the goroutines that are
    there. *)
From Verif Require Import Base M_Text M_Field M_LRU S_Visits M_Memory M_File M_Serialize M_Num M_FanIn M_Search M_Concurrent M_SearchConc M_Disk M_DiskBusy M_DiskMulti M_Standard M_Server M_BusyServer M_MultiServer S_Server S_Concurrent S_Disk S_DiskMulti S_DiskQuery S_MultiServer.
#[local] Open Scope nat_scope.

(** One step of a goroutine of a GET request, or of a search of the store. *)
Inductive ms_gets_work {N : numops} (decompress : bytes -> option bytes) (ncpu : nat) : mserver N -> mserver N -> Prop :=
| msg_search s u log sh ths qs gs now past i cpus terms f q m q' : qs !! i = Some (mkMQ cpus terms f q) -> msearch_step decompress cpus terms f sh (u_mem u) s q (m, q') ->
    ms_gets_work decompress ncpu (mkMServer (mkMulti (mkSys s (Up u) log) sh ths qs) gs now past)
      (mkMServer (mkMulti (mkSys s (Up (with_mem u m (u_pc u))) log) sh ths (<[i := mkMQ cpus terms f q']> qs)) gs now past)
| msg_call s u log sh ths qs gs now past k queries w w' q : gs !! k = Some (queries, w) -> fan_inner (JCall q) (JWait q (length qs)) w w' ->
    ms_gets_work decompress ncpu (mkMServer (mkMulti (mkSys s (Up u) log) sh ths qs) gs now past)
      (mkMServer (mkMulti (mkSys s (Up u) log) sh ths (qs ++ [mkMQ ncpu (q_terms q) (q_field q) MqLength])) (<[k := (queries, w')]> gs) now past)
| msg_fan b gs now past k queries w w' : gs !! k = Some (queries, w) -> fan_step (fun _ _ => False) (mjob_out N b) (length queries) None true w w' ->
    ms_gets_work decompress ncpu (mkMServer b gs now past) (mkMServer b (<[k := (queries, w')]> gs) now past).
(** One step of a goroutine of a POST request, of a background goroutine, of a search of the
    store, or of a goroutine of a GET request.  No request arrives and no ticker runs. *)
Inductive ms_works {N : numops} (compress : bytes -> bytes) (decompress : bytes -> option bytes) (ncpu : nat) : mserver N -> mserver N -> Prop :=
| msw_post b b' gs now past : works compress decompress b b' -> ms_works compress decompress ncpu (mkMServer b gs now past) (mkMServer b' gs now past)
| msw_gets x y : ms_gets_work decompress ncpu x y -> ms_works compress decompress ncpu x y.

(** One step of the goroutine of a POST request: it starts a save or takes a step in it. *)
Definition ms_posts_work {N : numops} (compress : bytes -> bytes) (decompress : bytes -> option bytes) (x y : mserver N) : Prop :=
  works compress decompress (ms_store x) (ms_store y) /\ mu_threads (ms_store y) <> mu_threads (ms_store x).
(** An infinite run in which no request arrives: at each moment a step of the service, of a
    ticker or of a background goroutine, or nothing. *)
Definition ms_run {N : numops} (compress : bytes -> bytes) (decompress : bytes -> option bytes) (cache_size : Z)
    (bind : string -> option document) (is_letter is_number : Z -> bool) (to_lower stem fold : string -> string) (ncpu : nat) (r : nat -> mserver N) : Prop :=
  forall i, r (S i) = r i \/
    (mserver_live compress decompress cache_size bind is_letter is_number to_lower stem fold N ncpu (r i) (r (S i)) /\
     ms_now (r (S i)) = ms_now (r i) /\ length (ms_gets (r (S i))) = length (ms_gets (r i))).
(** Every GET request has its results. *)
Definition ms_all_answered {N : numops} (x : mserver N) : Prop := forall k queries w, ms_gets x !! k = Some (queries, w) -> exists rs, ms_returned x k queries rs.
