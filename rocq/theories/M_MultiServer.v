(** main.go:110-217 and search/Standard.go:21-70 on the Disk storage: any number of POST and
    GET requests handled at the same time.

    The store, the goroutines of the POST requests and the calls of Index.Search are those
    of M_DiskMulti.v.  Simplifications: the handler of a POST request decodes the body and
    prepares its terms in one step when the request arrives (it reads only the body; the
    relation [post] of M_Server.v).  A goroutine of Standard.Search computes its scores in
    one step once Index.Search has returned: it reads only the result of that call. *)
From Verif Require Import Base M_Text M_Language M_Field M_LRU S_Visits M_Memory M_File M_Serialize M_Num M_FanIn M_Search M_Concurrent M_SearchConc M_Disk M_DiskBusy M_DiskMulti M_Standard M_Server M_BusyServer.

(** [ms_gets]: the calls of Standard.Search since the store was opened, in order.
    [ms_now]: the bodies of the POST requests received since the store was opened, in
    order: the handler of the k-th of them is the k-th goroutine of the store.
    [ms_past]: the bodies received before.  The program keeps neither list of bodies; they
    are there to speak about. *)
Record mserver N := mkMServer { ms_store : multi; ms_gets : list (list (query N) * fan (qjob N) (list (doc_score N))); ms_now : list string; ms_past : list string }.
Arguments mkMServer {N}. Arguments ms_store {N}. Arguments ms_gets {N}. Arguments ms_now {N}. Arguments ms_past {N}.

#[local] Open Scope nat_scope.

Section server.
  Variables (compress : bytes -> bytes) (decompress : bytes -> option bytes) (cache_size : Z).
  Variables (bind : string -> option document) (is_letter is_number : Z -> bool) (to_lower stem fold : string -> string).
  Variables (N : numops) (ncpu : nat).
  (** search/Standard.go:31-40: the scores, in the order in which the range visits the
      documents. *)
  Definition mjob_out (b : multi) (p : qjob N) (ms : list (list (doc_score N))) : Prop :=
    exists q i cpus len size nft docs kxs, p = JWait q i /\ mu_qs b !! i = Some (mkMQ cpus (q_terms q) (q_field q) (MqRet len size nft docs)) /\ kxs ≡ₚ map_to_list docs /\
      ms = [map (fun kx : string * field => (kx.1, doc_bm25 N q (M_DiskMulti.answer N len size nft docs) kx.2)) kxs].
  (** Neither a request nor a search arrives. *)
  Definition no_arrival (b b' : multi) : Prop := length (mu_threads b') <= length (mu_threads b) /\ length (mu_qs b') <= length (mu_qs b).
  Inductive mserver_live : mserver N -> mserver N -> Prop :=
  | mv_step b b' gs now past : multi_live compress decompress cache_size b b' -> no_arrival b b' ->
      mserver_live (mkMServer b gs now past) (mkMServer b' gs now past)
  | mv_post s u log sh ths qs gs now past body status calls :                            (* main.go:124-163 *)
      post bind is_letter is_number to_lower stem fold body status calls ->
      mserver_live (mkMServer (mkMulti (mkSys s (Up u) log) sh ths qs) gs now past)
                   (mkMServer (mkMulti (mkSys s (Up u) log) sh (ths ++ [(TIdle, NoMsg, calls)]) qs) gs (now ++ [body]) past)
  | mv_get b gs now past u queries : y_proc (mu_sys b) = Up u ->                           (* search/Standard.go:23-25, main.go:164-181 *)
      mserver_live (mkMServer b gs now past) (mkMServer b (gs ++ [(queries, fan_init true 0 (JCall <$> queries))]) now past)
  | mv_call s u log sh ths qs gs now past k queries w w' q : gs !! k = Some (queries, w) -> fan_inner (JCall q) (JWait q (length qs)) w w' -> 0 < ncpu ->   (* :30 *)
      mserver_live (mkMServer (mkMulti (mkSys s (Up u) log) sh ths qs) gs now past)
                   (mkMServer (mkMulti (mkSys s (Up u) log) sh ths (qs ++ [mkMQ ncpu (q_terms q) (q_field q) MqLength])) (<[k := (queries, w')]> gs) now past)
  | mv_fan b gs now past k queries w w' : gs !! k = Some (queries, w) ->                   (* :23-54 *)
      fan_step (fun _ _ => False) (mjob_out b) (length queries) None true w w' ->
      mserver_live (mkMServer b gs now past) (mkMServer b (<[k := (queries, w')]> gs) now past).
  Definition mserver_step (x y : mserver N) : Prop :=
    mserver_live x y \/ exists y', crash_step (mu_sys (ms_store x)) y' /\ y = mkMServer (mkMulti y' sh_new [] []) [] [] (ms_past x ++ ms_now x).
  Definition mserver_init : mserver N := mkMServer multi_init [] [] [].
  Definition mserver_reachable : mserver N -> Prop := rtc mserver_step mserver_init.
End server.
