(** search/Standard.go:21-70 and main.go:164-217 on the Disk storage while documents are
    being posted: GET requests handled at the same time as each other and as a POST
    request.

    The store, its client and the calls of Index.Search are those of M_DiskBusy.v; the
    client is the handler of POST requests.  Simplifications: POST requests are handled
    one at a time (several savers at once: M_Concurrent.v).  A goroutine of Standard.Search
    computes its scores in one step once Index.Search has returned: it reads only the
    result of that call. *)
From Verif Require Import Base M_Text M_Language M_Field M_LRU S_Visits M_Memory M_File M_Serialize M_Num M_FanIn M_Search M_SearchConc M_Disk M_DiskBusy M_Standard M_Server.

(** The goroutine of one query, search/Standard.go:28-41. *)
Inductive qjob (N : numops) :=
| JCall (q : query N)                   (* :30, about to call Index.Search *)
| JWait (q : query N) (i : nat).        (* :30, in that call, the store's search number i *)
Arguments JCall {N}. Arguments JWait {N}.

(** One goroutine of the fan-in of M_FanIn.v moves on. *)
Inductive fan_inner {P A} (p p' : P) : fan P A -> fan P A -> Prop :=
| fan_inner_intro m ws1 ws2 wg sem ch cl got :
    fan_inner p p' (mkFan m (ws1 ++ WRun p :: ws2) wg sem ch cl got false) (mkFan m (ws1 ++ WRun p' :: ws2) wg sem ch cl got false).

(** The calls of Standard.Search since the store was opened, in order. *)
Record server N := mkServer { sv_store : busy N; sv_gets : list (list (query N) * fan (qjob N) (list (doc_score N))) }.
Arguments mkServer {N}. Arguments sv_store {N}. Arguments sv_gets {N}.

Section server.
  Variables (compress : bytes -> bytes) (decompress : bytes -> option bytes) (cache_size : Z).
  Variables (N : numops) (ncpu : nat).
  (** :31-40: the scores, in the order in which the range visits the documents. *)
  Definition job_out (b : busy N) (p : qjob N) (ms : list (list (doc_score N))) : Prop :=
    exists q i r kxs, p = JWait q i /\ by_qs b !! i = Some (q_terms q, q_field q, SRet r) /\ kxs ≡ₚ map_to_list (sr_docs r) /\
      ms = [map (fun kx : string * field => (kx.1, doc_bm25 N q r kx.2)) kxs].
  Inductive server_live : server N -> server N -> Prop :=
  | sv_step b b' gs : busy_live compress decompress cache_size N ncpu b b' -> server_live (mkServer b gs) (mkServer b' gs)
  | sv_get b gs u queries : y_proc (by_sys b) = Up u ->                                    (* :23-25, main.go:170 *)
      server_live (mkServer b gs) (mkServer b (gs ++ [(queries, fan_init true 0 (JCall <$> queries))]))
  | sv_call s u log dp qs gs k queries w w' q : gs !! k = Some (queries, w) -> fan_inner (JCall q) (JWait q (length qs)) w w' ->   (* :30 *)
      server_live (mkServer (mkBusy (mkSys s (Up u) log) dp qs) gs)
                  (mkServer (mkBusy (mkSys s (Up u) log) dp (qs ++ [(q_terms q, q_field q, SLength)])) (<[k := (queries, w')]> gs))
  | sv_fan b gs k queries w w' : gs !! k = Some (queries, w) ->                            (* :23-54 *)
      fan_step (fun _ _ => False) (job_out b) (length queries) None true w w' ->
      server_live (mkServer b gs) (mkServer b (<[k := (queries, w')]> gs)).
  Definition server_step (x y : server N) : Prop :=
    server_live x y \/ exists y', crash_step (by_sys (sv_store x)) y' /\ y = mkServer (mkBusy y' None []) [].
  Definition server_init : server N := mkServer (busy_init N) [].
  Definition server_reachable : server N -> Prop := rtc server_step server_init.
  (** search/Standard.go:43-70: the call with the goroutines [w] returns [rs]. *)
  Definition job_returns (w : fan (qjob N) (list (doc_score N))) (rs : list (doc_score N)) : Prop :=
    fan_done w /\ exists ds, ds ≡ₚ map_to_list (temp_scores N (fn_got w)) /\ sort_slice (score_less N) ds rs.
End server.
