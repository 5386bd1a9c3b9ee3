(** Vocabulary for concurrent SaveOrUpdate calls on the disk storage (C66). *)
From Verif Require Import Base M_Field M_LRU S_Visits M_Memory M_File M_Serialize M_Num M_FanIn M_Search M_Concurrent M_SearchConc M_Disk M_DiskBusy M_DiskMulti S_Concurrent S_Disk.

(** The history of the folder, and the store while it is open. *)
Definition mu_log (a : multi) : list event := y_log (mu_sys a).
Definition mu_open (a : multi) (u : up) : Prop := y_proc (mu_sys a) = Up u.
(** The call that a goroutine is executing. *)
Definition executing (th : tpc * msg) : option call :=
  match th.1 with
  | TDoc d x | TDocW d x _ | TNft d x | TNftLoop d x _ _ | TNftW d x _ _ _ _ => Some (Save d x)
  | TSize full d x | TSizeW full d x _ | TLen full d x | TLenW full d x _ | TIdx full d x | TIdxNew full d x | TLoop full d x _ _ | TSet full d x _ _ _ _ =>
      Some (if full then Save d x else Index d x)
  | TIdle => match th.2 with DDoc d x _ | DSend d x _ => Some (Save d x) | _ => None end
  end.
Definition in_progress (a : multi) (c : call) : Prop := exists th, th ∈ mu_threads a /\ executing th.1 = Some c.
(** On its way to the disk: about to be sent by a goroutine, in the channel, or in the
    writer's buffer. *)
Definition multi_flight (a : multi) (u : up) (f t d : string) : Prop :=
  (exists th, th ∈ mu_threads a /\ th.1.2 = ISend (mkPost f t d)) \/ mkPost f t d ∈ u_ich u \/ has (default ∅ (i_buf (u_iw u) !! f)) t d.
(** Nothing is: all requests served, channel and buffer empty. *)
Definition multi_quiet (a : multi) (u : up) : Prop := served a /\ u_ich u = [] /\ i_buf (u_iw u) = ∅.
(** A step of a goroutine that has work to do: a caller, one of the writers in the middle of
    writing, the receiver of postings, the merger in the middle of a merge.  Not: the arrival
    of a request, a tick of a timer, a crash. *)
Inductive works (compress : bytes -> bytes) (decompress : bytes -> option bytes) : multi -> multi -> Prop :=
| wk_background s u log sh ths qs ev u' s' : up_step compress decompress (u, s) ev (u', s') -> u_pc u' = CIdle ->
    works compress decompress (mkMulti (mkSys s (Up u) log) sh ths qs) (mkMulti (mkSys s' (Up u') (log ++ ev)) sh ths qs)
| wk_call s u log sh ths qs i c cs : ths !! i = Some (TIdle, NoMsg, c :: cs) ->
    works compress decompress (mkMulti (mkSys s (Up u) log) sh ths qs) (mkMulti (mkSys s (Up u) (log ++ [ECall c])) sh (<[i := (t_enter true c, NoMsg, cs)]> ths) qs)
| wk_client s u log sh ths qs i th cs ev sh' u' th' : ths !! i = Some (th, cs) -> client_step (sh, u, th) ev (sh', u', th') ->
    works compress decompress (mkMulti (mkSys s (Up u) log) sh ths qs) (mkMulti (mkSys s (Up u') (log ++ ev)) sh' (<[i := (th', cs)]> ths) qs).
(** The process is about to end with log.Fatal or a panic. *)
Definition stopping (decompress : bytes -> option bytes) (a : multi) : Prop := exists u, mu_open a u /\ up_fatal decompress (u, y_fs (mu_sys a)).
