(** The fan-in pattern used three times in the code: index/InvertedIndex.go:47-68
    (one goroutine per term), :82-106 (one per batch), search/Standard.go:22-54
    (one per query).  The main goroutine spawns workers, then a closer, then
    receives until the channel is closed:

      for _, p := range tasks { wg.Add(1); go func() { defer wg.Done()
          sem <- struct{}{}; msgs := compute(p)
          for _, x := range msgs { ch <- x }; <-sem }() }
      go func() { wg.Wait(); close(ch) }()
      for x := range ch { ... }

    A task is the initial state [p : P] of the worker's own computation, which
    takes steps [pstep] and may end in a state [p] with the list [ms] of the
    messages to send, in sending order, when [pout p ms].  A channel of capacity
    [ccap] is the list of buffered messages; a sender may also hand a message
    directly to the waiting receiver when the buffer is empty (this is the only
    way to communicate when [ccap = 0]).  [scap] is the capacity of the semaphore
    channel, [None] when there is none.  [upfront] tells whether wg.Add is called
    once before spawning (Standard.go:24) or before each spawn
    (InvertedIndex.go:49, 84). *)
From Verif Require Import Base.

Section fanin.
  Context {P A : Type}.
  Variables (pstep : P -> P -> Prop) (pout : P -> list A -> Prop).
  Variables (ccap : nat) (scap : option nat) (upfront : bool).

  Inductive worker :=
  | WAcquire (p : P)              (* about to acquire the semaphore *)
  | WRun (p : P)                  (* computing *)
  | WSend (msgs : list A)         (* messages still to send; then release *)
  | WFinish.                      (* about to run the deferred wg.Done() *)

  Inductive main_pc := MSpawn (todo : list P) | MCollect | MDone.
  Inductive closer_pc := CNone | CWait | CClosed.

  Record fan := mkFan {
    fn_main : main_pc;
    fn_workers : list worker;
    fn_wg : nat;                  (* WaitGroup counter *)
    fn_sem : nat;                 (* tokens in the semaphore channel *)
    fn_chan : list A;             (* buffered messages, oldest first *)
    fn_closer : closer_pc;
    fn_got : list A;              (* messages received so far, in order *)
    fn_panic : bool               (* send on a closed channel *)
  }.

  Definition fan_init (sem0 : nat) (tasks : list P) : fan :=
    mkFan (MSpawn tasks) [] (if upfront then length tasks else 0) sem0 [] CNone [] false.

  Definition sem_free (sem : nat) : Prop := match scap with Some c => (sem < c)%nat | None => True end.
  Definition sem_up (sem : nat) : nat := match scap with Some _ => S sem | None => sem end.

  (** A panicked program takes no further step. *)
  Inductive fan_step : fan -> fan -> Prop :=
  | fs_spawn p todo ws wg sem ch cl got :
      fan_step (mkFan (MSpawn (p :: todo)) ws wg sem ch cl got false)
               (mkFan (MSpawn todo) (ws ++ [WAcquire p]) (if upfront then wg else S wg) sem ch cl got false)
  | fs_closer ws wg sem ch got :
      fan_step (mkFan (MSpawn []) ws wg sem ch CNone got false)
               (mkFan MCollect ws wg sem ch CWait got false)
  | fs_acquire m ws1 ws2 p wg sem ch cl got : sem_free sem ->
      fan_step (mkFan m (ws1 ++ WAcquire p :: ws2) wg sem ch cl got false)
               (mkFan m (ws1 ++ WRun p :: ws2) wg (sem_up sem) ch cl got false)
  | fs_inner m ws1 ws2 p p' wg sem ch cl got : pstep p p' ->
      fan_step (mkFan m (ws1 ++ WRun p :: ws2) wg sem ch cl got false)
               (mkFan m (ws1 ++ WRun p' :: ws2) wg sem ch cl got false)
  | fs_output m ws1 ws2 p ms wg sem ch cl got : pout p ms ->
      fan_step (mkFan m (ws1 ++ WRun p :: ws2) wg sem ch cl got false)
               (mkFan m (ws1 ++ WSend ms :: ws2) wg sem ch cl got false)
  | fs_send m ws1 ws2 x t wg sem ch cl got : (length ch < ccap)%nat -> cl <> CClosed ->
      fan_step (mkFan m (ws1 ++ WSend (x :: t) :: ws2) wg sem ch cl got false)
               (mkFan m (ws1 ++ WSend t :: ws2) wg sem (ch ++ [x]) cl got false)
  | fs_handoff ws1 ws2 x t wg sem cl got : cl <> CClosed ->
      fan_step (mkFan MCollect (ws1 ++ WSend (x :: t) :: ws2) wg sem [] cl got false)
               (mkFan MCollect (ws1 ++ WSend t :: ws2) wg sem [] cl (got ++ [x]) false)
  | fs_send_closed m ws1 ws2 x t wg sem ch got :
      fan_step (mkFan m (ws1 ++ WSend (x :: t) :: ws2) wg sem ch CClosed got false)
               (mkFan m (ws1 ++ WSend (x :: t) :: ws2) wg sem ch CClosed got true)
  | fs_release m ws1 ws2 wg sem ch cl got :
      fan_step (mkFan m (ws1 ++ WSend [] :: ws2) wg (sem_up sem) ch cl got false)
               (mkFan m (ws1 ++ WFinish :: ws2) wg sem ch cl got false)
  | fs_done m ws1 ws2 wg sem ch cl got :
      fan_step (mkFan m (ws1 ++ WFinish :: ws2) (S wg) sem ch cl got false)
               (mkFan m (ws1 ++ ws2) wg sem ch cl got false)
  | fs_close m ws sem ch got :
      fan_step (mkFan m ws 0 sem ch CWait got false)
               (mkFan m ws 0 sem ch CClosed got false)
  | fs_recv ws wg sem x ch cl got :
      fan_step (mkFan MCollect ws wg sem (x :: ch) cl got false)
               (mkFan MCollect ws wg sem ch cl (got ++ [x]) false)
  | fs_finish ws wg sem got :
      fan_step (mkFan MCollect ws wg sem [] CClosed got false)
               (mkFan MDone ws wg sem [] CClosed got false).

  (** The receive loop has ended. *)
  Definition fan_done (s : fan) : Prop := fn_main s = MDone.
End fanin.
Arguments worker : clear implicits.
Arguments main_pc : clear implicits.
Arguments fan : clear implicits.
