(** Executions of M_MultiServer.v with the goroutines of the GET requests, computed.  Used
    only to exhibit concrete reachable states beside the theorems. *)
From Verif Require Import Base M_Text M_Language M_Field M_LRU S_Visits M_Memory M_File M_Serialize M_Num M_FanIn M_Search M_Concurrent M_SearchConc M_Disk P_DiskBusy M_DiskBusy M_DiskMulti M_Standard M_Server M_BusyServer M_MultiServer S_Search S_Server S_DiskMulti S_DiskQuery S_BusyServer S_MultiServer P_Base P_Server X_DiskExec X_DiskBusy X_DiskMulti X_DiskQuery T_Server T_BusyServer T_BusyServer2 X_MultiServer S_Disk.
#[local] Open Scope nat_scope.

(** What the goroutines of the first GET request do; [j] is a worker. *)
Inductive fact := FSpawn | FCloser | FAcquire (j : nat) | FCall (j : nat) | FOut (j : nat) | FHand (j : nat) | FRelease (j : nat) | FDone (j : nat) | FClose | FFinish.
Section exec.
  Context {N : numops}.
  Variables (cs : Z) (ncpu : nat).
  Notation live := (mserver_live id Some cs mb_bind bs_letter bs_number same same same N ncpu).
  Notation job := (qjob N).
  Notation out := (list (doc_score N)).
  Notation fstep b n := (fan_step (fun _ _ : job => False) (mjob_out N b) n None true).
  Definition at_worker (j : nat) (ws : list (worker job out)) : option (list (worker job out) * worker job out * list (worker job out)) :=
    match drop j ws with x :: r => Some (take j ws, x, r) | [] => None end.
  Lemma at_worker_ok j ws l x r : at_worker j ws = Some (l, x, r) -> ws = l ++ x :: r.
  Proof. unfold at_worker. destruct (drop j ws) as [|y r'] eqn:E; [discriminate 1|]. intros [= <- -> ->]. by rewrite <- (take_drop j ws) at 1; rewrite E. Qed.
  Definition fout (b : multi) (p : job) : option (list out) :=
    match p with
    | JWait q i => match mu_qs b !! i with
        | Some (mkMQ cpus t f (MqRet len size nft docs)) =>
            if bool_decide (t = q_terms q) && bool_decide (f = q_field q) then Some [map (fun kx : string * field => (kx.1, doc_bm25 N q (M_DiskMulti.answer N len size nft docs) kx.2)) (map_to_list docs)] else None
        | _ => None end
    | _ => None end.
  Lemma fout_ok b p ms : fout b p = Some ms -> mjob_out N b p ms.
  Proof.
    unfold fout. destruct p as [q|q i]; [discriminate 1|]. destruct (mu_qs b !! i) as [[cpus t f []]|] eqn:E; try discriminate 1. destruct (_ && _) eqn:E2; [|discriminate 1]. intros [= <-].
    apply andb_true_iff in E2 as [E2 E3]. apply bool_decide_eq_true_1 in E2, E3. subst. exists q, i, cpus. do 4 eexists. exists (map_to_list docs). done.
  Qed.
  Definition ffan (a : fact) (b : multi) (w : fan job out) : option (fan job out) :=
    match a, w with
    | FSpawn, mkFan (MSpawn (p :: todo)) ws wg sem ch cl got false => Some (mkFan (MSpawn todo) (ws ++ [WAcquire p]) wg sem ch cl got false)
    | FCloser, mkFan (MSpawn []) ws wg sem ch CNone got false => Some (mkFan MCollect ws wg sem ch CWait got false)
    | FAcquire j, mkFan m ws wg sem ch cl got false => match at_worker j ws with Some (l, WAcquire p, r) => Some (mkFan m (l ++ WRun p :: r) wg sem ch cl got false) | _ => None end
    | FOut j, mkFan m ws wg sem ch cl got false => match at_worker j ws with Some (l, WRun p, r) => match fout b p with Some ms => Some (mkFan m (l ++ WSend ms :: r) wg sem ch cl got false) | None => None end | _ => None end
    | FHand j, mkFan MCollect ws wg sem [] CWait got false => match at_worker j ws with Some (l, WSend (x :: t), r) => Some (mkFan MCollect (l ++ WSend t :: r) wg sem [] CWait (got ++ [x]) false) | _ => None end
    | FRelease j, mkFan m ws wg sem ch cl got false => match at_worker j ws with Some (l, WSend [], r) => Some (mkFan m (l ++ WFinish :: r) wg sem ch cl got false) | _ => None end
    | FDone j, mkFan m ws (S wg) sem ch cl got false => match at_worker j ws with Some (l, WFinish, r) => Some (mkFan m (l ++ r) wg sem ch cl got false) | _ => None end
    | FClose, mkFan m ws 0 sem ch CWait got false => Some (mkFan m ws 0 sem ch CClosed got false)
    | FFinish, mkFan MCollect ws wg sem [] CClosed got false => Some (mkFan MDone ws wg sem [] CClosed got false)
    | _, _ => None
    end.
  Lemma ffan_ok a b w w' n : ffan a b w = Some w' -> fstep b n w w'.
  Proof.
    destruct w as [m ws wg sem ch cl got p]. destruct a; cbn [ffan]; intros H;
      repeat (case_match; try discriminate H; subst); simplify_eq;
      try match goal with K : at_worker _ _ = Some _ |- _ => apply at_worker_ok in K; subst end.
    - apply (fs_spawn _ _ _ _ true).
    - apply fs_closer.
    - by apply (fs_acquire _ _ _ None true).
    - by apply fs_output, fout_ok.
    - by apply fs_handoff.
    - apply (fs_release _ _ _ None).
    - apply fs_done.
    - apply fs_close.
    - apply fs_finish.
  Qed.
  Definition fexec (a : fact) (x : mserver N) : option (mserver N) :=
    match ms_gets x with
    | [(queries, w)] => match a, w with
        | FCall j, mkFan m ws wg sem ch cl got false => match at_worker j ws, x with
            | Some (l, WRun (JCall q), r), mkMServer (mkMulti (mkSys s (Up u) log) sh ths qs) gs now past =>
                if decide (0 < ncpu) then Some (mkMServer (mkMulti (mkSys s (Up u) log) sh ths (qs ++ [mkMQ ncpu (q_terms q) (q_field q) MqLength])) [(queries, mkFan m (l ++ WRun (JWait q (length qs)) :: r) wg sem ch cl got false)] now past) else None
            | _, _ => None end
        | FCall _, _ => None
        | a, w => match ffan a (ms_store x) w with Some w' => Some (mkMServer (ms_store x) [(queries, w')] (ms_now x) (ms_past x)) | None => None end
        end
    | _ => None end.
  Lemma fexec_ok a x y : fexec a x = Some y -> live x y.
  Proof.
    unfold fexec. destruct (ms_gets x) as [|[queries w] [|]] eqn:Eg; try discriminate 1. intros H.
    assert ((exists j, a = FCall j) \/ match ffan a (ms_store x) w with Some w' => Some (mkMServer (ms_store x) [(queries, w')] (ms_now x) (ms_past x)) | None => None end = Some y) as [[j ->]|K].
    { destruct a; (by left; eexists) || (by right). }
    - destruct w as [m ws wg sem ch cl got []]; [discriminate H|]. destruct (at_worker j ws) as [[[l []] r]|] eqn:E; try discriminate H. destruct p as [q|]; [|discriminate H].
      apply at_worker_ok in E. subst ws. destruct x as [[[s [|g|u] log] sh ths qs] gs now past]; try discriminate H. destruct (decide (0 < ncpu)) as [Hn|]; [|discriminate H]. injection H as <-. cbn in Eg. subst gs.
      exact (mv_call _ _ _ _ _ _ _ _ _ _ _ s u log sh ths qs [(queries, mkFan m (l ++ WRun (JCall q) :: r) wg sem ch cl got false)] now past 0 queries _ _ q eq_refl (fan_inner_intro _ _ _ _ _ _ _ _ _ _) Hn).
    - destruct (ffan a (ms_store x) w) as [w'|] eqn:E; [|discriminate K]. injection K as <-. destruct x as [b gs now past]. cbn in *. subst gs. eapply (ffan_ok _ _ _ _ (length queries)) in E.
      exact (mv_fan _ _ _ _ _ _ _ _ _ _ _ b [(queries, w)] now past 0 queries w w' eq_refl E).
  Qed.
  (** A session: the store is open before and after every step. *)
  Fixpoint gplay (l : list (sum (bool * vact) fact)) (x : mserver N) : option (mserver N) :=
    match l with
    | [] => Some x
    | inl p :: l => match vplay cs v_up [p] x with Some y => gplay l y | None => None end
    | inr a :: l => if v_up x then match fexec a x with Some y => gplay l y | None => None end else None
    end.
  Lemma gplay_session l : forall x y, gplay l x = Some y -> ms_session id Some cs mb_bind bs_letter bs_number same same same ncpu x y.
  Proof.
    induction l as [|[p|a] l IH]; intros x y H; cbn [gplay] in H; [injection H as <-; apply rtc_refl| |].
    - destruct (vplay cs v_up [p] x) as [z|] eqn:E; [|discriminate H]. unfold ms_session in *. etransitivity; [by eapply vplay_session|by apply IH].
    - destruct (v_up x) eqn:Eu; [|discriminate H]. destruct (fexec a x) as [z|] eqn:E; [|discriminate H]. eapply rtc_l; [|by apply IH]. split; [by apply (fexec_ok a)|]. unfold v_up in Eu. unfold mu_open. destruct (y_proc (mu_sys (ms_store x))); try discriminate Eu. by eexists.
  Qed.
End exec.
