(** GET requests handled while documents are posted (C65): they can always finish. *)
From Verif Require Import Base M_Text M_Language M_Field M_LRU S_Visits M_Memory M_File M_Serialize M_Num M_FanIn M_Search M_SearchConc M_Disk M_DiskBusy M_Standard M_Server M_BusyServer S_Search S_Disk S_DiskBusy S_BusyServer P_FanIn P_Standard P_BusyServer T_DiskBusy.
#[local] Open Scope nat_scope.

Section server.
  Variables (compress : bytes -> bytes) (decompress : bytes -> option bytes) (cs : Z) (N : numops) (ncpu : nat).
  Notation busy := (busy N).
  Notation server := (server N).
  Notation blive := (busy_live compress decompress cs N ncpu).
  Notation live := (server_live compress decompress cs N ncpu).
  Notation own := (step_of_gets compress decompress cs ncpu).

  Lemma up_live b b' u : blive b b' -> y_proc (by_sys b) = Up u -> exists u', y_proc (by_sys b') = Up u'.
  Proof. intros H E. inversion H; subst; cbn in *; try (by eexists). match goal with G : live_step _ _ _ _ _ |- _ => inversion G; subst; cbn in *; try discriminate E; by eexists end. Qed.
  Lemma up_gets x : server_reachable compress decompress cs N ncpu x -> sv_gets x <> [] -> exists u, y_proc (by_sys (sv_store x)) = Up u.
  Proof.
    unfold server_reachable. intros H. remember (server_init N) as i eqn:E. assert (sv_gets i <> [] -> exists u, y_proc (by_sys (sv_store i)) = Up u) as J by (rewrite E; intros Hn; by destruct Hn). clear E.
    induction H as [x|x y z Hs _ IH]; [done|]. apply IH. destruct Hs as [Hs|(y' & Hc & ->)]; [|intros Hn; by destruct Hn]. intros Hn. inversion Hs; subst; cbn in *.
    - destruct (J Hn) as [u Hu]. by eapply up_live.
    - by eexists.
    - by eexists.
    - apply J. intros E. rewrite E in H. by rewrite lookup_nil in H.
  Qed.

  (** The fan-in without the store. *)
  Definition astep (p p' : qjob N) : Prop := exists q i, p = JCall q /\ p' = JWait q i.
  Definition aout (p : qjob N) (ms : list (list (doc_score N))) : Prop := exists q i l, p = JWait q i /\ ms = [l].
  Notation afan queries := (fan_step astep aout (length queries) None true).
  Notation jinit queries := (fan_init true 0 (JCall <$> queries)).
  Definition pmj (p : qjob N) : nat := match p with JCall _ => 3 | JWait _ _ => 2 end.
  Lemma abstract b n (queries : list (query N)) w w' : rtc (fan_step (jstep N b n) (job_out N b) (length queries) None true) w w' -> rtc (afan queries) w w'.
  Proof.
    intros H. eapply rtc_subrel; [|exact H]. intros ? ?. apply fan_mono.
    - intros p p' (q & i & s & -> & -> & _). by exists q, i.
    - intros p ms (q & i & r & kxs & -> & _ & _ & ->). by exists q, i, (map (fun kx : string * field => (kx.1, doc_bm25 N q r kx.2)) kxs).
  Qed.
  Lemma waiting b n (queries : list (query N)) w q i : rtc (fan_step (jstep N b n) (job_out N b) (length queries) None true) (jinit queries) w -> WRun (JWait q i) ∈ fn_workers w ->
    q ∈ queries /\ exists s, by_qs b !! i = Some (q_terms q, q_field q, s).
  Proof.
    intros H Hin. destruct (fan_origin _ _ _ _ _ _ _ _ H Hin) as (p0 & H0 & Hr). apply elem_of_list_fmap in H0 as (q0 & -> & Hq0).
    inversion Hr as [|? p1 ? Hs Hr1]; subst. destruct Hs as (q1 & i1 & s & E & -> & _ & Hi). injection E as <-. inversion Hr1 as [|? p2 ? Hs _]; subst; [split; [done|by exists s]|]. destruct Hs as (? & ? & ? & E & _). discriminate E.
  Qed.
  Lemma calling b n (queries : list (query N)) w q : rtc (fan_step (jstep N b n) (job_out N b) (length queries) None true) (jinit queries) w -> WRun (JCall q) ∈ fn_workers w -> q ∈ queries.
  Proof.
    intros H Hin. destruct (fan_origin _ _ _ _ _ _ _ _ H Hin) as (p0 & H0 & Hr). apply elem_of_list_fmap in H0 as (q0 & -> & Hq0).
    inversion Hr as [|? p1 ? Hs Hr1]; subst; [done|]. destruct Hs as (q1 & i1 & s & E & -> & _ & Hi). inversion Hr1 as [|? p2 ? Hs _]; subst. destruct Hs as (? & ? & ? & E' & _). discriminate E'.
  Qed.
  Lemma adec (queries : list (query N)) : tasks_decrease astep aout pmj (JCall <$> queries).
  Proof. intros p0 p _ _. split; [intros p' (q & i & -> & ->); cbn; lia|]. intros ms (q & i & l & -> & ->). cbn. lia. Qed.

  Hypothesis gz : gzip_ok compress decompress.
  Hypothesis pos : (0 < cs)%Z.
  Hypothesis cpus : 0 < ncpu.
  Lemma own_search i (b b' : busy) gs : step_of_search compress decompress cs ncpu i b b' -> own (mkServer b gs) (mkServer b' gs).
  Proof. intros (H1 & H2 & H3 & H4 & _ & _ & H5). split; [by apply sv_step|]. cbn. done. Qed.
  Lemma own_searches i (b b' : busy) gs : rtc (step_of_search compress decompress cs ncpu i) b b' -> rtc own (mkServer b gs) (mkServer b' gs).
  Proof. induction 1 as [b|b c d Hs _ IH]; [done|]. eapply rtc_l; [by eapply own_search|done]. Qed.
  Lemma own_live (x y : server) : rtc own x y -> rtc live x y.
  Proof. intros H. eapply rtc_subrel; [|exact H]. by intros ? ? []. Qed.
  Lemma own_log (x y : server) : rtc own x y -> y_log (by_sys (sv_store y)) = y_log (by_sys (sv_store x)).
  Proof. induction 1 as [x|x y z (_ & _ & E & _) _ IH]; [done|]. by rewrite IH. Qed.
  Lemma fan_own (b : busy) gs k queries w w' u : y_proc (by_sys b) = Up u -> gs !! k = Some (queries, w) -> fan_step (fun _ _ => False) (job_out N b) (length queries) None true w w' ->
    own (mkServer b gs) (mkServer b (<[k := (queries, w')]> gs)).
  Proof. intros Hu Hk Hf. split; [by eapply sv_fan|]. cbn. split; [done|]. split; [done|]. split; [done|]. by exists u, u. Qed.
  Definition fit (x : server) (queries : list (query N)) : Prop :=
    server_reachable compress decompress cs N ncpu x /\ good_log (y_log (by_sys (sv_store x))) /\ (forall c, c ∈ history (sv_store x) -> plain_doc (call_doc' c)) /\ (forall q, q ∈ queries -> q_field q <> "docs").
  Lemma fit_own x y queries : rtc own x y -> fit x queries -> fit y queries.
  Proof. intros H (H1 & H2 & H3 & H4). pose proof (own_log _ _ H) as E. split; [eapply run_reachable; [exact H1|by apply own_live]|]. unfold history. rewrite E. done. Qed.
  Lemma fan_finishes n : forall x k queries w, measure pmj w <= n -> fit x queries -> sv_gets x !! k = Some (queries, w) ->
    exists y w', rtc own x y /\ sv_gets y !! k = Some (queries, w') /\ fan_done w'.
  Proof.
    induction n as [|n IH]; intros x k queries w Hm Hx Hk.
    all: assert (fan_done w \/ ~ fan_done w) as [Hd|Hd] by (unfold fan_done; destruct (fn_main w); (by left) || (by right)); [by exists x, w|].
    all: pose proof Hx as (Hr & Hg & Hp & Hq); destruct (jobs_reachable compress decompress cs N ncpu x Hr) as (_ & _ & J); specialize (J _ _ _ Hk); pose proof (abstract _ _ _ _ _ J) as HA.
    all: destruct (fan_progress astep aout (length queries) None true (JCall <$> queries) w I) as (w' & Hw'); [intros p0 p _ _; destruct p as [q|q i]; [left; by exists (JWait q 0), q, 0|right; by exists [[]], q, i, []]|exact HA|exact Hd|].
    all: pose proof (inv_reach _ _ _ _ _ _ _ HA) as HI.
    { pose proof (measure_step _ _ _ _ _ pmj _ _ _ (adec queries) HI Hw'). lia. }
    assert (sv_gets x <> []) as Hne by (intros E; rewrite E in Hk; by rewrite lookup_nil in Hk). destruct (up_gets x Hr Hne) as [u Hu].
    destruct x as [b gs]. cbn [sv_store sv_gets] in *. pose proof (lookup_lt_Some _ _ _ Hk) as Hlt.
    (* once one step is made, go on *)
    assert (forall b1 gs1 w1, rtc own (mkServer b gs) (mkServer b1 gs1) -> gs1 !! k = Some (queries, w1) -> measure pmj w1 < measure pmj w -> exists y w', rtc own (mkServer b gs) y /\ sv_gets y !! k = Some (queries, w') /\ fan_done w') as Go.
    { intros b1 gs1 w1 H1 H2 H3. destruct (IH (mkServer b1 gs1) k queries w1) as (y & w2 & H4 & H5); [lia|by eapply fit_own|done|]. exists y, w2. split; [by etransitivity|done]. }
    assert (forall w1, afan queries w w1 -> measure pmj w1 < measure pmj w) as Hless by (intros w1 Hw1; exact (measure_step _ _ _ _ _ pmj _ _ _ (adec queries) HI Hw1)).
    assert (fan_step (fun _ _ => False) (job_out N b) (length queries) None true w w' -> exists y w', rtc own (mkServer b gs) y /\ sv_gets y !! k = Some (queries, w') /\ fan_done w') as Same.
    { intros Hf. apply (Go b (<[k := (queries, w')]> gs) w'); [apply rtc_once; by eapply fan_own|by apply list_lookup_insert|by apply Hless]. }
    inversion Hw'; subst.
    - apply Same, fs_spawn.
    - apply Same, fs_closer.
    - apply Same, fs_acquire. done.
    - (* Index.Search is called *)
      destruct H as (q & i & -> & ->). destruct b as [[s pr log] dp qs]. cbn in Hu. subst pr.
      set (w1 := mkFan m (ws1 ++ WRun (JWait q (length qs)) :: ws2) wg sem ch cl got false).
      apply (Go (mkBusy (mkSys s (Up u) log) dp (qs ++ [(q_terms q, q_field q, SLength)])) (<[k := (queries, w1)]> gs) w1); [|by apply list_lookup_insert|].
      + apply rtc_once. split; [eapply sv_call; [exact Hk|constructor]|]. cbn. split; [done|]. split; [done|]. split; [done|]. by exists u, u.
      + apply Hless. apply fs_inner. by exists q, (length qs).
    - (* its result is scored *)
      destruct H as (q & i & l & -> & ->). destruct (waiting _ _ _ _ q i J) as (Hqq & s & Hi); [cbn; apply elem_of_app; right; left|].
      destruct (C64_can_return compress decompress cs N ncpu gz pos cpus b i (q_terms q) (q_field q) s) as (b1 & r & R1 & Hret); [by apply (store_reachable _ _ _ _ _ (mkServer b gs))|done|done|by apply Hq|done|].
      pose proof (own_searches i b b1 gs R1) as R2. destruct (fit_own _ _ queries R2 Hx) as (Hr1 & _). destruct (up_gets _ Hr1 Hne) as [u1 Hu1]. cbn in Hu1.
      set (w1 := mkFan m (ws1 ++ WSend [map (fun kx : string * field => (kx.1, doc_bm25 N q r kx.2)) (map_to_list (sr_docs r))] :: ws2) wg sem ch cl got false).
      apply (Go b1 (<[k := (queries, w1)]> gs) w1); [|by apply list_lookup_insert|].
      + etransitivity; [exact R2|]. apply rtc_once. eapply fan_own; [exact Hu1|exact Hk|]. apply fs_output. exists q, i, r, (map_to_list (sr_docs r)). done.
      + apply Hless. apply fs_output. by exists q, i, (map (fun kx : string * field => (kx.1, doc_bm25 N q r kx.2)) (map_to_list (sr_docs r))).
    - apply Same, fs_send; done.
    - apply Same, fs_handoff. done.
    - pose proof (fan_no_panic _ _ _ _ _ _ _ (rtc_r _ _ _ HA Hw')) as E. discriminate E.
    - apply Same, fs_release.
    - apply Same, fs_done.
    - apply Same, fs_close.
    - apply Same, fs_recv.
    - apply Same, fs_finish.
  Qed.
End server.
