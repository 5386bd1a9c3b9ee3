(** C69: cases. *)
From Verif Require Import Base M_Text M_Language M_Field M_LRU S_Visits M_Memory M_File M_Serialize M_Num M_FanIn M_Search M_Concurrent M_SearchConc M_Disk M_DiskBusy M_DiskMulti M_Standard M_Server M_BusyServer M_MultiServer S_Search S_Server S_Concurrent S_DiskMulti S_DiskQuery S_BusyServer S_MultiServer P_Base P_Server P_DiskIndex3 P_MultiServer P_MultiServer2 P_MultiServer3 X_DiskExec X_DiskMulti X_DiskQuery T_Server T_BusyServer T_BusyServer2 T_DiskNft T_DiskIndex T_DiskDocs T_DiskMulti T_DiskMulti2 T_DiskQuery T_MultiServer X_MultiServer S_Disk.
#[local] Open Scope nat_scope.

Definition vq (l : list (bool * mact)) : list (bool * vact) := map (fun p => (p.1, VQ (QM p.2))) l.
Lemma mb_plain {N} (x : mserver N) : plain_ids mb_bind x.
Proof.
  intros body doc _ H _. unfold mb_bind in H. repeat (case_match; [injection H as <-; split; [repeat constructor; done|by apply plain_case]|]). discriminate H.
Qed.
Definition in_callb (th : tpc * msg * list call) : bool := match executing th.1 with Some _ => true | None => false end.

(** Two handlers in the middle of their calls when a GET request arrives. *)
Definition run_v1 : list (bool * vact) := vq mopen.
Definition run_v2 : list (bool * vact) := [(false, VPost "one"); (false, VPost "two")] ++ vq ((false, MCall 0) :: msteps 3 0 ++ [(false, MCall 1)] ++ msteps 5 1 ++ [(true, MStep 0); (false, MCall 0)] ++ msteps 4 0) ++ [(false, VGet "red moon")] ++ vq (msteps 1 1).
Lemma mown_threads {N} compress decompress cs bind il inum tl st fo ncpu (x y : mserver N) : rtc (step_of_ms_gets compress decompress cs bind il inum tl st fo ncpu) x y ->
  mu_threads (ms_store y) = mu_threads (ms_store x).
Proof. induction 1 as [|x y z (_ & _ & _ & _ & E & _) _ IH]; [done|]. by rewrite IH. Qed.
Lemma mown_session {N} compress decompress cs bind il inum tl st fo ncpu (x y : mserver N) : rtc (step_of_ms_gets compress decompress cs bind il inum tl st fo ncpu) x y ->
  ms_session compress decompress cs bind il inum tl st fo ncpu x y.
Proof. intros H. eapply rtc_subrel; [|exact H]. intros a b (HL & _ & _ & _ & _ & _ & _ & u & u' & Hu & _). split; [exact HL|by exists u]. Qed.
Lemma get_not_docs {N} (terms : list string) (q : query N) : q ∈ get_queries N terms -> q_field q <> "docs".
Proof. intros Hq. apply get_query in Hq as [[-> | ->] _]; done. Qed.

(** The hypotheses of C69_ranking, C69_only_posted, C69_answers, C69_can_answer,
    C69_no_panic and C69_served: a GET request arrives and is answered while two handlers
    of POST requests are in the middle of their calls. *)
Example C69_case : forall N, exists (a x y : mserver N) u w rs,
  mserver_reachable id Some 1 mb_bind bs_letter bs_number same same same N 4 a /\ ms_session id Some 1 mb_bind bs_letter bs_number same same same 4 a x /\ ms_count a = 0 /\
  mserver_reachable id Some 1 mb_bind bs_letter bs_number same same same N 4 x /\ plain_ids mb_bind x /\ mu_open (ms_store x) u /\ ~ served (ms_store x) /\
  ms_gets x !! 0 = Some (get_queries N (bs_terms "red moon"), w) /\ (forall q, q ∈ get_queries N (bs_terms "red moon") -> q_field q <> "docs") /\ ms_now x = ["one"; "two"] /\
  ms_session id Some 1 mb_bind bs_letter bs_number same same same 4 a y /\ plain_ids mb_bind y /\ ms_returned y 0 (get_queries N (bs_terms "red moon")) rs /\
  ms_count x = 1 /\ exists th1 th2, mu_threads (ms_store y) = [th1; th2] /\ executing th1.1 <> None /\ executing th2.1 <> None.
Proof.
  intros N.
  assert (match vplay 1 v_any run_v1 (mserver_init N) with
    | Some a => (length (ms_gets a) =? 0) && match vplay 1 v_up run_v2 a with
        | Some x => v_up x && bool_decide (ms_now x = ["one"; "two"]) && (length (ms_gets x) =? 1) && match mu_threads (ms_store x) with [th1; th2] => in_callb th1 && in_callb th2 | _ => false end
        | None => false end
    | None => false end = true) as H by (vm_compute; reflexivity).
  destruct (vplay 1 v_any run_v1 (mserver_init N)) as [a|] eqn:Ea; [|discriminate H]. apply andb_true_iff in H as [H0 H]. apply Nat.eqb_eq in H0. destruct (vplay 1 v_up run_v2 a) as [x|] eqn:Ex; [|discriminate H].
  assert (exists g, ms_gets x = [g] /\ g.1 = get_queries N (bs_terms "red moon")) as (g & Eg & Eg1).
  { assert (match vplay 1 v_any run_v1 (mserver_init N) with Some a => match vplay 1 v_up run_v2 a with Some x => (ms_gets x).*1 | None => [] end | None => [] end = [get_queries N (bs_terms "red moon")]) as K by (vm_compute; reflexivity).
    rewrite Ea, Ex in K. destruct (ms_gets x) as [|g [|]]; try discriminate K. injection K as K. by exists g. }
  pose proof (vplay_step 1 4 _ _ _ _ Ea) as Ra. pose proof (vplay_session 1 4 _ _ _ Ex) as Rx. clear Ea Ex.
  apply andb_true_iff in H as [H H3]. apply andb_true_iff in H as [H H2]. apply andb_true_iff in H as [H H1]. apply bool_decide_eq_true_1 in H1.
  destruct (mu_threads (ms_store x)) as [|th1 [|th2 [|]]] eqn:Et; try discriminate H3. apply andb_true_iff in H3 as [H3 H4].
  assert (mserver_reachable id Some 1 mb_bind bs_letter bs_number same same same N 4 x) as Hx by (by eapply ms_session_reach).
  destruct g as [queries w]. cbn in Eg1. subst queries. assert (ms_gets x !! 0 = Some (get_queries N (bs_terms "red moon"), w)) as Eg0 by (by rewrite Eg).
  destruct (C69_can_answer id Some 1 ltac:(by intros ?) ltac:(done) mb_bind bs_letter bs_number same same same N 4 ltac:(lia) x 0 _ w Hx (mb_plain x) (get_not_docs _) Eg0) as (y & rs & Hy & Hrs).
  assert (exists u, mu_open (ms_store x) u) as [u Hu] by (by eapply gets_open).
  exists a, x, y, u, w, rs. split; [exact Ra|]. split; [exact Rx|]. split; [exact H0|]. split; [exact Hx|]. split; [apply mb_plain|]. split; [exact Hu|]. split.
  { intros Hs. assert (th1 ∈ mu_threads (ms_store x)) as Hin by (rewrite Et; left). rewrite (Hs th1 Hin) in H3. discriminate H3. }
  split; [exact Eg0|]. split; [apply get_not_docs|]. split; [exact H1|]. split; [unfold ms_session in *; etransitivity; [exact Rx|]; by apply mown_session|]. split; [apply mb_plain|]. split; [exact Hrs|].
  split; [unfold ms_count; by rewrite Eg|].
  exists th1, th2. split; [by rewrite (mown_threads _ _ _ _ _ _ _ _ _ _ _ _ Hy)|]. unfold in_callb in H3, H4. split; intros E; [rewrite E in H3|rewrite E in H4]; done.
Qed.

(** Those of C69_found_after_restart, with a cache for one document: both documents are
    posted at the same time; the writers finish; the process is killed and started again;
    the second document is being posted again when a GET request arrives and is answered. *)
Definition serve (i : nat) : list (bool * mact) := [(false, MCall i); (true, MStep i)].
Definition run_w1 : list (bool * vact) := run_v1 ++ [(false, VPost "one"); (false, VPost "two")] ++ vq ((false, MCall 0) :: msteps 3 0 ++ [(false, MCall 1)] ++ msteps 5 1 ++ [(true, MStep 0)] ++ serve 0 ++ [(true, MStep 1)] ++ serve 1 ++ serve 0 ++ serve 1 ++
  ms [(true, ARecv); (false, TMetrics); (true, AMetrics); (false, TNft); (true, ANft); (false, TDocs); (true, ADocs); (false, TIndex); (true, AIndex "u1")]).
Definition run_w2 : list (bool * vact) := [(false, VPost "two")] ++ vq ((false, MCall 0) :: msteps 3 0) ++ [(false, VGet "red star")] ++ vq (msteps 2 0).
Definition play_r {N : numops} (s1 s2 : list (bool * vact)) : option (mserver N * mserver N * mserver N * mserver N * mserver N * mserver N) :=
  match vplay 1 v_any s1 (mserver_init N) with
  | Some a => match vexec 1 (VQ (QM (MSys ACrash))) a with
    | Some x1 => match vexec 1 (VQ (QM (MSys AStart))) x1 with
      | Some x1' => match vplay 1 v_alive (vq (ms [(true, ALoad)])) x1' with
        | Some x2 => match vexec 1 VOpen x2 with
          | Some b => match vplay 1 v_up s2 b with Some c => Some (a, x1, x1', x2, b, c) | None => None end
          | None => None end
        | None => None end
      | None => None end
    | None => None end
  | None => None end.
Lemma play_r_inv {N : numops} s1 s2 (a x1 x1' x2 b c : mserver N) : play_r s1 s2 = Some (a, x1, x1', x2, b, c) ->
  mserver_reachable id Some 1 mb_bind bs_letter bs_number same same same N 4 a /\
  mserver_step id Some 1 mb_bind bs_letter bs_number same same same N 4 a x1 /\
  (y_proc (mu_sys (ms_store x1')) <> Down -> mserver_live id Some 1 mb_bind bs_letter bs_number same same same N 4 x1 x1') /\
  rtc (mserver_live id Some 1 mb_bind bs_letter bs_number same same same N 4) x1' x2 /\
  (y_proc (mu_sys (ms_store b)) <> Down -> mserver_live id Some 1 mb_bind bs_letter bs_number same same same N 4 x2 b) /\
  ms_session id Some 1 mb_bind bs_letter bs_number same same same 4 b c.
Proof.
  unfold play_r. intros H.
  destruct (vplay 1 v_any s1 (mserver_init N)) as [a'|] eqn:Ea; [|discriminate H].
  destruct (vexec 1 (VQ (QM (MSys ACrash))) a') as [y1|] eqn:E1; [|discriminate H].
  destruct (vexec 1 (VQ (QM (MSys AStart))) y1) as [y1'|] eqn:E1'; [|discriminate H].
  destruct (vplay 1 v_alive (vq (ms [(true, ALoad)])) y1') as [y2|] eqn:E2; [|discriminate H].
  destruct (vexec 1 VOpen y2) as [b'|] eqn:Eb; [|discriminate H].
  destruct (vplay 1 v_up s2 b') as [c'|] eqn:Ec; [|discriminate H].
  assert (a' = a /\ y1 = x1 /\ y1' = x1' /\ y2 = x2 /\ b' = b /\ c' = c) as (<- & <- & <- & <- & <- & <-) by (injection H; auto 10).
  split; [exact (vplay_step 1 4 _ _ _ _ Ea)|]. split; [exact (proj1 (vexec_ok 1 4 _ _ _ E1))|]. split; [exact (proj2 (vexec_ok 1 4 _ _ _ E1'))|].
  split; [exact (vplay_live 1 4 _ _ _ E2)|]. split; [exact (proj2 (vexec_ok 1 4 _ _ _ Eb))|]. exact (vplay_session 1 4 _ _ _ Ec).
Qed.
Definition quietb {N} (x : mserver N) : bool :=
  match y_proc (mu_sys (ms_store x)) with Up u => match u_ich u with [] => true | _ => false end && bool_decide (i_buf (u_iw u) = ∅) && match m_pc (u_mg u) with MIdle => true | _ => false end && servedb (ms_store x) | _ => false end.
Lemma quietb_ok {N} (x : mserver N) : quietb x = true -> exists u, mu_open (ms_store x) u /\ multi_quiet (ms_store x) u /\ forall f, ~ in_gap (u_mg u) f.
Proof.
  unfold quietb. destruct (y_proc (mu_sys (ms_store x))) as [| |u] eqn:E; try discriminate 1. rewrite !andb_true_iff. intros (((H1 & H2) & H3) & H4). exists u. split; [exact E|]. apply bool_decide_eq_true_1 in H2.
  split; [split; [|split; [by destruct (u_ich u)|done]]|].
  - intros th Hth. unfold servedb in H4. rewrite forallb_forall in H4. apply elem_of_list_In, H4 in Hth. destruct th as [[[] []] []]; (done || discriminate Hth).
  - intros f (fs & files & td & b & Eg). rewrite Eg in H3. discriminate H3.
Qed.
Definition phaseb {N} (x : mserver N) : nat := match y_proc (mu_sys (ms_store x)) with Down => 0 | Loading _ => 1 | Up _ => 2 end.
Example C69_case_restart : forall N, exists (a b c : mserver N) u u' doc fd rs,
  mserver_reachable id Some 1 mb_bind bs_letter bs_number same same same N 4 a /\
  mu_open (ms_store a) u /\ multi_quiet (ms_store a) u /\ ~ in_gap (u_mg u) "text" /\
  "one" ∈ ms_now a /\ mb_bind "one" = Some doc /\ is_not_document_complete doc = false /\
  ms_restarts id Some 1 mb_bind bs_letter bs_number same same same 4 a b u' /\
  load_doc Some (y_fs (mu_sys (ms_store b))) (d_id doc) = Some (Some fd) /\ is_Some (fd !! "text") /\
  ms_session id Some 1 mb_bind bs_letter bs_number same same same 4 b c /\ plain_ids mb_bind c /\ not_posted mb_bind c (d_id doc) /\ ms_now c = ["two"] /\ ~ served (ms_store c) /\
  ms_returned c 0 (get_queries N (bs_terms "red star")) rs /\
  "red" ∈ bs_terms "red star" /\ "red" ∈ bs_terms (d_text doc) /\ d_id doc ∈ rs.*1.
Proof.
  intros N.
  assert (match play_r (N := N) run_w1 run_w2 with
    | Some (a, x1, x1', x2, b, c) => quietb a && bool_decide (ms_now a = ["one"; "two"]) && (phaseb x1 =? 0) && (phaseb x1' =? 1) && (phaseb x2 =? 1) && (phaseb b =? 2) && bool_decide (ms_now c = ["two"]) &&
        (length (ms_gets c) =? 1) && negb (servedb (ms_store c)) && match load_doc Some (y_fs (mu_sys (ms_store b))) "d1" with Some (Some fd) => match fd !! "text" with Some _ => true | None => false end | _ => false end
    | None => false end = true) as H by (vm_compute; reflexivity).
  assert (match play_r (N := N) run_w1 run_w2 with Some (a, x1, x1', x2, b, c) => (ms_gets c).*1 | None => [] end = [get_queries N (bs_terms "red star")]) as HG by (vm_compute; reflexivity).
  destruct (play_r (N := N) run_w1 run_w2) as [[[[[[a x1] x1'] x2] b] c]|] eqn:E; [|discriminate H]. rewrite !andb_true_iff in H. destruct H as (((((((((H0 & H1) & H2) & H3) & H4) & H5) & H6) & H7) & H8) & H9).
  destruct (play_r_inv _ _ _ _ _ _ _ _ E) as (Ra & S1 & S1' & S2 & Sb & Sc). clear E. apply bool_decide_eq_true_1 in H1, H6. apply Nat.eqb_eq in H2, H3, H4, H5, H7.
  destruct (quietb_ok a H0) as (u & Hu & Hq & Hgap).
  unfold phaseb in *. destruct (y_proc (mu_sys (ms_store x1))) eqn:P1; try discriminate H2. destruct (y_proc (mu_sys (ms_store x1'))) eqn:P1'; try discriminate H3. destruct (y_proc (mu_sys (ms_store x2))) as [|g2|] eqn:P2; try discriminate H4. destruct (y_proc (mu_sys (ms_store b))) as [| |u'] eqn:Pb; try discriminate H5.
  specialize (S1' ltac:(discriminate)). specialize (Sb ltac:(discriminate)).
  destruct (load_doc Some (y_fs (mu_sys (ms_store b))) "d1") as [[fd|]|] eqn:El; try discriminate H9. destruct (fd !! "text") as [z|] eqn:Ez; [|discriminate H9].
  assert (ms_restarts id Some 1 mb_bind bs_letter bs_number same same same 4 a b u') as Hre.
  { exists x1, x2. split; [exact S1|]. split; [exact P1|]. split; [eapply rtc_l; [exact S1'|exact S2]|]. split; [by exists g2|]. split; [exact Sb|exact Pb]. }
  destruct (restarts_reopen _ _ _ _ _ _ _ _ _ _ _ _ _ _ _ Ra Hu Hre) as (b0 & Rb0 & _ & Lb0 & _).
  assert (mserver_reachable id Some 1 mb_bind bs_letter bs_number same same same N 4 b) as Rb by (unfold mserver_reachable in *; eapply rtc_r; [exact Rb0|by left]).
  pose proof (ms_session_reach _ _ _ _ _ _ _ _ _ _ _ _ _ Rb Sc) as Rc.
  destruct (ms_gets c) as [|[queries w] [|]] eqn:Eg; try discriminate H7. cbn in HG. injection HG as HG. 
  assert (ms_gets c !! 0 = Some (get_queries N (bs_terms "red star"), w)) as Eg0 by (rewrite Eg; cbn; by rewrite HG).
  destruct (C69_can_answer id Some 1 ltac:(by intros ?) ltac:(done) mb_bind bs_letter bs_number same same same N 4 ltac:(lia) c 0 _ w Rc (mb_plain c) (get_not_docs _) Eg0) as (y & rs & Hy & Hrs).
  destruct (mown_same _ _ _ _ _ _ _ _ _ _ _ _ _ Hy) as (_ & En & _).
  assert (ms_session id Some 1 mb_bind bs_letter bs_number same same same 4 b y) as Sy by (unfold ms_session in *; etransitivity; [exact Sc|]; by apply mown_session).
  assert (not_posted mb_bind y "d1") as Hnp.
  { intros body doc Hb Hd. rewrite En, H6 in Hb. apply elem_of_list_singleton in Hb as ->. injection Hd as <-. discriminate. }
  assert ("red" ∈ bs_terms "red star") as T1 by (vm_compute; left). assert ("red" ∈ bs_terms "red sun") as T2 by (vm_compute; left).
  assert ("one" ∈ ms_now a) as Hone by (rewrite H1; left).
  exists a, b, y, u, u', (mkDocument "d1" "star" "red sun"), fd, rs. cbn [d_id d_text].
  split; [exact Ra|]. split; [exact Hu|]. split; [exact Hq|]. split; [apply Hgap|]. split; [exact Hone|]. split; [reflexivity|]. split; [reflexivity|]. split; [exact Hre|]. split; [exact El|]. split; [by exists z|].
  split; [exact Sy|]. split; [apply mb_plain|]. split; [exact Hnp|]. split; [by rewrite En|]. split.
  { intros Hs. assert (servedb (ms_store c) = true) as X; [|rewrite X in H8; discriminate H8]. unfold servedb. apply forallb_forall. intros th Hth. apply elem_of_list_In in Hth. rewrite (Hs th); [done|]. by rewrite (mown_threads _ _ _ _ _ _ _ _ _ _ _ _ Hy). }
  split; [exact Hrs|]. split; [exact T1|]. split; [exact T2|].
  exact (C69_found_after_restart id Some 1 ltac:(by intros ?) ltac:(done) mb_bind bs_letter bs_number same same same N 4 a b y u u' "one" (mkDocument "d1" "star" "red sun") "text" fd "red" 0 "red star" rs
    Ra Hu Hq (or_intror eq_refl) (Hgap "text") Hone eq_refl eq_refl Hre El (ex_intro _ z Ez) Sy (mb_plain y) Hnp Hrs T1 T2).
Qed.
