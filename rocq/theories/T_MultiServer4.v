(** C69, continued: two POST requests at once can leave a posted document unfindable. *)
From Verif Require Import Base M_Text M_Language M_Field M_LRU S_Visits M_Memory M_File M_Serialize M_Num M_FanIn M_Search M_Concurrent M_SearchConc M_Disk M_DiskBusy M_DiskMulti M_Standard M_Server M_BusyServer M_MultiServer S_Search S_Server S_Concurrent S_DiskMulti S_DiskQuery S_DiskQuery2 S_BusyServer S_MultiServer P_Base P_Server P_MultiServer P_MultiServer2 X_DiskExec X_DiskMulti X_DiskQuery T_Server T_BusyServer T_BusyServer2 T_DiskMulti T_DiskMulti2 T_DiskQuery T_DiskQuery2 T_MultiServer X_MultiServer T_MultiServer2 X_MultiServer2 S_Disk.
#[local] Open Scope nat_scope.

(** Both handlers look for the map of the field "text" before either has made it. *)
Definition run_c1 : list (bool * vact) := [(false, VPost "one"); (false, VPost "two")] ++ vq (serve 0 ++ serve 1 ++ serve 0 ++ serve 1 ++ (false, MCall 0) :: msteps 8 0 ++ (false, MCall 1) :: msteps 8 1 ++ [(true, MStep 0); (true, MStep 1)]).
Definition run_c2 : list (sum (bool * vact) fact) :=
  [inl (false, VGet "red"); inr FSpawn; inr FSpawn; inr FCloser; inr (FAcquire 0); inr (FAcquire 1); inr (FCall 0); inr (FCall 1); inl (true, VQ (QSearch 0)); inl (true, VQ (QSearch 1));
   inr (FOut 0); inr (FOut 1); inr (FHand 0); inr (FHand 1); inr (FRelease 0); inr (FRelease 1); inr (FDone 0); inr (FDone 0); inr FClose; inr FFinish].
(** Two complete documents are posted at the same time, both handlers have done their work
    (both answered 201) and nothing else is in progress; the cache has room for both.  A
    GET request for a word of the first, which arrives later, finds nothing, whatever the
    number type of the scores. *)
Theorem C69_posted_not_found : forall N, exists (b c : mserver N) doc,
  mserver_reachable id Some 2 mb_bind bs_letter bs_number same same same N 4 b /\ plain_ids mb_bind b /\ served (ms_store b) /\ mu_none_searching (ms_store b) /\
  ms_past b = [] /\ ms_now b = ["one"; "two"] /\ mb_bind "one" = Some doc /\ is_not_document_complete doc = false /\ "red" ∈ bs_terms (d_text doc) /\
  ms_session id Some 2 mb_bind bs_letter bs_number same same same 4 b c /\ ms_now c = ["one"; "two"] /\ mu_room 2 (ms_store c) /\
  ms_count b <= 0 /\ ms_returned c 0 (get_queries N (bs_terms "red")) [] /\ "red" ∈ bs_terms "red".
Proof.
  intros N.
  assert (match vplay 2 v_any run_v1 (mserver_init N) with
    | Some a => match vplay 2 v_up run_c1 a with
      | Some b => match gplay 2 4 run_c2 b with
        | Some c => (servedb (ms_store b) && (length (mu_qs (ms_store b)) =? 0) && bool_decide (ms_past b = []) && bool_decide (ms_now b = ["one"; "two"]) && bool_decide (ms_now c = ["one"; "two"]) && (length (ms_gets b) =? 0)) &&
            bool_decide (map call_doc' (calls_of (ms_log c)) = ["d1"; "d2"; "d1"; "d2"; "d1"; "d2"]) && match y_proc (mu_sys (ms_store c)) with Up u => bool_decide (c_index (u_mem u) = ∅) | _ => false end &&
            match ms_gets c with [(_, mkFan MDone _ _ _ _ _ [[]; []] _)] => true | _ => false end
        | None => false end | None => false end | None => false end = true) as H by (vm_compute; reflexivity).
  assert (match vplay 2 v_any run_v1 (mserver_init N) with Some a => match vplay 2 v_up run_c1 a with Some b => match gplay 2 4 run_c2 b with Some c => (ms_gets c).*1 | None => [] end | None => [] end | None => [] end = [get_queries N (bs_terms "red")]) as HG by (vm_compute; reflexivity).
  destruct (vplay 2 v_any run_v1 (mserver_init N)) as [a|] eqn:Ea; [|discriminate H]. destruct (vplay 2 v_up run_c1 a) as [b|] eqn:Eb; [|discriminate H]. destruct (gplay 2 4 run_c2 b) as [c|] eqn:Ec; [|discriminate H].
  pose proof (vplay_step 2 4 _ _ _ _ Ea) as Ra. pose proof (vplay_session 2 4 _ _ _ Eb) as Rb. pose proof (gplay_session 2 4 _ _ _ Ec) as Rc. clear Ea Eb Ec.
  rewrite !andb_true_iff in H. destruct H as (((L & K1) & K2) & K3). destruct L as (((((H1 & H2) & H3) & H4) & H5) & H6). apply bool_decide_eq_true_1 in H3, H4, H5, K1. apply Nat.eqb_eq in H2, H6. apply servedb_ok in H1.
  destruct (y_proc (mu_sys (ms_store c))) as [| |uc] eqn:Euc; try discriminate K2. apply bool_decide_eq_true_1 in K2.
  destruct (ms_gets c) as [|[queries w] [|]] eqn:Eg; try (destruct w as [[] ? ? ? ? ? [|[] [|[] []]] ?]; discriminate K3); [discriminate K3|]. cbn in HG. injection HG as HG.
  assert (job_returns N w []) as HR.
  { destruct w as [[] ws wg sem ch cl [|[] [|[] []]] p]; try discriminate K3. split; [done|]. exists []. split; [by vm_compute|]. split; [done|]. intros _ i j ? ? _ Hi. by rewrite lookup_nil in Hi. }
  exists b, c, (mkDocument "d1" "star" "red sun"). split; [unfold mserver_reachable; eapply ms_session_reach; [exact Ra|exact Rb]|]. split; [apply mb_plain|]. split; [exact H1|]. split.
  { intros q Hq. apply length_zero_iff_nil in H2. rewrite H2 in Hq. by apply elem_of_nil in Hq. }
  split; [exact H3|]. split; [exact H4|]. split; [reflexivity|]. split; [reflexivity|]. split; [vm_compute; left|]. split; [exact Rc|]. split; [exact H5|]. split.
  { exists {["d1"; "d2"]}. split; [by vm_compute|]. intros d [(u1 & f & t & Hu1 & S & HS & _)|(c0 & Hc0 & <-)].
    - exfalso. unfold mu_open in Hu1. rewrite Euc in Hu1. injection Hu1 as <-. unfold disk_get_index in HS. rewrite K2, lookup_empty in HS. cbn in HS. discriminate HS.
    - assert (call_doc' c0 ∈ map call_doc' (calls_of (ms_log c))) as Hin by (by apply elem_of_list_fmap_1). rewrite K1 in Hin. rewrite !elem_of_cons in Hin. set_solver. }
  split; [unfold ms_count; by rewrite H6|]. split; [|vm_compute; left]. exists w. split; [by rewrite Eg; cbn; rewrite HG|exact HR].
Qed.
Print Assumptions C69_posted_not_found.
