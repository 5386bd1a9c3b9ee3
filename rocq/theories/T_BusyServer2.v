(** C65: cases. *)
From Verif Require Import Base M_Text M_Language M_Field M_LRU S_LRU S_Visits M_Memory M_File M_Serialize M_Num M_FanIn M_Search M_SearchConc M_Disk M_DiskBusy M_Standard M_Server M_BusyServer S_Search S_Server P_Base P_Server P_BusyServer P_BusyServer2 X_DiskExec X_DiskBusy T_DiskNft T_DiskIndex T_DiskDocs T_DiskBusy T_DiskBusy2 T_Server T_BusyServer S_Disk S_DiskBusy S_BusyServer.
#[local] Open Scope nat_scope.
#[local] Opaque serialize_metrics serialize_nft serialize_field_map serialize_index deserialize_index deserialize_nft deserialize_field_map deserialize_metrics.

Section lift.
  Context {N : numops}.
  Variables (compress : bytes -> bytes) (decompress : bytes -> option bytes) (cs : Z) (ncpu : nat).
  Lemma lift_run (a b : busy N) gs : busy_run compress decompress cs ncpu a b -> server_run compress decompress cs ncpu (mkServer a gs) (mkServer b gs).
  Proof. unfold server_run. induction 1 as [|a b c H _ IH]; [done|]. eapply rtc_l; [|exact IH]. by apply sv_step. Qed.
  Lemma lift_quiet (a b : busy N) gs : quiet_run compress decompress cs ncpu a b -> silent_run compress decompress cs ncpu (mkServer a gs) (mkServer b gs).
  Proof. unfold silent_run. induction 1 as [|a b c [H Hn] _ IH]; [done|]. eapply rtc_l; [|exact IH]. split; [by apply sv_step|done]. Qed.
  Lemma lift_reachable (b : busy N) : busy_reachable compress decompress cs N ncpu b -> server_reachable compress decompress cs N ncpu (mkServer b []).
  Proof.
    intros H. change (server_reachable compress decompress cs N ncpu (mkServer b [])). revert b H. apply rtc_ind_r; [apply rtc_refl|].
    intros b c _ [H|(y' & H & ->)] IH; unfold server_reachable in *; (eapply rtc_r; [exact IH|]); [left; by apply sv_step|right; by exists y'].
  Qed.
  Lemma own_index (x y : server N) u : step_of_gets compress decompress cs ncpu x y -> y_proc (by_sys (sv_store x)) = Up u ->
    exists u', y_proc (by_sys (sv_store y)) = Up u' /\ c_index (u_mem u') = c_index (u_mem u).
  Proof.
    intros (H & Hf & Hl & _ & u1 & u' & H1 & H2 & Hpc) Hu. rewrite H1 in Hu. injection Hu as ->. exists u'. split; [done|].
    inversion H; subst; cbn [sv_store by_sys y_proc] in *; try congruence.
    inversion H0; subst; cbn [by_sys y_proc y_log] in *; try congruence.
    - inversion H3; subst; cbn [y_proc y_log y_fs] in *; try congruence; injection H1 as ->; injection H2 as ->.
      + match goal with G : up_step _ _ _ _ _ |- _ => inversion G; subst; try done end.
        * match goal with G : c_step _ _ _ _ |- _ => inversion G; subst; cbn in *; try done; try (by repeat case_match) end.
        * match goal with G : c_doc _ _ _ |- _ => inversion G; subst; cbn in *; done end.
      + match goal with G : up_tick _ _ |- _ => inversion G; subst; done end.
      + match goal with G : up_call _ _ _ |- _ => inversion G; subst; done end.
    - injection H1 as <-. injection H2 as <-. match goal with G : doc_step _ _ _ |- _ => inversion G; subst; done end.
    - injection H1 as <-. injection H2 as <-. match goal with G : dsearch_step _ _ _ _ _ _ _ _ _ |- _ => inversion G; subst; try done end.
      match goal with G : bbatch_step _ _ _ _ _ |- _ => inversion G; subst; done end.
  Qed.
End lift.
Section room.
  Context {N : numops}.
  Variables (compress : bytes -> bytes) (decompress : bytes -> option bytes) (cs : Z) (ncpu : nat).
  Lemma own_room (x y : server N) u : rtc (step_of_gets compress decompress cs ncpu) x y -> y_proc (by_sys (sv_store x)) = Up u -> room cs (sv_store x) -> room cs (sv_store y).
  Proof.
    intros H. revert u. induction H as [|x y z Hs _ IH]; [done|]. intros u Hu (D & HD & Hr). destruct (own_index _ _ _ _ _ _ _ Hs Hu) as (u' & Hu' & E). apply (IH u' Hu'). exists D. split; [done|].
    intros d [(u1 & f & t & H1 & H2)|(c & Hc & Hd)]; apply Hr; [left|right].
    - rewrite Hu' in H1. injection H1 as <-. exists u, f, t. split; [done|]. unfold disk_get_index in *. by rewrite <- E.
    - exists c. split; [|done]. unfold history in *. destruct Hs as (_ & _ & El & _). by rewrite <- El.
  Qed.
  (** The states at the ends of some scripts, run one after the other. *)
  Fixpoint states (ls : list (list (bool * bact))) (b : busy N) : option (list (busy N)) :=
    match ls with [] => Some [] | l :: ls' => match brun compress decompress cs N ncpu l b with Some b' => match states ls' b' with Some r => Some (b' :: r) | None => None end | None => None end end.
  Lemma states_cons l ls b r : states (l :: ls) b = Some r -> exists b' r', r = b' :: r' /\ brun compress decompress cs N ncpu l b = Some b' /\ states ls b' = Some r'.
  Proof. cbn. destruct (brun _ _ _ _ _ l b) as [b'|]; [|discriminate 1]. destruct (states ls b') as [r'|] eqn:E; [|discriminate 1]. intros [= <-]. by exists b', r'. Qed.
  Lemma states_nil b r : states [] b = Some r -> r = [].
  Proof. by intros [= <-]. Qed.
End room.

(** Two documents with the same id. *)
Definition bs_bind (body : string) : option document :=
  if String.eqb body "one" then Some (mkDocument "d1" "star" "red sun") else if String.eqb body "two" then Some (mkDocument "d1" "moon" "blue sun") else None.
Definition bs_letter (r : Z) : bool := ((97 <=? r) && (r <=? 122))%Z.
Definition bs_number (_ : Z) : bool := false.
Notation bs_post := (post bs_bind bs_letter bs_number same same same).
Notation bs_terms := (terms_of bs_letter bs_number same same same).
Definition bs_fields (doc : document) : list field :=
  [posted_field "id" (bs_terms (d_id doc)); posted_field "title" (bs_terms (d_title doc)); posted_field "text" (bs_terms (d_text doc))].
Lemma bs_post_ok body doc : bs_bind body = Some doc -> bs_post body 201 (map (Save (d_id doc)) (bs_fields doc)).
Proof.
  intros H. assert (is_not_document_complete doc = false) as Hc. { unfold bs_bind in H. repeat (case_match; [injection H as <-; reflexivity|]). discriminate H. }
  apply (post_created bs_bind bs_letter bs_number same same same body doc (bs_terms (d_id doc)) (bs_terms (d_title doc)) (bs_terms (d_text doc)) H Hc); by apply preprocess_terms.
Qed.
(** The hypotheses of C65_ranking, C65_get_finds, C65_get_finds_updated and
    C65_get_only_posted: the document is posted; a GET request arrives; the document is
    posted again; a second GET request arrives; the handler of POST requests is in the
    middle of a third request when the second GET request is answered. *)
Example C65_finds_case : forall N, exists (a b a' b' c : server N) doc0 doc rs,
  server_reachable id Some 5 N 4 a /\ nobody_searching (sv_store a) /\
  bs_bind "one" = Some doc0 /\ bs_post "one" 201 (map (Save "d1") (bs_fields doc0)) /\ makes (silent_run id Some 5 4) (map (Save "d1") (bs_fields doc0)) a b /\
  server_run id Some 5 4 b a' /\ gets a' = 1 /\ (forall rs0, ~ returned a' 0 (get_queries N (bs_terms "red sun")) rs0) /\
  bs_bind "two" = Some doc /\ bs_post "two" 201 (map (Save "d1") (bs_fields doc)) /\ makes (server_run id Some 5 4) (map (Save "d1") (bs_fields doc)) a' b' /\
  server_run id Some 5 4 b' c /\ ~ client_idle (sv_store c) /\ good_log (y_log (by_sys (sv_store c))) /\ room 5 (sv_store c) /\
  only_posts bs_bind bs_letter bs_number same same same ["one"; "two"] (sv_store c) /\
  gets b' = 1 /\ returned c 1 (get_queries N (bs_terms "blue moon")) rs /\ "blue" ∈ bs_terms "blue moon" /\ "blue" ∈ bs_terms (d_text doc) /\ "d1" ∈ rs.*1.
Proof.
  intros N. set (doc0 := mkDocument "d1" "star" "red sun"). set (doc := mkDocument "d1" "moon" "blue sun").
  set (x1 := posted_field "id" ["d"]). set (x2 := posted_field "title" ["star"]). set (x3 := posted_field "text" ["red"; "sun"]). set (y2 := posted_field "title" ["moon"]). set (y3 := posted_field "text" ["blue"; "sun"]).
  assert (bs_fields doc0 = [x1; x2; x3]) as F0 by (vm_compute; reflexivity). assert (bs_fields doc = [x1; y2; y3]) as F1 by (vm_compute; reflexivity).
  set (ls := [bs dopen; bsave "d1" x1; bsave "d1" x2; bsave "d1" x3; bsave "d1" x1; bsave "d1" y2; bsave "d1" y3; bs [(false, ACall (Save "d1" x1)); (false, AClient)]]).
  assert (match states id Some 5 4 ls (busy_init N) with
    | Some [s0; s1; s2; s3; s4; s5; s6; s7] =>
        idleb s0 && idleb s1 && idleb s2 && idleb s3 && idleb s4 && idleb s5 && idleb s6 && negb (idleb s7) && addsb s0 s1 [Save "d1" x1] && addsb s1 s2 [Save "d1" x2] && addsb s2 s3 [Save "d1" x3] && addsb s3 s4 [Save "d1" x1] && addsb s4 s5 [Save "d1" y2] && addsb s5 s6 [Save "d1" y3] &&
        bool_decide (history s7 = [Save "d1" x1; Save "d1" x2; Save "d1" x3; Save "d1" x1; Save "d1" y2; Save "d1" y3; Save "d1" x1]) && knownb {["d1"]} s7
    | _ => false end = true) as H by (vm_compute; reflexivity).
  destruct (states id Some 5 4 ls (busy_init N)) as [r|] eqn:E; [|discriminate H].
  apply states_cons in E as (s0 & r0 & -> & R0 & E). apply states_cons in E as (s1 & r1 & -> & R1 & E). apply states_cons in E as (s2 & r2 & -> & R2 & E). apply states_cons in E as (s3 & r3 & -> & R3 & E).
  apply states_cons in E as (s4 & r4 & -> & R4 & E). apply states_cons in E as (s5 & r5 & -> & R5 & E). apply states_cons in E as (s6 & r6 & -> & R6 & E). apply states_cons in E as (s7 & r7 & -> & R7 & E). apply states_nil in E as ->.
  repeat match goal with G : _ && _ = true |- _ => apply andb_true_iff in G as [] | G : idleb _ = true |- _ => apply idleb_ok in G | G : addsb _ _ _ = true |- _ => apply addsb_ok in G | G : bool_decide _ = true |- _ => apply bool_decide_eq_true_1 in G end.
  assert (by_qs s0 = []) as Q0. { apply (brun_quiet id Some 5 N 4 _ (busy_init N) s0) in R0 as [_ Q]; done. }
  assert (forall l (u v : busy N), brun id Some 5 N 4 l u = Some v -> forallb (fun x => no_search x.2) l = true -> by_qs u = [] -> quiet_run id Some 5 4 u v /\ by_qs v = []) as K.
  { intros l u v Hr Hl Hu. split; [by eapply quiet_ok|]. by eapply brun_quiet. }
  destruct (K _ _ _ R1 eq_refl Q0) as [K1 Q1]. destruct (K _ _ _ R2 eq_refl Q1) as [K2 Q2]. destruct (K _ _ _ R3 eq_refl Q2) as [K3 Q3]. destruct (K _ _ _ R4 eq_refl Q3) as [K4 Q4]. destruct (K _ _ _ R5 eq_refl Q4) as [K5 Q5]. destruct (K _ _ _ R6 eq_refl Q5) as [K6 Q6]. destruct (K _ _ _ R7 eq_refl Q6) as [K7 Q7].
  assert (forall (u v : busy N), quiet_run id Some 5 4 u v -> busy_run id Some 5 4 u v) as KR. { intros u v G. eapply rtc_subrel; [|exact G]. by intros ? ? []. }
  assert (forall u : busy N, by_qs u = [] -> nobody_searching u) as KN by (intros u Eu i terms f q Hi; by rewrite Eu in Hi).
  set (g1 := (get_queries N (bs_terms "red sun"), fan_init true 0 (JCall <$> get_queries N (bs_terms "red sun"))) : list (query N) * fan (qjob N) (list (doc_score N))).
  set (g2 := (get_queries N (bs_terms "blue moon"), fan_init true 0 (JCall <$> get_queries N (bs_terms "blue moon"))) : list (query N) * fan (qjob N) (list (doc_score N))).
  assert (busy_reachable id Some 5 N 4 s0) as Rs0 by (by eapply brun_ok).
  pose proof (lift_reachable id Some 5 4 s0 Rs0) as RS0.
  assert (server_run id Some 5 4 (mkServer s0 []) (mkServer s3 [])) as RB. { apply lift_run. unfold busy_run in *. do 2 (etransitivity; [apply KR; eassumption|]). by apply KR. }
  assert (server_run id Some 5 4 (mkServer s3 []) (mkServer s3 [g1])) as RG1.
  { apply rtc_once. destruct H12 as (u & Hu & _). apply (sv_get id Some 5 N 4 s3 [] u _ Hu). }
  assert (exists u7, y_proc (by_sys s7) = Up u7 /\ u_pc u7 <> CIdle) as (u7 & U7 & P7).
  { unfold idleb in H8. destruct (up_gets id Some 5 N 4 (mkServer s7 [g1])) as [u7 U7]; [|done|]; cycle 1. { cbn in U7. exists u7. split; [done|]. rewrite U7 in H8. by destruct (u_pc u7). }
    eapply run_reachable; [exact RS0|]. etransitivity; [exact RB|]. etransitivity; [exact RG1|]. apply lift_run. unfold busy_run in *. do 3 (etransitivity; [apply KR; eassumption|]). by apply KR. }
  assert (server_run id Some 5 4 (mkServer s6 [g1]) (mkServer s7 [g1; g2])) as RG2.
  { etransitivity; [apply lift_run, KR, K7|]. apply rtc_once. apply (sv_get id Some 5 N 4 s7 [g1] u7 _ U7). }
  assert (server_run id Some 5 4 (mkServer s3 [g1]) (mkServer s6 [g1])) as RM. { apply lift_run. unfold busy_run in *. do 2 (etransitivity; [apply KR; eassumption|]). by apply KR. }
  assert (server_reachable id Some 5 N 4 (mkServer s7 [g1; g2])) as R8. { eapply run_reachable; [exact RS0|]. unfold server_run in *. etransitivity; [exact RB|]. etransitivity; [exact RG1|]. by etransitivity. }
  assert (good_log (y_log (by_sys s7))) as G7 by (apply (good_log_case _ _ H1); repeat constructor; done).
  destruct (C65_can_answer id Some 5 N 4 ltac:(by intros ?) ltac:(done) ltac:(lia) (mkServer s7 [g1; g2]) 1 g2.1 g2.2 R8 G7) as (c & rs & Hc & Hrs); [|by intros q [->|[->|[]%elem_of_nil]%elem_of_cons]%elem_of_cons|done|].
  { cbn. rewrite H1. intros call Hin. rewrite !elem_of_cons, elem_of_nil in Hin. destruct Hin as [->|[->|[->|[->|[->|[->|[->|[]]]]]]]]; by apply plain_case. }
  assert (forall x y : server N, rtc (step_of_gets id Some 5 4) x y -> forall u, y_proc (by_sys (sv_store x)) = Up u -> exists u', y_proc (by_sys (sv_store y)) = Up u' /\ u_pc u' = u_pc u) as KP.
  { induction 1 as [|x y z (_ & _ & _ & _ & u1 & u2 & E1 & E2 & E3) _ IH]; [by eauto|]. intros u Hu. rewrite Hu in E1. injection E1 as <-. destruct (IH _ E2) as (u3 & ? & E4). exists u3. split; [done|]. by rewrite E4. }
  destruct (KP _ _ Hc u7 U7) as (u8 & U8 & P8).
  pose proof (own_log _ _ _ _ _ _ _ Hc) as EL. cbn [sv_store] in EL.
  assert (room 5 (sv_store c)) as Hroom. { eapply own_room; [exact Hc|exact U7|]. by eapply knownb_ok. }
  assert (server_run id Some 5 4 (mkServer s6 [g1]) c) as R9. { etransitivity; [exact RG2|]. by eapply own_live. }
  assert (makes (server_run id Some 5 4) (map (Save "d1") (bs_fields doc)) (mkServer s3 [g1]) (mkServer s6 [g1])) as M2.
  { rewrite F1. cbn [map]. eapply makes_save; [apply lift_run, KR, K4|by split_and!|]. eapply makes_save; [apply lift_run, KR, K5|by split_and!|]. eapply makes_save; [apply lift_run, KR, K6|by split_and!|]. apply makes_nil. }
  assert (makes (silent_run id Some 5 4) (map (Save "d1") (bs_fields doc0)) (mkServer s0 []) (mkServer s3 [])) as M1.
  { rewrite F0. cbn [map]. eapply makes_save; [apply lift_quiet, K1|by split_and!|]. eapply makes_save; [apply lift_quiet, K2|by split_and!|]. eapply makes_save; [apply lift_quiet, K3|by split_and!|]. apply makes_nil. }
  pose proof (bs_post_ok "one" doc0 eq_refl) as P1. pose proof (bs_post_ok "two" doc eq_refl) as P2. cbn [d_id doc0 doc] in P1, P2.
  assert ("blue" ∈ bs_terms "blue moon") as T1 by (vm_compute; left). assert ("blue" ∈ bs_terms (d_text doc)) as T2 by (vm_compute; left).
  assert (good_log (y_log (by_sys (sv_store c)))) as Gc by (by rewrite EL).
  exists (mkServer s0 []), (mkServer s3 []), (mkServer s3 [g1]), (mkServer s6 [g1]), c, doc0, doc, rs.
  split; [done|]. split; [by apply KN|]. split; [done|]. split; [done|]. split; [done|]. split; [done|]. split; [done|]. split.
  { intros rs0 (w & Hw & Hd & _). change (Some g1 = Some (get_queries N (bs_terms "red sun"), w)) in Hw. assert (w = g1.2) as -> by (apply (inj Some) in Hw; by rewrite Hw). clear Hw. unfold g1 in Hd. cbn [snd] in Hd. unfold fan_done, fan_init in Hd. cbn [fn_main] in Hd. discriminate Hd. }
  split; [done|]. split; [done|]. split; [done|]. split; [done|]. split. { intros (u & Hu & Hi). rewrite U8 in Hu. injection Hu as <-. rewrite P8 in Hi. exact (P7 Hi). }
  split; [done|]. split; [done|]. split.
  { intros call Hcall. unfold history in Hcall. rewrite EL in Hcall. change (calls_of (y_log (by_sys s7))) with (history s7) in Hcall. rewrite H1 in Hcall. rewrite F0 in P1. rewrite F1 in P2. cbn [map] in P1, P2.
    rewrite !elem_of_cons, elem_of_nil in Hcall. destruct Hcall as [->|[->|[->|[->|[->|[->|[->|[]]]]]]]].
    - eexists "one", _. split; [left|]. split; [exact P1|]. left.
    - eexists "one", _. split; [left|]. split; [exact P1|]. right; left.
    - eexists "one", _. split; [left|]. split; [exact P1|]. right; right; left.
    - eexists "one", _. split; [left|]. split; [exact P1|]. left.
    - eexists "two", _. split; [right; left|]. split; [exact P2|]. right; left.
    - eexists "two", _. split; [right; left|]. split; [exact P2|]. right; right; left.
    - eexists "one", _. split; [left|]. split; [exact P1|]. left. }
  split; [reflexivity|]. split; [exact Hrs|]. split; [exact T1|]. split; [exact T2|].
  eapply (C65_get_finds_updated id Some 5 N 4 ltac:(by intros ?) ltac:(done) bs_bind bs_letter bs_number same same same (mkServer s0 []) (mkServer s3 []) (mkServer s3 [g1]) (mkServer s6 [g1]) c "one" _ doc0 "two" _ doc 1 "blue moon" rs "blue"); try eassumption; try reflexivity; [by apply KN|right; exact T2].
Qed.

(** Those of C65_get_finds_stored, with a cache for one document: the document was stored
    in an earlier session; the store is opened, a GET request arrives, another document is
    saved, and the GET request is answered. *)
Example C65_stored_case : forall N, exists (a b c : server N) u rs,
  server_reachable id Some 1 N 4 a /\ opens id Some 1 4 (sv_store a) (sv_store b) u /\ plain_doc "d1" /\ has (disk_get_index (u_mem u) "text") "b" "d1" /\
  load_doc Some (y_fs (by_sys (sv_store b))) "d1" = Some (Some {["text" := x_ab]}) /\ server_run id Some 1 4 a b /\ server_run id Some 1 4 b c /\
  (exists ev, y_log (by_sys (sv_store c)) = y_log (by_sys (sv_store b)) ++ ev /\ calls_of ev = [Save "d2" x_ab]) /\ good_log (y_log (by_sys (sv_store c))) /\
  returned c 0 (get_queries N (bs_terms "b")) rs /\ "b" ∈ bs_terms "b" /\ "d1" ∈ rs.*1.
Proof.
  intros N. set (ls := [bs dopen ++ bsave "d1" x_ab ++ bs (dflush ++ [(false, TIndex); (true, AIndex "u1"); (false, ACrash); (false, AStart); (true, ALoad)]); bs [(false, AOpen)]; bsave "d2" x_ab]).
  assert (match states id Some 1 4 ls (busy_init N) with
    | Some [s0; s1; s2] => match y_proc (by_sys s0) with Loading _ => true | _ => false end && match y_proc (by_sys s1) with Up u => match disk_get_index (u_mem u) "text" !! "b" with Some S0 => bool_decide (is_Some (S0 !! "d1")) | None => false end | _ => false end &&
        bool_decide (load_doc Some (y_fs (by_sys s1)) "d1" = Some (Some {["text" := x_ab]})) && addsb s1 s2 [Save "d2" x_ab] && bool_decide (history s2 = [Save "d1" x_ab; Save "d2" x_ab])
    | _ => false end = true) as H by (vm_compute; reflexivity).
  destruct (states id Some 1 4 ls (busy_init N)) as [r|] eqn:E; [|discriminate H].
  apply states_cons in E as (s0 & r0 & -> & R0 & E). apply states_cons in E as (s1 & r1 & -> & R1 & E). apply states_cons in E as (s2 & r2 & -> & R2 & E). apply states_nil in E as ->.
  repeat match goal with G : _ && _ = true |- _ => apply andb_true_iff in G as [] | G : addsb _ _ _ = true |- _ => apply addsb_ok in G | G : bool_decide (load_doc _ _ _ = _) = true |- _ => apply bool_decide_eq_true_1 in G | G : bool_decide (history _ = _) = true |- _ => apply bool_decide_eq_true_1 in G end.
  destruct (y_proc (by_sys s0)) as [|g|] eqn:Y0; try discriminate H. destruct (y_proc (by_sys s1)) as [| |u1] eqn:Y1; try match goal with G : false = true |- _ => discriminate G end. destruct (disk_get_index (u_mem u1) "text" !! "b") as [S0|] eqn:ES; try match goal with G : false = true |- _ => discriminate G end.
  match goal with G : bool_decide (is_Some _) = true |- _ => apply bool_decide_eq_true_1 in G as HS end.
  assert (busy_reachable id Some 1 N 4 s0) as Rs0 by (by eapply brun_ok). pose proof (lift_reachable id Some 1 4 s0 Rs0) as RS0.
  assert (busy_live id Some 1 N 4 s0 s1) as L1. { cbn in R1. destruct (bexec id Some 1 N 4 (XSys AOpen) s0) as [b1|] eqn:Eb; [|discriminate R1]. cbn in R1. injection R1 as <-. eapply bexec_live; [|exact Eb]. reflexivity. }
  assert (busy_run id Some 1 4 s1 s2) as L2 by (eapply brun_live; [|exact R2]; reflexivity).
  set (g1 := (get_queries N (bs_terms "b"), fan_init true 0 (JCall <$> get_queries N (bs_terms "b"))) : list (query N) * fan (qjob N) (list (doc_score N))).
  assert (server_run id Some 1 4 (mkServer s0 []) (mkServer s1 [])) as M1 by (apply lift_run, rtc_once, L1).
  assert (server_run id Some 1 4 (mkServer s1 []) (mkServer s2 [g1])) as M2. { unfold server_run. transitivity (mkServer s1 [g1]); [apply rtc_once; apply (sv_get id Some 1 N 4 s1 [] u1 _ Y1)|]. exact (lift_run id Some 1 4 s1 s2 [g1] L2). }
  assert (server_reachable id Some 1 N 4 (mkServer s2 [g1])) as R8. { eapply run_reachable; [eapply run_reachable; [exact RS0|exact M1]|exact M2]. }
  match goal with G : history s2 = _ |- _ => rename G into Hh2 end. match goal with G : load_doc _ _ _ = _ |- _ => rename G into Hl end. match goal with G : exists ev, _ |- _ => destruct G as (ev & Ev & Hev) end.
  assert (good_log (y_log (by_sys s2))) as G7 by (apply (good_log_case _ _ Hh2); repeat constructor; done).
  destruct (C65_can_answer id Some 1 N 4 ltac:(by intros ?) ltac:(done) ltac:(lia) (mkServer s2 [g1]) 0 g1.1 g1.2 R8 G7) as (c & rs & Hc & Hrs); [|by intros q [->|[->|[]%elem_of_nil]%elem_of_cons]%elem_of_cons|done|].
  { cbn. rewrite Hh2. intros call Hin. rewrite !elem_of_cons, elem_of_nil in Hin. destruct Hin as [->|[->|[]]]; by apply plain_case. }
  pose proof (own_log _ _ _ _ _ _ _ Hc) as EL. cbn [sv_store] in EL. assert (server_run id Some 1 4 (mkServer s1 []) c) as R9. { etransitivity; [exact M2|]. by eapply own_live. }
  assert (good_log (y_log (by_sys (sv_store c)))) as Gc by (by rewrite EL). assert ("b" ∈ bs_terms "b") as T1 by (vm_compute; left). assert (plain_doc "d1") as Pd by (by apply plain_case).
  assert (opens id Some 1 4 s0 s1 u1) as Ho by (split; [done|split; [by exists g|done]]). assert (has (disk_get_index (u_mem u1) "text") "b" "d1") as Hh by (exists S0; split; [exact ES|exact HS]).
  exists (mkServer s0 []), (mkServer s1 []), c, u1, rs. split; [exact RS0|]. split; [exact Ho|]. split; [exact Pd|]. split; [exact Hh|]. split; [exact Hl|]. split; [exact M1|]. split; [exact R9|]. split; [exists ev; rewrite EL; split; [exact Ev|exact Hev]|]. split; [exact Gc|]. split; [exact Hrs|]. split; [exact T1|].
  eapply (C65_get_finds_stored id Some 1 N 4 ltac:(by intros ?) ltac:(done) bs_letter bs_number same same same (mkServer s0 []) (mkServer s1 []) c u1 "d1" "text" {["text" := x_ab]} "b" ev 0 "b" rs RS0 Ho Pd); [by right|exact Hh|exact Hl|by eexists|exact M1|exact R9|rewrite EL; exact Ev| |exact Gc|exact Hrs|exact T1].
  rewrite Hev. intros z [Hz|Hz%elem_of_nil]%elem_of_cons; [discriminate Hz|done].
Qed.
