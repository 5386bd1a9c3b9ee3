(** The HTTP service with any number of requests at once (C69): restarts, the searches and
    the requests they belong to, POST requests can finish. *)
From Verif Require Import Base M_Text M_Language M_Field M_LRU S_Visits M_Memory M_File M_Serialize M_Num M_FanIn M_Search M_Concurrent M_SearchConc M_Disk M_DiskBusy M_DiskMulti M_Standard M_Server M_BusyServer M_MultiServer S_Search S_Server S_Concurrent S_DiskMulti S_DiskQuery S_BusyServer S_MultiServer P_FanIn P_Standard P_BusyServer P_DiskInv P_DiskIndex3 P_DiskMulti5 P_DiskMulti7 P_DiskFrozen P_BusyServer2 T_BusyServer T_DiskQuery P_MultiServer P_MultiServer2 S_Disk.
#[local] Open Scope nat_scope.
#[local] Opaque serialize_metrics serialize_nft serialize_field_map serialize_index deserialize_index deserialize_nft deserialize_field_map deserialize_metrics.

Section server.
  Variables (compress : bytes -> bytes) (decompress : bytes -> option bytes) (cs : Z).
  Variables (bind : string -> option document) (is_letter is_number : Z -> bool) (to_lower stem fold : string -> string).
  Variables (N : numops) (ncpu : nat).
  Notation server := (mserver N).
  Notation mlive := (multi_live compress decompress cs).
  Notation live := (mserver_live compress decompress cs bind is_letter is_number to_lower stem fold N ncpu).
  Notation step := (mserver_step compress decompress cs bind is_letter is_number to_lower stem fold N ncpu).
  Notation reach := (mserver_reachable compress decompress cs bind is_letter is_number to_lower stem fold N ncpu).
  Notation session := (ms_session compress decompress cs bind is_letter is_number to_lower stem fold ncpu).

  (** * Events of a session *)
  Lemma live_no_open b b' u ev : mu_open b u -> mlive b b' -> mu_log b' = mu_log b ++ ev -> EOpened ∉ ev.
  Proof.
    unfold mu_open, mu_log. intros Hu HS E. inversion HS; subst; cbn [mu_sys y_proc y_log] in *.
    - exfalso. match goal with K : live_step _ _ _ _ _, K2 : forall u, _ <> Up u |- _ => inversion K; subst; cbn in *; try congruence; by edestruct K2 end.
    - congruence.
    - match goal with K : live_step _ _ _ _ _ |- _ => inversion K; subst; cbn [y_proc y_log] in *; try congruence end.
      + match goal with K : up_step _ _ _ _ _ |- _ => destruct (up_ev _ _ _ _ _ _ _ K) as [V1 V2] end. apply (inj (app log)) in E. by rewrite <- E.
      + rewrite <- (app_nil_r log) in E at 1. apply (inj (app log)) in E. rewrite <- E. apply not_elem_of_nil.
      + match goal with K : up_call _ _ _ |- _ => inversion K; subst end; cbn in *; try congruence.
        all: match goal with K1 : Up _ = Up ?v, K2 : u_pc ?v = _ |- _ => injection K1 as <-; done end.
    - rewrite <- (app_nil_r log) in E at 1. apply (inj (app log)) in E. rewrite <- E. apply not_elem_of_nil.
    - apply (inj (app log)) in E. rewrite <- E. intros Hin. by apply elem_of_list_singleton in Hin.
    - apply (inj (app log)) in E. rewrite <- E. match goal with K : client_step _ _ _ |- _ => inversion K; subst end; try apply not_elem_of_nil. intros Hin. by apply elem_of_list_singleton in Hin.
    - rewrite <- (app_nil_r log) in E at 1. apply (inj (app log)) in E. rewrite <- E. apply not_elem_of_nil.
    - rewrite <- (app_nil_r log) in E at 1. apply (inj (app log)) in E. rewrite <- E. apply not_elem_of_nil.
  Qed.
  Lemma session_events (x y : server) : session x y -> exists ev, ms_log y = ms_log x ++ ev /\ EOpened ∉ ev.
  Proof.
    unfold ms_session. induction 1 as [x|x y z [Hs [u Hu]] _ (ev2 & E2 & N2)]; [exists []; rewrite app_nil_r; split; [done|apply not_elem_of_nil]|].
    destruct (ms_store_live _ _ _ _ _ _ _ _ _ _ _ _ _ Hs) as [E|Hl].
    - exists ev2. unfold ms_log in *. by rewrite E.
    - destruct (m_live_log compress decompress cs _ _ Hl) as [ev1 E1]. pose proof (live_no_open _ _ _ _ Hu Hl E1) as N1. exists (ev1 ++ ev2). unfold ms_log in *. rewrite E2, E1, app_assoc. split; [done|]. rewrite elem_of_app. tauto.
  Qed.

  (** * A restart *)
  Definition starting (s : fs) (log : list event) (past : list string) (x : server) : Prop :=
    match y_proc (mu_sys (ms_store x)) with
    | Down => y_fs (mu_sys (ms_store x)) = s /\ ms_log x = log /\ ms_now x = [] /\ ms_past x = past /\ mu_threads (ms_store x) = []
    | Loading g => loads compress decompress s g (y_fs (mu_sys (ms_store x))) /\ ms_log x = log /\ ms_now x = [] /\ ms_past x = past /\ mu_threads (ms_store x) = []
    | Up _ => True
    end.
  Lemma starting_live s log past (x y : server) : live x y -> starting s log past x -> starting s log past y.
  Proof.
    unfold starting, ms_log, mu_log. intros H HI. inversion H; subst; cbn [ms_store ms_now ms_past mu_sys y_proc y_fs y_log mu_threads] in *; try done.
    match goal with K : mlive _ _ |- _ => rename K into Hl end. inversion Hl; subst; cbn [mu_sys mu_threads] in *; try done.
    - match goal with K : live_step _ _ _ _ _ |- _ => inversion K; subst; cbn [y_proc y_fs y_log] in * end; try done.
      + destruct HI as (<- & <- & -> & <- & ->). split; [|done]. eexists _, _. split; [eassumption|]. split; [eassumption|]. apply rtc_refl.
      + destruct HI as ((sa & ga & La & Lb & Lc) & <- & -> & <- & ->). split; [|done]. exists sa, ga. split; [done|]. split; [done|]. by eapply rtc_r.
    - match goal with K : y_proc y' = Up _ |- _ => by rewrite K end.
    - match goal with K : y_proc y' = Up _ |- _ => by rewrite K end.
  Qed.
  Lemma restarts_reopen (x y : server) u u' : reach x -> mu_open (ms_store x) u -> ms_restarts compress decompress cs bind is_letter is_number to_lower stem fold ncpu x y u' ->
    exists b, reach b /\ mu_opens compress decompress cs (ms_store b) (ms_store y) u' /\ live b y /\ reopen compress decompress cs (y_fs (mu_sys (ms_store x))) u' (y_fs (mu_sys (ms_store y))) /\
      ms_log y = ms_log x ++ [ECrash; EOpened] /\ ms_now y = [] /\ ms_past y = ms_past x ++ ms_now x.
  Proof.
    intros R Hu (x1 & x2 & Hc & Hd & Hr & [g Hg] & Hl & Hu'). unfold mu_open in *.
    assert (reach x1) as R1 by (unfold mserver_reachable in *; by eapply rtc_r).
    destruct Hc as [Hc|(y' & Hc & ->)].
    { exfalso. assert (exists v, mu_open (ms_store x1) v) as [v Hv]; [|unfold mu_open in Hv; congruence]. destruct (ms_store_live _ _ _ _ _ _ _ _ _ _ _ _ _ Hc) as [<-|HL]; [by exists u|]. by eapply ms_up_live. }
    assert (starting (y_fs (mu_sys (ms_store x))) (ms_log x ++ [ECrash]) (ms_past x ++ ms_now x) x2) as S2.
    { assert (starting (y_fs (mu_sys (ms_store x))) (ms_log x ++ [ECrash]) (ms_past x ++ ms_now x) (mkMServer (mkMulti y' sh_new [] []) [] [] (ms_past x ++ ms_now x))) as S1.
      { unfold ms_log, mu_log. inversion Hc as [s p log Hp E1 E2]; subst. unfold starting, ms_log, mu_log. cbn. done. }
      clear - Hr S1. induction Hr as [a|a b c H1 _ IH]; [done|]. apply IH. by eapply starting_live. }
    assert (reach x2) as R2. { unfold mserver_reachable in *. etransitivity; [exact R1|]. eapply rtc_subrel; [|exact Hr]. intros ? ? ?. by left. }
    unfold starting in S2. rewrite Hg in S2. destruct S2 as (L & E1 & E2 & E3 & E4). exists x2. split; [done|].
    inversion Hl; subst; cbn [ms_store ms_now ms_past mu_sys y_proc] in *; try congruence.
    match goal with K : mlive _ _ |- _ => rename K into HL end. inversion HL; subst; cbn [mu_sys y_proc] in *; try congruence.
    match goal with K : live_step _ _ _ _ _ |- _ => inversion K; subst; cbn [y_proc] in *; try congruence end.
      unfold ms_log, mu_log in *. cbn [ms_store mu_sys y_log y_fs] in *.
      match goal with K : Loading _ = Loading g |- _ => injection K as K; subst g end. match goal with K : Up _ = Up u' |- _ => injection K as ->  end.
      split; [split; [exact HL|split; [by eexists|done]]|]. split; [done|]. split; [eexists; split; [exact L|done]|]. rewrite E1. split; [by rewrite <- app_assoc|]. done.
  Qed.

  (** * Every search belongs to a request *)
  Definition qs_from (x : server) : Prop :=
    forall q, q ∈ mu_qs (ms_store x) -> exists queries w q0, (queries, w) ∈ ms_gets x /\ q0 ∈ queries /\ mq_field q = q_field q0 /\ mq_terms q = q_terms q0.
  Lemma qs_live (x y : server) : only_open N x -> mjobs_ok N 0 0 x -> live x y -> qs_from x -> qs_from y.
  Proof.
    intros HO HJ H HI. inversion H; subst; unfold qs_from in *; cbn [ms_store ms_gets mu_qs] in *.
    - match goal with K : mlive _ _ |- _ => rename K into Hl end. match goal with K : no_arrival _ _ |- _ => destruct K as [_ HA] end. inversion Hl; subst; cbn [mu_qs] in *; try done.
      + intros q Hq. by apply elem_of_nil in Hq.
      + rewrite app_length in HA. cbn in HA. lia.
      + match goal with K : qs !! i = Some _ |- _ => rename K into Qi end. intros q0 Hq0. apply elem_of_list_lookup in Hq0 as [j Hj]. destruct (decide (i = j)) as [->|Hn].
        * rewrite list_lookup_insert in Hj by (by eapply lookup_lt_Some). injection Hj as <-. exact (HI _ (elem_of_list_lookup_2 _ _ _ Qi)).
        * rewrite list_lookup_insert_ne in Hj by done. by eapply HI, elem_of_list_lookup_2.
    - done.
    - intros q Hq. destruct (HI q Hq) as (qs0 & w & q0 & Hin & ?). exists qs0, w, q0. split; [|done]. apply elem_of_app. by left.
    - assert (forall qs0 w0, (qs0, w0) ∈ gs -> exists w1, (qs0, w1) ∈ <[k := (queries, w')]> gs) as Ins.
      { intros qs0 w0 Hin. apply elem_of_list_lookup in Hin as [j Hj]. destruct (decide (k = j)) as [->|Hn].
        - rewrite Hj in H0. injection H0 as -> ->. exists w'. apply elem_of_list_lookup. exists j. apply list_lookup_insert. by eapply lookup_lt_Some.
        - exists w0. apply elem_of_list_lookup. exists j. by rewrite list_lookup_insert_ne. }
      intros q1 [Hq|Hq]%elem_of_app.
      + destruct (HI q1 Hq) as (qs0 & w0 & q0 & Hin & ?). destruct (Ins _ _ Hin) as [w1 Hw1]. by exists qs0, w1, q0.
      + apply elem_of_list_singleton in Hq as ->. cbn. destruct (Ins queries w) as [w1 Hin1]; [by eapply elem_of_list_lookup_2|]. exists queries, w1, q. split; [done|]. split; [|done].
        destruct HJ as (_ & _ & J). specialize (J k queries w H0). pose proof (mabstract _ _ _ _ _ _ J) as HA. match goal with F : fan_inner _ _ _ _ |- _ => inversion F; subst end.
        destruct (fan_origin _ _ _ _ _ _ _ (JCall q) HA) as (p0 & Hp0 & Hr); [cbn; apply elem_of_app; right; left|]. apply elem_of_list_fmap in Hp0 as (q0 & -> & Hq0).
        inversion Hr as [|? p1 ? Hs Hr1]; subst; [done|]. destruct Hs as (q1 & i1 & E & ->). inversion Hr1 as [|? p2 ? Hs _]; subst. destruct Hs as (? & ? & E' & _). discriminate E'.
    - intros q Hq. destruct (HI q Hq) as (qs0 & w0 & q0 & Hin & ?). apply elem_of_list_lookup in Hin as [j Hj]. destruct (decide (k = j)) as [->|Hn].
      + rewrite Hj in H0. injection H0 as -> ->. exists queries, w', q0. split; [|done]. apply elem_of_list_lookup. exists j. apply list_lookup_insert. by eapply lookup_lt_Some.
      + exists qs0, w0, q0. split; [|done]. apply elem_of_list_lookup. exists j. by rewrite list_lookup_insert_ne.
  Qed.
  Lemma qs_reach (x : server) : reach x -> qs_from x.
  Proof.
    unfold mserver_reachable. revert x. apply rtc_ind_r; [intros q Hq; by apply elem_of_nil in Hq|].
    intros y z R [Hs|(y' & Hc & ->)] IH; [|intros q Hq; by apply elem_of_nil in Hq]. eapply qs_live; [by eapply only_open_reach|by eapply mjobs_reach|done|done].
  Qed.
End server.
