(** The HTTP service with any number of requests at once (C69): the calls made by the
    handlers of POST requests, and GET requests can finish. *)
From Verif Require Import Base M_Text M_Language M_Field M_LRU S_Visits M_Memory M_File M_Serialize M_Num M_FanIn M_Search M_Concurrent M_SearchConc M_Disk M_DiskBusy M_DiskMulti M_Standard M_Server M_BusyServer M_MultiServer S_Search S_Server S_Concurrent S_DiskMulti S_DiskQuery S_BusyServer S_MultiServer P_FanIn P_Standard P_BusyServer P_DiskInv P_DiskIndex3 P_DiskMulti5 P_BusyServer2 T_BusyServer T_DiskQuery P_MultiServer S_Disk.
#[local] Open Scope nat_scope.
#[local] Opaque serialize_metrics serialize_nft serialize_field_map serialize_index deserialize_index deserialize_nft deserialize_field_map deserialize_metrics.

Section posts.
  Variables (compress : bytes -> bytes) (decompress : bytes -> option bytes) (cs : Z).
  Variables (bind : string -> option document) (is_letter is_number : Z -> bool) (to_lower stem fold : string -> string).
  Variables (N : numops) (ncpu : nat).
  Notation server := (mserver N).
  Notation mlive := (multi_live compress decompress cs).
  Notation live := (mserver_live compress decompress cs bind is_letter is_number to_lower stem fold N ncpu).
  Notation step := (mserver_step compress decompress cs bind is_letter is_number to_lower stem fold N ncpu).
  Notation reach := (mserver_reachable compress decompress cs bind is_letter is_number to_lower stem fold N ncpu).
  Notation session := (ms_session compress decompress cs bind is_letter is_number to_lower stem fold ncpu).
  Notation pst := (post bind is_letter is_number to_lower stem fold).
  Notation tm := (terms_of is_letter is_number to_lower stem fold).

  Lemma post_nil body status calls c : pst body status calls -> c ∈ calls -> status = 201%Z.
  Proof. intros H Hc. inversion H; subst; [by apply elem_of_nil in Hc..|done]. Qed.

  (** A handler and its body: the calls it has made are in the history of the session. *)
  Definition handler_ok (log : list event) (body : string) (th : tpc * msg * list call) : Prop :=
    exists status calls dn l1 l2, pst body status calls /\ calls = dn ++ th.2 /\ log = l1 ++ EOpened :: l2 /\ EOpened ∉ l2 /\ forall c, c ∈ dn -> c ∈ calls_of l2.
  (** The calls of the session come from bodies received in it. *)
  Definition opened_ok (log : list event) (now : list string) : Prop :=
    exists l1 l2, log = l1 ++ EOpened :: l2 /\ EOpened ∉ l2 /\ forall c, c ∈ calls_of l2 -> exists body calls, body ∈ now /\ pst body 201 calls /\ c ∈ calls.
  Record posts_ok (x : server) : Prop := {
    po_log : forall c, c ∈ calls_of (ms_log x) -> exists body calls, body ∈ ms_past x ++ ms_now x /\ pst body 201 calls /\ c ∈ calls;
    po_open : forall u, mu_open (ms_store x) u -> opened_ok (ms_log x) (ms_now x);
    po_now : Forall2 (handler_ok (ms_log x)) (ms_now x) (mu_threads (ms_store x)) }.
  Lemma handler_more log ev body th : EOpened ∉ ev -> handler_ok log body th -> handler_ok (log ++ ev) body th.
  Proof.
    intros He (st & calls & dn & l1 & l2 & H1 & H2 & -> & Hn & H). exists st, calls, dn, l1, (l2 ++ ev). split; [done|]. split; [done|]. split; [by rewrite <- app_assoc|].
    split; [rewrite elem_of_app; tauto|]. intros c Hc. rewrite calls_app. apply elem_of_app. left. by apply H.
  Qed.
  Lemma open_more log ev now : EOpened ∉ ev -> (forall c, c ∈ calls_of ev -> exists body calls, body ∈ now /\ pst body 201 calls /\ c ∈ calls) -> opened_ok log now -> opened_ok (log ++ ev) now.
  Proof.
    intros He Hc (l1 & l2 & -> & Hn & H). exists l1, (l2 ++ ev). split; [by rewrite <- app_assoc|]. split; [rewrite elem_of_app; tauto|].
    intros c. rewrite calls_app, elem_of_app. intros [?|?]; [by apply H|by apply Hc].
  Qed.
  Lemma handlers_more log ev now ths : EOpened ∉ ev -> Forall2 (handler_ok log) now ths -> Forall2 (handler_ok (log ++ ev)) now ths.
  Proof. intros He H. eapply Forall2_impl; [exact H|]. intros ? ?. by apply handler_more. Qed.
  (** A step of the store with new events but no call. *)
  Lemma posts_quiet (x : server) b' ev : posts_ok x -> EOpened ∉ ev -> calls_of ev = [] -> mu_log b' = ms_log x ++ ev -> ((exists u, mu_open b' u) -> exists u, mu_open (ms_store x) u) ->
    Forall2 (handler_ok (ms_log x)) (ms_now x) (mu_threads b') -> posts_ok (mkMServer b' (ms_gets x) (ms_now x) (ms_past x)).
  Proof.
    intros [P1 P2 P3] He Hc E Ho HF. unfold ms_log in *. constructor; cbn [ms_store ms_gets ms_now ms_past]; unfold ms_log; cbn [ms_store]; rewrite ?E.
    - intros c. rewrite calls_app, Hc, app_nil_r. apply P1.
    - intros u Hu. destruct Ho as [u' Hu']; [by exists u|]. apply open_more; [done| |by eapply P2]. rewrite Hc. intros c Hin. by apply elem_of_nil in Hin.
    - by apply handlers_more.
  Qed.
  Lemma posts_store (x : server) b' : only_open N x -> posts_ok x -> mlive (ms_store x) b' -> no_arrival (ms_store x) b' -> posts_ok (mkMServer b' (ms_gets x) (ms_now x) (ms_past x)).
  Proof.
    destruct x as [b gs now past]. cbn [ms_store ms_gets ms_now ms_past]. intros HO HP HS [HT HQ]. unfold mu_open, mu_log, ms_log in *.
    inversion HS; subst; cbn [mu_sys mu_threads mu_qs mu_sh] in *.
    - (* closed *)
      match goal with K : live_step _ _ _ _ _ |- _ => rename K into LS end. match goal with K : forall u, _ <> Up u |- _ => rename K into NU end.
      apply (posts_quiet (mkMServer (mkMulti y sh ths qs) gs now past) (mkMulti y' sh ths qs) []); try done; [apply not_elem_of_nil| | |apply HP].
      + unfold mu_log, ms_log, mu_log. cbn. rewrite app_nil_r. inversion LS; subst; cbn in *; try done; by edestruct NU.
      + intros [u Hu]. by apply NU in Hu.
    - (* opened *)
      destruct HO as [[u0 Hu0]|(_ & E2 & E3 & _)]; [unfold mu_open in Hu0; cbn in Hu0; congruence|]. cbn in E2, E3. subst now ths. destruct HP as [P1 P2 P3].
      assert (y_log y' = y_log y ++ [EOpened]) as E. { match goal with K : live_step _ _ _ _ _ |- _ => inversion K; subst; cbn in *; try congruence; done end. }
      constructor; unfold ms_log, mu_log in *; cbn in *; rewrite ?E.
      + intros c. rewrite calls_app, app_nil_r. apply P1.
      + intros _ _. exists (y_log y), []. split; [done|]. split; [apply not_elem_of_nil|]. intros c Hin. by apply elem_of_nil in Hin.
      + constructor.
    - (* background *)
      match goal with K : live_step _ _ _ _ _ |- _ => rename K into LS end.
      assert (exists ev, y_log y' = y_log y ++ ev /\ EOpened ∉ ev /\ calls_of ev = []) as (ev & E & He & Hc).
      { inversion LS; subst; cbn [y_proc y_log] in *; try congruence.
        - match goal with K : up_step _ _ _ _ _ |- _ => destruct (up_ev _ _ _ _ _ _ _ K) as [V1 V2] end. by exists ev.
        - exists []. rewrite app_nil_r. split; [done|]. split; [apply not_elem_of_nil|done].
        - match goal with K : up_call _ _ _ |- _ => inversion K; subst end; cbn in *; try congruence.
          all: match goal with K1 : Up _ = Up ?v, K2 : u_pc ?v = _ |- _ => injection K1 as <-; done end. }
      apply (posts_quiet (mkMServer (mkMulti y sh ths qs) gs now past) (mkMulti y' sh ths qs) ev); try done; [intros _; by eexists|apply HP].
    - (* request *) rewrite app_length in HT. cbn in HT. lia.
    - (* call *)
      destruct HP as [P1 P2 P3]. unfold ms_log, mu_log, mu_open in *. cbn in *. match goal with K : ths !! i = Some _ |- _ => rename K into Ti end.
      destruct (Forall2_lookup_r _ _ _ _ _ P3 Ti) as (body & Bi & st & calls & dn & l1 & l2 & H1 & H2 & H3 & Hn & H). cbn [snd] in H2.
      assert (EOpened ∉ [ECall c]) as He by (intros Hin; by apply elem_of_list_singleton in Hin).
      assert (st = 201%Z) as -> by (eapply (post_nil _ _ _ c); [exact H1|]; rewrite H2; apply elem_of_app; right; left).
      constructor; unfold ms_log, mu_log; cbn.
      + intros c0. rewrite calls_app. cbn [calls_of omap list_omap]. intros [Hc|Hc]%elem_of_app; [by apply P1|]. apply elem_of_list_singleton in Hc as ->.
        exists body, calls. split; [apply elem_of_app; right; by eapply elem_of_list_lookup_2|]. split; [done|]. rewrite H2. apply elem_of_app. right. left.
      + intros u0 _. apply open_more; [done| |by eapply P2]. intros c0 Hc. apply elem_of_list_singleton in Hc as ->. exists body, calls. split; [by eapply elem_of_list_lookup_2|]. split; [done|]. rewrite H2. apply elem_of_app. right. left.
      + rewrite <- (list_insert_id _ _ _ Bi). apply Forall2_insert; [by apply handlers_more|]. exists 201%Z, calls, (dn ++ [c]), l1, (l2 ++ [ECall c]). cbn [snd]. split; [done|]. split; [by rewrite <- app_assoc|].
        rewrite H3. split; [by rewrite <- app_assoc|]. split; [rewrite elem_of_app; tauto|]. intros c0 Hc. rewrite calls_app. apply elem_of_app in Hc as [Hc|Hc]; apply elem_of_app; [left; by apply H|right; done].
    - (* client *)
      match goal with K : ths !! i = Some _ |- _ => rename K into Ti end. match goal with K : client_step _ _ _ |- _ => rename K into CS end.
      destruct HP as [P1 P2 P3]. destruct (Forall2_lookup_r _ _ _ _ _ P3 Ti) as (body & Bi & Hb). cbn [ms_now] in Bi.
      assert (EOpened ∉ ev /\ calls_of ev = []) as [He Hc]. { inversion CS; subst; (split; [|done]); try apply not_elem_of_nil. intros Hin. by apply elem_of_list_singleton in Hin. }
      apply (posts_quiet (mkMServer (mkMulti (mkSys s (Up u) log) sh ths qs) gs now past) (mkMulti (mkSys s (Up u') (log ++ ev)) sh' (<[i := (th', cs0)]> ths) qs) ev); try done; [intros _; by eexists|].
      cbn [ms_now mu_threads]. rewrite <- (list_insert_id _ _ _ Bi). by apply Forall2_insert.
    - (* query *) rewrite app_length in HQ. cbn in HQ. lia.
    - (* search *)
      apply (posts_quiet (mkMServer (mkMulti (mkSys s (Up u) log) sh ths qs) gs now past) (mkMulti (mkSys s (Up (with_mem u m (u_pc u))) log) sh ths (<[i := mkMQ ncpu0 terms f q']> qs)) []); try done; [apply not_elem_of_nil| |intros _; by eexists|apply HP].
      unfold mu_log, ms_log, mu_log. cbn. by rewrite app_nil_r.
  Qed.
  Lemma posts_live (x y : server) : only_open N x -> posts_ok x -> live x y -> posts_ok y.
  Proof.
    intros HO HP H. inversion H; subst.
    - by apply (posts_store (mkMServer b gs now past) b').
    - destruct HP as [P1 P2 P3]. constructor; unfold ms_log, mu_log, mu_open in *; cbn in *.
      + intros c Hc. destruct (P1 c Hc) as (b0 & calls0 & Hb & ?). exists b0, calls0. split; [|done]. rewrite app_assoc. apply elem_of_app. by left.
      + intros u0 Hu0. destruct (P2 u0 Hu0) as (l1 & l2 & E & Hn & Hc). exists l1, l2. split; [done|]. split; [done|]. intros c Hin. destruct (Hc c Hin) as (b0 & calls0 & Hb & ?). exists b0, calls0. split; [|done]. apply elem_of_app. by left.
      + apply Forall2_app; [done|]. constructor; [|constructor]. destruct (P2 u eq_refl) as (l1 & l2 & E & Hn & _). exists status, calls, [], l1, l2. split; [done|]. split; [done|]. split; [done|]. split; [done|].
        intros c Hc. by apply elem_of_nil in Hc.
    - destruct HP as [P1 P2 P3]. by constructor.
    - destruct HP as [P1 P2 P3]. by constructor.
    - destruct HP as [P1 P2 P3]. by constructor.
  Qed.
  Lemma posts_reach (x : server) : reach x -> posts_ok x.
  Proof.
    unfold mserver_reachable. revert x. apply rtc_ind_r.
    - constructor; unfold ms_log, mu_log, mu_open; cbn; [intros c Hc; by apply elem_of_nil in Hc|done|constructor].
    - intros y z R [Hs|(y' & Hc & ->)] IH; [eapply posts_live; [by eapply only_open_reach|done..]|]. destruct IH as [P1 P2 P3]. constructor; unfold ms_log, mu_log, mu_open in *; cbn [ms_store ms_now ms_past mu_sys mu_threads] in *.
      + inversion Hc; subst; cbn in *. intros c. rewrite calls_app. cbn [calls_of omap list_omap]. rewrite !app_nil_r. match goal with K : mkSys _ _ _ = mu_sys _ |- _ => rewrite <- K in P1 end. apply P1.
      + inversion Hc; subst; cbn. intros u0 E. discriminate E.
      + constructor.
  Qed.

  (** * What a posted document says *)
  Lemma plain_good (x : server) : reach x -> plain_ids bind x -> good_log (ms_log x) /\ forall c, c ∈ calls_of (ms_log x) -> plain_doc (call_doc' c).
  Proof.
    intros R Hp. assert (forall c, c ∈ calls_of (ms_log x) -> good_call c /\ plain_doc (call_doc' c)) as K; [|split; [intros c Hc|intros c Hc]; by apply K].
    intros c Hc. destruct (po_log _ (posts_reach x R) c Hc) as (body & calls & Hb & Hpost & Hin). destruct (post_saves _ _ _ _ _ _ _ _ Hpost) as (doc & Hbd & Hne & ->).
    destruct (Hp body doc Hb Hbd Hne) as [H1 H2]. rewrite !elem_of_cons, elem_of_nil in Hin. destruct Hin as [->|[->|[->|[]]]]; (split; [|done]); (split; [done|]); split; try done.
  Qed.
End posts.

Section server.
  Variables (compress : bytes -> bytes) (decompress : bytes -> option bytes) (cs : Z).
  Variables (bind : string -> option document) (is_letter is_number : Z -> bool) (to_lower stem fold : string -> string).
  Variables (N : numops) (ncpu : nat).
  Notation server := (mserver N).
  Notation live := (mserver_live compress decompress cs bind is_letter is_number to_lower stem fold N ncpu).
  Notation reach := (mserver_reachable compress decompress cs bind is_letter is_number to_lower stem fold N ncpu).
  Notation own := (step_of_ms_gets compress decompress cs bind is_letter is_number to_lower stem fold ncpu).
  Notation afan queries := (fan_step (astep N) (aout N) (length queries) None true).
  Notation jinit queries := (fan_init true 0 (JCall <$> queries)).
  Notation pmj := (pmj N).
  Lemma mabstract b n (queries : list (query N)) w w' : rtc (fan_step (mjstep N b n) (mjob_out N b) (length queries) None true) w w' -> rtc (afan queries) w w'.
  Proof.
    intros H. eapply rtc_subrel; [|exact H]. intros ? ?. apply fan_mono.
    - intros p p' (q & i & c & s & -> & -> & _). by exists q, i.
    - intros p ms (q & i & c & len & size & nft & docs & kxs & -> & _ & _ & ->). eexists q, i, _. done.
  Qed.
  Lemma mwaiting b n (queries : list (query N)) w q i : rtc (fan_step (mjstep N b n) (mjob_out N b) (length queries) None true) (jinit queries) w -> WRun (JWait q i) ∈ fn_workers w ->
    q ∈ queries /\ exists c s, mu_qs b !! i = Some (mkMQ c (q_terms q) (q_field q) s).
  Proof.
    intros H Hin. destruct (fan_origin _ _ _ _ _ _ _ _ H Hin) as (p0 & H0 & Hr). apply elem_of_list_fmap in H0 as (q0 & -> & Hq0).
    inversion Hr as [|? p1 ? Hs Hr1]; subst. destruct Hs as (q1 & i1 & c & s & E & -> & _ & Hi). injection E as <-. inversion Hr1 as [|? p2 ? Hs _]; subst; [split; [done|by exists c, s]|]. destruct Hs as (? & ? & ? & ? & E & _). discriminate E.
  Qed.

  Hypothesis gz : gzip_ok compress decompress.
  Hypothesis pos : (0 < cs)%Z.
  Hypothesis cpus : 0 < ncpu.
  Notation getl := (list (list (query N) * fan (qjob N) (list (doc_score N)))).
  Lemma mown_search i (b b' : multi) (gs : getl) now past : mu_step_of compress decompress cs i b b' -> own (mkMServer b gs now past) (mkMServer b' gs now past).
  Proof.
    intros (H1 & H2 & H3 & H4 & H5 & H6 & _ & u & u' & H7 & H8 & H9). split.
    - apply mv_step; [done|]. split; [by rewrite H5|]. unfold mu_searches in H6. by rewrite H6.
    - cbn. split; [done|]. split; [done|]. split; [done|]. split; [done|]. split; [done|]. split; [done|]. by exists u, u'.
  Qed.
  Lemma mown_searches i (b b' : multi) (gs : getl) now past : rtc (mu_step_of compress decompress cs i) b b' -> rtc own (mkMServer b gs now past) (mkMServer b' gs now past).
  Proof. induction 1 as [b|b c d Hs _ IH]; [done|]. eapply rtc_l; [by eapply mown_search|done]. Qed.
  Lemma mown_same (x y : server) : rtc own x y -> ms_log y = ms_log x /\ ms_now y = ms_now x /\ ms_past y = ms_past x.
  Proof. induction 1 as [x|x y z (_ & _ & E & _ & _ & E1 & E2 & _) _ (I1 & I2 & I3)]; [done|]. split; [by rewrite I1|]. split; [by rewrite I2|by rewrite I3]. Qed.
  Lemma mown_reach (x y : server) : reach x -> rtc own x y -> reach y.
  Proof. unfold mserver_reachable. intros R H. etransitivity; [exact R|]. eapply rtc_subrel; [|exact H]. intros ? ? [? _]. by left. Qed.
  Lemma mfan_own (b : multi) (gs : getl) now past k queries w w' u : mu_open b u -> gs !! k = Some (queries, w) -> fan_step (fun _ _ => False) (mjob_out N b) (length queries) None true w w' ->
    own (mkMServer b gs now past) (mkMServer b (<[k := (queries, w')]> gs) now past).
  Proof.
    intros Hu Hk Hf. split; [by eapply mv_fan|]. cbn. split; [done|]. split; [done|]. split; [done|]. split; [done|]. split; [done|]. split; [done|]. by exists u, u.
  Qed.
  Definition mfit (x : server) (queries : list (query N)) : Prop := reach x /\ plain_ids bind x /\ (forall q, q ∈ queries -> q_field q <> "docs").
  Lemma mfit_own x y queries : rtc own x y -> mfit x queries -> mfit y queries.
  Proof. intros H (H1 & H2 & H3). destruct (mown_same _ _ H) as (_ & E1 & E2). split; [by eapply mown_reach|]. split; [|done]. intros body doc. rewrite E1, E2. apply H2. Qed.
  Lemma mfan_finishes n : forall (x : server) k queries w, measure pmj w <= n -> mfit x queries -> ms_gets x !! k = Some (queries, w) ->
    exists y w', rtc own x y /\ ms_gets y !! k = Some (queries, w') /\ fan_done w'.
  Proof.
    induction n as [|n IH]; intros x k queries w Hm Hx Hk.
    all: assert (fan_done w \/ ~ fan_done w) as [Hd|Hd] by (unfold fan_done; destruct (fn_main w); (by left) || (by right)); [by exists x, w|].
    all: pose proof Hx as (Hr & Hp & Hq); destruct (mjobs_reach compress decompress cs bind is_letter is_number to_lower stem fold N ncpu x Hr) as (_ & _ & J); specialize (J _ _ _ Hk); pose proof (mabstract _ _ _ _ _ J) as HA.
    all: destruct (fan_progress (astep N) (aout N) (length queries) None true (JCall <$> queries) w I) as (w' & Hw'); [intros p0 p _ _; destruct p as [q|q i]; [left; by exists (JWait q 0), q, 0|right; by exists [[]], q, i, []]|exact HA|exact Hd|].
    all: pose proof (inv_reach _ _ _ _ _ _ _ HA) as HI.
    { pose proof (measure_step _ _ _ _ _ pmj _ _ _ (adec N queries) HI Hw'). lia. }
    destruct (gets_open compress decompress cs bind is_letter is_number to_lower stem fold N ncpu x k _ Hr Hk) as [u Hu].
    destruct x as [b gs now past]. cbn [ms_store ms_gets] in *. pose proof (lookup_lt_Some _ _ _ Hk) as Hlt.
    assert (forall b1 gs1 w1, rtc own (mkMServer b gs now past) (mkMServer b1 gs1 now past) -> gs1 !! k = Some (queries, w1) -> measure pmj w1 < measure pmj w -> exists y w', rtc own (mkMServer b gs now past) y /\ ms_gets y !! k = Some (queries, w') /\ fan_done w') as Go.
    { intros b1 gs1 w1 H1 H2 H3. destruct (IH (mkMServer b1 gs1 now past) k queries w1) as (y & w2 & H4 & H5); [lia|by eapply mfit_own|done|]. exists y, w2. split; [by etransitivity|done]. }
    assert (forall w1, afan queries w w1 -> measure pmj w1 < measure pmj w) as Hless by (intros w1 Hw1; exact (measure_step _ _ _ _ _ pmj _ _ _ (adec N queries) HI Hw1)).
    assert (fan_step (fun _ _ => False) (mjob_out N b) (length queries) None true w w' -> exists y w', rtc own (mkMServer b gs now past) y /\ ms_gets y !! k = Some (queries, w') /\ fan_done w') as Same.
    { intros Hf. apply (Go b (<[k := (queries, w')]> gs) w'); [apply rtc_once; by eapply mfan_own|by apply list_lookup_insert|by apply Hless]. }
    inversion Hw'; subst.
    - apply Same, fs_spawn.
    - apply Same, fs_closer.
    - apply Same, fs_acquire. done.
    - (* Index.Search is called *)
      destruct H as (q & i & -> & ->). destruct b as [[s pr log] sh ths qs]. unfold mu_open in Hu. cbn in Hu. subst pr.
      set (w1 := mkFan m (ws1 ++ WRun (JWait q (length qs)) :: ws2) wg sem ch cl got false).
      apply (Go (mkMulti (mkSys s (Up u) log) sh ths (qs ++ [mkMQ ncpu (q_terms q) (q_field q) MqLength])) (<[k := (queries, w1)]> gs) w1); [|by apply list_lookup_insert|].
      + apply rtc_once. split; [eapply mv_call; [exact Hk|constructor|done]|]. cbn. split; [done|]. split; [done|]. split; [done|]. split; [done|]. split; [done|]. split; [done|]. by exists u, u.
      + apply Hless. apply fs_inner. by exists q, (length qs).
    - (* its result is scored *)
      destruct H as (q & i & l & -> & ->). destruct (mwaiting _ _ _ _ q i J) as (Hqq & c & s & Hi); [cbn; apply elem_of_app; right; left|].
      destruct (plain_good compress decompress cs bind is_letter is_number to_lower stem fold N ncpu _ Hr Hp) as [Hg Hpl].
      destruct (C68_can_return compress decompress cs gz pos b i _ (ms_store_reach _ _ _ _ _ _ _ _ _ _ _ _ Hr) Hg Hpl Hi (Hq _ Hqq)) as (b1 & len & size & nft & docs & R1 & [c1 Hret]). cbn [mq_terms mq_field] in Hret.
      pose proof (mown_searches i b b1 gs now past R1) as R2. destruct (mfit_own _ _ queries R2 Hx) as (Hr1 & _). destruct (gets_open _ _ _ _ _ _ _ _ _ _ _ _ k _ Hr1 Hk) as [u1 Hu1]. cbn in Hu1.
      set (w1 := mkFan m (ws1 ++ WSend [map (fun kx : string * field => (kx.1, doc_bm25 N q (M_DiskMulti.answer N len size nft docs) kx.2)) (map_to_list docs)] :: ws2) wg sem ch cl got false).
      apply (Go b1 (<[k := (queries, w1)]> gs) w1); [|by apply list_lookup_insert|].
      + etransitivity; [exact R2|]. apply rtc_once. eapply mfan_own; [exact Hu1|exact Hk|]. apply fs_output. exists q, i, c1, len, size, nft, docs, (map_to_list docs). done.
      + apply Hless. apply fs_output. by eexists q, i, _.
    - apply Same, fs_send; done.
    - apply Same, fs_handoff. done.
    - pose proof (fan_no_panic _ _ _ _ _ _ _ (rtc_r _ _ _ HA Hw')) as E. discriminate E.
    - apply Same, fs_release.
    - apply Same, fs_done.
    - apply Same, fs_close.
    - apply Same, fs_recv.
    - apply Same, fs_finish.
  Qed.
End server.
