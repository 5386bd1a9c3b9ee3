(** The HTTP service with any number of requests at once (C69): invariants. *)
From Verif Require Import Base M_Text M_Language M_Field M_LRU S_Visits M_Memory M_File M_Serialize M_Num M_FanIn M_Search M_Concurrent M_SearchConc M_Disk M_DiskBusy M_DiskMulti M_Standard M_Server M_BusyServer M_MultiServer S_Search S_Server S_Concurrent S_Disk S_DiskMulti S_DiskQuery S_BusyServer S_MultiServer P_FanIn P_Standard P_BusyServer P_BusyServer2.
#[local] Open Scope nat_scope.

Section server.
  Variables (compress : bytes -> bytes) (decompress : bytes -> option bytes) (cs : Z).
  Variables (bind : string -> option document) (is_letter is_number : Z -> bool) (to_lower stem fold : string -> string).
  Variables (N : numops) (ncpu : nat).
  Notation server := (mserver N).
  Notation mlive := (multi_live compress decompress cs).
  Notation live := (mserver_live compress decompress cs bind is_letter is_number to_lower stem fold N ncpu).
  Notation step := (mserver_step compress decompress cs bind is_letter is_number to_lower stem fold N ncpu).
  Notation reach := (mserver_reachable compress decompress cs bind is_letter is_number to_lower stem fold N ncpu).
  Notation session := (ms_session compress decompress cs bind is_letter is_number to_lower stem fold ncpu).

  (** * The store *)
  Lemma ms_store_live (x y : server) : live x y -> ms_store x = ms_store y \/ mlive (ms_store x) (ms_store y).
  Proof. intros H. inversion H; subst; cbn; [by right| |by left| |by left]; right; by constructor. Qed.
  Lemma ms_store_reach (x : server) : reach x -> multi_reachable compress decompress cs (ms_store x).
  Proof.
    unfold mserver_reachable, multi_reachable. intros H. remember (mserver_init N) as i eqn:E. assert (rtc (multi_step compress decompress cs) multi_init (ms_store i)) as R by (by rewrite E). clear E.
    induction H as [x|x y z Hs _ IH]; [done|]. apply IH. destruct Hs as [Hs|(y' & Hc & ->)].
    - destruct (ms_store_live _ _ Hs) as [<-|Hb]; [done|]. eapply rtc_r; [exact R|]. by left.
    - eapply rtc_r; [exact R|]. right. by exists y'.
  Qed.
  Lemma ms_store_session (x y : server) : session x y -> mu_session compress decompress cs (ms_store x) (ms_store y).
  Proof. unfold ms_session, mu_session. induction 1 as [x|x y z [Hs Hu] _ IH]; [done|]. destruct (ms_store_live _ _ Hs) as [->|H]; [done|]. by eapply rtc_l. Qed.
  Lemma ms_session_reach (x y : server) : reach x -> session x y -> reach y.
  Proof. unfold mserver_reachable, ms_session. intros H R. etransitivity; [exact H|]. eapply rtc_subrel; [|exact R]. intros ? ? [? _]. by left. Qed.

  (** * The searches of the store *)
  Definition mgrows (b b' : multi) : Prop :=
    length (mu_qs b) <= length (mu_qs b') /\
    (forall i n terms f q, mu_qs b !! i = Some (mkMQ n terms f q) -> exists q', mu_qs b' !! i = Some (mkMQ n terms f q')) /\
    (forall i n terms f l s t d, mu_qs b !! i = Some (mkMQ n terms f (MqRet l s t d)) -> mu_qs b' !! i = Some (mkMQ n terms f (MqRet l s t d))).
  Lemma mgrows_refl b : mgrows b b.
  Proof. split; [done|]. split; [eauto|done]. Qed.
  Lemma mgrows_same b b' : mu_qs b' = mu_qs b -> mgrows b b'.
  Proof. intros E. split; [by rewrite E|]. rewrite E. split; [eauto|done]. Qed.
  Lemma mgrows_live b b' u : mu_open b u -> mlive b b' -> mgrows b b'.
  Proof.
    unfold mu_open. intros Hu H. inversion H; subst; cbn [mu_sys mu_qs y_proc] in *; try (by apply mgrows_same).
    - congruence.
    - split; [cbn; rewrite app_length; lia|]. cbn. split; intros; eauto using lookup_app_l_Some.
    - match goal with K : qs !! i = _ |- _ => rename K into Qi end. match goal with K : msearch_step _ _ _ _ _ _ _ _ _ |- _ => rename K into HS end.
      split; [cbn; by rewrite insert_length|]. cbn. split.
      + intros j n' terms' f' q0 Hj. destruct (decide (i = j)) as [->|Hn]; [|exists q0; by rewrite list_lookup_insert_ne].
        rewrite Hj in Qi. injection Qi as -> -> -> ->. exists q'. apply list_lookup_insert. by eapply lookup_lt_Some.
      + intros j n' terms' f' l0 s0 t0 d0 Hj. destruct (decide (i = j)) as [->|Hn]; [|by rewrite list_lookup_insert_ne].
        rewrite Hj in Qi. injection Qi as -> -> -> <-. inversion HS.
  Qed.

  (** * What goes with the process *)
  Lemma ms_up_live b b' u : mlive b b' -> mu_open b u -> exists u', mu_open b' u'.
  Proof.
    unfold mu_open. intros H E. inversion H; subst; cbn [mu_sys y_proc] in *; try (by eexists); try congruence.
    match goal with G : live_step _ _ _ _ _, K : forall u, _ <> Up u |- _ => exfalso; inversion G; subst; cbn in *; try discriminate E; by eapply K end.
  Qed.
  (** Requests in progress only while the store is open. *)
  Definition only_open (x : server) : Prop :=
    (exists u, mu_open (ms_store x) u) \/ ms_gets x = [] /\ ms_now x = [] /\ mu_threads (ms_store x) = [] /\ mu_qs (ms_store x) = [].
  Lemma only_open_step (x y : server) : step x y -> only_open x -> only_open y.
  Proof.
    intros [H|(y' & Hc & ->)] [[u Hu]|(E1 & E2 & E3 & E4)]; try (by right).
    - left. destruct (ms_store_live _ _ H) as [<-|Hl]; [by exists u|]. by eapply ms_up_live.
    - inversion H; subst; cbn [ms_store ms_gets ms_now mu_threads mu_qs] in *; try (by left; eexists).
      + match goal with L : multi_live _ _ _ _ _ |- _ => rename L into Hl end. inversion Hl; subst; cbn [mu_sys mu_threads mu_qs y_proc] in *; try (by left; eexists); try (by right).
      + match goal with K : _ !! k = Some _ |- _ => subst; by rewrite lookup_nil in K end.
  Qed.
  Lemma only_open_reach (x : server) : reach x -> only_open x.
  Proof. unfold mserver_reachable. revert x. apply rtc_ind_r; [by right|]. intros y z _ H IH. by eapply only_open_step. Qed.
  Lemma gets_open (x : server) k g : reach x -> ms_gets x !! k = Some g -> exists u, mu_open (ms_store x) u.
  Proof. intros R Hk. destruct (only_open_reach x R) as [?|(E & _)]; [done|]. rewrite E in Hk. by rewrite lookup_nil in Hk. Qed.

  (** * The goroutines of a call of Standard.Search, as a fan-in of their own. *)
  Definition mjstep (b : multi) (n : nat) (p p' : qjob N) : Prop :=
    exists q i c s, p = JCall q /\ p' = JWait q i /\ n <= i /\ mu_qs b !! i = Some (mkMQ c (q_terms q) (q_field q) s).
  Notation jfan b n queries := (fan_step (mjstep b n) (mjob_out N b) (length queries) None true).
  Notation jinit queries := (fan_init true 0 (JCall <$> queries)).
  Lemma mjstep_grows b b' n p p' : mgrows b b' -> mjstep b n p p' -> mjstep b' n p p'.
  Proof. intros (_ & G & _) (q & i & c & s & -> & -> & Hi & H). destruct (G _ _ _ _ _ H) as [s' H']. exists q, i, c, s'. done. Qed.
  Lemma mout_grows b b' p ms : mgrows b b' -> mjob_out N b p ms -> mjob_out N b' p ms.
  Proof. intros (_ & _ & G) (q & i & c & l & s & t & d & kxs & -> & H & Hk & ->). exists q, i, c, l, s, t, d, kxs. split; [done|]. split; [by apply G|done]. Qed.
  Lemma mjfan_grows b b' n (queries : list (query N)) w w' : mgrows b b' -> rtc (jfan b n queries) w w' -> rtc (jfan b' n queries) w w'.
  Proof. intros G H. eapply rtc_subrel; [|exact H]. intros ? ?. apply fan_mono; [intros ? ?; by apply mjstep_grows|intros ? ?; by apply mout_grows]. Qed.
  (** Jobs from number [g] on use searches from number [n] on. *)
  Definition mjobs_ok (g n : nat) (x : server) : Prop :=
    n <= length (mu_qs (ms_store x)) /\ g <= length (ms_gets x) /\
    forall k queries w, ms_gets x !! k = Some (queries, w) -> rtc (jfan (ms_store x) (if k <? g then 0 else n) queries) (jinit queries) w.
  Lemma mjobs_live g n (x y : server) : (exists u, mu_open (ms_store x) u) -> live x y -> mjobs_ok g n x -> mjobs_ok g n y.
  Proof.
    intros [u Hu] H (L1 & L2 & J). assert (mgrows (ms_store x) (ms_store y)) as G. { destruct (ms_store_live _ _ H) as [->|Hl]; [apply mgrows_refl|by eapply mgrows_live]. }
    split; [destruct G; lia|]. inversion H; subst; cbn [ms_store ms_gets mu_qs] in *.
    - split; [done|]. intros k queries w Hk. eapply mjfan_grows; [exact G|]. by apply J.
    - split; [done|]. intros k queries w Hk. eapply mjfan_grows; [exact G|]. by apply J.
    - split; [rewrite app_length; lia|]. intros k qs w Hk. apply lookup_app_Some in Hk as [Hk|[Hl Hk]]; [by apply J|]. apply list_lookup_singleton_Some in Hk as [_ E]. injection E as <- <-. done.
    - split; [by rewrite insert_length|]. intros j qs' w0 Hj. destruct (decide (k = j)) as [->|Hn].
      + rewrite list_lookup_insert in Hj by (by eapply lookup_lt_Some). injection Hj as <- <-. eapply rtc_r; [eapply mjfan_grows; [exact G|]; by apply J|].
        match goal with F : fan_inner _ _ _ _ |- _ => inversion F; subst end. apply fs_inner. exists q, (length qs), ncpu, MqLength. split; [done|]. split; [done|]. split; [destruct (j <? g); [apply Nat.le_0_l|exact L1]|]. cbn. rewrite lookup_app_r by done. by rewrite Nat.sub_diag.
      + rewrite list_lookup_insert_ne in Hj by done. eapply mjfan_grows; [exact G|]. by apply J.
    - split; [by rewrite insert_length|]. intros j qs' w0 Hj. destruct (decide (k = j)) as [->|Hn].
      + rewrite list_lookup_insert in Hj by (by eapply lookup_lt_Some). injection Hj as <- <-. eapply rtc_r; [by apply J|]. eapply fan_mono; [| |eassumption]; done.
      + rewrite list_lookup_insert_ne in Hj by done. by apply J.
  Qed.
  Lemma mjobs_session g n (x y : server) : session x y -> mjobs_ok g n x -> mjobs_ok g n y.
  Proof. induction 1 as [x|x y z [Hs Hu] _ IH]; [done|]. intros J. apply IH. by eapply mjobs_live. Qed.
  Lemma mjobs_reach (x : server) : reach x -> mjobs_ok 0 0 x.
  Proof.
    unfold mserver_reachable. revert x. apply rtc_ind_r; [split; [cbn; lia|split; [cbn; lia|]]; intros k queries w Hk; cbn in Hk; by rewrite lookup_nil in Hk|].
    intros y z R [Hs|(y' & Hc & ->)] IH; [|split; [cbn; lia|split; [cbn; lia|]]; intros k queries w Hk; cbn in Hk; by rewrite lookup_nil in Hk].
    destruct (only_open_reach y R) as [Hu|(E1 & _ & _ & E4)]; [by eapply mjobs_live|].
    assert (ms_gets z = [] \/ exists u, mu_open (ms_store y) u) as [E|Hu].
    { inversion Hs; subst; cbn [ms_store ms_gets] in *; try (by left); try (right; by eexists). left. subst. by rewrite lookup_nil in H. }
    - split; [lia|]. split; [lia|]. intros k queries w Hk. rewrite E in Hk. by rewrite lookup_nil in Hk.
    - by eapply mjobs_live.
  Qed.
  Lemma mjobs_from (x : server) : mjobs_ok 0 0 x -> mjobs_ok (length (ms_gets x)) (length (mu_qs (ms_store x))) x.
  Proof.
    intros (_ & _ & J). split; [done|]. split; [done|]. intros k queries w Hk. pose proof (lookup_lt_Some _ _ _ Hk) as Hl. apply Nat.ltb_lt in Hl. rewrite Hl. by apply (J k).
  Qed.

  (** * The result *)
  Definition msent (b : multi) (n : nat) (qr : query N * ms_result) (l : list (doc_score N)) : Prop :=
    (exists i, n <= i /\ let '(q, ((len, size), (nft, docs))) := qr in mu_returned b i (q_terms q) (q_field q) len size nft docs) /\ NoDup l.*1 /\ forall d x, (d, x) ∈ l <-> ms_adds d qr = Some x.
  Lemma mjob_yields b n q ms : pyields (mjstep b n) (mjob_out N b) (JCall q) ms -> exists r l, ms = [l] /\ msent b n (q, r) l.
  Proof.
    intros (p & Hp & Ho). destruct Ho as (q' & i & c & len & size & nft & docs & kxs & -> & Hi & Hk & ->).
    assert (q' = q /\ n <= i) as [-> Hn].
    { inversion Hp as [|? p1 ? Hs Hr]; subst. destruct Hs as (q1 & i1 & c1 & s1 & E1 & -> & Hn1 & H1). injection E1 as <-. inversion Hr as [|? p2 ? Hs Hr']; subst; [done|]. destruct Hs as (? & ? & ? & ? & E & _). discriminate E. }
    exists ((len, size), (nft, docs)). eexists. split; [reflexivity|]. split; [exists i; split; [done|by exists c]|]. cbn. split.
    - rewrite <- list_fmap_compose. replace (fst ∘ (fun kx : string * field => (kx.1, doc_bm25 N q (M_DiskMulti.answer N len size nft docs) kx.2)) <$> kxs) with (kxs.*1) by done. rewrite Hk. apply NoDup_fst_map_to_list.
    - intros d x. change (map ?f kxs) with (f <$> kxs). rewrite elem_of_list_fmap. split.
      + intros ([k fld] & E & Hin). cbn in E. injection E as -> ->. rewrite Hk, elem_of_map_to_list in Hin. by rewrite Hin.
      + destruct (docs !! d) as [fld|] eqn:E; [|done]. intros E'. injection E' as <-. exists (d, fld). split; [done|]. by rewrite Hk, elem_of_map_to_list.
  Qed.
  Lemma mjob_outs b n (queries : list (query N)) outs : Forall2 (pyields (mjstep b n) (mjob_out N b)) (JCall <$> queries) outs -> exists qrs, qrs.*1 = queries /\ Forall2 (msent b n) qrs (concat outs).
  Proof.
    revert outs. induction queries as [|q qs IH]; intros outs H; cbn in H.
    - inversion H; subst. exists []. split; [done|constructor].
    - inversion H as [|? ms ? os Hm Ho]; subst. destruct (IH _ Ho) as (qrs & <- & Hf). destruct (mjob_yields _ _ _ _ Hm) as (r & l & -> & Hl). exists ((q, r) :: qrs). split; [done|]. cbn. by constructor.
  Qed.
  Lemma msent_lookup b n qr l d : msent b n qr l -> (list_to_map l : gmap string (num N)) !! d = ms_adds d qr.
  Proof. intros (_ & Hnd & H). apply option_eq. intros x. rewrite <- H. split; [apply elem_of_list_to_map_2|by apply elem_of_list_to_map_1]. Qed.
  Lemma msent_scores b n qrs msgs : Forall2 (msent b n) qrs msgs -> forall (tmp : gmap string (num N)) d,
    fold_left (fun tmp l => fold_left (add_score N) l tmp) msgs tmp !! d =
      match omap (ms_adds d) qrs with [] => tmp !! d | cs => Some (fold_left (nadd N) cs (default (of_int N 0) (tmp !! d))) end.
  Proof.
    induction 1 as [|qr l qrs ls Hq Hr IH]; intros tmp d; [done|]. cbn [fold_left]. rewrite IH. rewrite add_scores_lookup by apply Hq. rewrite (msent_lookup _ _ _ _ _ Hq).
    assert (omap (ms_adds d) (qr :: qrs) = match ms_adds d qr with Some x => x :: omap (ms_adds d) qrs | None => omap (ms_adds d) qrs end) as -> by (cbn; by destruct (ms_adds d qr)).
    destruct (ms_adds d qr) as [x|]; [|done]. by destruct (omap (ms_adds d) qrs).
  Qed.
  Lemma mjob_result g n (x : server) k queries rs : mjobs_ok g n x -> g <= k -> ms_returned x k queries rs ->
    exists qrs, qrs.*1 ≡ₚ queries /\ (forall qr, qr ∈ qrs -> exists i, n <= i /\ ms_search x i qr) /\ NoDup rs.*1 /\
      (forall d s, (d, s) ∈ rs <-> omap (ms_adds d) qrs <> [] /\ s = sum_num N (omap (ms_adds d) qrs)) /\
      (strict_weak_on (score_less N) rs -> forall i j a b, i < j -> rs !! i = Some a -> rs !! j = Some b -> ngtb N b.2 a.2 = false).
  Proof.
    intros (_ & _ & J) Hg (w & Hw & Hd & ds & Hds & Hperm & Hsort). specialize (J _ _ _ Hw). apply Nat.ltb_ge in Hg. rewrite Hg in J.
    destruct (fan_result _ _ _ _ _ _ _ J Hd) as ((outs & Ho & Hp) & _). destruct (mjob_outs _ _ _ _ Ho) as (qrs & Hq & Hf).
    destruct (Forall2_perm _ _ _ _ Hf ltac:(symmetry; exact Hp)) as (qrs' & Hqp & Hf'). exists qrs'. split; [rewrite Hqp; by rewrite Hq|].
    split. { intros qr Hin. apply elem_of_list_lookup in Hin as [j Hj]. destruct (Forall2_lookup_l _ _ _ _ _ Hf' Hj) as (l & _ & Hs & _). exact Hs. }
    rewrite Hds in Hperm. split; [rewrite Hperm; apply NoDup_fst_map_to_list|]. split.
    - intros d s. rewrite Hperm, elem_of_map_to_list. unfold temp_scores. rewrite (msent_scores _ _ _ _ Hf'). rewrite lookup_empty.
      destruct (omap (ms_adds d) qrs') as [|c l]; [by split; [|intros [? _]]|]. split; [intros E; injection E as <-; done|]. intros [_ ->]. done.
    - intros Hw' i j a b Hij Ha Hb. eapply Hsort; [|done..]. assert (forall a, a ∈ ds -> a ∈ rs) as Hsub by (intros ?; by rewrite Hperm, Hds).
      destruct Hw' as (W1 & W2 & W3). split; [|split]; [eauto|..]; intros x1 y1 z1 Hx Hy Hz; [by apply W2; apply Hsub|by apply W3; apply Hsub].
  Qed.
End server.
