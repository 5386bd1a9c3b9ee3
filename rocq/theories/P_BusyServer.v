(** GET requests handled while documents are posted (C65): invariants. *)
From Verif Require Import Base M_Text M_Language M_Field M_LRU S_Visits M_Memory M_File M_Serialize M_Num M_FanIn M_Search M_SearchConc M_Disk M_DiskBusy M_Standard M_Server M_BusyServer S_Search S_Disk S_DiskBusy S_BusyServer P_FanIn P_Standard.
#[local] Open Scope nat_scope.

Lemma fan_mono {P A} (ps ps' : P -> P -> Prop) (po po' : P -> list A -> Prop) cc sc up w w' :
  (forall p p', ps p p' -> ps' p p') -> (forall p ms, po p ms -> po' p ms) -> fan_step ps po cc sc up w w' -> fan_step ps' po' cc sc up w w'.
Proof. intros H1 H2 H. destruct H; [apply fs_spawn|apply fs_closer|apply fs_acquire|apply fs_inner|apply fs_output|apply fs_send|apply fs_handoff|apply fs_send_closed|apply fs_release|apply fs_done|apply fs_close|apply fs_recv|apply fs_finish]; auto. Qed.

Section server.
  Variables (compress : bytes -> bytes) (decompress : bytes -> option bytes) (cs : Z) (N : numops) (ncpu : nat).
  Notation busy := (busy N).
  Notation server := (server N).
  Notation blive := (busy_live compress decompress cs N ncpu).
  Notation live := (server_live compress decompress cs N ncpu).

  (** * The store *)
  Lemma store_live (x y : server) : live x y -> sv_store x = sv_store y \/ blive (sv_store x) (sv_store y).
  Proof. intros H. inversion H; subst; cbn; [by right|by left| |by left]. right. apply bz_call. Qed.
  Lemma store_run (x y : server) : rtc live x y -> busy_run compress decompress cs ncpu (sv_store x) (sv_store y).
  Proof. unfold busy_run. induction 1 as [x|x y z Hs _ IH]; [done|]. destruct (store_live _ _ Hs) as [->|H]; [done|]. by eapply rtc_l. Qed.
  Lemma store_silent (x y : server) : silent_run compress decompress cs ncpu x y -> quiet_run compress decompress cs ncpu (sv_store x) (sv_store y).
  Proof. unfold quiet_run. induction 1 as [x|x y z [Hs Hn] _ IH]; [done|]. destruct (store_live _ _ Hs) as [->|H]; [done|]. by eapply rtc_l. Qed.
  Lemma silent_server (x y : server) : silent_run compress decompress cs ncpu x y -> server_run compress decompress cs ncpu x y.
  Proof. intros H. eapply rtc_subrel; [|exact H]. by intros ? ? []. Qed.
  Lemma silent_end (x y : server) : silent_run compress decompress cs ncpu x y -> nobody_searching (sv_store x) -> nobody_searching (sv_store y).
  Proof. induction 1 as [x|x y z [_ Hn] _ IH]; [done|]. intros _. by apply IH. Qed.
  Lemma store_reachable x : server_reachable compress decompress cs N ncpu x -> busy_reachable compress decompress cs N ncpu (sv_store x).
  Proof.
    unfold server_reachable, busy_reachable. intros H. remember (server_init N) as i eqn:E. assert (rtc (busy_step compress decompress cs N ncpu) (busy_init N) (sv_store i)) as R by (by rewrite E). clear E.
    induction H as [x|x y z Hs _ IH]; [done|]. apply IH. destruct Hs as [Hs|(y' & Hc & ->)].
    - destruct (store_live _ _ Hs) as [<-|Hb]; [done|]. eapply rtc_r; [exact R|]. by left.
    - eapply rtc_r; [exact R|]. right. by exists y'.
  Qed.
  Lemma run_reachable x y : server_reachable compress decompress cs N ncpu x -> rtc live x y -> server_reachable compress decompress cs N ncpu y.
  Proof. unfold server_reachable. intros H R. etransitivity; [exact H|]. eapply rtc_subrel; [|exact R]. intros ? ? ?. by left. Qed.

  (** * The searches of the store *)
  Definition grows (b b' : busy) : Prop :=
    length (by_qs b) <= length (by_qs b') /\
    (forall i terms f q, by_qs b !! i = Some (terms, f, q) -> exists q', by_qs b' !! i = Some (terms, f, q')) /\
    (forall i terms f r, by_qs b !! i = Some (terms, f, SRet r) -> by_qs b' !! i = Some (terms, f, SRet r)).
  Lemma grows_refl b : grows b b.
  Proof. split; [done|]. split; [eauto|done]. Qed.
  Lemma grows_trans a b c : grows a b -> grows b c -> grows a c.
  Proof. intros (A1 & A2 & A3) (B1 & B2 & B3). split; [lia|]. split; [|eauto]. intros i terms f q H. destruct (A2 _ _ _ _ H) as [q' H']. eauto. Qed.
  Lemma grows_app (y y' : sys) dp dp' (qs l : list (M_DiskBusy.query N)) : grows (mkBusy y dp qs) (mkBusy y' dp' (qs ++ l)).
  Proof. split; [cbn; rewrite app_length; lia|]. cbn. split; intros i terms f q H; [exists q|]; by apply lookup_app_l_Some. Qed.
  Lemma grows_live b b' : blive b b' -> grows b b'.
  Proof.
    intros H. inversion H; subst; try (split; [done|split; [eauto|done]]); [apply grows_app|].
    split; [cbn; by rewrite insert_length|]. cbn. split.
    - intros j terms' f' q0 Hj. destruct (decide (i = j)) as [->|Hn]; [|exists q0; by rewrite list_lookup_insert_ne].
      rewrite Hj in H0. injection H0 as -> -> ->. exists q'. apply list_lookup_insert. by eapply lookup_lt_Some.
    - intros j terms' f' r Hj. destruct (decide (i = j)) as [->|Hn]; [|by rewrite list_lookup_insert_ne].
      rewrite Hj in H0. injection H0 as -> -> <-. inversion H1.
  Qed.
  Lemma grows_store (x y : server) : live x y -> grows (sv_store x) (sv_store y).
  Proof. intros H. destruct (store_live _ _ H) as [->|Hb]; [apply grows_refl|by apply grows_live]. Qed.

  (** * The goroutines of a call of Standard.Search, as a fan-in of their own: what has been
      called and what has returned so far. *)
  Definition jstep (b : busy) (n : nat) (p p' : qjob N) : Prop :=
    exists q i s, p = JCall q /\ p' = JWait q i /\ n <= i /\ by_qs b !! i = Some (q_terms q, q_field q, s).
  Notation jfan b n queries := (fan_step (jstep b n) (job_out N b) (length queries) None true).
  Notation jinit queries := (fan_init true 0 (JCall <$> queries)).
  Lemma jstep_grows b b' n p p' : grows b b' -> jstep b n p p' -> jstep b' n p p'.
  Proof. intros (_ & G & _) (q & i & s & -> & -> & Hi & H). destruct (G _ _ _ _ H) as [s' H']. exists q, i, s'. done. Qed.
  Lemma out_grows b b' p ms : grows b b' -> job_out N b p ms -> job_out N b' p ms.
  Proof. intros (_ & _ & G) (q & i & r & kxs & -> & H & Hk & ->). exists q, i, r, kxs. split; [done|]. split; [by apply G|done]. Qed.
  Lemma jfan_grows b b' n (queries : list (query N)) w w' : grows b b' -> rtc (jfan b n queries) w w' -> rtc (jfan b' n queries) w w'.
  Proof. intros G H. eapply rtc_subrel; [|exact H]. intros ? ?. apply fan_mono; [intros ? ?; by apply jstep_grows|intros ? ?; by apply out_grows]. Qed.
  (** Jobs from number [g] on use searches from number [n] on. *)
  Definition jobs_ok (g n : nat) (x : server) : Prop :=
    n <= length (by_qs (sv_store x)) /\ g <= length (sv_gets x) /\
    forall k queries w, sv_gets x !! k = Some (queries, w) -> rtc (jfan (sv_store x) (if k <? g then 0 else n) queries) (jinit queries) w.
  Lemma jobs_live g n x y : live x y -> jobs_ok g n x -> jobs_ok g n y.
  Proof.
    intros H (L1 & L2 & J). pose proof (grows_store _ _ H) as G. split; [destruct G; lia|]. inversion H; subst; cbn [sv_store sv_gets by_qs] in *.
    - split; [done|]. intros k queries w Hk. eapply jfan_grows; [exact G|]. by apply J.
    - split; [rewrite app_length; lia|]. intros k qs w Hk. apply lookup_app_Some in Hk as [Hk|[Hl Hk]]; [by apply J|]. apply list_lookup_singleton_Some in Hk as [_ E]. injection E as <- <-. done.
    - split; [by rewrite insert_length|]. intros j qs' w0 Hj. destruct (decide (k = j)) as [->|Hn].
      + rewrite list_lookup_insert in Hj by (by eapply lookup_lt_Some). injection Hj as <- <-. eapply rtc_r; [eapply jfan_grows; [exact G|]; by apply J|].
        match goal with F : fan_inner _ _ _ _ |- _ => inversion F; subst end. apply fs_inner. exists q, (length qs), SLength. split; [done|]. split; [done|]. split; [destruct (j <? g); [apply Nat.le_0_l|exact L1]|]. cbn. rewrite lookup_app_r by done. by rewrite Nat.sub_diag.
      + rewrite list_lookup_insert_ne in Hj by done. eapply jfan_grows; [exact G|]. by apply J.
    - split; [by rewrite insert_length|]. intros j qs' w0 Hj. destruct (decide (k = j)) as [->|Hn].
      + rewrite list_lookup_insert in Hj by (by eapply lookup_lt_Some). injection Hj as <- <-. eapply rtc_r; [by apply J|]. eapply fan_mono; [| |eassumption]; done.
      + rewrite list_lookup_insert_ne in Hj by done. by apply J.
  Qed.
  Lemma jobs_run g n x y : rtc live x y -> jobs_ok g n x -> jobs_ok g n y.
  Proof. induction 1 as [x|x y z Hs _ IH]; [done|]. intros J. apply IH. by eapply jobs_live. Qed.
  Lemma jobs_reachable x : server_reachable compress decompress cs N ncpu x -> jobs_ok 0 0 x.
  Proof.
    unfold server_reachable. intros H. remember (server_init N) as i eqn:E. assert (jobs_ok 0 0 i) as J by (rewrite E; split; [cbn; lia|split; [cbn; lia|]]; intros k queries w Hk; cbn in Hk; by rewrite lookup_nil in Hk). clear E.
    induction H as [x|x y z Hs _ IH]; [done|]. apply IH. destruct Hs as [Hs|(y' & Hc & ->)]; [by eapply jobs_live|]. split; [cbn; lia|]. split; [cbn; lia|]. intros k queries w Hk. cbn in Hk. by rewrite lookup_nil in Hk.
  Qed.
  Lemma jobs_from x : jobs_ok 0 0 x -> jobs_ok (length (sv_gets x)) (length (by_qs (sv_store x))) x.
  Proof.
    intros (_ & _ & J). split; [done|]. split; [done|]. intros k queries w Hk. pose proof (lookup_lt_Some _ _ _ Hk) as Hl. apply Nat.ltb_lt in Hl. rewrite Hl. by apply (J k).
  Qed.

  (** * The result *)
  Definition sent (b : busy) (n : nat) (qr : query N * search_result N) (l : list (doc_score N)) : Prop :=
    (exists i, n <= i /\ search_returned b i (q_terms qr.1) (q_field qr.1) qr.2) /\ NoDup l.*1 /\ forall d x, (d, x) ∈ l <-> adds d qr = Some x.
  Lemma job_yields b n q ms : pyields (jstep b n) (job_out N b) (JCall q) ms -> exists r l, ms = [l] /\ sent b n (q, r) l.
  Proof.
    intros (p & Hp & Ho). destruct Ho as (q' & i & r & kxs & -> & Hi & Hk & ->).
    assert (q' = q /\ n <= i) as [-> Hn].
    { inversion Hp as [|? p1 ? Hs Hr]; subst. destruct Hs as (q1 & i1 & s1 & E1 & -> & Hn1 & H1). injection E1 as <-. inversion Hr as [|? p2 ? Hs Hr']; subst; [done|]. destruct Hs as (? & ? & ? & E & _). discriminate E. }
    exists r. eexists. split; [reflexivity|]. split; [by exists i|]. cbn. split.
    - rewrite <- list_fmap_compose. replace (fst ∘ (fun kx : string * field => (kx.1, doc_bm25 N q r kx.2)) <$> kxs) with (kxs.*1) by done. rewrite Hk. apply NoDup_fst_map_to_list.
    - intros d x. change (map ?f kxs) with (f <$> kxs). rewrite elem_of_list_fmap. unfold adds. cbn. split.
      + intros ([k fld] & E & Hin). cbn in E. injection E as -> ->. rewrite Hk, elem_of_map_to_list in Hin. by rewrite Hin.
      + destruct (sr_docs r !! d) as [fld|] eqn:E; [|done]. intros E'. injection E' as <-. exists (d, fld). split; [done|]. by rewrite Hk, elem_of_map_to_list.
  Qed.
  Lemma job_outs b n (queries : list (query N)) outs : Forall2 (pyields (jstep b n) (job_out N b)) (JCall <$> queries) outs -> exists qrs, qrs.*1 = queries /\ Forall2 (sent b n) qrs (concat outs).
  Proof.
    revert outs. induction queries as [|q qs IH]; intros outs H; cbn in H.
    - inversion H; subst. exists []. split; [done|constructor].
    - inversion H as [|? ms ? os Hm Ho]; subst. destruct (IH _ Ho) as (qrs & <- & Hf). destruct (job_yields _ _ _ _ Hm) as (r & l & -> & Hl). exists ((q, r) :: qrs). split; [done|]. cbn. by constructor.
  Qed.
  Lemma sent_lookup b n qr l d : sent b n qr l -> (list_to_map l : gmap string (num N)) !! d = adds d qr.
  Proof. intros (_ & Hnd & H). apply option_eq. intros x. rewrite <- H. split; [apply elem_of_list_to_map_2|by apply elem_of_list_to_map_1]. Qed.
  Lemma sent_scores b n qrs msgs : Forall2 (sent b n) qrs msgs -> forall (tmp : gmap string (num N)) d,
    fold_left (fun tmp l => fold_left (add_score N) l tmp) msgs tmp !! d =
      match omap (adds d) qrs with [] => tmp !! d | cs => Some (fold_left (nadd N) cs (default (of_int N 0) (tmp !! d))) end.
  Proof.
    induction 1 as [|qr l qrs ls Hq Hr IH]; intros tmp d; [done|]. cbn [fold_left]. rewrite IH. rewrite add_scores_lookup by apply Hq. rewrite (sent_lookup _ _ _ _ _ Hq).
    assert (omap (adds d) (qr :: qrs) = match adds d qr with Some x => x :: omap (adds d) qrs | None => omap (adds d) qrs end) as -> by (cbn; by destruct (adds d qr)).
    destruct (adds d qr) as [x|]; [|done]. by destruct (omap (adds d) qrs).
  Qed.
  Lemma job_result g n x k queries rs : jobs_ok g n x -> g <= k -> returned x k queries rs ->
    exists qrs, qrs.*1 ≡ₚ queries /\ (forall qr, qr ∈ qrs -> exists i, n <= i /\ search_returned (sv_store x) i (q_terms qr.1) (q_field qr.1) qr.2) /\ NoDup rs.*1 /\
      (forall d s, (d, s) ∈ rs <-> omap (adds d) qrs <> [] /\ s = sum_num N (omap (adds d) qrs)) /\
      (strict_weak_on (score_less N) rs -> forall i j a b, i < j -> rs !! i = Some a -> rs !! j = Some b -> ngtb N b.2 a.2 = false).
  Proof.
    intros (_ & _ & J) Hg (w & Hw & Hd & ds & Hds & Hperm & Hsort). specialize (J _ _ _ Hw). apply Nat.ltb_ge in Hg. rewrite Hg in J.
    destruct (fan_result _ _ _ _ _ _ _ J Hd) as ((outs & Ho & Hp) & _). destruct (job_outs _ _ _ _ Ho) as (qrs & Hq & Hf).
    destruct (Forall2_perm _ _ _ _ Hf ltac:(symmetry; exact Hp)) as (qrs' & Hqp & Hf'). exists qrs'. split; [rewrite Hqp; by rewrite Hq|].
    split. { intros qr Hin. apply elem_of_list_lookup in Hin as [j Hj]. destruct (Forall2_lookup_l _ _ _ _ _ Hf' Hj) as (l & _ & Hs & _). exact Hs. }
    rewrite Hds in Hperm. split; [rewrite Hperm; apply NoDup_fst_map_to_list|]. split.
    - intros d s. rewrite Hperm, elem_of_map_to_list. unfold temp_scores. rewrite (sent_scores _ _ _ _ Hf'). rewrite lookup_empty.
      destruct (omap (adds d) qrs') as [|c l]; [by split; [|intros [? _]]|]. split; [intros E; injection E as <-; done|]. intros [_ ->]. done.
    - intros Hw' i j a b Hij Ha Hb. eapply Hsort; [|done..]. assert (forall a, a ∈ ds -> a ∈ rs) as Hsub by (intros ?; by rewrite Hperm, Hds).
      destruct Hw' as (W1 & W2 & W3). split; [|split]; [eauto|..]; intros x1 y1 z1 Hx Hy Hz; [by apply W2; apply Hsub|by apply W3; apply Hsub].
  Qed.
End server.
