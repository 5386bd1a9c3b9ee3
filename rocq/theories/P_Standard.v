From Verif Require Import Base M_Field M_Memory M_Num M_FanIn M_Search M_Standard S_View S_Search P_Base P_Memory P_FanIn P_Search.

(** *** sort.Slice always has a result *)
Section sorting.
  Context {A : Type} (less : A -> A -> bool).
  Fixpoint ins (a : A) (l : list A) : list A :=
    match l with [] => [a] | b :: l' => if less b a then b :: ins a l' else a :: l end.
  Definition isort (l : list A) : list A := fold_right ins [] l.
  Lemma ins_perm a l : ins a l ≡ₚ a :: l.
  Proof. induction l as [|b l IH]; cbn; [done|]. destruct (less b a); [rewrite IH; constructor|done]. Qed.
  Lemma isort_perm l : isort l ≡ₚ l.
  Proof. induction l as [|a l IH]; cbn; [done|]. by rewrite ins_perm, IH. Qed.
  (** [Forall]-style sortedness. *)
  Fixpoint sorted_desc (l : list A) : Prop :=
    match l with [] => True | a :: l' => Forall (fun b => less b a = false) l' /\ sorted_desc l' end.
  Lemma sorted_desc_lookup l : sorted_desc l -> forall i j a b, (i < j)%nat -> l !! i = Some a -> l !! j = Some b -> less b a = false.
  Proof.
    induction l as [|c l IH]; intros Hs i j a b Hij Ha Hb; [done|]. destruct Hs as [Hf Hs].
    destruct j as [|j]; [lia|]. destruct i as [|i]; cbn in *.
    - injection Ha as ->. rewrite Forall_forall in Hf. apply Hf. by eapply elem_of_list_lookup_2.
    - eapply IH; [done| |done|done]. lia.
  Qed.
  Lemma isort_sorted l : strict_weak_on less l -> sorted_desc (isort l).
  Proof.
    induction l as [|a l IH]; [done|]. intros (H1 & H2 & H3). change (isort (a :: l)) with (ins a (isort l)).
    assert (sorted_desc (isort l)) as Hs.
    { apply IH. split; [|split].
      - intros x Hx. apply H1. by right.
      - intros x y z Hx Hy Hz. apply H2; by right.
      - intros x y z Hx Hy Hz. apply H3; by right. }
    assert (forall x, x ∈ isort l -> x ∈ l) as Hsub by (intros x; by rewrite isort_perm).
    clear IH. induction (isort l) as [|b s IHs]; cbn; [repeat constructor|]. destruct Hs as [Hf Hs].
    assert (b ∈ l) as Hbl by (apply Hsub; by left).
    destruct (less b a) eqn:E.
    - cbn. split.
      + rewrite ins_perm. constructor; [|done]. destruct (less a b) eqn:E2; [|done].
        rewrite <- (H1 a) by (by left). symmetry. eapply (H2 a b a); [by left|by right|by left|done|done].
      + apply IHs; [done|]. intros x Hx. apply Hsub. by right.
    - cbn. split; [|by split]. constructor; [done|]. rewrite Forall_forall in Hf |- *. intros x Hx.
      eapply (H3 x b a); [right; apply Hsub; by right|by right|by left| |done]. by apply Hf.
  Qed.
  Lemma sort_slice_exists l : exists l', sort_slice less l l'.
  Proof.
    exists (isort l). split; [apply isort_perm|]. intros Hw. apply sorted_desc_lookup. by apply isort_sorted.
  Qed.
End sorting.

Lemma Forall2_perm {A B} (R : A -> B -> Prop) l k k' : Forall2 R l k -> k ≡ₚ k' -> exists l', l' ≡ₚ l /\ Forall2 R l' k'.
Proof.
  intros H Hp. revert l H. induction Hp as [|y k k' Hp IH|y z k|k k1 k' Hp1 IH1 Hp2 IH2]; intros l H.
  - inversion H; subst. exists []. by split; [|constructor].
  - inversion H as [|x ? l' ? Hx Hl]; subst. destruct (IH _ Hl) as (l2 & Hl2 & Hf).
    exists (x :: l2). split; [by rewrite Hl2|by constructor].
  - inversion H as [|x ? l' ? Hx Hl]; subst. inversion Hl as [|x2 ? l'' ? Hx2 Hl2]; subst.
    exists (x2 :: x :: l''). split; [constructor|by repeat constructor].
  - destruct (IH1 _ H) as (l1 & Hl1 & Hf1). destruct (IH2 _ Hf1) as (l2 & Hl2 & Hf2).
    exists l2. split; [by rewrite Hl2|done].
Qed.

Section standard.
  Variables (N : numops) (ncpu : nat) (v : view).
  Hypothesis Hcpu : (0 < ncpu)%nat.
  Hypothesis Hv : fields_pointwise v.
  Notation qstep := (q_step N ncpu v).
  Notation sstep := (search_step N ncpu v).

  Lemma matches_candidate terms f d : matches v terms f d = true <-> candidate v terms f d.
  Proof.
    unfold matches, candidate. rewrite existsb_exists. split.
    - intros (t & Ht & H). destruct (v_docs v f t) as [s|] eqn:E; [|done]. exists t, s.
      split; [by apply elem_of_list_In|]. split; [done|]. unfold set_contains in H. destruct (s !! d); [by eexists|done].
    - intros (t & s & Ht & E & [b Hb]). exists t. split; [by apply elem_of_list_In|]. rewrite E. unfold set_contains. by rewrite Hb.
  Qed.

  Lemma q_rtc q s p : rtc qstep (q, s) p -> exists s', p = (q, s') /\ rtc sstep s s'.
  Proof.
    intros H. remember (q, s) as p0 eqn:E. revert s E. induction H as [|p0 p1 p2 Hs Hr IH]; intros s ->.
    - exists s. split; [done|apply rtc_refl].
    - inversion Hs as [? ? s1 Hs1]; subst. destruct (IH s1 eq_refl) as (s' & -> & Hr'). exists s'. split; [done|]. by eapply rtc_l.
  Qed.

  (** What the goroutine of one query sends. *)
  Definition scores_of (q : query N) (l : list (doc_score N)) : Prop :=
    NoDup l.*1 /\ forall d x, (d, x) ∈ l <-> contribution N v q d = Some x.
  Lemma q_yields q ms : pyields qstep (q_out N) (q_start N q) ms -> exists l, ms = [l] /\ scores_of q l.
  Proof.
    intros (p & Hp & r & kxs & Hr & Hk & ->). apply q_rtc in Hp as (s' & -> & Hs'). cbn in *.
    destruct (search_result_gen N ncpu v Hv _ _ _ _ Hs' Hr) as (H1 & H2 & H3 & H4).
    eexists. split; [done|]. split.
    - rewrite <- list_fmap_compose. change (kxs.*1) with ((fst <$> kxs)) .
      replace (fst ∘ (fun kx : string * field => (kx.1, doc_bm25 N q r kx.2)) <$> kxs) with (kxs.*1) by done.
      rewrite Hk. apply NoDup_fst_map_to_list.
    - intros d x. change (map ?f kxs) with (f <$> kxs). rewrite elem_of_list_fmap. unfold contribution.
      assert (forall fld, doc_bm25 N q r fld = query_score N v q fld) as Hsc.
      { intros fld. unfold doc_bm25, query_score. by rewrite H2, H3, H4. }
      split.
      + intros ([k fld] & [= -> ->] & Hin). rewrite Hk, elem_of_map_to_list, H1 in Hin. destruct Hin as [Hc Hf].
        apply matches_candidate in Hc. rewrite Hc, Hf. by rewrite Hsc.
      + destruct (matches v (q_terms q) (q_field q) d) eqn:E; [|done]. apply matches_candidate in E.
        destruct (v_fields v [d] (q_field q) !! d) as [fld|] eqn:Ef; [|done]. intros [= <-].
        exists (d, fld). cbn. rewrite Hsc. split; [done|]. rewrite Hk, elem_of_map_to_list. apply H1. done.
  Qed.
  Lemma outs_scores qs outs : Forall2 (pyields qstep (q_out N)) (map (q_start N) qs) outs ->
    exists ls, concat outs = ls /\ Forall2 scores_of qs ls.
  Proof.
    revert outs. induction qs as [|q qs IH]; intros outs H; cbn in H.
    - inversion H; subst. exists []. by split; [|constructor].
    - inversion H as [|? ms ? os Hm Ho]; subst. destruct (IH _ Ho) as (ls & <- & Hf).
      apply q_yields in Hm as (l & -> & Hl). eexists. split; [reflexivity|]. cbn. by constructor.
  Qed.
  Lemma std_messages qs s : rtc (std_step N ncpu v qs) (std_init N qs) s -> fan_done s ->
    exists qs', qs' ≡ₚ qs /\ Forall2 scores_of qs' (fn_got s).
  Proof.
    intros H Hd. destruct (fan_result _ _ _ _ _ _ _ H Hd) as ((outs & Ho & Hperm) & _ & _ & _).
    destruct (outs_scores _ _ Ho) as (ls & Heq & Hf). subst ls.
    eapply Forall2_perm; [exact Hf|]. by symmetry.
  Qed.

  (** Accumulation. *)
  Lemma add_scores_lookup (l : list (doc_score N)) : forall (tmp : gmap string (num N)) d, NoDup l.*1 ->
    fold_left (add_score N) l tmp !! d =
      match (list_to_map l : gmap string (num N)) !! d with
      | Some x => Some (nadd N (default (of_int N 0) (tmp !! d)) x)
      | None => tmp !! d
      end.
  Proof.
    induction l as [|[k x] l IH]; intros tmp d Hnd; [done|]. cbn in Hnd. apply NoDup_cons in Hnd as [Hk Hnd].
    cbn [fold_left]. rewrite IH by done. cbn [list_to_map foldr]. unfold add_score. cbn [fst snd].
    destruct (decide (d = k)) as [->|Hne].
    - cbn. rewrite (not_elem_of_list_to_map_1 l k) by done. by rewrite !lookup_insert.
    - cbn. rewrite !lookup_insert_ne by done. done.
  Qed.
  Lemma scores_of_lookup q l d : scores_of q l -> (list_to_map l : gmap string (num N)) !! d = contribution N v q d.
  Proof.
    intros [Hnd H]. apply option_eq. intros x. rewrite <- H. split.
    - apply elem_of_list_to_map_2.
    - by apply elem_of_list_to_map_1.
  Qed.
  Lemma temp_scores_gen qs msgs : Forall2 scores_of qs msgs -> forall (tmp : gmap string (num N)) d,
    fold_left (fun tmp l => fold_left (add_score N) l tmp) msgs tmp !! d =
      match contributions N v qs d with
      | [] => tmp !! d
      | cs => Some (fold_left (nadd N) cs (default (of_int N 0) (tmp !! d)))
      end.
  Proof.
    induction 1 as [|q l qs ls Hq Hr IH]; intros tmp d; [done|].
    cbn [fold_left]. rewrite IH. rewrite add_scores_lookup by apply Hq. rewrite (scores_of_lookup _ _ _ Hq).
    assert (contributions N v (q :: qs) d =
      match contribution N v q d with Some x => x :: contributions N v qs d | None => contributions N v qs d end) as ->.
    { unfold contributions. cbn. by destruct (contribution N v q d). }
    destruct (contribution N v q d) as [x|]; [|done].
    by destruct (contributions N v qs d).
  Qed.
  Lemma temp_scores_spec qs msgs d : Forall2 scores_of qs msgs ->
    temp_scores N msgs !! d = match contributions N v qs d with [] => None | cs => Some (sum_num N cs) end.
  Proof. intros H. unfold temp_scores. rewrite (temp_scores_gen _ _ H). rewrite lookup_empty. done. Qed.

  Lemma std_result qs s res : rtc (std_step N ncpu v qs) (std_init N qs) s -> std_returns N s res ->
    exists qs', qs' ≡ₚ qs /\ NoDup res.*1 /\
      (forall d x, (d, x) ∈ res <-> contributions N v qs' d <> [] /\ x = sum_num N (contributions N v qs' d)) /\
      (strict_weak_on (score_less N) res -> forall i j a b, (i < j)%nat -> res !! i = Some a -> res !! j = Some b ->
         ngtb N b.2 a.2 = false).
  Proof.
    intros H (Hd & ds & Hds & Hperm & Hsort). destruct (std_messages _ _ H Hd) as (qs' & Hqs & Hf).
    exists qs'. split; [done|]. rewrite Hds in Hperm. split; [|split].
    - rewrite Hperm. apply NoDup_fst_map_to_list.
    - intros d x. rewrite Hperm, elem_of_map_to_list, (temp_scores_spec _ _ _ Hf).
      destruct (contributions N v qs' d) as [|c cs]; [by split; [|intros [? _]]|].
      split; [intros [= <-]; done|]. intros [_ ->]. done.
    - intros Hw i j a b Hij Ha Hb. eapply Hsort; [|done..].
      assert (forall a, a ∈ ds -> a ∈ res) as Hsub by (intros ?; by rewrite Hperm, Hds).
      destruct Hw as (W1 & W2 & W3). split; [|split]; [eauto|..].
      + intros x y z Hx Hy Hz. by apply W2; apply Hsub.
      + intros x y z Hx Hy Hz. by apply W3; apply Hsub.
  Qed.

  (** Termination and progress. *)
  Definition pmq (p : qtask N) : nat := (search_measure N v (q_terms p.1) (q_field p.1) p.2 + 2)%nat.
  Lemma q_sinv q p : rtc qstep (q_start N q) p -> p.1 = q /\ sinv N ncpu v (q_terms q) (q_field q) p.2.
  Proof. intros H. apply q_rtc in H as (s' & -> & Hs). split; [done|]. by apply sinv_reach. Qed.
  Lemma dec_q qs : tasks_decrease qstep (q_out N) pmq (map (q_start N) qs).
  Proof.
    intros p0 p Hin Hr. apply elem_of_list_fmap in Hin as (q & -> & _). apply q_sinv in Hr as [E Hi].
    destruct p as [q' s]. cbn in E. subst q'. cbn in Hi. split.
    - intros p' Hp. inversion Hp as [? ? s' Hs]; subst. unfold pmq. cbn.
      pose proof (search_measure_step N ncpu v Hcpu Hv _ _ _ _ Hi Hs). lia.
    - intros ms (r & kxs & _ & _ & ->). unfold pmq. cbn. lia.
  Qed.
  Lemma std_bound qs : exists B, forall n s, nsteps (std_step N ncpu v qs) n (std_init N qs) s -> (n <= B)%nat.
  Proof.
    eexists. intros n s H.
    pose proof (fan_bound_from _ _ _ _ _ pmq _ n s _ (dec_q qs) (inv_init _ _ _ _ _) H) as Hb.
    etransitivity; [|exact Hb]. lia.
  Qed.
  Lemma std_progress qs s : rtc (std_step N ncpu v qs) (std_init N qs) s ->
    fan_done s \/ exists s', std_step N ncpu v qs s s'.
  Proof.
    intros H. assert (fan_done s \/ ~ fan_done s) as [Hd|Hd] by (unfold fan_done; destruct (fn_main s); (by left) || (by right)); [by left|].
    right. eapply (fan_progress qstep (q_out N)); [done| |exact H|exact Hd].
    intros p0 p Hin Hr. apply elem_of_list_fmap in Hin as (q & -> & _). apply q_rtc in Hr as (s' & -> & Hs).
    destruct (search_progress N ncpu v Hcpu _ _ _ Hs) as [[r Hr]|[s'' Hs'']].
    - right. exists [map (fun kx : string * field => (kx.1, doc_bm25 N q r kx.2)) (map_to_list (sr_docs r))].
      exists r, (map_to_list (sr_docs r)). done.
    - left. exists (q, s''). by constructor.
  Qed.
  Lemma std_no_panic qs s : rtc (std_step N ncpu v qs) (std_init N qs) s -> ~ std_panics N s.
  Proof.
    intros H [Hp|(p & Hin & Hp)].
    - by rewrite (fan_no_panic _ _ _ _ _ _ _ H) in Hp.
    - destruct (fan_origin _ _ _ _ _ _ _ _ H Hin) as (p0 & Hp0 & Hr). apply elem_of_list_fmap in Hp0 as (q & -> & _).
      apply q_rtc in Hr as (s' & -> & Hs). by apply (search_no_panic N ncpu v _ _ _ Hs) in Hp.
  Qed.
  Lemma done_returns (s : std_state N) : fan_done s -> exists res, std_returns N s res.
  Proof.
    intros Hd. destruct (sort_slice_exists (score_less N) (map_to_list (temp_scores N (fn_got s)))) as [res Hs].
    exists res. split; [done|]. eexists. by split; [reflexivity|].
  Qed.
  Lemma std_completes qs : exists s res, rtc (std_step N ncpu v qs) (std_init N qs) s /\ std_returns N s res.
  Proof.
    destruct (std_bound qs) as [B HB].
    destruct (bounded_reaches _ (fun s => fan_done s) (std_init N qs) B HB (std_progress qs)) as (s & Hs & Hd).
    destruct (done_returns s Hd) as [res Hr]. by exists s, res.
  Qed.
  (** Every arrival order of the per-query results is possible. *)
  Lemma q_some_yield q : exists l, pyields qstep (q_out N) (q_start N q) [l] /\ scores_of q l.
  Proof.
    destruct (search_completes N ncpu v Hcpu Hv (q_terms q) (q_field q)) as (s & r & Hs & Hr).
    set (l := map (fun kx : string * field => (kx.1, doc_bm25 N q r kx.2)) (map_to_list (sr_docs r))).
    assert (pyields qstep (q_out N) (q_start N q) [l]) as Hy.
    { exists (q, s). split.
      - unfold q_start. clear Hr l. induction Hs as [|s0 s1 s2 Hs Hrs IH]; [apply rtc_refl|].
        eapply rtc_l; [by constructor|exact IH].
      - exists r, (map_to_list (sr_docs r)). done. }
    exists l. split; [done|]. apply q_yields in Hy as (l' & [= <-] & Hl). done.
  Qed.
  Lemma some_yields qs : exists ls, Forall2 (pyields qstep (q_out N)) (map (q_start N) qs) (map (fun l => [l]) ls) /\
    Forall2 scores_of qs ls.
  Proof.
    induction qs as [|q qs IH]; [exists []; split; constructor|]. destruct IH as (ls & H1 & H2).
    destruct (q_some_yield q) as (l & Hy & Hl). exists (l :: ls). split; by constructor.
  Qed.
  Lemma std_realize qs qs' : qs' ≡ₚ qs -> exists s res, rtc (std_step N ncpu v qs) (std_init N qs) s /\ std_returns N s res /\
    forall d x, (d, x) ∈ res <-> contributions N v qs' d <> [] /\ x = sum_num N (contributions N v qs' d).
  Proof.
    intros Hp. destruct (some_yields qs') as (ls & Hy & Hf).
    destruct (fan_realize qstep (q_out N) (length qs) None true I (map (q_start N) qs) (map (q_start N) qs') _
      (Permutation_map _ Hp) Hy) as (s & Hs & Hd & Hgot).
    assert (concat (map (fun l : list (doc_score N) => [l]) ls) = ls) as Hcat by (clear; induction ls; cbn; congruence).
    rewrite Hcat in Hgot. destruct (done_returns s Hd) as [res Hres]. exists s, res. split; [done|]. split; [done|].
    destruct Hres as (_ & ds & Hds & Hperm & _). intros d x. rewrite Hperm, Hds, elem_of_map_to_list, Hgot.
    rewrite (temp_scores_spec _ _ _ Hf). destruct (contributions N v qs' d) as [|c cs]; [by split; [|intros [? _]]|].
    split; [intros [= <-]; done|]. intros [_ ->]. done.
  Qed.
End standard.
