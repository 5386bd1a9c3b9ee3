From Verif Require Import Base M_Field M_Memory M_Num M_FanIn M_Search S_View P_Base P_Memory P_Memory2 P_FanIn.

Lemma mem_view_pointwise m : fields_pointwise (mem_view m).
Proof.
  intros ids f d. cbn [mem_view v_fields]. rewrite !mem_get_fields_lookup.
  destruct (decide (d ∈ ids)); [|done]. rewrite decide_True; [done|]. by left.
Qed.

(** *** batches *)
Lemma concat_alter_snoc (l : list (list string)) i id : (i < length l)%nat ->
  concat (alter (fun b => b ++ [id]) i l) ≡ₚ concat l ++ [id].
Proof.
  revert i. induction l as [|b l IH]; intros i Hi; cbn in Hi; [lia|].
  destruct i as [|i]; cbn.
  - rewrite <- !app_assoc. apply Permutation_app_head, Permutation_app_comm.
  - change (alter (fun b0 => b0 ++ [id]) (S i) (b :: l)) with (b :: alter (fun b0 => b0 ++ [id]) i l). cbn.
    rewrite IH by lia. by rewrite <- app_assoc.
Qed.
Record collect_inv (ids : list string) (st : collect_state) : Prop := {
  ci_len : length st.1.2 = 5%nat;
  ci_nodup : NoDup (concat st.1.2);
  ci_dom : forall d, is_Some (st.1.1 !! d) <-> d ∈ concat st.1.2;
  ci_elem : forall d, d ∈ concat st.1.2 <-> d ∈ ids;
  ci_ixx : st.2 = length (concat st.1.2);
  ci_even : forall i b, st.1.2 !! i = Some b -> length b = ((length (concat st.1.2) + 4 - i) / 5)%nat
}.
Lemma collect_inv_fold ids : collect_inv ids (fold_left collect_step ids (∅, [[]; []; []; []; []], 0%nat)).
Proof.
  induction ids as [|id ids IH] using rev_ind.
  - split; cbn; try done.
    + constructor.
    + intros d. rewrite lookup_empty. split; [by intros [? ?]|by intros ?%elem_of_nil].
    + intros [|[|[|[|[|i]]]]] b; cbn; intros [= <-]; done.
  - rewrite fold_left_app. cbn [fold_left]. set (st := fold_left _ ids _) in *. clearbody st.
    destruct IH as [H1 H2 H3 H4 H5 H6]. destruct st as [[has bs] ixx]. cbn [fst snd] in *. subst ixx.
    unfold collect_step. destruct (has !! id) as [u|] eqn:E.
    1: assert (id ∈ concat bs) as Hin by (apply H3; by rewrite E); split; cbn; try done;
      intros d; rewrite H4, elem_of_app, elem_of_list_singleton; split; [by left|intros [?| ->]; [done|by apply H4]].
    assert (id ∉ concat bs) as Hni by (rewrite <- H3, E; by intros [? ?]).
    set (i := (length (concat bs) `mod` 5)%nat).
    assert (i < 5)%nat as Hi by (apply Nat.mod_upper_bound; lia).
    assert (concat (alter (fun b => b ++ [id]) i bs) ≡ₚ concat bs ++ [id]) as Hc by (apply concat_alter_snoc; lia).
    assert (length (concat (alter (fun b => b ++ [id]) i bs)) = S (length (concat bs))) as Hl
      by (rewrite Hc, app_length; cbn; lia).
    split; cbn [fst snd].
    + rewrite alter_length. done.
    + rewrite Hc. apply NoDup_app. split; [done|]. split; [|apply NoDup_singleton].
      intros x Hx ->%elem_of_list_singleton. done.
    + intros d. rewrite Hc, elem_of_app, elem_of_list_singleton, <- H3.
      destruct (decide (d = id)) as [->|Hne].
      * rewrite lookup_insert. split; [by right|by eexists].
      * rewrite lookup_insert_ne by done. split; [by left|]. intros [?|?]; done.
    + intros d. rewrite Hc, !elem_of_app, H4. done.
    + by rewrite Hl.
    + intros j b Hj. rewrite Hl. destruct (decide (i = j)) as [<-|Hne].
      * rewrite list_lookup_alter in Hj. destruct (bs !! i) as [b0|] eqn:Eb; [|done]. cbn in Hj. injection Hj as <-.
        rewrite app_length, (H6 i b0 Eb). cbn [length]. subst i. set (n := length (concat bs)) in *. clearbody n. clear -Hi.
        pose proof (Nat.div_mod n 5 ltac:(lia)) as Hn. set (q := (n / 5)%nat) in *. set (r := (n mod 5)%nat) in *. clearbody q r.
        replace (n + 4 - r)%nat with (4 + q * 5)%nat by lia. replace (S n + 4 - r)%nat with (0 + (S q) * 5)%nat by lia.
        rewrite !Nat.div_add by lia. rewrite !Nat.div_small by lia. lia.
      * rewrite list_lookup_alter_ne in Hj by done. rewrite (H6 j b Hj). pose proof (lookup_lt_Some _ _ _ Hj) as Hjl. rewrite H1 in Hjl.
        subst i. set (n := length (concat bs)) in *. clearbody n. clear -Hi Hjl Hne.
        pose proof (Nat.div_mod n 5 ltac:(lia)) as Hn. set (q := (n / 5)%nat) in *. set (r := (n mod 5)%nat) in *. clearbody q r.
        destruct (decide (j < r)%nat).
        -- replace (n + 4 - j)%nat with ((r - 1 - j) + (S q) * 5)%nat by lia.
           replace (S n + 4 - j)%nat with ((r - j) + (S q) * 5)%nat by lia.
           rewrite !Nat.div_add by lia. rewrite !Nat.div_small by lia. done.
        -- replace (n + 4 - j)%nat with ((r + 4 - j) + q * 5)%nat by lia.
           replace (S n + 4 - j)%nat with ((r + 5 - j) + q * 5)%nat by lia.
           rewrite !Nat.div_add by lia. rewrite !Nat.div_small by lia. done.
Qed.

(** *** merging *)
Lemma merge_entries (kxs : list (string * field)) : forall acc : gmap string field, NoDup kxs.*1 -> forall d,
  fold_left (fun (acc : gmap string field) (m : gmap string field) =>
    fold_left (fun (acc : gmap string field) (kx : string * field) => <[kx.1 := kx.2]> acc) (map_to_list m) acc)
    (map (fun kx : string * field => {[ kx.1 := kx.2 ]}) kxs) acc !! d =
  match (list_to_map kxs : gmap string field) !! d with Some x => Some x | None => acc !! d end.
Proof.
  induction kxs as [|[k x] kxs IH]; intros acc Hnd d; [done|]. cbn in Hnd. apply NoDup_cons in Hnd as [Hk Hnd].
  cbn [map fold_left fst snd]. rewrite IH by done. rewrite map_to_list_singleton. cbn.
  destruct (decide (d = k)) as [->|Hne].
  - rewrite (not_elem_of_list_to_map_1 kxs k) by done. by rewrite !lookup_insert.
  - rewrite !lookup_insert_ne by done. done.
Qed.

Section proofs.
  Variables (N : numops) (ncpu : nat) (v : view).
  Hypothesis Hcpu : (0 < ncpu)%nat.
  Hypothesis Hv : fields_pointwise v.

  Lemma v_fields_size ids f : (size (v_fields v ids f) <= length ids)%nat.
  Proof.
    rewrite <- size_dom. etransitivity; [|apply size_list_to_set_le].
    apply subseteq_size. intros d. rewrite elem_of_dom, elem_of_list_to_set. rewrite Hv.
    destruct (decide (d ∈ ids)); [done|]. by intros [? ?].
  Qed.

  Definition postings (f t : string) : nat := match v_docs v f t with Some s => size s | None => 0%nat end.
  Definition candidates (terms : list string) (f : string) : nat := sum_list (postings f <$> terms).
  Definition candidate (terms : list string) (f d : string) : Prop :=
    exists t s, t ∈ terms /\ v_docs v f t = Some s /\ is_Some (s !! d).

  Lemma term_out_length f t ms : term_out v f t ms -> length ms = postings f t.
  Proof.
    unfold term_out, postings. destruct (v_docs v f t) as [s|]; [|by intros ->].
    unfold range_order. intros ->. rewrite fmap_length. done.
  Qed.
  Lemma term_out_elem f t ms d : term_out v f t ms -> d ∈ ms <-> exists s, v_docs v f t = Some s /\ is_Some (s !! d).
  Proof.
    unfold term_out. destruct (v_docs v f t) as [s|].
    - unfold range_order. intros ->. rewrite elem_of_list_fmap. split.
      + intros ([k b] & -> & Hin). apply elem_of_map_to_list in Hin. exists s. by split; [|eexists].
      + intros (? & [= <-] & b & Hb). exists (d, b). split; [done|]. by apply elem_of_map_to_list.
    - intros ->. split; [by intros ?%elem_of_nil|by intros (? & ? & _)].
  Qed.
  Lemma term_out_exists f t : exists ms, term_out v f t ms.
  Proof. unfold term_out. destruct (v_docs v f t); eexists; [apply range_order_exists|done]. Qed.
  Lemma batch_out_exists f b : exists ms, batch_out v f b ms.
  Proof. eexists _, _. split; reflexivity. Qed.
  Lemma batch_out_length f b ms : batch_out v f b ms -> length ms = size (v_fields v b f).
  Proof. intros (kxs & Hp & ->). rewrite map_length, Hp. done. Qed.

  Lemma no_steps {P : Type} (p q : P) : rtc (fun _ _ : P => False) p q -> p = q.
  Proof. intros H. by destruct H. Qed.
  Lemma yields_nostep {P A} (out : P -> list A -> Prop) p ms : pyields (fun _ _ => False) out p ms -> out p ms.
  Proof.
    intros (q & Hq & Ho). by apply no_steps in Hq as ->.
  Qed.

  (** Phase 1 results. *)
  Lemma phase1_result terms f s : rtc (step1 ncpu v terms f) (fan_init false 0 terms) s -> fan_done s ->
    length (fn_got s) = candidates terms f /\ (forall d, d ∈ fn_got s <-> candidate terms f d) /\ fn_sem s = 0%nat.
  Proof.
    intros H Hd. destruct (fan_result _ _ _ _ _ _ _ H Hd) as ((outs & Ho & Hperm) & _ & _ & Hsem).
    assert (Forall2 (term_out v f) terms outs) as Ho'.
    { eapply Forall2_impl; [exact Ho|]. intros ? ? Hy. by apply yields_nostep in Hy. }
    clear Ho. split; [|split; [|done]].
    - rewrite Hperm. unfold candidates. clear -Ho'. induction Ho' as [|t ms ts os Ht Hr IH]; [done|].
      cbn. rewrite app_length, IH, (term_out_length _ _ _ Ht). done.
    - intros d. rewrite Hperm. unfold candidate. clear -Ho'. induction Ho' as [|t ms ts os Ht Hr IH].
      + cbn. split; [by intros ?%elem_of_nil|]. by intros (? & ? & ?%elem_of_nil & _).
      + cbn. rewrite elem_of_app, IH, (term_out_elem _ _ _ _ Ht). split.
        * intros [(s & Hs & Hd)|(t' & s & Ht' & Hs & Hd)]; [exists t, s|exists t', s]; (split; [|done]); [by left|by right].
        * intros (t' & s & Ht' & Hs & Hd). apply elem_of_cons in Ht' as [->|Ht']; [left; by exists s|right; by exists t', s].
  Qed.

  (** Phase 2 results. *)
  Lemma phase2_result terms f batches s :
    NoDup (concat batches) ->
    rtc (step2 ncpu v terms f) (fan_init false 0 batches) s -> fan_done s ->
    forall d, merge_fields (fn_got s) !! d = if decide (d ∈ concat batches) then v_fields v [d] f !! d else None.
  Proof.
    intros Hnd H Hd. destruct (fan_result _ _ _ _ _ _ _ H Hd) as ((outs & Ho & Hperm) & _ & _ & Hsem).
    assert (exists kxss : list (list (string * field)),
      Forall2 (fun b kxs => kxs ≡ₚ map_to_list (v_fields v b f)) batches kxss /\
      concat outs = map (fun kx : string * field => ({[ kx.1 := kx.2 ]} : gmap string field)) (concat kxss)) as (kxss & Hk & Heq).
    { clear -Ho. induction Ho as [|b ms bs os Hb Hr IH]; [by exists []|].
      destruct IH as (kxss & Hk & Heq). apply yields_nostep in Hb as (kxs & Hp & ->).
      exists (kxs :: kxss). split; [by constructor|]. cbn. rewrite map_app, Heq. done. }
    rewrite Heq in Hperm. apply Permutation_map_inv in Hperm as (l & -> & Hl).
    assert (forall d, d ∈ concat batches -> forall x, (d, x) ∈ concat kxss <-> v_fields v [d] f !! d = Some x) as H1.
    { clear -Hk Hv. intros d Hd x. induction Hk as [|b kxs bs kxss Hb Hr IH]; cbn in *; [by apply elem_of_nil in Hd|].
      rewrite elem_of_app in Hd. rewrite elem_of_app. rewrite Hb, elem_of_map_to_list, Hv.
      destruct (decide (d ∈ b)) as [Hdb|Hdb].
      - split; [|by left]. intros [?|Hx]; [done|]. destruct (decide (d ∈ concat bs)) as [Hdc|Hdc]; [by apply IH in Hx|].
        exfalso. apply Hdc. clear -Hr Hx Hv. induction Hr as [|b kxs bs kxss Hb Hr IH]; cbn in *; [by apply elem_of_nil in Hx|].
        rewrite elem_of_app in Hx. rewrite elem_of_app. rewrite Hb, elem_of_map_to_list, Hv in Hx.
        destruct (decide (d ∈ b)); [by left|]. destruct Hx as [?|?]; [done|right; by apply IH].
      - destruct Hd as [?|Hd]; [done|]. rewrite IH by done. split; [intros [?|?]; done|by right]. }
    assert (forall d x, (d, x) ∈ concat kxss -> d ∈ concat batches) as H2.
    { clear -Hk Hv. intros d x. induction Hk as [|b kxs bs kxss Hb Hr IH]; cbn; [by intros ?%elem_of_nil|].
      rewrite !elem_of_app. rewrite Hb, elem_of_map_to_list, Hv. destruct (decide (d ∈ b)); [by left|].
      intros [?|?]; [done|right; by apply IH]. }
    assert (NoDup (concat kxss).*1) as Hnd'.
    { clear -Hk Hv Hnd. induction Hk as [|b kxs bs kxss Hb Hr IH]; cbn in *; [constructor|].
      apply NoDup_app in Hnd as (Hb1 & Hb2 & Hb3). rewrite fmap_app. apply NoDup_app. split; [|split].
      - rewrite Hb. apply NoDup_fst_map_to_list.
      - intros d Hd Hd2. apply elem_of_list_fmap in Hd as ([? x] & -> & Hx). cbn in *.
        rewrite Hb, elem_of_map_to_list, Hv in Hx. destruct (decide (s ∈ b)) as [Hin|]; [|done].
        apply (Hb2 _ Hin). apply elem_of_list_fmap in Hd2 as ([? y] & Heq & Hy). cbn in Heq. subst s.
        clear -Hr Hy Hv. induction Hr as [|b kxs bs kxss Hb Hr IH]; cbn in *; [by apply elem_of_nil in Hy|].
        rewrite elem_of_app in Hy. rewrite elem_of_app. rewrite Hb, elem_of_map_to_list, Hv in Hy.
        destruct (decide (s0 ∈ b)); [by left|]. destruct Hy as [?|?]; [done|right; by apply IH].
      - by apply IH. }
    intros d. unfold merge_fields. rewrite merge_entries by (by rewrite <- Hl). rewrite lookup_empty.
    destruct ((list_to_map l : gmap string field) !! d) as [x|] eqn:E.
    - apply elem_of_list_to_map_2 in E. rewrite <- Hl in E. specialize (H2 _ _ E). rewrite decide_True by done.
      symmetry. by apply H1.
    - apply not_elem_of_list_to_map_2 in E. rewrite <- Hl in E. destruct (decide (d ∈ concat batches)) as [Hin|]; [|done].
      destruct (v_fields v [d] f !! d) as [x|] eqn:E2; [|done]. exfalso. apply E.
      apply elem_of_list_fmap. exists (d, x). split; [done|]. by apply H1.
  Qed.

  (** *** The whole search. *)
  Notation sstep := (search_step N ncpu v).
  Definition sinv (terms : list string) (f : string) (s : sstate N) : Prop :=
    ss_terms s = terms /\ ss_field s = f /\
    match ss_phase s with
    | Ph1 s1 => rtc (step1 ncpu v terms f) (fan_init false 0 terms) s1
    | Ph2 s2 => exists s1, rtc (step1 ncpu v terms f) (fan_init false 0 terms) s1 /\ fan_done s1 /\
        rtc (step2 ncpu v terms f) (fan_init false 0 (batches_of (fn_got s1))) s2
    | Ret r => exists s1 s2, rtc (step1 ncpu v terms f) (fan_init false 0 terms) s1 /\ fan_done s1 /\
        rtc (step2 ncpu v terms f) (fan_init false 0 (batches_of (fn_got s1))) s2 /\ fan_done s2 /\
        r = search_return N v terms f (fn_got s2)
    end.
  Lemma sinv_step terms f s s' : sinv terms f s -> sstep s s' -> sinv terms f s'.
  Proof.
    intros (H1 & H2 & H3) Hs. destruct Hs; cbn in *; subst.
    - split; [done|split; [done|]]. cbn. by eapply rtc_r.
    - split; [done|split; [done|]]. cbn. exists s. split; [done|]. split; [done|].
      destruct (phase1_result _ _ _ H3 H) as (_ & _ & ->). apply rtc_refl.
    - split; [done|split; [done|]]. cbn. destruct H3 as (s1 & Ha & Hb & Hc). exists s1. split; [done|split; [done|]]. by eapply rtc_r.
    - split; [done|split; [done|]]. cbn. destruct H3 as (s1 & Ha & Hb & Hc). exists s1, s. eauto.
  Qed.
  Lemma sinv_rtc terms f s0 s : rtc sstep s0 s -> sinv terms f s0 -> sinv terms f s.
  Proof. induction 1 as [|? ? ? Hs Hr IH]; [done|]. eauto using sinv_step. Qed.
  Lemma sinv_init terms f : sinv terms f (search_init terms f).
  Proof. split; [done|split; [done|]]. cbn. apply rtc_refl. Qed.
  Lemma sinv_reach terms f s : rtc sstep (search_init terms f) s -> sinv terms f s.
  Proof. intros H. eapply sinv_rtc; [exact H|apply sinv_init]. Qed.

  Lemma search_result_gen terms f s r : rtc sstep (search_init terms f) s -> search_returns s r ->
    (forall d x, sr_docs r !! d = Some x <-> candidate terms f d /\ v_fields v [d] f !! d = Some x) /\
    sr_nft r = v_nft v f terms /\ sr_total r = of_int N (v_size v f) /\
    sr_avg r = ndiv N (of_int N (v_length v f)) (of_int N (v_size v f)).
  Proof.
    intros H Hr. apply sinv_reach in H as (H1 & H2 & H3). unfold search_returns in Hr. rewrite Hr in H3.
    destruct H3 as (s1 & s2 & Ha & Hb & Hc & Hd & ->). split; [|done].
    intros d x. cbn. pose proof (collect_inv_fold (fn_got s1)) as [C1 C2 C3 C4 _ _].
    change ((fold_left collect_step (fn_got s1) (∅, [[]; []; []; []; []], 0%nat)).1.2) with (batches_of (fn_got s1)) in *.
    rewrite (phase2_result _ _ _ _ C2 Hc Hd). destruct (phase1_result _ _ _ Ha Hb) as (_ & He & _).
    specialize (C4 d). rewrite He in C4. destruct (decide (d ∈ concat (batches_of (fn_got s1)))) as [Hin|Hin].
    - split; [|by intros [_ ?]]. intros ?. split; [by apply C4|done].
    - split; [done|]. intros [Hca _]. by apply C4 in Hca.
  Qed.
  Lemma search_deterministic terms f s s' r r' :
    rtc sstep (search_init terms f) s -> search_returns s r ->
    rtc sstep (search_init terms f) s' -> search_returns s' r' -> r = r'.
  Proof.
    intros H Hr H' Hr'. destruct (search_result_gen _ _ _ _ H Hr) as (A1 & A2 & A3 & A4).
    destruct (search_result_gen _ _ _ _ H' Hr') as (B1 & B2 & B3 & B4).
    destruct r as [a1 a2 a3 a4], r' as [b1 b2 b3 b4]; cbn in *. subst. f_equal.
    apply map_eq. intros d. apply option_eq. intros x. by rewrite A1, B1.
  Qed.
  Lemma search_no_panic terms f s : rtc sstep (search_init terms f) s -> ~ search_panics s.
  Proof.
    intros H. apply sinv_reach in H as (H1 & H2 & H3). unfold search_panics. destruct (ss_phase s) as [s1|s2|r].
    - rewrite (fan_no_panic _ _ _ _ _ _ _ H3). done.
    - destruct H3 as (s1 & Ha & Hb & Hc). rewrite (fan_no_panic _ _ _ _ _ _ _ Hc). done.
    - intros [].
  Qed.
  Lemma search_progress terms f s : rtc sstep (search_init terms f) s ->
    (exists r, search_returns s r) \/ exists s', sstep s s'.
  Proof.
    intros H. apply sinv_reach in H as (H1 & H2 & H3). unfold search_returns. destruct s as [ts g [s1|s2|r]]; cbn in *; subst.
    - right. assert (fan_done s1 \/ ~ fan_done s1) as [Hd|Hd] by (unfold fan_done; destruct (fn_main s1); (by left) || (by right)).
      + eexists. by apply ss_batches.
      + edestruct (fan_progress (fun _ _ => False) (term_out v f) (length terms) (Some (ncpu * 2)%nat) false terms s1) as [s' Hs'];
          [lia| |exact H3|exact Hd|].
        * intros p0 p _ _. right. apply term_out_exists.
        * eexists. apply ss_phase1. exact Hs'.
    - right. destruct H3 as (s1 & Ha & Hb & Hc).
      assert (fan_done s2 \/ ~ fan_done s2) as [Hd|Hd] by (unfold fan_done; destruct (fn_main s2); (by left) || (by right)).
      + eexists. by apply ss_return.
      + edestruct (fan_progress (fun _ _ => False) (batch_out v f) (length terms) (Some (ncpu * 2)%nat) false (batches_of (fn_got s1)) s2) as [s' Hs'];
          [lia| |exact Hc|exact Hd|].
        * intros p0 p _ _. right. apply batch_out_exists.
        * eexists. apply ss_phase2. exact Hs'.
    - left. by eexists.
  Qed.

  Definition pm1 (f : string) (t : string) : nat := (2 * postings f t)%nat.
  Definition pm2 (f : string) (b : list string) : nat := (2 * size (v_fields v b f))%nat.
  Lemma dec1 terms f : tasks_decrease (fun _ _ => False) (term_out v f) (pm1 f) terms.
  Proof.
    intros p0 p _ _. split; [done|]. intros ms Hms. unfold pm1. by rewrite (term_out_length _ _ _ Hms).
  Qed.
  Lemma dec2 bs f : tasks_decrease (fun _ _ => False) (batch_out v f) (pm2 f) bs.
  Proof.
    intros p0 p _ _. split; [done|]. intros ms Hms. unfold pm2. by rewrite (batch_out_length _ _ _ Hms).
  Qed.
  Lemma batches_cost bs f : (tasks_cost (pm2 f) bs <= 2 * length (concat bs) + 5 * length bs)%nat.
  Proof.
    unfold tasks_cost, task_cost, pm2. induction bs as [|b bs IH]; [done|].
    rewrite fmap_cons. cbn [concat sum_list_with length]. rewrite app_length.
    unfold id at 1. pose proof (v_fields_size b f). lia.
  Qed.
  Lemma batches_bound ids f : (tasks_cost (pm2 f) (batches_of ids) <= 2 * length ids + 25)%nat.
  Proof.
    pose proof (collect_inv_fold ids) as [C1 C2 _ C4 _ _].
    change ((fold_left collect_step ids (∅, [[]; []; []; []; []], 0%nat)).1.2) with (batches_of ids) in *.
    pose proof (batches_cost (batches_of ids) f). rewrite C1 in H.
    assert (length (concat (batches_of ids)) <= length ids)%nat; [|lia].
    apply submseteq_length, NoDup_submseteq; [done|]. intros d. by rewrite C4.
  Qed.

  (** Remaining steps of a search. *)
  Definition search_measure (terms : list string) (f : string) (s : sstate N) : nat :=
    match ss_phase s with
    | Ph1 s1 => measure (pm1 f) s1 + (2 * candidates terms f + 32)
    | Ph2 s2 => measure (pm2 f) s2 + 1
    | Ret _ => 0
    end.
  Lemma search_measure_step terms f s s' : sinv terms f s -> sstep s s' ->
    (search_measure terms f s' < search_measure terms f s)%nat.
  Proof.
    intros (H1 & H2 & H3) Hs. unfold search_measure. destruct Hs as [? ? ? ? Hs|? ? ? Hd|? ? ? ? Hs|? ? ? Hd]; cbn [ss_phase ss_terms ss_field] in *; subst.
    - pose proof (measure_step _ _ _ _ _ (pm1 f) terms _ _ (dec1 terms f) (inv_reach _ _ _ _ _ _ _ H3) Hs). lia.
    - destruct (phase1_result _ _ _ H3 Hd) as (Hl & _ & ->).
      rewrite measure_init. pose proof (batches_bound (fn_got s) f). rewrite Hl in H. lia.
    - destruct H3 as (s1 & Ha & Hb & Hc).
      pose proof (measure_step _ _ _ _ _ (pm2 f) _ _ _ (dec2 _ f) (inv_reach _ _ _ _ _ _ _ Hc) Hs). lia.
    - lia.
  Qed.
  Lemma search_bound_gen terms f n : forall s s', sinv terms f s -> nsteps sstep n s s' -> (n <= search_measure terms f s)%nat.
  Proof.
    induction n as [|n IH]; intros s s' Hi H; [lia|]. inversion H as [|? ? s1 ? Hs Hr]; subst.
    pose proof (search_measure_step _ _ _ _ Hi Hs). specialize (IH s1 s' (sinv_step _ _ _ _ Hi Hs) Hr). lia.
  Qed.
  Lemma search_measure_init terms f :
    search_measure terms f (search_init terms f) = (4 * candidates terms f + 5 * length terms + 37)%nat.
  Proof.
    unfold search_measure, search_init. cbn [ss_phase]. rewrite measure_init.
    assert (tasks_cost (pm1 f) terms = 2 * candidates terms f + 5 * length terms)%nat as ->; [|lia].
    unfold tasks_cost, task_cost, candidates, pm1. induction terms as [|t ts IH]; [done|].
    rewrite !fmap_cons. cbn [sum_list_with length]. unfold id at 1. change (id (postings f t)) with (postings f t). lia.
  Qed.
  Lemma search_bound terms f n s : nsteps sstep n (search_init terms f) s ->
    (n <= 4 * candidates terms f + 5 * length terms + 37)%nat.
  Proof. intros H. rewrite <- search_measure_init. eapply search_bound_gen; [apply sinv_init|exact H]. Qed.
  Lemma search_completes terms f : exists s r, rtc sstep (search_init terms f) s /\ search_returns s r.
  Proof.
    destruct (bounded_reaches sstep (fun s => exists r, search_returns s r) (search_init terms f) (4 * candidates terms f + 5 * length terms + 37)) as (s & Hs & r & Hr).
    - intros n s' H. by apply (search_bound terms f n s').
    - intros s' H. by apply (search_progress terms f).
    - by exists s, r.
  Qed.
End proofs.
