(** Searches that run while other goroutines save (C61): the writers. *)
From Verif Require Import Base M_Field M_Memory M_Concurrent M_Num M_FanIn M_Search M_SearchConc S_Memory S_Concurrent P_Base P_Memory P_FanIn P_Search P_FanIn2 P_Concurrent P_Concurrent2 P_Concurrent5 P_DiskSearch P_SearchConc.
#[local] Open Scope nat_scope.

(** * Who owns which address *)
Record ghost := mkGh { gh_l : gmap nat string; gh_a : gmap nat (string * string); gh_d : gmap nat string }.
Definition gle (g g' : ghost) : Prop := gh_l g ⊆ gh_l g' /\ gh_a g ⊆ gh_a g' /\ gh_d g ⊆ gh_d g'.
Lemma gle_refl g : gle g g.
Proof. done. Qed.
Lemma gle_trans a b c : gle a b -> gle b c -> gle a c.
Proof. intros (H1 & H2 & H3) (K1 & K2 & K3). split; [by etransitivity|]. split; by etransitivity. Qed.
Definition src_docs (s : shared) (od : gmap nat string) (h : list call) : Prop :=
  forall l d f x, od !! l = Some d -> fields_at s l !! f = Some x -> f_name x = f /\ Save d x ∈ h.
Definition owned (g : ghost) (y : conc) : Prop :=
  own_sh (cs_sh y) (gh_l g) (gh_a g) /\ src_sh (cs_sh y) (gh_a g) (cs_log y) /\
  (forall th, th ∈ cs_threads y -> own_pc (gh_l g) (gh_a g) th.1 /\ src_pc (cs_log y) th.1) /\
  own_docs (cs_sh y) (gh_d g) /\ (forall th, th ∈ cs_threads y -> own_doc_pc (gh_d g) th.1) /\ src_docs (cs_sh y) (gh_d g) (cs_log y).
Lemma own_doc_pc_mono od od' pc : od ⊆ od' -> own_doc_pc od pc -> own_doc_pc od' pc.
Proof. intros H. destruct pc; try done. cbn. destruct o; [|done]. intros E. by eapply lookup_weaken. Qed.
Lemma src_docs_t s pc s' pc' od h : t_step (s, pc) (s', pc') -> own_docs s od -> own_doc_pc od pc -> (forall c, pc_call pc = Some c -> c ∈ h) -> src_docs s od h ->
  exists od', od ⊆ od' /\ own_docs s' od' /\ own_doc_pc od' pc' /\ src_docs s' od' h.
Proof.
  intros G W Op Sc Sd. destruct (docs_t s pc s' pc' od ""%string G W Op) as (od0 & L & W' & Op' & _).
  inversion G; subst; try (exists od; split; [done|]; split; [by destruct W|]; split; [done|]; exact Sd).
  - exists od. split; [done|]. split; [done|]. split; [|done]. cbn. destruct (k_fdoc s' !! d) eqn:E; [by apply (od_doc _ _ W)|done].
  - exists od. split; [done|]. split.
    { destruct W. constructor; cbn; [done|]. intros l'. destruct (decide (l = l')) as [->|Hn]; [cbn in Op; rewrite lookup_insert, Op; split; eauto|by rewrite lookup_insert_ne]. }
    split; [done|]. intros l' d' f y H1 H2. unfold fields_at in H2. cbn in H2. destruct (decide (l = l')) as [->|Hn]; [|rewrite lookup_insert_ne in H2 by done; by apply (Sd l' d' f y)].
    rewrite lookup_insert in H2. cbn in H2, Op. rewrite Op in H1. injection H1 as <-. destruct (decide (f_name x = f)) as [<-|Hf]; [rewrite lookup_insert in H2; injection H2 as <-; split; [done|]; by apply Sc|]. rewrite lookup_insert_ne in H2 by done. by apply (Sd l' d f y).
  - assert (od !! l = None) as Hl. { apply eq_None_not_Some. rewrite <- (od_dom _ _ W). by apply eq_None_not_Some. }
    exists (<[l := d]> od). split; [by apply insert_subseteq|]. split.
    { destruct W. constructor; cbn.
      - intros d' l' E. destruct (decide (d = d')) as [->|Hn]; [rewrite lookup_insert in E; injection E as <-; by rewrite lookup_insert|]. rewrite lookup_insert_ne in E by done. apply od_doc in E. rewrite lookup_insert_ne; [done|]. intros <-. congruence.
      - intros l'. destruct (decide (l = l')) as [->|Hn]; [rewrite !lookup_insert; split; eauto|by rewrite !lookup_insert_ne]. }
    split; [done|]. intros l' d' f y H1 H2. unfold fields_at in H2. cbn in H2. destruct (decide (l = l')) as [->|Hn]; [|rewrite lookup_insert_ne in H1 by done; rewrite lookup_insert_ne in H2 by done; by apply (Sd l' d' f y)].
    rewrite lookup_insert in H1. rewrite lookup_insert in H2. injection H1 as <-. cbn in H2. destruct (decide (f_name x = f)) as [<-|Hf]; [rewrite lookup_singleton in H2; injection H2 as <-; split; [done|]; by apply Sc|by rewrite lookup_singleton_ne in H2].
  - exists od. split; [done|]. split; [done|]. split; [by destruct full|done].
Qed.
Lemma owned_step g y y' : conc_step false y y' -> owned g y -> exists g', gle g g' /\ owned g' y'.
Proof.
  destruct g as [ol oa od]. intros H (W & Sr & Th & Wd & Td & Sd). inversion H as [s ths log i c cs Hi|s ths log i pc cs s' pc' Hi G]; subst; clear H; cbn [cs_sh cs_threads cs_log gh_l gh_a gh_d] in *.
  - exists (mkGh ol oa od). split; [done|]. unfold owned. cbn [cs_sh cs_threads cs_log gh_l gh_a gh_d]. split; [done|]. split.
    { intros a S f t d H1 H2 H3. destruct (Sr _ _ _ _ _ H1 H2 H3) as (c' & Hc & Hp). exists c'. split; [apply elem_of_app; by left|done]. }
    split; [|split; [done|split]].
    + intros th Hth. apply elem_of_insert in Hth as [->|Hth].
      * split; [by destruct c|]. split; [intros c'|intros c' t]; (destruct c; cbn; intros [= <-]; try (intros Hn; by apply elem_of_nil in Hn); apply elem_of_app; right; left).
      * destruct (Th th Hth) as [T1 T2]. split; [done|by apply src_pc_mono].
    + intros th Hth. apply elem_of_insert in Hth as [->|Hth]; [by destruct c|by apply Td].
    + intros l d f x H1 H2. destruct (Sd l d f x H1 H2) as [K1 K2]. split; [done|]. apply elem_of_app. by left.
  - pose proof (elem_of_list_lookup_2 _ _ _ Hi) as Hin. destruct (Th _ Hin) as [T1 T2]. destruct (own_t _ _ _ _ _ _ _ G W Sr T1 T2) as (ol' & oa' & L1 & L2 & W' & Sr' & O' & P').
    destruct (src_docs_t _ _ _ _ od log G Wd (Td _ Hin) (proj1 T2) Sd) as (od' & L3 & Wd' & Od' & Sd').
    exists (mkGh ol' oa' od'). split; [by split|]. unfold owned. cbn [cs_sh cs_threads cs_log gh_l gh_a gh_d]. split; [done|]. split; [done|]. split; [|split; [done|split; [|done]]].
    + intros th Hth. apply elem_of_insert in Hth as [->|Hth]; [done|]. destruct (Th th Hth) as [Q1 Q2]. split; [by eapply own_pc_mono|done].
    + intros th Hth. apply elem_of_insert in Hth as [->|Hth]; [done|]. eapply own_doc_pc_mono; [exact L3|by apply Td].
Qed.
Lemma owned_start progs : owned (mkGh ∅ ∅ ∅) (conc_start sh_new progs).
Proof.
  unfold owned. cbn [gh_l gh_a gh_d]. split; [|split; [|split; [|split; [|split]]]].
  - constructor; cbn; intros *; try by rewrite lookup_empty.
    all: rewrite !lookup_empty; split; by intros [? ?].
  - intros a S f t d Ha. by destruct (lookup_empty_Some (M := gmap nat) _ _ Ha).
  - cbn. intros th Hth. apply elem_of_list_fmap in Hth as (cs & -> & _). split; [done|]. split; [done|]. intros c t [=].
  - constructor; cbn; intros *; rewrite ?lookup_empty; [done|split; by intros [? ?]].
  - cbn. intros th Hth. by apply elem_of_list_fmap in Hth as (cs & -> & _).
  - intros l d f x Hl. by rewrite lookup_empty in Hl.
Qed.
Lemma owned_run y z g : rtc (conc_step false) y z -> owned g y -> exists g', gle g g' /\ owned g' z.
Proof.
  intros H. revert g. induction H as [y|a b c Hs _ IH]; intros g O; [by exists g|]. destruct (owned_step _ _ _ Hs O) as (g1 & L1 & O1). destruct (IH _ O1) as (g2 & L2 & O2). exists g2. split; [by eapply gle_trans|done].
Qed.
Lemma owned_own g y : owned g y -> own y.
Proof. intros (W & Sr & Th & _). by exists (gh_l g), (gh_a g). Qed.

(** * A stored field stays *)
Definition keep_pc (d : string) (l : nat) (h : list call) (pc : tpc) : Prop :=
  match pc with
  | TDoc d' x => d' = d -> Save d x ∈ h
  | TDocW d' x o => d' = d -> o = Some l /\ Save d x ∈ h
  | _ => True
  end.
Definition keep_inv (d f : string) (x0 : field) (l n : nat) (y : conc) : Prop :=
  n <= length (cs_log y) /\ k_fdoc (cs_sh y) !! d = Some l /\
  (exists x, fields_at (cs_sh y) l !! f = Some x /\ (x = x0 \/ (f_name x = f /\ Save d x ∈ drop n (cs_log y)))) /\
  forall th, th ∈ cs_threads y -> keep_pc d l (drop n (cs_log y)) th.1.
Lemma keep_step d f x0 l n g y y' : conc_step false y y' -> owned g y -> keep_inv d f x0 l n y -> keep_inv d f x0 l n y'.
Proof.
  intros H (_ & _ & _ & Wd & Td & _) (Hn & K1 & (x & K2 & K3) & K4). inversion H as [s ths log i c cs Hi|s ths log i pc cs s' pc' Hi G]; subst; clear H; unfold keep_inv; cbn [cs_sh cs_threads cs_log] in *.
  - rewrite drop_app_le by done. split; [rewrite app_length; lia|]. split; [done|]. split; [exists x; split; [done|]; destruct K3 as [?|[? ?]]; [by left|right; split; [done|]; apply elem_of_app; by left]|].
    intros th Hth. apply elem_of_insert in Hth as [->|Hth].
    + destruct c; cbn; [|done]. intros ->. apply elem_of_app. right. left.
    + specialize (K4 th Hth). destruct th as [[] ?]; try done; cbn in *.
      * intros E. apply elem_of_app. left. by apply K4.
      * intros E. destruct (K4 E). split; [done|]. apply elem_of_app. by left.
  - pose proof (elem_of_list_lookup_2 _ _ _ Hi) as Hin. specialize (Td _ Hin). pose proof (K4 _ Hin) as Kp. cbn in Td, Kp.
    assert (k_fdoc s' !! d = Some l /\ (exists x, fields_at s' l !! f = Some x /\ (x = x0 \/ (f_name x = f /\ Save d x ∈ drop n log))) /\ keep_pc d l (drop n log) pc') as (E1 & E2 & E3).
    { inversion G; subst; try (split; [done|]; split; [by exists x|]; done).
      - split; [done|]. split; [by exists x|]. cbn in *. intros ->. split; [done|]. by apply Kp.
      - split; [done|]. split; [|done]. cbn in Kp, Td. unfold fields_at. cbn. destruct (decide (l0 = l)) as [->|Hl]; [|rewrite lookup_insert_ne by done; by exists x].
        rewrite lookup_insert. cbn. destruct (decide (f_name x1 = f)) as [<-|Hf]; [|rewrite lookup_insert_ne by done; by exists x]. exists x1. rewrite lookup_insert. split; [done|]. right. split; [done|].
        apply (od_doc _ _ Wd) in K1. rewrite K1 in Td. injection Td as <-. by apply Kp.
      - cbn in Kp. destruct (decide (d0 = d)) as [->|Hd]; [by destruct (Kp eq_refl)|]. cbn [set_kfdoc k_fdoc k_fdocs]. rewrite lookup_insert_ne by done. split; [done|]. split; [|done]. unfold fields_at. cbn. rewrite lookup_insert_ne; [by exists x|].
        intros ->. unfold fields_at in K2. match goal with HN : k_fdocs s !! l = None |- _ => rewrite HN in K2 end. cbn in K2. by rewrite lookup_empty in K2.
      - split; [done|]. split; [by exists x|]. by destruct full. }
    split; [done|]. split; [done|]. split; [done|]. intros th Hth. apply elem_of_insert in Hth as [->|Hth]; [done|by apply K4].
Qed.

(** * Sets only grow *)
Lemma sets_grow s pc s' pc' a : t_step (s, pc) (s', pc') -> dom (set_at s a) ⊆ dom (set_at s' a).
Proof.
  intros G. unfold set_at. inversion G; subst; cbn [k_sets set_kindex set_ksize set_klength set_kfdoc set_knft]; try done.
  - destruct (decide (a0 = a)) as [->|Hn]; [|by rewrite lookup_insert_ne]. match goal with HN : k_sets s !! a = None |- _ => rewrite HN end. cbn. rewrite dom_empty_L. set_solver.
  - destruct (decide (a0 = a)) as [->|Hn]; [|by rewrite lookup_insert_ne]. rewrite lookup_insert. cbn. unfold set_step, set_new. change (default ∅ (k_sets s !! a)) with (default (∅ : set_data) (k_sets s !! a)). rewrite dom_insert_L. set_solver.
Qed.
Lemma sets_grow_conc y y' a : conc_step false y y' -> dom (set_at (cs_sh y) a) ⊆ dom (set_at (cs_sh y') a).
Proof. intros H. inversion H; subst; [done|]. cbn. by eapply sets_grow. Qed.
