(** Searches that run while other goroutines save (C61): progress; counters. *)
From Verif Require Import Base M_Field M_Memory M_Concurrent M_Num M_FanIn M_Search M_SearchConc S_Memory S_Concurrent S_SearchConc P_Base P_Memory P_FanIn P_Search P_FanIn2 P_Concurrent P_Concurrent2 P_Concurrent5 P_DiskSearch P_SearchConc P_SearchConc2.
#[local] Open Scope nat_scope.

Lemma wf_reaches {S} (R : S -> S -> Prop) (inv fin : S -> Prop) (mu : S -> nat) :
  (forall s, inv s -> fin s \/ exists s', R s s' /\ inv s' /\ mu s' < mu s) -> forall s, inv s -> exists s', rtc R s s' /\ inv s' /\ fin s'.
Proof.
  intros H s. remember (mu s) as n eqn:E. revert s E. induction (lt_wf n) as [n _ IH]. intros s -> Hi. destruct (H s Hi) as [Hf|(s1 & H1 & H2 & H3)]; [exists s; split; [apply rtc_refl|done]|].
  destruct (IH _ H3 s1 eq_refl H2) as (s2 & R2 & I2). exists s2. split; [by eapply rtc_l|done].
Qed.

Section progress.
  Variables (N : numops) (ncpu : nat) (terms : list string) (f : string).
  Hypothesis Hcpu : 0 < ncpu.
  Notation sstep := (search2_step N ncpu terms f).
  Notation T := (fun _ : shared => True).
  Definition okp (s : shared) (p : rd1) : Prop := match p with RRange a must _ | RId a must _ _ => must ⊆ dom (set_at s a) | _ => True end.
  Definition binv (y : conc) (q : search_pc N) : Prop :=
    qinv N terms f T q /\ match q with QIds _ _ _ w => all_run (okp (cs_sh y)) w | _ => True end.
  Lemma okp_step s p p' : rd1_step f s p p' -> okp s p -> okp s p'.
  Proof. intros H. inversion H; subst; cbn; try done; set_solver. Qed.
  Lemma okp_send s p x p' : rd1_send p x p' -> okp s p -> okp s p'.
  Proof. intros H. inversion H; subst; cbn; try done; set_solver. Qed.
  Lemma all_run_impl {P A} (ok ok' : P -> Prop) (w : fan2 P A) : (forall p, ok p -> ok' p) -> all_run ok w -> all_run ok' w.
  Proof. intros K [H1 H2]. split; [|by eapply Forall_impl]. eapply Forall_impl; [exact H1|]. intros []; auto. Qed.
  Lemma binv_search y q q' : sstep (cs_sh y) q q' -> binv y q -> binv y q'.
  Proof.
    intros H [I1 I2]. split; [eapply qinv_step; [|exact I1]; by exists (cs_sh y)|]. inversion H; subst; try done.
    - apply all_run_init. apply Forall_fmap, Forall_true. done.
    - eapply all_run_step; [| |eassumption|exact I2]; [apply okp_step|apply okp_send].
  Qed.
  Lemma binv_step y q y' q' : busy_step N ncpu terms f (y, q) (y', q') -> binv y q -> binv y' q'.
  Proof.
    intros H I. inversion H; subst; [|by eapply binv_search]. destruct I as [I1 I2]. split; [done|]. destruct q'; try done. eapply all_run_impl; [|exact I2]. intros []; try done; cbn; intros K a' Ha'; (eapply sets_grow_conc; [eassumption|by apply K]).
  Qed.
  Lemma binv_run y q : forall z q', rtc (busy_step N ncpu terms f) (y, q) (z, q') -> binv y q -> binv z q'.
  Proof.
    intros z q' H. remember (y, q) as a eqn:Ea. remember (z, q') as b eqn:Eb. revert y q Ea. induction H as [a|a [y1 q1] b Hs _ IH]; intros y q Ea I; [rewrite Ea in Eb; by injection Eb as -> ->|]. subst a. apply (IH Eb y1 q1 eq_refl). by eapply binv_step.
  Qed.
  (** Nothing left to do before a worker's end, the storage being [s]. *)
  Definition pm1 (s : shared) (p : rd1) : nat :=
    match p with
    | RTerm t => match k_index s !! f with Some l => match default (∅ : gmap string nat) (k_maps s !! l) !! t with Some a => 3 * size (dom (set_at s a)) + 4 | None => 3 end | None => 3 end
    | RMap t l => match default (∅ : gmap string nat) (k_maps s !! l) !! t with Some a => 3 * size (dom (set_at s a)) + 3 | None => 2 end
    | RSet a => 3 * size (dom (set_at s a)) + 2
    | RRange a _ sent => 3 * size (dom (set_at s a) ∖ list_to_set sent) + 1
    | RId a _ sent id => 3 * size (dom (set_at s a) ∖ list_to_set (sent ++ [id])) + 3
    | REnd => 0
    end.
  Lemma pm1_dec s : decreases (rd1_step f s) rd1_send (pm1 s).
  Proof.
    split.
    - intros p p' H. inversion H; subst; cbn [pm1].
      + rewrite H0. lia.
      + rewrite H0. destruct (_ !! t); lia.
      + rewrite H0. lia.
      + rewrite H0. lia.
      + rewrite list_to_set_nil, difference_empty_L. lia.
      + assert (size (dom (set_at s a) ∖ list_to_set (sent ++ [id])) < size (dom (set_at s a) ∖ (list_to_set sent : gset string))); [|lia]. apply subset_size. rewrite list_to_set_app_L. cbn.
        assert (id ∈ dom (set_at s a)) by (by apply elem_of_dom). assert (id ∉ (list_to_set sent : gset string)) by (by rewrite elem_of_list_to_set). set_solver.
      + lia.
    - intros p x p' H. inversion H; subst; cbn [pm1]. lia.
  Qed.
  Definition pm2 (p : rd2) : nat := match p with RDocs ids acc => 4 * length ids + 2 * size acc + 2 | RDoc _ _ ids acc => 4 * length ids + 2 * size acc + 5 | ROut kxs => 2 * length kxs end.
  Lemma pm2_dec s : decreases (rd2_step f s) rd2_send pm2.
  Proof.
    split.
    - intros p p' H. inversion H; subst; cbn [pm2 length]; try lia.
      + assert (size (<[id := x]> acc) <= S (size acc)); [|lia]. destruct (acc !! id) eqn:E; [rewrite map_size_insert_Some by (by eexists); lia|rewrite map_size_insert_None by done; lia].
      + change (size acc) with (length (map_to_list acc)). rewrite H0. lia.
    - intros p x p' H. inversion H; subst; cbn. lia.
  Qed.
  Lemma can1 s p : okp s p -> (exists p', rd1_step f s p p') \/ (exists x p', rd1_send p x p') \/ rd1_stop p.
  Proof.
    intros O. destruct p as [t|t l|a|a must sent|a must sent id|]; cbn in O.
    - left. destruct (k_index s !! f) eqn:E; eexists; by constructor.
    - left. destruct (default (∅ : gmap string nat) (k_maps s !! l) !! t) eqn:E; eexists; by constructor.
    - left. eexists. constructor.
    - left. destruct (decide (must ⊆ list_to_set sent)) as [H|H]; [eexists; by apply r1_last|].
      assert (exists id, id ∈ must ∖ list_to_set sent) as (id & Hid). { apply set_choose_L. intros E. apply H. set_solver. }
      apply elem_of_difference in Hid as [H1 H2]. exists (RId a must sent id). constructor; [apply elem_of_dom; by apply O|]. by rewrite elem_of_list_to_set in H2.
    - right. left. do 2 eexists. constructor.
    - by do 2 right.
  Qed.
  Lemma can2 s p : (exists p', rd2_step f s p p') \/ (exists x p', rd2_send p x p') \/ rd2_stop p.
  Proof.
    destruct p as [[|id ids] acc|id l ids acc|[|kx kxs]].
    - left. eexists. by apply r2_range.
    - left. destruct (k_fdoc s !! id) eqn:E; eexists; by constructor.
    - left. destruct (fields_at s l !! f) eqn:E; eexists; by constructor.
    - by do 2 right.
    - right. left. do 2 eexists. constructor.
  Qed.
  Lemma done_dec {P A} (w : fan2 P A) : fan2_done w \/ ~ fan2_done w.
  Proof. unfold fan2_done. destruct (f2_main w); (by left) || (by right). Qed.
  Lemma finish1 y len n acc w : binv y (QIds len n acc w) -> exists w', rtc (sstep (cs_sh y)) (QIds len n acc w) (QIds len n acc w') /\ binv y (QIds len n acc w') /\ fan2_done w'.
  Proof.
    intros I. set (s := cs_sh y). destruct (wf_reaches (fan2_step (rd1_step f s) rd1_send rd1_stop (length terms) (ncpu * 2)) (fun w => binv y (QIds len n acc w)) fan2_done (measure2 (pm1 s))) with (s := w) as (w' & R & I' & D); [|done|].
    - intros w0 I0. destruct (done_dec w0) as [?|Hd]; [by left|]. right. pose proof I0 as [I1 I2]. pose proof (inv2_base _ _ _ _ _ (proj2 I1)) as B. destruct (fan2_progress (rd1_step f s) rd1_send rd1_stop (length terms) (ncpu * 2) w0) as (w1 & Hw); [lia| |done|done|].
      { eapply all_run_impl; [|exact I2]. apply can1. }
      exists w1. split; [done|]. split; [eapply binv_search; [|exact I0]; by constructor|]. eapply measure2_step; [apply pm1_dec|done|exact Hw].
    - exists w'. split; [|done]. clear -R. induction R as [|a b c Hs _ IH]; [apply rtc_refl|]. eapply rtc_l; [|exact IH]. by constructor.
  Qed.
  Lemma finish2 y len n acc w : binv y (QFields len n acc w) -> exists w', rtc (sstep (cs_sh y)) (QFields len n acc w) (QFields len n acc w') /\ fan2_done w'.
  Proof.
    intros I. set (s := cs_sh y). destruct (wf_reaches (fan2_step (rd2_step f s) rd2_send rd2_stop (length terms) (ncpu * 2)) (fun w => binv y (QFields len n acc w)) fan2_done (measure2 pm2)) with (s := w) as (w' & R & I' & D); [|done|].
    - intros w0 I0. destruct (done_dec w0) as [?|Hd]; [by left|]. right. pose proof I0 as [(_ & ids & _ & I1) _]. pose proof (inv2_base _ _ _ _ _ I1) as B. destruct (fan2_progress (rd2_step f s) rd2_send rd2_stop (length terms) (ncpu * 2) w0) as (w1 & Hw); [lia| |done|done|].
      { split; apply Forall_true; [intros []|]; intros; try done; apply can2. }
      exists w1. split; [done|]. split; [eapply binv_search; [|exact I0]; by constructor|]. eapply measure2_step; [apply (pm2_dec s)|done|exact Hw].
    - exists w'. split; [|done]. clear -R. induction R as [|a b c Hs _ IH]; [apply rtc_refl|]. eapply rtc_l; [|exact IH]. by constructor.
  Qed.
  Lemma finish2_ret y len n acc w : binv y (QFields len n acc w) -> exists r, rtc (sstep (cs_sh y)) (QFields len n acc w) (QRet r).
  Proof. intros I. destruct (finish2 _ _ _ _ _ I) as (w' & R & D). eexists. eapply rtc_r; [exact R|]. by constructor. Qed.
  Lemma finish1_ret y len n acc w : binv y (QIds len n acc w) -> exists r, rtc (sstep (cs_sh y)) (QIds len n acc w) (QRet r).
  Proof.
    intros I. destruct (finish1 _ _ _ _ _ I) as (w' & R & I' & D). pose proof (q_batches N ncpu terms f (cs_sh y) len n acc w' D) as Hs. pose proof (binv_search _ _ _ Hs I') as I2. destruct (finish2_ret _ _ _ _ _ I2) as (r & R2). exists r. etransitivity; [exact R|]. by eapply rtc_l.
  Qed.
  Lemma finish_nft y ts : forall len n acc, binv y (QNft len n ts acc) -> exists r, rtc (sstep (cs_sh y)) (QNft len n ts acc) (QRet r).
  Proof.
    induction ts as [|t ts IH]; intros len n acc I.
    - pose proof (q_start N ncpu terms f (cs_sh y) len n acc) as Hs. destruct (finish1_ret _ _ _ _ _ (binv_search _ _ _ Hs I)) as (r & R). exists r. by eapply rtc_l.
    - pose proof (q_nft N ncpu terms f (cs_sh y) len n t ts acc) as H1. pose proof (binv_search _ _ _ H1 I) as I1. pose proof (q_nft_term N ncpu terms f (cs_sh y) len n t (k_nft (cs_sh y) !! f) ts acc) as H2. pose proof (binv_search _ _ _ H2 I1) as I2. destruct (IH _ _ _ I2) as (r & R). exists r. eapply rtc_l; [exact H1|]. by eapply rtc_l.
  Qed.
  Lemma finish_search y q : binv y q -> exists r, rtc (sstep (cs_sh y)) q (QRet r).
  Proof.
    intros I. destruct q as [|len|len n ts acc|len n t l ts acc|len n acc w|len n acc w|r].
    - pose proof (q_length N ncpu terms f (cs_sh y)) as H1. pose proof (binv_search _ _ _ H1 I) as I1. pose proof (q_size N ncpu terms f (cs_sh y) (geti (k_length (cs_sh y)) f)) as H2. pose proof (binv_search _ _ _ H2 I1) as I2. destruct (finish_nft _ _ _ _ _ I2) as (r & R). exists r. eapply rtc_l; [exact H1|]. by eapply rtc_l.
    - pose proof (q_size N ncpu terms f (cs_sh y) len) as H2. pose proof (binv_search _ _ _ H2 I) as I2. destruct (finish_nft _ _ _ _ _ I2) as (r & R). exists r. by eapply rtc_l.
    - by apply finish_nft.
    - pose proof (q_nft_term N ncpu terms f (cs_sh y) len n t l ts acc) as H2. pose proof (binv_search _ _ _ H2 I) as I2. destruct (finish_nft _ _ _ _ _ I2) as (r & R). exists r. by eapply rtc_l.
    - by apply finish1_ret.
    - by apply finish2_ret.
    - exists r. apply rtc_refl.
  Qed.
  Lemma binv_start y : binv y QLength.
  Proof. done. Qed.
End progress.
