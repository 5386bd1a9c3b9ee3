(** Searches that run while other goroutines save (C61): the search is affected by a
    writer only through a map that one of its goroutines is accessing. *)
From Verif Require Import Base M_Field M_Memory M_Concurrent M_Num M_FanIn M_Search M_SearchConc S_Concurrent S_SearchConc P_Base P_FanIn2 P_SearchConc P_SearchConc3.
#[local] Open Scope nat_scope.

(** Every address in the store, or held by a goroutine, is allocated. *)
Record alloc (s : shared) : Prop := {
  al_index : forall f l, k_index s !! f = Some l -> is_Some (k_maps s !! l);
  al_maps : forall l m t a, k_maps s !! l = Some m -> m !! t = Some a -> is_Some (k_sets s !! a);
  al_nft : forall f l, k_nft s !! f = Some l -> is_Some (k_nfts s !! l);
  al_fdoc : forall d l, k_fdoc s !! d = Some l -> is_Some (k_fdocs s !! l) }.
Definition pc_alloc (s : shared) (pc : tpc) : Prop :=
  match pc with
  | TDocW _ _ (Some l) => is_Some (k_fdocs s !! l)
  | TLoop _ _ _ l _ | TSet _ _ _ l _ _ None => is_Some (k_maps s !! l)
  | TSet _ _ _ l _ _ (Some a) => is_Some (k_maps s !! l) /\ is_Some (k_sets s !! a)
  | TNftLoop _ _ l _ | TNftW _ _ l _ _ _ => is_Some (k_nfts s !! l)
  | _ => True
  end.
Definition bigger (s s' : shared) : Prop :=
  (forall l, is_Some (k_maps s !! l) -> is_Some (k_maps s' !! l)) /\ (forall l, is_Some (k_sets s !! l) -> is_Some (k_sets s' !! l)) /\
  (forall l, is_Some (k_nfts s !! l) -> is_Some (k_nfts s' !! l)) /\ (forall l, is_Some (k_fdocs s !! l) -> is_Some (k_fdocs s' !! l)).
Lemma bigger_refl s : bigger s s.
Proof. done. Qed.
Lemma ins_some {A} (m : gmap nat A) l v k : is_Some (m !! k) -> is_Some (<[l := v]> m !! k).
Proof. intros H. apply lookup_insert_is_Some. destruct (decide (l = k)); auto. Qed.
Lemma ins_new {A} (m : gmap nat A) l v : is_Some (<[l := v]> m !! l).
Proof. rewrite lookup_insert. by eexists. Qed.
Lemma pc_alloc_mono s s' pc : bigger s s' -> pc_alloc s pc -> pc_alloc s' pc.
Proof. intros (B1 & B2 & B3 & B4). destruct pc; cbn; auto; destruct o; cbn; auto. intros []. auto. Qed.
Lemma t_bigger s pc s' pc' : t_step (s, pc) (s', pc') -> bigger s s'.
Proof. intros H. inversion H; subst; try apply bigger_refl; split_and!; cbn; try done; intros k; apply ins_some. Qed.
Lemma t_alloc s pc s' pc' : t_step (s, pc) (s', pc') -> alloc s -> pc_alloc s pc -> alloc s' /\ pc_alloc s' pc'.
Proof.
  intros H [A1 A2 A3 A4] P. inversion H; subst; cbn in P; try (split; [by constructor|cbn; try done; eauto; fail]).
  - split; [by constructor|]. cbn. match goal with |- context [k_fdoc ?z !! d] => destruct (k_fdoc z !! d) eqn:E end; [by eapply A4|done].
  - split; [|done]. constructor; cbn; try done. intros d0 l0 E. apply ins_some. eauto.
  - split; [|done]. constructor; cbn; try done. intros d0 l0 E. apply lookup_insert_Some in E as [[<- <-]|[_ E]]; [apply ins_new|apply ins_some; eauto].
  - split; [|apply ins_new]. constructor; cbn; try done.
    + intros f0 l0 E. apply lookup_insert_Some in E as [[<- <-]|[_ E]]; [apply ins_new|apply ins_some; eauto].
    + intros l0 m t a E. apply lookup_insert_Some in E as [[<- <-]|[_ E]]; [by rewrite lookup_empty|eauto].
  - split; [by constructor|]. cbn. destruct P as [m Em]. rewrite Em. cbn. destruct (m !! t) eqn:Et; [|by eexists]. split; [by eexists|by eapply A2].
  - split; [by constructor|]. by destruct full.
  - split; [|apply ins_new]. constructor; cbn; try done.
    + intros f0 l0 E. apply ins_some. eauto.
    + intros l0 m t0 a0 E E0. apply lookup_insert_Some in E as [[<- <-]|[_ E]].
      * apply lookup_insert_Some in E0 as [[<- <-]|[_ E0]]; [apply ins_new|]. apply ins_some. destruct P as [m Em]. rewrite Em in E0. cbn in E0. eauto.
      * apply ins_some. eauto.
  - split; [|apply P]. constructor; cbn; try done. intros l0 m t0 a0 E E0. apply ins_some. eauto.
  - split; [|apply ins_new]. constructor; cbn; try done. intros f0 l0 E. apply ins_some. eauto.
  - split; [|apply ins_new]. constructor; cbn; try done. intros f0 l0 E. apply ins_some. eauto.
  - split; [|done]. constructor; cbn; try done. intros f0 l0 E. apply lookup_insert_Some in E as [[<- <-]|[_ E]]; eauto.
Qed.
Definition alloc_in (y : conc) : Prop := alloc (cs_sh y) /\ forall th, th ∈ cs_threads y -> pc_alloc (cs_sh y) th.1.
Lemma conc_bigger b y y' : conc_step b y y' -> bigger (cs_sh y) (cs_sh y').
Proof. intros H. inversion H; subst; [apply bigger_refl|]. cbn. by eapply t_bigger. Qed.
Lemma alloc_step b y y' : conc_step b y y' -> alloc_in y -> alloc_in y'.
Proof.
  intros H [A P]. inversion H; subst; cbn in *.
  - split; [done|]. intros th Hth. cbn. apply elem_of_list_lookup in Hth as [j Hj]. apply list_lookup_insert_Some in Hj as [(_ & <- & _)|[_ Hj]]; [by destruct c, b|]. apply P. by eapply elem_of_list_lookup_2.
  - match goal with G : t_step _ _ |- _ => destruct (t_alloc _ _ _ _ G A (P (pc, cs) ltac:(by eapply elem_of_list_lookup_2))) as [A' P']; pose proof (t_bigger _ _ _ _ G) as B end. split; [done|].
    intros th Hth. cbn. apply elem_of_list_lookup in Hth as [j Hj]. apply list_lookup_insert_Some in Hj as [(_ & <- & _)|[_ Hj]]; [done|]. eapply pc_alloc_mono; [exact B|]. apply P. by eapply elem_of_list_lookup_2.
Qed.
Lemma alloc_start b progs y : rtc (conc_step b) (conc_start sh_new progs) y -> alloc_in y.
Proof.
  intros H. assert (alloc_in (conc_start sh_new progs)) as A.
  { split; [constructor; cbn; intros *; try (by rewrite lookup_empty)|]. intros th Hth. cbn in Hth. apply elem_of_list_fmap in Hth as (cs & -> & _). done. }
  revert A. induction H as [y|y y1 y2 Hs _ IH]; [done|]. intros A. apply IH. by eapply alloc_step.
Qed.

Section search.
  Variables (N : numops) (ncpu : nat) (terms : list string) (f : string).
  Notation sstep := (search2_step N ncpu terms f).
  Definition held1 (s : shared) (p : rd1) : Prop :=
    match p with RMap _ l => is_Some (k_maps s !! l) | RSet a | RRange a _ _ | RId a _ _ _ => is_Some (k_sets s !! a) | _ => True end.
  Definition held2 (s : shared) (p : rd2) : Prop := match p with RDoc _ l _ _ => is_Some (k_fdocs s !! l) | _ => True end.
  Definition qheld (s : shared) (q : search_pc N) : Prop :=
    match q with
    | QNftTerm _ _ _ (Some l) _ _ => is_Some (k_nfts s !! l)
    | QIds _ _ _ w => all_run (held1 s) w | QFields _ _ _ w => all_run (held2 s) w
    | _ => True
    end.
  Lemma qheld_mono s s' q : bigger s s' -> qheld s q -> qheld s' q.
  Proof.
    intros (B1 & B2 & B3 & B4). destruct q; cbn; auto; [destruct l; cbn; auto|..]; apply all_run_impl; intros []; cbn; auto.
  Qed.
  Lemma qheld_step s q q' : alloc s -> sstep s q q' -> qheld s q -> qheld s q'.
  Proof.
    intros [A1 A2 A3 A4] H Q. inversion H; subst; try done.
    - cbn. destruct (k_nft s !! f) eqn:E; [by eapply A3|done].
    - apply all_run_init. apply Forall_fmap, Forall_true. done.
    - cbn in Q |- *. eapply all_run_step; [| |eassumption|exact Q].
      + intros p p' Hp K. inversion Hp; subst; cbn in *; try done; [by eapply A1|]. destruct K as [m Em]. rewrite Em in *. cbn in *. eauto.
      + intros p x p' Hp K. inversion Hp; subst. done.
    - split; [constructor|]. cbn. apply Forall_fmap, Forall_true. done.
    - cbn in Q |- *. eapply all_run_step; [| |eassumption|exact Q].
      + intros p p' Hp K. inversion Hp; subst; cbn in *; try done. by eapply A4.
      + intros p x p' Hp K. inversion Hp; subst. done.
  Qed.
  Lemma qheld_run y q : forall z q', rtc (busy_step N ncpu terms f) (y, q) (z, q') -> alloc_in y -> qheld (cs_sh y) q -> alloc_in z /\ qheld (cs_sh z) q'.
  Proof.
    intros z q' H. remember (y, q) as a eqn:Ea. remember (z, q') as b eqn:Eb. revert y q Ea. induction H as [a|a [y1 q1] b Hs _ IH]; intros y q Ea A Q; [rewrite Ea in Eb; by injection Eb as -> ->|]. subst a.
    inversion Hs; subst; apply (IH eq_refl _ _ eq_refl).
    - by eapply alloc_step.
    - eapply qheld_mono; [by eapply conc_bigger|done].
    - done.
    - eapply qheld_step; [apply A|done|done].
  Qed.
  (** Two stores that hold the same in a map. *)
  Definition same_map (s s' : shared) (m : the_map) : Prop :=
    match m with
    | MFieldDocument => k_fdoc s' = k_fdoc s | MDoc l => k_fdocs s' !! l = k_fdocs s !! l
    | MFieldSize => k_size s' = k_size s | MFieldLength => k_length s' = k_length s
    | MIndex => k_index s' = k_index s | MIndexField l => k_maps s' !! l = k_maps s !! l | MSet a => k_sets s' !! a = k_sets s !! a
    | MNumberFieldTerm => k_nft s' = k_nft s | MFieldTerm l => k_nfts s' !! l = k_nfts s !! l
    end.
  Definition live_map (s : shared) (m : the_map) : Prop :=
    match m with
    | MDoc l => is_Some (k_fdocs s !! l) | MIndexField l => is_Some (k_maps s !! l) | MSet a => is_Some (k_sets s !! a) | MFieldTerm l => is_Some (k_nfts s !! l)
    | _ => True
    end.
  (** A writer changes no other map in use. *)
  Lemma t_same s pc s' pc' m : t_step (s, pc) (s', pc') -> live_map s m -> writes_to pc <> Some m -> same_map s s' m.
  Proof.
    intros H L W. inversion H; subst; destruct m; cbn in *; try done; rewrite lookup_insert_ne; try done; intros ->; try done; by (match goal with G : _ !! _ = None |- _ => rewrite G in L; destruct L end).
  Qed.
  Lemma reads_live s q m : qheld s q -> reads_map q m -> live_map s m.
  Proof.
    intros Q R. inversion R; subst; cbn in *; try done.
    - destruct Q as [Q _]. eapply Forall_forall in Q; [|eassumption]. cbn in Q. destruct p; cbn in *; (match goal with G : _ = Some _ |- _ => (discriminate G || injection G as <-) end); done.
    - destruct Q as [Q _]. eapply Forall_forall in Q; [|eassumption]. cbn in Q. destruct p as [[|]| |]; cbn in *; (match goal with G : _ = Some _ |- _ => (discriminate G || injection G as <-) end); done.
  Qed.
  (** The search depends on no other map. *)
  Lemma fan_same {P A} (ps ps' : P -> P -> Prop) (psend : P -> A -> P -> Prop) pstop cc sc w w' : (forall p p', VRun p ∈ f2_workers w -> ps p p' -> ps' p p') -> fan2_step ps psend pstop cc sc w w' -> fan2_step ps' psend pstop cc sc w w'.
  Proof. intros K H. inversion H; subst; try by constructor. - apply f2_inner. apply K; [|done]. cbn. apply elem_of_app. right. left. - by eapply f2_send_closed. Qed.
  Lemma step_same s s' q q' : sstep s q q' -> (forall m, reads_map q m -> same_map s s' m) -> sstep s' q q'.
  Proof.
    intros H K. inversion H; subst.
    - rewrite <- (K _ (rm_length N)). constructor.
    - rewrite <- (K _ (rm_size N len)). constructor.
    - rewrite <- (K _ (rm_nft N len size t ts acc)). constructor.
    - destruct l as [l|]; [|apply (q_nft_term N ncpu terms f s' len size t None)]. assert (counts_at s l = counts_at s' l) as ->. { unfold counts_at. pose proof (K _ (rm_nft_term N len size t l ts acc)) as E. cbn in E. by rewrite E. } apply (q_nft_term N ncpu terms f s' len size t (Some l)).
    - constructor.
    - apply q_ids. eapply fan_same; [|eassumption]. intros p p' Hp Hs. assert (forall m, rd1_reads p = Some m -> same_map s s' m) as K'. { intros m Hm. apply K. by apply rm_ids with p. }
      inversion Hs; subst; specialize (K' _ eq_refl); cbn in K'; try (constructor; try done; congruence).
      + assert (set_at s a = set_at s' a) as -> by (unfold set_at; by rewrite K'). constructor.
      + apply r1_next; [|done]. unfold set_at in *. by rewrite K'.
    - by constructor.
    - apply q_fields. eapply fan_same; [|eassumption]. intros p p' Hp Hs. assert (forall m, rd2_reads p = Some m -> same_map s s' m) as K'. { intros m Hm. apply K. by apply rm_fields with p. }
      inversion Hs; subst; try (by constructor); specialize (K' _ eq_refl); cbn in K'; constructor; try congruence; unfold fields_at in *; by rewrite K'.
    - by constructor.
  Qed.
End search.
