(** Searches that run on the disk storage while the client saves (C64): the fan-in. *)
From Verif Require Import Base M_Field M_LRU M_Memory M_Num M_FanIn M_Search M_SearchConc M_Disk M_DiskBusy P_FanIn P_Search P_FanIn2 P_SearchConc P_SearchConc3.
#[local] Open Scope nat_scope.

Section fan.
  Context {P A : Type}.
  Variables (psend : P -> A -> P -> Prop) (pstop : P -> Prop) (ccap scap : nat).
  Implicit Types (ps : P -> P -> Prop) (w : fan2 P A).
  (** Something holds of all computations and all messages. *)
  Definition fan_all (okp : P -> Prop) (okm : A -> Prop) w : Prop := all_run okp w /\ Forall okm (f2_chan w) /\ Forall okm (f2_got w).
  Lemma fan_all_step ps (okp : P -> Prop) (okm : A -> Prop) w w' : (forall p p', ps p p' -> okp p -> okp p') -> (forall p x p', psend p x p' -> okp p -> okm x /\ okp p') ->
    fan2_step ps psend pstop ccap scap w w' -> fan_all okp okm w -> fan_all okp okm w'.
  Proof.
    intros K1 K2 H (H1 & H2 & H3). split; [eapply all_run_step; [exact K1| |exact H|exact H1]; intros p x p' Hs Hp; by destruct (K2 _ _ _ Hs Hp)|].
    destruct H; cbn [f2_chan f2_got] in *; try done.
    - split; [|done]. apply Forall_app. split; [done|]. constructor; [|constructor]. destruct H1 as [H1 _]. cbn in H1. apply Forall_app in H1 as [_ H1]. inversion H1; subst. by destruct (K2 _ _ _ H ltac:(eassumption)).
    - split; [done|]. apply Forall_app. split; [done|]. constructor; [|constructor]. destruct H1 as [H1 _]. cbn in H1. apply Forall_app in H1 as [_ H1]. inversion H1; subst. by destruct (K2 _ _ _ H ltac:(eassumption)).
    - inversion H2; subst. split; [done|]. apply Forall_app. split; [done|]. by constructor.
  Qed.
  Lemma fan_all_inner (okp : P -> Prop) okm p p' w w' : fan2_inner p p' w w' -> (okp p -> okp p') -> fan_all okp okm w -> fan_all okp okm w'.
  Proof.
    intros H K [H1 H2]. inversion H; subst. split; [|done]. destruct H1 as [H1 H3]. cbn in *. split; [|done]. cbn. apply Forall_app in H1 as [Ha Hb]. inversion Hb; subst. apply Forall_app. split; [done|]. constructor; [by apply K|done].
  Qed.
  Lemma fan_inner_ok (okp : P -> Prop) okm p p' w w' : fan2_inner p p' w w' -> fan_all okp okm w -> okp p.
  Proof. intros H [[H1 _] _]. inversion H; subst. cbn in H1. apply Forall_app in H1 as [_ H1]. by inversion H1. Qed.
  Lemma fan_all_init (okp : P -> Prop) okm sem tasks : Forall okp tasks -> fan_all okp okm (fan2_init sem tasks).
  Proof. intros H. split; [split; [constructor|done]|]. split; constructor. Qed.
  Lemma fan_all_impl (okp okp' : P -> Prop) (okm okm' : A -> Prop) w : (forall p, okp p -> okp' p) -> (forall x, okm x -> okm' x) -> fan_all okp okm w -> fan_all okp' okm' w.
  Proof. intros K1 K2 (H1 & H2 & H3). split; [by eapply all_run_impl|]. split; by eapply Forall_impl. Qed.
  Lemma fan_all_and (okp okp' : P -> Prop) (okm okm' : A -> Prop) w : fan_all okp okm w -> fan_all okp' okm' w -> fan_all (fun p => okp p /\ okp' p) (fun x => okm x /\ okm' x) w.
  Proof.
    intros ([H1 H2] & H3 & H4) ([K1 K2] & K3 & K4). split; [|split; by apply Forall_and]. split; [|by apply Forall_and].
    rewrite Forall_forall in *. intros [] Hw; [split; [by apply (H1 _ Hw)|by apply (K1 _ Hw)]..|done].
  Qed.
  (** A message is still to come, or has arrived. *)
  Definition coming (pend : P -> Prop) (hit : A -> Prop) w : Prop :=
    Exists hit (f2_got w) \/ Exists hit (f2_chan w) \/ Exists (fun v => match v with VAcquire p | VRun p => pend p | VFinish => False end) (f2_workers w) \/ Exists pend (todo2 w).
  Lemma coming_step ps (pend : P -> Prop) (hit : A -> Prop) w w' : (forall p p', ps p p' -> pend p -> pend p') -> (forall p x p', psend p x p' -> pend p -> hit x \/ pend p') -> (forall p, pstop p -> ~ pend p) ->
    fan2_step ps psend pstop ccap scap w w' -> coming pend hit w -> coming pend hit w'.
  Proof.
    intros K1 K2 K3 H C. unfold coming, todo2 in *. destruct H; cbn [f2_got f2_chan f2_workers f2_main] in *;
      rewrite ?Exists_app, ?Exists_cons in *; try tauto.
    - destruct C as [C|[C|[[C|[C|C]]|C]]]; try tauto. specialize (K1 _ _ H C). tauto.
    - destruct C as [C|[C|[[C|[C|C]]|C]]]; try tauto. destruct (K2 _ _ _ H C); [|tauto]. tauto.
    - destruct C as [C|[C|[[C|[C|C]]|C]]]; try tauto. destruct (K2 _ _ _ H C); tauto.
    - destruct C as [C|[C|[[C|[C|C]]|C]]]; try tauto. exfalso. by apply (K3 p).
  Qed.
  Lemma coming_inner (pend : P -> Prop) hit p p' w w' : fan2_inner p p' w w' -> (pend p -> pend p') -> coming pend hit w -> coming pend hit w'.
  Proof.
    intros H K C. unfold coming, todo2 in *. inversion H; subst. cbn [f2_got f2_chan f2_workers f2_main] in *. rewrite ?Exists_app, ?Exists_cons in *. destruct C as [C|[C|[[C|[C|C]]|C]]]; tauto.
  Qed.
  Lemma coming_init (pend : P -> Prop) hit sem p tasks : p ∈ tasks -> pend p -> coming pend hit (fan2_init sem tasks).
  Proof. intros H1 H2. right. right. right. apply Exists_exists. by exists p. Qed.
  Lemma coming_done ps (pend : P -> Prop) hit tasks w : inv2 ps psend pstop tasks w -> fan2_done w -> coming pend hit w -> Exists hit (f2_got w).
  Proof.
    intros I Hd C. destruct I as [H1 H2 H3 H4 _ _]. unfold fan2_done in Hd. rewrite Hd in H3. destruct H3 as [Hc Hch]. specialize (H4 Hc). unfold coming, todo2 in C. rewrite Hch, H4, Hd in C. rewrite !Exists_nil in C. tauto.
  Qed.
  Lemma coming_impl (pend pend' : P -> Prop) hit w : (forall p, pend p -> pend' p) -> coming pend hit w -> coming pend' hit w.
  Proof.
    intros K [C|[C|[C|C]]]; [by left|by right; left|right; right; left|right; right; right].
    - eapply Exists_impl; [exact C|]. intros []; auto.
    - eapply Exists_impl; [exact C|done].
  Qed.
  (** The invariants of the fan-in itself do not depend on what a computation does. *)
  Notation anyp := (fun _ _ : P => True).
  Lemma inv2_any ps tasks w w' : fan2_step ps psend pstop ccap scap w w' -> inv2 anyp psend pstop tasks w -> inv2 anyp psend pstop tasks w'.
  Proof. intros H I. eapply inv2_step; [exact I|]. eapply fan2_step_mono; [| | |exact H]; done. Qed.
  Lemma inner_step p p' w w' : fan2_inner p p' w w' -> forall ps, ps p p' -> fan2_step ps psend pstop ccap scap w w'.
  Proof. intros H ps Hp. inversion H; subst. by constructor. Qed.
End fan.
Lemma fold_entries (m acc : gmap string field) : fold_left (fun (acc : gmap string field) (kx : string * field) => <[kx.1 := kx.2]> acc) (map_to_list m) acc = m ∪ acc.
Proof.
  assert (forall (l : list (string * field)) (acc : gmap string field), NoDup l.*1 -> fold_left (fun (acc : gmap string field) (kx : string * field) => <[kx.1 := kx.2]> acc) l acc = (list_to_map l : gmap string field) ∪ acc) as K.
  { clear. induction l as [|[k x] l IH]; intros acc Hn; [cbn; by rewrite (left_id_L ∅ (∪))|]. cbn in Hn |- *. apply NoDup_cons in Hn as [H1 H2]. rewrite IH by done. apply map_eq. intros d. rewrite !lookup_union.
    destruct (decide (k = d)) as [->|Hd]; [|by rewrite !lookup_insert_ne]. rewrite !lookup_insert. apply not_elem_of_list_to_map_1 in H1. rewrite H1. by destruct (acc !! d). }
  rewrite K by apply NoDup_fst_map_to_list. by rewrite list_to_map_to_list.
Qed.
Lemma merge_union got : merge_fields got = fold_left (fun (acc fields : gmap string field) => fields ∪ acc) got ∅.
Proof. unfold merge_fields. generalize (∅ : gmap string field). induction got as [|m got IH]; intros acc; [done|]. cbn. by rewrite fold_entries, IH. Qed.
(** A document of the result was in some message. *)
Lemma merge_in (got : list (gmap string field)) d x : merge_fields got !! d = Some x -> exists m, m ∈ got /\ m !! d = Some x.
Proof.
  rewrite merge_union. assert (forall acc : gmap string field, fold_left (fun (acc fields : gmap string field) => fields ∪ acc) got acc !! d = Some x -> acc !! d = Some x \/ exists m, m ∈ got /\ m !! d = Some x) as K.
  { induction got as [|m got IH]; intros acc H; [by left|]. cbn in H. destruct (IH _ H) as [E|(m' & H1 & H2)]; [|right; exists m'; split; [by right|done]].
    rewrite lookup_union in E. destruct (m !! d) as [y|] eqn:Em; [|left; destruct (acc !! d); done]. right. exists m. split; [left|]. rewrite Em. by destruct (acc !! d). }
  intros H. destruct (K ∅) as [E|?]; [exact H|by rewrite lookup_empty in E|done].
Qed.
Lemma merge_some (got : list (gmap string field)) d : Exists (fun m => is_Some (m !! d)) got -> is_Some (merge_fields got !! d).
Proof.
  rewrite merge_union. assert (forall acc : gmap string field, is_Some (acc !! d) \/ Exists (fun m => is_Some (m !! d)) got -> is_Some (fold_left (fun (acc fields : gmap string field) => fields ∪ acc) got acc !! d)) as K.
  { induction got as [|m got IH]; intros acc H; [destruct H as [H|H]; [done|by apply Exists_nil in H]|]. cbn. apply IH. rewrite Exists_cons in H. rewrite lookup_union_is_Some. tauto. }
  intros H. apply K. by right.
Qed.
