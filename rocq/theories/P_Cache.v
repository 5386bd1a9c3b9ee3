From Verif Require Import Base M_Cache S_Cache P_Base.
#[local] Open Scope Z_scope.

(** ** copying maps *)
Lemma copy_into_lookup {T} (m : gmap string T) ks dst k :
  copy_into m ks dst !! k = if decide (k ∈ ks) then
      match m !! k with Some v => Some v | None => dst !! k end else dst !! k.
Proof.
  unfold copy_into. revert dst. induction ks as [|x ks IH]; intros dst; [done|].
  cbn [fold_left]. rewrite IH. clear IH.
  assert ((match m !! x with Some v => <[x := v]> dst | None => dst end) !! k
          = if decide (k = x) then match m !! k with Some v => Some v | None => dst !! k end else dst !! k) as E.
  { destruct (decide (k = x)) as [->|Hne].
    - destruct (m !! x); [by rewrite lookup_insert|done].
    - destruct (m !! x); [by rewrite lookup_insert_ne|done]. }
  rewrite E. clear E.
  destruct (decide (k ∈ ks)) as [H1|H1], (decide (k ∈ x :: ks)) as [H2|H2], (decide (k = x)) as [H3|H3];
    try set_solver; destruct (m !! k); done.
Qed.
Lemma copy_into_union {T} (m : gmap string T) ks dst : range_order m ks -> copy_into m ks dst = m ∪ dst.
Proof.
  intros H. apply map_eq. intros k. rewrite copy_into_lookup, lookup_union.
  pose proof (range_order_elem m ks k H) as Hk.
  destruct (decide (k ∈ ks)) as [Hin|Hn].
  - apply Hk in Hin as [v ->]. by destruct (dst !! k).
  - destruct (m !! k) as [v|] eqn:E; [exfalso; apply Hn, Hk; eauto|]. by rewrite (left_id None _).
Qed.

Lemma last_values_snoc {T} (l : list (string * T)) k v : last_values (l ++ [(k, v)]) = <[k := v]> (last_values l).
Proof. unfold last_values. by rewrite fold_left_app. Qed.
Lemma last_values_app {T} (l1 l2 : list (string * T)) :
  last_values (l1 ++ l2) = last_values l2 ∪ last_values l1.
Proof.
  induction l2 as [|[k v] l2 IH] using rev_ind.
  - rewrite app_nil_r. change (last_values ([] : list (string * T))) with (∅ : gmap string T).
    by rewrite (left_id_L ∅ (∪)).
  - rewrite app_assoc, !last_values_snoc, IH. apply insert_union_l.
Qed.
Lemma last_values_elem {T} (l : list (string * T)) k v : last_values l !! k = Some v -> (k, v) ∈ l.
Proof.
  induction l as [|[k' v'] l IH] using rev_ind; [unfold last_values; cbn [fold_left]; by rewrite lookup_empty|].
  rewrite last_values_snoc. destruct (decide (k' = k)) as [->|Hne].
  - rewrite lookup_insert. intros [= ->]. apply elem_of_app. right. left.
  - rewrite lookup_insert_ne by done. intros H. apply elem_of_app. left. auto.
Qed.
Lemma last_values_is_Some {T} (l : list (string * T)) k v : (k, v) ∈ l -> is_Some (last_values l !! k).
Proof.
  induction l as [|[k' v'] l IH] using rev_ind; [intros H; inversion H|].
  rewrite last_values_snoc, lookup_insert_is_Some'. intros H.
  apply elem_of_app in H as [H|H]; [auto|]. apply elem_of_list_singleton in H as [= -> ->]. by left.
Qed.

Lemma puts_of_snoc {T} (tr : list (rcu_label T)) l :
  puts_of (tr ++ [l]) = puts_of tr ++ match l with RPut k v => [(k, v)] | _ => [] end.
Proof. unfold puts_of. rewrite omap_app. by destruct l. Qed.

(** ** RCU *)
Section rcu.
  Context {T : Type}.
  Implicit Types s : rcu T.

  (** [p]: puts already published; [q]: puts in the buffer (or being flushed). *)
  Definition rcu_inv (tr : list (rcu_label T)) s (p : nat) : Prop :=
    exists q, puts_of tr = take p (puts_of tr) ++ q ++ rc_ch s /\
    rc_data s = last_values (take p (puts_of tr)) /\
    match rc_pc s with
    | RIdle => rc_buffer s = last_values q
    | RStore copy => rc_buffer s = last_values q /\ copy = last_values (take p (puts_of tr) ++ q)
    | RReset => q = []
    end.

  Lemma take_prefix_app {A} (l k : list A) p : (p <= length l)%nat -> take p (l ++ k) = take p l.
  Proof. intros. by rewrite take_app_le. Qed.

  Lemma rcu_inv_len tr s p : rcu_inv tr s p -> take p (puts_of tr) = puts_of tr \/ (p <= length (puts_of tr))%nat.
  Proof. intros _. destruct (decide (p <= length (puts_of tr))%nat); [by right|left]. apply take_ge. lia. Qed.

  Definition rcu_inv' tr s p := rcu_inv tr s p /\ (p <= length (puts_of tr))%nat.

  Lemma rcu_inv_step tr s p l s' : rcu_inv' tr s p -> rcu_step s l s' ->
    exists p', (p <= p')%nat /\ rcu_inv' (tr ++ [l]) s' p'.
  Proof.
    intros [(q & Hp & Hd & Hpc) Hle] Hstep. unfold rcu_inv', rcu_inv. rewrite !puts_of_snoc.
    destruct Hstep as [d ch b pc k v Hlen|d ch b pc k|d k v ch b|d ch b ks1 ks2 H1 H2|d ch b copy|d ch b];
      cbn [rc_data rc_ch rc_buffer rc_pc] in *.
    - exists p. split; [done|]. rewrite take_prefix_app by done. split.
      + exists q. split; [rewrite Hp at 1; by rewrite <- !app_assoc|]. done.
      + rewrite app_length. lia.
    - exists p. split; [done|]. rewrite app_nil_r. split; [|done]. by exists q.
    - exists p. split; [done|]. rewrite app_nil_r. split; [|done]. exists (q ++ [(k, v)]).
      split; [rewrite Hp at 1; by rewrite <- !app_assoc|]. split; [done|]. by rewrite last_values_snoc, Hpc.
    - exists p. split; [done|]. rewrite app_nil_r. split; [|done]. exists q. split; [done|]. split; [done|].
      split; [done|]. rewrite !copy_into_union by done. rewrite (right_id_L ∅ (∪)), Hd, Hpc.
      by rewrite last_values_app.
    - destruct Hpc as [Hb ->]. exists (p + length q)%nat. split; [lia|]. rewrite app_nil_r.
      assert (take (p + length q) (puts_of tr) = take p (puts_of tr) ++ q) as E.
      { rewrite Hp at 1. rewrite take_app_ge by (rewrite take_length; lia).
        rewrite take_length. replace (p + length q - p `min` length (puts_of tr))%nat with (length q) by lia.
        by rewrite take_app. }
      assert (p + length q <= length (puts_of tr))%nat.
      { rewrite Hp at 1. rewrite !app_length, take_length. lia. }
      split; [|done]. exists []. rewrite E. split; [by rewrite <- app_assoc|]. done.
    - subst q. exists p. split; [done|]. rewrite app_nil_r. split; [|done]. exists []. done.
  Qed.

  Lemma rcu_exec_inv tr s : rcu_exec rcu_new tr s -> exists p, rcu_inv' tr s p.
  Proof.
    intros H. remember rcu_new as s0 eqn:E. induction H as [s|s tr s1 l s2 He IH Hs]; subst.
    - exists 0%nat. split; [|cbn; lia]. exists []. done.
    - destruct (IH eq_refl) as [p Hp]. destruct (rcu_inv_step _ _ _ _ _ Hp Hs) as (p' & _ & H'). eauto.
  Qed.
  Lemma rcu_exec_app s0 tr1 s1 tr2 s2 : rcu_exec s0 tr1 s1 -> rcu_exec s1 tr2 s2 -> rcu_exec s0 (tr1 ++ tr2) s2.
  Proof.
    intros H1 H2. induction H2 as [s|s tr s3 l s4 He IH Hs]; [by rewrite app_nil_r|].
    rewrite app_assoc. econstructor; [by apply IH|done].
  Qed.
  Lemma rcu_exec_mono tr1 s1 p tr2 s2 : rcu_inv' tr1 s1 p -> rcu_exec s1 tr2 s2 ->
    exists p', (p <= p')%nat /\ rcu_inv' (tr1 ++ tr2) s2 p'.
  Proof.
    intros Hi H. induction H as [s|s tr s3 l s4 He IH Hs].
    - exists p. by rewrite app_nil_r.
    - destruct (IH Hi) as (p1 & Hp1 & H1). destruct (rcu_inv_step _ _ _ _ _ H1 Hs) as (p2 & Hp2 & H2).
      exists p2. rewrite app_assoc. split; [lia|done].
  Qed.

  Lemma rcu_snapshots tr1 s1 tr2 s2 : rcu_exec rcu_new tr1 s1 -> rcu_exec s1 tr2 s2 ->
    exists n m, (n <= m <= length (puts_of (tr1 ++ tr2)))%nat /\ (n <= length (puts_of tr1))%nat /\
      (forall k, rc_data s1 !! k = last_values (take n (puts_of (tr1 ++ tr2))) !! k) /\
      (forall k, rc_data s2 !! k = last_values (take m (puts_of (tr1 ++ tr2))) !! k).
  Proof.
    intros H1 H2. destruct (rcu_exec_inv _ _ H1) as [p Hp].
    destruct (rcu_exec_mono _ _ _ _ _ Hp H2) as (p' & Hle & Hp').
    exists p, p'. destruct Hp as [(q & E1 & E2 & _) L1], Hp' as [(q' & E1' & E2' & _) L2].
    split; [done|]. split; [done|].
    assert (take p (puts_of (tr1 ++ tr2)) = take p (puts_of tr1)) as E.
    { unfold puts_of in *. rewrite omap_app. by rewrite take_app_le. }
    rewrite E, <- E2, <- E2'. done.
  Qed.
  Lemma rcu_get_answer s k r s' : rcu_step s (RGet k r) s' -> r = rc_data s !! k /\ s' = s.
  Proof. by inversion 1. Qed.

  (** An answer is the value of an earlier put. *)
  Lemma rcu_get_sound tr s k v s' : rcu_exec rcu_new tr s -> rcu_step s (RGet k (Some v)) s' ->
    (k, v) ∈ puts_of tr.
  Proof.
    intros H Hg. apply rcu_get_answer in Hg as [E _]. destruct (rcu_exec_inv _ _ H) as [p [(q & E1 & E2 & _) _]].
    rewrite E2 in E. symmetry in E. apply last_values_elem in E.
    by apply elem_of_take in E as (i & Hi & _); eapply elem_of_list_lookup_2.
  Qed.
  Lemma last_values_mono (l : list (string * T)) n m k : (n <= m)%nat ->
    is_Some (last_values (take n l) !! k) -> is_Some (last_values (take m l) !! k).
  Proof.
    intros Hle [v Hv]. apply last_values_elem in Hv. eapply (last_values_is_Some _ k v).
    apply elem_of_take in Hv as (i & Hi & Hl). apply elem_of_take. exists i. split; [done|lia].
  Qed.
  Lemma rcu_get_stays tr1 s1 tr2 s2 k v r s1' s2' :
    rcu_exec rcu_new tr1 s1 -> rcu_step s1 (RGet k (Some v)) s1' -> rcu_exec s1' tr2 s2 ->
    rcu_step s2 (RGet k r) s2' -> is_Some r.
  Proof.
    intros H1 G1 H2 G2. apply rcu_get_answer in G1 as [E1 ->], G2 as [-> _].
    destruct (rcu_snapshots _ _ _ _ H1 H2) as (n & m & [Hle _] & _ & D1 & D2).
    rewrite D2. eapply last_values_mono; [done|]. rewrite <- D1, <- E1. eauto.
  Qed.

  Lemma rcu_drained tr s : rcu_exec rcu_new tr s ->
    rc_ch s = [] -> rc_buffer s = ∅ -> rc_pc s = RIdle ->
    forall k, rc_data s !! k = last_values (puts_of tr) !! k.
  Proof.
    intros H Hch Hb Hpc k. destruct (rcu_exec_inv _ _ H) as [p [(q & E1 & E2 & E3) L]].
    rewrite Hch, app_nil_r in E1. rewrite Hpc in E3. destruct q as [|[k' v'] q _] using rev_ind; [rewrite app_nil_r in E1; by rewrite E2, <- E1|].
    rewrite Hb, last_values_snoc in E3. symmetry in E3. by apply insert_non_empty in E3.
  Qed.

  Lemma rcu_put_enabled s k v : (exists s', rcu_step s (RPut k v) s') <-> (length (rc_ch s) < rcu_chan_cap)%nat.
  Proof.
    split; [intros [s' H]; by inversion H|]. intros H. destruct s. eexists. by eapply rcu_put.
  Qed.
  Lemma rcu_chan_bound tr s : rcu_exec rcu_new tr s -> (length (rc_ch s) <= rcu_chan_cap)%nat.
  Proof.
    intros H. remember rcu_new as s0 eqn:E. induction H as [s|s tr s1 l s2 He IH Hs]; subst.
    - cbn. lia.
    - specialize (IH eq_refl). destruct Hs; cbn [rc_ch length] in *; try lia. rewrite app_length. cbn [length]. lia.
  Qed.
  (** From any state the writer alone can drain the channel and publish. *)
  Lemma rcu_to_idle s : exists tr s', rcu_exec s tr s' /\ Forall (fun l => l = RInternal) tr /\
    rc_pc s' = RIdle /\ rc_ch s' = rc_ch s.
  Proof.
    destruct s as [d ch b [|copy|]].
    - exists [], (mkRcu d ch b RIdle). repeat split; constructor.
    - exists ([] ++ [RInternal] ++ [RInternal]), (mkRcu copy ch ∅ RIdle).
      split; [|repeat split; repeat constructor]. rewrite app_assoc.
      eapply rcu_exec_snoc; [eapply rcu_exec_snoc; [constructor|apply rcu_store]|apply rcu_reset].
    - exists ([] ++ [RInternal]), (mkRcu d ch ∅ RIdle).
      split; [|repeat split; repeat constructor]. eapply rcu_exec_snoc; [constructor|apply rcu_reset].
  Qed.
  Lemma rcu_recv_all ch : forall d b, exists tr s', rcu_exec (mkRcu d ch b RIdle) tr s' /\
    Forall (fun l => l = RInternal) tr /\ rc_pc s' = RIdle /\ rc_ch s' = [].
  Proof.
    induction ch as [|[k v] ch IH]; intros d b.
    - exists [], (mkRcu d [] b RIdle). repeat split; constructor.
    - destruct (IH d (<[k := v]> b)) as (tr & s' & H & F & P1 & P2).
      exists ([RInternal] ++ tr), s'. split; [|split; [by repeat constructor|done]].
      eapply rcu_exec_app; [|exact H]. eapply (rcu_exec_snoc _ []); [constructor|apply rcu_recv].
  Qed.
  Lemma rcu_can_publish s : exists tr s', rcu_exec s tr s' /\ Forall (fun l => l = RInternal) tr /\
    rc_ch s' = [] /\ rc_buffer s' = ∅ /\ rc_pc s' = RIdle.
  Proof.
    destruct (rcu_to_idle s) as (tr1 & s1 & H1 & F1 & P1 & C1).
    destruct s1 as [d1 ch1 b1 pc1]. cbn in P1. subst pc1.
    destruct (rcu_recv_all ch1 d1 b1) as (tr2 & s2 & H2 & F2 & P2 & C2).
    destruct s2 as [d2 ch2 b2 pc2]. cbn in P2, C2. subst pc2 ch2.
    set (copy := copy_into b2 (map_to_list b2).*1 (copy_into d2 (map_to_list d2).*1 ∅)).
    exists ((tr1 ++ tr2) ++ (([] ++ [RInternal]) ++ [RInternal]) ++ [RInternal]), (mkRcu copy [] ∅ RIdle).
    split.
    { eapply rcu_exec_app; [eapply rcu_exec_app; [exact H1|exact H2]|].
      eapply rcu_exec_snoc; [eapply rcu_exec_snoc; [eapply rcu_exec_snoc; [constructor|]|]|].
      - apply (rcu_tick d2 [] b2 (map_to_list d2).*1 (map_to_list b2).*1); unfold range_order; done.
      - apply rcu_store.
      - apply rcu_reset. }
    split; [|done]. rewrite !Forall_app. repeat split; try done; repeat constructor.
  Qed.
  Lemma rcu_can_unblock tr s : rcu_exec rcu_new tr s -> exists tr' s', rcu_exec s tr' s' /\
    Forall (fun l => l = RInternal) tr' /\ forall k v, exists s'', rcu_step s' (RPut k v) s''.
  Proof.
    intros _. destruct (rcu_can_publish s) as (tr' & s' & H & F & C & _).
    exists tr', s'. split; [done|]. split; [done|]. intros k v. apply rcu_put_enabled. rewrite C. unfold rcu_chan_cap. cbn. lia.
  Qed.

  (** Whatever had been received when a tick fires is published as soon as the
      writer makes its next step. *)
  Lemma rcu_flush tr1 s1 s2 tr2 s3 :
    rcu_exec rcu_new tr1 s1 -> rcu_step s1 RInternal s2 -> (exists copy, rc_pc s2 = RStore copy) ->
    rcu_exec s2 tr2 s3 -> RInternal ∈ tr2 ->
    exists m, (length (puts_of tr1) - length (rc_ch s1) <= m)%nat /\
      forall k, rc_data s3 !! k = last_values (take m (puts_of (tr1 ++ [RInternal] ++ tr2))) !! k.
  Proof.
    intros H1 Hs Hst H2 Hin.
    destruct (rcu_exec_inv _ _ H1) as [p Hp].
    destruct (rcu_inv_step _ _ _ _ _ Hp Hs) as (p2 & Hle2 & Hp2).
    set (N := (length (puts_of tr1) - length (rc_ch s1))%nat).
    assert (rc_ch s2 = rc_ch s1) as Hch.
    { destruct Hst as [c Hc]. inversion Hs; subst; cbn in Hc |- *; first [done|congruence]. }
    rewrite app_assoc. set (tr := tr1 ++ [RInternal]) in *.
    assert (puts_of tr = puts_of tr1) as Etr.
    { unfold tr. rewrite puts_of_snoc. by rewrite app_nil_r. }
    assert (forall tr2 s3, rcu_exec s2 tr2 s3 ->
      (RInternal ∉ tr2 /\ rcu_inv' (tr ++ tr2) s3 p2 /\ (exists copy, rc_pc s3 = RStore copy) /\
        (length (puts_of (tr ++ tr2)) - length (rc_ch s3) = N)%nat) \/
      (exists p', (N <= p')%nat /\ rcu_inv' (tr ++ tr2) s3 p')) as Hgen.
    { clear H2 Hin tr2 s3. intros tr2 s3 H2. induction H2 as [s|s tr2 s3 l s4 He IH Hs2].
      - left. rewrite app_nil_r. split; [apply not_elem_of_nil|]. split; [done|]. split; [done|]. by rewrite Etr, Hch.
      - specialize (IH Hs Hst Hp2 Hch). rewrite app_assoc. destruct IH as [(Hni & Hi & [copy Hc] & HN)|(p' & Hp' & Hi)].
        + destruct Hs2 as [d ch b pc k v Hlen|d ch b pc k|d k v ch b|d ch b ks1 ks2 G1 G2|d ch b cp|d ch b];
            cbn in Hc; try discriminate Hc.
          * left. split; [rewrite not_elem_of_app, elem_of_list_singleton; by split|]. split.
            { destruct Hi as [(q & E1 & E2 & E3) L]. unfold rcu_inv', rcu_inv. rewrite puts_of_snoc.
              rewrite take_prefix_app by done. split; [|rewrite app_length; lia]. exists q.
              split; [rewrite E1 at 1; cbn; by rewrite <- !app_assoc|]. split; [done|]. by rewrite Hc in *. }
            split; [exists copy; done|]. rewrite puts_of_snoc, app_length. cbn in *. rewrite app_length. cbn. lia.
          * left. split; [rewrite not_elem_of_app, elem_of_list_singleton; by split|]. split.
            { destruct Hi as [(q & E1 & E2 & E3) L]. unfold rcu_inv', rcu_inv. rewrite puts_of_snoc, app_nil_r.
              split; [|done]. by exists q. }
            split; [exists copy; done|]. rewrite puts_of_snoc, app_nil_r. done.
          * right. injection Hc as ->. destruct Hi as [(q & E1 & E2 & [E3 E4]) L]. cbn in *.
            exists (p2 + length q)%nat. split.
            { rewrite <- HN, E1 at 1. rewrite !app_length, take_length. lia. }
            unfold rcu_inv', rcu_inv. rewrite puts_of_snoc, app_nil_r.
            assert (take (p2 + length q) (puts_of (tr ++ tr2)) = take p2 (puts_of (tr ++ tr2)) ++ q) as E.
            { rewrite E1 at 1. rewrite take_app_ge by (rewrite take_length; lia).
              rewrite take_length. replace (p2 + length q - p2 `min` length (puts_of (tr ++ tr2)))%nat with (length q) by lia.
              by rewrite take_app. }
            rewrite E. split.
            { exists []. split; [by rewrite <- app_assoc|]. split; [done|]. done. }
            rewrite E1 at 1. rewrite !app_length, take_length. lia.
        + right. destruct (rcu_inv_step _ _ _ _ _ Hi Hs2) as (p'' & ? & Hi'). exists p''. split; [lia|done]. }
    destruct (Hgen _ _ H2) as [(Hni & _)|(p' & Hle & [(q & E1 & E2 & _) L])]; [by destruct Hni|].
    exists p'. split; [done|]. intros k. by rewrite E2.
  Qed.
End rcu.
