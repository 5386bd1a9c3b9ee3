(** Searches that run on the disk storage while the client saves (C64): the cache. *)
From Verif Require Import Base M_Field M_LRU M_Memory M_Disk P_LRU P_DiskDocs.
#[local] Open Scope Z_scope.

Lemma mtf_keeps {T} (c c' : lru T) e : move_to_front c e = Some c' -> lr_page c' = lr_page c /\ lr_table c' = lr_table c /\ lr_cap c' = lr_cap c.
Proof. unfold move_to_front. destruct (_ || _); [intros [= <-]; done|]. destruct (run_stmts _ _); [|done]. by intros [= <-]. Qed.
Lemma get_keeps {T} (c c' : lru T) k r : lru_get c k = Some (c', r) -> lr_page c' = lr_page c /\ lr_table c' = lr_table c /\ lr_cap c' = lr_cap c /\ r = lr_table c !! k.
Proof. unfold lru_get. destruct (lr_table c !! k) as [e|]; [|by intros [= <- <-]]. destruct (move_to_front c e) eqn:E; [|done]. intros [= <- <-]. apply mtf_keeps in E. tauto. Qed.
Lemma remove_keeps {T} (c c' : lru T) e : list_remove c e = Some c' -> lr_page c' = lr_page c /\ lr_table c' = lr_table c /\ lr_cap c' = lr_cap c.
Proof. unfold list_remove. case_bool_decide; [|by intros [= <-]]. destruct (run_stmts _ _); [|done]. by intros [= <-]. Qed.
Lemma push_keeps {T} (c c' : lru T) k v e : push_front c k v = Some (c', e) -> e = lr_next c /\ lr_page c' = <[e := (k, v)]> (lr_page c) /\ lr_table c' = lr_table c /\ lr_cap c' = lr_cap c.
Proof. unfold push_front. destruct (run_stmts _ _); [|done]. by intros [= <- <-]. Qed.
(** What Put does to the pages and the table. *)
Lemma put_effect {T} (c c' : lru T) k v : lru_put c k v = Some c' ->
  (exists e k' v', lr_table c !! k = Some e /\ lr_page c !! e = Some (k', v') /\ lr_page c' = <[e := (k', v)]> (lr_page c) /\ lr_table c' = lr_table c) \/
  (lr_table c !! k = None /\ exists e t, lr_page c' = <[e := (k, v)]> (lr_page c) /\ lr_table c' = <[k := e]> t /\ e = (if lr_len c >=? lr_cap c then e else lr_next c) /\ (lr_len c < lr_cap c -> t = lr_table c)).
Proof.
  unfold lru_put. destruct (lr_table c !! k) as [e|] eqn:Et.
  - destruct (move_to_front c e) as [c1|] eqn:E1; [|done]. destruct (mtf_keeps _ _ _ E1) as (P1 & P2 & P3). rewrite P1. destruct (lr_page c !! e) as [[k' v']|] eqn:Ep; [|done]. intros [= <-]. left. exists e, k', v'. done.
  - destruct (lr_len c >=? lr_cap c) eqn:Eg.
    + destruct (back c) as [b|]; [|done]. destruct (lr_page c !! b) as [[bk ?]|]; [|done]. destruct (list_remove _ b) as [c1|] eqn:E1; [|done]. destruct (remove_keeps _ _ _ E1) as (P1 & P2 & P3). destruct (push_front c1 k v) as [[c2 e]|] eqn:E2; [|done]. destruct (push_keeps _ _ _ _ _ E2) as (Q0 & Q1 & Q2 & Q3).
      intros [= <-]. right. split; [done|]. exists e, (lr_table c2). cbn. rewrite Q1, P1. split; [done|]. split; [done|]. split; [done|]. lia.
    + destruct (push_front c k v) as [[c2 e]|] eqn:E2; [|done]. destruct (push_keeps _ _ _ _ _ E2) as (Q0 & Q1 & Q2 & Q3). intros [= <-]. right. split; [done|]. exists e, (lr_table c2). cbn. rewrite Q1. done.
Qed.
Lemma put_fresh {T} (c c' : lru T) kvs k v : R c kvs -> lru_put c k v = Some c' -> forall e kv, lr_page c !! e = Some kv ->
  exists v', lr_page c' !! e = Some (kv.1, v') /\ (v' = kv.2 \/ (kv.1 = k /\ v' = v /\ lr_table c !! k = Some e)).
Proof.
  intros [order HR] H e [k0 v0] He. cbn. unfold lru_put in H. destruct (lr_table c !! k) as [e1|] eqn:Et.
  - destruct (move_to_front c e1) as [c1|] eqn:E1; [|done]. destruct (mtf_keeps _ _ _ E1) as (P1 & P2 & P3). rewrite P1 in H. destruct (lr_page c !! e1) as [[k' v']|] eqn:Ep; [|done]. injection H as <-. cbn.
    destruct (decide (e1 = e)) as [->|Hn]; [|rewrite lookup_insert_ne by done; eauto]. rewrite lookup_insert. rewrite He in Ep. injection Ep as <- <-. apply (rf_table _ _ _ HR) in Et as Et'. destruct Et' as [_ [v1 Hv]]. rewrite He in Hv. injection Hv as -> ->. eauto 10.
  - assert (e <> lr_next c) as Hlt. { pose proof (rf_page_lt _ _ _ HR e _ He). lia. }
    destruct (lr_len c >=? lr_cap c) eqn:Eg.
    + destruct (back c) as [b|]; [|done]. destruct (lr_page c !! b) as [[bk ?]|]; [|done]. destruct (list_remove _ b) as [c1|] eqn:E1; [|done]. destruct (remove_keeps _ _ _ E1) as (P1 & P2 & P3).
      assert (lr_next c1 = lr_next c) as Hnx. { unfold list_remove in E1. case_bool_decide; [destruct (run_stmts _ _); [|done]|]; by injection E1 as <-. }
      destruct (push_front c1 k v) as [[c2 e2]|] eqn:E2; [|done]. destruct (push_keeps _ _ _ _ _ E2) as (Q0 & Q1 & Q2 & Q3). injection H as <-. cbn. rewrite Q1, P1. rewrite lookup_insert_ne by congruence. cbn. eauto.
    + destruct (push_front c k v) as [[c2 e2]|] eqn:E2; [|done]. destruct (push_keeps _ _ _ _ _ E2) as (Q0 & Q1 & Q2 & Q3). injection H as <-. cbn. rewrite Q1. rewrite lookup_insert_ne by congruence. eauto.
Qed.
(** The cache invariant used below: [K] contains the keys. *)
Definition cache_ok (cache_size : Z) (K : string -> Prop) (c : lru nat) : Prop :=
  exists kvs, R c kvs /\ lr_cap c = cache_size /\ forall k, k ∈ kvs.*1 -> K k.
Lemma cache_new n K : cache_ok n K (lru_new n).
Proof. exists []. split; [apply R_new|]. split; [done|]. by intros k ?%elem_of_nil. Qed.
Lemma cache_mono n (K K' : string -> Prop) c : (forall k, K k -> K' k) -> cache_ok n K c -> cache_ok n K' c.
Proof. intros H (kvs & H1 & H2 & H3). exists kvs. eauto. Qed.
Lemma cache_get n K c k c' r : lru_get c k = Some (c', r) -> cache_ok n K c -> cache_ok n K c'.
Proof.
  intros Hg (kvs & H1 & H2 & H3). destruct r as [e|].
  - pose proof (get_refine c kvs k H1) as H. rewrite Hg in H. destruct H as (_ & _ & _ & Hc & v & Hv & _ & HR'). eexists. split; [exact HR'|]. split; [congruence|]. intros k' Hk. apply H3. cbn in Hk. apply elem_of_cons in Hk as [->|Hk]; [apply in_keys; eauto|].
    apply in_keys in Hk as [v' Hk]. apply elem_of_list_filter in Hk as [_ Hk]. apply in_keys. eauto.
  - destruct (get_miss _ _ _ _ H1 Hg) as [-> _]. by exists kvs.
Qed.
Lemma cache_get_some n K c k : cache_ok n K c -> exists c' r, lru_get c k = Some (c', r).
Proof. intros (kvs & H1 & _). pose proof (get_refine c kvs k H1) as H. destruct (lru_get c k) as [[c' r]|]; [eauto|done]. Qed.
Lemma cache_put n (K : string -> Prop) c k l c' : 0 < n -> K k -> lru_put c k l = Some c' -> cache_ok n K c -> cache_ok n K c'.
Proof.
  intros Hn Hk Hp (kvs & H1 & H2 & H3). destruct (put_R _ _ _ _ _ H1 ltac:(lia) Hp) as [R' C']. eexists. split; [exact R'|]. split; [congruence|]. intros k' Hk'. apply in_keys in Hk' as [v Hv]. apply aput_in in Hv as [[= -> _]|[_ Hv]]; [done|]. apply H3, in_keys. eauto.
Qed.
Lemma cache_put_some n K c k l : 0 < n -> cache_ok n K c -> exists c', lru_put c k l = Some c'.
Proof. intros Hn (kvs & H1 & H2 & _). destruct (put_refine c kvs k l H1 ltac:(lia)) as (c' & E & _). eauto. Qed.
Lemma cache_page n K c k e : cache_ok n K c -> lr_table c !! k = Some e -> exists l, lr_page c !! e = Some (k, l).
Proof. intros (kvs & [order H1] & _) Ht. apply (rf_table _ _ _ H1) in Ht as [_ H]. exact H. Qed.
(** With room for all keys nothing is evicted. *)
Lemma cache_keep n (D : gset string) c k l c' d e : Z.of_nat (size D) <= n -> k ∈ D -> cache_ok n (fun k => k ∈ D) c -> lru_put c k l = Some c' -> d <> k -> lr_table c !! d = Some e -> lr_table c' !! d = Some e.
Proof.
  intros Hs Hk (kvs & H1 & H2 & H3) Hp Hd Ht. destruct (put_effect _ _ _ _ Hp) as [(e0 & k' & v' & _ & _ & _ & E)|(Hn & e0 & t & _ & E & _ & Hlt)]; [by rewrite E|].
  assert (lr_len c < lr_cap c) as Hl.
  { destruct H1 as [order HR]. pose proof (rf_list _ _ _ HR) as Hi. rewrite (li_len _ _ Hi), H2. rewrite (Forall2_length _ _ _ (rf_pages _ _ _ HR)).
    assert (NoDup kvs.*1) as Hnd by (eapply R_nodup; by exists order). assert (k ∉ kvs.*1) as Hkn. { intros Hin. apply in_keys in Hin as [v Hv]. destruct (elem_of_list_lookup_1 _ _ Hv) as [i Hi']. destruct (Forall2_lookup_r _ _ _ _ _ (rf_pages _ _ _ HR) Hi') as (e1 & G1 & G2). assert (lr_table c !! k = Some e1) as G3; [|congruence]. apply (rf_table _ _ _ HR). split; [by eapply elem_of_list_lookup_2|eauto]. }
    assert ((length (k :: kvs.*1) <= size D)%nat) as Hle.
    { rewrite <- (size_list_to_set (C := gset string)) by (by constructor). apply subseteq_size. intros j Hj. apply elem_of_list_to_set in Hj. apply elem_of_cons in Hj as [->|Hj]; [done|by apply H3]. }
    cbn in Hle. rewrite fmap_length in Hle. lia. }
  rewrite E, (Hlt Hl), lookup_insert_ne by done. done.
Qed.
