(** Searches on the disk storage while several goroutines save (C68): a document of an
    earlier session that is not saved in this one is found, whatever the cache. *)
From Verif Require Import Base M_Field M_LRU S_Visits M_Memory M_File M_Serialize M_Num M_FanIn M_Search M_Concurrent M_SearchConc M_Disk P_Base P_File P_LRU P_FanIn2 P_SearchConc P_SearchConc3 S_Concurrent P_Concurrent P_Concurrent2 P_DiskBase P_DiskInv P_DiskMem P_DiskWriter P_DiskDocs P_DiskBusy P_DiskBusy2 P_DiskBusy3 P_DiskBusy4 P_DiskBusy5 P_DiskBusy6 P_DiskBusy7 P_DiskBusy8 P_DiskBusy9 P_DiskBusy10 P_DiskBusy11 P_DiskBusy12 P_DiskBusy13 M_DiskBusy M_DiskMulti P_DiskIndex3 P_DiskIndex4 S_Disk S_DiskMulti S_DiskQuery P_DiskMulti P_DiskMulti2 P_DiskMulti3 P_DiskMulti5 P_DiskQuery P_DiskMulti6 P_DiskQuery2.
#[local] Open Scope nat_scope.
#[local] Opaque serialize_metrics serialize_nft serialize_field_map serialize_index deserialize_index deserialize_nft deserialize_field_map deserialize_metrics.

(** The second half of a search. *)
Definition mfok (E : benv) (q : msearch) : Prop :=
  match q with
  | MqFields _ _ _ w => fan_all (okb E) (vals E) w
  | MqRet _ _ _ docs => vals E docs
  | _ => True
  end.
Lemma mfok_le E E' q : env_le E E' -> mfok E q -> mfok E' q.
Proof. intros L. destruct q; cbn; try done; [|by apply vals_le]. intros H. eapply fan_all_impl; [| |exact H]; [intros p; by apply okb_le|intros x; by apply vals_le]. Qed.
Lemma mfok_and E E' q : mfok E q -> mfok E' q -> mfok (and_env E E') q.
Proof.
  destruct q; cbn; try done; [|by apply vals_and]. intros H1 H2. pose proof (fan_all_and _ _ _ _ _ H1 H2) as H. eapply fan_all_impl; [| |exact H]; [intros p [? ?]; by apply okb_and|intros x [? ?]; by apply vals_and].
Qed.
Lemma mq_mfok m log sh own ol oa q : mq_ok m log sh own ol oa q -> mfok (menv m log own (mq_field q) (mq_terms q)) (mq_pc q).
Proof. unfold mq_ok. destruct (mq_pc q); cbn; try done. by intros [_ ?]. Qed.
(** A posting at its address. *)
Definition at_addr (sh : shared) (f t d : string) (l a : nat) : Prop :=
  exists m, M_Concurrent.k_index sh !! f = Some l /\ k_maps sh !! l = Some m /\ m !! t = Some a /\ exists S0, k_sets sh !! a = Some S0 /\ is_Some (S0 !! d).
Lemma at_addr_set sh f t d l a : at_addr sh f t d l a -> is_Some (set_at sh a !! d).
Proof. intros (m & _ & _ & _ & S0 & E & H). unfold set_at. by rewrite E. Qed.
Lemma at_addr_open m sh f t d : loaded m sh -> listed m f t d -> exists l a, at_addr sh f t d l a.
Proof.
  intros (V & _) Hl. assert (mm_index (view sh) = c_index m) as Vi by (by rewrite V). unfold listed, listed_set in Hl. rewrite <- Vi in Hl.
  destruct (mm_index (view sh) !! f ≫= (fun idx : gmap string set_data => idx !! t)) as [S0|] eqn:E.
  2:{ exfalso. destruct Hl as [v Hl]. destruct (mm_index (view sh) !! f) as [idx|]; cbn in E, Hl; [rewrite E in Hl; cbn in Hl|rewrite lookup_empty in Hl; cbn in Hl]; by rewrite lookup_empty in Hl. }
  assert (is_Some (S0 !! d)) as Hd. { destruct (mm_index (view sh) !! f) as [idx|]; cbn in E, Hl; [|discriminate E]. rewrite E in Hl. exact Hl. }
  destruct (view_posting _ _ _ _ d E Hd) as (l & mm & a & E1 & E2 & E3 & E4). exists l, a, mm. split; [done|]. split; [done|]. split; [done|]. exists S0. by split.
Qed.
(** A goroutine that will report the document. *)
Definition pendr (d t : string) (l a : nat) (p : rd1) : Prop :=
  match p with
  | RTerm t' => t' = t
  | RMap t' l' => t' = t /\ l' = l
  | RSet a' => a' = a
  | RRange a' must sent => a' = a /\ d ∈ must /\ d ∉ sent
  | RId a' must sent id => id = d \/ a' = a /\ d ∈ must /\ d ∉ sent
  | REnd => False
  end.
Lemma pendr_step sh f t d l a p p' : at_addr sh f t d l a -> rd1_step f sh p p' -> pendr d t l a p -> pendr d t l a p'.
Proof.
  intros H St P. pose proof (at_addr_set _ _ _ _ _ _ H) as Hd. destruct H as (m & H1 & H2 & H3 & _). inversion St; subst; cbn in *.
  - congruence.
  - split; [done|congruence].
  - destruct P as [-> ->]. match goal with K : _ = None |- _ => rewrite H2 in K; cbn in K; congruence end.
  - destruct P as [-> ->]. match goal with K : _ = Some a0 |- _ => rewrite H2 in K; cbn in K; congruence end.
  - subst a0. split; [done|]. split; [by apply elem_of_dom|apply not_elem_of_nil].
  - by right.
  - destruct P as (-> & P1 & P2). apply P2. match goal with K : must ⊆ _ |- _ => apply K in P1 end. by apply elem_of_list_to_set in P1.
Qed.
Lemma pendr_send d t l a p x p' : rd1_send p x p' -> pendr d t l a p -> x = d \/ pendr d t l a p'.
Proof.
  intros H P. inversion H; subst. cbn in *. destruct (decide (x = d)) as [|Hn]; [by left|right]. destruct P as [P|(P1 & P2 & P3)]; [done|]. split; [done|]. split; [done|]. rewrite elem_of_app, elem_of_list_singleton. intros [?|E]; [done|by subst].
Qed.

Section frozen.
  Variables (compress : bytes -> bytes) (decompress : bytes -> option bytes) (cache_size : Z).
  Hypothesis gz : gzip_ok compress decompress.
  Hypothesis pos : (0 < cache_size)%Z.
  Notation reach := (multi_reachable compress decompress cache_size).
  Notation live := (multi_live compress decompress cache_size).
  Variables (d f : string) (fd0 : gmap string field) (x : field) (t0 : string) (l0 a0 : nat).
  Hypothesis Hd : plain_doc d.
  Hypothesis Hx : fd0 !! f = Some x.
  Notation fenv := (fenv d fd0).
  Notation copies := (copies d fd0).
  Notation pendl := (pendl d).
  Definition qfindm (q : msearch) : Prop :=
    match q with
    | MqIds _ _ _ w => coming (pendr d t0 l0 a0) (fun id => id = d) w
    | MqFields _ _ _ w => coming pendl (has_doc d) w
    | MqRet _ _ _ docs => has_doc d docs
    | _ => True
    end.
  Definition mfr_ok (m : cmem) (q : mquery) : Prop := mfok (fenv m (mq_field q)) (mq_pc q) /\ (mq_field q = f -> t0 ∈ mq_terms q -> qfindm (mq_pc q)).
  Lemma mfr_le m m' q : env_le (fenv m (mq_field q)) (fenv m' (mq_field q)) -> mfr_ok m q -> mfr_ok m' q.
  Proof. intros L [K1 K2]. split; [by eapply mfok_le|done]. Qed.
  (** One step of a search. *)
  Lemma msearch_frozen ncpu terms f' sh u s q m' q' log own ol oa (K : string -> Prop) : msearch_step decompress ncpu terms f' sh (u_mem u) s q (m', q') ->
    load_doc decompress s d = Some (Some fd0) -> cache_ok cache_size K (c_cache (u_mem u)) -> copies (u_mem u) -> at_addr sh f t0 d l0 a0 ->
    mq_ok (u_mem u) log sh own ol oa (mkMQ ncpu terms f' q) -> mfr_ok (u_mem u) (mkMQ ncpu terms f' q) ->
    copies m' /\ (forall f1, env_le (fenv (u_mem u) f1) (fenv m' f1)) /\ mfr_ok m' (mkMQ ncpu terms f' q').
  Proof.
    intros H Hl Hc Hcp Ha Q [K1 K2]. unfold mq_ok, mfr_ok in *. cbn [mq_terms mq_field mq_pc] in *.
    assert (m' = u_mem u -> mfok (fenv (u_mem u) f') q' /\ (f' = f -> t0 ∈ terms -> qfindm q') -> copies m' /\ (forall f1, env_le (fenv (u_mem u) f1) (fenv m' f1)) /\ mfok (fenv m' f') q' /\ (f' = f -> t0 ∈ terms -> qfindm q')) as Z.
    { intros ->. intros ?. split; [done|]. split; [intros f1; apply env_refl|done]. }
    inversion H; subst; try (apply Z; [done|]; split; [done|]; cbn; done).
    - apply Z; [done|]. split; [done|]. intros -> W. cbn. eapply coming_init; [apply elem_of_list_fmap_1; exact W|]. cbn. done.
    - apply Z; [done|]. split; [done|]. intros -> W. cbn in *. eapply coming_step; [| | |eassumption|by apply K2]; [intros p p'; by apply pendr_step|intros p y p'; apply pendr_send|]. intros p Hp. unfold rd1_stop in Hp. subst p. by intros Hz.
    - apply Z; [done|]. match goal with K : fan2_done w |- _ => rename K into Dw end. split.
      + cbn. apply fan_all_init. apply Forall_fmap. apply Forall_forall. intros b Hb. cbn. split; [|apply vals_empty]. by apply Forall_forall.
      + intros -> W. cbn in Q. destruct Q as [Q1 _]. pose proof (coming_done _ _ _ _ _ _ _ Q1 Dw (K2 eq_refl W)) as Hg. apply Exists_exists in Hg as (id & G1 & ->). destruct (batches_props (f2_got w)) as [_ B]. apply B in G1. apply elem_of_list_In, in_concat in G1 as (b & B1 & B2). apply elem_of_list_In in B1, B2.
        cbn. eapply (coming_init _ _ _ (BDocs b ∅)); [by apply (elem_of_list_fmap_1 (fun b => BDocs b ∅))|]. cbn. by left.
    - apply Z; [done|]. match goal with K : fan2_step _ _ _ _ _ _ _ |- _ => rename K into Gw end. split.
      + cbn in *. eapply fan_all_step; [| |exact Gw|exact K1]; [done|intros p y p'; apply okb_send].
      + intros -> W. cbn in *. eapply coming_step; [| | |exact Gw|by apply K2]; [done|intros p y p'; apply pendl_send|]. intros p Hp. unfold bbatch_stop in Hp. subst p. cbn. by apply not_elem_of_nil.
    - match goal with G : fan2_inner _ _ _ _ |- _ => rename G into Gi end. match goal with G : bbatch_step _ _ _ _ _ |- _ => rename G into Gb end. cbn in K1. pose proof (fan_inner_ok _ _ _ _ _ _ Gi K1) as Op.
      destruct (batch_frozen decompress cache_size d f fd0 x Hd Hx K f' s _ _ _ _ Hl Hc Hcp Gb Op) as (B1 & B2 & B3 & B4).
      split; [done|]. split. { intros f1. destruct B2 as (_ & E2 & E3 & _ & E5 & _). split; [done|]. split; [exact E2|]. split; [exact E3|]. split; [done|]. split; [exact E5|done]. }
      split.
      + cbn. eapply fan_all_inner; [exact Gi|done|]. eapply fan_all_impl; [| |exact K1]; [intros p0; by apply okb_le|intros y; by apply vals_le].
      + intros -> W. cbn. eapply (coming_inner bbatch_send bbatch_stop); [exact Gi|by apply B4|by apply K2].
    - apply Z; [done|]. match goal with K : fan2_done w |- _ => rename K into Dw end. split.
      + cbn in *. destruct K1 as (_ & _ & Hg). intros k y Hy. destruct (merge_in _ _ _ Hy) as (m0 & G1 & G2). rewrite Forall_forall in Hg. by apply (Hg m0 G1).
      + intros -> W. cbn in *. destruct Q as [[tasks Q1] _]. pose proof (coming_done _ _ _ _ _ _ _ Q1 Dw (K2 eq_refl W)) as Hg. by apply merge_some.
  Qed.
  (** A goroutine that does not save the document. *)
  Definition avoids (pc : tpc) (m : msg) : Prop :=
    (forall z, pc_call pc <> Some (Save d z)) /\ match m with DDoc d' _ _ | DSend d' _ _ => d' <> d | _ => True end.
  Definition mfrozen (b : multi) : Prop :=
    exists u, mu_open b u /\ load_doc decompress (y_fs (mu_sys b)) d = Some (Some fd0) /\ copies (u_mem u) /\ at_addr (mu_sh b) f t0 d l0 a0 /\
      (forall th, th ∈ mu_threads b -> safe_pc f t0 l0 a0 th.1.1 /\ avoids th.1.1 th.1.2) /\ w_buf (u_dw u) !! d = None /\ Forall (mfr_ok (u_mem u)) (mu_qs b).
  Lemma pc_call_t s pc s' pc' : t_step (s, pc) (s', pc') -> forall c, pc_call pc' = Some c -> pc_call pc = Some c.
  Proof. intros H c. inversion H; subst; try done; try (by destruct full). Qed.
  Lemma mfrozen_step a b ev : reach a -> mfrozen a -> live a b -> good_log (mu_log b) -> mu_log b = mu_log a ++ ev -> (forall z, Save d z ∉ calls_of ev) -> (exists u, mu_open b u) -> (forall g, y_proc (mu_sys a) <> Loading g) -> mfrozen b.
  Proof.
    intros R (u & Hu & Hl & Hcp & Ha & Hth & Hw & Hq) H Hg Hlog Hev Hob Hng. unfold mu_open in *. assert (good_log (mu_log a)) as Hga by (eapply (m_good_mono compress decompress cache_size); [by left|exact Hg]).
    destruct (m_reach compress decompress cache_size gz a R Hga) as [Ba Bi]. destruct (d_reach_multi compress decompress cache_size gz pos a R Hga) as [Hf Hs]. rewrite Hu in Hs, Bi. destruct Hs as (own & HU & HD & (ol & oa & Z1 & Z2 & Z3 & Z4)). destruct Bi as (G & L & ol0 & oa0 & I). pose proof (mi_pc _ _ _ _ _ _ _ _ _ _ I) as Ip. clear I.
    pose proof (uo_mem _ _ _ _ _ _ HU) as Hk. pose proof (mo_cache _ _ _ _ _ Hk) as Hc.
    assert (forall m', (forall f1, env_le (fenv (u_mem u) f1) (fenv m' f1)) -> Forall (mfr_ok m') (mu_qs a)) as HF. { intros m' Hle. eapply Forall_impl; [exact Hq|]. intros q. apply mfr_le, Hle. }
    inversion H; subst; unfold mfrozen, mu_open, mu_log in *; cbn [mu_sys mu_sh mu_threads mu_qs y_proc y_fs y_log] in *.
    - match goal with K2 : forall u, _ <> Up u |- _ => destruct Hob as [u' Hob]; by destruct (K2 u') end.
    - match goal with K : y_proc y = Loading _ |- _ => by destruct (Hng _ K) end.
    - match goal with K : y_proc y = Up _ |- _ => rewrite Hu in K; injection K as <- end. match goal with K : y_proc y' = Up _ |- _ => rename K into Eu'  end. exists u'. split; [done|]. destruct y as [s p log]. cbn [y_fs y_proc y_log] in *. subst p.
      match goal with K : live_step _ _ _ _ _ |- _ => rename K into St end.
      destruct (frozen_client compress decompress cache_size d Hd s u log y' Ba ltac:(rewrite Ip; by intros z ?%elem_of_nil) Hw St u' Eu') as [F1 F2]. split; [congruence|].
      assert (u_mem u' = u_mem u) as Em.
      { inversion St; subst; cbn [y_proc] in *; injection Eu' as ->.
        - match goal with K : up_step _ _ _ _ _ |- _ => by destruct (bg_step compress decompress _ _ _ _ _ ∅ K Ip ltac:(done)) as [_ Em] end.
        - match goal with K : up_tick _ _ |- _ => by destruct (bg_tick _ _ _ _ ∅ K) as (_ & Em & _) end.
        - match goal with K : up_call _ _ _ |- _ => inversion K; subst; done end. }
      rewrite Em. done.
    - injection Hu as ->. exists u. do 4 (split; [done|]). split; [|done]. intros th Hin. apply elem_of_app in Hin as [Hin|Hin]; [by apply Hth|]. apply elem_of_list_singleton in Hin. subst th. done.
    - injection Hu as ->. apply app_inv_head in Hlog as <-. exists u. do 4 (split; [done|]). split; [|done]. intros th Hin. apply elem_of_insert in Hin as [->|Hin]; [|by apply Hth]. cbn. split; [by destruct c|]. split; [|done]. intros z Hz. apply (Hev z). destruct c; cbn in *; [|done]. injection Hz as -> ->. left.
    - injection Hu as ->. apply app_inv_head in Hlog as <-. match goal with K : ths !! i = _ |- _ => rename K into Ti end. match goal with K : client_step _ _ _ |- _ => rename K into St end.
      destruct (Hth _ (elem_of_list_lookup_2 _ _ _ Ti)) as [S0 [A1 A2]]. pose proof (Z2 _ (elem_of_list_lookup_2 _ _ _ Ti)) as Op. pose proof (HD _ (elem_of_list_lookup_2 _ _ _ Ti)) as T0.
      assert (forall pc' m' sh1 u1, u_mem u1 = u_mem u -> w_buf (u_dw u1) !! d = None -> at_addr sh1 f t0 d l0 a0 -> safe_pc f t0 l0 a0 pc' -> avoids pc' m' ->
        exists u2, Up u1 = Up u2 /\ load_doc decompress s d = Some (Some fd0) /\ copies (u_mem u2) /\ at_addr sh1 f t0 d l0 a0 /\ (forall th, th ∈ <[i := (pc', m', cs)]> ths -> safe_pc f t0 l0 a0 th.1.1 /\ avoids th.1.1 th.1.2) /\ w_buf (u_dw u2) !! d = None /\ Forall (mfr_ok (u_mem u2)) qs) as Q.
      { intros pc' m' sh1 u1 E1 E2 E3 E4 E5. exists u1. split; [done|]. split; [done|]. rewrite E1. split; [done|]. split; [done|]. split; [|done]. intros th1 Hin. apply elem_of_insert in Hin as [->|Hin]; [done|by apply Hth]. }
      assert (forall pc' m' m1 dp1 dx xx, m' = dp1 -> copies m1 -> Forall (mfr_ok m1) qs -> pc' = th.1 -> match dp1 with DDoc d' _ _ | DSend d' _ _ => d' = dx | _ => True end -> dx <> d -> xx = x ->
        exists u2, Up (with_mem u m1 (u_pc u)) = Up u2 /\ load_doc decompress s d = Some (Some fd0) /\ copies (u_mem u2) /\ at_addr sh f t0 d l0 a0 /\ (forall th, th ∈ <[i := (pc', m', cs)]> ths -> safe_pc f t0 l0 a0 th.1.1 /\ avoids th.1.1 th.1.2) /\ w_buf (u_dw u2) !! d = None /\ Forall (mfr_ok (u_mem u2)) qs) as QD.
      { intros pc' m' m1 dp1 dx xx -> E1 E2 -> E3 E4 _. eexists. split; [done|]. split; [done|]. split; [done|]. split; [done|]. split; [|done]. intros th1 Hin. apply elem_of_insert in Hin as [->|Hin]; [|by apply Hth]. split; [done|]. split; [done|]. cbn. destruct dp1; try done; congruence. }
      (* the accesses to the cache and to the map of a document *)
      assert (forall d1 x1 dp1 m1 pc1 dp1', d1 <> d -> dmsg_ok (u_mem u) log own (DDoc d1 x1 dp1) -> doc_step (u_dw u) (u_mem u, CDoc d1 x1, dp1) (m1, pc1, dp1') -> copies m1 /\ Forall (mfr_ok m1) qs) as QC.
      { intros d1 x1 dp1 m1 pc1 dp1' Hne [_ Ho] Dd.
        assert (forall m', ptrs_le (u_mem u) m' -> (forall l, own !! l = Some d -> c_heap (u_mem u) !! l = Some fd0 -> c_heap m' !! l = Some fd0) -> Forall (mfr_ok m') qs) as HT.
        { intros m2 G2 G3. apply Forall_forall. intros q Hin. rewrite Forall_forall in Hq, Z4. destruct (Hq q Hin) as [Q1 Q2]. split; [|done]. pose proof (mfok_and _ _ _ Q1 (mq_mfok _ _ _ _ _ _ _ (Z4 q Hin))) as QA. eapply mfok_le; [|exact QA].
          split; [done|]. split; [intros id e [_ _] [Hx1 _] E; apply G2; auto|]. split; [|split; [done|split; [|by intros id y [? _]]]].
          - intros id l [_ _] [Hx1 Hx2] ->. cbn in Hx1, Hx2. apply G3; auto.
          - intros id l [_ _] [Hx1 Hx2] ->. cbn in Hx1, Hx2. apply G3; auto. }
        inversion Dd; subst.
        - match goal with G : lru_get _ _ = _ |- _ => destruct (get_keeps _ _ _ _ G) as (E1 & _) end. split; [intros e1 l1; cbn; rewrite E1; apply Hcp|]. apply HT; [|done]. intros k e1 [l1 G1]. exists l1. cbn. by rewrite E1.
        - match goal with G : lru_get _ _ = _ |- _ => destruct (get_keeps _ _ _ _ G) as (E1 & _) end. assert (forall l1, c_heap (u_mem u) !! l1 = Some fd0 -> <[l := ∅]> (c_heap (u_mem u)) !! l1 = Some fd0) as Hh. { intros l1 G1. rewrite lookup_insert_ne; [done|congruence]. }
          split; [intros e1 l1; cbn; rewrite E1; intros G1; apply Hh; by eapply Hcp|]. apply HT; [|intros l1 _; apply Hh]. intros k e1 [l1 G1]. exists l1. cbn. by rewrite E1.
        - by split.
        - assert (forall l1, own !! l1 = Some d -> c_heap (u_mem u) !! l1 = Some fd0 -> <[l := <[f_name x1 := x1]> fd]> (c_heap (u_mem u)) !! l1 = Some fd0) as Hh. { intros l1 G1 G2. rewrite lookup_insert_ne; [done|congruence]. }
          split; [|apply HT; [intros k e1 [l1 G1]; by exists l1|exact Hh]]. intros e1 l1 G1. cbn in *. apply Hh; [by apply (mo_page _ _ _ _ _ Hk e1)|by eapply Hcp].
        - match goal with G : lru_put _ _ _ = _ |- _ => rename G into Hpu end. pose proof Hc as (kvs & HR & _). split.
          + intros e1 l1 G1. cbn in *. destruct (put_effect _ _ _ _ Hpu) as [(e2 & k' & v' & T1 & P1 & E1 & _)|(T1 & e2 & t & E1 & _)]; rewrite E1 in G1; apply lookup_insert_Some in G1 as [[<- G1]|[_ G1]]; eauto.
            * injection G1 as -> <-. destruct (cache_page _ _ _ _ _ Hc T1) as [l2 Hl2]. congruence.
            * injection G1 as -> <-. done.
          + apply HT; [|done]. intros k e [l9 Hl9]. destruct (put_fresh _ _ _ _ _ HR Hpu e _ Hl9) as (v' & E & _). exists v'. cbn. exact E. }
      inversion St; subst; cbn [fst snd] in *.
      + match goal with K : t_step _ _ |- _ => rename K into Ht end. destruct Ha as (mm & H1 & H2 & H3 & SS & H4 & H5). destruct (kept_t _ _ _ _ _ _ _ _ _ _ _ Ht Z1 Op S0 H1 H2 H3 ltac:(by eexists)) as ((mm' & K1 & K2 & K3 & _) & K5 & K6 & _).
        apply Q; [done|done| |done|]. { exists mm'. split; [done|]. split; [done|]. split; [done|]. by eapply K6. }
        split; [intros z Hz; by apply (A1 z), (pc_call_t _ _ _ _ Ht)|]. pose proof (after_call pc) as A. destruct (after pc); try done. destruct A as [_ A]. intros ->. by apply (A1 x0).
      + apply Q; try done.
      + apply Q; try done.
      + apply Q; try done.
      + apply Q; try done.
      + apply Q; try done.
      + apply Q; try done.
      + match goal with K : doc_step _ _ _ |- _ => rename K into Dd end. destruct (QC _ _ _ _ _ _ A2 T0 Dd) as [G1 G2]. by eapply QD.
      + match goal with K : doc_step _ _ _ |- _ => rename K into Dd end. destruct (QC _ _ _ _ _ _ A2 T0 Dd) as [G1 G2]. by eapply QD.
      + apply Q; try done. cbn. unfold d_recv. rewrite lookup_insert_ne by done. match goal with K : u_dw u = _ |- _ => rewrite K in Hw end. done.
    - injection Hu as ->. exists u. do 6 (split; [done|]). apply Forall_app. split; [done|]. constructor; [|done]. split; cbn; done.
    - injection Hu as ->. match goal with K : qs !! i = _ |- _ => rename K into Qi end. match goal with K : msearch_step _ _ _ _ _ _ _ _ _ |- _ => rename K into HS end.
      destruct (msearch_frozen _ _ _ _ _ _ _ _ _ _ _ _ _ _ HS Hl Hc Hcp Ha (Forall_lookup_1 _ _ _ _ Z4 Qi) (Forall_lookup_1 _ _ _ _ Hq Qi)) as (G1 & G2 & G3).
      eexists. split; [done|]. split; [done|]. split; [done|]. split; [done|]. split; [done|]. split; [done|]. apply Forall_insert; [|done]. apply HF, G2.
  Qed.
  Lemma m_live_log a b : live a b -> exists ev, mu_log b = mu_log a ++ ev.
  Proof.
    assert (forall y y', live_step compress decompress cache_size y y' -> exists ev, y_log y' = y_log y ++ ev) as L.
    { intros y y' H. inversion H; subst; cbn; first [by eexists|exists []; by rewrite app_nil_r]. }
    intros H. unfold mu_log. inversion H; subst; cbn [mu_sys y_log]; try (by eapply L); try (by eexists); exists []; by rewrite app_nil_r.
  Qed.
  Notation session := (mu_session compress decompress cache_size).
  Lemma session_log a b : session a b -> exists ev, mu_log b = mu_log a ++ ev.
  Proof.
    intros H. induction H as [a|a b c [H1 _] _ [ev2 E2]]; [exists []; by rewrite app_nil_r|]. destruct (m_live_log _ _ H1) as [ev1 E1]. exists (ev1 ++ ev2). by rewrite E2, E1, app_assoc.
  Qed.
  Lemma session_reach a b : reach a -> session a b -> reach b.
  Proof. intros R H. unfold multi_reachable in *. etransitivity; [exact R|]. eapply rtc_subrel; [|exact H]. intros x1 x2 [H1 _]. by left. Qed.
  Lemma mfrozen_run a b ev : session a b -> reach a -> good_log (mu_log b) -> mu_log b = mu_log a ++ ev -> (forall z, Save d z ∉ calls_of ev) -> mfrozen a -> mfrozen b.
  Proof.
    intros H. revert ev. induction H as [a|a b c Hab Hbc IH]; [done|]. intros ev R Hg Hlog Hev F. destruct Hab as [Hab [u Hu]].
    destruct (session_log _ _ Hbc) as [ev2 E2]. destruct (m_live_log _ _ Hab) as [ev1 E1]. assert (ev = ev1 ++ ev2) as ->. { rewrite E2, E1, <- app_assoc in Hlog. by apply app_inv_head in Hlog. }
    assert (good_log (mu_log b)) as Hgb. { intros c0 Hc0. apply Hg. rewrite E2, calls_app. apply elem_of_app. by left. }
    assert (reach b) as Rb by (unfold multi_reachable in *; eapply rtc_r; [exact R|by left]).
    apply (IH ev2); [done|done|done| |].
    - intros z Hz. apply (Hev z). rewrite calls_app. apply elem_of_app. by right.
    - eapply mfrozen_step; [exact R|exact F|exact Hab|exact Hgb|exact E1| | |].
      + intros z Hz. apply (Hev z). rewrite calls_app. apply elem_of_app. by left.
      + destruct (proj_step _ _ _ _ _ _ [] Hab Hu) as [? _]. done.
      + intros g Hl. unfold mu_open in Hu. congruence.
  Qed.
  Lemma mfrozen_found a i terms len size nft docs : mfrozen a -> mu_returned a i terms f len size nft docs -> t0 ∈ terms -> docs !! d = Some x.
  Proof.
    intros (u & _ & _ & _ & _ & _ & _ & Hq) [ncpu Hi] Ht. destruct (Forall_lookup_1 _ _ _ _ Hq Hi) as [K1 K2]. cbn in K1, K2. destruct (K2 eq_refl Ht) as [y Hy]. rewrite Hy. rewrite (K1 d y Hy eq_refl) in Hx. done.
  Qed.
End frozen.
(** A store just opened. *)
Lemma mfrozen_open compress decompress cs d f fd t a b u : multi_live compress decompress cs a b -> (exists g, y_proc (mu_sys a) = Loading g) -> mu_open b u -> listed (u_mem u) f t d -> load_doc decompress (y_fs (mu_sys b)) d = Some (Some fd) ->
  exists l0 a0, mfrozen decompress d f fd t l0 a0 b.
Proof.
  intros H [g Hg] Hu Hli Hl. unfold mu_open in *. inversion H; subst; cbn [mu_sys y_proc] in *; try done.
  - match goal with K : forall u, _ <> Up u |- _ => by destruct (K u) end.
  - match goal with K : y_proc y' = Up _ |- _ => rewrite Hu in K; injection K as <- end. match goal with K : loaded _ _ |- _ => destruct (at_addr_open _ _ _ _ _ K Hli) as (l0 & a0 & Ha) end.
    exists l0, a0, u. unfold mu_open. cbn. split; [done|]. split; [done|]. match goal with K : live_step _ _ _ _ _ |- _ => rename K into St end.
    assert (lr_page (c_cache (u_mem u)) = ∅ /\ w_buf (u_dw u) = ∅) as [E1 E2].
    { inversion St; subst; cbn [y_proc] in *; try congruence; injection Hu as ->; match goal with G : opened _ _ _ _ _ |- _ => inversion G; subst end; done. }
    split; [intros e l; by rewrite E1, lookup_empty|]. split; [done|]. split; [by intros th ?%elem_of_nil|]. split; [by rewrite E2, lookup_empty|constructor].
  - congruence.
Qed.
