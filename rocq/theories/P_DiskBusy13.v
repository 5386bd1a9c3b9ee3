(** Searches that run on the disk storage while the client saves (C64): a document that
    is not saved in this session is found, whatever the cache. *)
From Verif Require Import Base M_Field M_LRU S_Visits M_Memory M_File M_Serialize M_Num M_FanIn M_Search M_SearchConc M_Disk P_Base P_LRU P_FanIn2 P_SearchConc P_DiskBase P_DiskInv P_DiskMem P_DiskWriter P_DiskDocs P_DiskBusy P_DiskBusy2 P_DiskBusy3 P_DiskBusy4 P_DiskBusy5 P_DiskBusy6 P_DiskBusy7 P_DiskBusy8 P_DiskBusy9 P_DiskBusy10 M_DiskBusy S_Disk.
#[local] Open Scope nat_scope.
#[local] Opaque serialize_metrics serialize_nft serialize_field_map serialize_index deserialize_index deserialize_nft deserialize_field_map deserialize_metrics.

(** Two things known at the same time. *)
Definition and_env (E E' : benv) : benv :=
  mkEnv (fun id => e_id E id /\ e_id E' id) (fun id e => e_ptr E id e /\ e_ptr E' id e) (fun id l => e_map E id l /\ e_map E' id l) (fun id => e_load E id /\ e_load E' id)
    (fun id l => e_put E id l /\ e_put E' id l) (fun id x => e_val E id x /\ e_val E' id x).
Lemma vals_and E E' acc : vals E acc -> vals E' acc -> vals (and_env E E') acc.
Proof. intros H1 H2 d x Hx. split; [by apply H1|by apply H2]. Qed.
Lemma okb_and E E' p : okb E p -> okb E' p -> okb (and_env E E') p.
Proof.
  assert (forall ids, Forall (e_id E) ids -> Forall (e_id E') ids -> Forall (e_id (and_env E E')) ids) as LF. { intros ids H1 H2. apply Forall_forall. intros id Hid. rewrite Forall_forall in H1, H2. split; auto. }
  destruct p; cbn.
  - intros [H1 H2] [K1 K2]. split; [by apply LF|by apply vals_and].
  - intros (H1 & H2 & H3 & H4) (K1 & K2 & K3 & K4). split_and!; auto using vals_and.
  - intros (H1 & H2 & H3 & H4) (K1 & K2 & K3 & K4). split_and!; auto using vals_and.
  - intros (H1 & H2 & H3 & H4) (K1 & K2 & K3 & K4). split_and!; auto using vals_and.
  - intros (H1 & H2 & H3 & H4) (K1 & K2 & K3 & K4). split_and!; auto using vals_and.
  - intros H1 H2. apply Forall_forall. intros kx Hk. rewrite Forall_forall in H1, H2. split; [by apply H1|by apply H2].
Qed.
Lemma qok_and {N} terms (L L' : string -> Prop) E E' (q : dsearch N) : qok terms L E q -> qok terms L' E' q -> qok terms L (and_env E E') q.
Proof.
  destruct q; cbn; try done.
  - intros [[tasks H1] H2] [_ K2]. split; [by exists tasks|]. pose proof (fan_all_and _ _ _ _ _ H2 K2) as H. eapply fan_all_impl; [| |exact H]; [intros p [? ?]; by apply okb_and|intros x [? ?]; by apply vals_and].
  - intros H1 H2. by apply vals_and.
Qed.

Section frozen.
  Variables (compress : bytes -> bytes) (decompress : bytes -> option bytes) (cache_size : Z) (N : numops) (ncpu : nat).
  Hypothesis gz : gzip_ok compress decompress.
  Hypothesis pos : (0 < cache_size)%Z.
  Notation blive := (busy_live compress decompress cache_size N ncpu).
  Notation sound := (sound compress cache_size N).
  Variables (d f : string) (fd0 : gmap string field) (x : field) (t0 : string).
  Hypothesis Hd : plain_doc d.
  Hypothesis Hx : fd0 !! f = Some x.
  (** Every copy of the document is the one in the file. *)
  Definition copies (m : cmem) : Prop := forall e l, lr_page (c_cache m) !! e = Some (d, l) -> c_heap m !! l = Some fd0.
  Definition fenv (m : cmem) (f' : string) : benv :=
    mkEnv (fun _ => True) (fun id e => id = d -> ptr m d e) (fun id l => id = d -> c_heap m !! l = Some fd0) (fun _ => True) (fun id l => id = d -> c_heap m !! l = Some fd0)
      (fun id y => id = d -> fd0 !! f' = Some y).
  Lemma fenv_le m m' f' : ptrs_le m m' -> (forall l, c_heap m !! l = Some fd0 -> c_heap m' !! l = Some fd0) -> env_le (fenv m f') (fenv m' f').
  Proof. intros H1 H2. repeat split; cbn; auto. Qed.
  Lemma fenv_same m m' f' : c_cache m' = c_cache m -> c_heap m' = c_heap m -> env_le (fenv m f') (fenv m' f').
  Proof. intros E1 E2. apply fenv_le; [|by rewrite E2]. intros k e [l Hl]. exists l. by rewrite E1. Qed.
  (** A batch that will still report the document. *)
  Definition pendl (p : bbatch) : Prop :=
    match p with
    | BDocs ids acc => d ∈ ids \/ has_doc d acc
    | BPtr id _ ids acc | BMap id _ ids acc | BLoad id ids acc => id = d \/ d ∈ ids \/ has_doc d acc
    | BPut _ _ ids acc => d ∈ ids \/ has_doc d acc
    | BOut kxs => d ∈ kxs.*1
    end.
  Lemma pendl_send p y p' : bbatch_send p y p' -> pendl p -> has_doc d y \/ pendl p'.
  Proof. intros H P. inversion H; subst. cbn in *. apply elem_of_cons in P as [P|P]; [left|by right]. unfold has_doc. rewrite P, lookup_singleton. by eexists. Qed.
  Lemma has_new id acc : id = d -> has_doc d (add_field f id fd0 acc).
  Proof. intros ->. unfold has_doc, add_field. rewrite Hx, lookup_insert. by eexists. Qed.
  Definition qfindl (m : cmem) (q : dsearch N) : Prop :=
    match q with
    | SIds _ _ _ w => coming (pendt d m f) (fun id => id = d) w
    | SFields _ _ _ w => coming pendl (has_doc d) w
    | SRet r => has_doc d (sr_docs r)
    | _ => True
    end.
  Lemma qfindl_grows m m' q : grows m m' -> qfindl m q -> qfindl m' q.
  Proof. intros Hg. destruct q; try done. cbn. apply coming_impl. intros p. by apply pendt_grows. Qed.
  Lemma batch_frozen (K : string -> Prop) f' s m m' p p' : load_doc decompress s d = Some (Some fd0) -> cache_ok cache_size K (c_cache m) -> copies m -> bbatch_step decompress f' s (m, p) (m', p') -> okb (fenv m f') p ->
    copies m' /\ env_le (fenv m f') (fenv m' f') /\ okb (fenv m' f') p' /\ (f' = f -> pendl p -> pendl p').
  Proof.
    intros Hl Hc Hcp Hb Op.
    assert (copies m' /\ env_le (fenv m f') (fenv m' f')) as [Hcp' Hle].
    { inversion Hb; subst; try (split; [done|apply env_refl]).
      - match goal with G : lru_get _ _ = _ |- _ => destruct (get_keeps _ _ _ _ G) as (E1 & _) end. split; [intros e1 l1 H1; cbn in *; rewrite E1 in H1; eauto|]. apply fenv_le; [|done]. intros k e1 [l1 H1]. exists l1. cbn. by rewrite E1.
      - match goal with G : lru_get _ _ = _ |- _ => destruct (get_keeps _ _ _ _ G) as (E1 & _) end. split; [intros e1 l1 H1; cbn in *; rewrite E1 in H1; eauto|]. apply fenv_le; [|done]. intros k e1 [l1 H1]. exists l1. cbn. by rewrite E1.
      - assert (forall l1, c_heap m !! l1 = Some fd0 -> <[l := fd]> (c_heap m) !! l1 = Some fd0) as Hh. { intros l1 H1. rewrite lookup_insert_ne; [done|congruence]. } split; [intros e1 l1 H1; cbn in *; apply Hh; eauto|]. apply fenv_le; [|exact Hh]. intros k e1 [l2 G2]. by exists l2.
      - pose proof Hc as (kvs & HR & _). cbn in Op. destruct Op as (Oput & _). match goal with G : lru_put _ _ _ = _ |- _ => rename G into Hp end. split.
        + intros e1 l1 H1. cbn in *. destruct (put_effect _ _ _ _ Hp) as [(e2 & k' & v' & T1 & P1 & E1 & _)|(T1 & e2 & t & E1 & _)]; rewrite E1 in H1; apply lookup_insert_Some in H1 as [[<- H1]|[_ H1]]; eauto.
          * injection H1 as -> <-. apply Oput. destruct (cache_page _ _ _ _ _ Hc T1) as [l2 Hl2]. congruence.
          * injection H1 as -> <-. by apply Oput.
        + apply fenv_le; [|done]. intros k e [l0 Hl0]. destruct (put_fresh _ _ _ _ _ HR Hp e _ Hl0) as (v' & E & _). exists v'. cbn. exact E. }
    split; [done|]. split; [done|]. split.
    - eapply okb_step; [exact Hle| |exact Hb|exact Op]. inversion Hb; subst; cbn; try done.
      + intros c1 r _ G E. destruct (get_keeps _ _ _ _ G) as (E1 & _ & _ & ->). destruct (lr_table (c_cache m) !! id) as [e1|] eqn:Et; [|done]. intros ->. destruct (cache_page _ _ _ _ _ Hc Et) as [l1 Hl1]. exists l1. injection E as ->. cbn. by rewrite E1.
      + intros c1 r _ G E. destruct (get_keeps _ _ _ _ G) as (E1 & _ & _ & ->). destruct (lr_table (c_cache m) !! id) as [e1|] eqn:Et; [|done]. intros ->. destruct (cache_page _ _ _ _ _ Hc Et) as [l1 Hl1]. exists l1. injection E as ->. cbn. by rewrite E1.
      + intros l9 _ He Hde _ ->. destruct (He eq_refl) as [l1 Hl1]. unfold lru_deref in Hde. rewrite Hl1 in Hde. injection Hde as <-. eauto.
      + intros fd1 z _ Hl1 Hh Hz _ ->. rewrite (Hl1 eq_refl) in Hh. injection Hh as <-. done.
      + intros fd1 l1 _ _ Hld Hf E. congruence.
      + intros fd1 l1 _ _ Hld Hf E. split; [|intros z Hz ->; rewrite Hl in Hld; injection Hld as <-; done]. intros ->. rewrite Hl in Hld. injection Hld as <-. pose proof (f_equal c_heap E) as E'. cbn in E'. rewrite E'. by rewrite lookup_insert.
    - intros -> P. inversion Hb; subst; cbn [pendl okb] in *.
      + destruct P as [[->|P]%elem_of_cons|P]; auto.
      + destruct P as [[->|P]%elem_of_cons|P]; auto.
      + auto.
      + destruct P as [->|[P|P]]; [right|by left|right; by apply has_add]. destruct Op as (Ol & _). cbn in Ol. rewrite (Ol eq_refl) in *. match goal with G : Some fd0 = Some _ |- _ => injection G as <- end. by apply has_new.
      + destruct P as [->|[P|P]]; [|by left|by right]. congruence.
      + destruct P as [->|[P|P]]; [right|by left|right; by apply has_add]. match goal with G : load_doc _ _ d = _ |- _ => rewrite Hl in G; injection G as <- end. by apply has_new.
      + done.
      + destruct P as [P|[z P]]; [by apply elem_of_nil in P|]. apply elem_of_list_fmap. exists (d, z). split; [done|]. match goal with G : _ ≡ₚ _ |- _ => rewrite G end. by apply elem_of_map_to_list.
  Qed.
  Definition fr_ok (m : cmem) (t : query N) : Prop := qok t.1.1 anyid (fenv m t.1.2) t.2 /\ (t.1.2 = f -> t0 ∈ t.1.1 -> qfindl m t.2).
  Lemma fr_ok_le m m' t : grows m m' -> env_le (fenv m t.1.2) (fenv m' t.1.2) -> fr_ok m t -> fr_ok m' t.
  Proof. intros Hg Hle [K1 K2]. split; [eapply qok_le; [| |exact K1]; [done|exact Hle]|]. intros E W. eapply qfindl_grows; [exact Hg|]. by apply K2. Qed.
  (** One step of a search. *)
  Lemma search_frozen terms f' u s (q : dsearch N) m' q' log own (K : string -> Prop) : dsearch_step decompress N ncpu terms f' u s q (m', q') ->
    load_doc decompress s d = Some (Some fd0) -> cache_ok cache_size K (c_cache (u_mem u)) -> copies (u_mem u) -> listed (u_mem u) f t0 d ->
    q_ok N (u_mem u) log own (terms, f', q) -> fr_ok (u_mem u) (terms, f', q) ->
    copies m' /\ (forall f1, env_le (fenv (u_mem u) f1) (fenv m' f1)) /\ fr_ok m' (terms, f', q').
  Proof.
    intros H Hl Hc Hcp Hli Q [K1 K2]. unfold q_ok in Q. cbn in Q, K1, K2. pose proof K1 as K1'.
    destruct (qok_step _ _ _ _ _ _ _ _ _ anyid (fenv (u_mem u) f') H (fun _ _ _ _ => I) (fun _ _ => I) K1) as [[-> Q']|(len & size & nft & w & w' & p & p' & -> & -> & Hb & Hin & Op & QE)].
    - split; [done|]. split; [intros f1; apply env_refl|]. split; [done|]. cbn. intros -> W. specialize (K2 eq_refl W). inversion H; subst; cbn [qfindl] in *; try done.
      + eapply coming_init; [apply elem_of_list_fmap_1; exact W|]. cbn. done.
      + eapply coming_step; [| | |eassumption|exact K2]; [intros p p'; apply pendt_step|intros p y p'; apply pendt_send|]. intros p Hp. unfold bterm_stop in Hp. subst p. intros Hz. exact Hz.
      + destruct Q as [Q1 Q2]. pose proof (coming_done _ _ _ _ _ _ _ Q1 ltac:(eassumption) K2) as Hg. apply Exists_exists in Hg as (id & G1 & ->). destruct (batches_props (f2_got w)) as [_ B]. apply B in G1. apply elem_of_list_In, in_concat in G1 as (b & B1 & B2). apply elem_of_list_In in B1, B2.
        eapply (coming_init _ _ _ (BDocs b ∅)); [by apply (elem_of_list_fmap_1 (fun b => BDocs b ∅))|]. cbn. by left.
      + eapply coming_step; [| | |eassumption|exact K2]; [done|intros p y p'; apply pendl_send|]. intros p Hp. unfold bbatch_stop in Hp. subst p. cbn. by apply not_elem_of_nil.
      + match goal with G : fan2_inner _ _ _ _ |- _ => rename G into Gi end. destruct K1' as [_ K1'']. pose proof (fan_inner_ok _ _ _ _ _ _ Gi K1'') as Op.
        eapply (coming_inner bbatch_send bbatch_stop); [exact Gi| |exact K2]. match goal with G : bbatch_step _ _ _ _ _ |- _ => by apply (batch_frozen _ _ _ _ _ _ _ Hl Hc Hcp G Op) end.
      + destruct Q as [[tasks Q1] _]. pose proof (coming_done _ _ _ _ _ _ _ Q1 ltac:(eassumption) K2) as Hg. by apply merge_some.
    - destruct (batch_frozen _ _ _ _ _ _ _ Hl Hc Hcp Hb Op) as (B1 & B2 & B3 & B4).
      split; [done|]. split. { intros f1. destruct B2 as (_ & E2 & E3 & _ & E5 & _). split; [done|]. split; [exact E2|]. split; [exact E3|]. split; [done|]. split; [exact E5|done]. }
      split; [by apply QE|]. cbn. intros -> W. eapply (coming_inner bbatch_send bbatch_stop); [exact Hin|by apply B4|]. by apply K2.
  Qed.
  Definition frozen (b : busy N) : Prop :=
    exists u, y_proc (by_sys b) = Up u /\ load_doc decompress (y_fs (by_sys b)) d = Some (Some fd0) /\ copies (u_mem u) /\ listed (u_mem u) f t0 d /\
      (forall z, Save d z ∉ pending (u_pc u)) /\ w_buf (u_dw u) !! d = None /\ Forall (fr_ok (u_mem u)) (by_qs b).
  Lemma frozen_client s u log y' : base (mkSys s (Up u) log) -> (forall z, Save d z ∉ pending (u_pc u)) -> w_buf (u_dw u) !! d = None -> live_step compress decompress cache_size (mkSys s (Up u) log) y' -> forall u', y_proc y' = Up u' ->
    load_doc decompress (y_fs y') d = load_doc decompress s d /\ w_buf (u_dw u') !! d = None.
  Proof.
    intros [Bl [_ Bp]] Hp Hw H u' Hu'. cbn in Bl, Bp. assert (forall s', keeps OD s s' -> load_doc decompress s' d = load_doc decompress s d) as LK. { intros s' Hk. unfold load_doc. rewrite (Hk ["docs"; "metrics"; d]) by apply owner_d. done. }
    inversion H; subst; cbn [y_proc y_fs] in *; injection Hu' as <-.
    - match goal with G : up_step _ _ _ _ _ |- _ => rename G into HS end. destruct (up_step_who _ _ _ _ _ _ _ Bl Bp HS) as [[-> Hq]|[Hq|[Hq|[Hq|[Hq|Hq]]]]].
      + split; [done|]. inversion Hq; subst; cbn [u_dw u_pc] in *; try done. cbn. unfold d_recv. rewrite lookup_insert_ne; [done|]. intros ->. apply (Hp x0). left.
      + destruct Hq as (_ & E & _ & K & _). rewrite E. auto.
      + destruct Hq as (_ & E & _ & K & _). rewrite E. auto.
      + destruct (d_cases _ _ _ _ _ _ _ d Bl Bp Hq Hd) as [(E1 & E2)|[(ks & b & pc & E1 & E2 & _)|(ks & b & E1 & _ & _ & E2 & _)]].
        * split; [|by rewrite E2]. unfold load_doc. unfold doc_file in E1. by rewrite E1.
        * rewrite Hw in E2. by destruct E2.
        * rewrite Hw in E2. by destruct E2.
      + destruct Hq as (_ & E & _ & _ & K & _). rewrite E. auto.
      + destruct Hq as (_ & E & _ & _ & K & _). rewrite E. auto.
    - match goal with G : up_tick _ _ |- _ => inversion G; subst; cbn [u_dw] in * end; try done. match goal with G : w_tick _ _ |- _ => inversion G; subst end. done.
    - split; [done|]. match goal with G : up_call _ _ _ |- _ => inversion G; subst end; done.
  Qed.
  Lemma frozen_step a b ev : base (by_sys a) -> sound a -> frozen a -> blive a b -> y_log (by_sys b) = y_log (by_sys a) ++ ev -> (forall z, Save d z ∉ calls_of ev) -> frozen b.
  Proof.
    intros Ba [Hf Hs] (u & Hu & Hl & Hcp & Hli & Hp & Hw & Hq) H Hlog Hev. rewrite Hu in Hs. destruct Hs as (own & HU & HQ). pose proof (uo_mem _ _ _ _ _ _ HU) as Hk. pose proof (mo_cache _ _ _ _ _ Hk) as Hc.
    destruct H as [y y' dp qs HL Hnd|s u0 log dp m pc dp' qs HD|s u0 log dp qs terms f'|s u0 log dp qs i terms f' q m q' Hi HS]; cbn [by_sys y_proc y_log by_doc by_qs y_fs] in *.
    - destruct y as [s p log]. cbn [y_proc y_log y_fs] in Hu, Hlog, Hl, Ba. subst p. destruct (live_client _ _ _ s u _ y' (uo_get _ _ _ _ _ _ HU) Hnd HL) as (s' & u' & ev' & -> & HC). cbn in Hlog. apply app_inv_head in Hlog as ->.
      destruct (frozen_client _ _ _ _ Ba Hp Hw HL u' eq_refl) as [F1 F2]. destruct HC as [C1 C2 C3 C4 C5 C6 C7 C8]. exists u'. cbn [by_sys y_proc y_log by_doc by_qs y_fs] in F1 |- *. split; [done|]. split; [congruence|].
      split; [intros e l; rewrite C1, C2; apply Hcp|]. split; [by apply C5|]. split; [intros z Hz; destruct (C4 _ Hz) as [?|?]; [by apply (Hp z)|by apply (Hev z)]|]. split; [done|].
      eapply Forall_impl; [exact Hq|]. intros t. apply fr_ok_le; [done|]. by apply fenv_same.
    - injection Hu as ->. pose proof (doc_step_index _ _ _ _ _ _ _ HD) as Hix. pose proof (uo_doc _ _ _ _ _ _ HU) as Hdoc. cbn in Hdoc.
      assert (forall z, u_pc u <> CDoc d z) as Hnd. { intros z E. apply (Hp z). rewrite E. left. }
      assert (forall m' pc' dp', copies m' -> Forall (fr_ok m') qs -> c_index m' = c_index (u_mem u) -> (forall c, c ∈ pending pc' -> c ∈ pending (u_pc u)) ->
        frozen (mkBusy (mkSys s (Up (with_mem u m' pc')) log) dp' qs)) as HG.
      { intros m1 pc1 dp1 G1 G2 G3 G4. eexists. cbn. split; [done|]. split; [done|]. split; [done|]. split; [eapply grows_same; [exact G3|done]|]. split; [intros z Hz; apply (Hp z); by apply G4|]. done. }
      assert (forall m' , c_index m' = c_index (u_mem u) -> ptrs_le (u_mem u) m' -> (forall l, own !! l = Some d -> c_heap (u_mem u) !! l = Some fd0 -> c_heap m' !! l = Some fd0) -> Forall (fr_ok m') qs) as HT.
      { intros m1 G1 G2 G3. apply Forall_forall. intros t Ht. rewrite Forall_forall in Hq, HQ. specialize (Hq t Ht). specialize (HQ t Ht). destruct Hq as [Q1 Q2]. split; [|intros E W; eapply qfindl_grows; [by apply grows_same|by apply Q2]].
        pose proof (qok_and _ _ _ _ _ _ Q1 HQ) as QA. eapply qok_le; [| |exact QA]; [done|]. split; [done|]. split; [intros id e [_ _] [Hx1 _] E; apply G2; auto|]. split; [|split; [done|split; [|by intros id y [? _]]]].
        - intros id l [_ _] [Hx1 Hx2] ->. cbn in Hx1, Hx2. apply G3; auto.
        - intros id l [_ _] [Hx1 Hx2] ->. cbn in Hx1, Hx2. apply G3; auto. }
      inversion HD; subst; match goal with G : _ = u_pc u |- _ => rename G into Hpc end.
      + match goal with G : lru_get _ _ = _ |- _ => destruct (get_keeps _ _ _ _ G) as (E1 & _) end. apply HG; [intros e1 l1; cbn; rewrite E1; apply Hcp| |done|by rewrite <- Hpc]. apply HT; [done| |done]. intros k e1 [l1 G1]. exists l1. cbn. by rewrite E1.
      + match goal with G : lru_get _ _ = _ |- _ => destruct (get_keeps _ _ _ _ G) as (E1 & _) end. assert (forall l1, c_heap (u_mem u) !! l1 = Some fd0 -> <[l := ∅]> (c_heap (u_mem u)) !! l1 = Some fd0) as Hh. { intros l1 G1. rewrite lookup_insert_ne; [done|congruence]. }
        apply HG; [intros e1 l1; cbn; rewrite E1; intros G1; apply Hh; by eapply Hcp| |done|by rewrite <- Hpc]. apply HT; [done| |intros l1 _; apply Hh]. intros k e1 [l1 G1]. exists l1. cbn. by rewrite E1.
      + apply HG; [done|done|done|by rewrite <- Hpc].
      + destruct Hdoc as (d1 & x1 & E1 & Ho). rewrite <- Hpc in E1. injection E1 as <- <-. assert (d0 <> d) as Hne. { intros ->. by apply (Hnd x0). }
        assert (forall l1, own !! l1 = Some d -> c_heap (u_mem u) !! l1 = Some fd0 -> <[l := <[f_name x0 := x0]> fd]> (c_heap (u_mem u)) !! l1 = Some fd0) as Hh. { intros l1 G1 G2. rewrite lookup_insert_ne; [done|congruence]. }
        apply HG; [|apply HT; [done|intros k e1 [l1 G1]; by exists l1|exact Hh]|done|by rewrite <- Hpc]. intros e1 l1 G1. cbn in *. apply Hh; [by apply (mo_page _ _ _ _ _ Hk e1)|by eapply Hcp].
      + destruct Hdoc as (d1 & x1 & E1 & Ho). rewrite <- Hpc in E1. injection E1 as <- <-. assert (d0 <> d) as Hne. { intros ->. by apply (Hnd x0). }
        match goal with G : lru_put _ _ _ = _ |- _ => rename G into Hpu end. pose proof Hc as (kvs & HR & _). apply HG; [| |done|by rewrite <- Hpc].
        * intros e1 l1 G1. cbn in *. destruct (put_effect _ _ _ _ Hpu) as [(e2 & k' & v' & T1 & P1 & E1 & _)|(T1 & e2 & t & E1 & _)]; rewrite E1 in G1; apply lookup_insert_Some in G1 as [[<- G1]|[_ G1]]; eauto.
          -- injection G1 as -> <-. destruct (cache_page _ _ _ _ _ Hc T1) as [l2 Hl2]. congruence.
          -- injection G1 as -> <-. done.
        * apply HT; [done| |done]. intros k e [l0 Hl0]. destruct (put_fresh _ _ _ _ _ HR Hpu e _ Hl0) as (v' & E & _). exists v'. cbn. exact E.
    - injection Hu as ->. exists u. cbn. do 6 (split; [done|]). apply Forall_app. split; [done|]. constructor; [|done]. split; cbn; done.
    - injection Hu as ->. pose proof Hq as Hqi. rewrite Forall_lookup in Hqi. specialize (Hqi _ _ Hi). pose proof HQ as HQi. rewrite Forall_lookup in HQi. specialize (HQi _ _ Hi).
      pose proof (search_index _ _ _ _ _ _ _ _ _ _ HS) as Hix. destruct (search_frozen _ _ _ _ _ _ _ _ _ _ HS Hl Hc Hcp Hli HQi Hqi) as (G1 & G2 & G3).
      eexists. cbn. split; [done|]. split; [done|]. split; [done|]. split; [eapply grows_same; [exact Hix|done]|]. split; [done|]. split; [done|]. apply Forall_insert; [|done].
      eapply Forall_impl; [exact Hq|]. intros t. apply fr_ok_le; [by apply grows_same|apply G2].
  Qed.
  Lemma frozen_run a b ev : rtc blive a b -> goodb compress cache_size N a -> good_log (y_log (by_sys b)) -> y_log (by_sys b) = y_log (by_sys a) ++ ev -> (forall z, Save d z ∉ calls_of ev) -> frozen a -> frozen b.
  Proof.
    intros H. revert ev. induction H as [a|a b c Hab Hbc IH]; [done|]. intros ev Ga Hg Hlog Hev F. pose proof (good_prefix _ _ _ _ _ _ _ Hbc Hg) as Hgb.
    destruct (live_log _ _ _ _ _ _ _ Hbc) as [ev2 E2]. destruct (live_log _ _ _ _ _ _ _ (rtc_once _ _ Hab)) as [ev1 E1]. assert (ev = ev1 ++ ev2) as ->. { rewrite E2, E1, <- app_assoc in Hlog. by apply app_inv_head in Hlog. }
    eapply (IH ev2); [by eapply live_good|done|done| |].
    - intros z Hz. apply (Hev z). rewrite calls_app. apply elem_of_app. by right.
    - eapply frozen_step; [apply Ga|apply Ga|exact F|exact Hab|exact E1|]. intros z Hz. apply (Hev z). rewrite calls_app. apply elem_of_app. by left.
  Qed.
  (** A store just opened. *)
  Lemma frozen_open a b u g : sound a -> y_proc (by_sys a) = Loading g -> blive a b -> y_proc (by_sys b) = Up u -> listed (u_mem u) f t0 d -> load_doc decompress (y_fs (by_sys b)) d = Some (Some fd0) -> frozen b.
  Proof.
    intros [_ Hs] Hg H Hu Hli Hl. rewrite Hg in Hs. destruct H as [y y' dp qs HL Hnd|s u0 log dp m pc dp' qs HD|s u0 log dp qs terms f'|s u0 log dp qs i terms f' q m q' Hi HS]; cbn [by_sys y_proc y_log by_doc by_qs y_fs] in *; try done.
    destruct Hs as [-> ->]. exists u. cbn. split; [done|]. split; [done|]. destruct y as [s p log]. cbn in Hg. subst p. inversion HL; subst; cbn in Hu; try done. injection Hu as ->. match goal with G : opened _ _ _ _ _ |- _ => inversion G; subst end. cbn in *. split; [|split; [done|split; [by intros z ?%elem_of_nil|split; [done|constructor]]]].
    intros e l. cbn. by rewrite lookup_empty.
  Qed.
  Lemma frozen_found b i terms r : frozen b -> by_qs b !! i = Some (terms, f, SRet r) -> t0 ∈ terms -> sr_docs r !! d = Some x.
  Proof.
    intros (u & _ & _ & _ & _ & _ & _ & Hq) Hi Ht. rewrite Forall_lookup in Hq. destruct (Hq _ _ Hi) as [K1 K2]. cbn in K1, K2. destruct (K2 eq_refl Ht) as [y Hy]. rewrite Hy. rewrite (K1 d y Hy eq_refl) in Hx. done.
  Qed.
End frozen.
