(** Searches that run on the disk storage while several goroutines save (C66, C68): what a
    search holds at each moment. *)
From Verif Require Import Base M_Field M_LRU S_Visits M_Memory M_File M_Serialize M_Num M_FanIn M_Search M_Concurrent M_SearchConc M_Disk M_DiskBusy M_DiskMulti P_Base P_FanIn P_Search P_FanIn2 S_Concurrent P_Concurrent P_Concurrent2 P_SearchConc P_SearchConc2 P_SearchConc3 P_LRU P_DiskBase P_DiskInv P_DiskMem P_DiskWriter P_DiskIndex3 P_DiskDocs P_DiskBusy P_DiskBusy2 P_DiskBusy3 P_DiskBusy4 P_DiskBusy5 S_Disk S_DiskMulti.
#[local] Open Scope nat_scope.
#[local] Opaque serialize_metrics serialize_nft serialize_field_map serialize_index deserialize_index deserialize_nft deserialize_field_map deserialize_metrics.
Notation ownl := (gmap nat string).
Notation owna := (gmap nat (string * string)).

(** The posting was loaded when the store was opened, or a call of its is in the history. *)
Definition posted_in (m : cmem) (log : list event) (f t d : string) : Prop := listed m f t d \/ saved_posting log f t d.
Definition sets_ok (m : cmem) (log : list event) (sh : shared) (oa : owna) : Prop :=
  forall a S f t d, k_sets sh !! a = Some S -> oa !! a = Some (f, t) -> is_Some (S !! d) -> posted_in m log f t d.
Definition fnd (m : cmem) (log : list event) (f : string) (terms : list string) (d : string) : Prop := exists t, t ∈ terms /\ posted_in m log f t d.
Definition grown (sh sh' : shared) : Prop := forall a, dom (set_at sh a) ⊆ dom (set_at sh' a).
Definition term_set (terms : list string) (f : string) (oa : owna) (a : nat) : Prop := exists t, t ∈ terms /\ oa !! a = Some (f, t).
Definition okr (terms : list string) (f : string) (sh : shared) (ol : ownl) (oa : owna) (L : string -> Prop) (p : rd1) : Prop :=
  match p with
  | RTerm t => t ∈ terms
  | RMap t l => t ∈ terms /\ ol !! l = Some f
  | RSet a => term_set terms f oa a
  | RRange a must _ => term_set terms f oa a /\ must ⊆ dom (set_at sh a)
  | RId a must _ id => term_set terms f oa a /\ must ⊆ dom (set_at sh a) /\ L id
  | REnd => True
  end.
Lemma okr_le terms f sh sh' ol ol' oa oa' (L L' : string -> Prop) p : grown sh sh' -> ol ⊆ ol' -> oa ⊆ oa' -> (forall id, L id -> L' id) -> okr terms f sh ol oa L p -> okr terms f sh' ol' oa' L' p.
Proof.
  intros G K1 K2 K3. assert (forall a, term_set terms f oa a -> term_set terms f oa' a) as K. { intros a (t & H1 & H2). exists t. split; [done|]. by eapply lookup_weaken. }
  destruct p; cbn; try done.
  - intros [H1 H2]. split; [done|]. by eapply lookup_weaken.
  - auto.
  - intros [H1 H2]. split; [auto|]. etransitivity; [exact H2|apply G].
  - intros (H1 & H2 & H3). split; [auto|]. split; [|auto]. etransitivity; [exact H2|apply G].
Qed.
Lemma okr_step terms f sh ol oa m log p p' : own_sh sh ol oa -> sets_ok m log sh oa -> rd1_step f sh p p' -> okr terms f sh ol oa (fnd m log f terms) p -> okr terms f sh ol oa (fnd m log f terms) p'.
Proof.
  intros W HS H O. inversion H; subst; cbn in *; try done.
  - split; [done|]. by apply (o_idx _ _ _ W).
  - destruct O as [O1 O2]. destruct (k_maps sh !! l) as [mp|] eqn:Em; cbn in *; [|match goal with K : _ !! t = Some a |- _ => by destruct (lookup_empty_Some (M := gmap string) _ _ K) end].
    destruct (o_set _ _ _ W _ _ _ _ Em ltac:(eassumption)) as (f' & E1 & E2). rewrite O2 in E1. injection E1 as <-. by exists t.
  - destruct O as [(t & O1 & O2) O3]. split; [by exists t|]. split; [done|]. exists t. split; [done|]. match goal with K : is_Some (set_at sh a !! id) |- _ => rename K into Hi end. unfold set_at in Hi.
    destruct (k_sets sh !! a) as [S|] eqn:E; cbn in Hi; [by apply (HS a S)|]. destruct Hi as [? Hi]. by destruct (lookup_empty_Some (M := gmap string) _ _ Hi).
Qed.
Lemma okr_send terms f sh ol oa L p x p' : rd1_send p x p' -> okr terms f sh ol oa L p -> L x /\ okr terms f sh ol oa L p'.
Proof. intros H O. inversion H; subst. cbn in *. tauto. Qed.
Notation anyr := (fun _ _ : rd1 => True).
Definition mqok (terms : list string) (f : string) (sh : shared) (ol : ownl) (oa : owna) (L : string -> Prop) (E : benv) (q : msearch) : Prop :=
  match q with
  | MqIds _ _ _ w => inv2 anyr rd1_send rd1_stop (RTerm <$> terms) w /\ fan_all (okr terms f sh ol oa L) L w
  | MqFields _ _ _ w => (exists tasks, inv2 anyb bbatch_send bbatch_stop tasks w) /\ fan_all (okb E) (vals E) w
  | MqRet _ _ _ docs => vals E docs
  | _ => True
  end.
Lemma mqok_le terms f sh sh' ol ol' oa oa' (L L' : string -> Prop) E E' q : grown sh sh' -> ol ⊆ ol' -> oa ⊆ oa' -> (forall id, L id -> L' id) -> env_le E E' -> mqok terms f sh ol oa L E q -> mqok terms f sh' ol' oa' L' E' q.
Proof.
  intros G K1 K2 K3 K4. destruct q; cbn; try done.
  - intros [H1 H2]. split; [done|]. eapply fan_all_impl; [| |exact H2]; [intros p; by apply okr_le|done].
  - intros [H1 H2]. split; [done|]. eapply fan_all_impl; [| |exact H2]; [intros p; by apply okb_le|intros x; by apply vals_le].
  - by apply vals_le.
Qed.
Lemma mqok_step decompress ncpu terms f sh m s q m' q' log ol oa E : msearch_step decompress ncpu terms f sh m s q (m', q') ->
  own_sh sh ol oa -> sets_ok m log sh oa -> (forall id, fnd m log f terms id -> e_id E id) -> mqok terms f sh ol oa (fnd m log f terms) E q ->
  (m' = m /\ mqok terms f sh ol oa (fnd m log f terms) E q') \/
  (exists len n nft w w' p p', q = MqFields len n nft w /\ q' = MqFields len n nft w' /\ bbatch_step decompress f s (m, p) (m', p') /\ fan2_inner p p' w w' /\ okb E p /\
     forall L' E', env_le E E' -> okb E' p' -> mqok terms f sh ol oa L' E' (MqFields len n nft w')).
Proof.
  intros H W HS K2 O. inversion H; subst; try (left; split; [done|]; done).
  - left. split; [done|]. split; [apply inv2_init|]. apply fan_all_init, Forall_fmap, Forall_forall. intros t Ht. done.
  - left. split; [done|]. destruct O as [O1 O2]. split; [by eapply inv2_any|]. eapply fan_all_step; [| |eassumption|exact O2]; [intros p p'; by apply okr_step|intros p x p'; apply okr_send].
  - left. split; [done|]. match goal with K : fan2_done w |- _ => rename K into Dw end. destruct O as [O1 O2]. destruct (inv2_done _ _ _ _ _ O1 Dw) as [_ Es]. split; [eexists; rewrite Es; apply inv2_init|]. apply fan_all_init.
    destruct O2 as (_ & _ & Hg). apply Forall_fmap. apply Forall_forall. intros b Hb. cbn. split; [|apply vals_empty]. apply Forall_forall. intros id Hid. apply K2. rewrite Forall_forall in Hg. apply Hg.
    destruct (batches_props (f2_got w)) as [_ B]. apply B. apply elem_of_list_In, in_concat. exists b. split; by apply elem_of_list_In.
  - left. split; [done|]. destruct O as [[tasks O1] O2]. split; [exists tasks; by eapply inv2_any|]. eapply fan_all_step; [| |eassumption|exact O2]; [done|intros p x p'; apply okb_send].
  - right. destruct O as [[tasks O1] O2]. exists len, size, nft, w, w', p, p'. do 4 (split; [done|]). pose proof (fan_inner_ok _ _ _ _ _ _ ltac:(eassumption) O2) as Op. split; [done|].
    intros L' E' L1 Op'. split; [exists tasks; eapply (inv2_any _ _ 0 0); [|exact O1]; by eapply (inner_step _ _ _ _ p p' w w' ltac:(eassumption) anyb)|].
    eapply fan_all_inner; [eassumption| |eapply fan_all_impl; [| |exact O2]; [intros p0; by apply okb_le|intros x; by apply vals_le]]. done.
  - left. split; [done|]. destruct O as [_ (_ & _ & Hg)]. cbn. intros d x Hx. destruct (merge_in _ _ _ Hx) as (m0 & G1 & G2). rewrite Forall_forall in Hg. by apply (Hg m0 G1).
Qed.
(** What a search that has run for a while knows. *)
Definition menv (m : cmem) (log : list event) (own : ownl) (f : string) (terms : list string) : benv :=
  mkEnv (fnd m log f terms) (ptr m) (fun d l => own !! l = Some d) (fun _ => True) (fun d l => own !! l = Some d)
    (fun d x => fnd m log f terms d /\ (plain_doc d -> saved_as log d f x)).
Lemma posted_le m m' log ev f t d : c_index m' = c_index m -> posted_in m log f t d -> posted_in m' (log ++ ev) f t d.
Proof. intros E [H|H]; [left; unfold listed, listed_set in *; by rewrite E|right; by apply sp_app]. Qed.
Lemma fnd_le m m' log ev f terms d : c_index m' = c_index m -> fnd m log f terms d -> fnd m' (log ++ ev) f terms d.
Proof. intros E (t & H1 & H2). exists t. split; [done|]. by eapply posted_le. Qed.
Lemma menv_le m m' log ev own own' f terms : c_index m' = c_index m -> ptrs_le m m' -> own ⊆ own' -> env_le (menv m log own f terms) (menv m' (log ++ ev) own' f terms).
Proof.
  intros Hg Hp Ho. assert (forall d, fnd m log f terms d -> fnd m' (log ++ ev) f terms d) as Hf by (intros d; by apply fnd_le).
  repeat split; cbn; eauto.
  - intros id l _ H. by eapply lookup_weaken.
  - intros id l _ H. by eapply lookup_weaken.
  - destruct H as [H _]. auto.
  - destruct H as [_ H]. intros Hd. apply saved_as_app. auto.
Qed.
Definition mq_ok (m : cmem) (log : list event) (sh : shared) (own ol : ownl) (oa : owna) (q : mquery) : Prop :=
  mqok (mq_terms q) (mq_field q) sh ol oa (fnd m log (mq_field q) (mq_terms q)) (menv m log own (mq_field q) (mq_terms q)) (mq_pc q).
Lemma mq_le m m' log ev sh sh' own own' ol ol' oa oa' q : c_index m' = c_index m -> ptrs_le m m' -> own ⊆ own' -> grown sh sh' -> ol ⊆ ol' -> oa ⊆ oa' ->
  mq_ok m log sh own ol oa q -> mq_ok m' (log ++ ev) sh' own' ol' oa' q.
Proof. intros H1 H2 H3 H4 H5 H6. apply mqok_le; try done; [intros id; by apply fnd_le|by apply menv_le]. Qed.
Lemma grown_refl sh : grown sh sh.
Proof. by intros a. Qed.
Lemma grown_t s pc s' pc' : t_step (s, pc) (s', pc') -> grown s s'.
Proof. intros H a. by eapply sets_grow. Qed.
Lemma sets_le m m' log ev sh oa : c_index m' = c_index m -> sets_ok m log sh oa -> sets_ok m' (log ++ ev) sh oa.
Proof. intros E H a S f t d A1 A2 A3. eapply posted_le; [done|by eapply H]. Qed.
Lemma sets_opened m log sh : loaded m sh -> exists (ol : ownl) (oa : owna), own_sh sh ol oa /\ sets_ok m log sh oa.
Proof.
  intros (V & ol & oa & on & O1 & O2 & O3 & O4 & _). exists ol, oa. assert (mm_index (view sh) = c_index m) as Vi by (by rewrite V). split.
  - constructor; [intros f l; apply O1|done|done|]. intros l mp t a Hm Ht. assert (is_Some (ol !! l)) as [f Hf] by (apply O2; by eexists).
    exists f. split; [done|]. apply O4. exists l, mp. split; [by apply O1|done].
  - intros a S f t d A1 A2 A3. left. unfold listed, listed_set. rewrite <- Vi. cbn [view mm_index]. apply O4 in A2 as (l & mp & B1 & B2 & B3).
    rewrite lookup_fmap, B1. cbn. unfold sets_at. rewrite lookup_fmap, B2. cbn. rewrite B3. cbn. rewrite A1. exact A3.
Qed.
