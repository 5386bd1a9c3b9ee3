(** Searches that run on the disk storage while the client saves (C64): what a search
    holds at each moment. *)
From Verif Require Import Base M_Field M_LRU M_Memory M_File M_Serialize M_Num M_FanIn M_Search M_SearchConc M_Disk M_DiskBusy P_FanIn P_Search P_FanIn2 P_SearchConc P_SearchConc3 P_DiskBusy P_DiskBusy2.
#[local] Open Scope nat_scope.

Definition listed (m : cmem) (f t d : string) : Prop := is_Some (listed_set m f t !! d).
(** What is known about ids ([Kid]), pointers, maps and values in the hands of a batch. *)
Record benv := mkEnv { e_id : string -> Prop; e_ptr : string -> nat -> Prop; e_map : string -> nat -> Prop; e_load : string -> Prop; e_put : string -> nat -> Prop; e_val : string -> field -> Prop }.
Definition vals (E : benv) (acc : gmap string field) : Prop := forall d x, acc !! d = Some x -> e_val E d x.
Definition okb (E : benv) (p : bbatch) : Prop :=
  match p with
  | BDocs ids acc => Forall (e_id E) ids /\ vals E acc
  | BPtr id e ids acc => e_ptr E id e /\ e_id E id /\ Forall (e_id E) ids /\ vals E acc
  | BMap id l ids acc => e_map E id l /\ e_id E id /\ Forall (e_id E) ids /\ vals E acc
  | BLoad id ids acc => e_load E id /\ e_id E id /\ Forall (e_id E) ids /\ vals E acc
  | BPut id l ids acc => e_put E id l /\ e_id E id /\ Forall (e_id E) ids /\ vals E acc
  | BOut kxs => Forall (fun kx => e_val E kx.1 kx.2) kxs
  end.
Definition env_le (E E' : benv) : Prop :=
  (forall id, e_id E id -> e_id E' id) /\ (forall id e, e_id E id -> e_ptr E id e -> e_ptr E' id e) /\ (forall id l, e_id E id -> e_map E id l -> e_map E' id l) /\
  (forall id, e_id E id -> e_load E id -> e_load E' id) /\ (forall id l, e_id E id -> e_put E id l -> e_put E' id l) /\ (forall d x, e_val E d x -> e_val E' d x).
Lemma env_refl E : env_le E E.
Proof. done. Qed.
Lemma vals_le E E' acc : env_le E E' -> vals E acc -> vals E' acc.
Proof. intros (_ & _ & _ & _ & _ & H) K d x Hx. apply H. by apply K. Qed.
Lemma okb_le E E' p : env_le E E' -> okb E p -> okb E' p.
Proof.
  intros L. pose proof L as (L1 & L2 & L3 & L4 & L5 & L6). assert (forall ids, Forall (e_id E) ids -> Forall (e_id E') ids) as LF by (intros ids H; by eapply Forall_impl).
  destruct p; cbn; try (intros (H1 & H2 & H3 & H4); split_and!; eauto using vals_le).
  - intros (H1 & H2). eauto using vals_le.
  - intros H. eapply Forall_impl; [exact H|]. cbn. auto.
Qed.
Lemma vals_empty E : vals E ∅.
Proof. intros d x H. by rewrite lookup_empty in H. Qed.
Lemma vals_add E f id fd acc : (forall x, fd !! f = Some x -> e_val E id x) -> vals E acc -> vals E (add_field f id fd acc).
Proof.
  intros H K d x. unfold add_field. destruct (fd !! f) as [y|] eqn:Ey; [|apply K]. destruct (decide (id = d)) as [->|Hn]; [rewrite lookup_insert; intros [= <-]; by apply H|]. rewrite lookup_insert_ne by done. apply K.
Qed.
(** A step of a batch: what has to be shown about the state. *)
Definition env_step (decompress : bytes -> option bytes) (f : string) (s : fs) (m m' : cmem) (E E' : benv) (p : bbatch) : Prop :=
  match p with
  | BDocs (id :: _) _ => forall c' r, e_id E id -> lru_get (c_cache m) id = Some (c', r) -> m' = set_cache m c' (c_heap m) -> match r with Some e => e_ptr E' id e | None => e_load E' id end
  | BPtr id e _ _ => forall l, e_id E id -> e_ptr E id e -> lru_deref (c_cache m) e = Some l -> m' = m -> e_map E' id l
  | BMap id l _ _ => forall fd x, e_id E id -> e_map E id l -> c_heap m !! l = Some fd -> fd !! f = Some x -> m' = m -> e_val E' id x
  | BLoad id _ _ => forall fd l, e_id E id -> e_load E id -> load_doc decompress s id = Some (Some fd) -> c_heap m !! l = None -> m' = set_cache m (c_cache m) (<[l := fd]> (c_heap m)) ->
     e_put E' id l /\ forall x, fd !! f = Some x -> e_val E' id x
  | _ => True
  end.
Lemma okb_step decompress f s m m' E E' p p' : env_le E E' -> env_step decompress f s m m' E E' p -> bbatch_step decompress f s (m, p) (m', p') -> okb E p -> okb E' p'.
Proof.
  intros L S H O. apply (okb_le _ _ _ L) in O as O'. pose proof L as (L1 & _ & _ & _ & _ & L6). inversion H; subst; cbn [okb env_step] in *.
  - destruct O as (O1 & _). destruct O' as (O1' & O2'). inversion O1; inversion O1'; subst. split_and!; try done. by apply (S c' (Some e)).
  - destruct O as (O1 & _). destruct O' as (O1' & O2'). inversion O1; inversion O1'; subst. split_and!; try done. by apply (S c' None).
  - destruct O as (O1 & O2 & _). destruct O' as (_ & O2' & O3' & O4'). split_and!; eauto.
  - destruct O as (O1 & O2 & _). destruct O' as (_ & O2' & O3' & O4'). split; [done|]. apply vals_add; [|done]. intros x Hx. eauto.
  - destruct O' as (_ & O2' & O3' & O4'). done.
  - destruct O as (O1 & O2 & _). destruct O' as (_ & O2' & O3' & O4'). destruct (S fd l) as [A1 A2]; try done. split_and!; try done. by apply vals_add.
  - destruct O' as (_ & O2' & O3' & O4'). done.
  - destruct O' as (_ & O2'). apply Forall_forall. intros [d x] Hx. cbn. apply O2'. match goal with G : _ ≡ₚ _ |- _ => rewrite G in Hx end. by apply elem_of_map_to_list in Hx.
Qed.
Lemma okb_send E p x p' : bbatch_send p x p' -> okb E p -> vals E x /\ okb E p'.
Proof.
  intros H O. inversion H; subst. cbn in O. inversion O; subst. split; [|done]. intros d y Hd. apply lookup_singleton_Some in Hd as [<- <-]. done.
Qed.
Definition okt (terms : list string) (L : string -> Prop) (p : bterm) : Prop :=
  match p with BTerm t | BField t | BSet t | BRange t _ _ => t ∈ terms | BId t _ _ id => t ∈ terms /\ L id | BEnd => True end.
Lemma okt_step terms f m (L : string -> Prop) p p' : (forall t id, t ∈ terms -> listed m f t id -> L id) -> bterm_step f m p p' -> okt terms L p -> okt terms L p'.
Proof. intros K H O. inversion H; subst; cbn in *; try done. split; [done|]. by apply (K t). Qed.
Lemma okt_send terms L p x p' : bterm_send p x p' -> okt terms L p -> L x /\ okt terms L p'.
Proof. intros H O. inversion H; subst. cbn in *. tauto. Qed.
Lemma okt_le terms (L L' : string -> Prop) p : (forall id, L id -> L' id) -> okt terms L p -> okt terms L' p.
Proof. intros K. destruct p; cbn; try done. intros [? ?]. auto. Qed.
Notation anyt := (fun _ _ : bterm => True).
Notation anyb := (fun _ _ : bbatch => True).
(** A search in progress. *)
Definition qok {N} (terms : list string) (L : string -> Prop) (E : benv) (q : dsearch N) : Prop :=
  match q with
  | SIds _ _ _ w => inv2 anyt bterm_send bterm_stop (BTerm <$> terms) w /\ fan_all (okt terms L) L w
  | SFields _ _ _ w => (exists tasks, inv2 anyb bbatch_send bbatch_stop tasks w) /\ fan_all (okb E) (vals E) w
  | SRet r => vals E (sr_docs r)
  | _ => True
  end.
Lemma qok_le {N} terms (L L' : string -> Prop) E E' (q : dsearch N) : (forall id, L id -> L' id) -> env_le E E' -> qok terms L E q -> qok terms L' E' q.
Proof.
  intros K1 K2. destruct q; cbn; try done.
  - intros [H1 H2]. split; [done|]. eapply fan_all_impl; [| |exact H2]; [intros p; by apply okt_le|done].
  - intros [H1 H2]. split; [done|]. eapply fan_all_impl; [| |exact H2]; [intros p; by apply okb_le|intros x; by apply vals_le].
  - by apply vals_le.
Qed.
Lemma batch_ids {N} terms (L : string -> Prop) E len n nft (w : fan2 bterm string) : qok (N := N) terms L E (SIds len n nft w) -> fan2_done w -> (forall id, L id -> e_id E id) ->
  Forall (okb E) ((fun b => BDocs b ∅) <$> batches_of (f2_got w)).
Proof.
  intros [I (_ & _ & Hg)] Hd K. apply Forall_fmap. apply Forall_forall. intros b Hb. cbn. split; [|apply vals_empty]. apply Forall_forall. intros id Hid. apply K. rewrite Forall_forall in Hg. apply Hg.
  destruct (batches_props (f2_got w)) as [_ B]. apply B. apply elem_of_list_In, in_concat. exists b. split; by apply elem_of_list_In.
Qed.
Lemma qok_step {N} decompress ncpu terms f u s (q : dsearch N) m' q' (L : string -> Prop) E :
  dsearch_step decompress N ncpu terms f u s q (m', q') -> (forall t id, t ∈ terms -> listed (u_mem u) f t id -> L id) -> (forall id, L id -> e_id E id) -> qok terms L E q ->
  (m' = u_mem u /\ qok terms L E q') \/
  (exists len n nft w w' p p', q = SFields len n nft w /\ q' = SFields len n nft w' /\ bbatch_step decompress f s (u_mem u, p) (m', p') /\ fan2_inner p p' w w' /\ okb E p /\
     forall E', env_le E E' -> okb E' p' -> qok (N := N) terms L E' (SFields len n nft w')).
Proof.
  intros H K1 K2 O. inversion H; subst; try (left; split; [done|]; done).
  - left. split; [done|]. split; [apply inv2_init|]. apply fan_all_init, Forall_fmap, Forall_forall. intros t Ht. done.
  - left. split; [done|]. destruct O as [O1 O2]. split; [by eapply inv2_any|]. eapply fan_all_step; [| |eassumption|exact O2]; [intros p p'; by apply okt_step|intros p x p'; apply okt_send].
  - left. split; [done|]. pose proof (batch_ids _ _ _ _ _ _ _ O ltac:(eassumption) K2) as HB. destruct O as [O1 O2]. destruct (inv2_done _ _ _ _ _ O1 ltac:(eassumption)) as [_ Es]. split; [eexists; rewrite Es; apply inv2_init|]. by apply fan_all_init.
  - left. split; [done|]. destruct O as [[tasks O1] O2]. split; [exists tasks; by eapply inv2_any|]. eapply fan_all_step; [| |eassumption|exact O2]; [done|intros p x p'; apply okb_send].
  - right. destruct O as [[tasks O1] O2]. exists len, size, nft, w, w', p, p'. do 4 (split; [done|]). pose proof (fan_inner_ok _ _ _ _ _ _ ltac:(eassumption) O2) as Op. split; [done|].
    intros E' L1 Op'. split; [exists tasks; eapply (inv2_any _ _ 0 0); [|exact O1]; by eapply (inner_step _ _ _ _ p p' w w' ltac:(eassumption) anyb)|].
    eapply fan_all_inner; [eassumption| |eapply fan_all_impl; [| |exact O2]; [intros p0; by apply okb_le|intros x; by apply vals_le]]. done.
  - left. split; [done|]. destruct O as [_ (_ & _ & Hg)]. cbn. intros d x Hx. destruct (merge_in _ _ _ Hx) as (m0 & G1 & G2). rewrite Forall_forall in Hg. by apply (Hg m0 G1).
Qed.
