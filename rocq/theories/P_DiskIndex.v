(** The disk storage: the index, its fragments and the merger. *)
From Verif Require Import Base M_Field M_LRU S_Visits M_Memory M_File M_Serialize M_Disk P_Base P_File P_Serialize S_Disk P_DiskBase P_DiskInv P_DiskWriter T_Serialize.
#[local] Open Scope Z_scope.
#[local] Opaque serialize_metrics deserialize_metrics serialize_nft deserialize_nft serialize_field_map deserialize_field_map serialize_index deserialize_index.

(** * Maps from terms to document sets *)
Definition proper (m : gmap string set_data) : Prop := forall t s, m !! t = Some s -> s <> ∅ /\ forall d v, s !! d = Some v -> v = true.
Lemma proper_empty : proper ∅.
Proof. intros t s H. by rewrite lookup_empty in H. Qed.
Lemma has_empty t d : has ∅ t d <-> False.
Proof. split; [|done]. intros (s & H & _). by rewrite lookup_empty in H. Qed.
Lemma proper_eq m1 m2 : proper m1 -> proper m2 -> (forall t d, has m1 t d <-> has m2 t d) -> m1 = m2.
Proof.
  assert (forall m1 m2, proper m1 -> proper m2 -> (forall t d, has m1 t d <-> has m2 t d) -> forall t s, m1 !! t = Some s -> m2 !! t = Some s) as H.
  { clear. intros m1 m2 P1 P2 H t s E. destruct (P1 t s E) as [Hne Ht]. apply map_choose in Hne as (d & v & Hd).
    assert (has m2 t d) as (s2 & E2 & _). { apply H. exists s. split; [done|]. by eexists. }
    rewrite E2. f_equal. apply map_eq. intros d'. destruct (s !! d') as [v1|] eqn:F1.
    - assert (has m2 t d') as (s2' & E2' & [v2 F2]). { apply H. exists s. split; [done|]. by eexists. }
      rewrite E2 in E2'. injection E2' as <-. rewrite F2. destruct (P1 _ _ E) as [_ Q1]. destruct (P2 _ _ E2) as [_ Q2]. rewrite (Q1 _ _ F1), (Q2 _ _ F2). done.
    - destruct (s2 !! d') as [v2|] eqn:F2; [|done]. assert (has m1 t d') as (s1 & E1 & [v1 G1]). { apply H. exists s2. split; [done|]. by eexists. }
      rewrite E in E1. injection E1 as <-. congruence. }
  intros P1 P2 Hh. apply map_eq. intros t. destruct (m1 !! t) as [s|] eqn:E.
  - symmetry. by apply (H m1 m2).
  - destruct (m2 !! t) as [s|] eqn:E2; [|done]. rewrite <- E. apply (H m2 m1); [done|done|intros t0 d0; by rewrite Hh|done].
Qed.

Lemma add_all_lookup docs : forall s d, is_Some (add_all s docs !! d) <-> is_Some (s !! d) \/ d ∈ docs.
Proof.
  induction docs as [|x docs IH]; intros s d; cbn.
  - rewrite elem_of_nil. tauto.
  - unfold add_all in IH. rewrite IH. cbn. rewrite lookup_insert_is_Some, elem_of_cons. destruct (decide (x = d)) as [->|]; naive_solver.
Qed.
Lemma add_all_true docs : forall s, (forall d v, s !! d = Some v -> v = true) -> forall d v, add_all s docs !! d = Some v -> v = true.
Proof.
  induction docs as [|x docs IH]; intros s Hs d v; cbn; [apply Hs|]. apply IH. intros d' v'. cbn. destruct (decide (x = d')) as [->|Hne].
  - rewrite lookup_insert. by intros [= <-].
  - rewrite lookup_insert_ne by done. apply Hs.
Qed.
Lemma add_all_nonempty s docs : docs <> [] -> add_all s docs <> ∅.
Proof.
  destruct docs as [|x docs]; [done|]. intros _ E. assert (is_Some (add_all s (x :: docs) !! x)) as [v Hv] by (apply add_all_lookup; right; left).
  rewrite E in Hv. by rewrite lookup_empty in Hv.
Qed.

(** The entries of a visit. *)
Definition lists (es : list (string * list string)) (t d : string) : Prop := exists ds, (t, ds) ∈ es /\ d ∈ ds.
Lemma lists_cons e es t d : lists (e :: es) t d <-> (t = e.1 /\ d ∈ e.2) \/ lists es t d.
Proof.
  unfold lists. setoid_rewrite elem_of_cons. destruct e as [t0 ds0]. cbn. split.
  - intros (ds & [E|Hin] & Hd); [left; injection E as -> ->; done|right; eauto].
  - intros [[-> Hd]|(ds & Hin & Hd)]; [exists ds0; auto|exists ds; auto].
Qed.
Lemma visits_lists m es : visits_index m es -> NoDup es.*1 /\ (forall t d, lists es t d <-> has m t d) /\ (proper m -> Forall (fun e => e.2 <> []) es).
Proof.
  intros (kvs & Hv & Hf). unfold visits in Hv. split; [|split].
  - assert (es.*1 = kvs.*1) as ->. { clear Hv. induction Hf as [|kv e kvs es [H1 _] _ IH]; [done|]. cbn. by rewrite H1, IH. }
    rewrite Hv. apply NoDup_fst_map_to_list.
  - intros t d. split.
    + intros (ds & Hin & Hd). apply elem_of_list_lookup in Hin as [i Hi]. destruct (Forall2_lookup_r _ _ _ _ _ Hf Hi) as ([t' s] & Hk & E & ds' & V & E2).
      cbn in *. subst. unfold visits in V. apply elem_of_list_fmap in Hd as ([d' v] & -> & Hd). rewrite V in Hd. apply elem_of_map_to_list in Hd.
      exists s. split; [|by eexists]. apply elem_of_list_lookup_2 in Hk. rewrite Hv in Hk. by apply elem_of_map_to_list in Hk.
    + intros (s & Hs & [v Hd]). apply elem_of_map_to_list in Hs. rewrite <- Hv in Hs. apply elem_of_list_lookup in Hs as [i Hi].
      destruct (Forall2_lookup_l _ _ _ _ _ Hf Hi) as ([t' ds] & Hk & E & ds' & V & E2). cbn in *. subst. exists ds'.*1. split; [by eapply elem_of_list_lookup_2|].
      apply elem_of_list_fmap. exists (d, v). split; [done|]. unfold visits in V. rewrite V. by apply elem_of_map_to_list.
  - intros P. apply Forall_forall. intros e He. apply elem_of_list_lookup in He as [i Hi]. destruct (Forall2_lookup_r _ _ _ _ _ Hf Hi) as ([t' s] & Hk & E & ds' & V & E2).
    cbn in *. apply elem_of_list_lookup_2 in Hk. rewrite Hv in Hk. apply elem_of_map_to_list in Hk. destruct (P _ _ Hk) as [Hne _].
    rewrite E2. intros En. apply fmap_nil_inv in En. subst ds'. unfold visits in V. symmetry in V. apply Permutation_nil_r in V. apply Hne. by apply map_to_list_empty_iff.
Qed.

Lemma td_fragment_has es : forall td t d, has (fold_left td_fragment es td) t d <-> has td t d \/ lists es t d.
Proof.
  induction es as [|e es IH]; intros td t d; cbn [fold_left].
  - split; [auto|]. intros [?|(ds & Hin & _)]; [done|]. by apply elem_of_nil in Hin.
  - rewrite IH, lists_cons. unfold td_fragment at 1. destruct e as [t0 ds0]. cbn [fst snd].
    assert (has (<[t0:=add_all (default set_new (td !! t0)) ds0]> td) t d <-> has td t d \/ t = t0 /\ d ∈ ds0) as ->; [|tauto].
    unfold has. destruct (decide (t0 = t)) as [->|Hne].
    + rewrite lookup_insert. split.
      * intros (s & [= <-] & Hd). apply add_all_lookup in Hd as [Hd|Hd]; [|auto]. left. destruct (td !! t) as [s|] eqn:E; cbn in Hd; [eauto|].
        unfold set_new in Hd. rewrite lookup_empty in Hd. by destruct Hd.
      * intros Hor. eexists. split; [done|]. apply add_all_lookup. destruct Hor as [(s & -> & Hd)|[_ Hd]]; [by left|by right].
    + rewrite lookup_insert_ne by done. split; [auto|]. intros [?|[-> _]]; done.
Qed.
Lemma td_fragment_proper es : forall td, proper td -> Forall (fun e => e.2 <> []) es -> proper (fold_left td_fragment es td).
Proof.
  induction es as [|e es IH]; intros td P HF; [done|]. apply Forall_cons in HF as [H1 HF]. cbn. apply IH; [|done]. intros t s. unfold td_fragment.
  destruct (decide (e.1 = t)) as [<-|Hne].
  - rewrite lookup_insert. intros [= <-]. split; [by apply add_all_nonempty|]. apply add_all_true. intros d v. destruct (td !! e.1) as [s|] eqn:E; cbn.
    + apply (P _ _ E).
    + unfold set_new. by rewrite lookup_empty.
  - rewrite lookup_insert_ne by done. apply P.
Qed.
Lemma td_index_has es : forall td, NoDup es.*1 -> (forall t, t ∈ es.*1 -> td !! t = None) -> fold_left td_index es td = fold_left td_fragment es td.
Proof.
  induction es as [|e es IH]; intros td Hn Ht; [done|]. cbn in Hn. apply NoDup_cons in Hn as [Hni Hn]. cbn [fold_left].
  assert (td_index td e = td_fragment td e) as E. { unfold td_index, td_fragment. rewrite (Ht e.1); [done|left]. }
  rewrite E. apply IH; [done|]. intros t Hin. unfold td_fragment. rewrite lookup_insert_ne by (intros <-; done). apply Ht. cbn. by right.
Qed.
Lemma td_index_new es : NoDup es.*1 -> fold_left td_index es ∅ = fold_left td_fragment es ∅.
Proof. intros H. apply td_index_has; [done|]. intros t _. apply lookup_empty. Qed.

Section files.
  Variables (compress : bytes -> bytes) (decompress : bytes -> option bytes) (cache_size : Z).
  Hypothesis gz : gzip_ok compress decompress.
  Notation read := (read_index decompress).
  Notation inf := (in_file decompress).
  Notation disk := (on_disk decompress).
  Notation sf := (safe decompress).

  (** The bytes [b] are those of the index [m]. *)
  Definition encodes (b : bytes) (m : gmap string set_data) : Prop :=
    exists m', read (Some (Whole b)) = Some m' /\ proper m' /\ forall t d, has m' t d <-> has m t d.
  Lemma ser_encodes m T : proper m -> idx_ser m T -> encodes (compress T) m.
  Proof.
    intros P (es & Hv & HT). pose proof (C45_index_round_trip m es T Hv HT) as E. exists ((fun docs : gmap string bool => (fun _ => true) <$> docs) <$> m).
    split; [cbn; rewrite gz; cbn; exact E|]. split.
    - intros t s. rewrite lookup_fmap. destruct (m !! t) as [s0|] eqn:E0; [|done]. cbn. intros [= <-]. destruct (P _ _ E0) as [Hne _]. split.
      + by rewrite fmap_empty_iff.
      + intros d v. rewrite lookup_fmap. destruct (s0 !! d); [|done]. by intros [= <-].
    - intros t d. unfold has. rewrite lookup_fmap. destruct (m !! t) as [s0|] eqn:E0; cbn.
      + split.
        * intros (s & [= <-] & Hd). rewrite lookup_fmap in Hd. exists s0. split; [done|]. by apply fmap_is_Some in Hd.
        * intros (s & [= <-] & Hd). eexists. split; [done|]. rewrite lookup_fmap. by apply fmap_is_Some.
      + split; intros (s & ? & _); done.
  Qed.
  Lemma encodes_in b m : encodes b m -> forall t d, inf (Some (Whole b)) t d <-> has m t d.
  Proof.
    intros (m' & E & _ & H) t d. unfold in_file. rewrite E. split; [intros (m0 & [= <-] & ?); by apply H|]. intros ?. exists m'. split; [done|]. by apply H.
  Qed.
  Definition readable (c : option content) : Prop := exists m, read c = Some m /\ proper m.
  Lemma encodes_readable b m : encodes b m -> readable (Some (Whole b)).
  Proof. intros (m' & E & P & _). exists m'. done. Qed.
  Lemma inf_none t d : inf None t d <-> False.
  Proof. split; [|done]. intros (m & E & _). discriminate E. Qed.
  Lemma inf_torn t d : inf (Some Torn) t d <-> False.
  Proof. split; [|done]. intros (m & E & _). discriminate E. Qed.
  Lemma readable_whole c : readable c -> exists b, c = Some (Whole b).
  Proof. intros (m & E & _). destruct c as [[]|]; try discriminate E. eauto. Qed.

  Notation frag s f u := (fs_files s !! [f; "temp"; u]).
  Notation idx s f := (fs_files s !! [f; "index"]).
  Definition x_valid (s : fs) : Prop := forall f, nd f ->
    (is_Some (idx s f) -> readable (idx s f)) /\ (forall u, is_Some (frag s f u) -> frag s f u = Some Torn \/ readable (frag s f u)).

  (** Everything in [c] is in [m]. *)
  Definition below (c : option content) (m : gmap string set_data) : Prop := readable c /\ forall t d, inf c t d -> has m t d.
  Definition g_inv (g : merger) (s : fs) : Prop :=
    match m_pc g with
    | MIdle | MFields _ | MList _ _ => True
    | MErr => False
    | MIndex f _ files => forall u, u ∈ files -> is_Some (frag s f u)
    | MFrag f _ files todo td => proper td /\ (forall u, u ∈ files -> is_Some (frag s f u)) /\
        (exists dn, files = dn ++ todo /\ forall u, u ∈ dn -> below (frag s f u) td) /\
        (forall t d, inf (idx s f) t d -> has td t d) /\ (forall t d, has td t d -> disk s f t d)
    | MMkdir f _ files td b => proper td /\ encodes b td /\ (forall u, u ∈ files -> below (frag s f u) td) /\
        (forall t d, inf (idx s f) t d -> has td t d) /\ (forall t d, has td t d -> disk s f t d)
    | MSave f _ files td b pc => proper td /\ encodes b td /\ (forall u, u ∈ files -> below (frag s f u) td) /\
        (forall t d, inf (idx s f) t d -> has td t d) /\ (pc <> SSRenameCur -> forall t d, has td t d -> disk s f t d)
    | MDel f _ todo td => proper td /\ (forall u, u ∈ todo -> below (frag s f u) td) /\ (forall t d, inf (idx s f) t d <-> has td t d)
    end.

  (** ** Steps of the merger *)
  Lemma safe_files s s' g g' f : idx s' f = idx s f -> (forall u, frag s' f u = frag s f u) -> fs_files s' !! [f; "index_temp"] = fs_files s !! [f; "index_temp"] ->
    (in_gap g f <-> in_gap g' f) -> forall t d, sf s g f t d <-> sf s' g' f t d.
  Proof.
    intros E1 E2 E3 E4 t d. unfold safe, on_disk, in_index_file, in_fragment. rewrite E1, E3, E4. setoid_rewrite E2. done.
  Qed.
  Lemma x_valid_same s s' : (forall p, owner p = Some OI \/ owner p = Some OF -> fs_files s' !! p = fs_files s !! p) -> x_valid s -> x_valid s'.
  Proof.
    intros H Hv f Hf. destruct (Hv f Hf) as [V1 V2]. destruct (owner_i f Hf) as [O1 _]. rewrite (H [f; "index"]) by auto. split; [done|].
    intros u. rewrite (H [f; "temp"; u]); [apply V2|]. right. by apply owner_f.
  Qed.
  Lemma disk_same s s' f : idx s' f = idx s f -> (forall u, frag s' f u = frag s f u) -> forall t d, disk s' f t d <-> disk s f t d.
  Proof. intros E1 E2 t d. unfold on_disk, in_index_file, in_fragment. rewrite E1. setoid_rewrite E2. done. Qed.
  Lemma no_gap g f : match m_pc g with MSave _ _ _ _ _ SSRenameCur => False | _ => True end -> ~ in_gap g f.
  Proof. intros H (fs & files & td & b & E). by rewrite E in H. Qed.
  Lemma gap_field acc f f0 fs files td b pc : in_gap (mkM acc (MSave f0 fs files td b pc)) f -> f = f0 /\ pc = SSRenameCur.
  Proof. intros (? & ? & ? & ? & E'). cbn in E'. by injection E'. Qed.
  Lemma safe_no_gap s g f t d : ~ in_gap g f -> sf s g f t d <-> disk s f t d.
  Proof. unfold safe. tauto. Qed.
  Lemma below_same s s' f u td : frag s' f u = frag s f u -> below (frag s f u) td -> below (frag s' f u) td.
  Proof. by intros ->. Qed.
  Lemma below_mono c td td' : (forall t d, has td t d -> has td' t d) -> below c td -> below c td'.
  Proof. intros H [R B]. split; auto. Qed.
  Lemma readable_at c m : readable c -> read c = Some m -> proper m.
  Proof. intros (m' & E & P) E'. rewrite E in E'. by injection E' as <-. Qed.

  Lemma g_save_inv acc f fs files td b pc s pc' s' : layout s -> g_wf (mkM acc (MSave f fs files td b pc)) s -> x_valid s ->
    g_inv (mkM acc (MSave f fs files td b pc)) s -> ss_step [f] "index" b (pc, s) = Some (pc', s') ->
    x_valid s' /\ g_inv (mkM acc (MSave f fs files td b pc')) s' /\
    forall f' t d, nd f' -> sf s (mkM acc (MSave f fs files td b pc)) f' t d <-> sf s' (mkM acc (MSave f fs files td b pc')) f' t d.
  Proof.
    intros Hl Hw Hv Hi H. unfold g_wf in Hw. cbn [m_pc] in Hw. destruct Hw as (Hn & Hd & Hf & Hok). pose proof (g_names_hd _ _ Hn) as Hnd.
    assert ([f] ∈ fs_dirs s) as Hfd by (by apply (l_up _ Hl) in Hd as [_ ?]).
    assert (names_free [f] "index" s) as Hfree.
    { destruct (index_names f Hnd) as (O1 & O2 & O3). split; [done|]. split; [|split]; apply layout_not_dir; try done; by eexists. }
    destruct (ss_one _ _ _ _ _ _ _ Hfree Hok H) as (E1 & E2 & E3). unfold g_inv in Hi. cbn [m_pc] in Hi. destruct Hi as (I1 & I2 & I3 & I4 & I5).
    assert (forall f' u, frag s' f' u = frag s f' u) as HF by (intros f' u; apply (ss_eff_frame _ _ _ _ _ _ _ _ E2); done).
    assert (forall f' n, f' <> f -> fs_files s' !! [f'; n] = fs_files s !! [f'; n]) as HO by (intros f' n Hne; apply (ss_eff_frame _ _ _ _ _ _ _ _ E2); intros E; apply (f_equal (hd ""%string)) in E; by apply Hne).
    assert (forall t d, inf (Some (Whole b)) t d <-> has td t d) as HE by (by apply encodes_in).
    assert (forall f' t d, f' <> f -> sf s (mkM acc (MSave f fs files td b pc)) f' t d <-> sf s' (mkM acc (MSave f fs files td b pc')) f' t d) as HS.
    { intros f' t d Hne. apply safe_files; [by apply HO|intros u; apply HF|by apply HO|]. split; intros G; exfalso; by destruct (gap_field _ _ _ _ _ _ _ _ G). }
    assert ((idx s' f = idx s f /\ (pc' = SSRenameCur -> pc = SSStatCur) /\ pc <> SSRenameCur) \/ (idx s' f = None /\ pc = SSRenameOld /\ pc' = SSRenameCur) \/
            (idx s' f = Some (Whole b) /\ pc = SSRenameCur /\ pc' = SSStatOld /\ idx s f = None)) as HC.
    { unfold ss_eff in E2. unfold cur_path, temp_path, old_path in E2. cbn in E2. destruct pc; try done.
      - destruct E2 as [-> ->]. left. rewrite lookup_insert_ne by done. done.
      - destruct E2 as [-> ->]. left. rewrite lookup_insert_ne by done. done.
      - destruct E2 as [-> E2]. left. done.
      - destruct E2 as (-> & c & Ec & ->). right. left. rewrite lookup_insert_ne, lookup_delete by done. done.
      - destruct E2 as [-> ->]. right. right. rewrite lookup_insert. split; [done|]. split; [done|]. split; [done|]. by destruct Hok.
      - destruct E2 as [-> [-> | [-> _]]]; left; done.
      - destruct E2 as [-> ->]. left. rewrite lookup_delete_ne by done. done. }
    assert (pc' = SSRenameCur -> idx s' f = None /\ fs_files s' !! [f; "index_temp"] = Some (Whole b)) as HT.
    { intros ->. unfold ss_ok, cur_path, temp_path in E3. cbn in E3. by destruct E3. }
    assert (pc = SSRenameCur -> idx s f = None /\ fs_files s !! [f; "index_temp"] = Some (Whole b)) as HT0.
    { intros ->. unfold ss_ok, cur_path, temp_path in Hok. cbn in Hok. by destruct Hok. }
    assert (forall t d, in_fragment decompress s' f t d <-> in_fragment decompress s f t d) as HFr by (intros; unfold in_fragment; setoid_rewrite HF; done).
    assert (forall t d, sf s (mkM acc (MSave f fs files td b pc)) f t d <-> sf s' (mkM acc (MSave f fs files td b pc')) f t d) as HSf.
    { intros t d. destruct HC as [(C1 & C2 & C3)|[(C1 & -> & ->)|(C1 & -> & -> & C4)]].
      - rewrite safe_no_gap by (intros G; by destruct (gap_field _ _ _ _ _ _ _ _ G)).
        assert (disk s' f t d <-> disk s f t d) as HD by (apply disk_same; [done|intros; apply HF]).
        unfold safe. rewrite HD. split; [auto|]. intros [?|[G Ht]]; [done|]. destruct (gap_field _ _ _ _ _ _ _ _ G) as [_ ->].
        destruct (HT eq_refl) as [_ E]. rewrite E in Ht. apply HE in Ht. by apply I5.
      - rewrite safe_no_gap by (intros G; by destruct (gap_field _ _ _ _ _ _ _ _ G)). destruct (HT eq_refl) as [_ E]. unfold safe. rewrite E, HE.
        unfold on_disk, in_index_file. rewrite C1, inf_none, HFr. split.
        + intros [?|?]; [|by auto]. right. split; [by repeat eexists|]. by apply I4.
        + intros [[[]|?]|[_ ?]]; [by right|]. by apply I5.
      - destruct (HT0 eq_refl) as [_ E]. rewrite (safe_no_gap s') by (intros G; by destruct (gap_field _ _ _ _ _ _ _ _ G)).
        unfold safe, on_disk, in_index_file. rewrite C1, C4, E, HE, inf_none, HFr. split.
        + intros [[[]|?]|[_ ?]]; [by right|by left].
        + intros [?|?]; [right; split; [by repeat eexists|done]|by left; right]. }
    split; [|split].
    - intros f' Hf'. destruct (Hv f' Hf') as [V1 V2]. split; [|intros u; rewrite HF; apply V2]. destruct (decide (f' = f)) as [->|Hne]; [|by rewrite HO].
      destruct HC as [(-> & _)|[(-> & _)|(-> & _)]]; [done|by intros [? ?]|]. intros _. by eapply encodes_readable.
    - cbn. split; [done|]. split; [done|]. split; [intros u Hu; rewrite HF; auto|]. split.
      + intros t d. destruct HC as [(-> & _)|[(-> & _)|(-> & _)]]; [apply I4|by rewrite inf_none|by rewrite HE].
      + intros Hne t d Ht. destruct HC as [(C1 & _ & C3)|[(_ & _ & ->)|(C1 & _)]]; [|done|].
        * apply (disk_same s s' f C1); [intros; apply HF|]. auto.
        * left. unfold in_index_file. rewrite C1. by apply HE.
    - intros f' t d Hf'. destruct (decide (f' = f)) as [->|Hne]; auto.
  Qed.

  Lemma g_step_inv g s g' s' : layout s -> g_wf g s -> x_valid s -> g_inv g s -> g_step compress decompress (g, s) (g', s') ->
    x_valid s' /\ g_inv g' s' /\ forall f t d, nd f -> sf s g f t d <-> sf s' g' f t d.
  Proof.
    intros Hl Hw Hv Hi H.
    assert (forall p s0, layout s -> owner p = None -> (length p <= 2)%nat -> mkdir_all s p = Some s0 -> fs_files s0 = fs_files s) as HM.
    { intros p s0 L Ho Hp Hm. by destruct (mkdir_effect _ _ _ L Ho Hp Hm) as (_ & ? & _). }
    inversion H; subst.
    - assert (fs_files s' = fs_files s) as EF by (eapply HM; eauto using owner_temp). split; [eapply x_valid_same; [|exact Hv]; by rewrite EF|]. split; [done|].
      intros f' t d _. apply safe_files; [by rewrite EF|by intros; rewrite EF|by rewrite EF|split; intros G; exfalso; revert G; by apply no_gap].
    - split; [done|]. split; [|intros f' t d _; rewrite !safe_no_gap by (by apply no_gap); done]. cbn. match goal with G : lists_files _ _ _ |- _ => rename G into GG end. destruct GG as [_ GG]. intros u Hu. by apply GG in Hu.
    - split; [done|]. split; [|intros f' t d _; rewrite !safe_no_gap by (by apply no_gap); done]. cbn in *. match goal with G : exists_path _ _ = false |- _ => rename G into GG end. apply exists_false in GG as [GG _].
      split; [apply proper_empty|]. split; [done|]. split; [exists []; split; [done|]; intros u Hu; by apply elem_of_nil in Hu|]. split.
      + intros t d. rewrite GG. by rewrite inf_none.
      + intros t d. by rewrite has_empty.
    - split; [done|]. split; [|intros f' t d _; rewrite !safe_no_gap by (by apply no_gap); done]. cbn in *. unfold g_wf in Hw. cbn in Hw. destruct Hw as (Hn & _). pose proof (g_names_hd _ _ Hn) as Hnd.
      match goal with G : read _ = Some m, G' : visits_index _ _ |- _ => rename G into Rd; rename G' into Vi end.
      destruct (visits_lists _ _ Vi) as (V1 & V2 & V3). destruct (Hv f Hnd) as [X1 _].
      assert (proper m) as P. { eapply readable_at; [|exact Rd]. apply X1. destruct (idx s' f); [by eexists|discriminate Rd]. }
      rewrite td_index_new by done. split; [apply td_fragment_proper; [apply proper_empty|auto]|]. split; [done|].
      split; [exists []; split; [done|]; intros u Hu; by apply elem_of_nil in Hu|].
      assert (forall t d, has (fold_left td_fragment es ∅) t d <-> inf (idx s' f) t d) as HH.
      { intros t d. rewrite td_fragment_has, has_empty, V2. unfold in_file. rewrite Rd. split; [intros [[]|?]; eauto|]. intros (m0 & [= <-] & ?). by right. }
      split; intros t d ?; [by apply HH|]. left. by apply HH.
    - split; [done|]. split; [|intros f' t d _; rewrite !safe_no_gap by (by apply no_gap); done]. cbn in *. destruct Hi as (I1 & I2 & (dn & -> & I3) & I4 & I5). unfold g_wf in Hw. cbn in Hw. destruct Hw as (Hn & _). pose proof (g_names_hd _ _ Hn) as Hnd.
      match goal with G : read _ = Some m, G' : visits_index _ _ |- _ => rename G into Rd; rename G' into Vi end.
      destruct (visits_lists _ _ Vi) as (V1 & V2 & V3). destruct (Hv f Hnd) as [_ X1].
      assert (is_Some (frag s' f u)) as Hsome by (destruct (frag s' f u); [by eexists|discriminate Rd]).
      assert (proper m) as P. { destruct (X1 u Hsome) as [Xt|Xr]; [rewrite Xt in Rd; discriminate Rd|]. by eapply readable_at. }
      assert (forall t d, has (fold_left td_fragment es td) t d <-> has td t d \/ has m t d) as HH by (intros; by rewrite td_fragment_has, V2).
      assert (forall t d, inf (frag s' f u) t d <-> has m t d) as HR. { intros t d. unfold in_file. rewrite Rd. split; [by intros (? & [= <-] & ?)|eauto]. }
      split; [apply td_fragment_proper; auto|]. split; [done|]. split.
      + exists (dn ++ [u]). split; [by rewrite <- app_assoc|]. intros u' Hu'. apply elem_of_app in Hu' as [Hu'|Hu'].
        * eapply below_mono; [|by apply I3]. intros t d ?. apply HH. by left.
        * apply elem_of_list_singleton in Hu' as ->. split; [exists m; done|]. intros t d ?. apply HH. right. by apply HR.
      + split; intros t d Ht.
        * apply HH. left. auto.
        * apply HH in Ht as [?|?]; [auto|]. right. exists u. by apply HR.
    - split; [done|]. split; [|intros f' t d _; rewrite !safe_no_gap by (by apply no_gap); done]. cbn in *. destruct Hi as (I1 & I2 & (dn & -> & I3) & I4 & I5).
      split; [done|]. split; [by apply ser_encodes|]. split; [|done]. by rewrite app_nil_r.
    - assert (fs_files s' = fs_files s) as EF by (apply (HM [f] s' Hl eq_refl); [cbn; lia|done]). split; [eapply x_valid_same; [|exact Hv]; by rewrite EF|].
      split; [|intros f' t d _; apply safe_files; [by rewrite EF|by intros; rewrite EF|by rewrite EF|split; intros G; exfalso; revert G; by apply no_gap]].
      cbn in *. rewrite EF. destruct Hi as (I1 & I2 & I3 & I4 & I5). do 3 (split; [done|]). split; [done|]. intros _ t d Ht. apply (disk_same s s' f); [by rewrite EF|by rewrite EF|]. auto.
    - by eapply g_save_inv.
    - split; [done|]. split; [|intros f' t d _; rewrite !safe_no_gap by (by apply no_gap); done]. cbn in *. destruct Hi as (I1 & I2 & I3 & I4 & I5). unfold g_wf in Hw. cbn in Hw. destruct Hw as (_ & _ & _ & Hok & _).
      split; [done|]. split; [done|]. intros t d. unfold cur_path in Hok. cbn in Hok. rewrite Hok. by apply encodes_in.
    - cbn in Hi. destruct Hi as (I1 & I2 & I3). unfold g_wf in Hw. cbn in Hw. destruct Hw as (Hn & Hd & Hf). pose proof (g_names_hd _ _ Hn) as Hnd.
      match goal with G : remove _ _ = _ |- _ => rename G into Hrm end. unfold remove in Hrm.
      destruct (I2 u) as [Ru Bu]; [left|]. destruct (readable_whole _ Ru) as [b0 Eu]. rewrite Eu in Hrm. injection Hrm as <-.
      apply NoDup_cons in Hf as [Hni Hf].
      assert (forall f' u', (f', u') <> (f, u) -> delete [f; "temp"; u] (fs_files s) !! [f'; "temp"; u'] = frag s f' u') as HF. { intros f' u' Hne. rewrite lookup_delete_ne; [done|]. congruence. }
      assert (forall f' n, delete [f; "temp"; u] (fs_files s) !! [f'; n] = fs_files s !! [f'; n]) as HF2 by (intros; by rewrite lookup_delete_ne).
      split; [|split].
      + intros f' Hf'. cbn. destruct (Hv f' Hf') as [V1 V2]. rewrite HF2. split; [done|]. intros u' Hs. destruct (decide ((f', u') = (f, u))) as [[= -> ->]|Hne].
        * rewrite lookup_delete in Hs. by destruct Hs.
        * rewrite HF in * by done. auto.
      + cbn. split; [done|]. split; [|intros t d; rewrite HF2; apply I3]. intros u' Hu'. rewrite HF; [apply I2; by right|]. intros [= ->]. done.
      + intros f' t d _. rewrite !safe_no_gap by (by apply no_gap). unfold on_disk, in_index_file, in_fragment. cbn. rewrite HF2. split.
        * intros [?|(u' & Hu')]; [by left|]. destruct (decide ((f', u') = (f, u))) as [[= -> ->]|Hne].
          { left. apply I3. auto. }
          right. exists u'. by rewrite HF.
        * intros [?|(u' & Hu')]; [by left|]. right. exists u'. destruct (decide ((f', u') = (f, u))) as [[= -> ->]|Hne]; [|by rewrite HF in Hu'].
          rewrite lookup_delete in Hu'. by apply inf_none in Hu'.
    - split; [done|]. split; [done|]. intros f' t d _. rewrite !safe_no_gap by (by apply no_gap). done.
    - exfalso. unfold g_wf in Hw. cbn in Hw. destruct Hw as (Hn & _). pose proof (g_names_hd _ _ Hn) as Hnd.
      match goal with G : exists_path _ _ = true, G' : _ !! _ = None |- _ => rename G into GG; rename G' into GG' end.
      unfold exists_path, is_file in GG. rewrite GG', bool_decide_false in GG by (by intros [? ?]).
      rewrite is_dir_false in GG; [done|]. apply layout_not_dir; [done|]. destruct (owner_i f Hnd) as [-> _]. by eexists.
    - exfalso. cbn in Hi. destruct Hi as (_ & I2 & (dn & -> & _) & _). destruct (I2 u) as [? ?]; [apply elem_of_app; right; left|]. congruence.
    - exfalso. unfold g_wf in Hw. cbn in Hw. by destruct Hw as (_ & _ & _ & ?).
    - exfalso. cbn in Hi. destruct Hi as (_ & I2 & _). destruct (I2 u) as [Ru _]; [left|]. destruct (readable_whole _ Ru) as [b0 Eu].
      match goal with G : remove _ _ = None |- _ => unfold remove in G; rewrite Eu in G; discriminate G end.
  Qed.
End files.
