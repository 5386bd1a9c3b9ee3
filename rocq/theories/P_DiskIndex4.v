(** The disk storage: loading the index; merging while nothing is written; torn fragments. *)
From Verif Require Import Base M_Field M_LRU S_Visits M_Memory M_File M_Serialize M_Disk P_Base P_File S_Disk P_DiskBase P_DiskInv P_DiskMem P_DiskWriter P_DiskIndex P_DiskIndex2 P_DiskIndex3.
#[local] Open Scope Z_scope.
#[local] Opaque serialize_metrics deserialize_metrics serialize_nft deserialize_nft serialize_field_map deserialize_field_map serialize_index deserialize_index.

Section load.
  Variables (compress : bytes -> bytes) (decompress : bytes -> option bytes) (cache_size : Z).
  Hypothesis gz : gzip_ok compress decompress.
  Notation inf := (in_file decompress).
  Notation disk := (on_disk decompress).
  Notation sf := (safe decompress).
  Notation xv := (x_valid decompress).
  Notation ginv := (g_inv decompress).
  Notation linv := (l_inv decompress).
  Notation reach := (reachable compress decompress cache_size).

  Lemma loads_inv s g s' : layout s -> xv s -> loads compress decompress s g s' ->
    layout s' /\ g_wf g s' /\ xv s' /\ ginv g s' /\ linv g s' /\ forall f t d, nd f -> disk s f t d <-> sf s' g f t d.
  Proof.
    intros Hl Hv (s0 & g0 & Hm & Hs & Hr). destruct (mkdir_effect s [] s0 Hl eq_refl (Nat.le_0_l 2) Hm) as (L0 & F0 & D0 & _).
    assert (xv s0) as V0 by (eapply x_valid_same; [|exact Hv]; by rewrite F0).
    assert (ginv g0 s0 /\ forall f t d, nd f -> disk s f t d <-> sf s0 g0 f t d) as [G0 S0].
    { inversion Hs; subst. split; [done|]. intros f t d Hf. rewrite safe_no_gap by (by apply no_gap). symmetry. apply disk_same; by rewrite F0. }
    pose proof (l_start decompress _ _ L0 Hs) as I0. apply g_start_wf in Hs.
    assert (forall a b, rtc (g_step compress decompress) a b -> layout a.2 -> g_wf a.1 a.2 -> xv a.2 -> ginv a.1 a.2 -> linv a.1 a.2 -> (forall f t d, nd f -> disk s f t d <-> sf a.2 a.1 f t d) ->
      layout b.2 /\ g_wf b.1 b.2 /\ xv b.2 /\ ginv b.1 b.2 /\ linv b.1 b.2 /\ (forall f t d, nd f -> disk s f t d <-> sf b.2 b.1 f t d)) as IH.
    { induction 1 as [a|a b c Hab _ IH]; [done|]. intros A1 A2 A3 A4 A5 A6. destruct a as [g1 s1], b as [g2 s2]. cbn in *.
      destruct (g_step_base _ _ _ _ _ _ A1 A2 Hab) as (B1 & B2 & _). destruct (g_step_inv compress decompress gz _ _ _ _ A1 A2 A3 A4 Hab) as (C1 & C2 & C3).
      apply IH; [done|done|done|done| |].
      - by apply (l_step compress decompress gz g1 s1 g2 s2).
      - intros f t d Hf. rewrite (A6 f t d Hf). by apply C3. }
    apply (IH (g0, s0) (g, s') Hr); done.
  Qed.
  Lemma reopen_inv s u s' : layout s -> xv s -> reopen compress decompress cache_size s u s' ->
    layout s' /\ xv s' /\ forall f, nd f -> clean s' f /\ proper (disk_get_index (u_mem u) f) /\
      forall t d, (has (disk_get_index (u_mem u) f) t d <-> disk s f t d) /\ (disk s' f t d <-> disk s f t d).
  Proof.
    intros Hl Hv (acc & Hld & Ho). destruct (loads_inv _ _ _ Hl Hv Hld) as (L1 & L2 & L3 & L4 & [_ L5] & L6). split; [done|]. split; [done|].
    intros f Hf. destruct (L5 f Hf) as (A1 & A2 & A3); [apply not_elem_of_nil|]. split; [done|]. inversion Ho; subst. unfold disk_get_index. cbn in *. split; [done|].
    intros t d. rewrite A3, <- (clean_disk decompress s' f t d A1), (L6 f t d Hf), safe_no_gap by (by apply no_gap). done.
  Qed.
  Lemma kept_safe y f t d : kept decompress y f t d <-> y_safe decompress y f t d.
  Proof. unfold kept, y_safe, safe, gap. destruct (y_proc y); tauto. Qed.

  (** * A merge while nothing is written *)
  Lemma l_inv_frame g s s' : g_wf g s -> linv g s -> keeps OI s s' -> keeps OF s s' -> linv g s'.
  Proof.
    intros Hw [Hc Ha] K1 K2.
    assert (forall f u0, nd f -> frag s' f u0 = frag s f u0) as KF by (intros; apply K2; by apply owner_f).
    assert (forall f, nd f -> idx s' f = idx s f /\ fs_files s' !! [f; "index_temp"] = fs_files s !! [f; "index_temp"] /\ fs_files s' !! [f; "index_old"] = fs_files s !! [f; "index_old"]) as KI.
    { intros f Hf. destruct (owner_i f Hf) as (O1 & O2 & O3). split; [by apply K1|]. split; by apply K1. }
    split.
    - unfold l_cur, g_wf in *. destruct (m_pc g) as [| | |f fs files|f fs files todo td|f fs files td b|f fs files td b pc|f fs todo td|]; try done; destruct Hw as [Hn Hw]; pose proof (g_names_hd _ _ Hn) as Hf;
        try (intros u; rewrite KF by done; apply Hc). destruct Hc as (C1 & C2 & C3). destruct (KI f Hf) as (_ & -> & ->). split; [|done]. intros u. rewrite KF by done. apply C1.
    - intros f Hf Hni. destruct (Ha f Hf Hni) as (A1 & A2 & A3). destruct (KI f Hf) as (I1 & I2 & I3). split; [apply (clean_same s); auto|]. split; [done|]. by rewrite I1.
  Qed.
  Definition resting (pc : cpc) : Prop := match pc with CIdle | CGet _ _ _ _ | CGetLoad _ _ _ _ _ | CGot _ _ _ => True | _ => False end.
  Definition q_inv (u : up) (s : fs) : Prop :=
    resting (u_pc u) /\ u_ich u = [] /\ i_buf (u_iw u) = ∅ /\ (i_pc (u_iw u) = IIdle \/ i_pc (u_iw u) = ILoop []) /\
    (m_pc (u_mg u) = MIdle \/ linv (u_mg u) s).
  Lemma q_up_step u s ev u' s' : layout s -> up_wf u s -> xv s -> ginv (u_mg u) s -> q_inv u s -> up_step compress decompress (u, s) ev (u', s') ->
    q_inv u' s' /\ c_index (u_mem u') = c_index (u_mem u).
  Proof.
    intros Hl Hw Hv Hg (Q1 & Q2 & Q3 & Q4 & Q5) H. pose proof Hw as [W1 W2 W3 W4 W5 W6 W7].
    assert (forall s0, keeps OI s s0 -> keeps OF s s0 -> m_pc (u_mg u) = MIdle \/ linv (u_mg u) s0) as HK.
    { intros s0 K1 K2. destruct Q5 as [?|?]; [by left|right]. by apply (l_inv_frame _ s). }
    destruct (up_step_who _ _ _ _ _ _ _ Hl Hw H) as [[-> Hq]|[Hq|[Hq|[Hq|[Hq|Hq]]]]].
    - inversion Hq; subst; cbn [u_pc u_mem u_ich u_iw u_mg u_mw u_nw u_dw] in *; try done.
      + match goal with G : c_step _ _ _ _ |- _ => inversion G; subst end; try done; split; done.
      + match goal with G : c_doc _ _ _ |- _ => inversion G; subst end; done.
      + split; [|done]. split; [done|]. split; [done|]. split; [done|]. split; [done|]. by left.
    - destruct Hq as (G1 & E & _ & _ & K1 & K2 & _). rewrite E. split; [|done]. split; [done|]. split; [done|]. split; [done|]. split; [done|]. by apply HK.
    - destruct Hq as (G1 & E & _ & _ & K1 & K2 & _). rewrite E. split; [|done]. split; [done|]. split; [done|]. split; [done|]. split; [done|]. by apply HK.
    - destruct Hq as (G1 & E & _ & _ & K1 & K2 & _). rewrite E. split; [|done]. split; [done|]. split; [done|]. split; [done|]. split; [done|]. by apply HK.
    - destruct Hq as (G1 & E & _ & _ & _ & _ & _). rewrite E. split; [|done]. destruct (u_iw u) as [buf pc]. cbn in Q3, Q4. subst buf. unfold q_inv. rewrite E. cbn [u_iw u_pc u_ich u_mg].
      destruct Q4 as [-> | ->]; inversion G1; subst. split; [done|]. split; [done|]. split; [done|]. split; [by left|]. done.
    - destruct Hq as (G1 & E & _ & _ & _ & _). rewrite E. split; [|done]. split; [done|]. split; [done|]. split; [done|]. split; [done|]. right. rewrite E. cbn [u_mg].
      destruct Q5 as [Q5|Q5].
      + destruct (u_mg u) as [acc pc]. cbn in Q5. subst pc. inversion G1.
      + by apply (l_step compress decompress gz (u_mg u) s (u_mg u') s').
  Qed.
  Lemma q_up_tick u s u' s' : layout s -> q_inv u s -> up_tick (u, s) (u', s') -> q_inv u' s' /\ c_index (u_mem u') = c_index (u_mem u).
  Proof.
    intros Hl (Q1 & Q2 & Q3 & Q4 & Q5) H. inversion H; subst; cbn [u_pc u_mem u_ich u_iw u_mg u_mw u_nw u_dw] in *; (split; [|done]).
    - done.
    - done.
    - done.
    - match goal with G : i_tick _ _ |- _ => inversion G as [buf ks Hr]; subst end. cbn in Q3. subst buf. unfold range_order in Hr. rewrite map_to_list_empty in Hr. cbn in Hr.
      apply Permutation_nil_r in Hr. subst ks. split; [done|]. split; [done|]. split; [done|]. split; [by right|]. done.
    - split; [done|]. split; [done|]. split; [done|]. split; [done|]. right. by apply l_start.
  Qed.
  Lemma q_session a ev b u0 : reach a -> good_log (y_log a) -> y_proc a = Up u0 -> q_inv u0 (y_fs a) -> session compress decompress cache_size a ev b -> calls_of ev = [] ->
    reach b /\ good_log (y_log b) /\ exists u, y_proc b = Up u /\ q_inv u (y_fs b) /\ c_index (u_mem u) = c_index (u_mem u0).
  Proof.
    intros Hr Hg Ha Hq. induction 1 as [a|a ev b ev' c Hs IH H Hlog].
    - intros _. split; [done|]. split; [done|]. exists u0. done.
    - rewrite calls_app. intros Hc. apply app_eq_nil in Hc as [Hc1 Hc2]. destruct (IH Hr Hg Ha Hq Hc1) as (Rb & Gb & u & Hb & Qb & Ib).
      assert (reach c) as Rc by (eapply rtc_r; [exact Rb|by left]).
      assert (good_log (y_log c)) as Gc. { rewrite Hlog. apply good_app. split; [done|]. intros x Hx. rewrite Hc2 in Hx. by apply elem_of_nil in Hx. }
      split; [done|]. split; [done|]. destruct (x_reach _ _ cache_size gz _ Rb Gb) as ([Bl Bp] & Xv & _ & Xp).
      inversion H; subst; cbn [y_fs y_proc y_log] in *; try discriminate Hb; injection Hb as ->; eexists; (split; [reflexivity|]).
      + destruct Bp as [_ Bp]. match goal with G : up_step _ _ _ _ _ |- _ => destruct (q_up_step _ _ _ _ _ Bl Bp Xv (xu_g _ _ _ _ Xp) Qb G) as [E1 E2] end. split; [done|]. by rewrite E2.
      + match goal with G : up_tick _ _ |- _ => destruct (q_up_tick _ _ _ _ Bl Qb G) as [E1 E2] end. split; [done|]. by rewrite E2.
      + apply app_inv_head in Hlog. subst ev'. match goal with G : up_call _ _ _ |- _ => inversion G; subst end; try discriminate Hc2. destruct Qb as (Q1 & Q2 & Q3 & Q4 & Q5). split; [|done]. done.
  Qed.

  (** * A torn fragment *)
  Definition g_doomed (g : merger) (f u : string) : Prop :=
    match m_pc g with
    | MIdle => False
    | MErr => True
    | MFields fs => f ∈ fs
    | MList f0 fs => f = f0 \/ f ∈ fs
    | MIndex f0 fs files => (f = f0 /\ u ∈ files) \/ f ∈ fs
    | MFrag f0 fs files todo td => (f = f0 /\ u ∈ todo) \/ f ∈ fs
    | MMkdir f0 fs _ _ _ | MSave f0 fs _ _ _ _ | MDel f0 fs _ _ => f ∈ fs
    end.
  Lemma g_doomed_step g s g' s' f u : torn_fragment s f u -> g_doomed g f u -> g_step compress decompress (g, s) (g', s') -> g_doomed g' f u.
  Proof.
    intros Ht Hd H. unfold torn_fragment in Ht. inversion H; subst; unfold g_doomed in *; cbn in *; try done.
    - apply elem_of_cons in Hd as [->|?]; auto.
    - destruct Hd as [->|?]; [left|by right]. split; [done|]. match goal with G : lists_files _ _ _ |- _ => destruct G as [_ G]; apply G end. exists Torn. exact Ht.
    - destruct Hd as [[-> Hu]|?]; [|by right]. apply elem_of_cons in Hu as [->|?]; [|by left].
      match goal with G : read_index _ _ = Some _ |- _ => rewrite Ht in G; discriminate G end.
    - destruct Hd as [[-> Hu]|?]; [by apply elem_of_nil in Hu|done].
  Qed.
  Definition doomed (f u : string) (y : sys) : Prop :=
    torn_fragment (y_fs y) f u /\ match y_proc y with Down => True | Loading g => g_doomed g f u | Up _ => False end.
  Lemma doomed_step f u a b : nd f -> base a -> x_inv decompress a -> doomed f u a -> sys_step compress decompress cache_size a b -> doomed f u b.
  Proof.
    intros Hf [Bl Bp] (Hv & _ & Hp) [Ht Hd] [H|H]; inversion H; subst; unfold doomed in *; cbn [y_fs y_proc] in *; try done.
    - match goal with G : mkdir_all _ _ = _ |- _ => destruct (mkdir_effect _ [] _ Bl eq_refl (Nat.le_0_l 2) G) as (E1 & E2 & _) end.
      unfold torn_fragment in *. rewrite E2. split; [done|]. match goal with G : g_start _ _ |- _ => inversion G as [ns [_ Hns]]; subst end. cbn. apply Hns. split; [|done]. cbn.
      assert (is_Some (frag s' f u)) as Hs by (rewrite E2, Ht; by eexists). apply (l_files _ E1) in Hs as [_ Hs]. by apply (l_up _ E1) in Hs as [_ ?].
    - destruct Bp as [_ Bp]. destruct Hp as [Hg _]. match goal with G : g_step _ _ _ _ |- _ => split; [by apply (g_step_torn compress decompress _ _ _ _ f u Bl Bp Hg G)|by eapply g_doomed_step] end.
    - cbn in Hd. by apply elem_of_nil in Hd.
  Qed.
  Lemma doomed_forever f u a b : nd f -> reach a -> good_log (y_log a) -> doomed f u a -> rtc (sys_step compress decompress cache_size) a b ->
    doomed f u b /\ good_log (y_log b) /\ reach b.
  Proof.
    intros Hf Hr Hg Hd H. induction H as [a|a b c Hab _ IH]; [done|].
    pose proof (doomed_step f u a b Hf) as Hs. destruct (x_reach _ _ cache_size gz _ Hr Hg) as [B X]. specialize (Hs B X Hd Hab). apply IH; [by eapply rtc_r| |done].
    destruct Hd as [_ Hd]. destruct Hab as [Hab|Hab]; inversion Hab; subst; cbn [y_log y_proc] in *; try done.
    - cbn in Hd. by apply elem_of_nil in Hd.
    - intros c0 Hc. rewrite calls_app in Hc. cbn in Hc. rewrite app_nil_r in Hc. auto.
  Qed.

  (** * Opening makes progress *)
  Lemma visits_total m : exists es, visits_index m es.
  Proof.
    assert (forall kvs : list (string * gmap string bool), exists es, Forall2 (fun kv e => e.1 = kv.1 /\ exists ds, visits kv.2 ds /\ e.2 = ds.*1) kvs es) as H.
    { induction kvs as [|kv kvs [es IH]]; [exists []; constructor|]. exists ((kv.1, (map_to_list kv.2).*1) :: es). constructor; [|done]. split; [done|]. exists (map_to_list kv.2). split; [unfold visits; reflexivity|done]. }
    destruct (H (map_to_list m)) as [es He]. exists es, (map_to_list m). split; [unfold visits; reflexivity|exact He].
  Qed.
  Lemma lists_files_total s p : exists ns, lists_files s p ns.
  Proof.
    set (F := fun q : path => match bool_decide (removelast q = p), last q with true, Some n => if decide (q = p ++ [n]) then Some n else None | _, _ => None end).
    assert (forall l : list path, NoDup l -> NoDup (omap F l) /\ forall n, n ∈ omap F l <-> p ++ [n] ∈ l) as H.
    { assert (forall q n, F q = Some n <-> q = p ++ [n]) as HF.
      { intros q n. unfold F. split.
        - destruct (bool_decide (removelast q = p)); [|done]. destruct (last q) as [n'|]; [|done]. destruct (decide (q = p ++ [n'])); [|done]. by intros [= <-].
        - intros ->. rewrite removelast_last, bool_decide_true by done. rewrite last_snoc. by rewrite decide_True. }
      induction l as [|q l IH]; intros Hn; [split; [constructor|]; intros n; cbn; rewrite !elem_of_nil; tauto|].
      apply NoDup_cons in Hn as [Hq Hn]. destruct (IH Hn) as [I1 I2]. split.
      - cbn. destruct (F q) as [n|] eqn:E; [|done]. constructor; [|done]. rewrite I2. apply HF in E as <-. done.
      - intros n. cbn. destruct (F q) as [n'|] eqn:E.
        + rewrite !elem_of_cons, I2. apply HF in E as ->. split; (intros [H0|H0]; [left|by right]); [by rewrite H0|]. by apply (inj (app p)) in H0 as [= ->].
        + rewrite elem_of_cons, I2. split; [by right|]. intros [H0|?]; [|done]. apply eq_sym, HF in H0. congruence. }
    destruct (H (map_to_list (fs_files s)).*1 (NoDup_fst_map_to_list _)) as [H1 H2]. eexists. split; [exact H1|]. intros n. rewrite H2, elem_of_list_fmap. split.
    - intros ([q c] & -> & Hq). apply elem_of_map_to_list in Hq. by eexists.
    - intros [c Hc]. exists (p ++ [n], c). split; [done|]. by apply elem_of_map_to_list.
  Qed.
  Lemma g_progress g s : layout s -> g_wf g s -> xv s -> ginv g s -> linv g s -> m_pc g <> MIdle ->
    (exists acc, g = mkM acc (MFields [])) \/ (exists g' s', g_step compress decompress (g, s) (g', s')) \/
    (exists f fs files u todo td, nd f /\ m_pc g = MFrag f fs files (u :: todo) td /\ torn_fragment s f u) \/
    (exists f fs files td es, m_pc g = MFrag f fs files [] td /\ visits_index td es /\ serialize_index es = None).
  Proof.
    intros Hl Hw Hv Hi [Hli _] Hne. destruct g as [acc pc]. destruct pc as [|fs|f fs|f fs files|f fs files todo td|f fs files td b|f fs files td b pc|f fs todo td|]; cbn in *.
    - done.
    - destruct fs as [|f fs]; [left; by eexists|]. right. left. destruct (mkdir_ok s [f; "temp"] Hl (owner_temp f) (Nat.le_refl 2)) as [s' Hs]. eexists _, s'. by constructor.
    - right. left. destruct (lists_files_total s [f; "temp"]) as [ns Hns]. eexists _, s. by constructor.
    - right. left. unfold g_wf in Hw. cbn in Hw. destruct Hw as (Hn & _). pose proof (g_names_hd _ _ Hn) as Hf. destruct (Hv f Hf) as [V1 _].
      destruct (idx s f) as [c|] eqn:E.
      + destruct V1 as (m & Rm & _); [by eexists|]. destruct (visits_total m) as [es He]. eexists _, s. eapply g_index; [by rewrite E|exact He].
      + eexists _, s. apply g_no_index. unfold exists_path, is_file. rewrite E, bool_decide_false by (by intros [? ?]). cbn. apply is_dir_false. apply layout_not_dir; [done|]. destruct (owner_i f Hf) as [-> _]. by eexists.
    - unfold g_wf in Hw. cbn in Hw. destruct Hw as (Hn & _). pose proof (g_names_hd _ _ Hn) as Hf. destruct todo as [|u todo].
      + right. destruct (visits_total td) as [es He]. destruct (serialize_index es) as [T|] eqn:ET.
        * left. eexists _, s. apply (g_ser _ _ _ _ _ _ _ T). by exists es.
        * right. right. exists f, fs, files, td, es. done.
      + right. destruct Hi as (_ & I2 & (dn & -> & _) & _). destruct (Hv f Hf) as [_ V2]. destruct (V2 u) as [Ht|(m & Rm & _)].
        * apply I2, elem_of_app. right. left.
        * right. left. exists f, fs, (dn ++ u :: todo), u, todo, td. done.
        * left. destruct (visits_total m) as [es He]. eexists _, s. by eapply g_frag.
    - right. left. destruct (mkdir_ok s [f] Hl eq_refl (Nat.le_succ_diag_r 1)) as [s' Hs]. eexists _, s'. by apply g_mkdir.
    - right. left. destruct (ss_step [f] "index" b (pc, s)) as [[pc' s']|] eqn:E; [eexists _, _; by apply g_save|]. destruct pc; try discriminate E.
      + eexists _, _. apply g_saved.
      + unfold g_wf in Hw. cbn in Hw. by destruct Hw as (_ & _ & _ & ?).
    - right. left. destruct todo as [|u todo]; [eexists _, _; apply g_next|]. destruct Hi as (_ & I2 & _). destruct (I2 u) as [Ru _]; [left|]. destruct (readable_whole _ _ Ru) as [b Eb].
      eexists _, _. apply g_del. unfold remove. by rewrite Eb.
    - done.
  Qed.
End load.
