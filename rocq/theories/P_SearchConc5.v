(** Searches that run while other goroutines save (C61): particular executions. *)
From Verif Require Import Base M_Field M_Memory M_Concurrent M_Num M_FanIn M_Search M_SearchConc S_Memory S_Concurrent S_SearchConc P_Base P_Memory P_Concurrent P_Concurrent2 P_Concurrent3 P_Concurrent4 P_Concurrent5.
Import M_Concurrent.
#[local] Open Scope Z_scope.

(** Up to the point where the index is about to be read: postings are as before. *)
Lemma reach_idx s c : exists s' full, rtc t_step (s, t_enter false c) (s', TIdx full (call_doc c) (call_field c)) /\ k_index s' = k_index s /\ k_maps s' = k_maps s /\ k_sets s' = k_sets s.
Proof.
  assert (forall s full d x, exists s', rtc t_step (s, TSize full d x) (s', TIdx full d x) /\ k_index s' = k_index s /\ k_maps s' = k_maps s /\ k_sets s' = k_sets s) as K.
  { intros s0 full d x. eexists. split; [eapply rtc_l; [apply t_size|]; eapply rtc_l; [apply t_size_w|]; eapply rtc_l; [apply t_len|]; eapply rtc_l; [apply t_len_w|]; apply rtc_refl|]. done. }
  destruct c as [d x|d x]; cbn [t_enter call_doc call_field].
  - destruct (k_fdoc s !! d) as [l|] eqn:E.
    + destruct (K (set_kfdoc s (k_fdoc s) (<[l := <[f_name x := x]> (default ∅ (k_fdocs s !! l))]> (k_fdocs s))) true d x) as (s' & R & E'). exists s', true. split; [|exact E']. eapply rtc_l; [apply t_doc|]. rewrite E. eapply rtc_l; [apply t_doc_old|exact R].
    + destruct (fresh_at (k_fdocs s)) as [l Hl]. destruct (K (set_kfdoc s (<[d := l]> (k_fdoc s)) (<[l := {[f_name x := x]}]> (k_fdocs s))) true d x) as (s' & R & E'). exists s', true. split; [|exact E']. eapply rtc_l; [apply t_doc|]. rewrite E. eapply rtc_l; [by apply (t_doc_new s d x l)|exact R].
  - destruct (K s false d x) as (s' & R & E'). by exists s', false.
Qed.
Lemma order_first (x : field) t : is_Some (f_tf x !! t) -> exists ks, range_order (f_tf x) (t :: ks).
Proof.
  intros [v Hv]. assert (t ∈ (map_to_list (f_tf x)).*1) as H. { apply elem_of_list_fmap. exists (t, v). split; [done|]. by apply elem_of_map_to_list. }
  apply elem_of_Permutation in H as (ks & E). exists ks. unfold range_order. by rewrite <- E.
Qed.
(** A call that posts term [t] can get to the point where it adds to the set of [t]. *)
Lemma reach_set s c f t d l m a : posts f t d c -> k_index s !! f = Some l -> k_maps s !! l = Some m -> m !! t = Some a ->
  exists s' pc, rtc t_step (s, t_enter false c) (s', pc) /\ writes_to pc = Some (MSet a) /\ k_index s' = k_index s /\ k_maps s' = k_maps s /\ k_sets s' = k_sets s.
Proof.
  intros Hp E1 E2 E3. destruct (reach_idx s c) as (s' & full & R & F1 & F2 & F3). assert (f_name (call_field c) = f /\ is_Some (f_tf (call_field c) !! t)) as [Ef Et] by (destruct c; cbn in *; by destruct Hp as (_ & ? & ?)).
  destruct (order_first _ _ Et) as (ks & Hk). exists s', (TSet full (call_doc c) (call_field c) l t ks (Some a)). split; [|done]. eapply rtc_r; [eapply rtc_r; [exact R|]|].
  - apply (t_idx_old s' full _ _ l (t :: ks)); [by rewrite Ef, F1|done].
  - pose proof (t_loop s' full (call_doc c) (call_field c) l t ks) as H. rewrite F2, E2 in H. cbn [default from_option Datatypes.id] in H. rewrite E3 in H. exact H.
Qed.

(** * Reaching states of a search that runs alone. *)
Section alone.
  Variables (N : numops) (ncpu : nat) (terms : list string) (f : string).
  Notation bstep := (busy_step N ncpu terms f).
  Lemma alone_nft y len n ts : forall acc, exists acc', rtc bstep (y, QNft len n ts acc) (y, QNft len n [] acc').
  Proof.
    induction ts as [|t ts IH]; intros acc; [exists acc; apply rtc_refl|]. destruct (IH (<[t := match k_nft (cs_sh y) !! f with Some l => geti (counts_at (cs_sh y) l) t | None => 0 end]> acc)) as (acc' & R). exists acc'.
    eapply rtc_l; [apply b_search, q_nft|]. eapply rtc_l; [apply b_search, q_nft_term|]. exact R.
  Qed.
  Lemma alone_spawn y len n acc ps : forall ws wg, exists wg', rtc bstep (y, QIds len n acc (mkFan2 (MSpawn ps) ws wg 0 [] CNone [] false)) (y, QIds len n acc (mkFan2 (MSpawn []) (ws ++ (VAcquire <$> ps)) wg' 0 [] CNone [] false)).
  Proof.
    induction ps as [|p ps IH]; intros ws wg; [exists wg; cbn; rewrite app_nil_r; apply rtc_refl|]. destruct (IH (ws ++ [VAcquire p]) (S wg)) as (wg' & R). exists wg'.
    eapply rtc_l; [apply b_search, q_ids, f2_spawn|]. rewrite <- app_assoc in R. exact R.
  Qed.
  Lemma alone_range y t l m a : (0 < ncpu)%nat -> t ∈ terms -> k_index (cs_sh y) !! f = Some l -> k_maps (cs_sh y) !! l = Some m -> m !! t = Some a ->
    exists len n acc w, rtc bstep (y, QLength) (y, QIds len n acc w) /\ VRun (RRange a (dom (set_at (cs_sh y) a)) []) ∈ f2_workers w.
  Proof.
    intros Hn Ht E1 E2 E3. destruct (alone_nft y (geti (k_length (cs_sh y)) f) (geti (k_size (cs_sh y)) f) terms ∅) as (acc & R1).
    destruct (alone_spawn y (geti (k_length (cs_sh y)) f) (geti (k_size (cs_sh y)) f) acc (RTerm <$> terms) [] 0) as (wg & R2). apply elem_of_list_split in Ht as (t1 & t2 & Et).
    assert ((VAcquire <$> (RTerm <$> terms)) = (VAcquire <$> (RTerm <$> t1)) ++ VAcquire (RTerm t) :: (VAcquire <$> (RTerm <$> t2)) :> list (worker2 rd1)) as Ew by (rewrite Et, !fmap_app; done).
    exists (geti (k_length (cs_sh y)) f), (geti (k_size (cs_sh y)) f), acc, (mkFan2 (MSpawn []) ((VAcquire <$> (RTerm <$> t1)) ++ VRun (RRange a (dom (set_at (cs_sh y) a)) []) :: (VAcquire <$> (RTerm <$> t2))) wg 1 [] CNone [] false). split; [|cbn; apply elem_of_app; right; left].
    eapply rtc_l; [apply b_search, q_length|]. eapply rtc_l; [apply b_search, q_size|]. etransitivity; [exact R1|]. eapply rtc_l; [apply b_search, q_start|]. unfold fan2_init. etransitivity; [exact R2|]. cbn [app]. rewrite Ew.
    eapply rtc_l; [apply b_search, q_ids, f2_acquire; lia|]. eapply rtc_l; [apply b_search, q_ids, f2_inner, (r1_index f (cs_sh y) t l); done|]. eapply rtc_l; [apply b_search, q_ids, f2_inner, (r1_term f (cs_sh y) t l a)|].
    { rewrite E2. cbn [default from_option Datatypes.id]. exact E3. }
    eapply rtc_l; [apply b_search, q_ids, f2_inner, r1_range|]. apply rtc_refl.
  Qed.
  Lemma busy_writes y z q : rtc (conc_step false) y z -> rtc bstep (y, q) (z, q).
  Proof. induction 1 as [|a b c Hs _ IH]; [apply rtc_refl|]. eapply rtc_l; [by apply b_write|exact IH]. Qed.
End alone.

(** * One goroutine that makes calls for one field. *)
Section serial.
  Variables (f : string) (S0 L0 : Z) (h : list call).
  Definition lens_of (l : list call) : Z := zsum (map (fun c => f_length (call_field c)) l).
  Hypothesis Hf : Forall (fun c => f_name (call_field c) = f /\ 0 < f_length (call_field c)) h.
  Hypothesis HL : 0 <= L0 /\ L0 + lens_of h < 2 ^ 63.
  Hypothesis HS : 0 <= S0 /\ S0 + Z.of_nat (length h) < 2 ^ 63.
  Definition pre_len (pc : tpc) : Z := match pc with TDoc _ x | TDocW _ x _ | TSize _ _ x | TSizeW _ _ x _ | TLen _ _ x | TLenW _ _ x _ => f_length x | _ => 0 end.
  Definition pre_size (pc : tpc) : Z := match pc with TDoc _ _ | TDocW _ _ _ | TSize _ _ _ | TSizeW _ _ _ _ => 1 | _ => 0 end.
  Definition at_pc (s : shared) (pc : tpc) : Prop :=
    match pc with TSizeW _ _ _ v => v = geti (k_size s) f | TLenW _ _ _ v => v = geti (k_length s) f | _ => True end.
  Variable g : list call.
  Definition ser_inv (y : conc) : Prop := exists pc cs log, cs_threads y = [(pc, cs)] /\ cs_log y = g ++ log /\ log ++ cs = h /\ at_pc (cs_sh y) pc /\
    (forall c, calling pc = Some c -> c ∈ log) /\
    geti (k_length (cs_sh y)) f = L0 + lens_of log - pre_len pc /\
    geti (k_size (cs_sh y)) f = S0 + Z.of_nat (length log) - pre_size pc.
  Lemma lens_cons c a : lens_of (c :: a) = f_length (call_field c) + lens_of a.
  Proof. done. Qed.
  Lemma lens_app a b : lens_of (a ++ b) = lens_of a + lens_of b.
  Proof. clear HL HS Hf. unfold lens_of, zsum. rewrite map_app. induction (map _ a) as [|z zs IH]; [done|]. cbn [app fold_right]. rewrite IH. lia. Qed.
  Lemma lens_nonneg a : Forall (fun c => f_name (call_field c) = f /\ 0 < f_length (call_field c)) a -> 0 <= lens_of a.
  Proof. clear HL HS Hf. induction 1 as [|c a [_ Hc] _ IH]; [done|]. rewrite lens_cons. lia. Qed.
  Lemma lens_in a c : Forall (fun c => f_name (call_field c) = f /\ 0 < f_length (call_field c)) a -> c ∈ a -> f_length (call_field c) <= lens_of a.
  Proof. clear HL HS Hf. intros Ha Hc. apply elem_of_list_split in Hc as (a1 & a2 & ->). apply Forall_app in Ha as [H1 H2]. apply Forall_cons in H2 as [_ H2]. rewrite lens_app, lens_cons. pose proof (lens_nonneg _ H1). pose proof (lens_nonneg _ H2). lia. Qed.
  Lemma ser_step a b : conc_step false a b -> ser_inv a -> ser_inv b.
  Proof.
    intros H (pc0 & cs0 & log & E & Eg & L & A & Cl & EL & ES). inversion H as [s ths lg i c cs Hi|s ths lg i pc cs s' pc' Hi G]; subst; cbn [cs_threads cs_log cs_sh] in *; subst ths; (destruct i as [|i]; [|discriminate Hi]); injection Hi as -> ->; unfold ser_inv; cbn [cs_threads cs_log cs_sh].
    - exists (t_enter false c), cs, (log ++ [c]). split; [done|]. split; [by rewrite Eg, <- app_assoc|]. split; [rewrite <- app_assoc; exact L|]. split; [by destruct c|]. split; [intros c' Hc'; assert (c' = c) as -> by (destruct c; cbn in Hc'; congruence); apply elem_of_app; right; left|].
      rewrite lens_app, app_length. cbn in EL, ES. rewrite EL, ES. split; [rewrite lens_cons; destruct c; cbn [pre_len t_enter call_field lens_of map zsum fold_right]; lia|destruct c; cbn; lia].
    - exists pc', cs, log. split; [done|]. split; [done|]. split; [done|].
      assert (Forall (fun c => f_name (call_field c) = f /\ 0 < f_length (call_field c)) log /\ lens_of log <= lens_of h /\ (length log <= length h)%nat) as (Fl & Ll & Ln).
      { pose proof Hf as Hf'. rewrite <- L in Hf' |- *. apply Forall_app in Hf' as [H1 H2]. split; [done|]. split; [rewrite lens_app; pose proof (lens_nonneg _ H2); lia|rewrite app_length; lia]. }
      assert (forall c, calling pc = Some c -> f_name (call_field c) = f /\ 0 < f_length (call_field c) <= lens_of log) as Fc.
      { intros c Hc. pose proof (Cl c Hc) as Hin. rewrite Forall_forall in Fl. destruct (Fl c Hin). split; [done|]. split; [done|]. apply lens_in; [by apply Forall_forall|done]. }
      assert (forall c, calling pc' = Some c -> c ∈ log) as Cl'. { intros c Hc. apply Cl. inversion G; subst; try done; try (by destruct full). }
      split; [|split; [exact Cl'|]].
      + inversion G; subst; cbn in *; try done; try (by destruct full); destruct (Fc _ eq_refl) as [En _]; destruct full; cbn in En; by rewrite En.
      + inversion G; subst; cbn [k_length k_size set_kfdoc set_ksize set_klength set_kindex set_knft pre_len pre_size calling at_pc] in *; try (split; [exact EL|exact ES]);
          try (destruct full; split; [exact EL|exact ES]).
        * assert (f_name x = f) as En by (destruct (Fc _ eq_refl) as [En _]; by destruct full). rewrite En. unfold geti at 2. rewrite lookup_insert. cbn [default from_option Datatypes.id]. split; [exact EL|]. rewrite wrap64_id by (unfold int64_range; rewrite ES in A; lia). rewrite A, ES. lia.
        * assert (f_name x = f /\ 0 < f_length x <= lens_of log) as [En Hx] by (destruct (Fc _ eq_refl) as [En Hx]; by destruct full). rewrite En. unfold geti at 1. rewrite lookup_insert. cbn [default from_option Datatypes.id]. split; [|exact ES]. rewrite EL in A. rewrite wrap64_id by (unfold int64_range; lia). lia.
        * destruct full; (split; [rewrite EL; cbn; lia|rewrite ES; cbn; lia]).
  Qed.
  Lemma ser_run a b : rtc (conc_step false) a b -> ser_inv a -> ser_inv b.
  Proof. induction 1 as [|x y z Hs _ IH]; [done|]. intros I. apply IH. by eapply ser_step. Qed.
End serial.
