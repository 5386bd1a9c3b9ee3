(** Searches that run while other goroutines save (C61): document frequencies. *)
From Verif Require Import Base M_Field M_Memory M_Concurrent M_Num M_FanIn M_Search M_SearchConc S_Memory S_Concurrent S_SearchConc P_Base P_Memory P_Concurrent P_Concurrent2.
#[local] Open Scope Z_scope.

Section counts.
  Variable disk : bool.
  Notation conc_step := (conc_step disk).
  Variables (f t : string) (l0 : option nat) (v0 : Z).
  Hypothesis Hv0 : 0 <= v0.
  (** The goroutine has a save that counts and whose count is still to be stored. *)
  Definition pre_cnt (th : tpc * list call) : bool :=
    match th.1 with
    | TNftLoop _ x _ ks => bool_decide (f_name x = f) && bool_decide (t ∈ ks)
    | TNftW _ x _ t' ks _ => bool_decide (f_name x = f) && bool_decide (t ∈ t' :: ks)
    | pc => match pc_call pc with Some c => counts_term f t c | None => false end
    end.
  Definition npre_cnt (ths : list (tpc * list call)) : Z := Z.of_nat (length (List.filter pre_cnt ths)).
  Definition lo (l : nat) : Z := if bool_decide (l0 = Some l) then v0 else 0.
  Lemma lo_nonneg l : 0 <= lo l.
  Proof. unfold lo. case_bool_decide; lia. Qed.
  Definition cnt_pc (on : gmap nat string) (B : Z) (pc : tpc) : Prop :=
    match pc with
    | TNftLoop _ x l ks => on !! l = Some (f_name x) /\ NoDup ks /\ (f_name x = f -> forall l1, l0 = Some l1 -> l = l1)
    | TNftW _ x l t' ks v => on !! l = Some (f_name x) /\ NoDup (t' :: ks) /\ (f_name x = f -> forall l1, l0 = Some l1 -> l = l1) /\ (f_name x = f -> t' = t -> lo l <= v <= B)
    | _ => True
    end.
  Record cnt_sh (s : shared) (on : gmap nat string) (B : Z) : Prop := {
    n_idx : forall g l, k_nft s !! g = Some l -> on !! l = Some g;
    n_dom : forall l, is_Some (k_nfts s !! l) <-> is_Some (on !! l);
    n_val : forall l, on !! l = Some f -> lo l <= geti (counts_at s l) t <= B;
    n_low : forall l1, l0 = Some l1 -> k_nft s !! f = Some l1 }.
  Definition cnt_inv (on : gmap nat string) (y : conc) : Prop :=
    let B := term_saves f t (cs_log y) - npre_cnt (cs_threads y) in
    0 <= B /\ cnt_sh (cs_sh y) on B /\ forall th, th ∈ cs_threads y -> cnt_pc on B th.1.
  Lemma cnt_pc_mono on on' B B' pc : on ⊆ on' -> B <= B' -> cnt_pc on B pc -> cnt_pc on' B' pc.
  Proof.
    intros H1 H2. destruct pc; try done; cbn.
    - intros (E1 & E2 & E3). split; [by eapply lookup_weaken|done].
    - intros (E1 & E2 & E3 & E4). split; [by eapply lookup_weaken|]. split; [done|]. split; [done|]. intros Ex Et. specialize (E4 Ex Et). lia.
  Qed.
  Lemma saves_snoc h c : term_saves f t (h ++ [c]) = term_saves f t h + Z.b2z (counts_term f t c).
  Proof. unfold term_saves. rewrite List.filter_app, app_length. cbn. destruct (counts_term f t c); cbn; lia. Qed.
  Lemma order_in (x : field) ks u : range_order (f_tf x) ks -> u ∈ ks <-> is_Some (f_tf x !! u).
  Proof.
    intros H. split; [by apply order_some|]. intros [v Hv]. unfold range_order in H. rewrite H. apply elem_of_list_fmap. exists (u, v). split; [done|]. by apply elem_of_map_to_list.
  Qed.
  Lemma order_nodup' (x : field) ks : range_order (f_tf x) ks -> NoDup ks.
  Proof. intros H. unfold range_order in H. rewrite H. apply NoDup_fst_map_to_list. Qed.
  (** One step of a goroutine: its pending count either stays or has been stored. *)
  Lemma cnt_t s pc s' pc' on B cs : t_step (s, pc) (s', pc') -> cnt_sh s on B -> cnt_pc on B pc -> 0 <= B -> B + Z.b2z (pre_cnt (pc, cs)) - Z.b2z (pre_cnt (pc', cs)) < 2 ^ 63 ->
    exists on', on ⊆ on' /\ let B' := B + Z.b2z (pre_cnt (pc, cs)) - Z.b2z (pre_cnt (pc', cs)) in
      B <= B' /\ cnt_sh s' on' B' /\ cnt_pc on' B' pc'.
  Proof.
    intros G W Cp HB HB'.
    assert (forall B', B <= B' -> cnt_sh s on B') as Wm. { intros B' L. destruct W as [W1 W2 W3 W4]. constructor; try done. intros l Hl. specialize (W3 l Hl). lia. }
    inversion G; subst;
      try (exists on; split; [done|]; unfold pre_cnt; cbn [fst pc_call Z.b2z]; split; [lia|]; (split; [destruct (Wm B ltac:(lia)) as [W1 W2 W3 W4]; constructor; try done; intros l' Hl'; specialize (W3 l' Hl'); unfold counts_at in *; cbn in *; lia|done])).
    - (* end of the posting loop *)
      exists on. split; [done|]. unfold pre_cnt. destruct full; cbn [fst pc_call Z.b2z counts_term]; (split; [lia|]; split; [apply Wm; lia|done]).
    - (* the field has a map *)
      exists on. split; [done|]. assert (pre_cnt (TNftLoop d x l ks, cs) = pre_cnt (TNft d x, cs)) as ->.
      { unfold pre_cnt. cbn. f_equal. apply bool_decide_ext. by apply order_in. }
      split; [lia|]. split; [apply Wm; lia|]. cbn. split; [by apply (n_idx _ _ _ W)|]. split; [by eapply order_nodup'|]. intros Ef l1 El. apply (n_low _ _ _ W) in El. rewrite <- Ef in El. congruence.
    - (* a new map *)
      assert (on !! l = None) as Hl. { apply eq_None_not_Some. rewrite <- (n_dom _ _ _ W). by apply eq_None_not_Some. }
      assert (pre_cnt (TNftLoop d x l ks, cs) = pre_cnt (TNft d x, cs)) as ->. { unfold pre_cnt. cbn. f_equal. apply bool_decide_ext. by apply order_in. }
      exists (<[l := f_name x]> on). split; [by apply insert_subseteq|]. split; [lia|]. split.
      + destruct W as [W1 W2 W3 W4]. constructor; cbn [k_nft k_nfts set_knft].
        * intros g l' E. pose proof (W1 _ _ E) as E2. rewrite lookup_insert_ne; [done|]. intros ->. congruence.
        * intros l'. destruct (decide (l = l')) as [->|Hn]; [rewrite !lookup_insert; split; eauto|by rewrite !lookup_insert_ne].
        * intros l' E. unfold counts_at. cbn. destruct (decide (l = l')) as [->|Hn].
          -- rewrite lookup_insert. cbn. change (geti ∅ t) with 0. unfold lo. rewrite bool_decide_eq_false_2; [lia|]. intros El. apply W4 in El. apply W1 in El. congruence.
          -- rewrite lookup_insert_ne in E by done. rewrite lookup_insert_ne by done. specialize (W3 l' E). unfold counts_at in W3. lia.
        * done.
      + cbn. rewrite lookup_insert. split; [done|]. split; [by eapply order_nodup'|]. intros Ef l1 El. apply (n_low _ _ _ W) in El. rewrite <- Ef in El. congruence.
    - (* read *)
      exists on. split; [done|]. unfold pre_cnt. cbn [fst]. split; [lia|]. split; [apply Wm; lia|]. cbn in Cp |- *. destruct Cp as (C1 & C2 & C3). split; [done|]. split; [done|]. split; [done|]. intros Ef ->. rewrite Ef in C1.
      pose proof (n_val _ _ _ W _ C1) as Hv. unfold counts_at in Hv. lia.
    - (* write *)
      cbn in Cp. destruct Cp as (C1 & C2 & C3 & C4). exists on. split; [done|]. apply NoDup_cons in C2 as [C2 C2'].
      assert (Z.b2z (pre_cnt (TNftW d x l t0 ks v, cs)) - Z.b2z (pre_cnt (TNftLoop d x l ks, cs)) = Z.b2z (bool_decide (f_name x = f) && bool_decide (t = t0))) as Ep.
      { unfold pre_cnt. cbn [fst]. destruct (bool_decide (f_name x = f)); [|done]. cbn [andb]. destruct (decide (t = t0)) as [->|Hn].
        - rewrite (bool_decide_eq_true_2 (t0 ∈ t0 :: ks)) by left. rewrite (bool_decide_eq_false_2 (t0 ∈ ks)) by done. by rewrite (bool_decide_eq_true_2 (t0 = t0)).
        - rewrite (bool_decide_eq_false_2 (t = t0)) by done. rewrite (bool_decide_ext (t ∈ t0 :: ks) (t ∈ ks)); [cbn; lia|]. rewrite elem_of_cons. split; [by intros [?|?]|by right]. }
      set (e := Z.b2z (bool_decide (f_name x = f) && bool_decide (t = t0))) in *. assert (0 <= e) by (unfold e; destruct (_ && _); cbn; lia).
      cbv zeta. replace (B + Z.b2z (pre_cnt (TNftW d x l t0 ks v, cs)) - Z.b2z (pre_cnt (TNftLoop d x l ks, cs))) with (B + e) by lia. split; [lia|]. split; [|done].
      destruct W as [W1 W2 W3 W4]. constructor; cbn [k_nft k_nfts set_knft]; try done.
      + intros l'. destruct (decide (l = l')) as [->|Hn]; [rewrite lookup_insert, C1; split; eauto|by rewrite lookup_insert_ne].
      + intros l' E. unfold counts_at. cbn. destruct (decide (l = l')) as [<-|Hn].
        * rewrite lookup_insert. cbn [default from_option id]. assert (f_name x = f) as Ef by congruence. specialize (W3 l E). unfold counts_at in W3. destruct (decide (t0 = t)) as [->|Ht].
          -- specialize (C4 Ef eq_refl). unfold geti at 1 2. rewrite lookup_insert. cbn [default from_option id]. assert (e = 1) as -> by (unfold e; rewrite !bool_decide_eq_true_2; done). pose proof (lo_nonneg l). rewrite wrap64_id by (unfold int64_range; lia). lia.
          -- unfold geti at 1 2. rewrite lookup_insert_ne by done. fold (geti (default ∅ (k_nfts s !! l)) t). lia.
        * rewrite lookup_insert_ne by done. specialize (W3 l' E). unfold counts_at in W3. lia.
    - (* publish *)
      cbn in Cp. destruct Cp as (C1 & C2 & C3). exists on. split; [done|]. assert (pre_cnt (TNftLoop d x l [], cs) = false) as ->. { unfold pre_cnt. cbn. rewrite (bool_decide_eq_false_2 (t ∈ [])) by (by intros ?%elem_of_nil). by rewrite andb_false_r. }
      cbn. split; [lia|]. split; [|done]. destruct (Wm (B + 0 - 0) ltac:(lia)) as [W1 W2 W3 W4]. constructor; cbn [k_nft k_nfts set_knft]; try done.
      + intros g l' E. destruct (decide (f_name x = g)) as [<-|Hn]; [rewrite lookup_insert in E; injection E as <-; done|]. rewrite lookup_insert_ne in E by done. by apply W1.
      + intros l1 El. destruct (decide (f_name x = f)) as [Ef|Hn]; [rewrite <- Ef, lookup_insert; by rewrite (C3 Ef l1 El)|]. rewrite lookup_insert_ne by done. by apply W4.
  Qed.
  Lemma cnt_step on a b : conc_step a b -> term_saves f t (cs_log b) < 2 ^ 63 -> cnt_inv on a -> exists on', on ⊆ on' /\ cnt_inv on' b.
  Proof.
    intros H Hb (I0 & W & Th). inversion H as [s ths log i c cs Hi|s ths log i pc cs s' pc' Hi G]; subst; clear H; unfold cnt_inv; cbn [cs_sh cs_threads cs_log] in *.
    - exists on. split; [done|]. unfold npre_cnt. rewrite (filter_insert pre_cnt _ _ _ _ Hi), saves_snoc. assert (pre_cnt (t_enter disk c, cs) = counts_term f t c) as -> by (unfold pre_cnt; destruct c; destruct disk; done).
      cbn [Z.b2z pre_cnt pc_call fst]. fold (npre_cnt ths). set (e := Z.b2z _). replace (term_saves f t log + e - (npre_cnt ths - 0 + e)) with (term_saves f t log - npre_cnt ths) by lia. split; [done|]. split; [done|].
      intros th Hth. apply elem_of_insert in Hth as [->|Hth]; [destruct c; cbn; by destruct disk|by apply Th].
    - pose proof (elem_of_list_lookup_2 _ _ _ Hi) as Hin. set (B := term_saves f t log - npre_cnt ths) in *.
      assert (0 <= npre_cnt ths) by (unfold npre_cnt; lia).
      assert (0 <= npre_cnt (<[i := (pc', cs)]> ths)) as Hn by (unfold npre_cnt; lia).
      assert (term_saves f t log - npre_cnt (<[i := (pc', cs)]> ths) = B + Z.b2z (pre_cnt (pc, cs)) - Z.b2z (pre_cnt (pc', cs))) as EB.
      { unfold npre_cnt. rewrite (filter_insert pre_cnt _ _ _ _ Hi). fold (npre_cnt ths). lia. }
      destruct (cnt_t s pc s' pc' on B cs G W (Th _ Hin) I0) as (on' & L & LB & W' & C'); [lia|]. exists on'. split; [done|]. rewrite EB. split; [lia|]. split; [done|].
      intros th Hth. apply elem_of_insert in Hth as [->|Hth]; [done|]. eapply cnt_pc_mono; [exact L|exact LB|by apply Th].
  Qed.
End counts.

(** The invariant along executions. *)
Definition guarded (disk : bool) (f t : string) (l0 : option nat) (v0 : Z) (on : gmap nat string) (y : conc) : Prop :=
  term_saves f t (cs_log y) < 2 ^ 63 -> cnt_inv f t l0 v0 on y.
Lemma saves_le f t h h' : term_saves f t h <= term_saves f t (h ++ h').
Proof. unfold term_saves. rewrite List.filter_app, app_length. lia. Qed.
Lemma guarded_step disk f t l0 v0 on y y' : 0 <= v0 -> conc_step disk y y' -> guarded disk f t l0 v0 on y -> exists on', on ⊆ on' /\ guarded disk f t l0 v0 on' y'.
Proof.
  intros Hv H G. destruct (decide (term_saves f t (cs_log y') < 2 ^ 63)) as [Hb|Hb]; [|exists on; by split].
  assert (term_saves f t (cs_log y) < 2 ^ 63) as Ha. { destruct (log_grows disk y y') as (h & E); [by apply rtc_once|]. pose proof (saves_le f t (cs_log y) h). rewrite <- E in *. lia. }
  destruct (cnt_step disk f t l0 v0 Hv on y y' H Hb (G Ha)) as (on' & L & G'). exists on'. split; [done|]. by intros _.
Qed.
Lemma guarded_run disk f t l0 v0 y z : 0 <= v0 -> rtc (conc_step disk) y z -> forall on, guarded disk f t l0 v0 on y -> exists on', on ⊆ on' /\ guarded disk f t l0 v0 on' z.
Proof.
  intros Hv. induction 1 as [y|y1 y2 y3 Hs _ IH]; intros on G; [by exists on|]. destruct (guarded_step _ _ _ _ _ _ _ _ Hv Hs G) as (o1 & L1 & G1). destruct (IH _ G1) as (o2 & L2 & G2). exists o2. split; [by etrans|done].
Qed.
Lemma guarded_start disk f t progs : guarded disk f t None 0 ∅ (conc_start sh_new progs).
Proof.
  intros _. unfold cnt_inv, conc_start. cbn [cs_sh cs_threads cs_log]. assert (npre_cnt f t (map (fun cs => (TIdle, cs)) progs) = 0) as E. { unfold npre_cnt. induction progs as [|p ps IH]; [done|]. cbn. done. }
  rewrite E. change (term_saves f t []) with 0. split; [lia|]. split.
  - constructor; cbn; try done. intros l. rewrite !lookup_empty. split; intros [? ?]; done.
  - intros th Hth. apply elem_of_list_fmap in Hth as (p & -> & _). done.
Qed.
(** From a moment at which no call concerns the field, counts only grow. *)
Lemma guarded_restart disk f t on y : (forall th c, th ∈ cs_threads y -> pc_call th.1 = Some c -> f_name (call_field c) <> f) ->
  guarded disk f t None 0 on y -> guarded disk f t (k_nft (cs_sh y) !! f) (match k_nft (cs_sh y) !! f with Some l => geti (counts_at (cs_sh y) l) t | None => 0 end) on y.
Proof.
  intros U G Hb. destruct (G Hb) as (I0 & W & Th). split; [done|]. split.
  - destruct W as [W1 W2 W3 W4]. constructor; try done. intros l Hl. specialize (W3 l Hl). assert (lo None 0 l = 0) as E0 by (unfold lo; by destruct (bool_decide _)). rewrite E0 in W3. unfold lo. case_bool_decide as E; [rewrite E; lia|lia].
  - intros th Hth. specialize (Th th Hth). specialize (U th). destruct th as [[] ?]; try done; cbn in *.
    + destruct Th as (T1 & T2 & _). split; [done|]. split; [done|]. intros Ef. by destruct (U _ Hth eq_refl).
    + destruct Th as (T1 & T2 & _ & _). split; [done|]. split; [done|]. split; intros Ef; by destruct (U _ Hth eq_refl).
Qed.
Lemma guarded_zero disk f t on y l : guarded disk f t None 0 on y -> term_saves f t (cs_log y) < 2 ^ 63 -> k_nft (cs_sh y) !! f = Some l -> 0 <= geti (counts_at (cs_sh y) l) t.
Proof. intros G Hb E. destruct (G Hb) as (_ & [W1 _ W3 _] & _). specialize (W3 l (W1 _ _ E)). assert (lo None 0 l = 0) as E0 by (unfold lo; by destruct (bool_decide _)). lia. Qed.
