From Verif Require Import Base M_Cache S_Cache P_Base P_Cache.
#[local] Open Scope Z_scope.

(** ** SyncMap *)
Section sm.
  Context {T : Type}.
  Implicit Types s : smap T.

  Lemma sm_step_stopped s l s' : sm_step s l s' -> sm_running s = false ->
    sm_running s' = false /\ sm_data s' = sm_data s /\
    sm_ch s' = sm_ch s ++ match l with RPut k v => [(k, v)] | _ => [] end /\
    (forall k r, l = RGet k r -> r = sm_data s !! k) /\
    (forall k v, l = RPut k v -> (length (sm_ch s) < sm_chan_cap)%nat).
  Proof.
    intros H Hr. destruct H; cbn in *; try discriminate; rewrite ?app_nil_r;
      (split; [done|split; [done|split; [done|split; intros ?? E; by inversion E]]]).
  Qed.
  Lemma sm_stopped tr s : sm_exec smap_new tr s ->
    sm_running s = false /\ sm_data s = ∅ /\ sm_ch s = puts_of tr /\ (length (puts_of tr) <= sm_chan_cap)%nat /\
    (forall k r, RGet k r ∈ tr -> r = None).
  Proof.
    intros H. remember smap_new as s0 eqn:E. induction H as [s|s tr s1 l s2 He IH Hs]; subst.
    - cbn. repeat split; try lia. intros k r Hin. inversion Hin.
    - destruct (IH eq_refl) as (Hr & Hd & Hc & Hl & Hg).
      destruct (sm_step_stopped _ _ _ Hs Hr) as (Hr' & Hd' & Hc' & Hg' & Hp').
      split; [done|]. split; [by rewrite Hd'|]. split; [by rewrite Hc', puts_of_snoc, Hc|]. split.
      + rewrite puts_of_snoc, app_length. destruct l as [k v|k r|]; cbn; try lia.
        specialize (Hp' k v eq_refl). rewrite Hc in Hp'. lia.
      + intros k r Hin. apply elem_of_app in Hin as [Hin|Hin]; [eauto|].
        apply elem_of_list_singleton in Hin. symmetry in Hin. apply Hg' in Hin as ->. by rewrite Hd.
  Qed.
  Lemma sm_never tr s k r s' : sm_exec smap_new tr s -> sm_step s (RGet k r) s' -> r = None.
  Proof.
    intros H Hs. destruct (sm_stopped _ _ (sm_exec_snoc _ _ _ _ _ H Hs)) as (_ & _ & _ & _ & Hg).
    apply (Hg k). apply elem_of_app. right. left.
  Qed.
  Lemma sm_block tr s tr' s' k v s'' : sm_exec smap_new tr s -> length (puts_of tr) = sm_chan_cap ->
    sm_exec s tr' s' -> ~ sm_step s' (RPut k v) s''.
  Proof.
    intros H E H' Hs.
    assert (sm_exec smap_new (tr ++ tr') s') as Ha.
    { clear E Hs. induction H' as [|s tr' s1 l s2 He IH Hs]; [by rewrite app_nil_r|].
      rewrite app_assoc. econstructor; [by apply IH|done]. }
    destruct (sm_stopped _ _ (sm_exec_snoc _ _ _ _ _ Ha Hs)) as (_ & _ & _ & Hl & _).
    unfold puts_of in *. rewrite !omap_app, !app_length in Hl. cbn in Hl. unfold puts_of in E. lia.
  Qed.
  Lemma sm_accepts tr s k v : sm_exec smap_new tr s -> (length (puts_of tr) < sm_chan_cap)%nat ->
    exists s', sm_step s (RPut k v) s'.
  Proof.
    intros H E. destruct (sm_stopped _ _ H) as (_ & _ & Hc & _). destruct s. cbn in Hc. subst.
    eexists. by eapply sm_put.
  Qed.

  Definition sm_ok s : Prop := match sm_pc_ s with SMIdle => True | SMStore copy => sm_data s ⊆ copy end.
  Lemma sm_ok_step s l s' : sm_ok s -> sm_step s l s' -> sm_ok s' /\ sm_data s ⊆ sm_data s'.
  Proof.
    intros Ho H. destruct H as [| | |d ch b ks1 ks2 H1 H2|]; cbn in *; try (by split).
    split; [|done]. rewrite !copy_into_union by done. apply map_union_subseteq_l.
  Qed.
  Lemma sm_writer_ok tr s : sm_exec smap_new_with_writer tr s -> sm_ok s.
  Proof.
    intros H. remember smap_new_with_writer as s0 eqn:E. induction H as [s|s tr s1 l s2 He IH Hs]; subst; [done|].
    apply (sm_ok_step _ _ _ (IH eq_refl) Hs).
  Qed.
  Lemma sm_frozen tr s tr' s' k v : sm_exec smap_new_with_writer tr s -> sm_exec s tr' s' ->
    sm_data s !! k = Some v -> sm_data s' !! k = Some v.
  Proof.
    intros H H' Hk. apply sm_writer_ok in H.
    assert (sm_ok s' /\ sm_data s ⊆ sm_data s') as [_ Hs]; [|by eapply lookup_weaken].
    induction H' as [s|s tr' s1 l s2 He IH Hs]; [done|].
    destruct (IH H Hk) as [Ho Hsub]. destruct (sm_ok_step _ _ _ Ho Hs) as [? ?]. split; [done|by etrans].
  Qed.
  Lemma sm_get_frozen tr s k v s1 tr' s2 r s3 : sm_exec smap_new_with_writer tr s ->
    sm_step s (RGet k (Some v)) s1 -> sm_exec s1 tr' s2 -> sm_step s2 (RGet k r) s3 -> r = Some v.
  Proof.
    intros H G H' G'. assert (s1 = s) as -> by (by inversion G).
    assert (sm_data s !! k = Some v) as E by (by inversion G).
    assert (r = sm_data s2 !! k) as -> by (by inversion G').
    by eapply sm_frozen.
  Qed.
End sm.

(** ** CRC-32 stays a 32-bit number *)
Section crc.
  #[local] Open Scope N_scope.
  Lemma crc_bit_lt c : c < 2 ^ 32 -> crc_bit c < 2 ^ 32.
  Proof.
    intros H. unfold crc_bit. assert (N.shiftr c 1 < 2 ^ 32) as Hs.
    { rewrite N.shiftr_div_pow2. eapply N.le_lt_trans; [|exact H]. apply N.div_le_upper_bound; [done|]. lia. }
    destruct (N.odd c); [|done].
    destruct (decide (N.lxor (N.shiftr c 1) crc_poly = 0)) as [->|Hne]; [done|].
    apply N.log2_lt_pow2; [lia|]. eapply N.le_lt_trans; [apply N.log2_lxor|].
    apply N.max_lub_lt.
    - destruct (decide (N.shiftr c 1 = 0)) as [->|]; [done|]. apply N.log2_lt_pow2; [lia|done].
    - done.
  Qed.
  Lemma crc_lxor_lt a b : a < 2 ^ 32 -> b < 2 ^ 32 -> N.lxor a b < 2 ^ 32.
  Proof.
    intros Ha Hb. destruct (decide (N.lxor a b = 0)) as [->|Hne]; [done|].
    apply N.log2_lt_pow2; [lia|]. eapply N.le_lt_trans; [apply N.log2_lxor|].
    apply N.max_lub_lt.
    - destruct (decide (a = 0)) as [->|]; [done|]. apply N.log2_lt_pow2; [lia|done].
    - destruct (decide (b = 0)) as [->|]; [done|]. apply N.log2_lt_pow2; [lia|done].
  Qed.
  Lemma crc_byte_lt c b : c < 2 ^ 32 -> crc_byte c b < 2 ^ 32.
  Proof.
    intros H. unfold crc_byte.
    assert (N.lxor c (N_of_ascii b) < 2 ^ 32) as Hx.
    { apply crc_lxor_lt; [done|]. eapply N.lt_trans; [apply N_ascii_bounded|]. done. }
    revert Hx. generalize (N.lxor c (N_of_ascii b)). generalize 8%nat. intros n.
    induction n as [|n IH]; intros x Hx; [done|]. cbn [Nat.iter]. apply crc_bit_lt. by apply IH.
  Qed.
  Lemma crc_loop_lt s : forall c, c < 2 ^ 32 -> crc_loop c s < 2 ^ 32.
  Proof. induction s as [|b s IH]; intros c H; cbn [crc_loop]; [done|]. by apply IH, crc_byte_lt. Qed.
  Lemma crc32_lt s : crc32 s < 2 ^ 32.
  Proof. unfold crc32. apply crc_lxor_lt; [|done]. by apply crc_loop_lt. Qed.
End crc.

(** ** Shard *)
Section shard.
  Context {T : Type}.
  Implicit Types s : shard T.

  Definition shard_init n f : shard T := fold_left (fun s i =>
        mkShard (sh_fragments s) (<[Z.of_nat i := i]> (sh_shard s)) (<[i := ∅]> (sh_maps s))
                (sh_heap s) (sh_next s)) (seq 0 n) (mkShard f ∅ ∅ ∅ 0).
  Lemma shard_init_spec n f :
    sh_fragments (shard_init n f) = f /\ sh_heap (shard_init n f) = ∅ /\ sh_next (shard_init n f) = 0%nat /\
    (forall i, sh_shard (shard_init n f) !! i = if decide (0 <= i < Z.of_nat n) then Some (Z.to_nat i) else None) /\
    (forall j, sh_maps (shard_init n f) !! j = if decide (j < n)%nat then Some ∅ else None).
  Proof.
    induction n as [|n (E1 & E2 & E3 & E4 & E5)].
    - repeat split; try done. intros i. rewrite decide_False by (cbn; lia). done.
    - unfold shard_init in *. rewrite seq_S, fold_left_app. cbn [fold_left sh_fragments sh_heap sh_next sh_shard sh_maps].
      split; [done|]. split; [done|]. split; [done|]. split.
      + intros i. destruct (decide (i = Z.of_nat (0 + n))) as [->|Hne].
        * rewrite lookup_insert, decide_True by lia. f_equal. lia.
        * rewrite lookup_insert_ne by done. rewrite E4. destruct (decide (0 <= i < Z.of_nat n)).
          -- by rewrite decide_True by lia.
          -- by rewrite decide_False by lia.
      + intros j. destruct (decide (j = (0 + n)%nat)) as [->|Hne].
        * by rewrite lookup_insert, decide_True by lia.
        * rewrite lookup_insert_ne by done. rewrite E5. destruct (decide (j < n)%nat).
          -- by rewrite decide_True by lia.
          -- by rewrite decide_False by lia.
  Qed.
  Lemma shard_new_spec f :
    sh_fragments (@shard_new T f) = f /\ sh_heap (@shard_new T f) = (∅ : gmap nat T) /\ sh_next (@shard_new T f) = 0%nat /\
    (forall i, sh_shard (@shard_new T f) !! i = if decide (0 <= i < f) then Some (Z.to_nat i) else None) /\
    (forall j, sh_maps (@shard_new T f) !! j = if decide (Z.of_nat j < f) then Some ∅ else None).
  Proof.
    destruct (shard_init_spec (Z.to_nat f) f) as (E1 & E2 & E3 & E4 & E5).
    change (shard_init (Z.to_nat f) f) with (@shard_new T f) in *. split; [done|]. split; [done|]. split; [done|].
    split.
    - intros i. rewrite E4. destruct (decide (0 <= i < f)); [by rewrite decide_True by lia|by rewrite decide_False by lia].
    - intros i. rewrite E5. destruct (decide (Z.of_nat i < f)); [by rewrite decide_True by lia|by rewrite decide_False by lia].
  Qed.

  Definition route (f : Z) (k : string) : Z := Z.of_N (crc32 k) mod f.
  Lemma shard_get_pos s f k : sh_fragments s = f -> f > 0 ->
    (forall i, sh_shard s !! i = if decide (0 <= i < f) then Some (Z.to_nat i) else None) ->
    shard_get s k = Some (Z.to_nat (route f k)).
  Proof.
    intros E Hf Hs. unfold shard_get, shard_id. rewrite E. destruct (Z.eqb_spec f 0) as [|_]; [lia|].
    assert (Z.rem (Z.of_N (crc32 k)) f = route f k) as -> by (unfold route; apply Z.rem_mod_nonneg; lia).
    rewrite Hs, decide_True; [done|]. unfold route. apply Z.mod_pos_bound. lia.
  Qed.
  Lemma shard_step_static s o s' : shard_step s o = Some s' ->
    sh_fragments s' = sh_fragments s /\ sh_shard s' = sh_shard s.
  Proof. destruct o as [k1 k2 v]. cbn. destruct (shard_get s k1); [|done]. intros [= <-]. done. Qed.
  Lemma shard_run_static ops : forall s s', shard_run s ops = Some s' ->
    sh_fragments s' = sh_fragments s /\ sh_shard s' = sh_shard s.
  Proof.
    induction ops as [|o ops IH]; intros s s'; cbn [shard_run]; [by intros [= <-]|].
    destruct (shard_step s o) as [s1|] eqn:E; [|done]. intros H.
    apply IH in H as [-> ->]. by eapply shard_step_static.
  Qed.
  Lemma shard_run_total f ops : f > 0 -> exists s', shard_run (shard_new f) ops = Some s'.
  Proof.
    intros Hf. destruct (shard_new_spec f) as (E1 & _ & _ & E4 & _).
    revert E1 E4. generalize (@shard_new T f) as s. induction ops as [|o ops IH]; intros s E1 E4; cbn [shard_run]; [eauto|].
    destruct (shard_step s o) as [s1|] eqn:E.
    - destruct (shard_step_static _ _ _ E) as [F1 F2]. apply IH; [by rewrite F1|by rewrite F2].
    - exfalso. destruct o as [k1 k2 v]. cbn in E. by rewrite (shard_get_pos s f) in E.
  Qed.
  Lemma shard_routing f ops s k : f > 0 -> shard_run (shard_new f) ops = Some s ->
    shard_get s k = Some (Z.to_nat (Z.of_N (crc32 k) mod f)) /\
    (0 <= Z.of_N (crc32 k) mod f < f) /\
    exists m, sh_shard s !! (Z.of_N (crc32 k) mod f) = Some m /\ shard_get s k = Some m.
  Proof.
    intros Hf H. destruct (shard_run_static _ _ _ H) as [F1 F2]. destruct (shard_new_spec f) as (E1 & _ & _ & E4 & _).
    assert (shard_get s k = Some (Z.to_nat (route f k))) as G.
    { apply shard_get_pos; [by rewrite F1|done|by rewrite F2]. }
    split; [exact G|]. split; [apply Z.mod_pos_bound; lia|]. eexists. split; [|exact G].
    rewrite F2, E4, decide_True; [done|]. apply Z.mod_pos_bound. lia.
  Qed.
  Lemma shard_nonpos f k : f <= 0 -> shard_get (@shard_new T f) k = None.
  Proof.
    intros Hf. destruct (shard_new_spec f) as (E1 & _ & _ & E4 & _). unfold shard_get.
    destruct (shard_id (shard_new f) k); [|done]. rewrite E4, decide_False by lia. done.
  Qed.

  (** Set/Get *)
  Definition shard_wf s : Prop := forall m k p, local_get s m k = Some p -> (p < sh_next s)%nat.
  Lemma local_get_set s m k v m' k' :
    local_get (local_set s m k v) m' k' = if decide (m' = m /\ k' = k) then Some (sh_next s) else local_get s m' k'.
  Proof.
    unfold local_get, local_set. cbn [sh_maps]. destruct (decide (m' = m)) as [->|Hm].
    - rewrite lookup_insert. cbn [from_option id]. destruct (decide (k' = k)) as [->|Hk].
      + rewrite lookup_insert, decide_True; done.
      + rewrite lookup_insert_ne by done. rewrite decide_False; [done|]. intros [_ ?]. done.
    - rewrite lookup_insert_ne by done. rewrite decide_False; [done|]. intros [? _]. done.
  Qed.
  Lemma shard_run_snoc ops o : forall s, shard_run s (ops ++ [o]) =
    match shard_run s ops with Some s1 => shard_step s1 o | None => None end.
  Proof.
    induction ops as [|o' ops IH]; intros s; cbn [app shard_run]; [by destruct (shard_step s o)|].
    destruct (shard_step s o'); [apply IH|done].
  Qed.
  Lemma latest_snoc same (ops : list (shard_op T)) k1 k2 v :
    latest same (ops ++ [ShSet k1 k2 v]) = if same k1 k2 then Some v else latest same ops.
  Proof.
    induction ops as [|[a b w] ops IH]; cbn [app latest]; [by destruct (same k1 k2)|].
    rewrite IH. destruct (same k1 k2); done.
  Qed.
  Lemma shard_refines f ops s : f > 0 -> shard_run (shard_new f) ops = Some s ->
    shard_wf s /\ forall k1 k2, shard_lookup s k1 k2 =
      latest (fun a b => bool_decide (Z.of_N (crc32 a) mod f = Z.of_N (crc32 k1) mod f /\ b = k2)) ops.
  Proof.
    intros Hf. revert s. induction ops as [|[a b v] ops IH] using rev_ind; intros s H.
    - cbn in H. injection H as <-. destruct (shard_new_spec f) as (E1 & E2 & E3 & E4 & E5). 
      assert (forall m k, local_get (@shard_new T f) m k = None) as Hn.
      { intros m k. unfold local_get. rewrite E5. destruct (decide _); cbn; by rewrite lookup_empty. }
      split; [intros m k p; by rewrite Hn|]. intros k1 k2. unfold shard_lookup.
      destruct (shard_get _ _); [|done]. by rewrite Hn.
    - pose proof H as Hrun. rewrite shard_run_snoc in H. destruct (shard_run (shard_new f) ops) as [s1|] eqn:E; [|done].
      destruct (IH s1 eq_refl) as [Hwf Hl]. cbn [shard_step] in H.
      destruct (shard_routing f ops s1 a Hf E) as (Ga & Ra & _). rewrite Ga in H. injection H as <-.
      set (m := Z.to_nat (Z.of_N (crc32 a) mod f)) in *. split.
      + intros m' k' p. rewrite local_get_set. cbn [sh_next local_set]. destruct (decide _) as [_|_].
        * intros [= <-]. lia.
        * intros Hp. apply Hwf in Hp. lia.
      + intros k1 k2. rewrite latest_snoc, <- Hl. unfold shard_lookup.
        destruct (shard_routing f _ _ k1 Hf Hrun) as (Gk & Rk & _). rewrite Gk.
        destruct (shard_routing f ops s1 k1 Hf E) as (Gk1 & _). rewrite Gk1.
        rewrite local_get_set.
        destruct (decide (Z.of_N (crc32 a) mod f = Z.of_N (crc32 k1) mod f /\ b = k2)) as [[H1 H2]|Hne].
        * rewrite bool_decide_true by done. rewrite decide_True by (unfold m; rewrite H1; done).
          unfold shard_deref. cbn. by rewrite lookup_insert.
        * rewrite bool_decide_false by done. rewrite decide_False.
          -- destruct (local_get s1 _ k2) as [p|] eqn:Ep; [|done]. apply Hwf in Ep.
             unfold shard_deref. cbn. rewrite lookup_insert_ne by lia. done.
          -- intros [H1 H2]. apply Hne. split; [|done]. unfold m in H1. lia.
  Qed.
  (** A pointer once returned keeps its value. *)
  Lemma shard_pointer_stable ops : forall s s' p v, (forall q, is_Some (sh_heap s !! q) -> (q < sh_next s)%nat) ->
    shard_run s ops = Some s' -> shard_deref s p = Some v -> shard_deref s' p = Some v.
  Proof.
    induction ops as [|[a b w] ops IH]; intros s s' p v Hb; cbn [shard_run]; [by intros [= <-]|].
    destruct (shard_step s (ShSet a b w)) as [s1|] eqn:E; [|done]. intros H Hp. cbn [shard_step] in E.
    destruct (shard_get s a) as [m|]; [|done]. injection E as <-. eapply IH; [|exact H|].
    - intros q. cbn. rewrite lookup_insert_is_Some'. intros [<-|Hq]; [lia|]. apply Hb in Hq. lia.
    - unfold shard_deref in *. cbn. rewrite lookup_insert_ne; [done|]. intros <-.
      assert (is_Some (sh_heap s !! sh_next s)) as Hs by eauto. apply Hb in Hs. lia.
  Qed.
  Lemma shard_heap_ok ops : forall s s', (forall q, is_Some (sh_heap s !! q) -> (q < sh_next s)%nat) ->
    shard_run s ops = Some s' -> forall q, is_Some (sh_heap s' !! q) -> (q < sh_next s')%nat.
  Proof.
    induction ops as [|[a b w] ops IH]; intros s s' Hb; cbn [shard_run]; [by intros [= <-]|].
    destruct (shard_step s (ShSet a b w)) as [s1|] eqn:E; [|done]. intros H. cbn [shard_step] in E.
    destruct (shard_get s a) as [m|]; [|done]. injection E as <-. eapply IH; [|exact H].
    intros q. cbn. rewrite lookup_insert_is_Some'. intros [<-|Hq]; [lia|]. apply Hb in Hq. lia.
  Qed.
  Lemma shard_pointer f ops1 s1 ops2 s2 p v : shard_run (shard_new f) ops1 = Some s1 ->
    shard_deref s1 p = Some v -> shard_run s1 ops2 = Some s2 -> shard_deref s2 p = Some v.
  Proof.
    intros H1 Hp H2. eapply shard_pointer_stable; [|exact H2|exact Hp].
    eapply shard_heap_ok; [|exact H1]. destruct (shard_new_spec f) as (_ & E & _). rewrite E.
    intros q [x Hx]. by rewrite lookup_empty in Hx.
  Qed.
End shard.
