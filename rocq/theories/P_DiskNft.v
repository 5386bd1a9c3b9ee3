(** The disk storage: the document-frequency files (C52). *)
From Verif Require Import Base M_Field M_LRU S_Visits M_Memory M_File M_Serialize M_Disk P_Base P_File P_Serialize S_Disk P_DiskBase P_DiskInv P_DiskWriter T_Serialize.
#[local] Open Scope Z_scope.
#[local] Opaque serialize_metrics deserialize_metrics serialize_nft deserialize_nft serialize_field_map deserialize_field_map serialize_index deserialize_index.

(** The table that was flushed last in this session. *)
Definition nft_disk_ev (f : string) (r : gmap string Z * option (gmap string Z)) (e : event) : gmap string Z * option (gmap string Z) :=
  (nft_since_ev f r.1 e, match e with EOpened => None | ENftSaved g => if decide (g = f) then Some r.1 else r.2 | _ => r.2 end).
Definition nft_disk (f : string) (log : list event) : option (gmap string Z) := (fold_left (nft_disk_ev f) log (∅, None)).2.
Lemma nft_disk_fst f log : forall r, (fold_left (nft_disk_ev f) log r).1 = fold_left (nft_since_ev f) log r.1.
Proof. induction log as [|e log IH]; intros r; [done|]. cbn. by rewrite IH. Qed.
Lemma nft_since_snoc f log ev : nft_since f (log ++ [ev]) = nft_since_ev f (nft_since f log) ev.
Proof. unfold nft_since. by rewrite fold_left_app. Qed.
Lemma nft_last_snoc f t log ev : nft_last f t (log ++ [ev]) = nft_last_ev f t (nft_last f t log) ev.
Proof. unfold nft_last. by rewrite fold_left_app. Qed.
Lemma nft_disk_snoc f log ev : nft_disk f (log ++ [ev]) =
  match ev with EOpened => None | ENftSaved g => if decide (g = f) then Some (nft_since f log) else nft_disk f log | _ => nft_disk f log end.
Proof. unfold nft_disk. rewrite fold_left_app. cbn. rewrite nft_disk_fst. done. Qed.
Lemma nft_disk_split f l1 l2 : EOpened ∉ l2 -> ENftSaved f ∉ l2 -> nft_disk f (l1 ++ ENftSaved f :: l2) = Some (nft_since f l1).
Proof.
  induction l2 as [|e l2 IH] using rev_ind; intros H1 H2.
  - rewrite nft_disk_snoc. by rewrite decide_True.
  - rewrite elem_of_app, elem_of_list_singleton in H1, H2.
    assert (l1 ++ ENftSaved f :: l2 ++ [e] = (l1 ++ ENftSaved f :: l2) ++ [e]) as -> by (by rewrite <- app_assoc).
    rewrite nft_disk_snoc. destruct e; try (apply IH; tauto).
    + tauto.
    + destruct (decide (f0 = f)) as [->|Hne]; [tauto|]. apply IH; tauto.
Qed.

Section nft.
  Variables (compress : bytes -> bytes) (decompress : bytes -> option bytes) (cache_size : Z).
  Hypothesis gz : gzip_ok compress decompress.

  Definition n_holds (f : string) (c : content) (m : gmap string Z) : Prop := exists T, n_ser f m T /\ c = Whole (compress T).
  (** The table read from the folder. *)
  Definition n_read (s : fs) (f : string) (m : gmap string Z) : Prop :=
    match fs_files s !! [f; "nfterm"] with None => m = ∅ | Some c => exists T, c = Whole (compress T) /\ deserialize_nft T = Some m end.
  Definition n_valid (s : fs) : Prop := forall f c, nd f -> fs_files s !! [f; "nfterm"] = Some c -> exists m, n_holds f c m.
  Definition table (M : cmem) (f : string) : gmap string Z := default ∅ (c_nft M !! f).
  Definition live (u : up) (f : string) : gmap string Z :=
    match u_pc u with
    | CNftLoop _ x ft _ | CNftSend _ x ft _ _ => if decide (f_name x = f) then ft else table (u_mem u) f
    | _ => table (u_mem u) f
    end.
  Definition sending (pc : cpc) (f t : string) : Prop := match pc with CNftSend _ x _ t' _ => f_name x = f /\ t' = t | _ => False end.
  Definition silent (f : string) (log : list event) : Prop := forall t, nft_last f t log = None.
  Record n_up (s : fs) (u : up) (log : list event) : Prop := {
    nu_flight : w_flight compress n_ser (u_nw u);
    nu_none : forall f, nd f -> w_buf (u_nw u) !! f = None -> nft_since f log = ∅;
    nu_some : forall f m, nd f -> w_buf (u_nw u) !! f = Some m -> m = nft_since f log /\ m <> ∅;
    nu_disk : forall f m, nd f -> nft_disk f log = Some m -> ~ saving (u_nw u) f ->
              exists c, fs_files s !! [f; "nfterm"] = Some c /\ n_holds f c m;
    nu_live : forall f t n, nft_last f t log = Some n -> ~ sending (u_pc u) f t -> n = geti (live u f) t;
    nu_quiet : forall f, nd f -> silent f log -> n_read s f (table (u_mem u) f);
    nu_quiet2 : forall f, nd f -> silent f log -> (forall t, ~ sending (u_pc u) f t) -> live u f = table (u_mem u) f;
    nu_quiet3 : forall f, silent f log -> w_buf (u_nw u) !! f = None }.
  Definition n_inv (y : sys) : Prop := n_valid (y_fs y) /\ match y_proc y with Up u => n_up (y_fs y) u (y_log y) | _ => True end.

  Lemma n_sep k k' : nd k -> nd k' -> cur_path (n_dir k') (n_name k') <> temp_path (n_dir k) (n_name k) /\
    cur_path (n_dir k') (n_name k') <> old_path (n_dir k) (n_name k) /\ (cur_path (n_dir k') (n_name k') = cur_path (n_dir k) (n_name k) -> k' = k).
  Proof. intros _ _. cbn. split; [done|]. split; [done|]. congruence. Qed.

  Lemma n_valid_keeps s s' : keeps ON s s' -> n_valid s -> n_valid s'.
  Proof. intros Hf Hv f c Hn Hc. apply (Hv f c Hn). rewrite <- Hc. symmetry. apply Hf. by apply owner_n. Qed.
  Lemma n_up_keeps s s' u u' log : keeps ON s s' -> u_mem u' = u_mem u -> u_pc u' = u_pc u -> u_nw u' = u_nw u -> n_up s u log -> n_up s' u' log.
  Proof.
    intros Hf E1 E2 E3 []. assert (forall f, live u' f = live u f) as E4 by (intros f; unfold live; by rewrite E1, E2).
    constructor; rewrite ?E1, ?E2, ?E3; try done.
    - intros f m Hn Hd Hs. destruct (nu_disk0 f m Hn Hd Hs) as (c & Hc & Hh). exists c. split; [|done]. rewrite <- Hc. apply Hf. by apply owner_n.
    - intros f t n. rewrite E4. auto.
    - intros f Hn Hs. unfold n_read. rewrite (Hf [f; "nfterm"]); [by apply nu_quiet0|]. by apply owner_n.
    - intros f. rewrite E4. auto.
  Qed.
  (** Events that the tables do not see. *)
  Lemma n_up_event s u log e : match e with EOpened | ENft _ _ _ | ENftSaved _ => False | _ => True end -> n_up s u log -> n_up s u (log ++ [e]).
  Proof.
    intros He []. assert (forall f t, nft_last f t (log ++ [e]) = nft_last f t log) as E1 by (intros; rewrite nft_last_snoc; by destruct e).
    assert (forall f, silent f (log ++ [e]) -> silent f log) as E2 by (intros f Hs t; rewrite <- E1; apply Hs).
    assert (forall f, nft_since f (log ++ [e]) = nft_since f log) as E3 by (intros; rewrite nft_since_snoc; by destruct e).
    assert (forall f, nft_disk f (log ++ [e]) = nft_disk f log) as E4 by (intros; rewrite nft_disk_snoc; by destruct e).
    constructor.
    - done.
    - intros f. rewrite E3. auto.
    - intros f m. rewrite E3. auto.
    - intros f m. rewrite E4. auto.
    - intros f t n. rewrite E1. auto.
    - intros f Hn Hs. auto.
    - intros f Hn Hs. auto.
    - intros f Hs. auto.
  Qed.
  Lemma n_run s s' u u' ev log : layout s -> up_wf u s -> n_valid s -> n_up s u log -> runs compress decompress WhoN u s ev u' s' ->
    n_valid s' /\ n_up s' u' (log ++ ev).
  Proof.
    intros Hl Hw Hv [U1 U2 U3 U4 U5 U6 U7 U8] (Hs & Hu & _ & _ & _ & _ & Hev).
    assert (forall f, nd f -> _) as HC by (intros f Hn; exact (w_cases compress n_dir n_name n_ser ON nd nd n_dir_ok n_own n_sep _ _ _ _ f Hl (wf_nw _ _ Hw) Hs Hn)).
    assert (forall f, nd f -> w_buf (u_nw u) !! f = None -> fs_files s' !! [f; "nfterm"] = fs_files s !! [f; "nfterm"] /\ w_buf (u_nw u') !! f = None) as HN.
    { intros f Hn Hb. destruct (HC f Hn) as [(E1 & E2)|[(ks & b & pc & E1 & [v Ev] & _)|(ks & b & E1 & _ & -> & E2 & [v Ev] & _)]]; try congruence.
      rewrite E2. done. }
    split.
    { intros f c Hn Hc. destruct (HC f Hn) as [(E1 & _)|[(ks & b & pc & E1 & _ & _ & E2)|(ks & b & E1 & _ & -> & E2 & _)]].
      + change (cur_path (n_dir f) (n_name f)) with [f; "nfterm"] in E1. rewrite E1 in Hc. by apply (Hv f).
      + change (cur_path (n_dir f) (n_name f)) with [f; "nfterm"] in E2. destruct E2 as [E2|E2]; rewrite E2 in Hc; [done|]. injection Hc as <-.
        unfold w_flight in U1. rewrite E1 in U1. destruct U1 as (v & T & _ & G1 & ->). exists v, T. done.
      + by apply (Hv f). }
    assert (u_mem u' = u_mem u) as Em by (by rewrite Hu). assert (u_pc u' = u_pc u) as Ep by (by rewrite Hu).
    assert (forall f, live u' f = live u f) as El by (intros f; unfold live; by rewrite Em, Ep).
    assert (w_flight compress n_ser (u_nw u')) as Hfl by (by eapply w_flight_step).
    (* is this the end of a save? *)
    assert ((exists k ks b, w_pc (u_nw u) = WSave k ks b SSOk /\ ev = [ENftSaved k] /\ w_pc (u_nw u') = WLoop ks /\ w_buf (u_nw u') = delete k (w_buf (u_nw u)) /\ s' = s) \/
            (ev = [] /\ w_buf (u_nw u') = w_buf (u_nw u) /\ (forall f, saving (u_nw u) f -> saving (u_nw u') f))) as HE.
    { subst ev. unfold nft_event, saving. clear - Hs. inversion Hs; subst; cbn [w_pc w_buf].
      - right. split; [done|]. split; [done|]. intros f (? & ? & ? & ?). congruence.
      - right. split; [done|]. split; [done|]. intros f (? & ? & ? & ?). congruence.
      - right. split; [done|]. split; [done|]. intros f (? & ? & ? & ?). congruence.
      - right. split; [done|]. split; [done|]. intros f (? & ? & ? & ?). congruence.
      - right. split; [by destruct pc|]. split; [done|]. intros f (? & ? & ? & [= -> -> -> ->]). eauto.
      - left. exists k, ks, b. done. }
    destruct HE as [(k & ks & b & P1 & -> & P2 & P3 & ->)|(-> & P1 & P2)].
    - assert (is_Some (w_buf (u_nw u) !! k) /\ fs_files s !! [k; "nfterm"] = Some (Whole b) /\ nd k) as (Hk & Hc & Hkn).
      { destruct (wf_nw _ _ Hw) as [W1 W2]. rewrite P1 in W2. destruct W2 as ((_ & W2) & _ & W3). cbn in W3. destruct W3 as [W3 _].
        assert (is_Some (w_buf (u_nw u) !! k)) as Hk by (apply W2; left). auto. }
      destruct Hk as [v Hv0]. destruct (U3 k v Hkn Hv0) as [-> Hne].
      unfold w_flight in U1. rewrite P1 in U1. destruct U1 as (v & T & V1 & V2 & ->). rewrite Hv0 in V1. injection V1 as <-.
      assert (forall f, ~ saving (u_nw u') f) as Hns. { intros f (? & ? & ? & ?). congruence. }
      constructor; rewrite ?Em, ?Ep, ?P3; try done.
      + intros f Hn Hb. rewrite nft_since_snoc. cbn. destruct (decide (k = f)) as [->|Hkf]; [done|]. rewrite lookup_delete_ne in Hb by done. auto.
      + intros f m Hn Hb. rewrite nft_since_snoc. cbn. destruct (decide (k = f)) as [->|Hkf]; [by rewrite lookup_delete in Hb|].
        rewrite lookup_delete_ne in Hb by done. auto.
      + intros f m Hn Hd _. rewrite nft_disk_snoc in Hd. destruct (decide (k = f)) as [->|Hkf].
        * injection Hd as <-. exists (Whole (compress T)). split; [done|]. exists T. done.
        * apply (U4 f m Hn Hd). intros (? & ? & ? & ?). congruence.
      + intros f t n. rewrite nft_last_snoc, El. cbn. auto.
      + intros f Hn Hs'. apply U6; [done|]. intros t. specialize (Hs' t). by rewrite nft_last_snoc in Hs'.
      + intros f Hn Hs'. rewrite El. apply U7; [done|]. intros t. specialize (Hs' t). by rewrite nft_last_snoc in Hs'.
      + intros f Hs'. apply lookup_delete_None. right. apply U8. intros t. specialize (Hs' t). by rewrite nft_last_snoc in Hs'.
    - rewrite app_nil_r. constructor; rewrite ?Em, ?Ep, ?P1; try done.
      + intros f m Hn Hd Hns. destruct (HC f Hn) as [(E1 & _)|[(ks & b & pc & E1 & _ & _ & E2)|(ks & b & E1 & E2 & _)]].
        * change (cur_path (n_dir f) (n_name f)) with [f; "nfterm"] in E1. rewrite E1. apply (U4 f m Hn Hd). auto.
        * exfalso. apply Hns, P2. unfold saving. eauto.
        * exfalso. apply Hns, P2. unfold saving. eauto.
      + intros f t n. rewrite El. auto.
      + intros f Hn Hs'. unfold n_read. destruct (HN f Hn (U8 f Hs')) as [-> _]. by apply U6.
      + intros f Hn Hs'. rewrite El. auto.
  Qed.
  Lemma n_quick s u ev u' log : up_wf u s -> n_up s u log -> quick decompress s u ev u' -> n_up s u' (log ++ ev).
  Proof.
    intros Hw [U1 U2 U3 U4 U5 U6 U7 U8] H. inversion H; subst; cbn [u_pc u_mem u_nw] in *; rewrite ?app_nil_r; try (constructor; cbn; done).
    - assert (forall f t, sending pc f t -> False) as Hns by (intros f t; match goal with G : c_step _ _ _ _ |- _ => inversion G; subst end; cbn; tauto).
      match goal with G : c_step _ _ _ _ |- _ => inversion G; subst end; try (constructor; cbn; done).
      + assert (forall f, table (match c_index m !! f_name x with Some _ => m | None => set_index m (<[f_name x:=∅]> (c_index m)) end) f = table m f) as ET.
        { intros f. by destruct (c_index m !! f_name x). }
        constructor; cbn [u_mem u_nw u_pc]; try done.
        * intros f t n Hn0 Hs0. unfold live. cbn. rewrite ET. by apply U5.
        * intros f Hn Hs0. rewrite ET. auto.
      + constructor; cbn [u_mem u_nw u_pc]; try done.
        * intros f t n Hn0 _. unfold live. cbn. destruct full; cbn; exact (U5 f t n Hn0 (Hns f t)).
        * intros f Hn Hs0 _. unfold live. by destruct full.
      + (* c_nft_begin *) constructor; cbn [u_mem u_nw u_pc]; try done.
        * intros f t n Hn0 _. unfold live. cbn. destruct (decide (f_name x = f)) as [<-|]; exact (U5 _ t n Hn0 (Hns _ t)).
        * intros f Hn Hs0 _. unfold live. cbn. by destruct (decide (f_name x = f)) as [<-|].
      + (* c_nft_term *) constructor; cbn [u_mem u_nw u_pc]; try done.
        * intros f t' n Hn0 Hse. cbn in Hse. specialize (U5 f t' n Hn0 (Hns f t')). unfold live in *. cbn in *. destruct (decide (f_name x = f)) as [<-|]; [|done].
          rewrite geti_addi_ne; [done|]. intros ->. by apply Hse.
        * intros f Hn Hs0 Hse. unfold live in *. cbn in *. destruct (decide (f_name x = f)) as [<-|]; [|done]. exfalso. by apply (Hse t).
      + (* c_nft_end *)
        assert (forall f, table (set_nft m (<[f_name x:=ft]> (c_nft m))) f = live (mkUp m (CNftLoop d x ft []) ich mw nw dw iw mg) f) as ET.
        { intros f. unfold table, live. cbn. destruct (decide (f_name x = f)) as [<-|Hne]; [by rewrite lookup_insert|by rewrite lookup_insert_ne]. }
        constructor; cbn [u_mem u_nw u_pc]; try done.
        * intros f t' n Hn0 _. unfold live. cbn. rewrite ET. apply (U5 f t' n Hn0 (Hns f t')).
        * intros f Hn Hs0. rewrite ET. rewrite (U7 f Hn Hs0); [by apply U6|]. intros t. exact (Hns f t).
    - match goal with G : c_doc _ _ _ |- _ => inversion G; subst end; constructor; cbn; done.
    - (* send *)
      constructor; cbn [u_mem u_nw u_pc w_buf]; rewrite ?nft_since_snoc.
      + done.
      + intros f Hn Hb. rewrite nft_since_snoc. cbn. destruct (decide (f_name x = f)) as [<-|Hne].
        * unfold n_recv in Hb. destruct (nb !! f_name x); by rewrite lookup_insert in Hb.
        * apply U2; [done|]. unfold n_recv in Hb. cbn. destruct (nb !! f_name x); by rewrite lookup_insert_ne in Hb.
      + intros f m' Hn Hb. rewrite nft_since_snoc. cbn. destruct (decide (f_name x = f)) as [<-|Hne].
        * unfold n_recv in Hb. destruct (nb !! f_name x) as [m0|] eqn:E0.
          { rewrite lookup_insert in Hb. injection Hb as <-. destruct (U3 (f_name x) m0 Hn E0) as [-> _]. split; [done|]. apply insert_non_empty. }
          { rewrite lookup_insert in Hb. injection Hb as <-. rewrite (U2 (f_name x) Hn E0). split; [done|]. apply map_non_empty_singleton. }
        * apply (U3 f m' Hn). unfold n_recv in Hb. destruct (nb !! f_name x); by rewrite lookup_insert_ne in Hb.
      + intros f m' Hn Hd _. rewrite nft_disk_snoc in Hd. apply (U4 f m' Hn Hd). intros (? & ? & ? & ?). done.
      + intros f t' n Hn0 _. rewrite nft_last_snoc in Hn0. cbn in Hn0. unfold live in *. cbn in *. destruct (decide (f_name x = f /\ t = t')) as [[<- <-]|Hne].
        * injection Hn0 as <-. rewrite decide_True by done. done.
        * specialize (U5 f t' n Hn0). apply U5. tauto.
      + intros f Hn Hs0. apply U6; [done|]. intros t'. specialize (Hs0 t'). rewrite nft_last_snoc in Hs0. cbn in Hs0. by destruct (decide _).
      + intros f Hn Hs0 _. unfold live in *. cbn in *. destruct (decide (f_name x = f)) as [<-|Hne]; [|done].
        exfalso. specialize (Hs0 t). rewrite nft_last_snoc in Hs0. cbn in Hs0. by rewrite decide_True in Hs0.
      + intros f Hs0. assert (f_name x <> f) as Hne. { intros <-. specialize (Hs0 t). rewrite nft_last_snoc in Hs0. cbn in Hs0. by rewrite decide_True in Hs0. }
        assert (nb !! f = None) as E0. { apply U8. intros t'. specialize (Hs0 t'). rewrite nft_last_snoc in Hs0. cbn in Hs0. by destruct (decide _). }
        unfold n_recv. destruct (nb !! f_name x); by rewrite lookup_insert_ne.
  Qed.

  (** * Loading *)
  Lemma n_holds_load f c m : n_holds f c m -> exists T, c = Whole (compress T) /\ deserialize_nft T = Some (wrap32 <$> m).
  Proof. intros (T & (l & Hl & HT) & ->). exists T. split; [done|]. by eapply C43_counts_round_trip. Qed.
  Lemma load_nft_fold s ns : layout s -> n_valid s -> NoDup ns -> Forall nd ns ->
    forall nft nft', fold_left (load_nft1 decompress s) ns (Some nft) = Some nft' ->
    forall f, (f ∉ ns -> nft' !! f = nft !! f) /\ (f ∈ ns -> fs_files s !! [f; "nfterm"] = None -> nft' !! f = nft !! f) /\
      (f ∈ ns -> forall T, fs_files s !! [f; "nfterm"] = Some (Whole (compress T)) -> nft' !! f = deserialize_nft T).
  Proof.
    intros Hl Hv. induction ns as [|n ns IH]; intros Hn Hd nft nft' H f.
    - cbn in H. injection H as <-. split; [done|]. split; intros Hf; by apply elem_of_nil in Hf.
    - apply NoDup_cons in Hn as [Hni Hn]. apply Forall_cons in Hd as [Hd0 Hd]. cbn [fold_left load_nft1] in H.
      assert ([n; "nfterm"] ∉ fs_dirs s) as Hnd. { apply layout_not_dir; [done|]. destruct (owner_n n Hd0) as [E _]. by eexists. }
      destruct (fs_files s !! [n; "nfterm"]) as [c|] eqn:Ec.
      + assert (exists_path s [n; "nfterm"] = true) as Hex.
        { unfold exists_path, is_file. rewrite Ec. rewrite bool_decide_true by by eexists. done. }
        rewrite Hex in H. destruct (Hv n c Hd0 Ec) as [v0 Hv0]. destruct (n_holds_load n c v0 Hv0) as (T0 & -> & ET).
        rewrite gz in H. cbn [mbind option_bind] in H. rewrite ET in H. destruct (IH Hn Hd _ _ H f) as (I1 & I2 & I3). split; [|split].
        * intros Hf. apply not_elem_of_cons in Hf as [Hf1 Hf2]. rewrite (I1 Hf2). by rewrite lookup_insert_ne by done.
        * intros Hf Hf'. apply elem_of_cons in Hf as [->|Hf]; [congruence|]. rewrite (I2 Hf Hf'). rewrite lookup_insert_ne by (intros <-; done). done.
        * intros Hf T HT. destruct (decide (f = n)) as [->|Hne].
          { rewrite (I1 Hni), lookup_insert. rewrite Ec in HT. injection HT as HT.
            assert (T0 = T) as <- by (pose proof (gz T0) as X1; rewrite HT, gz in X1; by injection X1). by rewrite ET. }
          apply elem_of_cons in Hf as [->|Hf]; [done|]. by apply I3.
      + assert (exists_path s [n; "nfterm"] = false) as Hex.
        { unfold exists_path, is_file. rewrite Ec. rewrite bool_decide_false by (by intros [? ?]). rewrite is_dir_false; done. }
        rewrite Hex in H. destruct (IH Hn Hd _ _ H f) as (I1 & I2 & I3). split; [|split].
        * intros Hf. apply not_elem_of_cons in Hf as [Hf1 Hf2]. auto.
        * intros Hf Hf'. destruct (decide (f = n)) as [->|Hne]; [auto|]. apply elem_of_cons in Hf as [->|Hf]; [done|]. auto.
        * intros Hf T HT. apply elem_of_cons in Hf as [->|Hf]; [congruence|]. by apply I3.
  Qed.
  Lemma load_nft_spec s ns nft : layout s -> n_valid s -> lists_dirs s [] ns -> load_nft decompress s ns = Some nft ->
    forall f, nd f -> n_read s f (default ∅ (nft !! f)).
  Proof.
    intros Hl Hv [Hn Hm] H f Hf. assert (Forall nd ns) as Hnd. { apply Forall_forall. intros n Hin. by apply Hm in Hin as [_ ?]. }
    destruct (load_nft_fold s ns Hl Hv Hn Hnd _ _ H f) as (I1 & I2 & I3).
    unfold n_read. destruct (fs_files s !! [f; "nfterm"]) as [c|] eqn:Ec.
    - assert (f ∈ ns) as Hin. { apply Hm. split; [|done]. destruct (l_files _ Hl [f; "nfterm"]) as [_ Hp]; [by eexists|]. exact Hp. }
      destruct (Hv f c Hf Ec) as [m Hm0]. destruct (n_holds_load f c m Hm0) as (T & -> & ET). exists T. split; [done|]. rewrite (I3 Hin T eq_refl), ET. done.
    - destruct (decide (f ∈ ns)) as [Hin|Hin]; [rewrite (I2 Hin eq_refl)|rewrite (I1 Hin)]; by rewrite lookup_empty.
  Qed.
  Lemma n_read_fun s f m1 m2 : n_read s f m1 -> n_read s f m2 -> m1 = m2.
  Proof.
    unfold n_read. destruct (fs_files s !! [f; "nfterm"]) as [c|]; [|by intros -> ->]. intros (T1 & -> & E1) (T2 & E & E2). injection E as E.
    assert (T1 = T2) as <- by (pose proof (gz T1) as X1; rewrite E, gz in X1; by injection X1). congruence.
  Qed.

  Lemma n_inv_step a b : base a -> base b -> n_inv a -> sys_step compress decompress cache_size a b -> n_inv b.
  Proof.
    intros [Ba Ba'] Bb [Hv Hu] [H|H]; inversion H; subst; cbn [y_fs y_proc y_log] in *.
    - split; [|done]. cbn. eapply n_valid_keeps; [|exact Hv].
      match goal with G : mkdir_all _ _ = _ |- _ => destruct (mkdir_effect _ [] _ Ba eq_refl (Nat.le_0_l 2) G) as (_ & E & _) end. intros p _. by rewrite E.
    - split; [|done]. cbn. eapply n_valid_keeps; [|exact Hv]. destruct Ba' as [_ Bg].
      match goal with G : g_step _ _ _ _ |- _ => destruct (g_step_base _ _ _ _ _ _ Ba Bg G) as (_ & _ & _ & E) end. intros p Hp. apply E; congruence.
    - split; [exact Hv|]. cbn. match goal with G : opened _ _ _ _ _ |- _ => inversion G; subst end. constructor; cbn [u_nw w_buf u_mem u_pc]; try done.
      + intros f _ _. by rewrite nft_since_snoc.
      + intros f m Hn Hd _. by rewrite nft_disk_snoc in Hd.
      + intros f t n Hn. by rewrite nft_last_snoc in Hn.
      + intros f Hn _. unfold table. cbn. eapply load_nft_spec; eauto.
    - destruct Ba' as [Br Bw]. match goal with G : up_step _ _ _ _ _ |- _ => destruct (up_step_who _ _ _ _ _ _ _ Ba Bw G) as [[-> G1]|[G1|[G1|[G1|[G1|G1]]]]] end.
      + split; [exact Hv|]. by eapply n_quick.
      + destruct G1 as (_ & G2 & G3 & _ & _ & _ & ->). rewrite app_nil_r. split; [by eapply n_valid_keeps|]. apply (n_up_keeps s s' u u'); [done|by rewrite G2|by rewrite G2|by rewrite G2|done].
      + by apply (n_run s s' u u' ev).
      + destruct G1 as (_ & G2 & _ & G3 & _ & _ & ->). rewrite app_nil_r. split; [by eapply n_valid_keeps|]. apply (n_up_keeps s s' u u'); [done|by rewrite G2|by rewrite G2|by rewrite G2|done].
      + destruct G1 as (_ & G2 & _ & G3 & _ & _ & ->). rewrite app_nil_r. split; [by eapply n_valid_keeps|]. apply (n_up_keeps s s' u u'); [done|by rewrite G2|by rewrite G2|by rewrite G2|done].
      + destruct G1 as (_ & G2 & _ & G3 & _ & ->). rewrite app_nil_r. split; [by eapply n_valid_keeps|]. apply (n_up_keeps s s' u u'); [done|by rewrite G2|by rewrite G2|by rewrite G2|done].
    - match goal with G : up_tick _ _ |- _ => inversion G; subst end; (split; [exact Hv|]); cbn [y_fs y_proc] in *; try (eapply n_up_keeps; [apply keeps_refl| | | |exact Hu]; done).
      match goal with G : w_tick _ _ |- _ => inversion G; subst end. destruct Hu as [U1 U2 U3 U4 U5 U6 U7 U8].
      constructor; cbn [u_nw w_buf u_mem u_pc] in *; try done. intros f m' Hn Hd _. apply (U4 f m' Hn Hd). intros (? & ? & ? & ?). done.
    - split; [exact Hv|]. match goal with G : up_call _ _ _ |- _ => inversion G; subst end; cbn [y_fs y_proc y_log] in *.
      + apply n_up_event; [done|]. destruct Hu. by constructor.
      + apply n_up_event; [done|]. destruct Hu. by constructor.
      + apply n_up_event; [done|]. destruct Hu. by constructor.
    - split; [exact Hv|done].
  Qed.
  Lemma n_inv_reach y : reachable compress decompress cache_size y -> good_log (y_log y) -> base y /\ n_inv y.
  Proof.
    apply reach_ind.
    - split; [|done]. intros f c _ Hc. cbn in Hc. by rewrite lookup_empty in Hc.
    - intros a b _ Ba Bb _ Ha Hs. exact (n_inv_step a b Ba Bb Ha Hs).
  Qed.
End nft.
