(** Searches on the disk storage while the client saves (C64): the statistics are those
    after some of the calls. *)
From Verif Require Import Base M_Field M_LRU S_Visits M_Memory M_File M_Serialize M_Num M_FanIn M_Search M_SearchConc M_Disk P_Base P_DiskBase M_DiskBusy S_Disk S_DiskBusy.
#[local] Open Scope nat_scope.
#[local] Opaque serialize_metrics serialize_nft serialize_field_map serialize_index deserialize_index deserialize_nft deserialize_field_map deserialize_metrics.

Section counts.
  Variables (compress : bytes -> bytes) (decompress : bytes -> option bytes) (cs : Z) (N : numops) (ncpu : nat).
  Variables (f t : string) (L0 S0 T0 : Z).
  (** The table of the counts, as it is at the end of the loop. *)
  Definition tab (u : up) : Z := geti (default (∅ : gmap string Z) (c_nft (u_mem u) !! f)) t.
  Definition lens (u : up) (h : list call) : Prop := disk_get_length (u_mem u) f = add_lengths f L0 h /\ disk_get_size (u_mem u) f = add_docs f S0 h.
  Definition inloop (u : up) (x : field) (ft : gmap string Z) (ks : list string) : Prop :=
    NoDup ks /\ (forall k, k ∈ ks -> is_Some (f_tf x !! k)) /\
    (f_name x = f -> geti ft t = if bool_decide (is_Some (f_tf x !! t) /\ t ∉ ks) then wrap64 (tab u + 1) else tab u).
  Definition pcq (u : up) (h : list call) : Prop :=
    match u_pc u with
    | CSave d x => exists h', h = h' ++ [Save d x] /\ lens u h' /\ tab u = add_term f t T0 h'
    | CFieldSend d x | CIndex true d x | CIndexLoop true d x _ | CIndexSend true d x _ _ | CNft d x =>
        lens u h /\ exists h', h = h' ++ [Save d x] /\ tab u = add_term f t T0 h'
    | CNftLoop d x ft ks => lens u h /\ exists h', h = h' ++ [Save d x] /\ tab u = add_term f t T0 h' /\ inloop u x ft ks
    | CNftSend d x ft k ks => lens u h /\ exists h', h = h' ++ [Save d x] /\ tab u = add_term f t T0 h' /\ k ∉ ks /\ is_Some (f_tf x !! k) /\ inloop u x ft ks
    | _ => lens u h /\ tab u = add_term f t T0 h
    end.
  (** Only the memory and the position of the client matter. *)
  Definition same_stats (m m' : cmem) : Prop := c_length m' = c_length m /\ c_size m' = c_size m /\ c_nft m' = c_nft m.
  Lemma pcq_same u u' h : same_stats (u_mem u) (u_mem u') -> u_pc u' = u_pc u -> pcq u h -> pcq u' h.
  Proof. intros (E1 & E2 & E3) Ep. unfold pcq, lens, inloop, tab, disk_get_length, disk_get_size. by rewrite E1, E2, E3, Ep. Qed.
  Lemma client_pcq s m pc m' pc' h ich mw nw dw iw mg : (forall ids0 g ids acc, pc' <> CGet ids0 g ids acc) ->
    c_step decompress s (m, pc) (m', pc') -> pcq (mkUp m pc ich mw nw dw iw mg) h -> pcq (mkUp m' pc' ich mw nw dw iw mg) h.
  Proof.
    intros Hn H. inversion H; subst; unfold pcq; cbn [u_pc u_mem].
    - intros (h' & -> & [A1 A2] & HT). unfold lens, tab, disk_get_length, disk_get_size in *. cbn [u_mem c_length c_size c_nft] in *. split.
      + unfold add_lengths, add_docs in *. rewrite !fold_left_app. cbn [fold_left]. rewrite <- A1, <- A2.
        destruct (bool_decide_reflect (f_name x = f)) as [<-|Hf]; [by rewrite !geti_addi|by rewrite !geti_addi_ne].
      + by exists h'.
    - destruct full.
      + intros [A1 A2]. unfold lens, tab, disk_get_length, disk_get_size in *. cbn [u_mem] in *. by destruct (c_index m !! f_name x).
      + intros [A1 A2]. unfold lens, tab, disk_get_length, disk_get_size in *. cbn [u_mem] in *. by destruct (c_index m !! f_name x).
    - by destruct full.
    - destruct full; [|done]. done.
    - intros (A1 & h' & -> & HT). split; [done|]. exists h'. split; [done|]. split; [done|]. unfold inloop, tab in *. cbn [u_mem] in *.
      split; [|split].
      + match goal with G : range_order _ _ |- _ => rewrite G end. apply NoDup_fst_map_to_list.
      + intros k Hk. match goal with G : range_order _ _ |- _ => rewrite G in Hk end. apply elem_of_list_fmap in Hk as ([k' v] & -> & Hk). apply elem_of_map_to_list in Hk. by eexists.
      + intros ->. rewrite bool_decide_eq_false_2; [done|]. intros [[v Hv] Hk]. apply Hk. match goal with G : range_order _ _ |- _ => rewrite G end. apply elem_of_list_fmap. exists (t, v). split; [done|]. by apply elem_of_map_to_list.
    - intros (A1 & h' & -> & HT & Hd & Hk & HI). split; [done|]. exists h'. split; [done|]. split; [done|]. apply NoDup_cons in Hd as [Hd1 Hd2]. split; [done|]. split; [apply Hk; left|]. split; [done|]. split; [intros k Hin; apply Hk; by right|].
      intros Hf. specialize (HI Hf). destruct (decide (t0 = t)) as [->|Ht].
      + rewrite geti_addi. rewrite bool_decide_eq_true_2 by (split; [apply Hk; left|done]). rewrite HI, bool_decide_eq_false_2; [done|]. intros [_ K]. apply K. left.
      + rewrite geti_addi_ne by done. rewrite HI. unfold tab. cbn [u_mem]. case_bool_decide as C1; case_bool_decide as C2; try done; exfalso; rewrite not_elem_of_cons in *; naive_solver.
    - intros (A1 & h' & -> & HT & _ & _ & HI). split; [done|]. unfold tab in *. cbn [u_mem c_nft set_nft] in *. unfold add_term. rewrite fold_left_app. cbn [fold_left]. fold (add_term f t T0 h'). rewrite <- HT.
      destruct (decide (f_name x = f)) as [<-|Hf].
      + rewrite lookup_insert. change (geti (default ∅ (Some ft)) t) with (geti ft t). rewrite HI by done. pose proof (not_elem_of_nil t). unfold tab. cbn [u_mem]. repeat case_bool_decide; try done; exfalso; naive_solver.
      + rewrite lookup_insert_ne by done. rewrite bool_decide_eq_false_2; [done|]. by intros [? _].
    - by destruct (Hn ids0 f0 ids (match fd !! f0 with Some x => <[id:=x]> acc | None => acc end)).
    - intros A1. exact A1.
    - done.
    - by destruct (Hn ids0 f0 ids (match fd !! f0 with Some x => <[id:=x]> acc | None => acc end)).
    - done.
    - done.
  Qed.

  (** What can be read at a moment. *)
  Lemma pcq_lens u h : pcq u h -> exists h', h' `prefix_of` h /\ lens u h'.
  Proof.
    unfold pcq. intros H. destruct (u_pc u); repeat match type of H with context [if ?b then _ else _] => destruct b end;
      try (destruct H as [H _]; by exists h). destruct H as (h' & -> & H & _). exists h'. split; [by apply prefix_app_r|done].
  Qed.
  Lemma add_term_snoc h d x : f_name x = f -> is_Some (f_tf x !! t) -> add_term f t T0 (h ++ [Save d x]) = wrap64 (add_term f t T0 h + 1).
  Proof. intros H1 H2. unfold add_term. rewrite fold_left_app. cbn [fold_left]. by rewrite bool_decide_eq_true_2. Qed.
  Lemma loop_now u d x ft ks h' : tab u = add_term f t T0 h' -> inloop u x ft ks -> f_name x = f ->
    exists h'', h'' `prefix_of` (h' ++ [Save d x]) /\ geti (default (∅ : gmap string Z) (match c_nft (u_mem u) !! f with Some _ => Some ft | None => None end)) t = add_term f t T0 h''.
  Proof.
    intros HT (_ & _ & HI) Hf. specialize (HI Hf). destruct (c_nft (u_mem u) !! f) as [m|] eqn:E.
    - change (geti (default ∅ (Some ft)) t) with (geti ft t). rewrite HI. case_bool_decide as C.
      + exists (h' ++ [Save d x]). split; [done|]. destruct C as [C _]. rewrite (add_term_snoc h' d x Hf C). by rewrite HT.
      + exists h'. split; [by apply prefix_app_r|done].
    - exists h'. split; [by apply prefix_app_r|]. rewrite <- HT. unfold tab. by rewrite E.
  Qed.
  Lemma pcq_now u h : pcq u h -> exists h', h' `prefix_of` h /\ geti (default (∅ : gmap string Z) (nft_now u f)) t = add_term f t T0 h'.
  Proof.
    unfold pcq, nft_now. intros H. destruct (u_pc u); repeat match type of H with context [if ?b then _ else _] => destruct b end;
      try (destruct H as [_ H]; exists h; split; [done|exact H]);
      try (destruct H as (h' & -> & _ & H); exists h'; split; [by apply prefix_app_r|exact H]);
      try (destruct H as (_ & h' & -> & H); exists h'; split; [by apply prefix_app_r|exact H]).
    - destruct H as (_ & h' & -> & HT & HI). case_bool_decide as C; [by eapply loop_now|]. exists h'. split; [by apply prefix_app_r|exact HT].
    - destruct H as (_ & h' & -> & HT & _ & _ & HI). case_bool_decide as C; [by eapply loop_now|]. exists h'. split; [by apply prefix_app_r|exact HT].
  Qed.

  Notation blive := (busy_live compress decompress cs N ncpu).
  Lemma calls_none log ev : calls_of ev = [] -> calls_of (log ++ ev) = calls_of log.
  Proof. intros H. unfold calls_of in *. by rewrite omap_app, H, app_nil_r. Qed.
  Lemma stat_live (b b' : busy N) u l0 ev : blive b b' -> y_proc (by_sys b) = Up u -> y_log (by_sys b) = l0 ++ ev -> pcq u (calls_of ev) ->
    exists u' ev', y_proc (by_sys b') = Up u' /\ y_log (by_sys b') = l0 ++ ev' /\ pcq u' (calls_of ev').
  Proof.
    intros H Hu Hl Hq. inversion H as [y y' dp qs Hs Hnd|s u1 log dp m pc dp' qs Hs|s u1 log dp qs terms g|s u1 log dp qs i terms g q m q' Hi Hs]; subst; cbn [by_sys y_proc y_log] in *.
    - inversion Hs; subst; cbn [y_proc y_log] in *; try discriminate Hu; injection Hu as ->.
      + match goal with G : up_step _ _ _ _ _ |- _ => rename G into HU end. destruct (Hnd _ _ eq_refl eq_refl) as [Hd1 Hd2]. cbn [u_pc] in *.
        inversion HU; subst; cbn [u_pc] in *; eexists _, (ev ++ _); (split; [reflexivity|]); (split; [rewrite app_assoc; reflexivity|]);
          try (rewrite calls_none by done; eapply pcq_same; [..|exact Hq]; done).
        * rewrite calls_none by done. eapply client_pcq; [exact Hd2|eassumption|exact Hq].
        * match goal with G : c_doc _ _ _ |- _ => inversion G; subst end; by specialize (Hd1 _ _ eq_refl).
        * rewrite calls_none by done. exact Hq.
        * rewrite calls_none by done. unfold pcq in *. cbn [u_pc u_mem] in *. by destruct full.
        * rewrite calls_none by done. unfold pcq in *. cbn [u_pc u_mem] in *. destruct Hq as (? & h' & ? & ? & _ & _ & ?). split; [done|]. by exists h'.
        * rewrite calls_none by done. exact Hq.
        * rewrite calls_none; [eapply pcq_same; [..|exact Hq]; done|]. unfold nft_event. by repeat case_match.
      + match goal with G : up_tick _ _ |- _ => inversion G; subst end; eexists _, ev; (split; [reflexivity|]); (split; [done|]); (eapply pcq_same; [..|exact Hq]; done).
      + match goal with G : up_call _ _ _ |- _ => inversion G; subst end; eexists _, (ev ++ _); (split; [reflexivity|]); (split; [rewrite app_assoc; reflexivity|]).
        * unfold calls_of. rewrite omap_app. fold (calls_of ev). cbn [omap list_omap]. unfold pcq in *. cbn [u_pc u_mem] in *. exists (calls_of ev). done.
        * unfold calls_of. rewrite omap_app. fold (calls_of ev). cbn [omap list_omap]. unfold pcq in *. cbn [u_pc u_mem] in *. unfold lens, tab, add_lengths, add_docs, add_term in *. cbn [u_mem] in *. rewrite !fold_left_app. done.
        * rewrite calls_none by done. exact Hq.
    - injection Hu as ->. exists (with_mem u m pc), ev. split; [done|]. split; [done|]. inversion Hs; subst; unfold pcq in *; cbn [u_pc u_mem with_mem] in *;
        match goal with G : _ = u_pc u |- _ => rewrite <- G in Hq end; unfold lens, tab, disk_get_length, disk_get_size in *; cbn [u_mem set_cache c_length c_size c_nft] in *; done.
    - injection Hu as ->. by exists u, ev.
    - injection Hu as ->. exists (with_mem u m (u_pc u)), ev. split; [done|]. split; [done|]. apply (pcq_same u); [|reflexivity|exact Hq]. cbn [u_mem with_mem].
      inversion Hs; subst; try done. match goal with G : bbatch_step _ _ _ _ _ |- _ => inversion G; subst; done end.
  Qed.
  Lemma stat_rtc (b b' : busy N) u l0 ev : rtc blive b b' -> y_proc (by_sys b) = Up u -> y_log (by_sys b) = l0 ++ ev -> pcq u (calls_of ev) ->
    exists u' ev', y_proc (by_sys b') = Up u' /\ y_log (by_sys b') = l0 ++ ev' /\ pcq u' (calls_of ev').
  Proof. intros H. revert u ev. induction H as [|b c e H _ IH]; [by eauto|]. intros u ev Hu Hl Hq. destruct (stat_live _ _ _ _ _ H Hu Hl Hq) as (u' & ev' & H1 & H2 & H3). by eapply IH. Qed.
End counts.
