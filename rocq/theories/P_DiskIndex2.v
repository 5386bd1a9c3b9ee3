(** The disk storage: the index writer and loading. *)
From Verif Require Import Base M_Field M_LRU S_Visits M_Memory M_File M_Serialize M_Disk P_Base P_File P_Serialize S_Disk P_DiskBase P_DiskInv P_DiskWriter P_DiskIndex.
#[local] Open Scope Z_scope.
#[local] Opaque serialize_metrics deserialize_metrics serialize_nft deserialize_nft serialize_field_map deserialize_field_map serialize_index deserialize_index.

Notation frag s f u := (fs_files s !! [f; "temp"; u]).
Notation idx s f := (fs_files s !! [f; "index"]).

Lemma has_insert m t0 d0 (ts : set_data) t d : ts = default ∅ (m !! t0) ->
  has (<[t0 := <[d0 := true]> ts]> m) t d <-> (t = t0 /\ d = d0) \/ has m t d.
Proof.
  intros ->. unfold has. destruct (decide (t0 = t)) as [->|Hne].
  - rewrite lookup_insert. split.
    + intros (s & [= <-] & Hd). apply lookup_insert_is_Some in Hd as [->|[_ Hd]]; [by left|]. right. destruct (m !! t) as [s|]; cbn in Hd; [by eauto|].
      rewrite lookup_empty in Hd. by destruct Hd.
    + intros H. eexists. split; [done|]. apply lookup_insert_is_Some'. destruct H as [[_ ->]|(s & -> & Hd)]; [by left|by right].
  - rewrite lookup_insert_ne by done. split; [auto|]. intros [[-> _]|?]; done.
Qed.
Lemma proper_insert m t0 d0 (ts : set_data) : ts = default ∅ (m !! t0) -> proper m -> proper (<[t0 := <[d0 := true]> ts]> m).
Proof.
  intros -> P t s. destruct (decide (t0 = t)) as [->|Hne]; [|rewrite lookup_insert_ne by done; apply P]. rewrite lookup_insert. intros [= <-]. split.
  - apply insert_non_empty.
  - intros d v. destruct (decide (d0 = d)) as [->|Hd]; [rewrite lookup_insert; by intros [= <-]|]. rewrite lookup_insert_ne by done.
    destruct (m !! t) as [s|] eqn:E; cbn; [apply (P _ _ E)|by rewrite lookup_empty].
Qed.
(** storage/Memory.go:26-35 *)
Lemma index_term_as d0 m t0 : index_term d0 m t0 = <[t0 := <[d0 := true]> (default ∅ (m !! t0))]> m.
Proof. unfold index_term. destruct (m !! t0); done. Qed.

Section files.
  Variables (compress : bytes -> bytes) (decompress : bytes -> option bytes) (cache_size : Z).
  Hypothesis gz : gzip_ok compress decompress.
  Notation read := (read_index decompress).
  Notation inf := (in_file decompress).
  Notation disk := (on_disk decompress).
  Notation sf := (safe decompress).
  Notation xv := (x_valid decompress).
  Notation ginv := (g_inv decompress).
  Notation enc := (encodes decompress).

  (** * The merger is not disturbed by the writer *)
  Lemma g_inv_frame g s s' : g_wf g s -> ginv g s -> (forall f, nd f -> idx s' f = idx s f) ->
    (forall f u, nd f -> is_Some (frag s f u) -> frag s f u <> Some Torn -> frag s' f u = frag s f u) ->
    (forall f u, nd f -> is_Some (frag s f u) -> is_Some (frag s' f u)) -> ginv g s'.
  Proof.
    intros Hw Hi H1 H2 H3.
    assert (forall f u t d, nd f -> inf (frag s f u) t d -> inf (frag s' f u) t d) as HI.
    { intros f u t d Hf Hin. rewrite H2; [done|done| |].
      - destruct (frag s f u); [by eexists|]. by apply inf_none in Hin.
      - intros E. rewrite E in Hin. by apply inf_torn in Hin. }
    assert (forall f t d, nd f -> disk s f t d -> disk s' f t d) as HD.
    { intros f t d Hf [H|(u & H)]; [left; unfold in_index_file; by rewrite H1|right]. exists u. by apply HI. }
    assert (forall f u td, nd f -> below decompress (frag s f u) td -> below decompress (frag s' f u) td) as HB.
    { intros f u td Hf HB. rewrite H2; [done|done| |].
      - destruct HB as [HR _]. apply readable_whole in HR as [b ->]. by eexists.
      - destruct HB as [HR _]. apply readable_whole in HR as [b ->]. done. }
    unfold g_inv, g_wf in *. destruct (m_pc g) as [| | |f fs files|f fs files todo td|f fs files td b|f fs files td b pc|f fs todo td|]; try done; destruct Hw as [Hn Hw]; pose proof (g_names_hd _ _ Hn) as Hf.
    - intros u Hu. by apply H3, Hi.
    - destruct Hi as (I1 & I2 & (dn & E & I3) & I4 & I5). split; [done|]. split; [intros u Hu; by apply H3, I2|]. split; [exists dn; split; [done|]; intros u Hu; by apply HB, I3|].
      split; [rewrite H1 by done; done|]. auto.
    - destruct Hi as (I1 & I2 & I3 & I4 & I5). split; [done|]. split; [done|]. split; [intros u Hu; by apply HB, I3|].
      split; [rewrite H1 by done; done|]. auto.
    - destruct Hi as (I1 & I2 & I3 & I4 & I5). split; [done|]. split; [done|]. split; [intros u Hu; by apply HB, I3|].
      split; [rewrite H1 by done; done|]. auto.
    - destruct Hi as (I1 & I2 & I3). split; [done|]. split; [intros u Hu; by apply HB, I2|]. rewrite H1 by done. done.
  Qed.

  (** The merger does not touch a torn fragment. *)
  Lemma g_step_torn g s g' s' f u : layout s -> g_wf g s -> ginv g s -> g_step compress decompress (g, s) (g', s') -> nd f ->
    frag s f u = Some Torn -> frag s' f u = Some Torn.
  Proof.
    intros Hl Hw Hi H Hf Ht.
    assert (forall p s0, layout s -> owner p = None -> (length p <= 2)%nat -> mkdir_all s p = Some s0 -> fs_files s0 = fs_files s) as HM.
    { intros p s0 L Ho Hp Hm. by destruct (mkdir_effect _ _ _ L Ho Hp Hm) as (_ & ? & _). }
    inversion H; subst; try done.
    - by rewrite (HM [f0; "temp"] s' Hl (owner_temp f0) (Nat.le_refl 2)).
    - by rewrite (HM [f0] s' Hl eq_refl (Nat.le_succ_diag_r 1)).
    - unfold g_wf in Hw. cbn in Hw. destruct Hw as (Hn & Hd & Hfi & Hok). pose proof (g_names_hd _ _ Hn) as Hnd.
      assert ([f0] ∈ fs_dirs s) as Hfd by (by apply (l_up _ Hl) in Hd as [_ ?]).
      assert (names_free [f0] "index" s) as Hfree.
      { destruct (index_names f0 Hnd) as (O1 & O2 & O3). split; [done|]. split; [|split]; apply layout_not_dir; try done; by eexists. }
      match goal with G : ss_step _ _ _ _ = _ |- _ => destruct (ss_one _ _ _ _ _ _ _ Hfree Hok G) as (E1 & E2 & E3) end.
      rewrite (ss_eff_frame _ _ _ _ _ _ _ _ E2); done.
    - cbn in Hi. destruct Hi as (_ & I2 & _). destruct (I2 u0) as [Ru _]; [left|]. destruct (readable_whole _ _ Ru) as [b0 Eu].
      match goal with G : remove _ _ = _ |- _ => unfold remove in G; rewrite Eu in G; injection G as <- end. cbn. rewrite lookup_delete_ne; [done|].
      intros [= <- <-]. congruence.
  Qed.

  (** * The index writer *)
  Notation bufh w f t d := (has (default ∅ (i_buf w !! f)) t d).
  Definition i_inv (w : iwriter) (g : merger) (s : fs) : Prop :=
    (forall f m, i_buf w !! f = Some m -> proper m) /\
    match i_pc w with
    | IIdle => True
    | ILoop ks => forall f t d, nd f -> f ∉ ks -> bufh w f t d -> sf s g f t d
    | IMkdir k ks b | IOpen k ks b => enc b (default ∅ (i_buf w !! k)) /\ forall f t d, nd f -> f ∉ k :: ks -> bufh w f t d -> sf s g f t d
    | IWrite k ks b u => enc b (default ∅ (i_buf w !! k)) /\ (forall f t d, nd f -> f ∉ k :: ks -> bufh w f t d -> sf s g f t d) /\ frag s k u = Some Torn
    end.
  Lemma i_inv_frame w g s g' s' : i_wf w s -> i_inv w g s -> (forall f t d, nd f -> sf s g f t d -> sf s' g' f t d) ->
    (forall f u, nd f -> frag s f u = Some Torn -> frag s' f u = Some Torn) -> i_inv w g' s'.
  Proof.
    intros [Wb Wp] [Hp H] HS HT. split; [done|]. destruct (i_pc w); try done.
    - intros f t d Hf Hk Hb. apply HS; auto.
    - destruct H as [H1 H2]. split; [done|]. intros f t d Hf Hk Hb. apply HS; auto.
    - destruct H as [H1 H2]. split; [done|]. intros f t d Hf Hk Hb. apply HS; auto.
    - destruct H as (H1 & H2 & H3). split; [done|]. split; [intros f t d Hf Hk Hb; apply HS; auto|]. apply HT; [|done]. apply Wb. destruct Wp as [[_ Wp] _]. apply Wp. left.
  Qed.
  Lemma i_recv_has buf p f t d : has (default ∅ (i_recv buf p !! f)) t d <-> p = mkPost f t d \/ has (default ∅ (buf !! f)) t d.
  Proof.
    unfold i_recv. destruct p as [pf pt pd]. cbn. destruct (decide (pf = f)) as [->|Hne].
    - rewrite lookup_insert. cbn. rewrite (has_insert _ _ _ _ _ _ eq_refl). split; intros [H|H]; auto; left; [destruct H as [-> ->]; done|by injection H as -> ->].
    - rewrite lookup_insert_ne by done. split; [auto|]. intros [[= ? ? ?]|?]; done.
  Qed.
  Lemma i_recv_proper buf p : (forall f m, buf !! f = Some m -> proper m) -> forall f m, i_recv buf p !! f = Some m -> proper m.
  Proof.
    intros H f m. unfold i_recv. destruct (decide (po_field p = f)) as [<-|Hne].
    - rewrite lookup_insert. intros [= <-]. apply proper_insert; [done|]. destruct (buf !! po_field p) eqn:E; [by eapply H|apply proper_empty].
    - rewrite lookup_insert_ne by done. apply H.
  Qed.

  Lemma i_step_inv w s w' s' g : layout s -> i_wf w s -> g_wf g s -> xv s -> ginv g s -> i_inv w g s -> i_step compress (w, s) (w', s') ->
    xv s' /\ ginv g s' /\ i_inv w' g s' /\
    (forall f t d, nd f -> sf s g f t d -> sf s' g f t d) /\
    (forall f t d, nd f -> (bufh w' f t d \/ sf s' g f t d) <-> (bufh w f t d \/ sf s g f t d)).
  Proof.
    intros Hl [Wb Wp] Hw Hv Hg [Hp Hi] H. inversion H; subst; cbn [i_buf i_pc] in *.
    - split; [done|]. split; [done|]. split; [split; cbn; [|done]; intros f m Hm; by rewrite lookup_empty in Hm|]. split; [done|].
      intros f t d Hf. rewrite lookup_empty. cbn. rewrite has_empty. split; [intros [[]|?]; auto|]. intros [Hb|?]; [|by auto]. right. apply Hi; [done| |done]. apply not_elem_of_nil.
    - split; [done|]. split; [done|]. split; [|done]. split; [done|]. cbn. split; [|done].
      match goal with G : buf !! k = Some _ |- _ => rewrite G; cbn; apply ser_encodes; [done|by eapply Hp|done] end.
    - match goal with G : mkdir_all _ _ = _ |- _ => destruct (mkdir_effect _ _ _ Hl (owner_temp k) (Nat.le_refl 2) G) as (E1 & E2 & E3 & E4 & _) end.
      assert (forall f t d, sf s g f t d <-> sf s' g f t d) as HS. { intros. apply safe_files; by rewrite ?E2. }
      split; [eapply x_valid_same; [|exact Hv]; by rewrite E2|]. split; [by apply (g_inv_frame g s s' Hw Hg); intros; rewrite E2|].
      split; [|split; [intros f t d _; by rewrite HS|intros f t d _; by rewrite HS]]. split; [done|]. cbn. destruct Hi as [? ?]. split; [done|]. intros. apply HS. auto.
    - destruct Wp as [[Wn Wk] Wd]. assert (nd k) as Pk by (apply Wb, Wk; left).
      match goal with G : fs_files s !! _ = None |- _ => rename G into Fr end.
      match goal with G : open_trunc _ _ = _ |- _ => unfold open_trunc in G; destruct (_ && _); [|discriminate G]; injection G as <- end.
      set (s1 := set_files s (<[[k; "temp"; u] := Torn]> (fs_files s))).
      assert (forall f n, fs_files s1 !! [f; n] = fs_files s !! [f; n]) as HX by (intros f n; cbn; by rewrite lookup_insert_ne).
      assert (forall f u', (f, u') <> (k, u) -> frag s1 f u' = frag s f u') as HF. { intros f u' Hne. cbn. rewrite lookup_insert_ne; [done|]. congruence. }
      assert (frag s1 k u = Some Torn) as HN by (cbn; by rewrite lookup_insert).
      assert (forall f t d, sf s g f t d <-> sf s1 g f t d) as HS.
      { intros f t d. unfold safe, on_disk, in_index_file, in_fragment. rewrite !HX. split.
        - intros [[?|(u' & Hu')]|?]; [by auto| |by auto]. left. right. exists u'. rewrite HF; [done|]. intros [= -> ->]. rewrite Fr in Hu'. by apply inf_none in Hu'.
        - intros [[?|(u' & Hu')]|?]; [by auto| |by auto]. left. right. exists u'. destruct (decide ((f, u') = (k, u))) as [[= -> ->]|Hne]; [|by rewrite HF in Hu'].
          rewrite HN in Hu'. by apply inf_torn in Hu'. }
      split; [|split; [|split; [|split; intros f t d _; by rewrite HS]]].
      + intros f Hf. destruct (Hv f Hf) as [V1 V2]. rewrite HX. split; [done|]. intros u' Hs. destruct (decide ((f, u') = (k, u))) as [[= -> ->]|Hne]; [by left|]. rewrite HF in * by done. auto.
      + eapply g_inv_frame; [exact Hw|done|intros; by rewrite HX| |].
        * intros f u' _ [c Hs] _. apply HF. intros [= -> ->]. congruence.
        * intros f u' _ Hs. destruct (decide ((f, u') = (k, u))) as [[= -> ->]|Hne]; [rewrite HN; by eexists|by rewrite HF].
      + split; [done|]. cbn [i_pc i_buf]. destruct Hi as [? ?]. split; [done|]. split; [|done]. intros. apply HS. auto.
    - destruct Wp as [[Wn Wk] Wd]. assert (nd k) as Pk by (apply Wb, Wk; left). destruct Hi as (I1 & I2 & I3).
      set (s1 := write_all s [k; "temp"; u] b).
      assert (forall f n, fs_files s1 !! [f; n] = fs_files s !! [f; n]) as HX by (intros f n; cbn; by rewrite lookup_insert_ne).
      assert (forall f u', (f, u') <> (k, u) -> frag s1 f u' = frag s f u') as HF. { intros f u' Hne. cbn. rewrite lookup_insert_ne; [done|]. congruence. }
      assert (frag s1 k u = Some (Whole b)) as HN by (cbn; by rewrite lookup_insert).
      assert (forall f t d, sf s1 g f t d <-> sf s g f t d \/ (f = k /\ has (default ∅ (buf !! k)) t d)) as HS.
      { intros f t d. unfold safe, on_disk, in_index_file, in_fragment. rewrite !HX. split.
        - intros [[?|(u' & Hu')]|?]; [by auto| |by auto]. destruct (decide ((f, u') = (k, u))) as [[= -> ->]|Hne].
          + right. rewrite HN in Hu'. split; [done|]. by eapply encodes_in.
          + left. left. right. exists u'. by rewrite HF in Hu'.
        - intros [[[?|(u' & Hu')]|?]|[-> Hb]]; [by auto| |by auto|].
          + left. right. exists u'. rewrite HF; [done|]. intros [= -> ->]. rewrite I3 in Hu'. by apply inf_torn in Hu'.
          + left. right. exists u. rewrite HN. by eapply encodes_in. }
      split; [|split; [|split; [|split]]].
      + intros f Hf. destruct (Hv f Hf) as [V1 V2]. rewrite HX. split; [done|]. intros u' Hs. destruct (decide ((f, u') = (k, u))) as [[= -> ->]|Hne].
        * right. rewrite HN. by eapply encodes_readable.
        * rewrite HF in * by done. auto.
      + eapply g_inv_frame; [exact Hw|done|intros; by rewrite HX| |].
        * intros f u' _ _ Hs. apply HF. intros [= -> ->]. congruence.
        * intros f u' _ Hs. destruct (decide ((f, u') = (k, u))) as [[= -> ->]|Hne]; [rewrite HN; by eexists|by rewrite HF].
      + split; [done|]. cbn [i_pc i_buf]. intros f t d Hf Hk Hb. apply HS. destruct (decide (f = k)) as [->|Hne]; [by right|]. left. apply I2; [done| |done].
        rewrite not_elem_of_cons. done.
      + intros f t d _ Hs. apply HS. by left.
      + intros f t d _. cbn [i_buf]. rewrite HS. split; [|tauto]. intros [?|[?|[-> ?]]]; auto.
  Qed.

  (** * Loading: nothing else runs *)
  Definition l_cur (g : merger) (s : fs) : Prop :=
    match m_pc g with
    | MIndex f _ files => forall u, is_Some (frag s f u) -> u ∈ files
    | MFrag f _ files _ _ | MMkdir f _ files _ _ | MSave f _ files _ _ _ => forall u, is_Some (frag s f u) -> u ∈ files
    | MDel f _ todo td => (forall u, is_Some (frag s f u) -> u ∈ todo) /\ fs_files s !! [f; "index_temp"] = None /\ fs_files s !! [f; "index_old"] = None
    | _ => True
    end.
  Definition remaining (g : merger) : list string :=
    match m_pc g with
    | MIdle | MErr => []
    | MFields fs => fs
    | MList f fs | MIndex f fs _ | MFrag f fs _ _ _ | MMkdir f fs _ _ _ | MSave f fs _ _ _ _ | MDel f fs _ _ => f :: fs
    end.
  (** The files of a field that has been loaded. *)
  Definition clean (s : fs) (f : string) : Prop :=
    (forall u, frag s f u = None) /\ fs_files s !! [f; "index_temp"] = None /\ fs_files s !! [f; "index_old"] = None.
  Definition l_inv (g : merger) (s : fs) : Prop :=
    l_cur g s /\
    forall f, nd f -> f ∉ remaining g -> clean s f /\ proper (default ∅ (m_acc g !! f)) /\ forall t d, has (default ∅ (m_acc g !! f)) t d <-> inf (idx s f) t d.
  Lemma clean_same s s' f : idx s' f = idx s f -> (forall u, frag s' f u = frag s f u) -> fs_files s' !! [f; "index_temp"] = fs_files s !! [f; "index_temp"] ->
    fs_files s' !! [f; "index_old"] = fs_files s !! [f; "index_old"] -> clean s f -> clean s' f.
  Proof. intros E1 E2 E3 E4 (H1 & H2 & H3). split; [intros u; by rewrite E2|]. by rewrite E3, E4. Qed.
  Lemma no_dir_no_file s f : layout s -> [f] ∉ fs_dirs s -> clean s f /\ idx s f = None.
  Proof.
    intros Hl Hn. assert (forall n, fs_files s !! [f; n] = None) as H2. { intros n. apply eq_None_not_Some. intros Hs. by apply (l_files _ Hl) in Hs as [_ ?]. }
    split; [|apply H2]. split; [|split; apply H2]. intros u. apply eq_None_not_Some. intros Hs. apply (l_files _ Hl) in Hs as [_ Hs]. by apply (l_up _ Hl) in Hs as [_ ?].
  Qed.
  Lemma l_start s g : layout s -> g_start s g -> l_inv g s.
  Proof.
    intros Hl H. inversion H as [ns [Hn Hd]]; subst. split; [done|]. cbn. intros f Hf Hni.
    destruct (no_dir_no_file s f Hl) as [Hc Hi]. { intros Hin. apply Hni, Hd. done. }
    split; [done|]. rewrite lookup_empty. cbn. split; [apply proper_empty|]. intros t d. by rewrite has_empty, Hi, inf_none.
  Qed.
  Lemma l_step g s g' s' : layout s -> g_wf g s -> xv s -> ginv g s -> l_inv g s -> g_step compress decompress (g, s) (g', s') -> l_inv g' s'.
  Proof.
    intros Hl Hw Hv Hi [Hc Ha] H. pose proof (g_step_inv compress decompress gz _ _ _ _ Hl Hw Hv Hi H) as (_ & Hi' & _).
    assert (forall p s0, layout s -> owner p = None -> (length p <= 2)%nat -> mkdir_all s p = Some s0 -> fs_files s0 = fs_files s) as HM.
    { intros p s0 L Ho Hp Hm. by destruct (mkdir_effect _ _ _ L Ho Hp Hm) as (_ & ? & _). }
    inversion H; subst; unfold l_inv, l_cur in *; cbn [m_pc m_acc remaining] in *; try done; try (exfalso; exact Hi').
    - split; [done|]. intros f' Hf' Hni. destruct (Ha f' Hf' Hni) as (A1 & A2 & A3).
      assert (fs_files s' = fs_files s) as EF by (by apply (HM [f; "temp"] s' Hl (owner_temp f) (Nat.le_refl 2))).
      split; [|rewrite EF; done]. unfold clean. by rewrite EF.
    - split; [|done]. match goal with G : lists_files _ _ _ |- _ => rename G into GG end. destruct GG as [_ GG]. intros u Hu. by apply GG.
    - assert (fs_files s' = fs_files s) as EF by (by apply (HM [f] s' Hl eq_refl (Nat.le_succ_diag_r 1))). split; [by rewrite EF|].
      intros f' Hf' Hni. destruct (Ha f' Hf' Hni) as (A1 & A2 & A3). split; [|rewrite EF; done]. unfold clean. by rewrite EF.
    - unfold g_wf in Hw. cbn in Hw. destruct Hw as (Hn & Hd & Hfi & Hok). pose proof (g_names_hd _ _ Hn) as Hnd.
      assert ([f] ∈ fs_dirs s) as Hfd by (by apply (l_up _ Hl) in Hd as [_ ?]).
      assert (names_free [f] "index" s) as Hfree.
      { destruct (index_names f Hnd) as (O1 & O2 & O3). split; [done|]. split; [|split]; apply layout_not_dir; try done; by eexists. }
      match goal with G : ss_step _ _ _ _ = _ |- _ => destruct (ss_one _ _ _ _ _ _ _ Hfree Hok G) as (E1 & E2 & E3) end.
      assert (forall f' u, frag s' f' u = frag s f' u) as HF by (intros f' u; apply (ss_eff_frame _ _ _ _ _ _ _ _ E2); done).
      assert (forall f' n, f' <> f -> fs_files s' !! [f'; n] = fs_files s !! [f'; n]) as HO.
      { intros f' n Hne. apply (ss_eff_frame _ _ _ _ _ _ _ _ E2); intros E; apply (f_equal (hd ""%string)) in E; by apply Hne. }
      split; [intros u; rewrite HF; apply Hc|]. intros f' Hf' Hni. destruct (Ha f' Hf' Hni) as (A1 & A2 & A3). apply not_elem_of_cons in Hni as [Hne _].
      split; [apply (clean_same s s' f'); [by apply HO|intros u; apply HF|by apply HO|by apply HO|done]|]. split; [done|]. intros t d. rewrite HO by done. apply A3.
    - unfold g_wf in Hw. cbn in Hw. destruct Hw as (_ & _ & _ & Hok). unfold temp_path, old_path in Hok. cbn in Hok. destruct Hok as (_ & ? & ?). done.
    - destruct Hc as (C1 & C2 & C3). cbn in Hi. destruct Hi as (_ & I2 & _). destruct (I2 u) as [Ru _]; [left|]. destruct (readable_whole _ _ Ru) as [b0 Eu].
      match goal with G : remove _ _ = _ |- _ => unfold remove in G; rewrite Eu in G; injection G as <- end. cbn.
      assert (forall f' n, delete [f; "temp"; u] (fs_files s) !! [f'; n] = fs_files s !! [f'; n]) as HF2 by (intros; by rewrite lookup_delete_ne).
      split.
      + rewrite !HF2. split; [|done]. intros u' Hu'. apply lookup_delete_is_Some in Hu' as [Hne Hu']. apply C1 in Hu'. apply elem_of_cons in Hu' as [->|?]; done.
      + intros f' Hf' Hni. destruct (Ha f' Hf' Hni) as (A1 & A2 & A3). apply not_elem_of_cons in Hni as [Hne _]. split; [|split; [done|rewrite HF2; done]].
        apply (clean_same s); [apply HF2|intros u'; cbn; rewrite lookup_delete_ne; [done|congruence]|apply HF2|apply HF2|done].
    - split; [done|]. destruct Hc as (C1 & C2 & C3). cbn in Hi. destruct Hi as (I1 & _ & I3). unfold g_wf in Hw. cbn in Hw. destruct Hw as (Hn & _).
      intros f' Hf' Hni. destruct (decide (f' = f)) as [->|Hne].
      + rewrite lookup_insert. cbn. split; [|split; [done|intros t d; by rewrite I3]]. split; [|done].
        intros u. apply eq_None_not_Some. intros Hs. apply C1 in Hs. by apply elem_of_nil in Hs.
      + rewrite lookup_insert_ne by done. apply Ha; [done|]. apply not_elem_of_cons. done.
  Qed.
End files.
