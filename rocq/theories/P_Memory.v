From Verif Require Import Base M_Field M_Memory S_Memory P_Base.
#[local] Open Scope Z_scope.

(** ** loops *)
Lemma index_loop_lookup doc ks : forall idx t, NoDup ks ->
  fold_left (index_term doc) ks idx !! t =
    if decide (t ∈ ks) then Some (<[doc := true]> (default ∅ (idx !! t))) else idx !! t.
Proof.
  induction ks as [|k ks IH]; intros idx t Hnd; [done|].
  cbn [fold_left]. apply NoDup_cons in Hnd as [Hk Hnd]. rewrite IH by done.
  assert (index_term doc idx k !! t = if decide (t = k) then Some (<[doc := true]> (default ∅ (idx !! t))) else idx !! t) as E.
  { unfold index_term, set_step, set_new. destruct (decide (t = k)) as [->|Hne].
    - destruct (idx !! k) eqn:E; rewrite lookup_insert; done.
    - destruct (idx !! k) eqn:E; by rewrite lookup_insert_ne by done. }
  rewrite E. destruct (decide (t = k)) as [->|Hne].
  - rewrite decide_False by done. rewrite decide_True by left. done.
  - destruct (decide (t ∈ ks)).
    + rewrite decide_True by (by right). done.
    + rewrite decide_False; [done|]. rewrite elem_of_cons. tauto.
Qed.
Lemma nft_loop_lookup ks : forall ft t, NoDup ks ->
  fold_left (fun ft t => addi ft t 1) ks ft !! t =
    if decide (t ∈ ks) then Some (wrap64 (geti ft t + 1)) else ft !! t.
Proof.
  induction ks as [|k ks IH]; intros ft t Hnd; [done|].
  cbn [fold_left]. apply NoDup_cons in Hnd as [Hk Hnd]. rewrite IH by done.
  destruct (decide (t = k)) as [->|Hne].
  - rewrite decide_False by done. rewrite decide_True by left. unfold addi. by rewrite lookup_insert.
  - rewrite geti_addi_ne by done. destruct (decide (t ∈ ks)).
    + rewrite decide_True by (by right). done.
    + rewrite decide_False by (rewrite elem_of_cons; tauto). unfold addi. by rewrite lookup_insert_ne.
Qed.

(** ** effect of one step on every getter *)
Lemma tf_elem (fld : field) ks t : range_order (f_tf fld) ks -> t ∈ ks <-> is_Some (f_tf fld !! t).
Proof. apply range_order_elem. Qed.
Lemma has_term_spec t c : has_term t c = true <-> is_Some (f_tf (call_field c) !! t).
Proof. unfold has_term. destruct (_ !! t); split; try done; intros [? ?]; done. Qed.
Lemma for_field_spec f c : for_field f c = true <-> f_name (call_field c) = f.
Proof. unfold for_field. apply String.eqb_eq. Qed.

Definition upd_docs (s : option set_data) (d : string) : option set_data := Some (<[d := true]> (default ∅ s)).

Lemma mem_docs_update m doc fld ks f t : range_order (f_tf fld) ks ->
  mem_get_documents (mem_update_index m doc fld ks) f t =
    if for_field f (Index doc fld) && has_term t (Index doc fld)
    then upd_docs (mem_get_documents m f t) doc else mem_get_documents m f t.
Proof.
  intros Hr. pose proof (range_order_NoDup _ _ Hr) as Hnd. pose proof (tf_elem _ _ t Hr) as Hin.
  unfold mem_get_documents, mem_update_index. cbn [mm_index].
  unfold for_field, has_term. cbn [call_field].
  destruct (String.eqb_spec (f_name fld) f) as [->|Hne]; cbn [andb].
  - rewrite lookup_insert, index_loop_lookup by done.
    destruct (f_tf fld !! t) as [n|] eqn:E.
    + rewrite decide_True by (apply Hin; eauto). unfold upd_docs. destruct (mm_index m !! f) as [idx|]; cbn [from_option id].
      * by destruct (idx !! t).
      * by rewrite lookup_empty.
    + rewrite decide_False by (rewrite Hin; by intros [? ?]). destruct (mm_index m !! f) as [idx|]; cbn [from_option id].
      * done.
      * by rewrite lookup_empty.
  - by rewrite lookup_insert_ne.
Qed.
Lemma mem_docs_step m c m' f t : mem_step m c m' ->
  mem_get_documents m' f t =
    if for_field f c && has_term t c then upd_docs (mem_get_documents m f t) (call_doc c) else mem_get_documents m f t.
Proof.
  intros [doc fld ks1 ks2 H1 H2|doc fld ks H1].
  - change (mem_get_documents (mem_save m doc fld ks1 ks2) f t)
      with (mem_get_documents (mem_update_index (mem_create_fdoc m doc fld) doc fld ks1) f t).
    rewrite mem_docs_update by done. done.
  - by rewrite mem_docs_update.
Qed.
Lemma mem_index_step m c m' f t : mem_step m c m' -> mem_get_index m f !! t = mem_get_documents m f t ->
  mem_get_index m' f !! t = mem_get_documents m' f t.
Proof.
  intros _ _. unfold mem_get_index, mem_get_documents. destruct (mm_index m' !! f) as [idx|]; cbn [from_option id].
  - by destruct (idx !! t).
  - by rewrite lookup_empty.
Qed.
Lemma mem_index_docs m f t : mem_get_index m f !! t = mem_get_documents m f t.
Proof.
  unfold mem_get_index, mem_get_documents. destruct (mm_index m !! f) as [idx|]; cbn [from_option id].
  - by destruct (idx !! t).
  - by rewrite lookup_empty.
Qed.
Lemma mem_size_step m c m' f : mem_step m c m' ->
  mem_get_size m' f = if for_field f c then wrap64 (mem_get_size m f + 1) else mem_get_size m f.
Proof.
  intros H. assert (mm_size m' = addi (mm_size m) (f_name (call_field c)) 1) as E by (by destruct H).
  unfold mem_get_size, for_field. rewrite E.
  destruct (String.eqb_spec (f_name (call_field c)) f) as [->|Hne]; [by rewrite geti_addi|by rewrite geti_addi_ne].
Qed.
Lemma mem_length_step m c m' f : mem_step m c m' ->
  mem_get_length m' f = if for_field f c then wrap64 (mem_get_length m f + f_length (call_field c)) else mem_get_length m f.
Proof.
  intros H. assert (mm_length m' = addi (mm_length m) (f_name (call_field c)) (f_length (call_field c))) as E by (by destruct H).
  unfold mem_get_length, for_field. rewrite E.
  destruct (String.eqb_spec (f_name (call_field c)) f) as [->|Hne]; [by rewrite geti_addi|by rewrite geti_addi_ne].
Qed.
Definition nft_of (m : memory) (f t : string) : Z := geti (default ∅ (mm_nft m !! f)) t.
Lemma mem_nft_step m c m' f t : mem_step m c m' ->
  nft_of m' f t = if is_save c && for_field f c && has_term t c then wrap64 (nft_of m f t + 1) else nft_of m f t.
Proof.
  intros [doc fld ks1 ks2 H1 H2|doc fld ks H1]; [|done].
  pose proof (range_order_NoDup _ _ H2) as Hnd. pose proof (tf_elem _ _ t H2) as Hin.
  unfold nft_of, mem_save. cbn [mm_nft mem_update_index mem_create_fdoc is_save andb].
  unfold for_field, has_term. cbn [call_field].
  destruct (String.eqb_spec (f_name fld) f) as [->|Hne]; cbn [andb].
  - rewrite lookup_insert. cbn [from_option id]. unfold geti at 1. rewrite nft_loop_lookup by done.
    destruct (f_tf fld !! t) as [n|] eqn:E.
    + by rewrite decide_True by (apply Hin; eauto).
    + by rewrite decide_False by (rewrite Hin; by intros [? ?]).
  - by rewrite lookup_insert_ne.
Qed.
Definition fdoc_of (m : memory) (d f : string) : option field := mm_fdoc m !! d ≫= (.!! f).
Lemma mem_fdoc_step m c m' d f : mem_step m c m' ->
  fdoc_of m' d f = if is_save c && String.eqb (call_doc c) d && for_field f c then Some (call_field c) else fdoc_of m d f.
Proof.
  intros [doc fld ks1 ks2 H1 H2|doc fld ks H1]; [|done].
  unfold fdoc_of, mem_save. cbn [mm_fdoc mem_update_index mem_create_fdoc is_save andb call_doc].
  unfold for_field. cbn [call_field].
  destruct (String.eqb_spec doc d) as [->|Hne]; cbn [andb].
  - rewrite lookup_insert. cbn [mbind option_bind].
    destruct (String.eqb_spec (f_name fld) f) as [->|Hf].
    + destruct (mm_fdoc m !! d) as [fd|]; [by rewrite lookup_insert|by rewrite lookup_singleton].
    + destruct (mm_fdoc m !! d) as [fd|]; cbn [mbind option_bind]; [by rewrite lookup_insert_ne|by rewrite lookup_singleton_ne].
  - by rewrite lookup_insert_ne.
Qed.
Lemma mem_get_fields_lookup m ids f d :
  mem_get_fields m ids f !! d = if decide (d ∈ ids) then fdoc_of m d f else None.
Proof.
  unfold mem_get_fields.
  assert (forall acc : gmap string field, fold_left (fun fs id =>
      match mm_fdoc m !! id with
      | Some fd => match fd !! f with Some fl => <[id := fl]> fs | None => fs end
      | None => fs
      end) ids acc !! d = if decide (d ∈ ids) then match fdoc_of m d f with Some x => Some x | None => acc !! d end else acc !! d) as H.
  { induction ids as [|x ids IH]; intros acc; [done|]. cbn [fold_left]. rewrite IH.
    set (acc' := match mm_fdoc m !! x with
      | Some fd => match fd !! f with Some fl => <[x := fl]> acc | None => acc end
      | None => acc end).
    assert (acc' !! d = if decide (d = x) then match fdoc_of m d f with Some x => Some x | None => acc !! d end else acc !! d) as ->.
    { unfold acc', fdoc_of. destruct (decide (d = x)) as [->|Hne].
      - destruct (mm_fdoc m !! x) as [fd|]; cbn [mbind option_bind]; [|done]. destruct (fd !! f); [by rewrite lookup_insert|done].
      - destruct (mm_fdoc m !! x) as [fd|]; [|done]. destruct (fd !! f); [by rewrite lookup_insert_ne|done]. }
    destruct (decide (d ∈ ids)) as [H1|H1], (decide (d = x)) as [Heq|Hne], (decide (d ∈ x :: ids)) as [H2|H2];
      try (exfalso; set_solver); by destruct (fdoc_of m d f). }
  rewrite H. destruct (decide (d ∈ ids)); [by destruct (fdoc_of m d f)|done].
Qed.
Lemma mem_get_nft_lookup m f ts t :
  mem_get_nft m f ts !! t = if decide (t ∈ ts) then Some (nft_of m f t) else None.
Proof.
  unfold mem_get_nft. fold (nft_of m f).
  assert (forall acc : gmap string Z, fold_left (fun tmp t => <[t := nft_of m f t]> tmp) ts acc !! t
      = if decide (t ∈ ts) then Some (nft_of m f t) else acc !! t) as H.
  { induction ts as [|x ts IH]; intros acc; [done|]. cbn [fold_left]. rewrite IH.
    destruct (decide (t = x)) as [->|Hne].
    - rewrite (decide_True (P := x ∈ x :: ts)) by left. rewrite lookup_insert. by destruct (decide _).
    - rewrite lookup_insert_ne by done. destruct (decide (t ∈ ts)).
      + by rewrite decide_True by (by right).
      + by rewrite decide_False by (rewrite elem_of_cons; tauto). }
  exact (H ∅).
Qed.

(** ** histories *)
Lemma mem_run_snoc m h c m2 : mem_run m (h ++ [c]) m2 <-> exists m1, mem_run m h m1 /\ mem_step m1 c m2.
Proof.
  revert m. induction h as [|c' h IH]; intros m; cbn [app].
  - split.
    + intros H. inversion H as [|? ? m1 ? ? Hs Hr]; subst. inversion Hr; subst. eauto using mem_run_nil.
    + intros (m1 & Hr & Hs). inversion Hr; subst. econstructor; [exact Hs|constructor].
  - split.
    + intros H. inversion H as [|? ? m1 ? ? Hs Hr]; subst. apply IH in Hr as (m3 & Hr & Hs3).
      exists m3. split; [by econstructor|done].
    + intros (m1 & Hr & Hs). inversion Hr as [|? ? m3 ? ? Hs3 Hr3]; subst. econstructor; [exact Hs3|].
      apply IH. eauto.
Qed.
Lemma mem_run_app m h1 h2 m2 : mem_run m (h1 ++ h2) m2 <-> exists m1, mem_run m h1 m1 /\ mem_run m1 h2 m2.
Proof.
  revert m. induction h1 as [|c h IH]; intros m; cbn [app].
  - split; [intros H; exists m; split; [constructor|done]|]. intros (m1 & H1 & H2). by inversion H1; subst.
  - split.
    + intros H. inversion H as [|? ? m1 ? ? Hs Hr]; subst. apply IH in Hr as (m3 & ? & ?).
      exists m3. split; [by econstructor|done].
    + intros (m1 & H1 & H2). inversion H1 as [|? ? m3 ? ? Hs3 Hr3]; subst. econstructor; [exact Hs3|]. apply IH. eauto.
Qed.
Lemma mem_step_total m c : exists m', mem_step m c m'.
Proof. destruct c; eexists; econstructor; apply range_order_exists. Qed.
Lemma mem_run_total m h : exists m', mem_run m h m'.
Proof.
  revert m. induction h as [|c h IH]; intros m; [eexists; constructor|].
  destruct (mem_step_total m c) as [m1 H1]. destruct (IH m1) as [m2 H2]. exists m2. by econstructor.
Qed.

Lemma mem_docs_exact h m : mem_run mem_new h m -> forall f t,
  (mem_get_documents m f t = None <-> indexed f t h = []) /\
  (forall s, mem_get_documents m f t = Some s -> forall d,
     s !! d = if decide (d ∈ map call_doc (indexed f t h)) then Some true else None).
Proof.
  revert m. induction h as [|c h IH] using rev_ind; intros m H f t.
  - inversion H; subst. split; [done|]. intros s Hs. unfold mem_get_documents in Hs. cbn in Hs. done.
  - apply mem_run_snoc in H as (m1 & Hr & Hs). destruct (IH m1 Hr f t) as [IH1 IH2]. clear IH.
    rewrite (mem_docs_step _ _ _ f t Hs). unfold indexed in *. rewrite List.filter_app. cbn [List.filter].
    destruct (for_field f c && has_term t c) eqn:E.
    + split.
      { split; [done|]. intros Hnil. by apply app_eq_nil in Hnil as [_ ?]. }
      intros s. unfold upd_docs. intros [= <-] d. rewrite map_app. cbn [map].
      destruct (decide (d = call_doc c)) as [->|Hne].
      * rewrite lookup_insert, decide_True; [done|]. set_solver.
      * rewrite lookup_insert_ne by done.
        assert ((default ∅ (mem_get_documents m1 f t) : set_data) !! d =
           if decide (d ∈ map call_doc (List.filter (fun c => for_field f c && has_term t c) h)) then Some true else None) as ->.
        { destruct (mem_get_documents m1 f t) as [s|] eqn:Es.
          - apply IH2. done.
          - rewrite (proj1 IH1 eq_refl). done. }
        destruct (decide (d ∈ _)) as [H1|H1]; [rewrite decide_True|rewrite decide_False]; [done| |done|]; set_solver.
    + rewrite app_nil_r. by split.
Qed.

Lemma count_app h1 h2 : count (h1 ++ h2) = count h1 + count h2.
Proof. unfold count. rewrite app_length. lia. Qed.
Lemma total_length_app h1 h2 : total_length (h1 ++ h2) = total_length h1 + total_length h2.
Proof. unfold total_length. induction h1 as [|c h1 IH]; cbn [app fold_right]; [lia|]. rewrite IH. lia. Qed.
Lemma mem_size_exact h m f : mem_run mem_new h m -> mem_get_size m f = wrap64 (count (calls_for f h)).
Proof.
  revert m. induction h as [|c h IH] using rev_ind; intros m H.
  - by inversion H; subst.
  - apply mem_run_snoc in H as (m1 & Hr & Hs). rewrite (mem_size_step _ _ _ _ Hs), (IH _ Hr).
    unfold calls_for. rewrite List.filter_app, count_app. cbn [List.filter]. destruct (for_field f c).
    + rewrite wrap64_add_l. done.
    + unfold count. cbn. by rewrite Z.add_0_r.
Qed.
Lemma mem_length_exact h m f : mem_run mem_new h m -> mem_get_length m f = wrap64 (total_length (calls_for f h)).
Proof.
  revert m. induction h as [|c h IH] using rev_ind; intros m H.
  - by inversion H; subst.
  - apply mem_run_snoc in H as (m1 & Hr & Hs). rewrite (mem_length_step _ _ _ _ Hs), (IH _ Hr).
    unfold calls_for. rewrite List.filter_app, total_length_app. cbn [List.filter]. destruct (for_field f c).
    + rewrite wrap64_add_l. cbn. by rewrite Z.add_0_r.
    + cbn. by rewrite Z.add_0_r.
Qed.
Lemma nft_exact h m f t : mem_run mem_new h m -> nft_of m f t = wrap64 (count (saves_with f t h)).
Proof.
  revert m. induction h as [|c h IH] using rev_ind; intros m H.
  - by inversion H; subst.
  - apply mem_run_snoc in H as (m1 & Hr & Hs). rewrite (mem_nft_step _ _ _ _ _ Hs), (IH _ Hr).
    unfold saves_with. rewrite List.filter_app, count_app. cbn [List.filter]. destruct (is_save c && for_field f c && has_term t c).
    + rewrite wrap64_add_l. done.
    + unfold count. cbn. by rewrite Z.add_0_r.
Qed.
Lemma last_saved_snoc d f h c : last_saved d f (h ++ [c]) =
  if is_save c && String.eqb (call_doc c) d && for_field f c then Some (call_field c) else last_saved d f h.
Proof.
  induction h as [|c' h IH]; cbn [app last_saved].
  - by destruct (is_save c && _ && _).
  - rewrite IH. by destruct (is_save c && _ && _).
Qed.
Lemma fdoc_exact h m d f : mem_run mem_new h m -> fdoc_of m d f = last_saved d f h.
Proof.
  revert m. induction h as [|c h IH] using rev_ind; intros m H.
  - by inversion H; subst.
  - apply mem_run_snoc in H as (m1 & Hr & Hs). by rewrite (mem_fdoc_step _ _ _ _ _ Hs), (IH _ Hr), last_saved_snoc.
Qed.
