(** The disk storage: layout of the folder, which component touches which files. *)
From Verif Require Import Base M_Field M_LRU S_Visits M_Memory M_File M_Serialize M_Disk P_Base P_File S_Disk.
#[local] Open Scope Z_scope.

(** * Owners of paths *)
Inductive comp := OM | ON | OI | OF | OD.
#[global] Instance comp_eq_dec : EqDecision comp.
Proof. solve_decision. Defined.
Definition owner (p : path) : option comp :=
  match p with
  | [f; n] =>
      if String.eqb f "docs" then None
      else if String.eqb n "metrics" || String.eqb n "metrics_temp" || String.eqb n "metrics_old" then Some OM
      else if String.eqb n "nfterm" || String.eqb n "nfterm_temp" || String.eqb n "nfterm_old" then Some ON
      else if String.eqb n "index" || String.eqb n "index_temp" || String.eqb n "index_old" then Some OI
      else None
  | [f; g; u] =>
      if String.eqb f "docs" then (if String.eqb g "metrics" then Some OD else None)
      else if String.eqb g "temp" then Some OF else None
  | _ => None
  end.
Lemma eqb_docs f : f <> "docs" -> String.eqb f "docs" = false.
Proof. intros H. by apply String.eqb_neq. Qed.
Lemma owner_m f : f <> "docs" -> owner [f; "metrics"] = Some OM /\ owner [f; "metrics_temp"] = Some OM /\ owner [f; "metrics_old"] = Some OM.
Proof. intros H. unfold owner. by rewrite eqb_docs. Qed.
Lemma owner_n f : f <> "docs" -> owner [f; "nfterm"] = Some ON /\ owner [f; "nfterm_temp"] = Some ON /\ owner [f; "nfterm_old"] = Some ON.
Proof. intros H. unfold owner. by rewrite eqb_docs. Qed.
Lemma owner_i f : f <> "docs" -> owner [f; "index"] = Some OI /\ owner [f; "index_temp"] = Some OI /\ owner [f; "index_old"] = Some OI.
Proof. intros H. unfold owner. by rewrite eqb_docs. Qed.
Lemma owner_f f u : f <> "docs" -> owner [f; "temp"; u] = Some OF.
Proof. intros H. unfold owner. by rewrite eqb_docs. Qed.
Lemma owner_d u : owner ["docs"; "metrics"; u] = Some OD.
Proof. done. Qed.

(** * Layout *)
Record layout (s : fs) : Prop := {
  l_files : forall p, is_Some (fs_files s !! p) -> is_Some (owner p) /\ parent p ∈ fs_dirs s;
  l_dirs : forall p, p ∈ fs_dirs s -> owner p = None;
  l_up : forall p, p ∈ fs_dirs s -> [] ∈ fs_dirs s /\ parent p ∈ fs_dirs s }.

Lemma prefixes_owner p : owner p = None -> (length p <= 2)%nat -> Forall (fun q => owner q = None) (prefixes p).
Proof.
  intros H Hl. destruct p as [|a [|b [|c p]]]; cbn in *; repeat constructor; done || lia.
Qed.
Lemma mkdir_ok s p : layout s -> owner p = None -> (length p <= 2)%nat -> exists s', mkdir_all s p = Some s'.
Proof.
  intros Hl Ho Hp. unfold mkdir_all. pose proof (prefixes_owner p Ho Hp) as Hq.
  assert (forallb (fun q => negb (is_file s q)) (prefixes p) = true) as ->; [|eauto].
  apply forallb_forall. intros q Hin. apply elem_of_list_In in Hin. rewrite Forall_forall in Hq. apply Hq in Hin.
  unfold is_file. rewrite bool_decide_false; [done|]. intros Hs. apply (l_files _ Hl) in Hs as [[? E] _]. congruence.
Qed.
Lemma prefixes_self p : p ∈ prefixes p.
Proof. induction p as [|x p IH]; cbn; [left|]. right. apply elem_of_list_fmap. eauto. Qed.
Lemma mkdir_effect s p s' : layout s -> owner p = None -> (length p <= 2)%nat -> mkdir_all s p = Some s' ->
  layout s' /\ fs_files s' = fs_files s /\ fs_dirs s ⊆ fs_dirs s' /\ p ∈ fs_dirs s' /\
  (forall q, q ∈ fs_dirs s' -> q ∈ fs_dirs s \/ q ∈ prefixes p).
Proof.
  intros Hl Ho Hp H. unfold mkdir_all in H. destruct (forallb _ _); [|discriminate]. injection H as <-. cbn [fs_files fs_dirs].
  split.
  - constructor; cbn [fs_files fs_dirs].
    + intros q Hq. apply (l_files _ Hl) in Hq as [? ?]. split; [done|set_solver].
    + intros q Hq. apply elem_of_union in Hq as [Hq|Hq]; [|by apply (l_dirs _ Hl)].
      apply elem_of_list_to_set in Hq. pose proof (prefixes_owner p Ho Hp) as HF. rewrite Forall_forall in HF. by apply HF.
    + assert (forall q, q ∈ prefixes p -> [] ∈ prefixes p /\ parent q ∈ prefixes p) as Hpre.
      { destruct p as [|a [|b [|c p]]]; cbn in Hp; try lia; intros q Hq; cbn in Hq;
          rewrite ?elem_of_cons, ?elem_of_nil in Hq; unfold parent; cbn [prefixes map];
          destruct_or?; subst; try done; cbn [removelast]; rewrite ?elem_of_cons; auto 10. }
      intros q Hq. apply elem_of_union in Hq as [Hq|Hq].
      * apply elem_of_list_to_set in Hq. apply Hpre in Hq as [H1 H2]. split; apply elem_of_union_l, elem_of_list_to_set; done.
      * destruct (l_up _ Hl _ Hq). split; by apply elem_of_union_r.
  - split; [done|]. split; [set_solver|]. split; [apply elem_of_union_l, elem_of_list_to_set, prefixes_self|].
    intros q Hq. apply elem_of_union in Hq as [Hq|Hq]; [right; by apply elem_of_list_to_set in Hq|by left].
Qed.

(** * SecureSaveFile, one step *)
Definition ss_ok (dir : path) (name : string) (b : bytes) (pc : ss_pc) (s : fs) : Prop :=
  let cur := cur_path dir name in let tmp := temp_path dir name in let old := old_path dir name in
  let F := fs_files s in
  match pc with
  | SSOpen | SSWrite => True
  | SSStatCur => F !! tmp = Some (Whole b)
  | SSRenameOld => F !! tmp = Some (Whole b) /\ is_Some (F !! cur)
  | SSRenameCur => F !! tmp = Some (Whole b) /\ F !! cur = None
  | SSStatOld => F !! cur = Some (Whole b) /\ F !! tmp = None
  | SSDelete => F !! cur = Some (Whole b) /\ F !! tmp = None /\ is_Some (F !! old)
  | SSOk => F !! cur = Some (Whole b) /\ F !! tmp = None /\ F !! old = None
  | SSErr => False
  end.
(** What a step does to the files. *)
Definition ss_eff (dir : path) (name : string) (b : bytes) (pc pc' : ss_pc) (F F' : gmap path content) : Prop :=
  let cur := cur_path dir name in let tmp := temp_path dir name in let old := old_path dir name in
  match pc with
  | SSOpen => pc' = SSWrite /\ F' = <[tmp := Torn]> F
  | SSWrite => pc' = SSStatCur /\ F' = <[tmp := Whole b]> F
  | SSStatCur => F' = F /\ (pc' = SSRenameOld \/ (pc' = SSRenameCur /\ F !! cur = None))
  | SSRenameOld => pc' = SSRenameCur /\ exists c, F !! cur = Some c /\ F' = <[old := c]> (delete cur F)
  | SSRenameCur => pc' = SSStatOld /\ F' = <[cur := Whole b]> (delete tmp F)
  | SSStatOld => F' = F /\ (pc' = SSDelete \/ (pc' = SSOk /\ F !! old = None))
  | SSDelete => pc' = SSOk /\ F' = delete old F
  | SSOk | SSErr => False
  end.
Lemma ss_one dir name b pc s pc' s' : names_free dir name s -> ss_ok dir name b pc s ->
  ss_step dir name b (pc, s) = Some (pc', s') ->
  fs_dirs s' = fs_dirs s /\ ss_eff dir name b pc pc' (fs_files s) (fs_files s') /\ ss_ok dir name b pc' s'.
Proof.
  intros (Hd & Hc & Ht & Ho) Hok H. destruct s as [F D]. cbn [fs_files fs_dirs] in *.
  pose proof (cur_tmp dir name) as N1. pose proof (cur_old dir name) as N2. pose proof (tmp_old dir name) as N3.
  assert (parent (cur_path dir name) = dir /\ parent (temp_path dir name) = dir /\ parent (old_path dir name) = dir) as (P1 & P2 & P3).
  { unfold cur_path, temp_path, old_path. by rewrite !parent_snoc. }
  set (cur := cur_path dir name) in *. set (tmp := temp_path dir name) in *. set (old := old_path dir name) in *.
  assert (forall m, is_dir (mkFs m D) dir = true) as D0 by (intros m; by apply is_dir_true).
  assert (forall m, is_dir (mkFs m D) cur = false) as D1 by (intros m; by apply is_dir_false).
  assert (forall m, is_dir (mkFs m D) tmp = false) as D2 by (intros m; by apply is_dir_false).
  assert (forall m, is_dir (mkFs m D) old = false) as D3 by (intros m; by apply is_dir_false).
  assert (forall m, exists_path (mkFs m D) cur = bool_decide (is_Some (m !! cur))) as X1 by (intros m; unfold exists_path; by rewrite D1, orb_false_r).
  assert (forall m, exists_path (mkFs m D) old = bool_decide (is_Some (m !! old))) as X2 by (intros m; unfold exists_path; by rewrite D3, orb_false_r).
  unfold ss_step in H. cbn [fst snd] in H. fold cur tmp old in H. unfold ss_ok, ss_eff in *. cbn [fs_files] in *. fold cur tmp old in Hok.
  fold cur tmp old.
  destruct pc; try discriminate.
  - unfold open_trunc, on in H. rewrite P2, D0, D2 in H. cbn in H. injection H as <- <-. cbn. done.
  - injection H as <- <-. cbn. rewrite lookup_insert. done.
  - rewrite X1 in H. injection H as E <-. cbn. split; [done|]. destruct (F !! cur) as [c|] eqn:Ec.
    + rewrite bool_decide_true in E by by eexists. subst pc'. split; [auto|]. split; [done|]. by eexists.
    + rewrite bool_decide_false in E by (by intros [? ?]). subst pc'. auto.
  - destruct Hok as [E1 [c E2]]. unfold rename, on in H. cbn [fs_files] in H. rewrite E2, P3, D0, D3 in H. cbn in H.
    injection H as <- <-. cbn. split; [done|]. split; [eauto|]. split.
    { rewrite lookup_insert_ne by done. by rewrite lookup_delete_ne. }
    rewrite lookup_insert_ne by done. by rewrite lookup_delete.
  - destruct Hok as [E1 E2]. unfold rename, on in H. cbn [fs_files] in H. rewrite E1, P1, D0, D1 in H. cbn in H.
    injection H as <- <-. cbn. split; [done|]. split; [eauto|]. rewrite lookup_insert, lookup_insert_ne, lookup_delete by done. done.
  - rewrite X2 in H. injection H as E <-. cbn. split; [done|]. destruct Hok as [E1 E2]. destruct (F !! old) as [c|] eqn:Ec.
    + rewrite bool_decide_true in E by by eexists. subst pc'. split; [auto|]. split; [done|]. split; [done|]. by eexists.
    + rewrite bool_decide_false in E by (by intros [? ?]). subst pc'. auto.
  - destruct Hok as (E1 & E2 & [c E3]). unfold remove, on in H. cbn [fs_files] in H. rewrite E3 in H. cbn in H.
    injection H as <- <-. cbn. split; [done|]. split; [eauto|]. split; [by rewrite lookup_delete_ne|]. split; [by rewrite lookup_delete_ne|]. by rewrite lookup_delete.
Qed.
Lemma ss_eff_frame dir name b pc pc' F F' p : ss_eff dir name b pc pc' F F' ->
  p <> cur_path dir name -> p <> temp_path dir name -> p <> old_path dir name -> F' !! p = F !! p.
Proof.
  intros H N1 N2 N3. unfold ss_eff in H. destruct pc; try done.
  - destruct H as [_ ->]. by rewrite lookup_insert_ne.
  - destruct H as [_ ->]. by rewrite lookup_insert_ne.
  - by destruct H as [-> _].
  - destruct H as (_ & c & _ & ->). rewrite lookup_insert_ne, lookup_delete_ne by done. done.
  - destruct H as [_ ->]. rewrite lookup_insert_ne, lookup_delete_ne by done. done.
  - by destruct H as [-> _].
  - destruct H as [_ ->]. by rewrite lookup_delete_ne.
Qed.

Lemma exists_false s p : exists_path s p = false -> fs_files s !! p = None /\ p ∉ fs_dirs s.
Proof.
  unfold exists_path, is_file, is_dir. rewrite orb_false_iff. intros [H1 H2]. apply bool_decide_eq_false_1 in H1. apply bool_decide_eq_false_1 in H2.
  split; [|done]. by apply eq_None_not_Some.
Qed.
Lemma layout_files s F : layout s -> (forall p, is_Some (F !! p) -> is_Some (fs_files s !! p) \/ (is_Some (owner p) /\ parent p ∈ fs_dirs s)) ->
  layout (mkFs F (fs_dirs s)).
Proof.
  intros Hl H. constructor; cbn [fs_files fs_dirs].
  - intros p Hp. destruct (H p Hp) as [?|?]; [by apply (l_files _ Hl)|done].
  - apply (l_dirs _ Hl).
  - apply (l_up _ Hl).
Qed.
Lemma layout_not_dir s p : layout s -> is_Some (owner p) -> p ∉ fs_dirs s.
Proof. intros Hl [c Hc] Hin. apply (l_dirs _ Hl) in Hin. congruence. Qed.

(** * Writers *)
Section writer.
  Context {V : Type} (compress : bytes -> bytes).
  Variables (dirof : string -> path) (nameof : string -> string) (ser : string -> V -> bytes -> Prop) (C : comp) (P : string -> Prop).
  Hypothesis Hdir : forall k, P k -> owner (dirof k) = None /\ (length (dirof k) <= 2)%nat.
  Hypothesis Hown : forall k, P k -> owner (cur_path (dirof k) (nameof k)) = Some C /\
     owner (temp_path (dirof k) (nameof k)) = Some C /\ owner (old_path (dirof k) (nameof k)) = Some C.

  Definition w_wf (w : writer V) (s : fs) : Prop :=
    (forall k, is_Some (w_buf w !! k) -> P k) /\
    match w_pc w with
    | WIdle => True
    | WLoop ks => NoDup ks /\ forall k, k ∈ ks -> is_Some (w_buf w !! k)
    | WSer k ks | WIter k ks _ => (NoDup (k :: ks) /\ forall k', k' ∈ k :: ks -> is_Some (w_buf w !! k')) /\ dirof k ∈ fs_dirs s
    | WSave k ks b pc => (NoDup (k :: ks) /\ forall k', k' ∈ k :: ks -> is_Some (w_buf w !! k')) /\ dirof k ∈ fs_dirs s /\
                         ss_ok (dirof k) (nameof k) b pc s
    end.

  Lemma names_free_w k s : layout s -> P k -> dirof k ∈ fs_dirs s -> names_free (dirof k) (nameof k) s.
  Proof.
    intros Hl Hk Hd. destruct (Hown k Hk) as (O1 & O2 & O3). split; [done|].
    split; [|split]; apply layout_not_dir; try done; by eexists.
  Qed.
  Lemma ss_layout k b pc pc' s s' : layout s -> P k -> dirof k ∈ fs_dirs s -> fs_dirs s' = fs_dirs s ->
    ss_eff (dirof k) (nameof k) b pc pc' (fs_files s) (fs_files s') -> layout s'.
  Proof.
    intros Hl Hk Hd Hds He. destruct s' as [F' D']. cbn in *. subst D'. apply layout_files; [done|]. intros p Hp.
    destruct (Hown k Hk) as (O1 & O2 & O3).
    assert (forall q, q = cur_path (dirof k) (nameof k) \/ q = temp_path (dirof k) (nameof k) \/ q = old_path (dirof k) (nameof k) ->
      is_Some (owner q) /\ parent q ∈ fs_dirs s) as HQ.
    { unfold cur_path, temp_path, old_path in *. intros q [-> |[-> | ->]]; rewrite parent_snoc; (split; [by eexists|done]). }
    destruct (decide (p = cur_path (dirof k) (nameof k))); [right; auto|].
    destruct (decide (p = temp_path (dirof k) (nameof k))); [right; auto|].
    destruct (decide (p = old_path (dirof k) (nameof k))); [right; auto|].
    left. by rewrite <- (ss_eff_frame _ _ _ _ _ _ _ p He).
  Qed.
  Lemma ss_frame_own k b pc pc' F F' p : P k -> ss_eff (dirof k) (nameof k) b pc pc' F F' -> owner p <> Some C -> F' !! p = F !! p.
  Proof.
    intros Hk He Hp. destruct (Hown k Hk) as (O1 & O2 & O3). apply (ss_eff_frame _ _ _ _ _ _ _ p He); intros ->; congruence.
  Qed.

  Lemma w_step_base w s w' s' : layout s -> w_wf w s -> w_step compress dirof nameof ser (w, s) (w', s') ->
    layout s' /\ w_wf w' s' /\ fs_dirs s ⊆ fs_dirs s' /\ (forall p, owner p <> Some C -> fs_files s' !! p = fs_files s !! p).
  Proof.
    intros Hl [Hb Hp] H. inversion H; subst; cbn [w_buf w_pc] in *.
    - split; [done|]. split; [done|]. done.
    - destruct Hp as [Hn Hk]. assert (P k) as Pk by (apply Hb, Hk; left).
      destruct (Hdir k Pk) as [D1 D2].
      match goal with H : mkdir_all _ _ = _ |- _ => destruct (mkdir_effect _ _ _ Hl D1 D2 H) as (E1 & E2 & E3 & E4 & _) end.
      split; [done|]. split; [split; [done|]; cbn; auto|]. split; [done|]. intros p _. by rewrite E2.
    - split; [done|]. split; [by split|]. done.
    - split; [done|]. split; [|done]. destruct Hp as [? ?]. split; [done|]. cbn. auto.
    - destruct Hp as (Hk & Hd & Hok). assert (P k) as Pk by (apply Hb, Hk; left).
      match goal with H : ss_step _ _ _ _ = _ |- _ => destruct (ss_one _ _ _ _ _ _ _ (names_free_w k s Hl Pk Hd) Hok H) as (E1 & E2 & E3) end.
      split; [by eapply ss_layout|]. split; [split; [done|]; cbn; rewrite E1; auto|]. split; [by rewrite E1|].
      intros p Hpo. by eapply ss_frame_own.
    - destruct Hp as ([Hn Hk] & Hd & Hok). apply NoDup_cons in Hn as [Hni Hn]. split; [done|]. split; [|done]. split; cbn.
      + intros k' Hk'. apply Hb. apply lookup_delete_is_Some in Hk' as [_ ?]. done.
      + split; [done|]. intros k' Hk'. rewrite lookup_delete_ne by (intros ->; done). apply Hk. by right.
  Qed.
  Lemma w_wf_frame w s s' : w_wf w s -> fs_dirs s ⊆ fs_dirs s' -> (forall p, owner p = Some C -> fs_files s' !! p = fs_files s !! p) -> w_wf w s'.
  Proof.
    intros [Hb Hp] Hd Hf. split; [done|]. destruct (w_pc w) as [|ks|k ks|k ks T|k ks b pc] eqn:E; try done.
    - destruct Hp as [? ?]. auto.
    - destruct Hp as [? ?]. auto.
    - destruct Hp as (Hk & Hd' & Hok). split; [done|]. split; [auto|].
      assert (P k) as Pk by (apply Hb, Hk; left). destruct (Hown k Pk) as (O1 & O2 & O3).
      unfold ss_ok in *. destruct pc; try done; rewrite ?(Hf _ O1), ?(Hf _ O2), ?(Hf _ O3); done.
  Qed.
  Lemma w_tick_wf w w' s : w_wf w s -> w_tick w w' -> w_wf w' s.
  Proof.
    intros [Hb _] H. inversion H as [buf ks Hr]; subst. split; [done|]. cbn. unfold range_order in Hr. split.
    - rewrite Hr. apply NoDup_fst_map_to_list.
    - intros k Hk. rewrite Hr in Hk. apply elem_of_list_fmap in Hk as ([k' v] & -> & Hk). apply elem_of_map_to_list in Hk. by eexists.
  Qed.
End writer.

(** * Index writer *)
Definition nd (k : string) : Prop := k <> "docs".
Definition i_wf (w : iwriter) (s : fs) : Prop :=
  (forall k, is_Some (i_buf w !! k) -> nd k) /\
  match i_pc w with
  | IIdle => True
  | ILoop ks => NoDup ks /\ forall k, k ∈ ks -> is_Some (i_buf w !! k)
  | IMkdir k ks b => NoDup (k :: ks) /\ forall k', k' ∈ k :: ks -> is_Some (i_buf w !! k')
  | IOpen k ks b | IWrite k ks b _ => (NoDup (k :: ks) /\ forall k', k' ∈ k :: ks -> is_Some (i_buf w !! k')) /\ [k; "temp"] ∈ fs_dirs s
  end.
Lemma owner_temp f : owner [f; "temp"] = None.
Proof. unfold owner. by destruct (String.eqb f "docs"). Qed.
Lemma i_step_base compress w s w' s' : layout s -> i_wf w s -> i_step compress (w, s) (w', s') ->
  layout s' /\ i_wf w' s' /\ fs_dirs s ⊆ fs_dirs s' /\ (forall p, owner p <> Some OF -> fs_files s' !! p = fs_files s !! p).
Proof.
  intros Hl [Hb Hp] H. inversion H; subst; cbn [i_buf i_pc] in *.
  - split; [done|]. split; [|done]. split; [|done]. cbn. intros k [? Hk]. by rewrite lookup_empty in Hk.
  - split; [done|]. split; [|done]. by split.
  - match goal with H : mkdir_all _ _ = _ |- _ => destruct (mkdir_effect _ _ _ Hl (owner_temp k) (Nat.le_refl 2) H) as (E1 & E2 & E3 & E4 & _) end.
    split; [done|]. split; [by split|]. split; [done|]. intros p _. by rewrite E2.
  - destruct Hp as [[Hn Hk] Hd]. assert (nd k) as Pk by (apply Hb, Hk; left). pose proof (owner_f k u Pk) as Ho.
    match goal with H : open_trunc _ _ = _ |- _ => unfold open_trunc in H; destruct (_ && _); [|discriminate]; injection H as <- end.
    split; [|split; [by split|split; [done|]]].
    + apply layout_files; [done|]. intros p Hp. destruct (decide (p = [k; "temp"; u])) as [->|Hne].
      * right. split; [by eexists|]. done.
      * rewrite lookup_insert_ne in Hp by done. by left.
    + intros p Hpo. cbn. rewrite lookup_insert_ne; [done|]. intros <-. congruence.
  - destruct Hp as [[Hn Hk] Hd]. assert (nd k) as Pk by (apply Hb, Hk; left). pose proof (owner_f k u Pk) as Ho.
    split; [|split; [|split; [done|]]].
    + apply layout_files; [done|]. intros p Hp. destruct (decide (p = [k; "temp"; u])) as [->|Hne].
      * right. split; [by eexists|]. done.
      * rewrite lookup_insert_ne in Hp by done. by left.
    + split; [done|]. apply NoDup_cons in Hn as [? ?]. cbn. split; [done|]. intros k' ?. apply Hk. by right.
    + intros p Hpo. cbn. rewrite lookup_insert_ne; [done|]. intros <-. congruence.
Qed.
Lemma i_wf_frame w s s' : i_wf w s -> fs_dirs s ⊆ fs_dirs s' -> i_wf w s'.
Proof. intros [Hb Hp] Hd. split; [done|]. destruct (i_pc w); try done; destruct Hp as [? ?]; auto. Qed.
Lemma i_tick_wf w w' s : i_wf w s -> i_tick w w' -> i_wf w' s.
Proof.
  intros [Hb _] H. inversion H as [buf ks Hr]; subst. split; [done|]. cbn. unfold range_order in Hr. split.
  - rewrite Hr. apply NoDup_fst_map_to_list.
  - intros k Hk. rewrite Hr in Hk. apply elem_of_list_fmap in Hk as ([k' v] & -> & Hk). apply elem_of_map_to_list in Hk. by eexists.
Qed.

(** * Merger *)
Definition g_names (fs : list string) : Prop := NoDup fs /\ Forall nd fs.
Definition g_wf (g : merger) (s : fs) : Prop :=
  match m_pc g with
  | MIdle | MErr => True
  | MFields fs => g_names fs
  | MList f fs => g_names (f :: fs) /\ [f; "temp"] ∈ fs_dirs s
  | MIndex f fs files => g_names (f :: fs) /\ [f; "temp"] ∈ fs_dirs s /\ NoDup files
  | MFrag f fs files todo td => g_names (f :: fs) /\ [f; "temp"] ∈ fs_dirs s /\ NoDup files /\ exists done_, files = done_ ++ todo
  | MMkdir f fs files td b => g_names (f :: fs) /\ [f; "temp"] ∈ fs_dirs s /\ NoDup files
  | MSave f fs files td b pc => g_names (f :: fs) /\ [f; "temp"] ∈ fs_dirs s /\ NoDup files /\ ss_ok [f] "index" b pc s
  | MDel f fs todo td => g_names (f :: fs) /\ [f; "temp"] ∈ fs_dirs s /\ NoDup todo
  end.
Lemma index_names f : f <> "docs" -> owner (cur_path [f] "index") = Some OI /\ owner (temp_path [f] "index") = Some OI /\ owner (old_path [f] "index") = Some OI.
Proof. intros H. exact (owner_i f H). Qed.
Lemma g_names_hd f fs : g_names (f :: fs) -> nd f.
Proof. intros [_ H]. by apply Forall_cons in H as [? _]. Qed.
Lemma g_names_tl f fs : g_names (f :: fs) -> g_names fs.
Proof. intros [Hn H]. apply Forall_cons in H as [_ ?]. by apply NoDup_cons in Hn as [_ ?]. Qed.
Lemma g_step_base compress decompress g s g' s' : layout s -> g_wf g s -> g_step compress decompress (g, s) (g', s') ->
  layout s' /\ g_wf g' s' /\ fs_dirs s ⊆ fs_dirs s' /\ (forall p, owner p <> Some OI -> owner p <> Some OF -> fs_files s' !! p = fs_files s !! p).
Proof.
  intros Hl Hw H. unfold g_wf in *. inversion H; subst; cbn [m_pc] in *.
  - match goal with H : mkdir_all _ _ = _ |- _ => destruct (mkdir_effect _ _ _ Hl (owner_temp f) (Nat.le_refl 2) H) as (E1 & E2 & E3 & E4 & _) end.
    split; [done|]. split; [by split|]. split; [done|]. intros p _ _. by rewrite E2.
  - split; [done|]. split; [|done]. destruct Hw as [? ?]. split; [done|]. split; [done|].
    match goal with H : lists_files _ _ _ |- _ => by destruct H end.
  - split; [done|]. split; [|done]. destruct Hw as (? & ? & ?). split; [done|]. split; [done|]. split; [done|]. by exists [].
  - split; [done|]. split; [|done]. destruct Hw as (? & ? & ?). split; [done|]. split; [done|]. split; [done|]. by exists [].
  - split; [done|]. split; [|done]. destruct Hw as (? & ? & ? & dn & ->). split; [done|]. split; [done|]. split; [done|].
    exists (dn ++ [u]). by rewrite <- app_assoc.
  - split; [done|]. split; [|done]. destruct Hw as (? & ? & ? & _). done.
  - destruct Hw as (Hn & Hd & Hf). pose proof (g_names_hd _ _ Hn) as Hnd.
    assert (owner [f] = None) as Ho by done.
    match goal with H : mkdir_all _ _ = _ |- _ => destruct (mkdir_effect _ _ _ Hl Ho (Nat.le_succ_diag_r 1) H) as (E1 & E2 & E3 & E4 & _) end.
    split; [done|]. split; [repeat (split; [by auto|]); done|]. split; [done|]. intros p _ _. by rewrite E2.
  - destruct Hw as (Hn & Hd & Hf & Hok). pose proof (g_names_hd _ _ Hn) as Hnd.
    assert ([f] ∈ fs_dirs s) as Hfd by (by apply (l_up _ Hl) in Hd as [_ ?]).
    assert (names_free [f] "index" s) as Hfree.
    { destruct (index_names f Hnd) as (O1 & O2 & O3). split; [done|].
      split; [|split]; apply layout_not_dir; try done; by eexists. }
    match goal with H : ss_step _ _ _ _ = _ |- _ => destruct (ss_one _ _ _ _ _ _ _ Hfree Hok H) as (E1 & E2 & E3) end.
    split; [exact (ss_layout (fun f => [f]) (fun _ => "index") OI nd index_names f b pc pc' s s' Hl Hnd Hfd E1 E2)|].
    split; [rewrite E1; done|]. split; [by rewrite E1|]. intros p Hp _.
    exact (ss_frame_own (fun f => [f]) (fun _ => "index") OI nd index_names f b pc pc' _ _ p Hnd E2 Hp).
  - split; [done|]. split; [|done]. by destruct Hw as (? & ? & ? & _).
  - destruct Hw as (Hn & Hd & Hf). pose proof (g_names_hd _ _ Hn) as Hnd. pose proof (owner_f f u Hnd) as Ho.
    match goal with H : remove _ _ = _ |- _ => rename H into Hrm end. unfold remove in Hrm.
    destruct (fs_files s !! [f; "temp"; u]) as [c|] eqn:Ec.
    2: { rewrite is_dir_false in Hrm by (apply layout_not_dir; [done|by eexists]). discriminate Hrm. }
    injection Hrm as <-. apply NoDup_cons in Hf as [_ Hf].
    split; [|split; [done|split; [done|]]].
    + apply layout_files; [done|]. intros p Hp. left. by apply lookup_delete_is_Some in Hp as [_ ?].
    + intros p _ Hp. cbn. rewrite lookup_delete_ne; [done|]. intros <-. congruence.
  - split; [done|]. split; [|done]. destruct Hw as (Hn & _). by eapply g_names_tl.
  - done.
  - done.
  - done.
  - done.
Qed.
Lemma g_wf_frame g s s' : g_wf g s -> fs_dirs s ⊆ fs_dirs s' -> (forall p, owner p = Some OI -> fs_files s' !! p = fs_files s !! p) -> g_wf g s'.
Proof.
  unfold g_wf. intros Hw Hd Hf. destruct (m_pc g) as [| | | | | |f fs files td b pc| |]; try done; destruct Hw as [Hn Hw]; (split; [done|]); try (destruct Hw as [Hx Hw]; split; [by auto|done]); auto.
  destruct Hw as (Hx & Hy & Hok). split; [auto|]. split; [done|]. destruct (index_names f (g_names_hd _ _ Hn)) as (O1 & O2 & O3).
  unfold ss_ok in *. destruct pc; try done; rewrite ?(Hf _ O1), ?(Hf _ O2), ?(Hf _ O3); done.
Qed.
Lemma g_start_wf s g : g_start s g -> g_wf g s.
Proof.
  intros H. inversion H as [ns [Hn Hd]]; subst. cbn. split; [done|]. apply Forall_forall. intros n Hin. by apply Hd in Hin as [_ ?].
Qed.
