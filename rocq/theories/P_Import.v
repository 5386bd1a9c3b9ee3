(** Lemmas for C67. *)
From Verif Require Import Base M_Text M_Field S_Field M_Memory S_Memory M_Num M_FanIn M_Search M_Standard M_Server S_View S_Search S_Server S_Import M_Import
  P_Base P_Field P_FieldExtra P_Memory P_Memory2 P_Search P_Search2 P_Standard P_Server.

Lemma std_found N ncpu v qs s rs : fields_pointwise v ->
  rtc (std_step N ncpu v qs) (std_init N qs) s -> std_returns N s rs ->
  forall d, d ∈ rs.*1 <-> exists q, q ∈ qs /\ matches v (q_terms q) (q_field q) d = true /\ is_Some (v_fields v [d] (q_field q) !! d).
Proof.
  intros Hv Hs Hr d. destruct (std_result N ncpu v Hv _ _ _ Hs Hr) as (qs' & Hp & Hn & He & _).
  assert (contributions N v qs' d <> [] <-> contributions N v qs d <> []) as Hq.
  { unfold contributions. rewrite !omap_nonnil. by setoid_rewrite Hp. }
  transitivity (contributions N v qs d <> []).
  - rewrite <- Hq. rewrite elem_of_list_fmap. split.
    + intros ([d' x] & -> & Hin). cbn. by apply He in Hin as [? _].
    + intros H. exists (d, sum_num N (contributions N v qs' d)). split; [done|]. by apply He.
  - unfold contributions. rewrite omap_nonnil. split; intros (q & H1 & H2); exists q; (split; [done|]).
    + destruct H2 as [x H2]. unfold contribution in H2. destruct (matches v (q_terms q) (q_field q) d); [|discriminate H2].
      destruct (v_fields v [d] (q_field q) !! d) eqn:E; [|discriminate H2]. split; [done|]. by eexists.
    + destruct H2 as [H2 [x H3]]. unfold contribution. rewrite H2, H3. by eexists.
Qed.

Section import.
  Context {num : Type}.
  Variables (decode : string -> option (list (string * json num))) (fmt_num : num -> string).
  Variables (is_letter is_number : Z -> bool) (to_lower stem fold : string -> string).
  Notation one := (import_one decode fmt_num is_letter is_number to_lower stem fold).
  Notation all := (imported decode fmt_num is_letter is_number to_lower stem fold).
  Notation tm := (terms_of is_letter is_number to_lower stem fold).

  Lemma one_calls document id calls : one document id calls -> exists obs kvs, decode document = Some obs /\ same_object obs kvs /\
    forall c, c ∈ calls <-> exists f v, flatten kvs !! f = Some v /\ c = Save id (posted_field f (tm (sprint fmt_num v))).
  Proof.
    intros [doc obs kvs r1 r2 id' uuid fields Hd Hs _ _ H2 Hf]. exists obs, kvs. split; [done|]. split; [done|]. intros c.
    unfold index_document. rewrite elem_of_list_In, in_map_iff. split.
    - intros (x & <- & Hx). apply elem_of_list_In, elem_of_list_lookup in Hx as [i Hx].
      destruct (Forall2_lookup_r _ _ _ _ _ Hf Hx) as ([f v] & Hk & r & Hp & ->). apply preprocess_terms in Hp as ->.
      apply elem_of_list_lookup_2 in Hk. rewrite H2 in Hk. apply elem_of_map_to_list in Hk. exists f, v. done.
    - intros (f & v & Hfv & ->). apply elem_of_map_to_list in Hfv. rewrite <- H2 in Hfv. apply elem_of_list_lookup in Hfv as [i Hi].
      destruct (Forall2_lookup_l _ _ _ _ _ Hf Hi) as (x & Hx & r & Hp & ->). apply preprocess_terms in Hp as ->.
      eexists. split; [reflexivity|]. apply elem_of_list_In. by eapply elem_of_list_lookup_2.
  Qed.

  (** Which calls an import makes. *)
  Lemma all_calls docs calls : all docs calls -> forall c, c ∈ calls -> exists document id obs p v,
    (document, id) ∈ docs /\ decode document = Some obs /\ leaf_at obs p v /\ c = Save id (posted_field (dotted (strip_empty p)) (tm (sprint fmt_num v))).
  Proof.
    induction 1 as [|document id calls docs rest H1 _ IH]; intros c Hc; [by apply elem_of_nil in Hc|].
    apply elem_of_app in Hc as [Hc|Hc].
    - destruct (one_calls _ _ _ H1) as (obs & kvs & Hd & Hs & Hall). apply Hall in Hc as (f & v & Hf & ->).
      destruct (flatten_some_leaf num kvs) as [F _]. destruct (F f v Hf) as (p & Hp & <-). exists document, id, obs, p, v.
      split; [left|]. split; [done|]. split; [|done]. by apply (same_object_leaf _ _ Hs).
    - destruct (IH c Hc) as (document' & id' & obs & p & v & H2 & H3). exists document', id', obs, p, v. split; [by right|done].
  Qed.
  Lemma all_saves docs calls : all docs calls -> forall c, c ∈ calls -> exists d x, c = Save d x.
  Proof. intros H c Hc. destruct (all_calls _ _ H c Hc) as (? & ? & ? & ? & ? & _ & _ & _ & ->). eauto. Qed.
  Lemma usual_strip (o : list (string * json num)) p v : usual_keys o -> leaf_at o p v -> strip_empty p = p.
  Proof.
    intros [_ H] Hl. destruct (H p v Hl) as [_ Hh]. destruct p as [|k p]; [done|]. apply strip_empty_id. intros ->. by apply Hh.
  Qed.
  Lemma all_calls_back docs calls : all docs calls -> forall document id obs p v,
    (document, id) ∈ docs -> decode document = Some obs -> usual_keys obs -> leaf_at obs p v ->
    Save id (posted_field (dotted p) (tm (sprint fmt_num v))) ∈ calls.
  Proof.
    induction 1 as [|document id calls docs rest H1 _ IH]; intros document' id' obs p v Hin Hd Hu Hl; [by apply elem_of_nil in Hin|].
    apply elem_of_app. apply elem_of_cons in Hin as [[= -> ->]|Hin]; [left|right; by eapply IH].
    destruct (one_calls _ _ _ H1) as (obs' & kvs & Hd' & Hs & Hall). rewrite Hd in Hd'. injection Hd' as <-. apply Hall.
    destruct Hu as [Hw Hk]. exists (dotted p), v. split; [|done].
    rewrite <- (flatten_order_independent _ _ Hw Hs Hk). apply (flatten_exact _ Hw Hk). by exists p.
  Qed.

  Lemma found_after_import N ncpu docs calls m qs s rs d : all docs calls -> mem_run mem_new calls m ->
    (forall document id obs, (document, id) ∈ docs -> decode document = Some obs -> usual_keys obs) ->
    rtc (std_step N ncpu (mem_view m) qs) (std_init N qs) s -> std_returns N s rs ->
    d ∈ rs.*1 <-> exists q document obs p v t, q ∈ qs /\ (document, d) ∈ docs /\ decode document = Some obs /\
      leaf_at obs p v /\ dotted p = q_field q /\ t ∈ tm (sprint fmt_num v) /\ t ∈ q_terms q.
  Proof.
    intros Ha Hrun Hu Hs Hr. rewrite (std_found N ncpu _ qs s rs (mem_view_pointwise m) Hs Hr d). split.
    - intros (q & Hq & Hm & _). apply (mem_matches calls m _ _ _ Hrun) in Hm as (t & c & Ht & Hc & Hd & Hff & Hht).
      destruct (all_calls _ _ Ha c Hc) as (document & id & obs & p & v & Hin & Hdec & Hl & ->).
      cbn in Hd. subst id. unfold for_field in Hff. apply String.eqb_eq in Hff. cbn [call_field posted_field f_name] in Hff.
      rewrite (usual_strip obs p v) in Hff by eauto.
      exists q, document, obs, p, v, t. split; [done|]. split; [done|]. split; [done|]. split; [done|]. split; [done|]. split; [|done].
      exact (proj1 (P_Server.posted_has to_lower stem fold (fun _ => None) _ _ _ _ t eq_refl) Hht).
    - intros (q & document & obs & p & v & t & Hq & Hin & Hdec & Hl & Hf & Ht & Htq).
      pose proof (all_calls_back _ _ Ha _ _ _ _ _ Hin Hdec (Hu _ _ _ Hin Hdec) Hl) as Hc.
      exists q. split; [done|]. split.
      + apply (mem_matches calls m _ _ _ Hrun). eexists t, _. split; [done|]. split; [exact Hc|]. split; [done|].
        split; [unfold for_field; cbn; rewrite Hf; apply String.eqb_refl|]. by apply (proj2 (P_Server.posted_has to_lower stem fold (fun _ => None) _ _ _ _ t eq_refl)).
      + rewrite (mem_view_field calls m (q_field q) d Hrun). apply last_saved_some. eexists. split; [exact Hc|]. split; [done|]. split; [done|].
        unfold for_field. cbn. rewrite Hf. apply String.eqb_refl.
  Qed.
  Lemma found_only_imported N ncpu docs calls m qs s rs d : all docs calls -> mem_run mem_new calls m ->
    rtc (std_step N ncpu (mem_view m) qs) (std_init N qs) s -> std_returns N s rs ->
    d ∈ rs.*1 -> exists q document obs p v t, q ∈ qs /\ (document, d) ∈ docs /\ decode document = Some obs /\
      leaf_at obs p v /\ dotted (strip_empty p) = q_field q /\ t ∈ tm (sprint fmt_num v) /\ t ∈ q_terms q.
  Proof.
    intros Ha Hrun Hs Hr. rewrite (std_found N ncpu _ qs s rs (mem_view_pointwise m) Hs Hr d).
    intros (q & Hq & Hm & _). apply (mem_matches calls m _ _ _ Hrun) in Hm as (t & c & Ht & Hc & Hd & Hff & Hht).
    destruct (all_calls _ _ Ha c Hc) as (document & id & obs & p & v & Hin & Hdec & Hl & ->).
    cbn in Hd. subst id. unfold for_field in Hff. apply String.eqb_eq in Hff. cbn [call_field posted_field f_name] in Hff.
    exists q, document, obs, p, v, t. repeat (split; [done|]). split; [|done]. exact (proj1 (P_Server.posted_has to_lower stem fold (fun _ => None) _ _ _ _ t eq_refl) Hht).
  Qed.

  (** The id. *)
  Lemma one_id document id calls obs : one document id calls -> decode document = Some obs -> usual_keys obs ->
    (forall s, ("Id"%string, JString s) ∈ obs -> s <> "" -> id = s) /\
    (forall v, ("Id"%string, v) ∈ obs -> is_object v = false -> (forall s, v <> JString s) -> (forall l, v <> JArray l) -> id = sprint fmt_num v).
  Proof.
    intros [doc obs' kvs r1 r2 id' uuid fields Hd Hs H1 Hid _ _] Hd' [Hw Hk]. rewrite Hd in Hd'. injection Hd' as ->.
    assert (forall v, ("Id"%string, v) ∈ obs -> is_object v = false -> get_id fmt_num r1 = sprint fmt_num v) as G.
    { intros v Hv Ho. apply get_id_present.
      - rewrite H1. apply NoDup_fst_map_to_list.
      - rewrite H1. apply elem_of_map_to_list. rewrite <- (flatten_order_independent _ _ Hw Hs Hk). apply (flatten_exact _ Hw Hk).
        exists ["Id"%string]. split; [by constructor|done]. }
    split.
    - intros s Hv Hne. rewrite Hid. cbv zeta. rewrite (G (JString s)) by done. cbn. by destruct (String.eqb_spec s "").
    - intros v Hv Ho Hn1 Hn2. rewrite Hid. cbv zeta. rewrite (G v) by done. destruct (String.eqb_spec (sprint fmt_num v) "") as [E|E]; [|done].
      exfalso. destruct v as [| | |s0| |]; cbn in E; try discriminate E. by apply (Hn1 s0).
  Qed.
  Lemma all_one docs calls : all docs calls -> forall document id, (document, id) ∈ docs -> exists calls', one document id calls'.
  Proof.
    induction 1 as [|document id calls docs rest H1 _ IH]; intros document' id' Hin; [by apply elem_of_nil in Hin|].
    apply elem_of_cons in Hin as [[= -> ->]|Hin]; [by exists calls|by apply IH].
  Qed.
End import.

Lemma same_object_refl {num} : forall o : list (string * json num), same_object o o.
Proof.
  assert (forall n (o : list (string * json num)), (osize o < n)%nat -> same_entries o o) as H.
  { induction n as [|n IH]; intros o Hn; [lia|]. assert (forall l, (forall k w, (k, w) ∈ l -> (k, w) ∈ o) -> same_entries l l) as G.
    { induction l as [|[k w] l IHl]; intros Hl; [constructor|]. pose proof (IHl ltac:(intros ? ? Hx; apply Hl; by right)) as Ht.
      pose proof (osize_elem k w o (Hl k w ltac:(left))) as Hs.
      destruct w as [| | | | |o']; try (constructor; [done|exact Ht]).
      rewrite jsize_obj in Hs. apply same_obj; [|exact Ht]. apply (same_perm _ o'); [|done]. apply IH. lia. }
    by apply G. }
  intros o. apply (same_perm _ o); [|done]. apply (H (S (osize o))). lia.
Qed.
(** Every document that can be decoded can be imported. *)
Lemma one_exists {num} (decode : string -> option (list (string * json num))) fmt_num is_letter is_number to_lower stem fold document obs uuid :
  decode document = Some obs -> exists id calls, import_one decode fmt_num is_letter is_number to_lower stem fold document id calls /\
    (id = uuid \/ id = get_id fmt_num (map_to_list (flatten obs))).
Proof.
  intros Hd. set (r := map_to_list (flatten obs)).
  assert (exists fields, Forall2 (import_field fmt_num is_letter is_number to_lower stem fold) r fields) as [fields Hf].
  { induction r as [|kv r [fs IH]]; [by exists []|]. exists (posted_field kv.1 (terms_of is_letter is_number to_lower stem fold (sprint fmt_num kv.2)) :: fs). constructor; [|done].
    eexists. split; [by apply preprocess_terms|done]. }
  eexists _, _. split.
  - eapply (import_one_intro decode fmt_num is_letter is_number to_lower stem fold document obs obs r r _ uuid); [done|apply same_object_refl|done|reflexivity|done|exact Hf].
  - cbv zeta. destruct (String.eqb _ _); [by left|by right].
Qed.

(** * The calls made for one document *)
Section one.
  Context {num : Type}.
  Variables (decode : string -> option (list (string * json num))) (fmt_num : num -> string).
  Variables (is_letter is_number : Z -> bool) (to_lower stem fold : string -> string).
  Notation one := (import_one decode fmt_num is_letter is_number to_lower stem fold).
  Notation all := (imported decode fmt_num is_letter is_number to_lower stem fold).
  Notation tm := (terms_of is_letter is_number to_lower stem fold).
  Notation pf f v := (posted_field f (tm (sprint fmt_num v))).

  Lemma one_map document id calls : one document id calls -> exists obs kvs r2, decode document = Some obs /\ same_object obs kvs /\ r2 ≡ₚ map_to_list (flatten kvs) /\
    calls = map (fun kv : string * json num => Save id (pf kv.1 kv.2)) r2.
  Proof.
    intros [doc obs kvs r1 r2 id' uuid fields Hd Hs _ _ H2 Hf]. exists obs, kvs, r2. split; [done|]. split; [done|]. split; [done|]. unfold index_document.
    clear H2. induction Hf as [|kv x r2 fields (r & Hp & ->) _ IH]; [done|]. cbn [map]. rewrite IH. apply preprocess_terms in Hp as ->. done.
  Qed.
  Lemma calls_for_map f id (r : list (string * json num)) : NoDup r.*1 ->
    calls_for f (map (fun kv : string * json num => Save id (pf kv.1 kv.2)) r) =
    match list_find (fun kv : string * json num => kv.1 = f) r with Some (_, kv) => [Save id (pf f kv.2)] | None => [] end.
  Proof.
    induction r as [|[k v] r IH]; [done|]. cbn [fmap list_fmap fst]. intros [Hn Hd]%NoDup_cons. unfold calls_for in *. cbn [map List.filter]. unfold for_field at 1. cbn [call_field posted_field f_name fst snd list_find].
    destruct (String.eqb_spec k f) as [->|Hk].
    - rewrite decide_True by done. cbn. rewrite IH by done. destruct (list_find (fun kv : string * json num => kv.1 = f) r) as [[i kv]|] eqn:E; [|done].
      exfalso. apply list_find_Some in E as (E1 & E2 & _). apply Hn. rewrite <- E2. apply elem_of_list_fmap_1. by eapply elem_of_list_lookup_2.
    - rewrite decide_False by done. rewrite IH by done. by destruct (list_find (fun kv : string * json num => kv.1 = f) r) as [[i kv]|].
  Qed.
  Lemma one_field f document id calls obs o : one document id calls -> decode document = Some obs -> usual_keys obs -> in_field decode fmt_num tm f (document, id) o ->
    calls_for f calls = match o with Some ts => [Save id (posted_field f ts)] | None => [] end.
  Proof.
    intros H Hd [Hw Hk] Ho. destruct (one_map _ _ _ H) as (obs' & kvs & r2 & Hd' & Hs & Hr & ->). rewrite Hd in Hd'. injection Hd' as <-.
    assert (NoDup r2.*1) as Hn by (rewrite Hr; apply NoDup_fst_map_to_list). rewrite (calls_for_map f id r2 Hn).
    assert (forall v, (f, v) ∈ r2 <-> exists p, leaf_at obs p v /\ dotted p = f) as Hin.
    { intros v. rewrite Hr, elem_of_map_to_list, <- (flatten_order_independent _ _ Hw Hs Hk). apply (flatten_exact _ Hw Hk). }
    specialize (Ho obs Hd). destruct (list_find (fun kv : string * json num => kv.1 = f) r2) as [[i [k v]]|] eqn:E.
    - apply list_find_Some in E as (E1 & E2 & _). cbn in E2. subst k. apply elem_of_list_lookup_2 in E1. apply Hin in E1 as (p & Hp & Hf). destruct o as [ts|].
      + destruct Ho as (p' & v' & Hp' & Hf' & ->). destruct (one_entry_per_leaf num obs Hw Hk p p' v v' Hp Hp') as [_ ->]; [congruence|done].
      + exfalso. by apply (Ho p v).
    - destruct o as [ts|]; [|done]. destruct Ho as (p & v & Hp & Hf & _). exfalso. apply list_find_None in E. rewrite Forall_forall in E.
      apply (E (f, v)); [|done]. apply Hin. by exists p.
  Qed.
  Lemma all_field f docs calls os : all docs calls -> (forall document id obs, (document, id) ∈ docs -> decode document = Some obs -> usual_keys obs) ->
    Forall2 (in_field decode fmt_num tm f) docs os ->
    count (calls_for f calls) = Z.of_nat (length (omap id os)) /\
    total_length (calls_for f calls) = foldr Z.add 0 (map (fun ts : list string => Z.of_nat (length ts)) (omap id os)).
  Proof.
    intros H. revert os. induction H as [|document i calls docs rest H1 _ IH]; intros os Hu Hos; inversion Hos as [|? o ? os' H3 H4]; subst; [done|].
    destruct (IH os') as [I1 I2]; [intros; eapply Hu; [by right|done]|done|].
    destruct (one_map _ _ _ H1) as (obs & kvs & r2 & Hd & _). pose proof (one_field f _ _ _ obs o H1 Hd (Hu _ _ _ (elem_of_list_here _ _) Hd) H3) as E.
    rewrite calls_for_app, E. unfold count in *. rewrite app_length. destruct o as [ts|]; cbn [omap list_omap app Datatypes.id length]; [|done].
    cbn [map foldr total_length fold_right]. fold (total_length (calls_for f rest)). cbn [call_field posted_field f_length]. lia.
  Qed.
  Lemma all_split docs calls d : all docs calls -> NoDup docs.*2 -> d ∈ docs.*2 -> exists document cA cD cB, (document, d) ∈ docs /\ calls = cA ++ cD ++ cB /\ one document d cD /\
    (forall y, Save d y ∉ cA) /\ (forall y, Save d y ∉ cB).
  Proof.
    induction 1 as [|document i calls docs rest H1 H2 IH]; cbn [fmap list_fmap snd]; intros Hn Hin; [by apply elem_of_nil in Hin|]. apply NoDup_cons in Hn as [Hn Hd].
    apply elem_of_cons in Hin as [->|Hin].
    - exists document, [], calls, rest. split; [left|]. split; [done|]. split; [done|]. split; [intros y Hy; by apply elem_of_nil in Hy|]. intros y Hy.
      destruct (all_calls _ _ _ _ _ _ _ _ _ H2 _ Hy) as (document' & id' & obs & p & v & Hi & _ & _ & E). injection E as E _. subst id'. apply Hn. by apply (elem_of_list_fmap_1 snd) in Hi.
    - destruct (IH Hd Hin) as (document' & cA & cD & cB & E1 & -> & E3 & E4 & E5). exists document', (calls ++ cA), cD, cB. split; [by right|]. split; [by rewrite <- app_assoc|]. split; [done|]. split; [|done].
      intros y [Hy|Hy]%elem_of_app; [|by apply (E4 y)]. destruct (one_calls _ _ _ _ _ _ _ _ _ _ H1) as (obs & kvs & _ & _ & Hall). apply Hall in Hy as (f & v & _ & E). injection E as E _. subst i. done.
  Qed.
  Lemma one_saves document id calls : one document id calls -> forall c, c ∈ calls -> exists x, c = Save id x.
  Proof. intros H c Hc. destruct (one_calls _ _ _ _ _ _ _ _ _ _ H) as (obs & kvs & _ & _ & Hall). apply Hall in Hc as (f & v & _ & ->). eauto. Qed.
End one.
