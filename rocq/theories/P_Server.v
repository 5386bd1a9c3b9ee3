(** Proofs about the HTTP handlers. *)
From Verif Require Import Base M_Text M_Language M_Field M_Memory M_Num M_NumR M_FanIn M_Search M_Standard M_Server
  S_Memory S_View S_Search S_BM25 S_Server P_Base P_Text P_TextExtra P_Memory P_Memory2 P_Search P_Standard P_Search2.

Section server.
  Variables (is_letter is_number : Z -> bool) (to_lower stem fold : string -> string).
  Notation pre := (preprocess is_letter is_number to_lower stem fold).
  Notation tm := (terms_of is_letter is_number to_lower stem fold).

  Lemma preprocess_terms text r : pre text r <-> r = tm text.
  Proof.
    unfold preprocess. split.
    - intros [h H]. by apply preprocessing_function in H.
    - intros ->. exists ∅. by apply preprocessing_function.
  Qed.

  Lemma contributions_get N v terms d : contributions N v (get_queries N terms) d <> [] <-> in_title_or_text v terms d.
  Proof.
    unfold contributions, get_queries, in_title_or_text. cbn [omap list_omap q_terms q_field].
    unfold contribution. cbn [q_terms q_field]. split.
    - intros H. destruct (matches v terms "title" d) eqn:E1.
      + destruct (v_fields v [d] "title" !! d) eqn:E2; [exists "title"; eauto|].
        destruct (matches v terms "text" d) eqn:E3; [|done].
        destruct (v_fields v [d] "text" !! d) eqn:E4; [exists "text"; eauto|done].
      + destruct (matches v terms "text" d) eqn:E3; [|done].
        destruct (v_fields v [d] "text" !! d) eqn:E4; [exists "text"; eauto|done].
    - intros (f & [-> | ->] & Hm & [x Hx]); rewrite Hm, Hx; [discriminate|].
      destruct (matches v terms "title" d); [|discriminate].
      destruct (v_fields v [d] "title" !! d); discriminate.
  Qed.

  Lemma omap_nonnil {A B} (g : A -> option B) l : omap g l <> [] <-> exists a, a ∈ l /\ is_Some (g a).
  Proof.
    split.
    - intros H. destruct (omap g l) as [|b r] eqn:E; [done|].
      assert (b ∈ omap g l) as Hb by (rewrite E; left). apply elem_of_list_omap in Hb as (a & Ha & Hg). eauto.
    - intros (a & Ha & [b Hb]) E. assert (b ∈ omap g l) as Hin by (apply elem_of_list_omap; eauto).
      rewrite E in Hin. by apply elem_of_nil in Hin.
  Qed.

  Lemma get_ids N ncpu v terms s rs : fields_pointwise v ->
    rtc (std_step N ncpu v (get_queries N terms)) (std_init N (get_queries N terms)) s -> std_returns N s rs ->
    NoDup rs.*1 /\ forall d, d ∈ rs.*1 <-> in_title_or_text v terms d.
  Proof.
    intros Hv Hs Hr. destruct (std_result N ncpu v Hv _ _ _ Hs Hr) as (qs' & Hp & Hn & He & _).
    split; [done|]. intros d. rewrite <- (contributions_get N).
    assert (contributions N v qs' d <> [] <-> contributions N v (get_queries N terms) d <> []) as Hq.
    { unfold contributions. rewrite !omap_nonnil. by setoid_rewrite Hp. }
    rewrite <- Hq. rewrite elem_of_list_fmap. split.
    - intros ([d' x] & -> & Hin). cbn. by apply He in Hin as [? _].
    - intros H. exists (d, sum_num N (contributions N v qs' d)). split; [done|]. by apply He.
  Qed.

  Lemma get_count N ncpu v terms s rs ds : fields_pointwise v ->
    rtc (std_step N ncpu v (get_queries N terms)) (std_init N (get_queries N terms)) s -> std_returns N s rs ->
    all_matching v terms ds -> length rs = length ds.
  Proof.
    intros Hv Hs Hr [Hn He]. destruct (get_ids _ _ _ _ _ _ Hv Hs Hr) as [Hn' He'].
    transitivity (length rs.*1); [by rewrite fmap_length|]. apply Permutation_length. apply NoDup_Permutation; [done|done|].
    intros d. by rewrite He, He'.
  Qed.

  Lemma map_pair_id {A B} (l : list (A * B)) : map (fun s => (s.1, s.2)) l = l.
  Proof. induction l as [|[a b] l IH]; cbn; congruence. Qed.

  Lemma get_cases N ncpu v text a ds : fields_pointwise v -> get is_letter is_number to_lower stem fold N ncpu v text a ->
    all_matching v (tm text) ds ->
    (length ds = 0%nat -> a = Answer 200 (mkRes 0 [])) /\
    ((1 <= length ds <= 9)%nat -> a = Panic) /\
    ((10 <= length ds)%nat -> exists rs, a = Answer 200 (mkRes 10 rs)).
  Proof.
    intros Hv (terms & s & rs & Hp & Hs & Hr & ->) Hd. apply preprocess_terms in Hp as ->.
    rewrite <- (get_count _ _ _ _ _ _ _ Hv Hs Hr Hd). unfold get_answer. rewrite map_length.
    destruct (Nat.eqb_spec (length rs) 0) as [E|E].
    - rewrite E. split; [done|]. split; lia.
    - split; [lia|]. destruct (Nat.ltb_spec (length rs) 10).
      + split; [done|lia].
      + split; [lia|]. eauto.
  Qed.

  Lemma sorted_take_best (l : list (string * R)) n :
    (forall i j a b, (i < j)%nat -> l !! i = Some a -> l !! j = Some b -> (a.2 >= b.2)%R) ->
    forall a b, a ∈ take n l -> b ∈ l -> b ∉ take n l -> (a.2 >= b.2)%R.
  Proof.
    intros H a b Ha Hb Hnb. apply elem_of_list_lookup in Ha as [i Hi]. apply elem_of_list_lookup in Hb as [j Hj].
    assert (i < n)%nat as Hin.
    { apply lookup_lt_Some in Hi. rewrite take_length in Hi. lia. }
    rewrite lookup_take in Hi by done. destruct (decide (j < n)%nat) as [Hjn|Hjn].
    - exfalso. apply Hnb. apply elem_of_list_lookup. exists j. by rewrite lookup_take.
    - eapply H; [|done|done]. lia.
  Qed.

  Lemma take_ten {A} (l : list A) : (10 <= length l)%nat -> length (take 10 l) = 10%nat.
  Proof. intros. rewrite take_length. lia. Qed.
  Lemma get_ten_best ncpu v text rs : fields_pointwise v ->
    get is_letter is_number to_lower stem fold real_ops ncpu v text (Answer 200 (mkRes 10 rs)) ->
    length rs = 10%nat /\ NoDup rs.*1 /\
    (forall d x, (d, x) ∈ rs -> in_title_or_text v (tm text) d /\
       x = rsum (contributions real_ops v (get_queries real_ops (tm text)) d)) /\
    (forall i j a b, (i < j)%nat -> rs !! i = Some a -> rs !! j = Some b -> (a.2 >= b.2)%R) /\
    (forall d x e, (d, x) ∈ rs -> in_title_or_text v (tm text) e -> e ∉ rs.*1 ->
       (x >= rsum (contributions real_ops v (get_queries real_ops (tm text)) e))%R).
  Proof.
    intros Hv (terms & s & all & Hp & Hs & Hr & Ha). apply preprocess_terms in Hp as ->.
    unfold get_answer in Ha. destruct (Nat.eqb_spec (length all) 0) as [E0|E0]; [rewrite E0 in Ha; discriminate|].
    destruct (Nat.ltb_spec (length (map (fun s0 : doc_score real_ops => (s0.1, s0.2)) all)) 10) as [Hl|Hl]; [discriminate|].
    rewrite map_length in Hl. assert (map (fun s0 : doc_score real_ops => (s0.1, s0.2)) all = all) as Em by apply map_pair_id. rewrite Em in Ha. injection Ha as ->.
    destruct (std_real_result _ _ _ _ _ Hv Hs Hr) as (Hn & He & Hso).
    destruct (get_ids _ _ _ _ _ _ Hv Hs Hr) as [_ Hi].
    assert (forall d x, (d, x) ∈ take 10 all -> (d, x) ∈ all) as Hin.
    { intros d x H. apply elem_of_list_lookup in H as [i H]. apply elem_of_list_lookup. exists i.
      rewrite lookup_take in H; [done|]. apply lookup_lt_Some in H. rewrite take_length in H. lia. }
    split; [by apply take_ten|]. split.
    { rewrite fmap_take. rewrite <- (take_drop 10 all.*1) in Hn. by apply NoDup_app in Hn as [? _]. }
    split.
    { intros d x H. apply Hin in H. split.
      - apply Hi. apply elem_of_list_fmap. exists (d, x). done.
      - by apply He in H as [_ ?]. }
    split.
    { intros i j a b Hij Hi1 Hj1.
      assert (j < 10)%nat. { apply lookup_lt_Some in Hj1. rewrite take_length in Hj1. lia. }
      rewrite lookup_take in Hi1, Hj1 by lia. by apply (Hso i j). }
    intros d x e H Hm Hne. apply Hi in Hm. apply elem_of_list_fmap in Hm as ([e' y] & -> & Hy). cbn [fst] in *.
    pose proof (proj1 (He _ _) Hy) as [_ Ey]. rewrite <- Ey.
    apply (sorted_take_best all 10 Hso (d, x) (e', y)); [done|done|].
    intros Hc. apply Hne. apply elem_of_list_fmap. exists (e', y). done.
  Qed.

  Lemma get_full N ncpu v text a : fields_pointwise v -> get is_letter is_number to_lower stem fold N ncpu v text a ->
    exists ds, all_matching v (tm text) ds /\
    (length ds = 0%nat -> a = Answer 200 (mkRes 0 [])) /\
    ((1 <= length ds <= 9)%nat -> a = Panic) /\
    ((10 <= length ds)%nat -> exists rs, a = Answer 200 (mkRes 10 rs) /\ length rs = 10%nat /\ NoDup rs.*1 /\
       forall d, d ∈ rs.*1 -> d ∈ ds).
  Proof.
    intros Hv H. pose proof H as (terms & s & rs & Hp & Hs & Hr & Ha). apply preprocess_terms in Hp as ->.
    assert (all_matching v (tm text) rs.*1) as Hm by (destruct (get_ids _ _ _ _ _ _ Hv Hs Hr); done).
    exists rs.*1. split; [done|]. destruct (get_cases _ _ _ _ _ _ Hv H Hm) as (H0 & H1 & H2).
    split; [done|]. split; [done|]. intros H3. specialize (H2 H3) as (l & E). exists l. split; [done|].
    rewrite Ha in E. unfold get_answer in E. destruct (Nat.eqb_spec (length rs) 0) as [E0|E0].
    { rewrite E0 in E. discriminate. }
    destruct (Nat.ltb_spec (length (map (fun s0 : doc_score N => (s0.1, s0.2)) rs)) 10) as [Hl|Hl]; [discriminate|].
    rewrite map_length in Hl. assert (map (fun s0 : doc_score N => (s0.1, s0.2)) rs = rs) as Em by apply map_pair_id.
    rewrite Em in E. injection E as <-. split; [by apply take_ten|]. destruct Hm as [Hn _]. split.
    - rewrite fmap_take. rewrite <- (take_drop 10 rs.*1) in Hn. by apply NoDup_app in Hn as [? _].
    - intros d Hd. rewrite fmap_take in Hd. rewrite <- (take_drop 10 rs.*1). apply elem_of_app. by left.
  Qed.
  Lemma get_exists N ncpu v text : (0 < ncpu)%nat -> fields_pointwise v ->
    exists a, get is_letter is_number to_lower stem fold N ncpu v text a.
  Proof.
    intros Hc Hv. destruct (std_completes N ncpu v Hc Hv (get_queries N (tm text))) as (s & rs & Hs & Hr).
    exists (get_answer N rs), (tm text), s, rs. split; [by apply preprocess_terms|]. done.
  Qed.

  (** C38 *)
  Variable bind : string -> option document.
  Notation po := (post bind is_letter is_number to_lower stem fold).

  Definition calls_of (body : string) : list call :=
    match bind body with
    | Some d => if String.eqb (d_id d) "" then [] else
        [Save (d_id d) (posted_field "id" (tm (d_id d))); Save (d_id d) (posted_field "title" (tm (d_title d)));
         Save (d_id d) (posted_field "text" (tm (d_text d)))]
    | None => []
    end.
  Lemma post_calls body st calls : po body st calls -> calls = calls_of body.
  Proof.
    unfold calls_of, is_not_document_complete. intros [b H|b d H H1|b d p1 p2 p3 H H1 P1 P2 P3]; rewrite H; [done| |].
    - unfold is_not_document_complete in H1. by destruct (String.eqb (d_id d) "").
    - apply preprocess_terms in P1 as ->. apply preprocess_terms in P2 as ->. apply preprocess_terms in P3 as ->.
      unfold is_not_document_complete in H1. by destruct (String.eqb (d_id d) "").
  Qed.

  Lemma mem_run_app m h1 m1 h2 m2 : mem_run m h1 m1 -> mem_run m1 h2 m2 -> mem_run m (h1 ++ h2) m2.
  Proof. induction 1; cbn; [done|]. intros. econstructor; [done|auto]. Qed.

  Lemma server_run m bodies sts m' : mem_server po m bodies sts m' -> mem_run m (concat (map calls_of bodies)) m'.
  Proof.
    induction 1 as [m|m body st calls m1 bodies sts m2 Hp Hr _ IH]; cbn; [constructor|].
    apply post_calls in Hp as ->. by eapply mem_run_app.
  Qed.

  Lemma last_saved_some d f h : (exists c, c ∈ h /\ is_save c = true /\ call_doc c = d /\ for_field f c = true) ->
    is_Some (last_saved d f h).
  Proof.
    induction h as [|c h IH]; intros (c' & Hin & Hs & Hd & Hf); [by apply elem_of_nil in Hin|].
    cbn [last_saved]. destruct (last_saved d f h) eqn:E; [by eexists|].
    apply elem_of_cons in Hin as [->|Hin].
    - rewrite Hs, Hf, <- Hd, String.eqb_refl. cbn. by eexists.
    - destruct IH as [x Hx]; [by exists c'|discriminate].
  Qed.

  Definition shares (t : string) (text : string) : Prop := t ∈ tm text.

  Lemma term_frequency_key terms t : is_Some (term_frequency terms !! t) <-> t ∈ terms.
  Proof.
    unfold term_frequency. 
    assert (forall m : gmap string Z, is_Some (fold_left (fun m term => addi m term 1) terms m !! t) <-> is_Some (m !! t) \/ t ∈ terms) as H.
    { induction terms as [|u l IH]; intros m; cbn [fold_left].
      - rewrite elem_of_nil. tauto.
      - rewrite IH. unfold addi. rewrite lookup_insert_is_Some, elem_of_cons. 
        destruct (decide (u = t)) as [->|]; [|naive_solver]. naive_solver. }
    rewrite H, lookup_empty. split; [intros [[? ?]|?]; [discriminate|done]|by right].
  Qed.
  Lemma posted_has f terms c d t : c = Save d (posted_field f terms) -> has_term t c = true <-> t ∈ terms.
  Proof.
    intros ->. unfold has_term. cbn [call_field posted_field f_tf]. rewrite <- term_frequency_key.
    destruct (term_frequency terms !! t); split; intros H; [by eexists|done|done|by destruct H].
  Qed.

  Lemma search_after_posts N ncpu bodies sts m text s rs d :
    mem_server po mem_new bodies sts m ->
    rtc (std_step N ncpu (mem_view m) (get_queries N (tm text))) (std_init N (get_queries N (tm text))) s -> std_returns N s rs ->
    d ∈ rs.*1 <-> d <> "" /\ exists body x t, body ∈ bodies /\ bind body = Some x /\ d_id x = d /\ t ∈ tm text /\
      (t ∈ tm (d_title x) \/ t ∈ tm (d_text x)).
  Proof.
    intros Hserver Hs Hr.
    destruct (get_ids _ _ _ _ _ _ (mem_view_pointwise m) Hs Hr) as [_ Hi]. rewrite Hi. clear Hi Hs Hr.
    pose proof (server_run _ _ _ _ Hserver) as Hrun. set (h := concat (map calls_of bodies)) in *.
    assert (forall c, c ∈ h <-> exists body, body ∈ bodies /\ c ∈ calls_of body) as Hh.
    { intros c. unfold h. rewrite elem_of_list_In, in_concat. split.
      - intros (l & Hl & Hc). apply in_map_iff in Hl as (b & <- & Hb). exists b. rewrite !elem_of_list_In. done.
      - intros (b & Hb & Hc). exists (calls_of b). rewrite <- !elem_of_list_In. split; [|done].
        apply elem_of_list_In, in_map. by apply elem_of_list_In. }
    split.
    - intros (f & Hf & Hm & _). apply (mem_matches h m _ _ _ Hrun) in Hm as (t & c & Ht & Hc & Hd & Hff & Hht).
      apply Hh in Hc as (body & Hb & Hc). unfold calls_of in Hc.
      destruct (bind body) as [x|] eqn:Ex; [|by apply elem_of_nil in Hc].
      destruct (String.eqb_spec (d_id x) "") as [E|E]; [by apply elem_of_nil in Hc|].
      assert (d_id x = d) as Hid.
      { rewrite !elem_of_cons, elem_of_nil in Hc. by destruct Hc as [->|[->|[->|[]]]]. }
      split; [by rewrite <- Hid|]. exists body, x, t. split; [done|]. split; [done|]. split; [done|]. split; [done|].
      unfold for_field in Hff. apply String.eqb_eq in Hff.
      rewrite !elem_of_cons, elem_of_nil in Hc. destruct Hc as [->|[->|[->|[]]]]; cbn in Hff.
      + subst f. by destruct Hf.
      + left. eapply posted_has; [reflexivity|exact Hht].
      + right. eapply posted_has; [reflexivity|exact Hht].
    - intros (Hne & body & x & t & Hb & Hx & Hid & Ht & Hor).
      assert (exists f terms, (f = "title" \/ f = "text") /\ Save d (posted_field f terms) ∈ h /\ t ∈ terms) as (f & terms & Hf & Hc & Htt).
      { assert (calls_of body = [Save d (posted_field "id" (tm d)); Save d (posted_field "title" (tm (d_title x))); Save d (posted_field "text" (tm (d_text x)))]) as Ec.
        { unfold calls_of. rewrite Hx, Hid. by destruct (String.eqb_spec d ""). }
        destruct Hor as [Hor|Hor].
        - exists "title", (tm (d_title x)). split; [by left|]. split; [|done].
          apply Hh. exists body. split; [done|]. rewrite Ec. right. left.
        - exists "text", (tm (d_text x)). split; [by right|]. split; [|done].
          apply Hh. exists body. split; [done|]. rewrite Ec. right. right. left. }
      exists f. split; [done|]. split.
      + apply (mem_matches h m _ _ _ Hrun). exists t, (Save d (posted_field f terms)). split; [done|]. split; [done|].
        split; [done|]. split; [unfold for_field; cbn; apply String.eqb_refl|]. by eapply posted_has.
      + rewrite (mem_view_field h m f d Hrun). apply last_saved_some. exists (Save d (posted_field f terms)).
        split; [done|]. split; [done|]. split; [done|]. unfold for_field. cbn. apply String.eqb_refl.
  Qed.

  Lemma posts_status m bodies sts m' : mem_server po m bodies sts m' ->
    length sts = length bodies /\ forall i body st, bodies !! i = Some body -> sts !! i = Some st ->
      st = match bind body with Some x => if String.eqb (d_id x) "" then 400 else 201 | None => 400 end.
  Proof.
    induction 1 as [m|m body st calls m1 bodies sts m2 Hp Hr _ [IH1 IH2]]; [done|].
    split; [cbn; congruence|]. intros [|i] b s; cbn; [|apply IH2]. intros [= <-] [= <-].
    destruct Hp as [b H|b d H H1|b d p1 p2 p3 H H1 P1 P2 P3]; rewrite H; [done| |];
      unfold is_not_document_complete in H1; by destruct (String.eqb (d_id d) "").
  Qed.

  Lemma post_exists body : exists st, po body st (calls_of body).
  Proof.
    unfold calls_of. destruct (bind body) as [d|] eqn:E; [|eexists; by constructor].
    destruct (String.eqb_spec (d_id d) "") as [Hd|Hd].
    - eexists. eapply post_incomplete; [done|]. unfold is_not_document_complete. by rewrite Hd.
    - eexists. eapply (post_created _ _ _ _ _ _ body d); [done| | | |]; try by apply preprocess_terms.
      unfold is_not_document_complete. by destruct (String.eqb_spec (d_id d) "").
  Qed.
  Lemma rejected_changes_nothing m body st calls m' : po body st calls -> mem_run m calls m' -> st <> 201 -> m' = m.
  Proof. intros [b H|b d H H1|b d p1 p2 p3 H H1 P1 P2 P3] Hr Hst; [by inversion Hr|by inversion Hr|done]. Qed.
  (** What the storage holds after the posts. *)
  Definition doc_call (f : string) (d : document) : option call :=
    match part f d with Some x => Some (Save (d_id d) (posted_field f (tm x))) | None => None end.
  Lemma calls_for_app f h1 h2 : calls_for f (h1 ++ h2) = calls_for f h1 ++ calls_for f h2.
  Proof. unfold calls_for. apply List.filter_app. Qed.
  Lemma calls_for_posts f bodies : calls_for f (concat (map calls_of bodies)) = omap (doc_call f) (accepted bind bodies).
  Proof.
    induction bodies as [|b bodies IH]; [done|]. cbn [map concat]. rewrite calls_for_app, IH. unfold accepted. cbn [omap list_omap].
    unfold calls_of at 1. destruct (bind b) as [d|]; [|done]. destruct (String.eqb (d_id d) ""); [done|]. cbn [omap list_omap].
    unfold doc_call at 2, part, calls_for. cbn [List.filter]. unfold for_field. cbn [call_field posted_field f_name].
    rewrite !(String.eqb_sym _ f).
    destruct (String.eqb f "id") eqn:E1; [apply String.eqb_eq in E1 as ->; done|].
    destruct (String.eqb f "title") eqn:E2; [apply String.eqb_eq in E2 as ->; done|].
    destruct (String.eqb f "text") eqn:E3; [apply String.eqb_eq in E3 as ->; done|]. done.
  Qed.
  Lemma last_saved_calls_for d f h : last_saved d f (calls_for f h) = last_saved d f h.
  Proof.
    induction h as [|c h IH]; [done|]. unfold calls_for in *. cbn [List.filter last_saved]. destruct (for_field f c) eqn:E; cbn [last_saved]; rewrite IH.
    - by rewrite E.
    - rewrite andb_false_r. by destruct (last_saved d f h).
  Qed.
  Lemma saves_with_calls_for t f h : saves_with f t (calls_for f h) = saves_with f t h.
  Proof.
    unfold calls_for, saves_with. induction h as [|c h IH]; [done|]. cbn [List.filter]. destruct (for_field f c) eqn:E; cbn [List.filter]; rewrite IH.
    - by rewrite E.
    - rewrite andb_false_r. done.
  Qed.
  Lemma last_saved_posts d f ds : last_saved d f (omap (doc_call f) ds) =
    match latest d ds with Some e => option_map (fun x => posted_field f (tm x)) (part f e) | None => None end.
  Proof.
    induction ds as [|e ds IH]; [done|]. cbn [omap list_omap latest]. unfold doc_call at 1. destruct (part f e) as [x|] eqn:E.
    - cbn [last_saved]. rewrite IH. cbn [is_save call_doc call_field andb]. unfold for_field. cbn [call_field posted_field f_name]. rewrite String.eqb_refl, andb_true_r.
      destruct (latest d ds) as [e'|].
      + assert (is_Some (part f e')) as [x' ->]; [|done]. revert E. unfold part. repeat (destruct (String.eqb _ _); [by eexists|]). done.
      + destruct (String.eqb (d_id e) d); [by rewrite E|done].
    - rewrite IH. destruct (latest d ds); [done|]. destruct (String.eqb (d_id e) d); [by rewrite E|done].
  Qed.
  Lemma omap_doc_call f ds : is_Some (part f (mkDocument "" "" "")) -> exists g, (forall d, part f d = Some (g d)) /\ omap (doc_call f) ds = map (fun d => Save (d_id d) (posted_field f (tm (g d)))) ds.
  Proof.
    intros [x0 Hx]. assert (exists g, forall d, part f d = Some (g d)) as [g Hg].
    { revert Hx. unfold part. destruct (String.eqb f "id"); [by eexists|]. destruct (String.eqb f "title"); [by eexists|]. destruct (String.eqb f "text"); [by eexists|]. done. }
    exists g. split; [done|]. induction ds as [|d ds IH]; [done|]. cbn. unfold doc_call at 1. rewrite Hg. cbn. f_equal. exact IH.
  Qed.
  Lemma posts_statistics bodies sts m f : mem_server po mem_new bodies sts m -> f ∈ ["id"; "title"; "text"] ->
    let ds := accepted bind bodies in let terms := fun d => match part f d with Some x => tm x | None => [] end in
    mem_get_size m f = wrap64 (Z.of_nat (length ds)) /\
    mem_get_length m f = wrap64 (foldr Z.add 0 (map (fun d => Z.of_nat (length (terms d))) ds)) /\
    (forall t, mem_get_nft m f [t] !! t = Some (wrap64 (Z.of_nat (length (List.filter (fun d => bool_decide (t ∈ terms d)) ds))))) /\
    (forall d ids, d ∈ ids -> mem_get_fields m ids f !! d =
       match latest d ds with Some e => Some (mkField f (Z.of_nat (length (terms e))) (term_frequency (terms e))) | None => None end).
  Proof.
    intros Hs Hf ds terms. apply server_run in Hs.
    assert (is_Some (part f (mkDocument "" "" ""))) as Hp. { rewrite !elem_of_cons, elem_of_nil in Hf. destruct Hf as [-> |[-> |[-> |[]]]]; by eexists. }
    destruct (omap_doc_call f ds Hp) as (g & Hg & Eo). pose proof (calls_for_posts f bodies) as Ec. fold ds in Ec. rewrite Eo in Ec.
    assert (forall d, terms d = tm (g d)) as Et by (intros d; unfold terms; by rewrite Hg).
    split; [|split; [|split]].
    - rewrite (mem_size_exact _ _ _ Hs), Ec. unfold count. by rewrite map_length.
    - rewrite (mem_length_exact _ _ _ Hs), Ec. f_equal. clear - Et. unfold total_length. induction ds as [|d ds IH]; [done|]. cbn [map fold_right foldr]. rewrite <- IH, Et. done.
    - intros t. rewrite (mem_nft_exact _ _ _ _ _ Hs). rewrite decide_True by left. do 2 f_equal. unfold count.
      rewrite <- saves_with_calls_for, Ec. f_equal. clear - Et. unfold saves_with. induction ds as [|d ds IH]; [done|].
      cbn [map List.filter is_save andb].
      assert (for_field f (Save (d_id d) (posted_field f (tm (g d)))) = true) as -> by (unfold for_field; cbn; apply String.eqb_refl). cbn [andb].
      assert (has_term t (Save (d_id d) (posted_field f (tm (g d)))) = bool_decide (t ∈ terms d)) as ->.
      { apply eq_iff_eq_true. rewrite (posted_has f (tm (g d)) _ (d_id d) t eq_refl), bool_decide_eq_true. by rewrite Et. }
      destruct (bool_decide (t ∈ terms d)); cbn [length]; by rewrite IH.
    - intros d ids Hd. rewrite (mem_fields_exact _ _ _ _ _ Hs). rewrite decide_True by done. rewrite <- last_saved_calls_for, calls_for_posts. fold ds. rewrite last_saved_posts.
      destruct (latest d ds) as [e|]; [|done]. rewrite Hg. cbn. by rewrite Et.
  Qed.
End server.
