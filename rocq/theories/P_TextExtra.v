(** Glue lemmas for T_Text. *)
From Verif Require Import Base M_Language M_Text S_Text P_Base P_Utf8 P_Text.
#[local] Open Scope Z_scope.

Lemma rune_seq_text s cs : rune_seq s cs -> text_of cs = s.
Proof.
  induction 1 as [|r b rest cs He Hr IH|a rest cs Hno Hr IH]; [done| |].
  - change (text_of ((r, b) :: cs)) with (b +:+ text_of cs). by rewrite IH.
  - change (text_of ((replacement, String a EmptyString) :: cs))
      with (String a EmptyString +:+ text_of cs). by rewrite IH.
Qed.

Lemma tokenize_characterised is_letter is_number text :
  exists cs,
    rune_seq text cs /\ text_of cs = text /\ (forall cs', rune_seq text cs' -> cs' = cs) /\
    (forall toks, maximal_runs (word_rune is_letter is_number) cs toks
                  <-> toks = tokenize is_letter is_number text).
Proof.
  destruct (tokenize_maximal_runs is_letter is_number text) as (cs & Hcs & Hm).
  exists cs. split; [done|]. split; [by apply rune_seq_text|]. split.
  - intros cs' H. by eapply rune_seq_det.
  - intros toks. split; [|by intros ->]. intros H. by eapply maximal_runs_unique.
Qed.

Lemma tokens_and_concat is_letter is_number text cs : rune_seq text cs ->
  Forall (fun t => exists c, rune_seq t c /\ c <> [] /\
                   Forall (fun x => word_rune is_letter is_number x.1 = true) c)
         (tokenize is_letter is_number text) /\
  concat_strings (tokenize is_letter is_number text)
  = text_of (filter (fun c => word_rune is_letter is_number c.1 = true) cs).
Proof. intros H. split; [apply tokens_words|by apply tokenize_concat]. Qed.

Lemma lowercase_in_place to_lower h p h' q : lowercase_process to_lower h p = (h', q) ->
  q = p /\ slice_get h' p = map to_lower (slice_get h p) /\
  (forall r, r <> p -> h' !! r = h !! r).
Proof.
  rewrite lowercase_process_spec. intros E. injection E as <- <-.
  split; [done|]. split; [by rewrite slice_get_insert|].
  intros r Hr. by rewrite lookup_insert_ne.
Qed.

Lemma filters_pure words fold h p h' q :
  stopwords_process words h p = (h', q) \/ ascii_process fold h p = (h', q) ->
  h !! q = None /\ (forall r, is_Some (h !! r) -> h' !! r = h !! r).
Proof.
  intros [E|E].
  - unfold stopwords_process in E. apply slice_alloc_spec in E as (_ & H1 & H2). done.
  - rewrite ascii_process_spec in E. apply slice_alloc_spec in E as (_ & H1 & H2). done.
Qed.

Lemma stopwords_exact words h p h' q : stopwords_process words h p = (h', q) ->
  slice_get h' q = filter (fun w => words !! w <> Some true) (slice_get h p).
Proof.
  unfold stopwords_process. intros E. apply slice_alloc_spec in E as (H1 & _).
  by rewrite H1, stopwords_loop_spec.
Qed.

Lemma list_filter_idem {A} (P : A -> Prop) `{forall x, Decision (P x)} (l : list A) :
  filter P (filter P l) = filter P l.
Proof.
  induction l as [|x l IH]; [done|]. destruct (decide (P x)).
  - rewrite (filter_cons_True P x l) by done. rewrite filter_cons_True by done. by rewrite IH.
  - by rewrite (filter_cons_False P x l).
Qed.
Lemma stopwords_idempotent words text :
  stopwords_loop words (stopwords_loop words text) = stopwords_loop words text.
Proof. rewrite !stopwords_loop_spec. apply list_filter_idem. Qed.

Lemma list_to_map_true (l : list (string * bool)) w :
  forallb (fun p => p.2) l = true ->
  (list_to_map l : gmap string bool) !! w = Some true <-> In w (map fst l).
Proof.
  induction l as [|[k b] l IH]; intros H; cbn [list_to_map foldr map In fst].
  - rewrite lookup_empty. split; [discriminate|tauto].
  - cbn [forallb snd] in H. apply andb_prop in H as [Hb Hl]. subst b.
    change (list_to_map ((k, true) :: l)) with (<[k := true]> (list_to_map l : gmap string bool)).
    destruct (decide (k = w)) as [->|Hne].
    + rewrite lookup_insert. split; auto.
    + rewrite lookup_insert_ne by done. rewrite IH by done. split; [auto|].
      intros [?|?]; [done|auto].
Qed.
Lemma get_words_spec lang :
  match get_words lang with
  | Some t => (lang = "EN" /\ forall w, t !! w = Some true <-> In w (map fst stop_words_english_list))
              \/ (lang = "PT" /\ forall w, t !! w = Some true <-> In w (map fst stop_words_portuguese_list))
  | None => lang <> "EN" /\ lang <> "PT"
  end%string.
Proof.
  unfold get_words, lang_english, lang_portuguese.
  case_bool_decide as H1.
  { left. split; [done|]. intros w. apply list_to_map_true. vm_compute. reflexivity. }
  case_bool_decide as H2; [|done].
  right. split; [done|]. intros w. apply list_to_map_true. vm_compute. reflexivity.
Qed.

Lemma stemmer_every_schedule algorithm stem text st0 :
  stemmer_process algorithm text = Some st0 ->
  (forall s, rtc (stem_step stem) st0 s -> st_ret s = true -> st_temp s = map stem text) /\
  (forall s, rtc (stem_step stem) st0 s -> st_ret s = false -> exists s', stem_step stem s s') /\
  sn (stem_step stem) st0.
Proof.
  unfold stemmer_process. destruct (algorithm =? snowball); [|discriminate].
  intros E. injection E as <-. split; [|split].
  - apply stem_result.
  - apply stem_progress.
  - apply stem_terminates.
Qed.
Lemma stemmer_panics algorithm text : stemmer_process algorithm text = None <-> algorithm <> snowball.
Proof.
  unfold stemmer_process. destruct (Z.eqb_spec algorithm snowball); split; try done.
Qed.

Lemma preprocessing_function il inu lower stem fold h text r :
  preprocessing il inu lower stem fold stop_words_english h text r <->
  r = map fold (map stem
        (filter (fun w => stop_words_english !! w <> Some true)
          (map lower (tokenize il inu text)))).
Proof. apply preprocessing_spec. Qed.

Lemma preprocessing_same_words il inu lower stem fold words h1 h2 text1 text2 r1 r2 :
  tokenize il inu text1 = tokenize il inu text2 ->
  preprocessing il inu lower stem fold words h1 text1 r1 ->
  preprocessing il inu lower stem fold words h2 text2 r2 ->
  r1 = r2 /\ (length r1 <= length (tokenize il inu text1))%nat.
Proof.
  rewrite !preprocessing_spec. intros E -> ->. rewrite E. split; [done|]. apply pipeline_length.
Qed.

Lemma stop_word_may_survive :
  exists fold text r,
  preprocessing (fun r => ((65 <=? r) && (r <=? 90)) || ((97 <=? r) && (r <=? 122)) || (r =? 233))
    (fun r => (48 <=? r) && (r <=? 57)) id id fold stop_words_english ∅ text r /\
  exists w, w ∈ r /\ stop_words_english !! w = Some true.
Proof.
  exists (fun s => if String.eqb s ("th" +:+ bytes [195; 169])%string then "the"%string else s),
    ("th" +:+ bytes [195; 169])%string, ["the"%string].
  split.
  - apply preprocessing_function. vm_compute. reflexivity.
  - exists "the"%string. split; [left|]. vm_compute. reflexivity.
Qed.

Lemma term_frequency_counts terms t : Z.of_nat (length terms) < 2 ^ 63 ->
  (term_frequency terms !! t = if decide (t ∈ terms) then Some (occurrences t terms) else None) /\
  (forall n, term_frequency terms !! t = Some n -> 1 <= n).
Proof.
  intros Hl. rewrite term_frequency_lookup by done. split; [done|].
  destruct (decide (t ∈ terms)) as [Hin|]; [|discriminate].
  intros n E. injection E as <-. apply occurrences_pos in Hin. lia.
Qed.
