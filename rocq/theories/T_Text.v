(** Property theorems C01-C07: tokenizer, filters, preprocessing, TF. *)
From Verif Require Import Base M_Language M_Text S_Text P_Base P_Utf8 P_Text P_TextExtra.
#[local] Open Scope Z_scope.

(** C01.  For every text there is exactly one way to read it as runes; the
    tokens are the maximal runs of word runes, and no other list is. *)
Theorem C01_tokenize_maximal_runs :
  forall (is_letter is_number : Z -> bool) (text : string),
  exists cs,
    rune_seq text cs /\ text_of cs = text /\ (forall cs', rune_seq text cs' -> cs' = cs) /\
    (forall toks, maximal_runs (word_rune is_letter is_number) cs toks
                  <-> toks = tokenize is_letter is_number text).
Proof. exact tokenize_characterised. Qed.
Print Assumptions C01_tokenize_maximal_runs.

(** Every token is a non-empty sequence of word runes; the concatenation of the
    tokens is the text with all other runes deleted. *)
Theorem C01_tokens_are_words :
  forall is_letter is_number text cs, rune_seq text cs ->
  Forall (fun t => exists c, rune_seq t c /\ c <> [] /\
                   Forall (fun x => word_rune is_letter is_number x.1 = true) c)
         (tokenize is_letter is_number text) /\
  concat_strings (tokenize is_letter is_number text)
  = text_of (filter (fun c => word_rune is_letter is_number c.1 = true) cs).
Proof. exact tokens_and_concat. Qed.
Print Assumptions C01_tokens_are_words.

(** ASCII letters and digits, for examples. *)
Definition ex_letter (r : Z) : bool :=
  ((65 <=? r) && (r <=? 90)) || ((97 <=? r) && (r <=? 122)) || (r =? 233).
Definition ex_number (r : Z) : bool := (48 <=? r) && (r <=? 57).
(* "é" is the two bytes C3 A9; FF is invalid UTF-8. *)
Example C01_example :
  tokenize ex_letter ex_number
    ("  caf" +:+ bytes [195; 169] +:+ " isn't" +:+ bytes [255] +:+ "42,,")%string
  = [("caf" +:+ bytes [195; 169])%string; "isn't"%string; "42"%string].
Proof. reflexivity. Qed.

(** C02 *)
Theorem C02_tokenize_compositional :
  forall is_letter is_number a b r sep,
  utf8_encode r = Some sep -> word_rune is_letter is_number r = false ->
  tokenize is_letter is_number (a +:+ sep +:+ b)
  = tokenize is_letter is_number a ++ tokenize is_letter is_number b.
Proof. exact tokenize_app_sep. Qed.
Print Assumptions C02_tokenize_compositional.

Theorem C02_tokenize_rejoin :
  forall is_letter is_number text r sep,
  utf8_encode r = Some sep -> word_rune is_letter is_number r = false ->
  tokenize is_letter is_number (join_strings sep (tokenize is_letter is_number text))
  = tokenize is_letter is_number text.
Proof. exact tokenize_rejoin. Qed.
Print Assumptions C02_tokenize_rejoin.

Example C02_example :
  utf8_encode 32 = Some " "%string /\ word_rune ex_letter ex_number 32 = false /\
  tokenize ex_letter ex_number "a b" = ["a"; "b"]%string.
Proof. done. Qed.

(** C03.  [h] holds the caller's slices; [p] is the slice passed in. *)
Theorem C03_lowercase_in_place :
  forall to_lower h p h' q, lowercase_process to_lower h p = (h', q) ->
  q = p /\ slice_get h' p = map to_lower (slice_get h p) /\
  (forall r, r <> p -> h' !! r = h !! r).
Proof. exact lowercase_in_place. Qed.
Print Assumptions C03_lowercase_in_place.

(** The other filters return a new slice and leave every existing one alone. *)
Theorem C03_other_filters_pure :
  forall words fold h p h' q,
  stopwords_process words h p = (h', q) \/ ascii_process fold h p = (h', q) ->
  h !! q = None /\ (forall r, is_Some (h !! r) -> h' !! r = h !! r).
Proof. exact filters_pure. Qed.
Print Assumptions C03_other_filters_pure.

Example C03_example :
  let h : slice_heap := {[ 7%nat := ["A"; "B"]%string ]} in
  slice_get (lowercase_process (fun s => if String.eqb s "A" then "a" else s) h 7).1 7
  = ["a"; "B"]%string.
Proof. reflexivity. Qed.

(** C04 *)
Theorem C04_stopwords_exact :
  forall words h p h' q, stopwords_process words h p = (h', q) ->
  slice_get h' q = filter (fun w => words !! w <> Some true) (slice_get h p).
Proof. exact stopwords_exact. Qed.
Print Assumptions C04_stopwords_exact.

Theorem C04_stopwords_idempotent :
  forall words text, stopwords_loop words (stopwords_loop words text) = stopwords_loop words text.
Proof. exact stopwords_idempotent. Qed.
Print Assumptions C04_stopwords_idempotent.

(** GetWords: the two tables (every listed word maps to true, so membership is
    what counts), and a panic for any other language. *)
Theorem C04_get_words :
  forall lang,
  match get_words lang with
  | Some t => (lang = "EN" /\ forall w, t !! w = Some true <-> In w (map fst stop_words_english_list))
              \/ (lang = "PT" /\ forall w, t !! w = Some true <-> In w (map fst stop_words_portuguese_list))
  | None => lang <> "EN" /\ lang <> "PT"
  end%string.
Proof. exact get_words_spec. Qed.
Print Assumptions C04_get_words.

Example C04_example :
  stopwords_loop stop_words_english ["the"; "red"; "the"; "sky"; "red"]%string
  = ["red"; "sky"; "red"]%string.
Proof. vm_compute. reflexivity. Qed.

(** C05.  Safety: whatever the schedule, when Process returns the result is the
    pointwise stemming.  Liveness: no reachable state is stuck and no execution
    is infinite. *)
Theorem C05_stemmer_every_schedule :
  forall algorithm stem text st0,
  stemmer_process algorithm text = Some st0 ->
  (forall s, rtc (stem_step stem) st0 s -> st_ret s = true -> st_temp s = map stem text) /\
  (forall s, rtc (stem_step stem) st0 s -> st_ret s = false -> exists s', stem_step stem s s') /\
  sn (stem_step stem) st0.
Proof. exact stemmer_every_schedule. Qed.
Print Assumptions C05_stemmer_every_schedule.

Theorem C05_stemmer_panics :
  forall algorithm text, stemmer_process algorithm text = None <-> algorithm <> snowball.
Proof. exact stemmer_panics. Qed.
Print Assumptions C05_stemmer_panics.

(** A schedule in which the second token's goroutine runs first. *)
Example C05_example (stem : string -> string) :
  exists s, rtc (stem_step stem) (stem_init ["a"; "b"]%string) s /\
  st_temp s = [""; stem "b"]%string /\ st_ret s = false.
Proof.
  eexists. split.
  - eapply rtc_l; [apply stem_spawn|]. eapply rtc_l; [apply stem_spawn|].
    eapply rtc_l; [apply (stem_write stem [] 2 [SWrite 0 "a"%string] [] 1 "b"%string)|].
    apply rtc_refl.
  - split; reflexivity.
Qed.

(** C06.  Preprocessing has exactly one possible result, for every schedule and
    whatever slices exist: fold o stem over the lower-cased non-stop tokens. *)
Theorem C06_preprocessing_function :
  forall is_letter is_number to_lower stem fold h text r,
  preprocessing is_letter is_number to_lower stem fold stop_words_english h text r <->
  r = map fold (map stem
        (filter (fun w => stop_words_english !! w <> Some true)
          (map to_lower (tokenize is_letter is_number text)))).
Proof. exact preprocessing_function. Qed.
Print Assumptions C06_preprocessing_function.

(** Same tokens (e.g. same words in a query and in a document) give the same
    terms; never more terms than tokens. *)
Theorem C06_preprocessing_same_words :
  forall is_letter is_number to_lower stem fold words h1 h2 text1 text2 r1 r2,
  tokenize is_letter is_number text1 = tokenize is_letter is_number text2 ->
  preprocessing is_letter is_number to_lower stem fold words h1 text1 r1 ->
  preprocessing is_letter is_number to_lower stem fold words h2 text2 r2 ->
  r1 = r2 /\ (length r1 <= length (tokenize is_letter is_number text1))%nat.
Proof. exact preprocessing_same_words. Qed.
Print Assumptions C06_preprocessing_same_words.

(** Order of the filters: a stop word can be produced after the stop-word
    filter has run (here folding turns "thé" into "the"). *)
Theorem C06_stop_word_may_survive :
  exists fold text r,
  preprocessing ex_letter ex_number id id fold stop_words_english ∅ text r /\
  exists w, w ∈ r /\ stop_words_english !! w = Some true.
Proof. exact stop_word_may_survive. Qed.
Print Assumptions C06_stop_word_may_survive.

(** C07 *)
Theorem C07_term_frequency :
  forall terms t, Z.of_nat (length terms) < 2 ^ 63 ->
  (term_frequency terms !! t = if decide (t ∈ terms) then Some (occurrences t terms) else None) /\
  (forall n, term_frequency terms !! t = Some n -> 1 <= n).
Proof. exact term_frequency_counts. Qed.
Print Assumptions C07_term_frequency.

Theorem C07_term_frequency_total :
  forall terms ks, Z.of_nat (length terms) < 2 ^ 63 -> range_order (term_frequency terms) ks ->
  foldr Z.add 0 (map (geti (term_frequency terms)) ks) = Z.of_nat (length terms).
Proof. exact term_frequency_total. Qed.
Print Assumptions C07_term_frequency_total.

Theorem C07_term_frequency_order_free :
  forall l k, Z.of_nat (length l) < 2 ^ 63 -> l ≡ₚ k -> term_frequency l = term_frequency k.
Proof. exact term_frequency_perm. Qed.
Print Assumptions C07_term_frequency_order_free.

Example C07_example :
  term_frequency ["a"; "b"; "a"]%string !! "a"%string = Some 2.
Proof. reflexivity. Qed.
