(** Model of tokenizer/, filter/, metric/TF.go and main.go:Preprocessing. *)
From Verif Require Import Base.
#[local] Open Scope Z_scope.

(* ------------------------------------------------------------------ *)
(** * UTF-8 decoding, as performed by Go's [for i, r := range s]
    (Go language specification, "For statements with range clause";
    unicode/utf8.DecodeRuneInString). *)

Definition byte_of (a : ascii) : Z := Z.of_N (N_of_ascii a).
Definition in_range (lo hi x : Z) : bool := (lo <=? x) && (x <=? hi).

(** U+FFFD, the rune reported for an invalid byte. *)
Definition rune_error : Z := 65533.

(** First rune of a non-empty byte string, with its width in bytes
    (1 for an invalid byte).  Follows the acceptance ranges of
    utf8.DecodeRuneInString. *)
Definition decode_rune (s : string) : Z * nat :=
  match s with
  | EmptyString => (rune_error, 0%nat)
  | String a s1 =>
    let p0 := byte_of a in
    if p0 <? 128 then (p0, 1%nat)
    else if in_range 194 223 p0 then
      match s1 with
      | String b _ =>
        let p1 := byte_of b in
        if in_range 128 191 p1 then ((p0 - 192) * 64 + (p1 - 128), 2%nat)
        else (rune_error, 1%nat)
      | EmptyString => (rune_error, 1%nat)
      end
    else if in_range 224 239 p0 then
      match s1 with
      | String b (String c _) =>
        let p1 := byte_of b in let p2 := byte_of c in
        let lo := if p0 =? 224 then 160 else 128 in
        let hi := if p0 =? 237 then 159 else 191 in
        if in_range lo hi p1 && in_range 128 191 p2
        then ((p0 - 224) * 4096 + (p1 - 128) * 64 + (p2 - 128), 3%nat)
        else (rune_error, 1%nat)
      | _ => (rune_error, 1%nat)
      end
    else if in_range 240 244 p0 then
      match s1 with
      | String b (String c (String d _)) =>
        let p1 := byte_of b in let p2 := byte_of c in let p3 := byte_of d in
        let lo := if p0 =? 240 then 144 else 128 in
        let hi := if p0 =? 244 then 143 else 191 in
        if in_range lo hi p1 && in_range 128 191 p2 && in_range 128 191 p3
        then ((p0 - 240) * 262144 + (p1 - 128) * 4096 + (p2 - 128) * 64 + (p3 - 128), 4%nat)
        else (rune_error, 1%nat)
      | _ => (rune_error, 1%nat)
      end
    else (rune_error, 1%nat)
  end.

(** The (byte index, rune) pairs visited by [for i, r := range s].
    [fuel] bounds the number of iterations; [length s] always suffices
    because every iteration consumes at least one byte. *)
Fixpoint range_string (fuel : nat) (i : nat) (s : string) : list (nat * Z) :=
  match fuel, s with
  | S fuel', String _ _ =>
    let '(r, w) := decode_rune s in
    (i, r) :: range_string fuel' (i + w) (substring w (String.length s - w) s)
  | _, _ => []
  end.

(* ------------------------------------------------------------------ *)
(** * tokenizer/Standard.go *)

Section tokenizer.
  (** unicode.IsLetter and unicode.IsNumber: Unicode tables, not modelled. *)
  Variables (is_letter is_number : Z -> bool).

  (** tokenizer/Standard.go:20-22  isNotAlnum; 39 is the apostrophe. *)
  Definition is_not_alnum (r : Z) : bool :=
    negb (is_letter r) && negb (is_number r) && negb (r =? 39).

  (** Loop of strings.FieldsFunc (Go standard library, called at
      tokenizer/Standard.go:16).  [start] is the library's [start] variable,
      [None] standing for a negative value; [spans] is accumulated in order. *)
  Fixpoint fields_func_loop (f : Z -> bool) (rs : list (nat * Z))
      (start : option nat) (spans : list (nat * nat))
      : option nat * list (nat * nat) :=
    match rs with
    | [] => (start, spans)
    | (e, r) :: rs' =>
      if f r then
        match start with
        | Some b => fields_func_loop f rs' None (spans ++ [(b, e)])
        | None => fields_func_loop f rs' None spans
        end
      else
        match start with
        | None => fields_func_loop f rs' (Some e) spans
        | Some b => fields_func_loop f rs' (Some b) spans
        end
    end.

  (** strings.FieldsFunc: collect spans, then slice the string. *)
  Definition fields_func (f : Z -> bool) (s : string) : list string :=
    let '(start, spans) :=
      fields_func_loop f (range_string (String.length s) 0 s) None [] in
    let spans :=
      match start with
      | Some b => spans ++ [(b, String.length s)]
      | None => spans
      end in
    map (fun '(b, e) => substring b (e - b)%nat s) spans.

  (** tokenizer/Standard.go:15-18  Tokenize *)
  Definition tokenize (text : string) : list string :=
    fields_func is_not_alnum text.
End tokenizer.

(* ------------------------------------------------------------------ *)
(** * filter/  – slices live in a heap so that in-place writes are visible. *)

(** A slice is a reference to its backing array (offset 0, full length: the
    code never re-slices). *)
Notation slice_heap := (gmap nat (list string)).
Definition slice_alloc (h : slice_heap) (l : list string) : slice_heap * nat :=
  let p := fresh (dom h) in (<[p := l]> h, p).
Definition slice_get (h : slice_heap) (p : nat) : list string := default [] (h !! p).

(** filter/Lowercase.go:12-17.  [to_lower] is strings.ToLower.
    The loop writes text[i] in place and returns the same slice. *)
Fixpoint lowercase_loop (to_lower : string -> string) (n : nat) (i : nat)
    (text : list string) : list string :=
  match n with
  | O => text
  | S n' =>
    lowercase_loop to_lower n' (S i)
      (match text !! i with
       | Some t => <[i := to_lower t]> text
       | None => text
       end)
  end.
Definition lowercase_process (to_lower : string -> string)
    (h : slice_heap) (p : nat) : slice_heap * nat :=
  (<[p := lowercase_loop to_lower (length (slice_get h p)) 0 (slice_get h p)]> h, p).

(** filter/StopWords.go:13-25.  [s.Words[element]] is false when absent. *)
Definition stopwords_loop (words : gmap string bool) (text : list string) : list string :=
  fold_left (fun temp element =>
    if default false (words !! element) then temp else temp ++ [element]) text [].
Definition stopwords_process (words : gmap string bool)
    (h : slice_heap) (p : nat) : slice_heap * nat :=
  slice_alloc h (stopwords_loop words (slice_get h p)).

(** filter/ASCII.go:17-26.  [fold] is transform.String(NFD;remove Mn;NFC). *)
Fixpoint ascii_loop (fold : string -> string) (i : nat) (text temp : list string)
    : list string :=
  match text with
  | [] => temp
  | word :: text' => ascii_loop fold (S i) text' (<[i := fold word]> temp)
  end.
Definition ascii_process (fold : string -> string)
    (h : slice_heap) (p : nat) : slice_heap * nat :=
  let text := slice_get h p in
  slice_alloc h (ascii_loop fold 0 text (replicate (length text) ""%string)).

(* ------------------------------------------------------------------ *)
(** * filter/Stemmer.go:22-41 – one goroutine per token. *)

(** filter/stemmer/Algorithm.go:5-7 *)
Definition snowball : Z := 1.

(** A running goroutine: about to execute [temp[i] = Stem(word)], or about to
    execute the deferred wg.Done(). *)
Inductive stem_thread := SWrite (i : nat) (word : string) | SDone.

Record stem_state := mkStem {
  st_todo : list string;            (* words not yet spawned by the loop *)
  st_next : nat;                    (* loop index i *)
  st_threads : list stem_thread;    (* live goroutines *)
  st_wg : nat;                      (* WaitGroup counter *)
  st_temp : list string;            (* the result slice *)
  st_ret : bool                     (* wg.Wait() returned *)
}.

(** Lines 28-32. *)
Definition stem_init (text : list string) : stem_state :=
  mkStem text 0 [] (length text) (replicate (length text) ""%string) false.

Inductive stem_step (stem : string -> string) : stem_state -> stem_state -> Prop :=
| stem_spawn w todo i ts wg temp :      (* lines 33-34, 37: go func(i, word) *)
    stem_step stem (mkStem (w :: todo) i ts wg temp false)
                   (mkStem todo (S i) (ts ++ [SWrite i w]) wg temp false)
| stem_write todo n ts1 ts2 i w wg temp : (* line 36 *)
    stem_step stem (mkStem todo n (ts1 ++ SWrite i w :: ts2) wg temp false)
                   (mkStem todo n (ts1 ++ SDone :: ts2) wg (<[i := stem w]> temp) false)
| stem_done todo n ts1 ts2 wg temp :      (* line 35: defer wg.Done() *)
    stem_step stem (mkStem todo n (ts1 ++ SDone :: ts2) (S wg) temp false)
                   (mkStem todo n (ts1 ++ ts2) wg temp false)
| stem_wait n ts temp :                   (* lines 39-40 *)
    stem_step stem (mkStem [] n ts 0 temp false) (mkStem [] n ts 0 temp true).

(** Line 24: the algorithm check; [None] is the panic. *)
Definition stemmer_process (algorithm : Z) (text : list string) : option stem_state :=
  if algorithm =? snowball then Some (stem_init text) else None.

(* ------------------------------------------------------------------ *)
(** * metric/TF.go:3-9 *)
Definition term_frequency (terms : list string) : gmap string Z :=
  fold_left (fun m term => addi m term 1) terms ∅.

(* ------------------------------------------------------------------ *)
(** * main.go:220-226  Preprocessing
    A relation because the stemmer is concurrent: [preprocessing text r] holds
    when some complete schedule of the stemmer's goroutines makes the call
    return [r].  [words] is language.GetWords(language.English). *)
Section preprocessing.
  Variables (is_letter is_number : Z -> bool).
  Variables (to_lower stem fold : string -> string).
  Variable words : gmap string bool.

  Definition preprocessing (h0 : slice_heap) (text : string) (r : list string) : Prop :=
    let '(h1, p1) := slice_alloc h0 (tokenize is_letter is_number text) in
    let '(h2, p2) := lowercase_process to_lower h1 p1 in
    let '(h3, p3) := stopwords_process words h2 p2 in
    exists st0 s,
      stemmer_process snowball (slice_get h3 p3) = Some st0 /\
      rtc (stem_step stem) st0 s /\ st_ret s = true /\
      let '(h4, p4) := slice_alloc h3 (st_temp s) in
      let '(h5, p5) := ascii_process fold h4 p4 in
      r = slice_get h5 p5.
End preprocessing.
