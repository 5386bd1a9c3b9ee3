(** Specification vocabulary for text processing: UTF-8, maximal runs. *)
From Verif Require Import Base.
#[local] Open Scope Z_scope.

Definition byte (z : Z) : ascii := ascii_of_N (Z.to_N z).
Fixpoint bytes (l : list Z) : string :=
  match l with [] => EmptyString | z :: l' => String (byte z) (bytes l') end.

(** The UTF-8 encoding of a Unicode scalar value (RFC 3629); [None] for
    surrogates and out-of-range values. *)
Definition utf8_encode (r : Z) : option string :=
  if (r <? 0) then None
  else if r <? 128 then Some (bytes [r])
  else if r <? 2048 then Some (bytes [192 + r / 64; 128 + r mod 64])
  else if r <? 65536 then
    if (55296 <=? r) && (r <=? 57343) then None
    else Some (bytes [224 + r / 4096; 128 + (r / 64) mod 64; 128 + r mod 64])
  else if r <? 1114112 then
    Some (bytes [240 + r / 262144; 128 + (r / 4096) mod 64;
                 128 + (r / 64) mod 64; 128 + r mod 64])
  else None.

(** The rune reported for a byte that starts no valid encoding. *)
Definition replacement : Z := 65533.

(** [rune_seq s cs]: reading [s] from left to right yields the runes [cs], each
    paired with the bytes it occupies; a byte that does not start a valid
    encoding is a [replacement] rune on its own. *)
Inductive rune_seq : string -> list (Z * string) -> Prop :=
| rune_seq_nil : rune_seq EmptyString []
| rune_seq_valid r b rest cs :
    utf8_encode r = Some b -> rune_seq rest cs ->
    rune_seq (b +:+ rest) ((r, b) :: cs)
| rune_seq_invalid a rest cs :
    (forall r b rest', utf8_encode r = Some b -> String a rest <> b +:+ rest') ->
    rune_seq rest cs ->
    rune_seq (String a rest) ((replacement, String a EmptyString) :: cs).

Definition text_of (cs : list (Z * string)) : string :=
  fold_right (fun c s => c.2 +:+ s) EmptyString cs.

(** [maximal_runs word cs toks]: [cs] splits as
       sep0 run1 sep1 run2 sep2 ... runN sepN
    where runs are non-empty and consist of word runes, separators consist of
    non-word runes, and the separators between two runs are non-empty; [toks]
    are the texts of the runs. *)
Definition maximal_runs (word : Z -> bool) (cs : list (Z * string)) (toks : list string) : Prop :=
  exists (sep0 : list (Z * string)) (runs : list (list (Z * string) * list (Z * string))),
    cs = sep0 ++ concat (map (fun rs => rs.1 ++ rs.2) runs) /\
    Forall (fun c => word c.1 = false) sep0 /\
    Forall (fun rs => rs.1 <> [] /\ Forall (fun c => word c.1 = true) rs.1 /\
                      Forall (fun c => word c.1 = false) rs.2) runs /\
    Forall (fun rs => rs.2 <> []) (removelast runs) /\
    toks = map (fun rs => text_of rs.1) runs.

Fixpoint concat_strings (l : list string) : string :=
  match l with [] => EmptyString | s :: l' => s +:+ concat_strings l' end.

(** Tokens joined by a separator string. *)
Fixpoint join_strings (sep : string) (l : list string) : string :=
  match l with
  | [] => EmptyString
  | [s] => s
  | s :: l' => s +:+ sep +:+ join_strings sep l'
  end.

(** Number of occurrences of [t] in [l]. *)
Definition occurrences (t : string) (l : list string) : Z :=
  Z.of_nat (length (filter (fun x => x = t) l)).

(** A rune belongs to a token: letter, number or apostrophe. *)
Definition word_rune (is_letter is_number : Z -> bool) (r : Z) : bool :=
  is_letter r || is_number r || (r =? 39).

(** The intended result of the preprocessing pipeline, given the tokens. *)
Definition pipeline (to_lower stem fold : string -> string) (stop : string -> Prop)
    `{forall w, Decision (stop w)} (tokens : list string) : list string :=
  map fold (map stem (filter (fun w => ¬ stop w) (map to_lower tokens))).
