(** UTF-8: the model's decoder agrees with the encoding specification. *)
From Verif Require Import Base M_Text S_Text P_Base.
From Coq Require Import ZifyBool ZifyN.
Ltac Zify.zify_post_hook ::= Z.div_mod_to_equations.
#[local] Open Scope Z_scope.

Lemma byte_of_range a : 0 <= byte_of a < 256.
Proof. unfold byte_of. pose proof (N_ascii_bounded a). lia. Qed.
Lemma byte_byte_of a : byte (byte_of a) = a.
Proof. unfold byte, byte_of. rewrite N2Z.id. apply ascii_N_embedding. Qed.
Lemma byte_of_byte z : 0 <= z < 256 -> byte_of (byte z) = z.
Proof. intros H. unfold byte, byte_of. rewrite N_ascii_embedding; lia. Qed.

Lemma split3 x y z : 0 <= y < 64 -> 0 <= z < 64 ->
  (x * 4096 + y * 64 + z) / 4096 = x /\ ((x * 4096 + y * 64 + z) / 64) mod 64 = y /\
  (x * 4096 + y * 64 + z) mod 64 = z.
Proof. intros. lia. Qed.
Lemma split4 x y z w : 0 <= y < 64 -> 0 <= z < 64 -> 0 <= w < 64 ->
  (x * 262144 + y * 4096 + z * 64 + w) / 262144 = x /\
  ((x * 262144 + y * 4096 + z * 64 + w) / 4096) mod 64 = y /\
  ((x * 262144 + y * 4096 + z * 64 + w) / 64) mod 64 = z /\
  (x * 262144 + y * 4096 + z * 64 + w) mod 64 = w.
Proof. intros. lia. Qed.

Lemma utf8_encode_nonempty r b : utf8_encode r = Some b -> b <> EmptyString.
Proof.
  unfold utf8_encode. intros H.
  repeat case_match; simplify_eq; discriminate.
Qed.

Ltac solve_if :=
  repeat match goal with
  | |- context [if ?c then _ else _] =>
    first [ replace c with true by (symmetry; unfold in_range; lia); cbn [andb]
          | replace c with false by (symmetry; unfold in_range; lia); cbn [andb] ]
  end.

Lemma decode_encode r b rest :
  utf8_encode r = Some b -> decode_rune (b +:+ rest) = (r, String.length b).
Proof.
  unfold utf8_encode. intros H.
  destruct (r <? 0) eqn:H0; [discriminate|].
  destruct (r <? 128) eqn:H1.
  { injection H as <-. cbn -[byte byte_of Z.ltb Z.add Z.sub Z.mul].
    rewrite byte_of_byte by lia. by rewrite H1. }
  destruct (r <? 2048) eqn:H2.
  { injection H as <-. cbn -[byte byte_of in_range Z.ltb Z.add Z.sub Z.mul].
    rewrite !byte_of_byte by lia. solve_if. f_equal. lia. }
  destruct (r <? 65536) eqn:H3.
  { destruct ((55296 <=? r) && (r <=? 57343)) eqn:H4; [discriminate|].
    injection H as <-. cbn -[byte byte_of in_range Z.ltb Z.eqb Z.add Z.sub Z.mul].
    rewrite !byte_of_byte by lia.
    replace (in_range (if 224 + r / 4096 =? 224 then 160 else 128)
         (if 224 + r / 4096 =? 237 then 159 else 191) (128 + (r / 64) mod 64)) with true.
    2:{ unfold in_range. destruct (224 + r / 4096 =? 224) eqn:?, (224 + r / 4096 =? 237) eqn:?; lia. }
    solve_if. f_equal. lia. }
  destruct (r <? 1114112) eqn:H5; [|discriminate].
  injection H as <-. cbn -[byte byte_of in_range Z.ltb Z.eqb Z.add Z.sub Z.mul].
  rewrite !byte_of_byte by lia.
  replace (in_range (if 240 + r / 262144 =? 240 then 144 else 128)
       (if 240 + r / 262144 =? 244 then 143 else 191) (128 + (r / 4096) mod 64)) with true.
  2:{ unfold in_range. destruct (240 + r / 262144 =? 240) eqn:?, (240 + r / 262144 =? 244) eqn:?; lia. }
  solve_if. f_equal. lia.
Qed.

Lemma decode_cases s r w :
  s <> EmptyString -> decode_rune s = (r, w) ->
  (exists b rest, s = b +:+ rest /\ utf8_encode r = Some b /\ w = String.length b)
  \/ (r = rune_error /\ w = 1%nat).
Proof.
  intros Hs Hd. destruct s as [|a s1]; [done|]. cbn -[byte_of in_range Z.ltb Z.eqb Z.add Z.sub Z.mul] in Hd.
  pose proof (byte_of_range a) as Ha.
  destruct (byte_of a <? 128) eqn:H1.
  { injection Hd as <- <-. left. exists (String a EmptyString), s1.
    split; [done|]. split; [|done].
    unfold utf8_encode. solve_if. cbn [bytes]. by rewrite byte_byte_of. }
  destruct (in_range 194 223 (byte_of a)) eqn:H2.
  { destruct s1 as [|b s2]; [injection Hd as <- <-; by right|].
    pose proof (byte_of_range b) as Hb.
    destruct (in_range 128 191 (byte_of b)) eqn:H3; [|injection Hd as <- <-; by right].
    injection Hd as <- <-. left. exists (String a (String b EmptyString)), s2.
    split; [done|]. split; [|done]. unfold in_range in *.
    unfold utf8_encode. solve_if. 
    replace (String a (String b EmptyString))
      with (bytes [byte_of a; byte_of b]) by (cbn [bytes]; by rewrite !byte_byte_of).
    repeat f_equal; lia. }
  destruct (in_range 224 239 (byte_of a)) eqn:H3.
  { destruct s1 as [|b s2]; [injection Hd as <- <-; by right|].
    destruct s2 as [|c s3]; [injection Hd as <- <-; by right|].
    pose proof (byte_of_range b) as Hb. pose proof (byte_of_range c) as Hc.
    match goal with H : (if ?x then _ else _) = _ |- _ => destruct x eqn:H4 end;
      [|injection Hd as <- <-; by right].
    injection Hd as <- <-. left. exists (String a (String b (String c EmptyString))), s3.
    split; [done|]. split; [|done]. unfold in_range in *.
    assert (160 <= byte_of b \/ byte_of a <> 224) by (destruct (byte_of a =? 224) eqn:?; lia).
    assert (byte_of b <= 159 \/ byte_of a <> 237) by (destruct (byte_of a =? 237) eqn:?; lia).
    assert (128 <= byte_of b <= 191) by (destruct (byte_of a =? 224) eqn:?, (byte_of a =? 237) eqn:?; lia).
    assert (128 <= byte_of c <= 191) by lia.
    clear H4.
    unfold utf8_encode. solve_if. 
    replace (String a (String b (String c EmptyString)))
      with (bytes [byte_of a; byte_of b; byte_of c]) by (cbn [bytes]; by rewrite !byte_byte_of).
    destruct (split3 (byte_of a - 224) (byte_of b - 128) (byte_of c - 128)) as (E1 & E2 & E3); [lia..|].
    rewrite E1, E2, E3. repeat f_equal; lia. }
  destruct (in_range 240 244 (byte_of a)) eqn:H4.
  { destruct s1 as [|b s2]; [injection Hd as <- <-; by right|].
    destruct s2 as [|c s3]; [injection Hd as <- <-; by right|].
    destruct s3 as [|d s4]; [injection Hd as <- <-; by right|].
    pose proof (byte_of_range b) as Hb. pose proof (byte_of_range c) as Hc.
    pose proof (byte_of_range d) as Hdd.
    match goal with H : (if ?x then _ else _) = _ |- _ => destruct x eqn:H5 end;
      [|injection Hd as <- <-; by right].
    injection Hd as <- <-. left.
    exists (String a (String b (String c (String d EmptyString)))), s4.
    split; [done|]. split; [|done]. unfold in_range in *.
    assert (144 <= byte_of b \/ byte_of a <> 240) by (destruct (byte_of a =? 240) eqn:?; lia).
    assert (byte_of b <= 143 \/ byte_of a <> 244) by (destruct (byte_of a =? 244) eqn:?; lia).
    assert (128 <= byte_of b <= 191) by (destruct (byte_of a =? 240) eqn:?, (byte_of a =? 244) eqn:?; lia).
    assert (128 <= byte_of c <= 191) by lia. assert (128 <= byte_of d <= 191) by lia.
    clear H5.
    unfold utf8_encode. solve_if. 
    replace (String a (String b (String c (String d EmptyString))))
      with (bytes [byte_of a; byte_of b; byte_of c; byte_of d]) by (cbn [bytes]; by rewrite !byte_byte_of).
    destruct (split4 (byte_of a - 240) (byte_of b - 128) (byte_of c - 128) (byte_of d - 128))
      as (E1 & E2 & E3 & E4); [lia..|].
    rewrite E1, E2, E3, E4. repeat f_equal; lia. }
  injection Hd as <- <-; by right.
Qed.

(** One iteration of the range loop, in terms of the specification. *)
Lemma decode_step a s1 :
  (exists r b rest, String a s1 = b +:+ rest /\ utf8_encode r = Some b /\
      decode_rune (String a s1) = (r, String.length b))
  \/ ((forall r b rest', utf8_encode r = Some b -> String a s1 <> b +:+ rest') /\
      decode_rune (String a s1) = (replacement, 1%nat)).
Proof.
  destruct (decode_rune (String a s1)) as [r w] eqn:Hd.
  destruct (decode_cases (String a s1) r w ltac:(discriminate) Hd) as [(b & rest & Hs & He & ->)|[-> ->]].
  - left. eauto 10.
  - right. split; [|done]. intros r' b rest' He Hs.
    pose proof (decode_encode r' b rest' He) as Hd'. rewrite <- Hs, Hd in Hd'.
    injection Hd' as Hr Hl. unfold rune_error in Hr. subst r'.
    vm_compute in He. injection He as <-. vm_compute in Hl. discriminate Hl.
Qed.

Lemma rune_seq_text s cs : rune_seq s cs -> s = text_of cs.
Proof.
  induction 1 as [|r b rest cs He Hr IH|a rest cs Hno Hr IH]; [done| |];
    cbn [text_of fold_right snd]; rewrite IH at 1; done.
Qed.

Fixpoint with_index (i : nat) (cs : list (Z * string)) : list (nat * Z) :=
  match cs with
  | [] => []
  | (r, b) :: cs' => (i, r) :: with_index (i + String.length b) cs'
  end.

Lemma range_string_spec fuel i s :
  (String.length s <= fuel)%nat ->
  exists cs, rune_seq s cs /\ range_string fuel i s = with_index i cs /\
    Forall (fun c => c.2 <> EmptyString) cs.
Proof.
  revert i s. induction fuel as [|fuel IH]; intros i s Hl.
  { destruct s; [|simpl in Hl; lia]. exists []. repeat split; constructor. }
  destruct s as [|a s1]; [exists []; repeat split; constructor|].
  cbn [range_string].
  destruct (decode_step a s1) as [(r & b & rest & Hs & He & Hd)|[Hno Hd]].
  - rewrite Hd. assert (b <> EmptyString) as Hb by by eapply utf8_encode_nonempty.
    rewrite Hs. rewrite substring_skip.
    assert (String.length rest <= fuel)%nat as Hl'.
    { rewrite Hs, str_app_length in Hl. destruct b; [done|]. simpl in Hl. lia. }
    destruct (IH (i + String.length b)%nat rest Hl') as (cs & H1 & H2 & H3).
    exists ((r, b) :: cs). split; [by constructor|]. split; [|by constructor].
    cbn [with_index]. by rewrite H2.
  - rewrite Hd.
    assert (String.substring 1 (String.length (String a s1) - 1) (String a s1) = s1) as ->.
    { exact (substring_skip (String a EmptyString) s1). }
    destruct (IH (i + 1)%nat s1 ltac:(simpl in Hl; lia)) as (cs & H1 & H2 & H3).
    exists ((replacement, String a EmptyString) :: cs). split; [by constructor|].
    split; [|by constructor]. cbn [with_index]. by rewrite H2.
Qed.

(** The rune sequence of a string is unique. *)
Lemma rune_seq_det s cs1 cs2 : rune_seq s cs1 -> rune_seq s cs2 -> cs1 = cs2.
Proof.
  intros H1. revert cs2.
  induction H1 as [|r b rest cs He Hr IH|a rest cs Hno Hr IH]; intros cs2 H2.
  - inversion H2 as [|r' b' rest' cs' He' Hr' E|]; [done|].
    apply utf8_encode_nonempty in He'. destruct b'; [done|discriminate].
  - inversion H2 as [E|r' b' rest' cs' He' Hr' E|a' rest' cs' Hno' Hr' E].
    + apply utf8_encode_nonempty in He. destruct b; [done|discriminate].
    + pose proof (decode_encode r b rest He) as D1.
      pose proof (decode_encode r' b' rest' He') as D2.
      rewrite E, D1 in D2. injection D2 as <- Hl.
      destruct (str_app_eq_len b' b rest' rest) as [-> ->]; [lia|done|].
      f_equal. by apply IH.
    + exfalso. eapply Hno'; [exact He|exact E].
  - inversion H2 as [E|r' b' rest' cs' He' Hr' E|a' rest' cs' Hno' Hr' E].
    + exfalso. eapply Hno; [exact He'|]. by symmetry.
    + subst. f_equal. by apply IH.
Qed.

(** Concatenating a text with one that starts with a valid rune concatenates
    the rune sequences (a truncated encoding at the end of the first text is
    not completed by the second). *)
Lemma encode_first_byte r b a s : utf8_encode r = Some b -> b = String a s ->
  byte_of a < 128 \/ 192 <= byte_of a.
Proof.
  unfold utf8_encode. intros H ->.
  destruct (r <? 0) eqn:H0; [discriminate|].
  destruct (r <? 128) eqn:H1; [injection H as <- _; rewrite byte_of_byte; lia|].
  destruct (r <? 2048) eqn:H2; [injection H as <- _; rewrite byte_of_byte; lia|].
  destruct (r <? 65536) eqn:H3.
  { destruct ((55296 <=? r) && (r <=? 57343)) eqn:H4; [discriminate|].
    injection H as <- _; rewrite byte_of_byte; lia. }
  destruct (r <? 1114112) eqn:H5; [|discriminate].
  injection H as <- _; rewrite byte_of_byte; lia.
Qed.

(** A non-first byte of an encoding is a continuation byte. *)
Lemma encode_cont_byte r b p a s :
  utf8_encode r = Some b -> b = p +:+ String a s -> p <> EmptyString ->
  128 <= byte_of a < 192.
Proof.
  unfold utf8_encode. intros H -> Hp.
  assert (forall l, Some (bytes l) = Some (p +:+ String a s) ->
            Forall (fun z => 128 <= z < 192) (tail l) -> 128 <= byte_of a < 192) as Haux.
  { clear -Hp. intros l E Hl. injection E as E. destruct p as [|x p]; [done|].
    destruct l as [|z l]; [discriminate|]. cbn [bytes] in E. simpl in E, Hl.
    injection E as _ E. clear x z Hp. revert p E.
    induction l as [|z l IH]; intros p E; [by destruct p|].
    cbn [bytes] in E. inversion Hl; subst. destruct p as [|x p].
    - simpl in E. injection E as <- _. rewrite byte_of_byte; lia.
    - simpl in E. injection E as _ E. eapply IH; eauto. }
  destruct (r <? 0) eqn:H0; [discriminate|].
  destruct (r <? 128) eqn:H1; [eapply Haux; [exact H|by repeat constructor]|].
  destruct (r <? 2048) eqn:H2.
  { eapply Haux; [exact H|]. repeat constructor; lia. }
  destruct (r <? 65536) eqn:H3.
  { destruct ((55296 <=? r) && (r <=? 57343)) eqn:H4; [discriminate|].
    eapply Haux; [exact H|]. repeat constructor; lia. }
  destruct (r <? 1114112) eqn:H5; [|discriminate].
  eapply Haux; [exact H|]. repeat constructor; lia.
Qed.

Lemma str_app_split x y b rest :
  x +:+ y = b +:+ rest ->
  (exists z, x = b +:+ z) \/ (exists a z, b = x +:+ String a z /\ y = String a (z +:+ rest)).
Proof.
  revert b. induction x as [|c x IH]; intros b H; simpl in H.
  - destruct b as [|a b]; [left; by exists EmptyString|].
    right. simpl in H. exists a, b. by split.
  - destruct b as [|a b]; [left; by exists (String c x)|].
    simpl in H. injection H as <- H.
    destruct (IH b H) as [[z ->]|(a' & z & -> & ->)].
    + left. by exists z.
    + right. exists a', z. by split.
Qed.

Lemma rune_seq_app x cx y cy r b rest :
  rune_seq x cx -> rune_seq y cy -> utf8_encode r = Some b -> y = b +:+ rest ->
  rune_seq (x +:+ y) (cx ++ cy).
Proof.
  intros Hx Hy He Ey.
  induction Hx as [|r' b' rest' cs' He' Hr' IH|a rest' cs' Hno Hr' IH].
  - exact Hy.
  - rewrite str_app_assoc. by constructor.
  - simpl. constructor; [|exact IH].
    intros r2 b2 rest2 He2 E.
    assert (String a rest' +:+ y = b2 +:+ rest2) as E' by exact E.
    destruct (str_app_split _ _ _ _ E') as [[z Ez]|(a' & z & Eb & Ey')].
    + by eapply Hno.
    + pose proof (encode_cont_byte _ _ _ _ _ He2 Eb ltac:(discriminate)) as Hc.
      destruct b as [|a2 b2']; [by apply utf8_encode_nonempty in He|].
      simpl in Ey. rewrite Ey' in Ey. injection Ey as <- _.
      pose proof (encode_first_byte _ _ _ _ He eq_refl). lia.
Qed.

Lemma rune_seq_exists s : exists cs, rune_seq s cs.
Proof.
  destruct (range_string_spec (String.length s) 0 s ltac:(done)) as (cs & H & _ & _). eauto.
Qed.
