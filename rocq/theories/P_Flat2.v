(** Proofs about the byte-level flatbuffers builder: tables. *)
From Verif Require Import Base M_Flat P_Base P_Flat.
#[local] Open Scope nat_scope.

(** * Filling the slots of the object under construction *)
Definition slot_of (a : add) : nat := match a with AddU i _ => i | AddI i _ => i end.
Definition off_of (a : add) : nat := match a with AddU _ off => off | AddI _ _ => 0 end.
(** [a] is stored at [f] ([f = 0]: not stored, it is the default). *)
Definition stored (T : bytes) (a : add) (f : nat) : Prop :=
  match a with
  | AddU _ off => (off = 0 /\ f = 0) \/ (off <> 0 /\ uref T f off)
  | AddI _ x => (x = 0%Z /\ f = 0) \/ (x <> 0%Z /\ f <> 0 /\ rd 4 T f = (x mod 2 ^ 32)%Z)
  end.
Record tinv (len0 n : nat) (b : builder) (dn : list add) : Prop := mkTinv {
  ti_len : length (bvt b) = n;
  ti_range : forall i f, bvt b !! i = Some f -> f = 0 \/ len0 + 4 <= f <= length (bb b);
  ti_unset : forall i f, bvt b !! i = Some f -> i ∉ (slot_of <$> dn) -> f = 0;
  ti_stored : forall a, a ∈ dn -> exists f, bvt b !! (slot_of a) = Some f /\ stored (bb b) a f
}.
Lemma stored_ext T T' a f : T `suffix_of` T' -> f <= length T -> stored T a f -> stored T' a f.
Proof.
  intros Hs Hf. destruct a as [i off|i x]; cbn; (intros [?|[? H]]; [by left|right]); (split; [done|]).
  - by eapply uref_ext.
  - destruct H. split; [done|]. by rewrite (rd_suffix 4 T T').
Qed.
Lemma pad4_lt4 n : pad_of 4 0 n < 4.
Proof. apply pad_lt. lia. Qed.

Definition same_obj (b b' : builder) : Prop :=
  bext b b' /\ bvts b' = bvts b /\ bobj b' = bobj b /\ bnest b' = bnest b /\ length (bvt b') = length (bvt b).
Lemma same_obj_trans a b c : same_obj a b -> same_obj b c -> same_obj a c.
Proof.
  intros (A1 & A2 & A3 & A4 & A5) (B1 & B2 & B3 & B4 & B5). split; [by eapply bext_trans|].
  split; [congruence|]. split; [congruence|]. split; congruence.
Qed.

(** A slot that is set after writing one word. *)
Lemma slot_step len0 n b c dn a : tinv len0 n b dn -> slot_of a ∉ (slot_of <$> dn) -> slot_of a < n ->
  bb b `suffix_of` bb c -> bvt c = bvt b -> len0 + 4 <= length (bb c) -> stored (bb c) a (length (bb c)) ->
  tinv len0 n (slot (slot_of a) c) (dn ++ [a]).
Proof.
  intros [H1 H2 H3 H4] Hi Hn Hs Ev Hl Hst. pose proof (suffix_len _ _ Hs) as Hle.
  assert (slot_of a < length (bvt c)) as Hlt by (rewrite Ev, H1; done).
  split; cbn [slot bvt bb check].
  - rewrite insert_length. by rewrite Ev.
  - intros i f. destruct (decide (i = slot_of a)) as [->|Hne].
    + rewrite list_lookup_insert by done. intros [= <-]. right. unfold offset. cbn. lia.
    + rewrite list_lookup_insert_ne by done. rewrite Ev. intros Hf. destruct (H2 i f Hf); [by left|right; lia].
  - intros i f. rewrite fmap_app. intros Hf Hni. destruct (decide (i = slot_of a)) as [->|Hne].
    + exfalso. apply Hni. apply elem_of_app. right. cbn. left.
    + rewrite list_lookup_insert_ne in Hf by done. rewrite Ev in Hf. apply (H3 i f Hf). intros ?. apply Hni. apply elem_of_app. by left.
  - intros a' Ha. apply elem_of_app in Ha as [Ha|Ha].
    + destruct (H4 a' Ha) as (f & F1 & F2). assert (slot_of a' <> slot_of a) as Hne.
      { intros E. apply Hi. rewrite <- E. by apply elem_of_list_fmap_1. }
      exists f. split; [rewrite list_lookup_insert_ne by done; by rewrite Ev|]. eapply stored_ext; [exact Hs| |done].
      destruct (H2 _ _ F1); lia.
    + apply elem_of_list_singleton in Ha as ->. exists (length (bb c)). split; [by rewrite list_lookup_insert by done|done].
Qed.
Lemma add_step len0 n b dn a : length (bvt b) = n -> slot_of a ∉ (slot_of <$> dn) -> slot_of a < n -> len0 <= length (bb b) ->
  let b' := add_slot b a in
  same_obj b b' /\ length (bb b') <= length (bb b) + 7 /\
  (bbad b = false -> off_of a <= length (bb b) -> (Z.of_nat (length (bb b) + 7) < 2 ^ 30)%Z -> bbad b' = false) /\
  (bbad b' = false -> tinv len0 n b dn -> tinv len0 n b' (dn ++ [a])).
Proof.
  intros HL Hi Hn Hlen. cbn zeta. pose proof (pad4_lt4 (length (bb b))) as Hpad.
  assert ((forall T, stored T a 0) -> tinv len0 n b dn -> tinv len0 n b (dn ++ [a])) as Hskip.
  { intros Hst [H1 H2 H3 H4].
    destruct (lookup_lt_is_Some_2 (bvt b) (slot_of a)) as [f Hf]; [lia|]. pose proof (H3 _ _ Hf Hi) as ->.
    split; [done|done| |].
    - intros i f Hf' Hni. apply (H3 i f Hf'). intros ?. apply Hni. rewrite fmap_app. apply elem_of_app. by left.
    - intros a' Ha. apply elem_of_app in Ha as [Ha|Ha]; [by apply H4|]. apply elem_of_list_singleton in Ha as ->. exists 0. by split. }
  assert (same_obj b b) as Hrefl by (split; [apply bext_refl|done]).
  destruct a as [i off|i x]; cbn [add_slot].
  - destruct (off =? 0) eqn:E.
    { apply Nat.eqb_eq in E as ->. split; [done|]. split; [lia|]. split; [done|]. intros _. apply Hskip. intros T. by left. }
    apply Nat.eqb_neq in E.
    destruct (prepend_uoffset_spec off b) as (A1 & A2 & A3 & A4 & A5 & A6 & A7 & A8). set (c := prepend_uoffset off b) in *.
    cbn zeta in *.
    assert (bbad (slot i c) = false <-> bbad c = false) as Hbc.
    { cbn [slot bbad check]. rewrite A3. cbn [slot_of] in Hn. rewrite HL.
      rewrite (proj2 (Nat.ltb_lt i n)) by done. cbn [negb]. by rewrite orb_false_r. }
    split.
    { split; [|split; [done|split; [done|split; [done|]]]].
      - split; [apply A1|]. intros H. apply Hbc in H. by apply A1.
      - cbn [slot bvt check]. rewrite insert_length. by rewrite A3. }
    split; [cbn [slot bb check]; lia|]. split.
    + intros Hb Ho Hl. apply Hbc, A7. split; [done|]. cbn in Ho. split; [lia|]. lia.
    + intros H HI. apply Hbc in H. apply (slot_step len0 n b c dn (AddU i off)); [done|done|done|apply A1|done|lia|].
      right. split; [done|]. by apply A8.
  - destruct (x =? 0)%Z eqn:E.
    { apply Z.eqb_eq in E as ->. split; [done|]. split; [lia|]. split; [done|]. intros _. apply Hskip. intros T. by left. }
    apply Z.eqb_neq in E.
    destruct (prepend_int32_spec x b) as (A1 & A2 & A3 & A4 & A5 & A6 & A7 & A8). set (c := prepend_int32 x b) in *.
    cbn zeta in *.
    assert (bbad (slot i c) = false <-> bbad c = false) as Hbc.
    { cbn [slot bbad check]. rewrite A3. cbn [slot_of] in Hn. rewrite HL.
      rewrite (proj2 (Nat.ltb_lt i n)) by done. cbn [negb]. by rewrite orb_false_r. }
    split.
    { split; [|split; [done|split; [done|split; [done|]]]].
      - split; [apply A1|]. intros H. apply Hbc in H. by apply A1.
      - cbn [slot bvt check]. rewrite insert_length. by rewrite A3. }
    split; [cbn [slot bb check]; lia|]. split.
    + intros Hb Ho Hl. apply Hbc, A7. split; [done|]. lia.
    + intros H HI. apply Hbc in H. apply (slot_step len0 n b c dn (AddI i x)); [done|done|done|apply A1|done|lia|].
      right. split; [done|]. split; [lia|]. exact A8.
Qed.
Lemma adds_spec len0 n adds : forall b dn, length (bvt b) = n -> NoDup (slot_of <$> dn ++ adds) ->
  Forall (fun a => slot_of a < n) adds -> len0 <= length (bb b) ->
  let b' := fold_left add_slot adds b in
  same_obj b b' /\ length (bb b') <= length (bb b) + 7 * length adds /\
  (bbad b = false -> Forall (fun a => off_of a <= length (bb b)) adds -> (Z.of_nat (length (bb b) + 7 * length adds) < 2 ^ 30)%Z -> bbad b' = false) /\
  (bbad b' = false -> tinv len0 n b dn -> tinv len0 n b' (dn ++ adds)).
Proof.
  induction adds as [|a adds IH]; intros b dn HL Hnd Hf Hlen; cbn zeta; cbn [fold_left].
  { split; [split; [apply bext_refl|done]|]. split; [lia|]. split; [done|]. by rewrite app_nil_r. }
  apply Forall_cons in Hf as [Ha Hf].
  assert (slot_of a ∉ (slot_of <$> dn)) as Hni.
  { rewrite fmap_app in Hnd. apply NoDup_app in Hnd as (_ & Hd & _). intros Hin. apply (Hd _ Hin). cbn. left. }
  destruct (add_step len0 n b dn a HL Hni Ha Hlen) as (A1 & A2 & A3 & A4). cbn zeta in *. set (c := add_slot b a) in *.
  assert (length (bb b) <= length (bb c)) as Hle by (apply suffix_len, A1).
  destruct (IH c (dn ++ [a])) as (B1 & B2 & B3 & B4).
  - destruct A1 as (_ & _ & _ & _ & E). by rewrite E.
  - by rewrite <- app_assoc.
  - done.
  - lia.
  - split; [by eapply same_obj_trans|]. split; [cbn [length]; lia|]. split.
    + intros Hb Ho Hl. apply Forall_cons in Ho as [Ho1 Ho]. cbn [length] in Hl. apply B3.
      * apply A3; [done|done|lia].
      * eapply Forall_impl; [exact Ho|]. intros x Hx. cbv beta in Hx |- *. lia.
      * lia.
    + intros H HI. rewrite <- app_assoc in B4. apply B4; [done|]. apply A4; [|done]. by apply B1.
Qed.

(** * The vtable *)
Lemma trim_length vt : length (trim vt) <= length vt.
Proof. induction vt as [|x vt IH]; cbn; [lia|]. destruct (trim vt) as [|y t]; [destruct (x =? 0); cbn; lia|]. cbn in *. lia. Qed.
Lemma trim_lookup vt : forall i x, vt !! i = Some x -> trim vt !! i = Some x \/ (x = 0 /\ length (trim vt) <= i).
Proof.
  induction vt as [|y vt IH]; intros i x; [done|]. destruct i as [|i]; cbn.
  - intros [= ->]. destruct (trim vt) as [|z t]; [|by left]. destruct (x =? 0) eqn:E; [|by left].
    apply Nat.eqb_eq in E as ->. right. cbn. lia.
  - intros H. destruct (IH i x H) as [H1|[H1 H2]].
    + left. destruct (trim vt) as [|z t]; [done|]. done.
    + right. split; [done|]. destruct (trim vt) as [|z t]; [destruct (y =? 0); cbn; lia|]. cbn in *. lia.
Qed.
Lemma trim_sub vt i x : trim vt !! i = Some x -> vt !! i = Some x.
Proof.
  revert i. induction vt as [|y vt IH]; intros i; [done|]. cbn. destruct (trim vt) as [|z t] eqn:E.
  - destruct (y =? 0); [done|]. by destruct i.
  - destruct i as [|i]; cbn; [done|]. intros H. apply IH. exact H.
Qed.

Definition entry (o x : nat) : Z := (if (x =? 0)%nat then 0 else Z.of_nat o - Z.of_nat x)%Z.
Definition even_len (n : nat) : Prop := n mod 2 = 0.
Lemma pad2_even n : even_len n -> pad_of 2 0 n = 0.
Proof.
  unfold even_len, pad_of. intros H. replace (n + 0) with n by lia.
  assert (Z.of_nat n mod 2 = 0)%Z as H1. { change 2%Z with (Z.of_nat 2). rewrite <- Nat2Z.inj_mod. lia. }
  assert ((- Z.of_nat n) mod 2 = 0)%Z as H2 by (apply Z.mod_opp_l_z; lia). change (Z.of_nat 2) with 2%Z. by rewrite H2.
Qed.
Lemma prepend_voffset_spec x b : even_len (length (bb b)) -> let b' := prepend_voffset x b in
  bb b' = le 2 x ++ bb b /\ bvts b' = bvts b /\ bvt b' = bvt b /\ bobj b' = bobj b /\ bnest b' = bnest b /\
  (bbad b' = false <-> bbad b = false /\ (Z.of_nat (length (bb b) + 2) < 2 ^ 30)%Z).
Proof.
  intros He. cbn zeta. unfold prepend_voffset. split.
  { cbn [place with_bb bb]. rewrite prep_bb, (pad2_even _ He). done. }
  do 4 (split; [done|]). change (bbad (place (le 2 x) (prep 2 0 b))) with (bbad (prep 2 0 b)). rewrite prep_bad, (pad2_even _ He).
  replace (length (bb b) + 0 + 2 + 0) with (length (bb b) + 2) by lia. done.
Qed.
Definition vt_bytes (o : nat) (vt : list nat) : bytes := concat (map (fun x => le 2 (entry o x)) vt).
Lemma vt_bytes_length o vt : length (vt_bytes o vt) = 2 * length vt.
Proof. induction vt as [|x vt IH]; [done|]. unfold vt_bytes in *. cbn [map concat]. rewrite app_length, le_length, IH. cbn. lia. Qed.
Lemma write_entries_spec o vt : forall b, even_len (length (bb b)) -> let b' := write_vtable_entries vt o b in
  bb b' = vt_bytes o vt ++ bb b /\ bvts b' = bvts b /\ bvt b' = bvt b /\ bobj b' = bobj b /\ bnest b' = bnest b /\
  (bbad b' = false -> bbad b = false) /\
  (bbad b = false -> (Z.of_nat (length (bb b) + 2 * length vt) < 2 ^ 30)%Z -> bbad b' = false).
Proof.
  induction vt as [|x vt IH]; intros b He; cbn zeta; [done|].
  unfold write_vtable_entries in *. cbn [rev]. rewrite fold_left_app. cbn [fold_left].
  destruct (IH b He) as (A1 & A2 & A3 & A4 & A5 & A6 & A7). set (c := fold_left _ (rev vt) b) in *.
  assert (length (bb c) = 2 * length vt + length (bb b)) as Lc by (rewrite A1, app_length, vt_bytes_length; done).
  assert (even_len (length (bb c))) as Hc.
  { rewrite Lc. unfold even_len in *. rewrite Nat.add_comm, Nat.mul_comm. by rewrite Nat.mod_add by lia. }
  destruct (prepend_voffset_spec (entry o x) c Hc) as (B1 & B2 & B3 & B4 & B5 & B6). fold (entry o x).
  set (d := prepend_voffset (entry o x) c) in *.
  split; [rewrite B1, A1; unfold vt_bytes; cbn [map concat]; by rewrite <- app_assoc|].
  do 4 (split; [congruence|]). split.
  - intros H. apply A6. by apply B6 in H as [? _].
  - intros Hb Hl. cbn [length] in Hl. apply B6. split; [apply A7; [done|lia]|lia].
Qed.

(** Reading in a prefix only depends on the length of what follows. *)
Lemma rd_prefix n (w X Y : bytes) p : length X = length Y -> length X + n <= p -> p <= length w + length X ->
  rd n (w ++ X) p = rd n (w ++ Y) p.
Proof.
  intros E H1 H2. unfold rd. rewrite !app_length, <- E. f_equal.
  rewrite !drop_app_le by lia. rewrite !take_app_le; [done| |]; rewrite drop_length; lia.
Qed.
Lemma rd_entries o vt : forall X i x, vt !! i = Some x -> (Z.of_nat o < 2 ^ 30)%Z -> (x = 0%nat \/ Z.of_nat o < Z.of_nat x + 65536)%Z -> x <= o ->
  rd 2 (vt_bytes o vt ++ X) (length X + 2 * (length vt - i)) = entry o x.
Proof.
  induction vt as [|y vt IH]; intros X i x; [done|]. unfold vt_bytes. cbn [map concat]. fold (vt_bytes o vt).
  destruct i as [|i]; cbn [lookup list_lookup].
  - intros [= ->] Ho Hx Hle. rewrite <- app_assoc. 
    replace (length X + 2 * (length (x :: vt) - 0)) with (2 + length (vt_bytes o vt ++ X)) by (rewrite app_length, vt_bytes_length; cbn [length]; lia).
    rewrite rd_head. apply Z.mod_small. unfold entry. change (256 ^ Z.of_nat 2)%Z with 65536%Z.
    destruct (x =? 0) eqn:E; [lia|]. apply Nat.eqb_neq in E. lia.
  - intros H Ho Hx Hle. pose proof (lookup_lt_Some _ _ _ H). rewrite <- app_assoc.
    rewrite rd_app by (rewrite app_length, vt_bytes_length; cbn [length]; lia).
    replace (length X + 2 * (length (y :: vt) - S i)) with (length X + 2 * (length vt - i)) by (cbn [length]; lia).
    by apply IH.
Qed.
Lemma patch_split (w m l rest : bytes) : length l = length m ->
  patch (length (m ++ rest)) l (w ++ m ++ rest) = w ++ l ++ rest.
Proof.
  intros E. unfold patch. rewrite app_length.
  replace (length w + length (m ++ rest) - length (m ++ rest)) with (length w) by lia.
  rewrite take_app. f_equal. f_equal. rewrite E. rewrite app_assoc. rewrite <- app_length. by rewrite drop_app.
Qed.

(** * EndObject *)
Definition vtable_bytes (o obj : nat) (vt : list nat) : bytes :=
  le 2 (Z.of_nat ((length vt + 2) * 2)) ++ le 2 (Z.of_nat o - Z.of_nat obj) ++ vt_bytes o vt.
Lemma vtable_bytes_length o obj vt : length (vtable_bytes o obj vt) = 4 + 2 * length vt.
Proof. unfold vtable_bytes. rewrite !app_length, !le_length, vt_bytes_length. lia. Qed.

Lemma aligned_even n : aligned n -> even_len n.
Proof. unfold aligned, even_len. intros H. apply Nat.mod_divides in H as [c ->]; [|lia]. replace (4 * c) with (0 + (2 * c) * 2) by lia. by rewrite Nat.mod_add by lia. Qed.

Lemma end_object_shape q b' o : bnest q = true -> end_object q = (b', o) ->
  let rest := bb (prep 4 0 q) in
  o = 4 + length rest /\ bnest b' = false /\
  exists w v, bb b' = w ++ le 4 (Z.of_nat v - Z.of_nat o) ++ rest /\
    ((w = [] /\ bvts b' = bvts q /\ v ∈ bvts q /\ vtable_equal (trim (bvt q)) o (le 4 0 ++ rest) v = true) \/
     (w = vtable_bytes o (bobj q) (trim (bvt q)) /\ v = length w + o /\ bvts b' = bvts q ++ [v])) /\
    (bbad b' = false -> bbad q = false /\ (Z.of_nat (length rest + 4) < 2 ^ 30)%Z) /\
    (bbad q = false -> (Z.of_nat (length rest + 4 + length w) < 2 ^ 30)%Z -> bbad b' = false) /\
    (bbad b' = false -> (Z.of_nat (length rest + 4 + length w) < 2 ^ 30)%Z).
Proof.
  intros Hn E. cbn zeta. set (rest := bb (prep 4 0 q)).
  unfold end_object in E. set (q1 := assert_nested q) in *.
  destruct (prepend_int32_spec 0 q1) as (A1 & A2 & A3 & A4 & A5 & A6 & A7 & A8). set (r := prepend_int32 0 q1) in *.
  cbn zeta in *.
  assert (bb r = le 4 0 ++ rest) as Er by done.
  assert (bbad q1 = bbad q) as Eq1 by (unfold q1; cbn [assert_nested check bbad]; rewrite Hn; apply orb_false_r).
  assert (offset r = 4 + length rest) as Eo by (unfold offset; rewrite Er, app_length, le_length; done).
  assert (length rest = pad_of 4 0 (length (bb q)) + length (bb q)) as Lr by exact (prep_len 4 0 q).
  assert (bbad r = false <-> bbad q = false /\ (Z.of_nat (length rest + 4) < 2 ^ 30)%Z) as Hr.
  { rewrite A7, Eq1. change (bb q1) with (bb q). rewrite Lr.
    replace (pad_of 4 0 (length (bb q)) + length (bb q) + 4) with (length (bb q) + pad_of 4 0 (length (bb q)) + 4) by lia. done. }
  assert (aligned (length (bb r))) as Har.
  { change (length (bb r)) with (offset r). rewrite Eo, Lr. pose proof (pad_makes_aligned 0 (length (bb q)) ltac:(done)) as H.
    unfold aligned in *. rewrite Nat.add_comm. replace (pad_of 4 0 (length (bb q)) + length (bb q) + 4) with (pad_of 4 0 (length (bb q)) + length (bb q) + 1 * 4) by lia.
    by rewrite Nat.mod_add by lia. }
  assert (bvt r = bvt q) as Evt by (rewrite A3; done).
  assert (bvts r = bvts q) as Evts by (rewrite A2; done).
  assert (bobj r = bobj q) as Eobj by (rewrite A4; done).
  destruct (find_vtable (trim (bvt r)) (offset r) r) as [v|] eqn:Ef.
  - injection E as <- <-. split; [done|]. split; [done|]. exists [], v.
    split; [|split; [left|split; [|split]]].
    + change (patch (offset r) (le 4 (Z.of_nat v - Z.of_nat (offset r))) (bb r) = [] ++ le 4 (Z.of_nat v - Z.of_nat (offset r)) ++ rest).
      rewrite Er. replace (offset r) with (length (le 4 0 ++ rest)) by (by rewrite <- Er).
      apply (patch_split []). by rewrite !le_length.
    + unfold find_vtable in Ef. apply find_some in Ef as [F1 F2]. rewrite Evts, Evt, Er in *.
      split; [done|]. split; [done|]. split; [|by rewrite Eo in *].
      apply elem_of_list_In. by apply in_rev.
    + cbn [bbad with_bb]. apply Hr.
    + cbn [bbad with_bb length]. intros. apply Hr. split; [done|lia].
    + cbn [bbad with_bb length]. intros H. apply Hr in H. lia.
  - destruct (write_entries_spec (offset r) (trim (bvt r)) r (aligned_even _ Har)) as (B1 & B2 & B3 & B4 & B5 & B6 & B7). cbn zeta in *.
    set (c := write_vtable_entries (trim (bvt r)) (offset r) r) in *.
    assert (length (bb c) = 2 * length (trim (bvt r)) + length (bb r)) as Lc by (rewrite B1, app_length, vt_bytes_length; done).
    assert (even_len (length (bb c))) as Hc.
    { rewrite Lc. pose proof (aligned_even _ Har) as H. unfold even_len in *. rewrite Nat.add_comm, Nat.mul_comm. by rewrite Nat.mod_add by lia. }
    destruct (prepend_voffset_spec (Z.of_nat (offset r) - Z.of_nat (bobj c)) c Hc) as (C1 & C2 & C3 & C4 & C5 & C6). cbn zeta in *.
    set (d := prepend_voffset _ c) in *.
    assert (length (bb d) = 2 + length (bb c)) as Ld by (rewrite C1, app_length, le_length; done).
    assert (even_len (length (bb d))) as Hd.
    { rewrite Ld. unfold even_len in *. replace (2 + length (bb c)) with (length (bb c) + 1 * 2) by lia. by rewrite Nat.mod_add by lia. }
    destruct (prepend_voffset_spec (Z.of_nat ((length (trim (bvt r)) + 2) * 2)) d Hd) as (D1 & D2 & D3 & D4 & D5 & D6). cbn zeta in *.
    set (e := prepend_voffset _ d) in *.
    assert (length (bb e) = 2 + length (bb d)) as Le by (rewrite D1, app_length, le_length; done).
    injection E as E1 E2. rewrite <- E2. split; [done|].
    set (w := vtable_bytes (offset r) (bobj q) (trim (bvt q))).
    assert (bb e = w ++ bb r) as Ee.
    { rewrite D1, C1, B1. unfold w, vtable_bytes. rewrite B4, Eobj, Evt. by rewrite <- !app_assoc. }
    assert (offset e = length w + offset r) as Oe by (unfold offset; rewrite Ee, app_length; done).
    split; [by rewrite <- E1|]. exists w, (offset e).
    split; [|split; [right|split; [|split]]].
    + rewrite <- E1. change (patch (offset r) (le 4 (Z.of_nat (offset e) - Z.of_nat (offset r))) (bb e) = w ++ le 4 (Z.of_nat (offset e) - Z.of_nat (offset r)) ++ rest).
      rewrite Ee, Er. replace (offset r) with (length (le 4 0 ++ rest)) by (by rewrite <- Er).
      apply patch_split. by rewrite !le_length.
    + split; [done|]. split; [done|]. rewrite <- E1. change (bvts e ++ [offset e] = bvts q ++ [offset e]). by rewrite D2, C2, B2, Evts.
    + rewrite <- E1. change (bbad e = false -> bbad q = false /\ (Z.of_nat (length rest + 4) < 2 ^ 30)%Z). intros H. apply Hr. apply B6. apply D6 in H as [H _]. by apply C6 in H as [H _].
    + rewrite <- E1. intros Hb Hl. change (bbad e = false). unfold w in Hl. rewrite vtable_bytes_length in Hl.
      assert (length (bb r) = 4 + length rest) as Lr' by exact Eo. rewrite Evt in *.
      apply D6. split; [apply C6; split; [apply B7|]|].
      * apply Hr. split; [done|]. lia.
      * lia.
      * lia.
      * lia.
    + rewrite <- E1. intros H. change (bbad e = false) in H. apply D6 in H as [_ H].
      assert (length (bb r) = 4 + length rest) as Lr' by exact Eo. unfold w. rewrite vtable_bytes_length. rewrite Evt in *. lia.
Qed.

(** What the finished vtable says about slot [i]. *)
Lemma vtable_equal_slots a o T v k : vtable_equal a o T v = true -> rd 2 T v = Z.of_nat (4 + 2 * k) ->
  length a = k /\ forall i x, a !! i = Some x -> slot_val T v i = 0%Z /\ x = 0 \/ slot_val T v i = (Z.of_nat o - Z.of_nat x)%Z.
Proof.
  unfold vtable_equal. rewrite andb_true_iff, Z.eqb_eq. intros [H1 H2] Hk. rewrite Hk in H1.
  split; [lia|]. intros i x Hi. pose proof (lookup_lt_Some _ _ _ Hi).
  rewrite forallb_forall in H2. specialize (H2 (i, x)). cbn [fst snd] in H2.
  assert (In (i, x) (imap pair a)) as Hin.
  { apply elem_of_list_In. apply elem_of_lookup_imap. by exists i, x. }
  specialize (H2 Hin). unfold slot_val. rewrite Hk. rewrite (proj2 (Z.ltb_lt _ _)) by lia.
  apply orb_prop in H2 as [H2|H2].
  - apply andb_prop in H2 as [G1 G2]. left. split; [by apply Z.eqb_eq|by apply Nat.eqb_eq].
  - right. by apply Z.eqb_eq.
Qed.

Lemma entry_nz o f : f <> 0 -> entry o f = (Z.of_nat o - Z.of_nat f)%Z.
Proof. intros H. unfold entry. by rewrite (proj2 (Nat.eqb_neq f 0)). Qed.

(** The vtable of a finished table maps slot [i] to the place where the slot was
    written, whether the vtable is new or shared with an earlier table. *)
Lemma end_object_slots len0 n adds q b' o : bnest q = true -> end_object q = (b', o) -> bbad b' = false ->
  tinv len0 n q adds -> vts_ok q -> bobj q = len0 -> len0 <= length (bb q) -> length (bb q) <= len0 + 1000 -> n <= 1000 ->
  exists v, tbl_at (bb b') o v /\ v <= length (bb b') /\ vts_ok b' /\
    forall i f, bvt q !! i = Some f -> slot_val (bb b') v i = entry o f.
Proof.
  intros Hn E Hbad HT Hv Hobj Hl1 Hl2 Hn2.
  destruct (end_object_shape q b' o Hn E) as (Ho & Hnest & w & v & Hbb & Hcase & G1 & G2 & G3). cbn zeta in *.
  set (rest := bb (prep 4 0 q)) in *. specialize (G1 Hbad) as [Hqb Hlen]. specialize (G3 Hbad).
  assert (length rest = pad_of 4 0 (length (bb q)) + length (bb q)) as Lr by exact (prep_len 4 0 q).
  pose proof (pad4_lt4 (length (bb q))) as Hpad.
  assert (bb q `suffix_of` rest) as Hs1 by apply prep_ext.
  remember (bb b') as T eqn:ET.
  assert (rest `suffix_of` T) as Hs2. { exists (w ++ le 4 (Z.of_nat v - Z.of_nat o)). by rewrite <- app_assoc. }
  assert (length T = length w + o) as LT by (rewrite Hbb, !app_length, le_length; lia).
  assert ((Z.of_nat v < 2 ^ 30)%Z /\ vt_ok T v /\ v <= length T /\ vts_ok b' /\
    forall i f, bvt q !! i = Some f -> slot_val T v i = entry o f) as (K1 & K2 & K3 & K4 & K5).
  2: { exists v. split; [|done]. split; [lia|]. split; [lia|]. split; [lia|]. split; [done|].
       rewrite Hbb. rewrite rd_app by (rewrite app_length, le_length; lia).
       rewrite Ho. rewrite rd_head. change (256 ^ Z.of_nat 4)%Z with (2 ^ 32)%Z.
       assert (- 2 ^ 31 <= Z.of_nat v - Z.of_nat (4 + length rest) < 2 ^ 31)%Z as Hrange by lia.
       unfold wrap32, wrap. rewrite Zplus_mod_idemp_l. rewrite Z.mod_small by lia. lia. }
  destruct HT as [HL HR HU HS].
  destruct Hcase as [(-> & Ebv & Hin & Heq)|(Ew & Ev & Ebv)].
  - destruct (Hv v Hin) as (V1 & V2 & V3).
    assert (bb q `suffix_of` T) as HsT by (by transitivity rest).
    assert (bb q `suffix_of` (le 4 0 ++ rest)) as HsT0 by (transitivity rest; [done|by eexists]).
    assert (forall i, slot_val T v i = slot_val (bb q) v i) as Es by (intros; by apply slot_val_ext).
    assert (forall i, slot_val (le 4 0 ++ rest) v i = slot_val (bb q) v i) as Es0 by (intros; by apply slot_val_ext).
    destruct V1 as (k & V1a & V1b).
    assert (rd 2 (le 4 0 ++ rest) v = Z.of_nat (4 + 2 * k)) as Hk by (rewrite (rd_suffix 2 (bb q)) by (done || lia); done).
    destruct (vtable_equal_slots _ _ _ _ _ Heq Hk) as [Hlk Hsl].
    split; [done|]. split; [apply (vt_ok_ext (bb q)); [done|by exists k]|]. split; [rewrite LT; cbn; lia|]. split.
    { intros v' Hv'. rewrite Ebv in Hv'. destruct (Hv v' Hv') as (W1 & W2 & W3).
      rewrite <- ET. split; [by apply (vt_ok_ext (bb q))|]. split; [done|]. intros i. rewrite (slot_val_ext (bb q)) by done. apply W3. }
    intros i f Hf. rewrite Es, <- Es0. destruct (trim_lookup _ _ _ Hf) as [Ht|[-> Ht]].
    + destruct (Hsl i f Ht) as [[H1 ->]|H1]; [by rewrite H1|].
      destruct (decide (f = 0)) as [->|Hf0]; [|by rewrite entry_nz].
      exfalso. specialize (V3 i). rewrite <- Es0, H1 in V3. lia.
    + unfold slot_val. rewrite Hk. rewrite (proj2 (Z.ltb_ge _ _)) by lia. done.
  - set (vt := trim (bvt q)) in *. set (k := length vt) in *.
    assert (k <= n) as Hkn by (rewrite <- HL; apply trim_length).
    assert (length w = 4 + 2 * k) as Lw by (rewrite Ew; apply vtable_bytes_length).
    set (X := le 4 (Z.of_nat v - Z.of_nat o) ++ rest) in *.
    assert (length X = o) as LX by (unfold X; rewrite app_length, le_length; lia).
    assert (T = le 2 (Z.of_nat ((k + 2) * 2)) ++ le 2 (Z.of_nat o - Z.of_nat (bobj q)) ++ vt_bytes o vt ++ X) as HT.
    { rewrite Hbb, Ew. unfold vtable_bytes. fold k. by rewrite <- !app_assoc. }
    assert (rd 2 T v = Z.of_nat (4 + 2 * k)) as Hrv.
    { rewrite HT. rewrite Ev, Lw.
      replace (4 + 2 * k + o) with (2 + length (le 2 (Z.of_nat o - Z.of_nat (bobj q)) ++ vt_bytes o vt ++ X))
        by (rewrite !app_length, le_length, vt_bytes_length; fold k; lia).
      rewrite rd_head. change (256 ^ Z.of_nat 2)%Z with 65536%Z. rewrite Z.mod_small by lia. lia. }
    assert (forall i x, vt !! i = Some x -> rd 2 T (v - 4 - 2 * i) = entry o x) as Hrd.
    { intros i x Hx. pose proof (lookup_lt_Some _ _ _ Hx) as Hlt. fold k in Hlt.
      replace (v - 4 - 2 * i) with (length X + 2 * (k - i)) by lia.
      rewrite HT. rewrite rd_app by (rewrite !app_length, le_length, vt_bytes_length; fold k; lia).
      rewrite rd_app by (rewrite !app_length, vt_bytes_length; fold k; lia).
      apply rd_entries; [done|lia| |].
      - apply trim_sub in Hx. destruct (HR _ _ Hx); [by left|right; lia].
      - apply trim_sub in Hx. destruct (HR _ _ Hx); lia. }
    assert (forall i f, bvt q !! i = Some f -> slot_val T v i = entry o f) as Hslots.
    { intros i f Hf. unfold slot_val. rewrite Hrv. destruct (trim_lookup _ _ _ Hf) as [Ht|[-> Ht]].
      - pose proof (lookup_lt_Some _ _ _ Ht) as Hlt. fold vt k in Hlt. rewrite (proj2 (Z.ltb_lt _ _)) by lia. by apply Hrd.
      - fold vt k in Ht. rewrite (proj2 (Z.ltb_ge _ _)) by lia. done. }
    assert (vt_ok T v) as Hok. { exists k. split; [|done]. rewrite LT. lia. }
    split; [lia|]. split; [done|]. split; [lia|]. split; [|done].
    intros v' Hv'. rewrite Ebv in Hv'. apply elem_of_app in Hv' as [Hv'|Hv'].
    + destruct (Hv v' Hv') as (W1 & W2 & W3). assert (bb q `suffix_of` T) as HsT by (by transitivity rest).
      rewrite <- ET. split; [by apply (vt_ok_ext (bb q))|]. split; [done|]. intros i. rewrite (slot_val_ext (bb q)) by done. apply W3.
    + apply elem_of_list_singleton in Hv' as ->. rewrite <- ET. split; [done|]. split; [lia|]. intros i.
      unfold slot_val. rewrite Hrv. destruct (Z.of_nat (4 + 2 * i) <? Z.of_nat (4 + 2 * k))%Z eqn:Elt; [|lia].
      apply Z.ltb_lt in Elt. destruct (lookup_lt_is_Some_2 vt i) as [x Hx]; [fold k; lia|].
      rewrite (Hrd i x Hx). unfold entry. destruct (x =? 0); lia.
Qed.

(** Slot [i] of the table at [o] is absent. *)
Definition unset (T : bytes) (o i : nat) : Prop := exists v, tbl_at T o v /\ slot_val T v i = 0%Z.
Lemma unset_ext T T' o i : T `suffix_of` T' -> unset T o i -> unset T' o i.
Proof.
  intros Hs (v & H1 & H2). exists v. split; [by eapply tbl_at_ext|]. rewrite (slot_val_ext T) by (done || by destruct H1 as (_ & _ & _ & ? & _)). done.
Qed.
(** * The calls XStart; XAdd...; XEnd *)
Lemma build_table_spec n adds b b' o : bnest b = false -> build_table n adds b = (b', o) ->
  NoDup (slot_of <$> adds) -> Forall (fun a => slot_of a < n) adds -> length adds <= 100 -> n <= 100 ->
  (Forall (fun a => off_of a <= length (bb b)) adds -> outside b b' (7 * length adds + 2 * n + 11)) /\
  bext b b' /\ bnest b' = false /\ 4 <= o <= length (bb b') /\
  (bbad b' = false -> vts_ok b -> vts_ok b' /\
     (forall i off, AddU i off ∈ adds -> off <> 0 -> has_u (bb b') o i off) /\
     (forall i x, AddI i x ∈ adds -> has_i (bb b') o i (wrap32 x)) /\
     (forall i, i < n -> i ∉ (slot_of <$> adds) -> unset (bb b') o i)).
Proof.
  intros Hn E Hnd Hf Ha1 Hn1. unfold build_table in E. set (s := start_object n b) in *.
  assert (bbad s = bbad b) as Es by (change (bbad b || negb (negb (bnest b)) = bbad b); rewrite Hn; apply orb_false_r).
  assert (tinv (length (bb b)) n s []) as HT0.
  { split.
    - apply replicate_length.
    - intros i f Hif. change (bvt s) with (replicate n 0) in Hif. apply lookup_replicate in Hif as [-> _]. by left.
    - intros i f Hif _. change (bvt s) with (replicate n 0) in Hif. by apply lookup_replicate in Hif as [-> _].
    - intros a Hin. by apply elem_of_nil in Hin. }
  destruct (adds_spec (length (bb b)) n adds s []) as (A1 & A2 & A3 & A4); [apply replicate_length|done|done|done|].
  cbn zeta in *. set (q := fold_left add_slot adds s) in *. change (bb s) with (bb b) in *.
  destruct A1 as (B1 & B2 & B3 & B4 & B5). 
  assert (bnest q = true) as Nq by (rewrite B4; done).
  pose proof (suffix_len _ _ (be_bytes _ _ B1)) as Hle. change (bb s) with (bb b) in Hle.
  assert (bext b q) as Hbq. { split; [apply B1|]. intros H. rewrite <- Es. by apply B1. }
  destruct (end_object_shape q b' o Nq E) as (Ho & Hnest & w & v & Hbb & Hcase & G1 & G2 & G3). cbn zeta in *.
  set (rest := bb (prep 4 0 q)) in *.
  assert (length rest = pad_of 4 0 (length (bb q)) + length (bb q)) as Lr by exact (prep_len 4 0 q).
  pose proof (pad4_lt4 (length (bb q))) as Hpad.
  assert (bb q `suffix_of` rest) as Hs1 by apply prep_ext.
  assert (bb q `suffix_of` bb b') as Hs2.
  { rewrite Hbb. transitivity rest; [done|]. exists (w ++ le 4 (Z.of_nat v - Z.of_nat o)). by rewrite <- app_assoc. }
  assert (length (bb b') = length w + o) as LT by (rewrite Hbb, !app_length, le_length; lia).
  assert (length w <= 4 + 2 * n) as Lw.
  { destruct Hcase as [(-> & _)|(-> & _)]; [cbn; lia|]. rewrite vtable_bytes_length. pose proof (trim_length (bvt q)).
    rewrite B5 in H. change (bvt s) with (replicate n 0) in H. rewrite replicate_length in H. lia. }
  assert (bext b b') as Hext.
  { split; [transitivity (bb q); [apply Hbq|done]|]. intros H. apply Hbq. by apply G1. }
  assert (bbad b' = false -> vts_ok b -> vts_ok b' /\
     (forall i off, AddU i off ∈ adds -> off <> 0 -> has_u (bb b') o i off) /\
     (forall i x, AddI i x ∈ adds -> has_i (bb b') o i (wrap32 x)) /\
     (forall i, i < n -> i ∉ (slot_of <$> adds) -> unset (bb b') o i)) as Hmain.
  { intros Hb Hv. destruct (G1 Hb) as [Hqb Hlen]. specialize (A4 Hqb HT0). rewrite app_nil_l in A4.
    assert (vts_ok q) as Hvq by (apply (vts_ok_same b); [done|apply Hbq|done]).
    destruct (end_object_slots (length (bb b)) n adds q b' o Nq E Hb A4 Hvq) as (v' & K1 & K2 & K3 & K4); [done|lia|lia|lia|].
    split; [done|]. split; [|split].
    - intros i off Hin Hoff. destruct (ti_stored _ _ _ _ A4 _ Hin) as (f & F1 & F2). cbn in F1, F2.
      destruct F2 as [[? _]|[_ F2]]; [done|].
      assert (f <= length (bb q)) as Hfl by (destruct F2 as (? & _); lia).
      exists v', f. split; [done|]. split; [lia|]. split; [rewrite (K4 _ _ F1); apply entry_nz; destruct F2 as (? & _); lia|].
      by eapply uref_ext.
    - intros i x Hin. destruct (ti_stored _ _ _ _ A4 _ Hin) as (f & F1 & F2). cbn in F1, F2. exists v'. split; [done|].
      destruct F2 as [[-> ->]|(Hx & Hf0 & F2)].
      + left. split; [by rewrite wrap32_0|]. by rewrite (K4 _ _ F1).
      + right. destruct (ti_range _ _ _ _ A4 _ _ F1) as [->|Hfl]; [done|].
        exists f. split; [lia|]. split; [lia|]. split; [rewrite (K4 _ _ F1); apply entry_nz; lia|].
          rewrite (rd_suffix 4 (bb q)) by (done || lia). rewrite F2. unfold wrap32, wrap. by rewrite Zplus_mod_idemp_l.
    - intros i Hi Hni. exists v'. split; [done|]. destruct (lookup_lt_is_Some_2 (bvt q) i) as [f Hf']; [rewrite (ti_len _ _ _ _ A4); done|].
      rewrite (K4 _ _ Hf'). by rewrite (ti_unset _ _ _ _ A4 _ _ Hf' Hni). }
  split; [|split; [done|split; [done|split; [lia|done]]]].
  intros Hoffs. split; [done|split; [done|split; [lia|split]]].
  - intros Hb Hl. apply G2; [|lia]. apply A3; [by rewrite Es|done|lia].
  - intros Hb Hv. by apply Hmain.
Qed.
