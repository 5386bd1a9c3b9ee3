(** Proofs about the byte-level flatbuffers builder. *)
From Verif Require Import Base M_Flat P_Base.
#[local] Open Scope nat_scope.

(** * Integers *)
Lemma le_length n z : length (le n z) = n.
Proof. revert z. induction n as [|n IH]; intros z; [done|]. cbn. by rewrite IH. Qed.
Lemma unle_le n z : unle (le n z) = (z mod 256 ^ Z.of_nat n)%Z.
Proof.
  revert z. induction n as [|n IH]; intros z; [by rewrite Z.mod_1_r|].
  cbn [le unle]. rewrite IH. rewrite Nat2Z.inj_succ, Z.pow_succ_r by lia. rewrite Z.rem_mul_r by lia. done.
Qed.
Lemma unle_le_small n z : (0 <= z < 256 ^ Z.of_nat n)%Z -> unle (le n z) = z.
Proof. intros. rewrite unle_le. by apply Z.mod_small. Qed.

Lemma bytes_of_length s : length (bytes_of s) = String.length s.
Proof. induction s as [|a s IH]; cbn; [done|]. by rewrite IH. Qed.
Lemma string_of_bytes_of s : string_of (bytes_of s) = s.
Proof.
  induction s as [|a s IH]; cbn; [done|]. rewrite IH. f_equal. rewrite N2Z.id. apply ascii_N_embedding.
Qed.

(** * Reading from the end *)
Lemma drop_suffix (xs buf : bytes) o : o <= length buf -> drop (length (xs ++ buf) - o) (xs ++ buf) = drop (length buf - o) buf.
Proof.
  intros H. rewrite app_length. replace (length xs + length buf - o) with (length xs + (length buf - o)) by lia.
  by rewrite <- drop_drop, drop_app.
Qed.
Lemma rd_app n xs buf o : o <= length buf -> rd n (xs ++ buf) o = rd n buf o.
Proof. intros H. unfold rd. by rewrite drop_suffix. Qed.
Lemma rd_suffix n buf buf' o : buf `suffix_of` buf' -> o <= length buf -> rd n buf' o = rd n buf o.
Proof. intros [xs ->]. apply rd_app. Qed.
Lemma rd_head n z buf : rd n (le n z ++ buf) (n + length buf) = (z mod 256 ^ Z.of_nat n)%Z.
Proof.
  unfold rd. rewrite app_length, le_length. replace (n + length buf - (n + length buf)) with 0 by lia.
  rewrite drop_0. rewrite take_app_alt by (by rewrite le_length). apply unle_le.
Qed.
Lemma suffix_len (a b : bytes) : a `suffix_of` b -> length a <= length b.
Proof. intros [xs ->]. rewrite app_length. lia. Qed.

(** * Facts about a buffer, stable when it is extended at the front *)
Definition str_at (T : bytes) (o : nat) (s : string) : Prop :=
  4 + String.length s <= o <= length T /\ rd 4 T o = Z.of_nat (String.length s) /\
  take (String.length s) (drop (length T - (o - 4)) T) = bytes_of s.
Definition uref (T : bytes) (f target : nat) : Prop :=
  4 <= f <= length T /\ target <= f /\ (Z.of_nat f < 2 ^ 31)%Z /\ rd 4 T f = (Z.of_nat f - Z.of_nat target)%Z.
Definition vec_at (T : bytes) (o : nat) (offs : list nat) : Prop :=
  4 + 4 * length offs <= o <= length T /\ rd 4 T o = Z.of_nat (length offs) /\
  forall i off, offs !! i = Some off -> uref T (o - 4 - 4 * i) off.
Definition slot_val (T : bytes) (vt i : nat) : Z :=
  if (Z.of_nat (4 + 2 * i) <? rd 2 T vt)%Z then rd 2 T (vt - 4 - 2 * i) else 0%Z.
Definition vt_ok (T : bytes) (vt : nat) : Prop :=
  exists k, 4 + 2 * k <= vt <= length T /\ rd 2 T vt = Z.of_nat (4 + 2 * k).
Definition tbl_at (T : bytes) (o vt : nat) : Prop :=
  4 <= o <= length T /\ (Z.of_nat o < 2 ^ 31)%Z /\ (Z.of_nat vt < 2 ^ 31)%Z /\ vt_ok T vt /\
  wrap32 (rd 4 T o) = (Z.of_nat vt - Z.of_nat o)%Z.
(** Slot [i] of the table at [o] refers to [target] / holds the integer [x]. *)
Definition has_u (T : bytes) (o i target : nat) : Prop :=
  exists vt f, tbl_at T o vt /\ f < o /\ slot_val T vt i = (Z.of_nat o - Z.of_nat f)%Z /\ uref T f target.
Definition has_i (T : bytes) (o i : nat) (x : Z) : Prop :=
  exists vt, tbl_at T o vt /\
    ((x = 0%Z /\ slot_val T vt i = 0%Z) \/
     (exists f, f < o /\ 4 <= f /\ slot_val T vt i = (Z.of_nat o - Z.of_nat f)%Z /\ wrap32 (rd 4 T f) = x)).

Section stable.
  Variables (T T' : bytes) (Hs : T `suffix_of` T').
  Lemma str_at_ext o s : str_at T o s -> str_at T' o s.
  Proof.
    intros (H1 & H2 & H3). pose proof (suffix_len _ _ Hs). split; [lia|].
    split; [rewrite (rd_suffix 4 T T') by (done || lia); done|].
    destruct Hs as [xs ->]. rewrite drop_suffix by lia. done.
  Qed.
  Lemma uref_ext f t : uref T f t -> uref T' f t.
  Proof.
    intros (H1 & H2 & H3 & H4). pose proof (suffix_len _ _ Hs). split; [lia|]. split; [done|]. split; [done|].
    by rewrite (rd_suffix 4 T T') by (done || lia).
  Qed.
  Lemma vec_at_ext o offs : vec_at T o offs -> vec_at T' o offs.
  Proof.
    intros (H1 & H2 & H3). pose proof (suffix_len _ _ Hs). split; [lia|].
    split; [by rewrite (rd_suffix 4 T T') by (done || lia)|]. intros i off H4. by apply uref_ext, H3.
  Qed.
  Lemma vt_ok_ext vt : vt_ok T vt -> vt_ok T' vt.
  Proof.
    intros (k & H1 & H2). pose proof (suffix_len _ _ Hs). exists k. split; [lia|]. by rewrite (rd_suffix 2 T T') by (done || lia).
  Qed.
  Lemma slot_val_ext vt i : vt_ok T vt -> slot_val T' vt i = slot_val T vt i.
  Proof.
    intros (k & H1 & H2). unfold slot_val. rewrite (rd_suffix 2 T T') by (done || lia).
    destruct (Z.of_nat (4 + 2 * i) <? rd 2 T vt)%Z; [|done]. apply rd_suffix; [done|lia].
  Qed.
  Lemma tbl_at_ext o vt : tbl_at T o vt -> tbl_at T' o vt.
  Proof.
    intros (H1 & H2 & H3 & H4 & H5). pose proof (suffix_len _ _ Hs). split; [lia|]. split; [done|]. split; [done|].
    split; [by apply vt_ok_ext|]. by rewrite (rd_suffix 4 T T') by (done || lia).
  Qed.
  Lemma has_u_ext o i t : has_u T o i t -> has_u T' o i t.
  Proof.
    intros (vt & f & H1 & H2 & H3 & H4). exists vt, f. split; [by apply tbl_at_ext|]. split; [done|].
    split; [|by apply uref_ext]. rewrite slot_val_ext; [done|]. by destruct H1 as (_ & _ & _ & ? & _).
  Qed.
  Lemma has_i_ext o i x : has_i T o i x -> has_i T' o i x.
  Proof.
    intros (vt & H1 & H2). exists vt. split; [by apply tbl_at_ext|].
    assert (vt_ok T vt) as Hv by by destruct H1 as (_ & _ & _ & ? & _). rewrite slot_val_ext by done.
    destruct H2 as [H2|(f & F1 & F2 & F3 & F4)]; [by left|right]. exists f. split; [done|]. split; [done|]. split; [done|].
    rewrite (rd_suffix 4 T T'); [done|done|]. destruct H1 as (? & _). lia.
  Qed.
End stable.

(** * Builder operations *)
Record bext (b b' : builder) : Prop := mkExt {
  be_bytes : bb b `suffix_of` bb b';
  be_bad : bbad b' = false -> bbad b = false
}.
Lemma bext_refl b : bext b b.
Proof. by split. Qed.
Lemma bext_trans a b c : bext a b -> bext b c -> bext a c.
Proof. intros [H1 H2] [H3 H4]. split; [by transitivity (bb b)|auto]. Qed.

(** What an operation that starts and ends outside any object does. *)
Definition vts_ok (b : builder) : Prop := forall v, v ∈ bvts b ->
  vt_ok (bb b) v /\ (Z.of_nat v < 2 ^ 30)%Z /\ forall i, (slot_val (bb b) v i <= Z.of_nat v)%Z.

Lemma check_bad ok b : bbad (check ok b) = false <-> bbad b = false /\ ok = true.
Proof. cbn. destruct (bbad b), ok; cbn; naive_solver. Qed.

Definition pad_of (size additional len : nat) : nat := Z.to_nat ((- Z.of_nat (len + additional)) mod Z.of_nat size)%Z.
Lemma pad_lt size additional len : 0 < size -> pad_of size additional len < size.
Proof.
  intros H. unfold pad_of. pose proof (Z.mod_pos_bound (- Z.of_nat (len + additional)) (Z.of_nat size)). lia.
Qed.
Lemma prep_bb size additional b : bb (prep size additional b) = replicate (pad_of size additional (length (bb b))) 0%Z ++ bb b.
Proof. done. Qed.
Lemma prep_bad size additional b : bbad (prep size additional b) = false <->
  bbad b = false /\ (Z.of_nat (length (bb b) + pad_of size additional (length (bb b)) + size + additional) < 2 ^ 30)%Z.
Proof. unfold prep, offset, pad_of. cbn. rewrite orb_false_iff, negb_false_iff, Z.ltb_lt. done. Qed.
Lemma prep_len size additional b : length (bb (prep size additional b)) = pad_of size additional (length (bb b)) + length (bb b).
Proof. by rewrite prep_bb, app_length, replicate_length. Qed.
Lemma prep_ext size additional b : bext b (prep size additional b).
Proof. split; [by eexists|]. intros H. by apply prep_bad in H as [? _]. Qed.

(** prepend_uoffset / prepend_int32: the new word is at the new offset. *)
Lemma prepend_uoffset_spec off b : let b' := prepend_uoffset off b in
  bext b b' /\ bvts b' = bvts b /\ bvt b' = bvt b /\ bobj b' = bobj b /\ bnest b' = bnest b /\
  length (bb b') = 4 + pad_of 4 0 (length (bb b)) + length (bb b) /\
  (bbad b' = false <-> bbad b = false /\ off <= pad_of 4 0 (length (bb b)) + length (bb b) /\
      (Z.of_nat (length (bb b) + pad_of 4 0 (length (bb b)) + 4) < 2 ^ 30)%Z) /\
  (bbad b' = false -> uref (bb b') (offset b') off).
Proof.
  unfold prepend_uoffset. set (p := prep 4 0 b). set (c := check _ p).
  assert (bb c = bb p) as Ec by done.
  assert (length (bb p) = pad_of 4 0 (length (bb b)) + length (bb b)) as Lp by apply prep_len.
  assert (bbad c = false <-> bbad b = false /\ off <= pad_of 4 0 (length (bb b)) + length (bb b) /\
      (Z.of_nat (length (bb b) + pad_of 4 0 (length (bb b)) + 4) < 2 ^ 30)%Z) as Hb.
  { unfold c. rewrite check_bad. unfold p at 1. rewrite prep_bad. unfold offset. rewrite Nat.leb_le, Lp.
    replace (length (bb b) + pad_of 4 0 (length (bb b)) + 4 + 0) with (length (bb b) + pad_of 4 0 (length (bb b)) + 4) by lia. tauto. }
  cbn zeta. split; [|split; [done|split; [done|split; [done|split; [done|split; [|split]]]]]].
  - split.
    + cbn [place with_bb bb]. rewrite Ec. destruct (prep_ext 4 0 b) as [H _]. fold p in H. etransitivity; [exact H|]. by eexists.
    + intros H. by apply Hb in H as [? _].
  - cbn [place with_bb bb]. rewrite app_length, le_length, Ec, Lp. lia.
  - exact Hb.
  - intros H. apply Hb in H as (H1 & H2 & H3). unfold uref, offset. cbn [place with_bb bb]. rewrite Ec.
    rewrite app_length, le_length. split; [lia|]. split; [lia|].
    assert (Z.of_nat (4 + length (bb p)) < 2 ^ 30)%Z by (rewrite Lp; lia).
    split; [lia|]. rewrite rd_head. rewrite Z.mod_small; [lia|].
    change (256 ^ Z.of_nat 4)%Z with (2 ^ 32)%Z. lia.
Qed.
Lemma prepend_int32_spec x b : let b' := prepend_int32 x b in
  bext b b' /\ bvts b' = bvts b /\ bvt b' = bvt b /\ bobj b' = bobj b /\ bnest b' = bnest b /\
  length (bb b') = 4 + pad_of 4 0 (length (bb b)) + length (bb b) /\
  (bbad b' = false <-> bbad b = false /\ (Z.of_nat (length (bb b) + pad_of 4 0 (length (bb b)) + 4) < 2 ^ 30)%Z) /\
  rd 4 (bb b') (offset b') = (x mod 2 ^ 32)%Z.
Proof.
  unfold prepend_int32. set (p := prep 4 0 b).
  assert (length (bb p) = pad_of 4 0 (length (bb b)) + length (bb b)) as Lp by apply prep_len.
  cbn zeta. split; [|split; [done|split; [done|split; [done|split; [done|split; [|split]]]]]].
  - split.
    + cbn [place with_bb bb]. destruct (prep_ext 4 0 b) as [H _]. fold p in H. etransitivity; [exact H|]. by eexists.
    + intros H. cbn in H. by apply (prep_bad 4 0 b) in H as [? _].
  - cbn [place with_bb bb]. rewrite app_length, le_length, Lp. lia.
  - change (bbad (place (le 4 x) p)) with (bbad (prep 4 0 b)). rewrite prep_bad.
    replace (length (bb b) + pad_of 4 0 (length (bb b)) + 4 + 0) with (length (bb b) + pad_of 4 0 (length (bb b)) + 4) by lia. done.
  - unfold offset. cbn [place with_bb bb]. rewrite app_length, le_length. by rewrite rd_head.
Qed.

(** * Outside operations: strings and vectors *)
(** [b'] extends [b]; at most [cost] bytes were added; no panic when they fit. *)
Definition outside (b b' : builder) (cost : nat) : Prop :=
  bext b b' /\ bnest b' = false /\ length (bb b') <= length (bb b) + cost /\
  (bbad b = false -> (Z.of_nat (length (bb b) + cost) < 2 ^ 30)%Z -> bbad b' = false) /\
  (bbad b' = false -> vts_ok b -> vts_ok b').
Lemma outside_refl b : bnest b = false -> outside b b 0.
Proof. intros. split; [apply bext_refl|]. split; [done|]. split; [lia|]. done. Qed.
Lemma outside_trans a b c n m : outside a b n -> outside b c m -> outside a c (n + m).
Proof.
  intros (A1 & A2 & A3 & A4 & A5) (B1 & B2 & B3 & B4 & B5). split; [by eapply bext_trans|]. split; [done|]. split; [lia|].
  split; [intros; apply B4; [apply A4; [done|lia]|lia]|]. intros H1 H2. apply B5; [done|]. apply A5; [|done]. by apply B1.
Qed.
Lemma outside_weaken b c n m : outside b c n -> n <= m -> outside b c m.
Proof. intros (B1 & B2 & B3 & B4 & B5) H. split; [done|]. split; [done|]. split; [lia|]. split; [|done]. intros ? ?; apply B4; [done|lia]. Qed.
Lemma vts_ok_same b b' : bvts b' = bvts b -> bb b `suffix_of` bb b' -> vts_ok b -> vts_ok b'.
Proof.
  intros E Hs H v Hv. rewrite E in Hv. destruct (H v Hv) as (H1 & H2 & H3). split; [by eapply vt_ok_ext|]. split; [done|].
  intros i. rewrite (slot_val_ext (bb b)) by done. apply H3.
Qed.

Lemma create_string_spec s b b' o : bnest b = false -> create_string s b = (b', o) ->
  outside b b' (String.length s + 12) /\ o = length (bb b') /\ (bbad b' = false -> str_at (bb b') o s /\ 0 < o).
Proof.
  intros Hn E. unfold create_string, end_vector in E. 
  set (b1 := set_nested true (assert_not_nested b)) in *. set (p := prep 4 (String.length s + 1) b1) in *.
  injection E as E1' E2'. 
  set (T := le 4 (Z.of_nat (String.length s)) ++ bytes_of s ++ [0%Z] ++ bb p).
  assert (bb b' = T) as ET by (rewrite <- E1'; done).
  assert (bbad b' = bbad p) as EB by (rewrite <- E1'; change (bbad p || negb true = bbad p); apply orb_false_r).
  assert (bvts b' = bvts b) as EV by (rewrite <- E1'; done).
  assert (bnest b' = false) as EN by (rewrite <- E1'; done).
  assert (o = length T) as Eo by (rewrite <- E2'; done). clear E1' E2'.
  assert (bb b1 = bb b) as E1 by done.
  assert (length (bb p) = pad_of 4 (String.length s + 1) (length (bb b)) + length (bb b)) as Lp by exact (prep_len 4 _ b1).
  pose proof (pad_lt 4 (String.length s + 1) (length (bb b)) ltac:(lia)) as Hpad.
  assert (bb p = replicate (pad_of 4 (String.length s + 1) (length (bb b))) 0%Z ++ bb b) as Ep by done.
  assert (bbad p = false <-> bbad b = false /\ (Z.of_nat (length (bb b) + pad_of 4 (String.length s + 1) (length (bb b)) + 4 + (String.length s + 1)) < 2 ^ 30)%Z) as Hp.
  { unfold p. rewrite prep_bad. rewrite E1. unfold b1. cbn. rewrite Hn. cbn. by rewrite orb_false_r. }
  assert (length T = 4 + String.length s + 1 + length (bb p)) as LT.
  { unfold T. rewrite !app_length, le_length, bytes_of_length. cbn [length]. lia. }
  assert (bb b `suffix_of` T) as Hsuf.
  { unfold T. rewrite Ep. eexists (le 4 _ ++ bytes_of s ++ [0%Z] ++ replicate _ 0%Z). by rewrite <- !app_assoc. }
  split; [|split; [by rewrite ET|]].
  - split; [|split; [done|split; [|split]]].
    + split; [by rewrite ET|]. intros H. rewrite EB in H. by apply Hp in H as [? _].
    + rewrite ET. lia.
    + intros Hb Hl. rewrite EB. apply Hp. split; [done|]. lia.
    + intros _ Hv. apply (vts_ok_same b); [done|by rewrite ET|done].
  - intros H. rewrite EB in H. apply Hp in H as [_ H]. split; [|lia]. rewrite ET, Eo. unfold str_at. split; [lia|]. split.
    + rewrite LT. unfold T. replace (4 + String.length s + 1 + length (bb p)) with (4 + length (bytes_of s ++ [0%Z] ++ bb p))
        by (rewrite !app_length, bytes_of_length; cbn [length]; lia).
      rewrite rd_head. apply Z.mod_small. change (256 ^ Z.of_nat 4)%Z with (2 ^ 32)%Z. lia.
    + rewrite LT. replace (4 + String.length s + 1 + length (bb p) - (4 + String.length s + 1 + length (bb p) - 4)) with 4 by lia.
      unfold T. rewrite (drop_app_alt (le 4 _)) by (by rewrite le_length). rewrite take_app_alt by (by rewrite bytes_of_length). done.
Qed.

(** The element loop of a vector: no padding between the elements. *)
Definition aligned (n : nat) : Prop := n mod 4 = 0.
Lemma pad_aligned n : aligned n -> pad_of 4 0 n = 0.
Proof.
  unfold aligned, pad_of. intros H. replace (n + 0) with n by lia.
  assert (Z.of_nat n mod 4 = 0)%Z as H1. { change 4%Z with (Z.of_nat 4). rewrite <- Nat2Z.inj_mod. lia. }
  assert ((- Z.of_nat n) mod 4 = 0)%Z as H2 by (apply Z.mod_opp_l_z; lia). change (Z.of_nat 4) with 4%Z. by rewrite H2.
Qed.
Lemma pad_makes_aligned add len : aligned add -> aligned (pad_of 4 add len + len).
Proof.
  unfold aligned, pad_of. intros H.
  assert (Z.of_nat add mod 4 = 0)%Z as H1. { change 4%Z with (Z.of_nat 4). rewrite <- Nat2Z.inj_mod. lia. }
  change (Z.of_nat 4) with 4%Z. 
  apply Nat2Z.inj. rewrite Nat2Z.inj_mod, Nat2Z.inj_add. change (Z.of_nat 4) with 4%Z.
  rewrite Z2Nat.id by (apply Z.mod_pos_bound; lia). rewrite Nat2Z.inj_add.
  rewrite Zplus_mod_idemp_l. replace (- (Z.of_nat len + Z.of_nat add) + Z.of_nat len)%Z with (- Z.of_nat add)%Z by lia.
  by rewrite Z.mod_opp_l_z by lia.
Qed.
Lemma elems_spec offs : forall b, aligned (length (bb b)) -> 
  let b' := fold_left (fun b off => prepend_uoffset off b) offs b in
  bext b b' /\ bvts b' = bvts b /\ bvt b' = bvt b /\ bobj b' = bobj b /\ bnest b' = bnest b /\
  length (bb b') = 4 * length offs + length (bb b) /\
  (bbad b = false -> Forall (fun off => off <= length (bb b)) offs -> (Z.of_nat (length (bb b) + 4 * length offs) < 2 ^ 30)%Z -> bbad b' = false) /\
  (bbad b' = false -> forall i off, offs !! i = Some off -> uref (bb b') (length (bb b) + 4 * i + 4) off).
Proof.
  induction offs as [|x offs IH]; intros b Ha; cbn zeta.
  { cbn [fold_left]. split; [apply bext_refl|]. do 6 (split; [done|]). intros _ i off. by rewrite lookup_nil. }
  cbn [fold_left]. destruct (prepend_uoffset_spec x b) as (A1 & A2 & A3 & A4 & A5 & A6 & A7 & A8). cbn zeta in *.
  rewrite (pad_aligned _ Ha) in *. set (c := prepend_uoffset x b) in *.
  assert (aligned (length (bb c))) as Hc.
  { rewrite A6. unfold aligned in *. replace (4 + 0 + length (bb b)) with (length (bb b) + 1 * 4) by lia. by rewrite Nat.mod_add by lia. }
  destruct (IH c Hc) as (B1 & B2 & B3 & B4 & B5 & B6 & B7 & B8).
  split; [by eapply bext_trans|]. split; [congruence|]. split; [congruence|]. split; [congruence|]. split; [congruence|].
  split; [cbn [length]; lia|]. split.
  - intros Hb Hf Hl. apply Forall_cons in Hf as [Hx Hf]. cbn [length] in Hl. apply B7; [|eapply Forall_impl; [exact Hf|]|].
    + apply A7. split; [done|]. split; [lia|]. lia.
    + intros. cbn in *. lia.
    + rewrite A6. lia.
  - intros Hb [|i] off; cbn [lookup list_lookup].
    + intros [= ->]. assert (bbad c = false) as Hbc by by apply B1. specialize (A8 Hbc).
      eapply uref_ext; [apply B1|]. unfold offset in A8. rewrite A6 in A8.
      by replace (length (bb b) + 4 * 0 + 4) with (4 + 0 + length (bb b)) by lia.
    + intros Hi. specialize (B8 Hb i off Hi). rewrite A6 in B8. by replace (length (bb b) + 4 * S i + 4) with (4 + 0 + length (bb b) + 4 * i + 4) by lia.
Qed.

Lemma rev_lookup {A} (l : list A) i : i < length l -> rev l !! i = l !! (length l - S i).
Proof. intros H. change (rev l) with (List.rev l). rewrite rev_alt. exact (reverse_lookup l i H). Qed.

Lemma build_vector_spec offs b b' o : bnest b = false -> build_vector offs b = (b', o) ->
  (Forall (fun off => off <= length (bb b)) offs -> outside b b' (4 * length offs + 14)) /\
  o = length (bb b') /\ bext b b' /\ bnest b' = false /\ bvts b' = bvts b /\
  (bbad b' = false -> vec_at (bb b') o offs /\ 0 < o).
Proof.
  intros Hn E. unfold build_vector, end_vector, start_vector in E.
  set (b1 := set_nested true (assert_not_nested b)) in *.
  set (p1 := prep 4 (4 * length offs) b1) in *. set (p2 := prep 4 (4 * length offs) p1) in *.
  set (q := fold_left _ (rev offs) p2) in *.
  injection E as E1' E2'.
  set (T := le 4 (Z.of_nat (length offs)) ++ bb q).
  pose proof (pad_lt 4 (4 * length offs) (length (bb b)) ltac:(lia)) as Hpad.
  assert (length (bb p1) = pad_of 4 (4 * length offs) (length (bb b)) + length (bb b)) as L1 by exact (prep_len 4 _ b1).
  assert (length (bb p2) = pad_of 4 (4 * length offs) (length (bb p1)) + length (bb p1)) as L2 by exact (prep_len 4 _ p1).
  assert (aligned (4 * length offs)) as A0. { unfold aligned. rewrite Nat.mul_comm. by apply Nat.mod_mul. }
  assert (aligned (length (bb p2))) as Ha by (rewrite L2; by apply pad_makes_aligned).
  assert (pad_of 4 (4 * length offs) (length (bb p1)) < 4) as Hpad2 by (apply pad_lt; lia).
  destruct (elems_spec (rev offs) p2 Ha) as (B1 & B2 & B3 & B4 & B5 & B6 & B7 & B8). fold q in B1, B2, B3, B4, B5, B6, B7, B8.
  rewrite rev_length in B6, B7.
  assert (bnest q = true) as Nq by (rewrite B5; done).
  assert (bb b' = T) as ET by (rewrite <- E1'; done).
  assert (bbad b' = bbad q) as EB by (rewrite <- E1'; change (bbad q || negb (bnest q) = bbad q); rewrite Nq; apply orb_false_r).
  assert (bvts b' = bvts b) as EV by (rewrite <- E1'; change (bvts q = bvts b); rewrite B2; done).
  assert (bnest b' = false) as EN by (rewrite <- E1'; done).
  assert (o = length T) as Eo by (rewrite <- E2'; done). clear E1' E2'.
  assert (bext b p2) as Hbp.
  { eapply bext_trans; [|apply prep_ext]. eapply bext_trans; [|apply prep_ext]. split; [done|].
    change (bbad b || negb (negb (bnest b)) = false -> bbad b = false). by intros [? _]%orb_false_iff. }
  assert (bbad p2 = false <-> bbad b = false /\ (Z.of_nat (length (bb b) + pad_of 4 (4 * length offs) (length (bb b)) + 4 + 4 * length offs) < 2 ^ 30)%Z /\
     (Z.of_nat (length (bb p1) + pad_of 4 (4 * length offs) (length (bb p1)) + 4 + 4 * length offs) < 2 ^ 30)%Z) as Hp.
  { unfold p2. rewrite prep_bad. unfold p1 at 1. rewrite prep_bad.
    change (bb b1) with (bb b). change (bbad b1) with (bbad b || negb (negb (bnest b))). rewrite Hn. cbn [negb]. rewrite orb_false_r. tauto. }
  assert (length T = 4 + 4 * length offs + length (bb p2)) as LT.
  { unfold T. rewrite app_length, le_length. lia. }
  assert (bb b `suffix_of` T) as Hsuf.
  { etransitivity; [apply Hbp|]. etransitivity; [apply B1|]. by eexists. }
  assert (bext b b') as Hext.
  { split; [by rewrite ET|]. rewrite EB. intros H. by apply Hbp, B1. }
  split; [|split; [by rewrite ET|split; [done|split; [done|split; [done|]]]]].
  - intros Hoffs. split; [done|split; [done|split; [|split]]].
    + rewrite ET, LT. lia.
    + intros Hb Hl. rewrite EB. apply B7.
      * apply Hp. split; [done|]. lia.
      * apply Forall_rev. eapply Forall_impl; [exact Hoffs|]. intros x Hx. cbv beta in Hx |- *. lia.
      * lia.
    + intros _ Hv. apply (vts_ok_same b); [done|by rewrite ET|done].
  - intros H. rewrite EB in H. specialize (B8 H).
    assert (bbad p2 = false) as Hp2 by by apply B1. apply Hp in Hp2 as (Hb & G1 & G2).
    rewrite ET, Eo. split; [|lia]. split; [lia|]. split.
    + rewrite LT. unfold T. replace (4 + 4 * length offs + length (bb p2)) with (4 + length (bb q)) by lia.
      rewrite rd_head. apply Z.mod_small. change (256 ^ Z.of_nat 4)%Z with (2 ^ 32)%Z. lia.
    + intros i off Hi. pose proof (lookup_lt_Some _ _ _ Hi) as Hlt.
      assert (rev offs !! (length offs - S i) = Some off) as Hr.
      { rewrite rev_lookup by lia. rewrite <- Hi. f_equal. lia. }
      specialize (B8 _ _ Hr). eapply uref_ext; [|].
      { unfold T. by eexists. }
      rewrite LT. replace (4 + 4 * length offs + length (bb p2) - 4 - 4 * i) with (length (bb p2) + 4 * (length offs - S i) + 4) by lia. done.
Qed.
