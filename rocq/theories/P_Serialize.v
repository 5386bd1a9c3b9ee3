(** Proofs about the serializers: what is written is read back. *)
From Verif Require Import Base M_Field M_Memory M_Flat M_Serialize P_Base P_Flat P_Flat2 P_Flat3.
#[local] Open Scope nat_scope.

Lemma vector_step offs b b' o : bnest b = false -> Forall (fun o => 0 < o <= length (bb b)) offs -> build_vector offs b = (b', o) ->
  outside b b' (4 * length offs + 14) /\ 0 < o <= length (bb b') /\ (minok b -> minok b') /\ (bbad b' = false -> vec_at (bb b') o offs).
Proof.
  intros Hn Ho E. destruct (build_vector_spec offs b b' o Hn E) as (H1 & H2 & H3 & H4 & H5 & H6).
  split; [apply H1; eapply Forall_impl; [exact Ho|]; cbv beta; lia|]. split; [|split].
  - rewrite H2. split; [|lia]. unfold build_vector, end_vector in E. injection E as <- _. 
    match goal with |- 0 < length (bb (set_nested false (place ?l ?c))) => change (0 < length (l ++ bb c)) end.
    rewrite app_length. cbn [length]. lia.
  - intros Hm. pose proof (minok_vector offs b Hm) as Hm'. by rewrite E in Hm'.
  - intros H. by apply H6.
Qed.
Lemma table_step n adds b b' o : bnest b = false -> build_table n adds b = (b', o) ->
  NoDup (slot_of <$> adds) -> Forall (fun a => slot_of a < n) adds -> length adds <= 100 -> n <= 100 ->
  Forall (fun a => off_of a <= length (bb b)) adds ->
  outside b b' (7 * length adds + 2 * n + 11) /\ 0 < o <= length (bb b') /\ (minok b -> minok b') /\
  (bbad b' = false -> vts_ok b ->
     (forall i off, AddU i off ∈ adds -> off <> 0 -> has_u (bb b') o i off) /\
     (forall i x, AddI i x ∈ adds -> has_i (bb b') o i (wrap32 x))).
Proof.
  intros Hn E Hnd Hf Ha1 Hn1 Hoff.
  destruct (build_table_spec n adds b b' o Hn E Hnd Hf Ha1 Hn1) as (H1 & H2 & H3 & H4 & H5).
  split; [by apply H1|]. split; [lia|]. split.
  - intros Hm. pose proof (minok_table n adds b Hm) as Hm'. by rewrite E in Hm'.
  - intros Hb Hv. by destruct (H5 Hb Hv) as (_ & ? & ? & _).
Qed.

(** * Counts *)
Definition count_at (T : bytes) (o : nat) (kv : string * Z) : Prop :=
  exists ko, has_u T o 0 ko /\ str_at T ko kv.1 /\ has_i T o 1 (wrap32 kv.2).
Lemma count_at_stable : stable count_at.
Proof. intros T T' o x Hs (ko & H1 & H2 & H3). exists ko. split; [by eapply has_u_ext|]. split; [by eapply str_at_ext|by eapply has_i_ext]. Qed.
Ltac nodup := repeat (apply NoDup_cons; split; [rewrite ?elem_of_cons, ?elem_of_nil; cbn; lia|]); apply NoDup_nil_2.
Ltac fa := repeat (apply Forall_cons; split; [cbn; lia|]); apply Forall_nil_2.
Lemma build_count_builds : builds build_count (fun kv => String.length kv.1 + 60) count_at.
Proof.
  intros [k x] b b' o Hn. unfold build_count. cbn [fst snd]. destruct (create_string k b) as [b1 ko] eqn:E1. intros E2.
  destruct (create_string_builds k b b1 ko Hn E1) as (A1 & A2 & A3 & A4).
  assert (bnest b1 = false) as Hn1 by apply A1.
  destruct (table_step 2 [AddU 0 ko; AddI 1 (wrap32 x)] b1 b' o Hn1 E2) as (B1 & B2 & B3 & B4); [nodup|fa|cbn; lia|lia|fa|].
  split; [eapply outside_weaken; [by eapply outside_trans|cbn; lia]|]. split; [done|]. split; [auto|].
  intros Hb Hv. pose proof (outside_bad _ _ _ B1 Hb) as Hb1. specialize (A4 Hb1 Hv).
  destruct (B4 Hb (outside_vts _ _ _ A1 Hb1 Hv)) as [C1 C2]. exists ko. split; [apply C1; [left|lia]|].
  split; [eapply str_at_ext; [by eapply outside_suffix|done]|]. cbn [snd].
  rewrite <- (wrap32_idem x). apply C2. right. left.
Qed.
Lemma read_count_at T p i t offs kvs : small T -> has_u T p i t -> vec_at T t offs -> Forall2 (count_at T) offs kvs ->
  forall j kv data, kvs !! j = Some kv ->
  read_count T (at_ T p) (Z.of_nat (4 + 2 * i)) j data = Some (<[kv.1 := wrap32 kv.2]> data).
Proof.
  intros Hs Hp Hv Hf j kv data Hj. destruct (Forall2_lookup_r _ _ _ _ _ Hf Hj) as (o & Ho & ko & H1 & H2 & H3).
  unfold read_count. rewrite (acc_table_elem_at T Hs p i t offs j o Hp Hv Ho). change (mbind ?f (Some ?x)) with (f x). cbv beta iota.
  change 4%Z with (Z.of_nat (4 + 2 * 0)). change 6%Z with (Z.of_nat (4 + 2 * 1)).
  rewrite (acc_bytes_at T Hs o 0 ko kv.1 H1 H2). change (mbind ?f (Some ?x)) with (f x). cbv beta.
  rewrite (acc_int32_at T Hs o 1 _ H3). change (mbind ?f (Some ?x)) with (f x). cbv beta. by rewrite string_of_bytes_of.
Qed.

(** * The root table holding one vector *)
Lemma root_step {A} (f : A -> builder -> builder * nat) cost P l T : builds f cost P -> stable P ->
  (let '(b, os) := build_all f l new_builder in let '(b, v) := build_vector os b in
   let '(b, t) := build_table 1 [AddU 0 v] b in finish t b) = Some T ->
  small T /\ exists t v os, get_root T = Some (at_ T t) /\ has_u T t 0 v /\ vec_at T v os /\ Forall2 (P T) os l.
Proof.
  intros Hf HP. destruct (build_all f l new_builder) as [b1 os] eqn:E1. destruct (build_vector os b1) as [b2 v] eqn:E2.
  destruct (build_table 1 [AddU 0 v] b2) as [b3 t] eqn:E3. intros EF.
  destruct (finish_Some t b3 T EF) as (F1 & F2 & F3 & F4).
  destruct (build_all_spec f cost P Hf HP l new_builder b1 os eq_refl E1) as (A1 & A2 & A3 & A4 & A5).
  destruct (vector_step os b1 b2 v ltac:(apply A1) A2 E2) as (B1 & B2 & B3 & B4).
  destruct (table_step 1 [AddU 0 v] b2 b3 t ltac:(apply B1) E3) as (C1 & C2 & C3 & C4); [nodup|fa|cbn; lia|lia|fa|].
  assert (bbad b2 = false) as G2 by by eapply outside_bad. assert (bbad b1 = false) as G1 by by eapply outside_bad.
  assert (vts_ok new_builder) as V0 by (intros v' Hv'; by apply elem_of_nil in Hv').
  assert (vts_ok b1) as V1 by by eapply outside_vts. assert (vts_ok b2) as V2 by by eapply outside_vts.
  assert (bb b2 `suffix_of` T) as S2 by (etransitivity; [by eapply outside_suffix|done]).
  assert (bb b1 `suffix_of` T) as S1 by (etransitivity; [by eapply outside_suffix|done]).
  split; [done|]. exists t, v, os. split; [done|]. split; [|split].
  - eapply has_u_ext; [exact F2|]. apply C4; [done|done|left|lia].
  - eapply vec_at_ext; [exact S2|]. by apply B4.
  - eapply Forall2_impl; [exact (A5 G1 V0)|]. intros x y. by apply HP.
Qed.
Lemma root_ok {A} (f : A -> builder -> builder * nat) cost P l : builds f cost P -> stable P ->
  (Z.of_nat (sum_list (cost <$> l) + 4 * length l + 50) < 2 ^ 30)%Z ->
  exists T, (let '(b, os) := build_all f l new_builder in let '(b, v) := build_vector os b in
   let '(b, t) := build_table 1 [AddU 0 v] b in finish t b) = Some T.
Proof.
  intros Hf HP Hl. destruct (build_all f l new_builder) as [b1 os] eqn:E1. destruct (build_vector os b1) as [b2 v] eqn:E2.
  destruct (build_table 1 [AddU 0 v] b2) as [b3 t] eqn:E3.
  destruct (build_all_spec f cost P Hf HP l new_builder b1 os eq_refl E1) as (A1 & A2 & A3 & A4 & A5).
  destruct (vector_step os b1 b2 v ltac:(apply A1) A2 E2) as (B1 & B2 & B3 & B4).
  destruct (table_step 1 [AddU 0 v] b2 b3 t ltac:(apply B1) E3) as (C1 & C2 & C3 & C4); [nodup|fa|cbn; lia|lia|fa|].
  assert (minok new_builder) as M0 by (unfold minok; cbn; lia).
  rewrite A4 in B1. destruct A1 as (_ & _ & A1a & A1b & _). destruct B1 as (_ & _ & B1a & B1b & _). destruct C1 as (_ & C1n & C1a & C1b & _).
  change (length (bb new_builder)) with 0 in *. cbn [length] in *.
  apply finish_ok; [|done|auto|lia|lia].
  apply C1b; [apply B1b; [apply A1b; [done|lia]|lia]|lia].
Qed.

(** * Document-frequency tables *)
Definition put (m : gmap string Z) (kv : string * Z) : gmap string Z := <[kv.1 := wrap32 kv.2]> m.
Lemma nft_roundtrip entries T : serialize_nft entries = Some T -> deserialize_nft T = Some (fold_left put entries ∅).
Proof.
  intros E. destruct (root_step build_count _ _ entries T build_count_builds count_at_stable E) as (Hs & t & v & os & R1 & R2 & R3 & R4).
  unfold deserialize_nft. rewrite R1. change (mbind ?f (Some ?x)) with (f x). cbv beta. change 4%Z with (Z.of_nat (4 + 2 * 0)).
  rewrite (acc_len_at T Hs t 0 v os R2 R3). change (mbind ?f (Some ?x)) with (f x). cbv beta.
  rewrite Nat2Z.id, (Forall2_length _ _ _ R4). apply loop_fold. intros j x s Hj. rewrite Nat.add_0_l.
  by apply (read_count_at T t 0 v os entries).
Qed.

(** * Field maps *)
Notation fentry := (string * (string * Z * list (string * Z)))%type.
Definition fbody_at (T : bytes) (fo : nat) (name : string) (len : Z) (tf : list (string * Z)) : Prop :=
  exists no tv offs, has_u T fo 0 no /\ str_at T no name /\ has_i T fo 1 (wrap32 len) /\ has_u T fo 2 tv /\ vec_at T tv offs /\
    Forall2 (count_at T) offs tf.
Definition field_at (T : bytes) (o : nat) (e : fentry) : Prop :=
  exists ko fo, has_u T o 0 ko /\ str_at T ko e.1 /\ has_u T o 1 fo /\ fbody_at T fo e.2.1.1 e.2.1.2 e.2.2.
Lemma field_at_stable : stable field_at.
Proof.
  intros T T' o e Hs (ko & fo & H1 & H2 & H3 & no & tv & offs & F1 & F2 & F3 & F4 & F5 & F6). exists ko, fo.
  split; [by eapply has_u_ext|]. split; [by eapply str_at_ext|]. split; [by eapply has_u_ext|]. exists no, tv, offs.
  split; [by eapply has_u_ext|]. split; [by eapply str_at_ext|]. split; [by eapply has_i_ext|]. split; [by eapply has_u_ext|].
  split; [by eapply vec_at_ext|]. eapply Forall2_impl; [exact F6|]. intros x y. by apply count_at_stable.
Qed.
Definition field_cost (e : fentry) : nat :=
  String.length e.1 + String.length e.2.1.1 + sum_list ((fun kv : string * Z => String.length kv.1 + 60) <$> e.2.2) + 4 * length e.2.2 + 120.
Lemma build_field_builds : builds build_field field_cost field_at.
Proof.
  intros [key [[name len] tf]] b b' o Hn. unfold build_field.
  destruct (create_string key b) as [b1 ko] eqn:E1. destruct (create_string name b1) as [b2 no] eqn:E2.
  destruct (build_all build_count tf b2) as [b3 tfs] eqn:E3. destruct (build_vector tfs b3) as [b4 tv] eqn:E4.
  destruct (build_table 3 _ b4) as [b5 fo] eqn:E5. intros E6.
  destruct (create_string_builds key b b1 ko Hn E1) as (A1 & A2 & A3 & A4).
  destruct (create_string_builds name b1 b2 no ltac:(apply A1) E2) as (B1 & B2 & B3 & B4).
  destruct (build_all_spec _ _ _ build_count_builds count_at_stable tf b2 b3 tfs ltac:(apply B1) E3) as (C1 & C2 & C3 & C4 & C5).
  destruct (vector_step tfs b3 b4 tv ltac:(apply C1) C2 E4) as (D1 & D2 & D3 & D4).
  pose proof (outside_len _ _ _ A1). pose proof (outside_len _ _ _ B1). pose proof (outside_len _ _ _ C1). pose proof (outside_len _ _ _ D1).
  destruct (table_step 3 _ b4 b5 fo ltac:(apply D1) E5) as (F1 & F2 & F3 & F4); [nodup|fa|cbn; lia|lia|fa|].
  pose proof (outside_len _ _ _ F1).
  destruct (table_step 2 _ b5 b' o ltac:(apply F1) E6) as (G1 & G2 & G3 & G4); [nodup|fa|cbn; lia|lia|fa|].
  rewrite C4 in D1. split.
  { eapply outside_weaken; [eapply outside_trans; [exact A1|eapply outside_trans; [exact B1|eapply outside_trans; [exact C1|eapply outside_trans; [exact D1|eapply outside_trans; [exact F1|exact G1]]]]]|].
    unfold field_cost. cbn [fst snd length]. lia. }
  split; [done|]. split; [auto 10|]. intros Hb Hv.
  assert (bbad b5 = false) as Hb5 by by eapply outside_bad. assert (bbad b4 = false) as Hb4 by by eapply outside_bad.
  assert (bbad b3 = false) as Hb3 by by eapply outside_bad. assert (bbad b2 = false) as Hb2 by by eapply outside_bad.
  assert (bbad b1 = false) as Hb1 by by eapply outside_bad.
  assert (vts_ok b1) as V1 by by eapply outside_vts. assert (vts_ok b2) as V2 by by eapply outside_vts.
  assert (vts_ok b3) as V3 by by eapply outside_vts. assert (vts_ok b4) as V4 by by eapply outside_vts. assert (vts_ok b5) as V5 by by eapply outside_vts.
  assert (bb b5 `suffix_of` bb b') as S5 by by eapply outside_suffix.
  assert (bb b4 `suffix_of` bb b') as S4 by (etransitivity; [by eapply outside_suffix|done]).
  assert (bb b3 `suffix_of` bb b') as S3 by (etransitivity; [by eapply outside_suffix|done]).
  assert (bb b2 `suffix_of` bb b') as S2 by (etransitivity; [by eapply outside_suffix|done]).
  assert (bb b1 `suffix_of` bb b') as S1 by (etransitivity; [by eapply outside_suffix|done]).
  destruct (F4 Hb5 V4) as [FU FI]. destruct (G4 Hb V5) as [GU GI]. cbn [fst snd].
  exists ko, fo. split; [apply GU; [left|lia]|]. split; [eapply str_at_ext; [exact S1|by apply A4]|].
  split; [apply GU; [right; left|lia]|]. exists no, tv, tfs. cbn [fst snd].
  split; [eapply has_u_ext; [exact S5|apply FU; [left|lia]]|]. split; [eapply str_at_ext; [exact S2|by apply B4]|].
  split; [eapply has_i_ext; [exact S5|]; rewrite <- (wrap32_idem len); apply FI; right; left|].
  split; [eapply has_u_ext; [exact S5|apply FU; [right; right; left|lia]]|].
  split; [eapply vec_at_ext; [exact S4|by apply D4]|].
  eapply Forall2_impl; [exact (C5 Hb3 V2)|]. intros x y. by apply count_at_stable.
Qed.
Definition put_field (m : gmap string field) (e : fentry) : gmap string field :=
  <[e.1 := mkField e.2.1.1 (wrap32 e.2.1.2) (fold_left put e.2.2 ∅)]> m.
Lemma field_roundtrip entries T : serialize_field_map entries = Some T -> deserialize_field_map T = Some (fold_left put_field entries ∅).
Proof.
  intros E. destruct (root_step build_field _ _ entries T build_field_builds field_at_stable E) as (Hs & t & v & os & R1 & R2 & R3 & R4).
  unfold deserialize_field_map. rewrite R1. change (mbind ?f (Some ?x)) with (f x). cbv beta. 
  change 4%Z with (Z.of_nat (4 + 2 * 0)).
  rewrite (acc_len_at T Hs t 0 v os R2 R3). change (mbind ?f (Some ?x)) with (f x). cbv beta.
  rewrite Nat2Z.id, (Forall2_length _ _ _ R4).
  assert (forall l i st, (forall j e, l !! j = Some e -> entries !! (i + j) = Some e) ->
    exists c, loop (read_field T (at_ T t)) (length l) i st = Some (c, fold_left put_field l st.2)) as Hloop.
  { induction l as [|e l IH]; intros i st Hl; cbn [length loop fold_left]; [by exists st.1; destruct st|].
    specialize (Hl 0 e eq_refl) as He. rewrite Nat.add_0_r in He.
    destruct (Forall2_lookup_r _ _ _ _ _ R4 He) as (o & Ho & ko & fo & H1 & H2 & H3 & no & tv & offs & F1 & F2 & F3 & F4 & F5 & F6).
    assert (read_field T (at_ T t) i st = Some (Some (at_ T fo), put_field st.2 e)) as ->.
    { unfold read_field. change 4%Z with (Z.of_nat (4 + 2 * 0)). change 6%Z with (Z.of_nat (4 + 2 * 1)). change 8%Z with (Z.of_nat (4 + 2 * 2)).
      rewrite (acc_table_elem_at T Hs t 0 v os i o R2 R3 Ho). change (mbind ?f (Some ?x)) with (f x). cbv beta iota.
      rewrite (acc_bytes_at T Hs o 0 ko _ H1 H2). change (mbind ?f (Some ?x)) with (f x). cbv beta.
      rewrite (acc_table_at T Hs o 1 fo H3). change (mbind ?f (Some ?x)) with (f x). cbv beta iota zeta.
      change (mbind ?f (Some ?x)) with (f x). cbv beta.
      rewrite (acc_bytes_at T Hs fo 0 no _ F1 F2). change (mbind ?f (Some ?x)) with (f x). cbv beta.
      rewrite (acc_int32_at T Hs fo 1 _ F3). change (mbind ?f (Some ?x)) with (f x). cbv beta.
      rewrite (acc_len_at T Hs fo 2 tv offs F4 F5). change (mbind ?f (Some ?x)) with (f x). cbv beta.
      rewrite Nat2Z.id, (Forall2_length _ _ _ F6).
      rewrite (loop_fold _ put e.2.2); [|intros j x s Hj; rewrite Nat.add_0_l; by apply (read_count_at T fo 2 tv offs e.2.2)].
      change (mbind ?f (Some ?x)) with (f x). cbv beta. by rewrite !string_of_bytes_of. }
    destruct (IH (S i) (Some (at_ T fo), put_field st.2 e)) as [c Hc]; [|by exists c].
    intros j e' Hj. specialize (Hl (S j) e' Hj). by replace (S i + j) with (i + S j) by lia. }
  destruct (Hloop entries 0 (None, ∅)) as [c Hc]; [done|]. rewrite Hc. done.
Qed.

(** * Index fragments *)
Definition term_at (T : bytes) (o : nat) (e : string * list string) : Prop :=
  exists ko d v offs, has_u T o 0 ko /\ str_at T ko e.1 /\ has_u T o 1 d /\ has_u T d 0 v /\ vec_at T v offs /\ Forall2 (str_at T) offs e.2.
Lemma term_at_stable : stable term_at.
Proof.
  intros T T' o e Hs (ko & d & v & offs & H1 & H2 & H3 & H4 & H5 & H6). exists ko, d, v, offs.
  split; [by eapply has_u_ext|]. split; [by eapply str_at_ext|]. split; [by eapply has_u_ext|]. split; [by eapply has_u_ext|].
  split; [by eapply vec_at_ext|]. eapply Forall2_impl; [exact H6|]. intros x y. by apply str_at_stable.
Qed.
Definition term_cost (e : string * list string) : nat :=
  String.length e.1 + sum_list ((fun s => String.length s + 12) <$> e.2) + 4 * length e.2 + 120.
Lemma build_term_builds : builds build_term term_cost term_at.
Proof.
  intros [key vals] b b' o Hn. unfold build_term. cbn [fst snd].
  destruct (create_string key b) as [b1 ko] eqn:E1. destruct (build_all create_string vals b1) as [b2 vs] eqn:E2.
  destruct (build_vector vs b2) as [b3 vv] eqn:E3. destruct (build_table 1 _ b3) as [b4 d] eqn:E4. intros E5.
  destruct (create_string_builds key b b1 ko Hn E1) as (A1 & A2 & A3 & A4).
  destruct (build_all_spec _ _ _ create_string_builds str_at_stable vals b1 b2 vs ltac:(apply A1) E2) as (C1 & C2 & C3 & C4 & C5).
  destruct (vector_step vs b2 b3 vv ltac:(apply C1) C2 E3) as (D1 & D2 & D3 & D4).
  pose proof (outside_len _ _ _ A1). pose proof (outside_len _ _ _ C1). pose proof (outside_len _ _ _ D1).
  destruct (table_step 1 _ b3 b4 d ltac:(apply D1) E4) as (F1 & F2 & F3 & F4); [nodup|fa|cbn; lia|lia|fa|].
  pose proof (outside_len _ _ _ F1).
  destruct (table_step 2 _ b4 b' o ltac:(apply F1) E5) as (G1 & G2 & G3 & G4); [nodup|fa|cbn; lia|lia|fa|].
  rewrite C4 in D1. split.
  { eapply outside_weaken; [eapply outside_trans; [exact A1|eapply outside_trans; [exact C1|eapply outside_trans; [exact D1|eapply outside_trans; [exact F1|exact G1]]]]|].
    unfold term_cost. cbn [fst snd length]. lia. }
  split; [done|]. split; [auto 10|]. intros Hb Hv.
  assert (bbad b4 = false) as Hb4 by by eapply outside_bad.
  assert (bbad b3 = false) as Hb3 by by eapply outside_bad. assert (bbad b2 = false) as Hb2 by by eapply outside_bad.
  assert (bbad b1 = false) as Hb1 by by eapply outside_bad.
  assert (vts_ok b1) as V1 by by eapply outside_vts. assert (vts_ok b2) as V2 by by eapply outside_vts.
  assert (vts_ok b3) as V3 by by eapply outside_vts. assert (vts_ok b4) as V4 by by eapply outside_vts.
  assert (bb b4 `suffix_of` bb b') as S4 by by eapply outside_suffix.
  assert (bb b3 `suffix_of` bb b') as S3 by (etransitivity; [by eapply outside_suffix|done]).
  assert (bb b2 `suffix_of` bb b') as S2 by (etransitivity; [by eapply outside_suffix|done]).
  assert (bb b1 `suffix_of` bb b') as S1 by (etransitivity; [by eapply outside_suffix|done]).
  destruct (F4 Hb4 V3) as [FU _]. destruct (G4 Hb V4) as [GU _].
  exists ko, d, vv, vs. cbn [fst snd]. split; [apply GU; [left|lia]|]. split; [eapply str_at_ext; [exact S1|by apply A4]|].
  split; [apply GU; [right; left|lia]|]. split; [eapply has_u_ext; [exact S4|apply FU; [left|lia]]|].
  split; [eapply vec_at_ext; [exact S3|by apply D4]|]. eapply Forall2_impl; [exact (C5 Hb2 V1)|]. intros x y. by apply str_at_stable.
Qed.
Definition put_term (m : gmap string (gmap string bool)) (e : string * list string) : gmap string (gmap string bool) :=
  <[e.1 := fold_left (fun m s => <[s := true]> m) e.2 ∅]> m.
Lemma index_roundtrip entries T : serialize_index entries = Some T -> deserialize_index T = Some (fold_left put_term entries ∅).
Proof.
  intros E. destruct (root_step build_term _ _ entries T build_term_builds term_at_stable E) as (Hs & t & v & os & R1 & R2 & R3 & R4).
  unfold deserialize_index. rewrite R1. change (mbind ?f (Some ?x)) with (f x). cbv beta. change 4%Z with (Z.of_nat (4 + 2 * 0)).
  rewrite (acc_len_at T Hs t 0 v os R2 R3). change (mbind ?f (Some ?x)) with (f x). cbv beta.
  rewrite Nat2Z.id, (Forall2_length _ _ _ R4). apply loop_fold. intros j e s Hj. rewrite Nat.add_0_l.
  destruct (Forall2_lookup_r _ _ _ _ _ R4 Hj) as (o & Ho & ko & d & vv & offs & H1 & H2 & H3 & H4 & H5 & H6).
  unfold read_term. change 4%Z with (Z.of_nat (4 + 2 * 0)). change 6%Z with (Z.of_nat (4 + 2 * 1)).
  rewrite (acc_table_elem_at T Hs t 0 v os j o R2 R3 Ho). change (mbind ?f (Some ?x)) with (f x). cbv beta.
  change (mbind ?f (Some ?x)) with (f x). cbv beta.
  rewrite (acc_bytes_at T Hs o 0 ko _ H1 H2). change (mbind ?f (Some ?x)) with (f x). cbv beta.
  rewrite (acc_table_at T Hs o 1 d H3). change (mbind ?f (Some ?x)) with (f x). cbv beta. change (mbind ?f (Some ?x)) with (f x). cbv beta.
  rewrite (acc_len_at T Hs d 0 vv offs H4 H5). change (mbind ?f (Some ?x)) with (f x). cbv beta.
  rewrite Nat2Z.id, (Forall2_length _ _ _ H6).
  rewrite (loop_fold _ (fun m s => <[s := true]> m) e.2).
  2: { intros i x data Hi. rewrite Nat.add_0_l. destruct (Forall2_lookup_r _ _ _ _ _ H6 Hi) as (so & So & Sx). unfold read_value.
       change 4%Z with (Z.of_nat (4 + 2 * 0)). rewrite (acc_string_elem_at T Hs d 0 vv offs i so x H4 H5 So Sx).
       change (mbind ?f (Some ?x)) with (f x). cbv beta. by rewrite string_of_bytes_of. }
  change (mbind ?f (Some ?x)) with (f x). cbv beta. by rewrite string_of_bytes_of.
Qed.

(** * Field metrics *)
Lemma metrics_roundtrip name size len T : serialize_metrics name size len = Some T ->
  deserialize_metrics T = Some (name, wrap32 size, wrap32 len).
Proof.
  unfold serialize_metrics. destruct (create_string name new_builder) as [b1 no] eqn:E1. destruct (build_table 3 _ b1) as [b2 t] eqn:E2.
  intros EF. destruct (finish_Some t b2 T EF) as (F1 & F2 & F3 & F4).
  destruct (create_string_builds name new_builder b1 no eq_refl E1) as (A1 & A2 & A3 & A4).
  destruct (table_step 3 _ b1 b2 t ltac:(apply A1) E2) as (B1 & B2 & B3 & B4); [nodup|fa|cbn; lia|lia|fa|].
  assert (bbad b1 = false) as Hb1 by by eapply outside_bad.
  assert (vts_ok new_builder) as V0 by (intros v' Hv'; by apply elem_of_nil in Hv').
  destruct (B4 F1 ltac:(by eapply outside_vts)) as [BU BI]. specialize (A4 Hb1 V0).
  unfold deserialize_metrics. rewrite F4. change (mbind ?f (Some ?x)) with (f x). cbv beta.
  change 4%Z with (Z.of_nat (4 + 2 * 0)). change 6%Z with (Z.of_nat (4 + 2 * 1)). change 8%Z with (Z.of_nat (4 + 2 * 2)).
  assert (has_u T t 0 no) as H1. { eapply has_u_ext; [exact F2|]. apply BU; [left|lia]. }
  assert (str_at T no name) as H2. { eapply str_at_ext; [|exact A4]. etransitivity; [by eapply outside_suffix|done]. }
  assert (has_i T t 1 (wrap32 size)) as H3. { eapply has_i_ext; [exact F2|]. apply BI. right. left. }
  assert (has_i T t 2 (wrap32 len)) as H4. { eapply has_i_ext; [exact F2|]. apply BI. right. right. left. }
  rewrite (acc_bytes_at T F3 t 0 no name H1 H2). change (mbind ?f (Some ?x)) with (f x). cbv beta.
  rewrite (acc_int32_at T F3 t 1 _ H3). change (mbind ?f (Some ?x)) with (f x). cbv beta.
  rewrite (acc_int32_at T F3 t 2 _ H4). change (mbind ?f (Some ?x)) with (f x). cbv beta. by rewrite string_of_bytes_of.
Qed.
Lemma metrics_ok name size len : (Z.of_nat (String.length name + 80) < 2 ^ 30)%Z -> exists T, serialize_metrics name size len = Some T.
Proof.
  intros Hl. unfold serialize_metrics. destruct (create_string name new_builder) as [b1 no] eqn:E1. destruct (build_table 3 _ b1) as [b2 t] eqn:E2.
  destruct (create_string_builds name new_builder b1 no eq_refl E1) as (A1 & A2 & A3 & A4).
  destruct (table_step 3 _ b1 b2 t ltac:(apply A1) E2) as (B1 & B2 & B3 & B4); [nodup|fa|cbn; lia|lia|fa|].
  assert (minok new_builder) as M0 by (unfold minok; cbn; lia).
  destruct A1 as (_ & _ & A1a & A1b & _). destruct B1 as (_ & B1n & B1a & B1b & _).
  change (length (bb new_builder)) with 0 in *. cbn [length] in *.
  apply finish_ok; [|done|auto|lia|lia]. apply B1b; [apply A1b; [done|lia]|lia].
Qed.

(** * From visiting orders to maps *)
Lemma fold_put_notin l : forall m k, k ∉ l.*1 -> fold_left put l m !! k = m !! k.
Proof.
  induction l as [|e l IH]; intros m k Hk; cbn; [done|]. cbn in Hk. apply not_elem_of_cons in Hk as [H1 H2].
  rewrite IH by done. unfold put. by rewrite lookup_insert_ne.
Qed.
(** Generic: inserting the entries of a map visited in any order. *)
Lemma fold_insert_perm {A B} (g : A -> B) (m : gmap string A) (l : list (string * A)) : l ≡ₚ map_to_list m ->
  fold_left (fun (acc : gmap string B) kv => <[kv.1 := g kv.2]> acc) l ∅ = g <$> m.
Proof.
  intros Hp. assert (NoDup l.*1) as Hnd by (rewrite Hp; apply NoDup_fst_map_to_list).
  assert (forall l (acc : gmap string B), NoDup l.*1 -> forall k,
    fold_left (fun (acc : gmap string B) kv => <[kv.1 := g kv.2]> acc) l acc !! k =
    match (list_to_map l : gmap string A) !! k with Some v => Some (g v) | None => acc !! k end) as H.
  { clear. induction l as [|[k0 v0] l IH]; intros acc Hnd k; [done|]. cbn in Hnd. apply NoDup_cons in Hnd as [Hn Hnd].
    cbn [fold_left fst snd]. rewrite IH by done. cbn [list_to_map foldr]. destruct (decide (k = k0)) as [->|Hne].
    - rewrite lookup_insert. rewrite (not_elem_of_list_to_map_1 _ _ Hn). by rewrite lookup_insert.
    - cbn [fst snd]. rewrite (lookup_insert_ne acc) by done. by rewrite (lookup_insert_ne (list_to_map l)) by done. }
  apply map_eq. intros k. rewrite H by done. rewrite lookup_fmap. rewrite lookup_empty.
  assert ((list_to_map l : gmap string A) = m) as ->; [|by destruct (m !! k)].
  rewrite <- (list_to_map_to_list m). by apply list_to_map_proper.
Qed.
