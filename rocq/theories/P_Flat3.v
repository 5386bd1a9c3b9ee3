(** Proofs about the byte-level flatbuffers model: readers and loops. *)
From Verif Require Import Base M_Flat M_Serialize P_Base P_Flat P_Flat2.
#[local] Open Scope nat_scope.

(** * Readers *)
Definition at_ (T : bytes) (o : nat) : Z := (Z.of_nat (length T) - Z.of_nat o)%Z.
Definition small (T : bytes) : Prop := (Z.of_nat (length T) < 2 ^ 30)%Z.
Lemma u32_small z : (0 <= z < 2 ^ 32)%Z -> u32 z = z.
Proof. intros. by apply Z.mod_small. Qed.
Lemma get_u_at n T o : n <= o -> o <= length T -> get_u n T (at_ T o) = Some (rd n T o).
Proof.
  intros H1 H2. unfold get_u, slice, at_, rd.
  rewrite (proj2 (Z.leb_le _ _)) by lia. rewrite (proj2 (Z.leb_le _ _)) by lia. rewrite (proj2 (Z.leb_le _ _)) by lia. cbn [andb].
  do 2 f_equal. f_equal; [lia|]. f_equal. lia.
Qed.
Lemma t_offset_at T o v i : small T -> tbl_at T o v -> t_offset T (at_ T o) (Z.of_nat (4 + 2 * i)) = Some (slot_val T v i).
Proof.
  intros Hs (H1 & H2 & H3 & (k & K1 & K2) & H5). unfold small in Hs. unfold t_offset, get_i32. rewrite get_u_at by lia.
  change (mbind ?f (Some ?x)) with (f x). cbv beta zeta. rewrite H5.
  replace (at_ T o - (Z.of_nat v - Z.of_nat o))%Z with (at_ T v) by (unfold at_; lia).
  rewrite (u32_small (at_ T v)) by (unfold at_; lia). rewrite get_u_at by lia.
  change (mbind ?f (Some ?x)) with (f x). cbv beta. unfold slot_val.
  destruct (Z.of_nat (4 + 2 * i) <? rd 2 T v)%Z eqn:E; [|done]. apply Z.ltb_lt in E. rewrite K2 in E.
  replace (at_ T v + Z.of_nat (4 + 2 * i))%Z with (at_ T (v - 4 - 2 * i)) by (unfold at_; lia).
  rewrite u32_small by (unfold at_; lia). apply get_u_at; lia.
Qed.
Lemma indirect_at T f t : small T -> uref T f t -> indirect T (at_ T f) = Some (at_ T t).
Proof.
  intros Hs (H1 & H2 & H3 & H4). unfold small in Hs. unfold indirect. rewrite get_u_at by lia.
  change (mbind ?f (Some ?x)) with (f x). cbv beta. rewrite H4. f_equal.
  rewrite u32_small by (unfold at_; lia). unfold at_. lia.
Qed.
Lemma byte_vector_at T f t s : small T -> uref T f t -> str_at T t s -> byte_vector T (at_ T f) = Some (bytes_of s).
Proof.
  intros Hs (H1 & H2 & H3 & H4) (S1 & S2 & S3). unfold small in Hs. unfold byte_vector. rewrite get_u_at by lia.
  change (mbind ?f (Some ?x)) with (f x). cbv beta zeta. rewrite H4.
  replace (at_ T f + (Z.of_nat f - Z.of_nat t))%Z with (at_ T t) by (unfold at_; lia).
  rewrite (u32_small (at_ T t)) by (unfold at_; lia). rewrite get_u_at by lia.
  change (mbind ?f (Some ?x)) with (f x). cbv beta. rewrite S2.
  rewrite !u32_small by (unfold at_; lia). unfold slice.
  rewrite (proj2 (Z.leb_le _ _)) by (unfold at_; lia). rewrite (proj2 (Z.leb_le _ _)) by lia. rewrite (proj2 (Z.leb_le _ _)) by (unfold at_; lia).
  cbn [andb]. rewrite <- S3. do 2 f_equal; [lia|]. f_equal. unfold at_. lia.
Qed.
Lemma slot_nz T o i t v f : tbl_at T o v -> f < o -> slot_val T v i = (Z.of_nat o - Z.of_nat f)%Z -> uref T f t ->
  (slot_val T v i =? 0)%Z = false /\ (slot_val T v i + at_ T o = at_ T f)%Z.
Proof. intros _ H1 H2 _. rewrite H2. split; [apply Z.eqb_neq; lia|]. unfold at_. lia. Qed.

Section readers.
  Context (T : bytes) (Hs : small T).
  Lemma vo_eq i : Z.of_nat (4 + 2 * i) = (4 + 2 * Z.of_nat i)%Z.
  Proof. lia. Qed.
  Lemma acc_bytes_at o i t s : has_u T o i t -> str_at T t s -> acc_bytes T (at_ T o) (Z.of_nat (4 + 2 * i)) = Some (bytes_of s).
  Proof.
    intros (v & f & H1 & H2 & H3 & H4) H5. unfold acc_bytes. rewrite (t_offset_at T o v i Hs H1).
    change (mbind ?f (Some ?x)) with (f x). cbv beta. destruct (slot_nz T o i t v f H1 H2 H3 H4) as [-> ->].
    destruct H4 as (G1 & G2 & G3 & G4). unfold small in *. rewrite u32_small by (unfold at_; lia).
    by apply (byte_vector_at T f t).
  Qed.
  Lemma acc_int32_at o i x : has_i T o i x -> acc_int32 T (at_ T o) (Z.of_nat (4 + 2 * i)) = Some x.
  Proof.
    intros (v & H1 & H2). unfold acc_int32. rewrite (t_offset_at T o v i Hs H1).
    change (mbind ?f (Some ?x)) with (f x). cbv beta. destruct H2 as [[-> ->]|(f & F1 & F2 & F3 & F4)]; [done|].
    rewrite F3. rewrite (proj2 (Z.eqb_neq _ _)) by lia. destruct H1 as (O1 & _). unfold small in *.
    replace (Z.of_nat o - Z.of_nat f + at_ T o)%Z with (at_ T f) by (unfold at_; lia).
    rewrite u32_small by (unfold at_; lia). unfold get_i32. rewrite get_u_at by lia. by rewrite F4.
  Qed.
  Lemma vec_enter o i t offs : has_u T o i t -> vec_at T t offs ->
    exists s, t_offset T (at_ T o) (Z.of_nat (4 + 2 * i)) = Some s /\ (s =? 0)%Z = false /\
      vector_len T (at_ T o) s = Some (Z.of_nat (length offs)) /\ vector T (at_ T o) s = Some (at_ T (t - 4)).
  Proof.
    intros (v & f & H1 & H2 & H3 & H4) (V1 & V2 & V3). exists (slot_val T v i). split; [by apply t_offset_at|].
    destruct (slot_nz T o i t v f H1 H2 H3 H4) as [-> E]. split; [done|].
    destruct H4 as (G1 & G2 & G3 & G4). unfold small in *. unfold vector_len, vector. rewrite E.
    rewrite (u32_small (at_ T f)) by (unfold at_; lia). rewrite get_u_at by lia.
    change (mbind ?f (Some ?x)) with (f x). cbv beta. rewrite G4. split.
    - replace (at_ T f + (Z.of_nat f - Z.of_nat t))%Z with (at_ T t) by (unfold at_; lia).
      rewrite (u32_small (at_ T t)) by (unfold at_; lia). rewrite get_u_at by lia. by rewrite V2.
    - f_equal. replace (at_ T f + (Z.of_nat f - Z.of_nat t) + 4)%Z with (at_ T (t - 4)) by (unfold at_; lia).
      apply u32_small. unfold at_. lia.
  Qed.
  Lemma acc_len_at o i t offs : has_u T o i t -> vec_at T t offs ->
    acc_len T (at_ T o) (Z.of_nat (4 + 2 * i)) = Some (Z.of_nat (length offs)).
  Proof.
    intros H1 H2. destruct (vec_enter o i t offs H1 H2) as (s & E1 & E2 & E3 & E4). unfold acc_len. rewrite E1.
    change (mbind ?f (Some ?x)) with (f x). cbv beta. by rewrite E2.
  Qed.
  Lemma acc_table_elem_at o i t offs j x : has_u T o i t -> vec_at T t offs -> offs !! j = Some x ->
    acc_table_elem T (at_ T o) (Z.of_nat (4 + 2 * i)) j = Some (Some (at_ T x)).
  Proof.
    intros H1 H2 Hj. destruct (vec_enter o i t offs H1 H2) as (s & E1 & E2 & E3 & E4). unfold acc_table_elem. rewrite E1.
    change (mbind ?f (Some ?x)) with (f x). cbv beta. rewrite E2, E4. change (mbind ?f (Some ?x)) with (f x). cbv beta.
    pose proof (lookup_lt_Some _ _ _ Hj) as Hlt. destruct H2 as (V1 & V2 & V3). specialize (V3 _ _ Hj).
    replace (at_ T (t - 4) + Z.of_nat j * 4)%Z with (at_ T (t - 4 - 4 * j)) by (unfold at_; lia).
    unfold small in *. rewrite u32_small by (unfold at_; lia). by rewrite (indirect_at T _ x Hs V3).
  Qed.
  Lemma acc_string_elem_at o i t offs j x s : has_u T o i t -> vec_at T t offs -> offs !! j = Some x -> str_at T x s ->
    acc_string_elem T (at_ T o) (Z.of_nat (4 + 2 * i)) j = Some (bytes_of s).
  Proof.
    intros H1 H2 Hj Hx. destruct (vec_enter o i t offs H1 H2) as (s' & E1 & E2 & E3 & E4). unfold acc_string_elem. rewrite E1.
    change (mbind ?f (Some ?x)) with (f x). cbv beta. rewrite E2, E4. change (mbind ?f (Some ?x)) with (f x). cbv beta.
    pose proof (lookup_lt_Some _ _ _ Hj) as Hlt. destruct H2 as (V1 & V2 & V3). specialize (V3 _ _ Hj).
    replace (at_ T (t - 4) + Z.of_nat (j * 4))%Z with (at_ T (t - 4 - 4 * j)) by (unfold at_; lia).
    unfold small in *. rewrite u32_small by (unfold at_; lia). by apply (byte_vector_at T _ x).
  Qed.
  Lemma acc_table_at o i t : has_u T o i t -> acc_table T (at_ T o) (Z.of_nat (4 + 2 * i)) = Some (Some (at_ T t)).
  Proof.
    intros (v & f & H1 & H2 & H3 & H4). unfold acc_table. rewrite (t_offset_at T o v i Hs H1).
    change (mbind ?f (Some ?x)) with (f x). cbv beta. destruct (slot_nz T o i t v f H1 H2 H3 H4) as [-> ->].
    pose proof H4 as (G1 & G2 & G3 & G4). unfold small in *. rewrite u32_small by (unfold at_; lia).
    by rewrite (indirect_at T f t Hs H4).
  Qed.
  Lemma t_offset_unset o i : unset T o i -> t_offset T (at_ T o) (Z.of_nat (4 + 2 * i)) = Some 0%Z.
  Proof. intros (v & H1 & H2). rewrite (t_offset_at T o v i Hs H1). by rewrite H2. Qed.
End readers.

(** * Loops *)
Lemma loop_fold {A B} (body : nat -> A -> option A) (stp : A -> B -> A) (items : list B) : forall i st,
  (forall j x s, items !! j = Some x -> body (i + j) s = Some (stp s x)) ->
  loop body (length items) i st = Some (fold_left stp items st).
Proof.
  induction items as [|x items IH]; intros i st H; cbn [length loop fold_left]; [done|].
  rewrite <- (Nat.add_0_r i) at 1. rewrite (H 0 x st eq_refl). apply IH. intros j y s Hj. 
  rewrite <- (H (S j) y s Hj). f_equal. lia.
Qed.

(** * bmin *)
Definition minok (b : builder) : Prop := 1 <= bmin b <= 4.

(** * Building items *)
Definition builds {A} (f : A -> builder -> builder * nat) (cost : A -> nat) (P : bytes -> nat -> A -> Prop) : Prop :=
  forall x b b' o, bnest b = false -> f x b = (b', o) ->
    outside b b' (cost x) /\ 0 < o <= length (bb b') /\ (minok b -> minok b') /\ (bbad b' = false -> vts_ok b -> P (bb b') o x).
Definition stable {A} (P : bytes -> nat -> A -> Prop) : Prop :=
  forall T T' o x, T `suffix_of` T' -> P T o x -> P T' o x.

Lemma minok_prep n a b : n <= 4 -> minok b -> minok (prep n a b).
Proof. unfold minok. cbn. lia. Qed.
Lemma minok_uoffset off b : minok b -> minok (prepend_uoffset off b).
Proof. exact (minok_prep 4 0 b ltac:(lia)). Qed.
Lemma minok_int32 x b : minok b -> minok (prepend_int32 x b).
Proof. exact (minok_prep 4 0 b ltac:(lia)). Qed.
Lemma minok_voffset x b : minok b -> minok (prepend_voffset x b).
Proof. exact (minok_prep 2 0 b ltac:(lia)). Qed.
Lemma minok_fold {A} (f : builder -> A -> builder) l : (forall b x, minok b -> minok (f b x)) -> forall b, minok b -> minok (fold_left f l b).
Proof. intros H. induction l as [|x l IH]; intros b Hb; cbn; [done|]. by apply IH, H. Qed.
Lemma minok_string s b : minok b -> minok (create_string s b).1.
Proof. intros H. exact (minok_prep 4 (String.length s + 1) _ ltac:(lia) H). Qed.
Lemma minok_vector offs b : minok b -> minok (build_vector offs b).1.
Proof.
  intros H. unfold build_vector, end_vector. cbn [fst].
  assert (minok (fold_left (fun b off => prepend_uoffset off b) (rev offs) (start_vector 4 (length offs) 4 b))) as H1; [|exact H1].
  apply minok_fold; [intros; by apply minok_uoffset|]. unfold start_vector. apply minok_prep; [lia|]. by apply minok_prep; [lia|].
Qed.
Lemma minok_table n adds b : minok b -> minok (build_table n adds b).1.
Proof.
  intros H. unfold build_table. set (q := fold_left add_slot adds _).
  assert (minok q) as Hq.
  { apply minok_fold; [|exact H]. intros c [i off|i x] Hc; cbn [add_slot].
    - destruct (off =? 0); [done|]. exact (minok_uoffset off c Hc).
    - destruct (x =? 0)%Z; [done|]. exact (minok_int32 x c Hc). }
  unfold end_object. set (r := prepend_int32 0 (assert_nested q)). assert (minok r) as Hr by (apply minok_int32; exact Hq).
  destruct (find_vtable _ _ r); cbn [fst].
  - exact Hr.
  - match goal with |- minok (mkB _ (bmin (mkB _ (bmin (with_bb ?e _)) _ _ _ _ _)) _ _ _ _ _) => assert (minok e) as He; [|exact He] end.
    apply minok_voffset, minok_voffset. unfold write_vtable_entries. apply minok_fold; [|done]. intros; by apply minok_voffset.
Qed.

Lemma create_string_builds : builds create_string (fun s => String.length s + 12) str_at.
Proof.
  intros s b b' o Hn E. destruct (create_string_spec s b b' o Hn E) as (H1 & H2 & H3). split; [done|].
  assert (0 < o) as Ho.
  { rewrite H2. unfold create_string, end_vector in E. injection E as <- _. cbn [set_nested place with_bb bb].
    rewrite app_length. cbn [length]. lia. }
  split; [lia|]. split.
  - intros Hm. pose proof (minok_string s b Hm) as Hm'. by rewrite E in Hm'.
  - intros Hb _. by apply H3.
Qed.
Lemma str_at_stable : stable str_at.
Proof. intros T T' o x H. by apply str_at_ext. Qed.

Lemma outside_len b b' c : outside b b' c -> length (bb b) <= length (bb b').
Proof. intros (H & _). by apply suffix_len, H. Qed.
Lemma outside_suffix b b' c : outside b b' c -> bb b `suffix_of` bb b'.
Proof. by intros (H & _); apply H. Qed.
Lemma outside_bad b b' c : outside b b' c -> bbad b' = false -> bbad b = false.
Proof. by intros (H & _); apply H. Qed.
Lemma outside_vts b b' c : outside b b' c -> bbad b' = false -> vts_ok b -> vts_ok b'.
Proof. by intros (_ & _ & _ & _ & H). Qed.

Lemma build_all_spec {A} (f : A -> builder -> builder * nat) cost P : builds f cost P -> stable P ->
  forall l b b' os, bnest b = false -> build_all f l b = (b', os) ->
    outside b b' (sum_list (cost <$> l)) /\ Forall (fun o => 0 < o <= length (bb b')) os /\ (minok b -> minok b') /\ length os = length l /\
    (bbad b' = false -> vts_ok b -> Forall2 (P (bb b')) os l).
Proof.
  intros Hf HP. induction l as [|x l IH]; intros b b' os Hn; cbn [build_all].
  { intros [= <- <-]. split; [by apply outside_refl|]. split; [by constructor|]. split; [done|]. split; [done|]. by constructor. }
  destruct (f x b) as [c o] eqn:E1. destruct (build_all f l c) as [d os'] eqn:E2. intros [= <- <-].
  destruct (Hf x b c o Hn E1) as (A1 & A2 & A3 & A4). assert (bnest c = false) as Hc by apply A1.
  destruct (IH c d os' Hc E2) as (B1 & B2 & B3 & B4 & B5). pose proof (outside_len _ _ _ B1) as Hle.
  split; [cbn; by eapply outside_trans|]. split; [constructor; [lia|done]|]. split; [auto|]. split; [cbn; lia|].
  intros Hb Hv. pose proof (outside_bad _ _ _ B1 Hb) as Hbc. constructor.
  - eapply HP; [by eapply outside_suffix|]. by apply A4.
  - apply B5; [done|]. by eapply outside_vts.
Qed.

(** * Finish *)
Lemma finish_Some root b T : finish root b = Some T ->
  bbad b = false /\ bb b `suffix_of` T /\ small T /\ get_root T = Some (at_ T root).
Proof.
  unfold finish. set (p := prep (bmin _) 4 _). destruct (bbad (prepend_uoffset root p)) eqn:E; [done|].
  intros HT. assert (bb (prepend_uoffset root p) = T) as <- by congruence. clear HT.
  destruct (prepend_uoffset_spec root p) as (A1 & A2 & A3 & A4 & A5 & A6 & A7 & A8). cbn zeta in *.
  assert (bbad p = false) as Hp by by apply A7 in E as [? _].
  assert (bbad b = false) as Hb.
  { unfold p in Hp. apply prep_bad in Hp as [Hp _]. cbn in Hp. by apply orb_false_iff in Hp as [? _]. }
  assert (bb b `suffix_of` bb p) as Hs by (by apply (prep_ext (bmin (assert_not_nested b)) 4 (assert_not_nested b))).
  assert (small (bb (prepend_uoffset root p))) as Hsm. { unfold small. apply A7 in E as (_ & _ & E). lia. }
  split; [done|]. split; [transitivity (bb p); [done|apply A1]|]. split; [done|].
  unfold get_root. destruct (A8 E) as (U1 & U2 & U3 & U4). unfold offset in *.
  remember (bb (prepend_uoffset root p)) as T eqn:ET. 
  transitivity (get_u 4 T (at_ T (length T))); [unfold at_; by rewrite Z.sub_diag|].
  rewrite get_u_at by lia. rewrite U4. done.
Qed.
Lemma finish_ok root b : bbad b = false -> bnest b = false -> minok b -> root <= length (bb b) -> (Z.of_nat (length (bb b) + 16) < 2 ^ 30)%Z ->
  exists T, finish root b = Some T.
Proof.
  intros Hb Hn Hm Hr Hl. unfold finish. set (p := prep (bmin _) 4 _).
  destruct (prepend_uoffset_spec root p) as (A1 & A2 & A3 & A4 & A5 & A6 & A7 & A8). cbn zeta in *.
  assert (length (bb p) = pad_of (bmin b) 4 (length (bb b)) + length (bb b)) as Lp by exact (prep_len (bmin b) 4 (assert_not_nested b)).
  unfold minok in Hm. pose proof (pad_lt (bmin b) 4 (length (bb b)) ltac:(lia)) as Hpad. pose proof (pad4_lt4 (length (bb p))) as Hpad2.
  assert (bbad (prepend_uoffset root p) = false) as ->; [|by eexists].
  apply A7. split; [|split; lia]. unfold p. apply prep_bad. split.
  - cbn. rewrite Hb, Hn. done.
  - change (bmin (assert_not_nested b)) with (bmin b). change (bb (assert_not_nested b)) with (bb b). lia.
Qed.
