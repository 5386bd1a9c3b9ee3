(** Property theorems C42-C45 and C58: serialization. *)
From Verif Require Import Base M_Memory M_Flat M_Serialize S_Serialize P_Base P_Flat P_Flat2 P_Flat3 P_Serialize P_FlatProg.
#[local] Open Scope Z_scope.

(** C42.  [serialize_metrics] receives int32 arguments: the callers convert with
    int32(), i.e. wrap32. *)
Theorem C42_metrics_round_trip : forall name size len T,
  serialize_metrics name (wrap32 size) (wrap32 len) = Some T -> deserialize_metrics T = Some (name, wrap32 size, wrap32 len).
Proof. intros name size len T H. pose proof (metrics_roundtrip _ _ _ _ H) as E. by rewrite !wrap32_idem in E. Qed.
Print Assumptions C42_metrics_round_trip.
Theorem C42_metrics_exact : forall name size len, int32_range size -> int32_range len -> Z.of_nat (String.length name) < 2 ^ 30 - 100 ->
  exists T, serialize_metrics name (wrap32 size) (wrap32 len) = Some T /\ deserialize_metrics T = Some (name, size, len).
Proof.
  intros name size len Hs Hl Hn. destruct (metrics_ok name (wrap32 size) (wrap32 len)) as [T HT]; [lia|]. exists T. split; [done|].
  rewrite (C42_metrics_round_trip _ _ _ _ HT). by rewrite !wrap32_id.
Qed.
Print Assumptions C42_metrics_exact.
Example C42_case : (serialize_metrics "title" (wrap32 7) (wrap32 (2 ^ 31 + 5)) ≫= deserialize_metrics) = Some ("title"%string, 7, - 2 ^ 31 + 5).
Proof. vm_compute. reflexivity. Qed.

(** C43 *)
Theorem C43_counts_round_trip : forall m kvs T, visits m kvs -> serialize_nft kvs = Some T -> deserialize_nft T = Some (wrap32 <$> m).
Proof. intros m kvs T Hv H. rewrite (nft_roundtrip _ _ H). f_equal. exact (fold_insert_perm wrap32 m kvs Hv). Qed.
Print Assumptions C43_counts_round_trip.
Lemma sum_cons x l : sum_list (x :: l) = (x + sum_list l)%nat.
Proof. reflexivity. Qed.
Lemma counts_cost kvs : Z.of_nat (sum_list ((fun kv : string * Z => String.length kv.1 + 60)%nat <$> kvs) + 4 * length kvs) = bytes_counts kvs.
Proof. unfold bytes_counts. induction kvs as [|kv kvs IH]; [done|]. rewrite fmap_cons, sum_cons. cbn [length foldr] in *. lia. Qed.
Theorem C43_counts_exact : forall m kvs, visits m kvs -> table32 m -> bytes_counts kvs < 2 ^ 30 - 100 ->
  exists T, serialize_nft kvs = Some T /\ deserialize_nft T = Some m.
Proof.
  intros m kvs Hv H32 Hs. destruct (root_ok build_count _ _ kvs build_count_builds count_at_stable) as [T HT].
  { pose proof (counts_cost kvs). lia. }
  exists T. split; [exact HT|]. rewrite (C43_counts_round_trip m kvs T Hv HT). f_equal.
  apply map_eq. intros k. rewrite lookup_fmap. destruct (m !! k) as [v|] eqn:E; cbn; [|done]. by rewrite wrap32_id by (by eapply H32).
Qed.
Print Assumptions C43_counts_exact.
Example C43_case :
  (serialize_nft [("go", 3); ("java", -1)] ≫= fun T => serialize_nft [("java", -1); ("go", 3)] ≫= fun T' =>
   deserialize_nft T ≫= fun m => deserialize_nft T' ≫= fun m' =>
   Some (bool_decide (T = T'), bool_decide (m = m'), m !! "go", m !! "java", m !! "rust"))
  = Some (false, true, Some 3, Some (-1), None).
Proof. vm_compute. reflexivity. Qed.
Definition table43 : gmap string Z := <["go" := 3]> {[ "java" := -1 ]}.
Example C43_hypotheses : visits table43 [("java", -1); ("go", 3)] /\ table32 table43 /\ bytes_counts [("java", -1); ("go", 3)] < 2 ^ 30 - 100.
Proof.
  split; [|split; [|vm_compute; reflexivity]].
  - unfold visits. assert (map_to_list table43 ≡ₚ [("go", 3); ("java", -1)]) as ->; [|apply Permutation_swap].
    unfold table43. rewrite map_to_list_insert by done. by rewrite map_to_list_singleton.
  - intros k v. unfold table43. rewrite lookup_insert_Some, lookup_singleton_Some. unfold int32_range. intros [[_ <-]|[_ [_ <-]]]; lia.
Qed.

(** C44 *)
Lemma visits_fields_fold m es : visits_fields m es -> fold_left put_field es ∅ = field32 <$> m.
Proof.
  intros (kvs & Hv & Hf). rewrite <- (fold_insert_perm field32 m kvs Hv).
  generalize (∅ : gmap string field). clear Hv. induction Hf as [|kv e kvs es (H1 & H2 & H3 & H4) Hf IH]; intros acc; [done|].
  cbn [fold_left]. rewrite IH. f_equal. unfold put_field. rewrite H1, H2, H3. f_equal. unfold field32. f_equal.
  exact (fold_insert_perm wrap32 _ _ H4).
Qed.
Theorem C44_fields_round_trip : forall m es T, visits_fields m es -> serialize_field_map es = Some T ->
  deserialize_field_map T = Some (field32 <$> m).
Proof. intros m es T Hv H. rewrite (field_roundtrip _ _ H). f_equal. by apply visits_fields_fold. Qed.
Print Assumptions C44_fields_round_trip.
Theorem C44_fields_exact : forall m es, visits_fields m es ->
  (forall k f, m !! k = Some f -> int32_range (f_length f) /\ table32 (f_tf f)) -> bytes_fields es < 2 ^ 30 - 100 ->
  exists T, serialize_field_map es = Some T /\ deserialize_field_map T = Some m.
Proof.
  intros m es Hv H32 Hs. destruct (root_ok build_field _ _ es build_field_builds field_at_stable) as [T HT].
  { assert (Z.of_nat (sum_list (field_cost <$> es) + 4 * length es) = bytes_fields es) as E; [|lia]. clear.
    unfold bytes_fields. induction es as [|e es IH]; [done|]. rewrite fmap_cons, sum_cons. cbn [length foldr] in *.
    pose proof (counts_cost e.2.2). unfold field_cost at 1. lia. }
  exists T. split; [exact HT|]. rewrite (C44_fields_round_trip m es T Hv HT). f_equal.
  apply map_eq. intros k. rewrite lookup_fmap. destruct (m !! k) as [[n l tf]|] eqn:E; cbn; [|done].
  destruct (H32 _ _ E) as [G1 G2]. unfold field32. cbn in *. rewrite wrap32_id by done. do 2 f_equal.
  apply map_eq. intros t. rewrite lookup_fmap. destruct (tf !! t) as [v|] eqn:Et; cbn; [|done]. by rewrite wrap32_id by (by eapply G2).
Qed.
Print Assumptions C44_fields_exact.
Example C44_case :
  (serialize_field_map [("title", ("title", 4, [("go", 2); ("rust", 2)])); ("body", ("body", 0, []))] ≫= fun T => deserialize_field_map T ≫= fun m : gmap string field =>
   Some (f_length <$> m !! "title", m !! "title" ≫= fun f => f_tf f !! "rust", f_name <$> m !! "body", f_length <$> m !! "other"))
  = Some (Some 4, Some 2, Some "body"%string, None).
Proof. vm_compute. reflexivity. Qed.

(** C45: values are all true after reading; in memory they always are. *)
Lemma fold_set_perm (d : gmap string bool) ds : visits d ds -> fold_left (fun (m : gmap string bool) s => <[s := true]> m) ds.*1 ∅ = (fun _ => true) <$> d.
Proof.
  intros Hv. rewrite <- (fold_insert_perm (fun _ => true) d ds Hv). clear Hv. generalize (∅ : gmap string bool).
  induction ds as [|x ds IH]; intros acc; [done|]. cbn. by rewrite IH.
Qed.
Theorem C45_index_round_trip : forall m es T, visits_index m es -> serialize_index es = Some T ->
  deserialize_index T = Some ((fun docs : gmap string bool => (fun _ => true) <$> docs) <$> m).
Proof.
  intros m es T (kvs & Hv & Hf) H. rewrite (index_roundtrip _ _ H). f_equal.
  rewrite <- (fold_insert_perm (fun docs : gmap string bool => (fun _ => true) <$> docs) m kvs Hv).
  generalize (∅ : gmap string (gmap string bool)). clear Hv H. induction Hf as [|kv e kvs es (H1 & ds & H2 & H3) Hf IH]; intros acc; [done|].
  cbn [fold_left]. rewrite IH. f_equal. unfold put_term. rewrite H1, H3. f_equal. by apply fold_set_perm.
Qed.
Print Assumptions C45_index_round_trip.
Theorem C45_index_exact : forall m es, visits_index m es -> (forall t ds d v, m !! t = Some ds -> ds !! d = Some v -> v = true) ->
  bytes_index es < 2 ^ 30 - 100 -> exists T, serialize_index es = Some T /\ deserialize_index T = Some m.
Proof.
  intros m es Hv Ht Hs. destruct (root_ok build_term _ _ es build_term_builds term_at_stable) as [T HT].
  { assert (Z.of_nat (sum_list (term_cost <$> es) + 4 * length es) = bytes_index es) as E; [|lia]. clear.
    unfold bytes_index. induction es as [|e es IH]; [done|]. rewrite fmap_cons, sum_cons. cbn [length foldr] in *.
    assert (Z.of_nat (sum_list ((fun s => String.length s + 12)%nat <$> e.2) + 4 * length e.2) = foldr (fun d s => Z.of_nat (String.length d) + 16 + s) 0 e.2) as E.
    { clear. induction e.2 as [|d l IH]; [done|]. rewrite fmap_cons, sum_cons. cbn [length foldr] in *. lia. }
    unfold term_cost at 1. lia. }
  exists T. split; [exact HT|]. rewrite (C45_index_round_trip m es T Hv HT). f_equal.
  apply map_eq. intros t. rewrite lookup_fmap. destruct (m !! t) as [ds|] eqn:E; cbn; [|done]. f_equal.
  apply map_eq. intros d. rewrite lookup_fmap. destruct (ds !! d) as [v|] eqn:Ed; cbn; [|done]. by rewrite (Ht _ _ _ _ E Ed).
Qed.
Print Assumptions C45_index_exact.
Example C45_case :
  (serialize_index [("go", ["d1"; "d2"]); ("void", [])] ≫= fun T => deserialize_index T ≫= fun m : gmap string (gmap string bool) =>
   Some (m !! "go" ≫= fun ds => ds !! "d2", bool_decide (m !! "void" = Some ∅), m !! "rust"))
  = Some (Some true, true, None).
Proof. vm_compute. reflexivity. Qed.

(** C58: any program over the builder API whose Finish returns bytes. *)
Theorem C58_bytes_read_back : forall cs b os root T, calls cs new_builder b os -> Forall well_formed cs -> finish root b = Some T ->
  get_root T = Some (pos T root) /\
  forall j n adds o, cs !! j = Some (CTable n adds) -> os !! j = Some o ->
    (* integers *)
    (forall i x, AddI i x ∈ adds -> acc_int32 T (pos T o) (vo i) = Some (wrap32 x)) /\
    (* slots that were not set have the default value *)
    (forall i, (i < n)%nat -> i ∉ (slot_number <$> adds) ->
       acc_int32 T (pos T o) (vo i) = Some 0 /\ acc_bytes T (pos T o) (vo i) = Some [] /\ acc_len T (pos T o) (vo i) = Some 0) /\
    (* references to the object built by call k *)
    (forall i off k c, AddU i off ∈ adds -> os !! k = Some off -> cs !! k = Some c ->
       match c with
       | CString s => acc_bytes T (pos T o) (vo i) = Some (bytes_of s)
       | CTable _ _ => acc_table T (pos T o) (vo i) = Some (Some (pos T off))
       | CVector offs =>
           acc_len T (pos T o) (vo i) = Some (Z.of_nat (length offs)) /\
           forall q x, offs !! q = Some x ->
             acc_table_elem T (pos T o) (vo i) q = Some (Some (pos T x)) /\
             (forall k' s, os !! k' = Some x -> cs !! k' = Some (CString s) ->
                acc_string_elem T (pos T o) (vo i) q = Some (bytes_of s))
       end).
Proof.
  intros cs b os root T Hc Hw EF. destruct (finished cs b os root T Hc Hw EF) as (Hs & Hroot & Hf).
  split; [done|]. intros j n adds o Hj Ho. destruct (Forall2_lookup_lr _ _ _ _ _ _ Hf Ho Hj) as [_ (HU & HI & HN)].
  assert (forall i, vo i = Z.of_nat (4 + 2 * i)) as Evo by (intros; unfold vo; lia).
  split; [|split].
  - intros i x Hin. rewrite Evo. apply (acc_int32_at T Hs o i). auto.
  - intros i Hi Hni. specialize (HN i Hi Hni). pose proof (t_offset_unset T Hs o i HN) as E. rewrite Evo.
    unfold acc_int32, acc_bytes, acc_len. change (pos T o) with (at_ T o). rewrite E. done.
  - intros i off k c Hin Hk Hck. destruct (Forall2_lookup_lr _ _ _ _ _ _ Hf Hk Hck) as [Hoff Hfc].
    assert (has_u T o i off) as Hu by (apply HU; [done|lia]). rewrite Evo. destruct c as [s|offs|n' adds'].
    + by apply (acc_bytes_at T Hs o i off).
    + split; [by apply (acc_len_at T Hs o i off)|]. intros q x Hq. split; [by apply (acc_table_elem_at T Hs o i off offs)|].
      intros k' s Hk' Hs'. destruct (Forall2_lookup_lr _ _ _ _ _ _ Hf Hk' Hs') as [_ Hstr].
      by apply (acc_string_elem_at T Hs o i off offs q x).
    + by apply (acc_table_at T Hs o i off).
Qed.
Print Assumptions C58_bytes_read_back.
(** Two tables sharing one vtable, an unset slot, a negative integer. *)
Definition prog58 : list call :=
  [CString "a"; CTable 3 [AddU 0 8; AddI 2 (-5)]; CString "bc"; CTable 3 [AddU 0 40; AddI 2 9]; CVector [52%nat; 20%nat]; CTable 1 [AddU 0 64]].
Fixpoint run_calls (cs : list call) (b : builder) : builder * list nat :=
  match cs with [] => (b, []) | c :: cs => let '(b, o) := do_call c b in let '(b, os) := run_calls cs b in (b, o :: os) end.
Lemma run_calls_spec cs : forall b, calls cs b (run_calls cs b).1 (run_calls cs b).2.
Proof.
  induction cs as [|c cs IH]; intros b; cbn [run_calls]; [constructor|]. destruct (do_call c b) as [b1 o] eqn:E.
  specialize (IH b1). destruct (run_calls cs b1) as [b2 os]. by econstructor.
Qed.
Example C58_case : Forall well_formed prog58 /\ calls prog58 new_builder (run_calls prog58 new_builder).1 [8; 20; 40; 52; 64; 72]%nat /\
  (finish 72 (run_calls prog58 new_builder).1 ≫= fun T =>
     Some (length (bvts (run_calls prog58 new_builder).1), acc_int32 T (pos T 20) (vo 2), acc_int32 T (pos T 20) (vo 1), acc_bytes T (pos T 52) (vo 0)))
  = Some (2%nat, Some (-5), Some 0, Some (bytes_of "bc")).
Proof.
  split; [|split].
  - unfold prog58. repeat (apply Forall_cons; split); try apply Forall_nil_2; cbn [well_formed]; try done.
    all: split; [apply (bool_decide_eq_true_1 _); vm_compute; reflexivity|]; split; [|lia].
    all: repeat (apply Forall_cons; split; [cbn; lia|]); apply Forall_nil_2.
  - exact (run_calls_spec prog58 new_builder).
  - vm_compute. reflexivity.
Qed.
