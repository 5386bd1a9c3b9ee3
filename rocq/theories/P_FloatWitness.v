(** Two schedules of the same three-query search return different scores and
    different rankings in binary64 arithmetic. *)
From Flocq Require Import Core.Zaux IEEE754.BinarySingleNaN.
From Verif Require Import Base M_Field M_Memory S_Memory M_Num M_NumF M_FanIn M_Search M_Standard S_View S_Search P_Base P_Memory P_Memory2 P_FanIn P_Search P_Standard P_Float.

(** A run of a history with one fixed iteration order. *)
Definition keys {A} (m : gmap string A) : list string := (map_to_list m).*1.
Definition mem_exec1 (m : memory) (c : call) : memory :=
  match c with
  | Save d x => mem_save m d x (keys (f_tf x)) (keys (f_tf x))
  | Index d x => mem_update_index m d x (keys (f_tf x))
  end.
Definition mem_exec (h : list call) : memory := fold_left mem_exec1 h mem_new.
Lemma mem_exec_run h : mem_run mem_new h (mem_exec h).
Proof.
  unfold mem_exec. generalize mem_new. induction h as [|c h IH]; intros m; [constructor|]. cbn. econstructor; [|apply IH].
  destruct c; constructor; apply range_order_exists.
Qed.

Definition fld (n : string) (l : Z) (tf : gmap string Z) : field := mkField n l tf.
Definition w_hist : list call := [
  Save "d1" (fld "f1" 2 {["a" := 2]}); Save "d2" (fld "f1" 1 {["a" := 1]});
  Save "d3" (fld "f1" 1 {["c" := 1]}); Save "d4" (fld "f1" 1 {["c" := 1]});
  Save "d1" (fld "f2" 1 {["a" := 1]}); Save "d2" (fld "f2" 2 {["a" := 1; "b" := 1]});
  Save "d3" (fld "f2" 1 {["c" := 1]}); Save "d4" (fld "f2" 1 {["c" := 1]});
  Save "d1" (fld "f3" 2 {["a" := 1; "b" := 1]}); Save "d2" (fld "f3" 2 {["a" := 2]});
  Save "d3" (fld "f3" 1 {["c" := 1]}); Save "d4" (fld "f3" 0 ∅) ].
Definition w_view : view := mem_view (mem_exec w_hist).

(** math.Log(2) = math.Ln2 = 0x3FE62E42FEFA39EF = 6243314768165359 * 2^-53. *)
Definition f64_ln2 : f64 := f64_scale 6243314768165359 (-53).

Lemma contributions_cons (N : numops) v q qs d : contributions N v (q :: qs) d =
  match contribution N v q d with Some x => x :: contributions N v qs d | None => contributions N v qs d end.
Proof. unfold contributions. cbn. by destruct (contribution N v q d). Qed.

Section witness.
  Variable flog : f64 -> f64.
  Hypothesis Hlog : flog (f64_of_Z 2) = f64_ln2.
  Notation F := (float_ops flog).
  Notation F0 := (float_ops (fun _ => f64_ln2)).
  Definition wq (f : string) : query F := @mkQuery F f (f64_of_Z 1) ["a"].
  Definition wq0 (f : string) : query F0 := @mkQuery F0 f (f64_of_Z 1) ["a"].
  Lemma w_arg : nadd F (of_int F 1) (ndiv F (nadd F (nsub F (of_int F 4) (of_int F 2)) (n_half F)) (nadd F (of_int F 2) (n_half F))) = f64_of_Z 2.
  Proof. apply B2SF_inj. vm_compute. reflexivity. Qed.
  Lemma w_idf : idf_bm25 F (f64_of_Z 4) (f64_of_Z 2) = f64_ln2.
  Proof. unfold idf_bm25. cbv zeta. etransitivity; [|exact Hlog]. f_equal. apply w_arg. Qed.
  Lemma w_score f x : v_size w_view f = 4 -> geti (v_nft w_view f ["a"]) "a" = 2 ->
    query_score F w_view (wq f) x = query_score F0 w_view (wq0 f) x.
  Proof.
    intros Hs Hn. unfold query_score, bm25. cbn [q_terms q_field q_boost wq wq0 fold_left]. unfold bm25_term.
    rewrite Hs, Hn. change (of_int F 4) with (f64_of_Z 4). change (of_int F 2) with (f64_of_Z 2). rewrite w_idf. unfold idf_bm25, bm25_boost.
    cbn [float_ops num of_int nadd nsub nmul ndiv nlog neqb n_half n_k1 n_b]. reflexivity.
  Qed.
  Lemma w_contribution f d x : v_size w_view f = 4 -> geti (v_nft w_view f ["a"]) "a" = 2 ->
    matches w_view ["a"] f d = true -> v_fields w_view [d] f !! d = Some x ->
    contribution F w_view (wq f) d = Some (query_score F0 w_view (wq0 f) x).
  Proof.
    intros Hs Hn Hm Hf. unfold contribution. cbn [q_terms q_field wq]. rewrite Hm, Hf. f_equal. by apply w_score.
  Qed.
  Definition sc0 (f d : string) : f64 :=
    match v_fields w_view [d] f !! d with Some x => query_score F0 w_view (wq0 f) x | None => fnan end.
  Lemma w_contributions fs d : (d = "d1" \/ d = "d2") -> Forall (fun f => f = "f1" \/ f = "f2" \/ f = "f3") fs ->
    contributions F w_view (map wq fs) d = map (fun f => sc0 f d) fs.
  Proof.
    intros Hd Hf. induction Hf as [|f fs Hf Hfs IH]; [done|]. cbn [map]. rewrite contributions_cons, IH.
    destruct (v_fields w_view [d] f !! d) as [x|] eqn:E.
    - rewrite (w_contribution f d x).
      + unfold sc0. by rewrite E.
      + destruct Hf as [->|[->| ->]]; vm_compute; reflexivity.
      + destruct Hf as [->|[->| ->]]; vm_compute; reflexivity.
      + destruct Hd as [->| ->]; destruct Hf as [->|[->| ->]]; vm_compute; reflexivity.
      + done.
    - exfalso. destruct Hd as [->| ->]; destruct Hf as [->|[->| ->]]; vm_compute in E; discriminate.
  Qed.
  Lemma w_no_contributions fs d : d <> "d1" -> d <> "d2" -> Forall (fun f => f = "f1" \/ f = "f2" \/ f = "f3") fs ->
    contributions F w_view (map wq fs) d = [].
  Proof.
    intros H1 H2 Hf. induction Hf as [|f fs Hf Hfs IH]; [done|]. cbn [map]. rewrite contributions_cons, IH.
    assert (matches w_view ["a"] f d = false) as Hm; [|unfold contribution; cbn [wq q_terms q_field]; by rewrite Hm].
    unfold matches. cbn [existsb]. rewrite orb_false_r.
    assert (v_docs w_view f "a" = Some {["d1" := true; "d2" := true]}) as ->.
    { destruct Hf as [->|[->| ->]]; apply (bool_decide_eq_true_1 _); vm_compute; reflexivity. }
    unfold set_contains. by rewrite lookup_insert_ne, lookup_singleton_ne by done.
  Qed.
  Definition total0 (fs : list string) (d : string) : f64 := sum_num F0 (map (fun f => sc0 f d) fs).

  Lemma w_pair_sorted (a b : string * f64) (res : list (string * f64)) :
    a.1 <> b.1 -> NoDup res.*1 -> (forall p, p ∈ res <-> p = a \/ p = b) ->
    Bltb a.2 b.2 = true -> Bltb b.2 a.2 = false -> Bltb a.2 a.2 = false -> Bltb b.2 b.2 = false ->
    (strict_weak_on (score_less F) res -> forall i j x y, (i < j)%nat -> res !! i = Some x -> res !! j = Some y ->
         ngtb F y.2 x.2 = false) -> res = [b; a].
  Proof.
    intros Hne Hnd Hel H1 H2 H3 H4 Hs.
    assert (res ≡ₚ [b; a]) as Hp.
    { apply NoDup_Permutation; [by eapply NoDup_fmap_1| |].
      - apply NoDup_cons. split; [|apply NoDup_singleton]. rewrite elem_of_list_singleton. intros ->. done.
      - intros p. rewrite Hel, !elem_of_cons, elem_of_nil. tauto. }
    symmetry in Hp. apply Permutation_length_2_inv in Hp as [->| ->]; [done|]. exfalso.
    assert (ngtb F b.2 a.2 = false) as Hx; [|cbn in Hx; congruence].
    eapply (Hs _ 0%nat 1%nat); [lia|done|done]. Unshelve.
    assert (forall x, x ∈ [a; b] -> x = a \/ x = b) as Hab.
    { intros x. rewrite !elem_of_cons, elem_of_nil. tauto. }
    unfold score_less. cbn [ngtb float_ops]. split; [|split].
    - intros x [->| ->]%Hab; done.
    - intros x y z [->| ->]%Hab [->| ->]%Hab [->| ->]%Hab E1 E2;
        first [assumption|exfalso; first [exact (eq_true_false_abs _ E1 H2)|exact (eq_true_false_abs _ E2 H2)|exact (eq_true_false_abs _ E1 H3)|exact (eq_true_false_abs _ E1 H4)|exact (eq_true_false_abs _ E2 H3)|exact (eq_true_false_abs _ E2 H4)|exact (eq_true_false_abs _ H1 E1)|exact (eq_true_false_abs _ H1 E2)]].
    - intros x y z [->| ->]%Hab [->| ->]%Hab [->| ->]%Hab E1 E2;
        first [assumption|exfalso; first [exact (eq_true_false_abs _ E1 H2)|exact (eq_true_false_abs _ E2 H2)|exact (eq_true_false_abs _ E1 H3)|exact (eq_true_false_abs _ E1 H4)|exact (eq_true_false_abs _ E2 H3)|exact (eq_true_false_abs _ E2 H4)|exact (eq_true_false_abs _ H1 E1)|exact (eq_true_false_abs _ H1 E2)]].
  Qed.

  Lemma w_run ncpu fs : (0 < ncpu)%nat -> fs ≡ₚ ["f1"; "f2"; "f3"] -> exists s res,
    rtc (std_step F ncpu w_view (map wq ["f1"; "f2"; "f3"])) (std_init F (map wq ["f1"; "f2"; "f3"])) s /\ std_returns F s res /\
    NoDup res.*1 /\ (forall p, p ∈ res <-> p = ("d1", total0 fs "d1") \/ p = ("d2", total0 fs "d2")) /\
    (strict_weak_on (score_less F) res -> forall i j x y, (i < j)%nat -> res !! i = Some x -> res !! j = Some y ->
         ngtb F y.2 x.2 = false).
  Proof.
    intros Hc Hp. assert (fields_pointwise w_view) as Hv by apply mem_view_pointwise.
    destruct (std_realize F ncpu w_view Hc Hv (map wq ["f1"; "f2"; "f3"]) (map wq fs)) as (s & res & Hs & Hr & He).
    { by apply Permutation_map. }
    assert (Forall (fun f => f = "f1" \/ f = "f2" \/ f = "f3") fs) as Hfs.
    { rewrite Hp. constructor; [by left|]. constructor; [by right; left|]. constructor; [by right; right|constructor]. }
    exists s, res. split; [done|]. split; [done|].
    destruct (std_result F ncpu w_view Hv _ _ _ Hs Hr) as (_ & _ & Hnd & _ & Hsort). split; [done|]. split; [|done].
    intros [d x]. rewrite He. unfold total0. change (sum_num F0) with (sum_num F).
    assert (fs <> []) as Hne by (intros ->; apply Permutation_nil in Hp; done).
    destruct (decide (d = "d1")) as [->|H1]; [|destruct (decide (d = "d2")) as [->|H2]].
    - rewrite w_contributions by auto. split; [intros [_ ->]; by left|]. intros [[= ->]|[=]]. split; [by destruct fs|done].
    - rewrite w_contributions by auto. split; [intros [_ ->]; by right|]. intros [[=]|[= ->]]. split; [by destruct fs|done].
    - rewrite w_no_contributions by auto. split; [by intros [? _]|]. intros [[= -> _]|[= -> _]]; done.
  Qed.
  Lemma three_queries ncpu : (0 < ncpu)%nat -> exists s1 s2 x1 y1 x2 y2,
    rtc (std_step F ncpu w_view (map wq ["f1"; "f2"; "f3"])) (std_init F (map wq ["f1"; "f2"; "f3"])) s1 /\
    std_returns F s1 [("d2", y1); ("d1", x1)] /\
    rtc (std_step F ncpu w_view (map wq ["f1"; "f2"; "f3"])) (std_init F (map wq ["f1"; "f2"; "f3"])) s2 /\
    std_returns F s2 [("d1", x2); ("d2", y2)] /\
    Beqb x1 x2 = false /\ Beqb y1 y2 = false.
  Proof.
    intros Hc.
    destruct (w_run ncpu ["f1"; "f2"; "f3"] Hc) as (s1 & r1 & Hs1 & Hr1 & Hn1 & He1 & Ho1); [done|].
    destruct (w_run ncpu ["f1"; "f3"; "f2"] Hc) as (s2 & r2 & Hs2 & Hr2 & Hn2 & He2 & Ho2); [by do 2 constructor|].
    apply (w_pair_sorted ("d1", total0 ["f1"; "f2"; "f3"] "d1") ("d2", total0 ["f1"; "f2"; "f3"] "d2") r1) in Ho1 as ->;
      [|done|done|done|vm_compute; reflexivity..].
    apply (w_pair_sorted ("d2", total0 ["f1"; "f3"; "f2"] "d2") ("d1", total0 ["f1"; "f3"; "f2"] "d1") r2) in Ho2 as ->;
      [|done|done| |vm_compute; reflexivity..].
    2: { intros p. rewrite He2. tauto. }
    eexists s1, s2, _, _, _, _. split; [exact Hs1|]. split; [exact Hr1|]. split; [exact Hs2|]. split; [exact Hr2|].
    split; vm_compute; reflexivity.
  Qed.
End witness.
