(** Concurrent saves: what every interleaving guarantees (C56). *)
From Verif Require Import Base M_Field M_Memory M_Concurrent S_Concurrent P_Base.
#[local] Open Scope Z_scope.

Section conc.
  Variable disk : bool.
  Notation conc_step := (conc_step disk).

  (** * FieldSize *)
  (** The goroutine has a call on [f] whose increment is still to be stored. *)
  Definition pre_size (f : string) (th : tpc * list call) : bool :=
    match th.1 with
    | TDoc _ x | TDocW _ x _ | TSize _ _ x | TSizeW _ _ x _ => bool_decide (f_name x = f)
    | _ => false
    end.
  Definition npre (f : string) (ths : list (tpc * list call)) : Z := Z.of_nat (length (List.filter (pre_size f) ths)).
  Lemma filter_insert {A} (P : A -> bool) (l : list A) i x y : l !! i = Some x ->
    Z.of_nat (length (List.filter P (<[i := y]> l))) = Z.of_nat (length (List.filter P l)) - Z.b2z (P x) + Z.b2z (P y).
  Proof.
    revert i. induction l as [|z l IH]; intros [|i] H; try discriminate H; cbn in *.
    - injection H as ->. destruct (P x), (P y); cbn [length Z.b2z]; lia.
    - specialize (IH i H). destruct (P z); cbn [length]; [|exact IH]. rewrite !Nat2Z.inj_succ. apply (f_equal Z.succ) in IH. etransitivity; [exact IH|lia].
  Qed.
  Lemma npre_insert f ths i th th' : ths !! i = Some th -> npre f (<[i := th']> ths) = npre f ths - Z.b2z (pre_size f th) + Z.b2z (pre_size f th').
  Proof. apply filter_insert. Qed.
  Definition size_inv (f : string) (c0 : Z) (y : conc) : Prop :=
    let N := Z.of_nat (length (counted_calls disk f (cs_log y))) in
    let P := npre f (cs_threads y) in
    P <= N /\ c0 <= geti (k_size (cs_sh y)) f <= c0 + N - P /\ (P < N -> c0 + 1 <= geti (k_size (cs_sh y)) f) /\
    forall th full d x v, th ∈ cs_threads y -> th.1 = TSizeW full d x v -> f_name x = f -> c0 <= v <= c0 + N - P.
  Lemma counted_snoc f h c : Z.of_nat (length (counted_calls disk f (h ++ [c]))) = Z.of_nat (length (counted_calls disk f h)) + Z.b2z (counted disk f c).
  Proof. unfold counted_calls. rewrite List.filter_app, app_length. cbn. destruct (counted disk f c); cbn; lia. Qed.
  Lemma pre_enter f c cs : pre_size f (t_enter disk c, cs) = counted disk f c.
  Proof. destruct c; unfold t_enter; destruct disk; done. Qed.
  Lemma elem_of_insert {A} (l : list A) i x y : y ∈ <[i := x]> l -> y = x \/ y ∈ l.
  Proof.
    intros (j & Hj)%elem_of_list_lookup. destruct (decide (i = j)) as [->|Hn].
    - destruct (decide (j < length l)%nat) as [Hl|Hl]; [rewrite list_lookup_insert in Hj by done; injection Hj as <-; by left|].
      rewrite list_insert_ge in Hj by lia. right. by eapply elem_of_list_lookup_2.
    - rewrite list_lookup_insert_ne in Hj by done. right. by eapply elem_of_list_lookup_2.
  Qed.
  Lemma size_step f c0 a b : 0 <= c0 -> conc_step a b -> c0 + Z.of_nat (length (counted_calls disk f (cs_log b))) < 2 ^ 63 -> size_inv f c0 a -> size_inv f c0 b.
  Proof.
    intros Hc0 H. inversion H as [s ths log i c cs Hi|s ths log i pc cs s' pc' Hi G]; subst; clear H; unfold size_inv; cbn [cs_sh cs_threads cs_log]; intros Hb (I1 & I2 & I3 & I4).
    - rewrite (npre_insert f ths i _ _ Hi), pre_enter, counted_snoc. cbn [Z.b2z pre_size fst]. set (q := Z.b2z (counted disk f c)) in *.
      assert (0 <= q) by (unfold q; destruct (counted disk f c); cbn; lia). split; [lia|]. split; [lia|]. split; [lia|].
      intros th full d x v Hth Hpc Hx. apply elem_of_insert in Hth as [->|Hth].
      + exfalso. destruct c; cbn in Hpc; destruct disk; discriminate Hpc.
      + specialize (I4 _ _ _ _ _ Hth Hpc Hx). lia.
    - rewrite (npre_insert f ths i _ _ Hi). set (N := Z.of_nat (length (counted_calls disk f log))) in *.
      assert (Hin : (pc, cs) ∈ ths) by (by eapply elem_of_list_lookup_2).
      assert (forall th full d x v, th ∈ <[i := (pc', cs)]> ths -> th.1 = TSizeW full d x v -> f_name x = f -> (pc' = TSizeW full d x v \/ c0 <= v <= c0 + N - npre f ths)) as K.
      { intros th full d x v Hth Hpc Hx. apply elem_of_insert in Hth as [->|Hth]; [by left|]. right. by eapply I4. }
      assert (Z.b2z (pre_size f (pc, cs)) <= npre f ths) as Kp.
      { unfold npre. clear -Hin. induction Hin as [th l|th u l Hin IH]; cbn; [destruct (pre_size f th); cbn [length Z.b2z]; lia|]. destruct (pre_size f u); cbn [length]; lia. }
      inversion G; subst; cbn [pre_size fst Z.b2z k_size set_kfdoc set_kindex set_knft set_klength] in *;
        try (split; [lia|]; split; [lia|]; split; [lia|]; intros th full0 d0 x0 v0 Hth Hpc Hx; destruct (K _ _ _ _ _ Hth Hpc Hx) as [E|E]; [discriminate E|lia]).
      + (* read *) split; [lia|]. split; [lia|]. split; [lia|]. intros th full0 d0 x0 v0 Hth Hpc Hx. destruct (K _ _ _ _ _ Hth Hpc Hx) as [E|E]; [|lia]. injection E as _ _ -> <-. subst f. lia.
      + (* write *) destruct (decide (f_name x = f)) as [E|E].
        * rewrite (bool_decide_eq_true_2 _ E) in *. cbn [Z.b2z] in *. specialize (I4 _ _ _ _ _ Hin eq_refl E). cbn [k_size set_ksize]. unfold geti at 1 2 3. rewrite E, lookup_insert. cbn [default from_option id].
          rewrite wrap64_id by (unfold int64_range; lia). split; [lia|]. split; [lia|]. split; [lia|]. intros th full0 d0 x0 v0 Hth Hpc Hx. destruct (K _ _ _ _ _ Hth Hpc Hx) as [E2|E2]; [discriminate E2|lia].
        * rewrite (bool_decide_eq_false_2 _ E) in *. cbn [Z.b2z] in *. cbn [k_size set_ksize]. unfold geti. rewrite lookup_insert_ne by done. fold (geti (k_size s) f). split; [lia|]. split; [lia|]. split; [lia|].
          intros th full0 d0 x0 v0 Hth Hpc Hx. destruct (K _ _ _ _ _ Hth Hpc Hx) as [E2|E2]; [discriminate E2|lia].
      + (* loop end *) destruct full; cbn [pre_size fst Z.b2z]; (split; [lia|]; split; [lia|]; split; [lia|]; intros th full0 d0 x0 v0 Hth Hpc Hx; destruct (K _ _ _ _ _ Hth Hpc Hx) as [E|E]; [discriminate E|lia]).
  Qed.

  (** * FieldLength *)
  Definition pre_len (f : string) (th : tpc * list call) : list Z :=
    match th.1 with
    | TDoc _ x | TDocW _ x _ | TSize _ _ x | TSizeW _ _ x _ | TLen _ _ x | TLenW _ _ x _ => if bool_decide (f_name x = f) then [f_length x] else []
    | _ => []
    end.
  Definition pend (f : string) (ths : list (tpc * list call)) : list Z := flat_map (pre_len f) ths.
  Lemma pend_insert f ths i th th' : ths !! i = Some th -> pend f (<[i := th']> ths) ++ pre_len f th ≡ₚ pend f ths ++ pre_len f th'.
  Proof.
    unfold pend. revert i. induction ths as [|z l IH]; intros [|i] H; try discriminate H; cbn in H |- *.
    - injection H as ->. rewrite <- !app_assoc. rewrite (Permutation_app_comm (pre_len f th) (_ ++ _)), <- app_assoc. rewrite (Permutation_app_comm (pre_len f th') (_ ++ _)), <- app_assoc.
      apply Permutation_app_head, Permutation_app_comm.
    - specialize (IH i H). rewrite <- !app_assoc. apply Permutation_app_head. exact IH.
  Qed.
  Definition call_len (c : call) : Z := match c with Save _ x | Index _ x => f_length x end.
  Definition lens (f : string) (h : list call) : list Z := map call_len (counted_calls disk f h).
  Definition sum_of (c0 : Z) (stored : list Z) (v : Z) : Prop := exists sub, sub ⊆+ stored /\ v = wrap64 (c0 + zsum sub).
  Lemma lens_snoc f h c : lens f (h ++ [c]) = lens f h ++ (if counted disk f c then [call_len c] else []).
  Proof. unfold lens, counted_calls. rewrite List.filter_app, map_app. cbn. by destruct (counted disk f c). Qed.
  Lemma len_enter f c cs : pre_len f (t_enter disk c, cs) = if counted disk f c then [call_len c] else [].
  Proof. destruct c; unfold t_enter; destruct disk; cbn; done. Qed.
  Definition len_inv (f : string) (c0 : Z) (y : conc) : Prop :=
    exists stored, stored ++ pend f (cs_threads y) ≡ₚ lens f (cs_log y) /\
      (exists sub, sub ⊆+ stored /\ (stored <> [] -> sub <> []) /\ geti (k_length (cs_sh y)) f = wrap64 (c0 + zsum sub)) /\
      forall th full d x v, th ∈ cs_threads y -> th.1 = TLenW full d x v -> f_name x = f -> sum_of c0 stored v.
  Lemma len_step f c0 a b : conc_step a b -> len_inv f c0 a -> len_inv f c0 b.
  Proof.
    intros H. inversion H as [s ths log i c cs Hi|s ths log i pc cs s' pc' Hi G]; subst; clear H; unfold len_inv; cbn [cs_sh cs_threads cs_log]; intros (stored & I1 & I2 & I3).
    - exists stored. split; [|split; [done|]].
      + pose proof (pend_insert f ths i _ (t_enter disk c, cs) Hi) as E. cbn [pre_len fst] in E. rewrite app_nil_r, len_enter in E. rewrite E, lens_snoc, app_assoc, I1. done.
      + intros th full d x v Hth Hpc Hx. apply elem_of_insert in Hth as [->|Hth]; [|by eapply I3]. destruct c; cbn in Hpc; destruct disk; discriminate Hpc.
    - pose proof (pend_insert f ths i _ (pc', cs) Hi) as E. assert (Hin : (pc, cs) ∈ ths) by (by eapply elem_of_list_lookup_2).
      assert (pre_len f (pc', cs) = pre_len f (pc, cs) -> stored ++ pend f (<[i := (pc', cs)]> ths) ≡ₚ lens f log) as K1.
      { intros Ep. rewrite Ep in E. apply Permutation_app_inv_r in E. by rewrite E. }
      assert ((forall full d x v, pc' = TLenW full d x v -> f_name x = f -> sum_of c0 stored v) -> forall th full d x v, th ∈ <[i := (pc', cs)]> ths -> th.1 = TLenW full d x v -> f_name x = f -> sum_of c0 stored v) as K2.
      { intros Ep th full d x v Hth Hpc Hx. apply elem_of_insert in Hth as [->|Hth]; [by eapply Ep|by eapply I3]. }
      inversion G; subst; cbn [k_length set_kfdoc set_kindex set_knft set_ksize] in *;
        try (exists stored; split; [by apply K1|]; split; [done|]; apply K2; discriminate).
      + (* read *) exists stored. split; [by apply K1|]. split; [done|]. apply K2. intros ? ? ? ? [= <- <- <- <-] Hx. destruct I2 as (sub & S1 & _ & S2). exists sub. split; [done|]. by rewrite Hx.
      + (* write *) destruct (decide (f_name x = f)) as [Ex|Ex].
        * cbn [pre_len fst] in E. rewrite (bool_decide_eq_true_2 _ Ex) in E. rewrite app_nil_r in E. exists (f_length x :: stored). split; [|split].
          -- cbn. rewrite <- I1, <- E. rewrite app_assoc. rewrite (Permutation_app_comm _ [f_length x]). done.
          -- destruct (I3 _ _ _ _ _ Hin eq_refl Ex) as (sub & S1 & S2). exists (f_length x :: sub). split; [by apply submseteq_skip|]. split; [done|]. cbn [k_length set_klength]. unfold geti. rewrite Ex, lookup_insert. cbn [default from_option id]. rewrite S2, wrap64_add_l. change (zsum (f_length x :: sub)) with (f_length x + zsum sub). f_equal. lia.
          -- intros th full0 d0 x0 v0 Hth Hpc Hx. apply elem_of_insert in Hth as [->|Hth]; [discriminate Hpc|]. destruct (I3 _ _ _ _ _ Hth Hpc Hx) as (sub & S1 & S2). exists sub. split; [by apply submseteq_cons|done].
        * exists stored. split; [apply K1; cbn; by rewrite (bool_decide_eq_false_2 _ Ex)|]. split; [|apply K2; discriminate]. cbn [k_length set_klength]. unfold geti. rewrite lookup_insert_ne by done. exact I2.
      + exists stored. split; [apply K1; by destruct full|]. split; [done|]. apply K2. by destruct full.
  Qed.

  Lemma pend_start f progs : pend f (map (fun cs => (TIdle, cs)) progs) = [].
  Proof. induction progs; done. Qed.
  Lemma npre_start f progs : npre f (map (fun cs => (TIdle, cs)) progs) = 0.
  Proof. unfold npre. induction progs; done. Qed.
  Lemma pend_done f y : all_done y -> pend f (cs_threads y) = [] /\ npre f (cs_threads y) = 0.
  Proof.
    unfold all_done, npre. induction (cs_threads y) as [|th l IH]; intros H; [done|]. rewrite (H th) by left. destruct IH as [E1 E2]; [intros th' H'; apply H; by right|]. done.
  Qed.
  (** The calls that were made. *)
  Lemma log_progs s progs y : rtc conc_step (conc_start s progs) y -> cs_log y ++ concat (map snd (cs_threads y)) ≡ₚ concat progs.
  Proof.
    intros H. remember (conc_start s progs) as y0 eqn:E0. assert (cs_log y0 ++ concat (map snd (cs_threads y0)) ≡ₚ concat progs) as I.
    { subst y0. cbn. rewrite map_map. cbn. by rewrite map_id. }
    clear E0. induction H as [y|y0 y1 y Hs _ IH]; [done|]. apply IH. rewrite <- I. clear IH I.
    assert (forall (ths : list (tpc * list call)) i th th' c, ths !! i = Some th -> th.2 = c ++ th'.2 -> c ++ concat (map snd (<[i := th']> ths)) ≡ₚ concat (map snd ths)) as K.
    { induction ths as [|z l IH]; intros [|i] th th' c Hi E; try discriminate Hi; cbn in Hi |- *.
      - injection Hi as ->. rewrite E, app_assoc. done.
      - rewrite <- (IH i th th' c Hi E). rewrite !app_assoc. apply Permutation_app_tail, Permutation_app_comm. }
    inversion Hs as [s1 ths log i c cs Hi|s1 ths log i pc cs s' pc' Hi G]; subst; cbn.
    - rewrite <- app_assoc. apply Permutation_app_head. apply (K ths i _ _ [c] Hi). done.
    - apply Permutation_app_head. apply (K ths i _ _ [] Hi). done.
  Qed.
  Lemma log_done s progs y : rtc conc_step (conc_start s progs) y -> all_done y -> cs_log y ≡ₚ concat progs.
  Proof.
    intros H D. rewrite <- (log_progs s progs y H). enough (concat (map snd (cs_threads y)) = []) as -> by by rewrite app_nil_r. unfold all_done in D.
    induction (cs_threads y) as [|th l IH]; [done|]. cbn. rewrite (D th) by left. cbn. apply IH. intros th' H'. apply D. by right.
  Qed.
  Lemma counted_perm f h h' : h ≡ₚ h' -> counted_calls disk f h ≡ₚ counted_calls disk f h'.
  Proof. unfold counted_calls. induction 1; cbn; repeat case_match; try done; [by constructor|by constructor|by etrans]. Qed.
  Lemma log_grows a b : rtc conc_step a b -> exists h, cs_log b = cs_log a ++ h.
  Proof.
    induction 1 as [y|a b c Hs _ (h & IH)]; [exists []; by rewrite app_nil_r|]. inversion Hs; subst; cbn in *; [exists (c0 :: h); by rewrite IH, <- app_assoc|by exists h].
  Qed.
End conc.
