(** Concurrent saves: stored documents, completion (C56). *)
From Verif Require Import Base M_Field M_Memory M_Concurrent S_Memory S_Concurrent P_Base P_Memory P_Concurrent P_Concurrent2 P_Concurrent4.
#[local] Open Scope Z_scope.

(** * Every call can complete *)
Lemma finish_size s full d x v : exists s', rtc t_step (s, TSizeW full d x v) (s', TIdle).
Proof. destruct (finish_len (set_ksize s (<[f_name x := wrap64 (v + 1)]> (k_size s))) full d x) as (s' & R & _). exists s'. eapply rtc_l; [apply t_size_w|exact R]. Qed.
Lemma finish_docw s d x o : exists s', rtc t_step (s, TDocW d x o) (s', TIdle).
Proof.
  assert (forall s, exists s', rtc t_step (s, TSize true d x) (s', TIdle)) as K. { intros s0. destruct (finish_size s0 true d x (geti (k_size s0) (f_name x))) as (s' & R). exists s'. eapply rtc_l; [apply t_size|exact R]. }
  destruct o as [l|].
  - destruct (K (set_kfdoc s (k_fdoc s) (<[l := <[f_name x := x]> (default ∅ (k_fdocs s !! l))]> (k_fdocs s)))) as (s' & R). exists s'. eapply rtc_l; [apply t_doc_old|exact R].
  - destruct (fresh_at (k_fdocs s)) as [l Hl]. destruct (K (set_kfdoc s (<[d := l]> (k_fdoc s)) (<[l := {[f_name x := x]}]> (k_fdocs s)))) as (s' & R). exists s'. eapply rtc_l; [by apply (t_doc_new s d x l)|exact R].
Qed.
Lemma finish_any s pc : exists s', rtc t_step (s, pc) (s', TIdle).
Proof.
  destruct pc as [|d x|d x o|full d x|full d x v|full d x|full d x v|full d x|full d x|full d x l ks|full d x l t ks o|d x|d x l ks|d x l t ks v].
  - by exists s.
  - destruct (finish_docw s d x (k_fdoc s !! d)) as (s' & R). exists s'. eapply rtc_l; [apply t_doc|exact R].
  - apply finish_docw.
  - destruct (finish_size s full d x (geti (k_size s) (f_name x))) as (s' & R). exists s'. eapply rtc_l; [apply t_size|exact R].
  - apply finish_size.
  - destruct (finish_len s full d x) as (s' & R & _). by exists s'.
  - destruct (finish_idx (set_klength s (<[f_name x := wrap64 (v + f_length x)]> (k_length s))) full d x) as (s' & R & _). exists s'. eapply rtc_l; [apply t_len_w|exact R].
  - destruct (finish_idx s full d x) as (s' & R & _). by exists s'.
  - destruct (finish_idxnew s full d x) as (s' & R & _). by exists s'.
  - destruct (finish_loop s full d x l ks) as (s' & R & _). by exists s'.
  - destruct o as [a|].
    + destruct (finish_loop (set_kindex s (k_index s) (k_maps s) (<[a := set_step (default set_new (k_sets s !! a)) (SAdd d)]> (k_sets s))) full d x l ks) as (s' & R & _). exists s'. eapply rtc_l; [apply t_set_old|exact R].
    + destruct (fresh_at (k_sets s)) as [a Ha]. destruct (finish_loop (set_kindex s (k_index s) (<[l := <[t := a]> (default ∅ (k_maps s !! l))]> (k_maps s)) (<[a := set_step set_new (SAdd d)]> (k_sets s))) full d x l ks) as (s' & R & _). exists s'. eapply rtc_l; [by apply t_set_new|exact R].
  - destruct (finish_nft s d x) as (s' & R & _). by exists s'.
  - destruct (finish_counts s d x l ks) as (s' & R & _). by exists s'.
  - destruct (finish_counts (set_knft s (k_nft s) (<[l := <[t := wrap64 (v + 1)]> (default ∅ (k_nfts s !! l))]> (k_nfts s))) d x l ks) as (s' & R & _). exists s'. eapply rtc_l; [apply t_nft_w|exact R].
Qed.
Section docs.
  Variable disk : bool.
  Notation conc_step := (conc_step disk).
  Lemma finish_thread cs : forall s pc A B log, exists s' log', rtc conc_step (mkConc s (A ++ (pc, cs) :: B) log) (mkConc s' (A ++ (TIdle, []) :: B) log').
  Proof.
    induction cs as [|c cs IH]; intros s pc A B log; destruct (finish_any s pc) as (s1 & R).
    - exists s1, log. by apply solo.
    - destruct (IH s1 (t_enter disk c) A B (log ++ [c])) as (s' & log' & R'). exists s', log'. etransitivity; [by apply solo|]. eapply rtc_l; [apply solo_call|exact R'].
  Qed.
  Lemma finish_all ths : forall s A log, exists s' log', rtc conc_step (mkConc s (A ++ ths) log) (mkConc s' (A ++ replicate (length ths) (TIdle, [])) log').
  Proof.
    induction ths as [|[pc cs] ths IH]; intros s A log; [by exists s, log|]. destruct (finish_thread cs s pc A ths log) as (s1 & log1 & R1).
    destruct (IH s1 (A ++ [(TIdle, [])]) log1) as (s' & log' & R'). exists s', log'. etransitivity; [exact R1|]. rewrite <- !app_assoc in R'. exact R'.
  Qed.

  (** * Documents *)
  Definition own_doc_pc (od : gmap nat string) (pc : tpc) : Prop := match pc with TDocW d _ (Some l) => od !! l = Some d | _ => True end.
  Record own_docs (s : shared) (od : gmap nat string) : Prop := {
    od_doc : forall d l, k_fdoc s !! d = Some l -> od !! l = Some d;
    od_dom : forall l, is_Some (k_fdocs s !! l) <-> is_Some (od !! l) }.
  Definition stored (s : shared) (d f : string) : option field := k_fdoc s !! d ≫= fun l => fields_at s l !! f.
  Definition pend_doc (d f : string) (pc : tpc) : option field :=
    match pc with TDoc d' x | TDocW d' x _ => if decide (d' = d /\ f_name x = f) then Some x else None | _ => None end.
  Definition fresh_doc (s : shared) (d : string) (pc : tpc) : Prop := match pc with TDocW d' _ o => d' = d -> o = k_fdoc s !! d | _ => True end.
  Definition not_doc (d : string) (pc : tpc) : Prop := match pc with TDoc d' _ | TDocW d' _ _ => d' <> d | _ => True end.
  Definition saves_of (d : string) (h : list call) : list call := List.filter (fun c => is_save c && String.eqb (call_doc c) d) h.
  Definition docs_inv (d : string) (i : nat) (prog : list call) (y : conc) : Prop :=
    exists od, own_docs (cs_sh y) od /\
    (forall th, th ∈ cs_threads y -> own_doc_pc od th.1) /\
    (forall j pc cs, j <> i -> cs_threads y !! j = Some (pc, cs) -> not_doc d pc /\ saves_of d cs = []) /\
    exists pc cs, cs_threads y !! i = Some (pc, cs) /\ fresh_doc (cs_sh y) d pc /\ saves_of d (cs_log y) ++ saves_of d cs = saves_of d prog /\
      forall f, last_saved d f (cs_log y) = match pend_doc d f pc with Some x => Some x | None => stored (cs_sh y) d f end.
  Lemma last_saved_snoc d f h c : last_saved d f (h ++ [c]) = if is_save c && String.eqb (call_doc c) d && for_field f c then Some (call_field c) else last_saved d f h.
  Proof.
    induction h as [|c' h IH]; cbn; [by destruct (is_save c && _ && _)|]. rewrite IH. destruct (is_save c && _ && _) eqn:E; [done|done].
  Qed.
  Lemma last_saved_saves d f h : last_saved d f (saves_of d h) = last_saved d f h.
  Proof.
    induction h as [|c h IH]; [done|]. cbn [saves_of List.filter]. destruct (is_save c && String.eqb (call_doc c) d) eqn:E; cbn; rewrite <- IH; [unfold saves_of; by rewrite E|]. rewrite E. cbn. unfold saves_of. by destruct (last_saved d f _).
  Qed.
  Lemma docs_t s pc s' pc' od d : t_step (s, pc) (s', pc') -> own_docs s od -> own_doc_pc od pc ->
    exists od', od ⊆ od' /\ own_docs s' od' /\ own_doc_pc od' pc' /\
      (not_doc d pc -> not_doc d pc' /\ k_fdoc s' !! d = k_fdoc s !! d /\ forall f, stored s' d f = stored s d f) /\
      (fresh_doc s d pc -> fresh_doc s' d pc' /\ forall f, match pend_doc d f pc' with Some x => Some x | None => stored s' d f end = match pend_doc d f pc with Some x => Some x | None => stored s d f end).
  Proof.
    intros G W Op. inversion G; subst; cbn [own_doc_pc] in Op;
      try (exists od; split; [done|]; split; [by destruct W|]; split; [done|]; split; [done|]; done).
    - (* read *) exists od. do 2 (split; [done|]). split; [cbn; destruct (k_fdoc s' !! d0) eqn:E; [by apply (od_doc _ _ W)|done]|]. split; [done|]. intros _. split; [cbn; by intros ->|done].
    - (* old *) exists od. split; [done|]. split.
      { destruct W. constructor; cbn; [done|]. intros l'. destruct (decide (l = l')) as [->|Hn]; [rewrite lookup_insert, Op; split; eauto|by rewrite lookup_insert_ne]. }
      split; [done|]. split.
      + intros Hn. cbn in Hn. split; [done|]. split; [done|]. intros f. unfold stored. cbn. destruct (k_fdoc s !! d) as [l'|] eqn:E; [|done]. cbn. unfold fields_at. cbn. rewrite lookup_insert_ne; [done|]. intros <-. apply (od_doc _ _ W) in E. congruence.
      + intros Hf. split; [done|]. intros f. cbn. unfold stored. cbn. cbn in Hf. destruct (decide (d0 = d)) as [->|Hn].
        * rewrite <- (Hf eq_refl). cbn. unfold fields_at. cbn. rewrite lookup_insert. cbn. destruct (decide (d = d /\ f_name x = f)) as [[_ <-]|Hn]; [by rewrite lookup_insert|]. rewrite lookup_insert_ne; [done|]. intros ?. by apply Hn.
        * rewrite decide_False by (intros [? _]; done). destruct (k_fdoc s !! d) as [l'|] eqn:E; [|done]. cbn. unfold fields_at. cbn. rewrite lookup_insert_ne; [done|]. intros <-. apply (od_doc _ _ W) in E. congruence.
    - (* new *) assert (od !! l = None) as Hl. { apply eq_None_not_Some. rewrite <- (od_dom _ _ W). by apply eq_None_not_Some. }
      exists (<[l := d0]> od). split; [by apply insert_subseteq|]. split.
      { destruct W. constructor; cbn.
        - intros d' l' E. destruct (decide (d0 = d')) as [->|Hn]; [rewrite lookup_insert in E; injection E as <-; by rewrite lookup_insert|]. rewrite lookup_insert_ne in E by done. apply od_doc0 in E. rewrite lookup_insert_ne; [done|]. intros <-. congruence.
        - intros l'. destruct (decide (l = l')) as [->|Hn]; [rewrite !lookup_insert; split; eauto|by rewrite !lookup_insert_ne]. }
      split; [done|].
      assert (forall f, d0 <> d -> stored (set_kfdoc s (<[d0 := l]> (k_fdoc s)) (<[l := {[f_name x := x]}]> (k_fdocs s))) d f = stored s d f) as K.
      { intros f Hn. unfold stored. cbn. rewrite lookup_insert_ne by done. destruct (k_fdoc s !! d) as [l'|] eqn:E; [|done]. cbn. unfold fields_at. cbn. rewrite lookup_insert_ne; [done|]. intros <-. apply (od_doc _ _ W) in E. congruence. }
      split.
      + intros Hn. cbn in Hn. split; [done|]. split; [cbn; by rewrite lookup_insert_ne|]. intros f. by apply K.
      + intros Hf. split; [done|]. intros f. cbn in Hf. change (pend_doc d f (TSize true d0 x)) with (@None field). cbn [pend_doc]. destruct (decide (d0 = d)) as [->|Hn]; [|rewrite decide_False by (intros [? _]; done); by apply K].
        unfold stored. cbn. rewrite lookup_insert, <- (Hf eq_refl). cbn. unfold fields_at. cbn. rewrite lookup_insert. cbn. destruct (decide (d = d /\ f_name x = f)) as [[_ <-]|Hn]; [by rewrite lookup_singleton|]. rewrite lookup_singleton_ne; [done|]. intros ?. by apply Hn.
    - (* end *) exists od. split; [done|]. split; [by destruct W|]. split; [by destruct full|]. split; [by destruct full|]. intros _. by destruct full.
  Qed.
End docs.

Lemma saves_app d h h' : saves_of d (h ++ h') = saves_of d h ++ saves_of d h'.
Proof. apply List.filter_app. Qed.
Lemma docs_step d i prog a b : conc_step false a b -> docs_inv d i prog a -> docs_inv d i prog b.
Proof.
  intros H (od & W & Th & Ot & pc0 & cs0 & Hi0 & Fr & Sv & La). inversion H as [s ths log j c cs Hj|s ths log j pc cs s' pc' Hj G]; subst; clear H; cbn [cs_sh cs_threads cs_log] in *.
  - exists od. cbn [cs_sh cs_threads cs_log]. split; [done|]. split; [intros th Hth; apply elem_of_insert in Hth as [->|Hth]; [by destruct c|by apply Th]|].
    assert (length ths > j)%nat as Lj by (by eapply lookup_lt_Some). destruct (decide (j = i)) as [->|Hn].
    + rewrite Hi0 in Hj. injection Hj as -> ->. split.
      { intros k pc' cs' Hk Hk'. rewrite list_lookup_insert_ne in Hk' by done. by eapply Ot. }
      exists (t_enter false c), cs. split; [by apply list_lookup_insert|]. split; [by destruct c|]. split.
      { rewrite saves_app, <- app_assoc. rewrite <- Sv. f_equal. by rewrite <- (saves_app d [c]). }
      intros f. rewrite last_saved_snoc, La. destruct c as [d' x|d' x]; cbn; [|done].
      destruct (String.eqb_spec d' d) as [->|Hd]; cbn; [|rewrite decide_False by (intros [? _]; done); done]. unfold for_field. cbn.
      destruct (String.eqb_spec (f_name x) f) as [Hf|Hf]; [by rewrite decide_True|]. rewrite decide_False by (intros [_ ?]; done). done.
    + destruct (Ot j _ _ Hn Hj) as [_ Sc]. assert (is_save c && String.eqb (call_doc c) d = false /\ saves_of d cs = []) as [Hc Scs]. { unfold saves_of in Sc. cbn in Sc. destruct (is_save c && _); [discriminate Sc|]. done. }
      split.
      { intros k pc' cs' Hk Hk'. destruct (decide (j = k)) as [->|Hjk]; [|rewrite list_lookup_insert_ne in Hk' by done; by eapply Ot]. rewrite list_lookup_insert in Hk' by done. injection Hk' as <- <-. split; [|done].
        destruct c as [d' x|d' x]; cbn in *; [|done]. intros ->. by rewrite String.eqb_refl in Hc. }
      exists pc0, cs0. split; [by rewrite list_lookup_insert_ne|]. split; [done|]. split.
      { rewrite saves_app. assert (saves_of d [c] = []) as -> by (unfold saves_of; cbn; by rewrite Hc). by rewrite app_nil_r. }
      intros f. rewrite last_saved_snoc, Hc. apply La.
  - destruct (docs_t s pc s' pc' od d G W (Th _ (elem_of_list_lookup_2 _ _ _ Hj))) as (od' & L & W' & Op' & K1 & K2). exists od'. cbn [cs_sh cs_threads cs_log]. split; [done|].
    assert (length ths > j)%nat as Lj by (by eapply lookup_lt_Some). split.
    { intros th Hth. apply elem_of_insert in Hth as [->|Hth]; [done|]. apply Th in Hth. destruct th as [[] ?]; try done. cbn in *. destruct o; [|done]. by eapply lookup_weaken. }
    destruct (decide (j = i)) as [->|Hn].
    + rewrite Hi0 in Hj. injection Hj as -> ->. split; [intros k pc0 cs0 Hk Hk'; rewrite list_lookup_insert_ne in Hk' by done; by eapply Ot|].
      destruct (K2 Fr) as [K3 K4]. exists pc', cs. split; [by apply list_lookup_insert|]. split; [done|]. split; [done|]. intros f. by rewrite K4.
    + destruct (Ot j _ _ Hn Hj) as [Nd Sc]. destruct (K1 Nd) as (K3 & K4 & K5). split.
      { intros k pc1 cs1 Hk Hk'. destruct (decide (j = k)) as [->|Hjk]; [|rewrite list_lookup_insert_ne in Hk' by done; by eapply Ot]. rewrite list_lookup_insert in Hk' by done. by injection Hk' as <- <-. }
      exists pc0, cs0. split; [by rewrite list_lookup_insert_ne|]. split; [destruct pc0; try done; cbn in *; intros ->; rewrite K4; by apply Fr|]. split; [done|]. intros f. by rewrite La, K5.
Qed.
Lemma docs_start d i prog progs : progs !! i = Some prog -> (forall j p c, j <> i -> progs !! j = Some p -> c ∈ p -> is_save c = true -> call_doc c <> d) -> docs_inv d i prog (conc_start sh_new progs).
Proof.
  intros Hi Ho. exists ∅. unfold conc_start. cbn [cs_sh cs_threads cs_log]. split; [constructor; cbn; intros *; rewrite ?lookup_empty; [done|split; by intros [? ?]]|].
  split; [intros th Hth; apply elem_of_list_fmap in Hth as (cs & -> & _); done|]. split.
  - intros j pc cs Hj Hl. rewrite list_lookup_fmap in Hl. destruct (progs !! j) as [p|] eqn:E; [|done]. cbn in Hl. injection Hl as <- <-. split; [done|]. unfold saves_of.
    specialize (Ho j p). assert (forall c, c ∈ p -> is_save c = true -> call_doc c <> d) as K by (intros c; by apply Ho). clear -K. induction p as [|c p IH]; [done|]. cbn. rewrite IH by (intros c' Hc; apply K; by right).
    destruct (is_save c) eqn:Es; [|done]. cbn. destruct (String.eqb_spec (call_doc c) d) as [E|E]; [|done]. exfalso. revert E. apply K; [left|done].
  - exists TIdle, prog. split; [by rewrite list_lookup_fmap, Hi|]. split; [done|]. split; [done|]. intros f. cbn. unfold stored. cbn. done.
Qed.
(** After the document map has been written a call leaves it alone. *)
Definition past_doc (pc : tpc) : Prop := match pc with TDoc _ _ | TDocW _ _ _ => False | _ => True end.
Lemma past_step s pc s' pc' : t_step (s, pc) (s', pc') -> past_doc pc -> past_doc pc' /\ forall d f, stored s' d f = stored s d f.
Proof. intros G. inversion G; subst; try done. destruct full; done. Qed.
Lemma past_steps s pc s' pc' : rtc t_step (s, pc) (s', pc') -> past_doc pc -> forall d f, stored s' d f = stored s d f.
Proof.
  intros H. remember (s, pc) as x eqn:Ex. remember (s', pc') as z eqn:Ez. revert s pc Ex. induction H as [x|x [s1 pc1] z Hs _ IH]; intros s pc ->; [by injection Ez as -> ->|]. intros I d f.
  destruct (past_step _ _ _ _ Hs I) as [I1 E]. rewrite (IH Ez s1 pc1 eq_refl I1). apply E.
Qed.
(** Two saves of different fields of the same new document. *)
Lemma lost_document d x1 x2 : f_name x1 <> f_name x2 ->
  exists s', conc_run false sh_new [[Save d x1]; [Save d x2]] s' /\ stored s' d (f_name x1) = None.
Proof.
  intros Hn. destruct (fresh_at (k_fdocs sh_new)) as [l1 H1]. set (s1 := set_kfdoc sh_new (<[d := l1]> (k_fdoc sh_new)) (<[l1 := {[f_name x1 := x1]}]> (k_fdocs sh_new))).
  destruct (fresh_at (k_fdocs s1)) as [l2 H2]. set (s2 := set_kfdoc s1 (<[d := l2]> (k_fdoc s1)) (<[l2 := {[f_name x2 := x2]}]> (k_fdocs s1))).
  destruct (finish_any s2 (TSize true d x1)) as (s3 & R3). destruct (finish_any s3 (TSize true d x2)) as (s4 & R4). exists s4. split.
  - exists (mkConc s4 [(TIdle, []); (TIdle, [])] [Save d x1; Save d x2]). split; [|split; [|done]].
    + unfold conc_start. cbn [map].
      eapply rtc_l; [apply (solo_call false sh_new (Save d x1) [] [] [(TIdle, [Save d x2])])|]. eapply rtc_l; [apply (solo_call false sh_new (Save d x2) [] [(TDoc d x1, [])] [])|].
      assert (rtc t_step (sh_new, TDoc d x1) (sh_new, TDocW d x1 None)) as R1 by (eapply rtc_l; [apply t_doc|done]). assert (rtc t_step (sh_new, TDoc d x2) (sh_new, TDocW d x2 None)) as R2 by (eapply rtc_l; [apply t_doc|done]).
      etransitivity; [apply (solo false _ _ _ _ [] [] [(TDoc d x2, [])] _ R1)|]. etransitivity; [apply (solo false _ _ _ _ [(TDocW d x1 None, [])] [] [] _ R2)|].
      assert (rtc t_step (sh_new, TDocW d x1 None) (s1, TSize true d x1)) as R5 by (eapply rtc_l; [by apply (t_doc_new sh_new d x1 l1)|done]). assert (rtc t_step (s1, TDocW d x2 None) (s2, TSize true d x2)) as R6 by (eapply rtc_l; [by apply (t_doc_new s1 d x2 l2)|done]).
      etransitivity; [apply (solo false _ _ _ _ [] [] [(TDocW d x2 None, [])] _ R5)|]. etransitivity; [apply (solo false _ _ _ _ [(TSize true d x1, [])] [] [] _ R6)|].
      etransitivity; [apply (solo false _ _ _ _ [] [] [(TSize true d x2, [])] _ R3)|]. apply (solo false _ _ _ _ [(TIdle, [])] [] [] _ R4).
    + intros th [->|[->|Hn'%elem_of_nil]%elem_of_cons]%elem_of_cons; done.
  - rewrite (past_steps _ _ _ _ R4 I), (past_steps _ _ _ _ R3 I). unfold stored. cbn. rewrite lookup_insert. cbn. unfold fields_at. cbn. rewrite lookup_insert. cbn. by rewrite lookup_singleton_ne.
Qed.
