(** Particular interleavings (C56). *)
From Verif Require Import Base M_Field M_Memory M_Concurrent S_Memory S_Concurrent P_Base P_Concurrent P_Concurrent2.
#[local] Open Scope Z_scope.

Section runs.
  Variable disk : bool.
  Notation conc_step := (conc_step disk).
  (** * One goroutine running on its own *)
  Lemma solo s pc s' pc' A cs B log : rtc t_step (s, pc) (s', pc') -> rtc conc_step (mkConc s (A ++ (pc, cs) :: B) log) (mkConc s' (A ++ (pc', cs) :: B) log).
  Proof.
    intros H. remember (s, pc) as x eqn:Ex. remember (s', pc') as z eqn:Ez. revert s pc Ex. induction H as [x|x y z Hs _ IH]; intros s pc ->; [injection Ez as -> ->; done|].
    destruct y as [s1 pc1]. eapply rtc_l; [|by apply IH]. assert ((A ++ (pc1, cs) :: B) = <[length A := (pc1, cs)]> (A ++ (pc, cs) :: B)) as ->.
    { rewrite insert_app_r_alt by lia. by rewrite Nat.sub_diag. }
    apply (cs_step disk) with pc; [|done]. rewrite lookup_app_r by lia. by rewrite Nat.sub_diag.
  Qed.
  Lemma solo_call s c cs A B log : conc_step (mkConc s (A ++ (TIdle, c :: cs) :: B) log) (mkConc s (A ++ (t_enter disk c, cs) :: B) (log ++ [c])).
  Proof.
    assert ((A ++ (t_enter disk c, cs) :: B) = <[length A := (t_enter disk c, cs)]> (A ++ (TIdle, c :: cs) :: B)) as ->.
    { rewrite insert_app_r_alt by lia. by rewrite Nat.sub_diag. }
    apply (cs_call disk). rewrite lookup_app_r by lia. by rewrite Nat.sub_diag.
  Qed.
  Lemma fresh_at {A} (m : gmap nat A) : exists l, m !! l = None.
  Proof. exists (fresh (dom m)). apply not_elem_of_dom, is_fresh. Qed.
  Lemma order_exists (x : field) : range_order (f_tf x) (map_to_list (f_tf x)).*1.
  Proof. unfold range_order. reflexivity. Qed.
  #[local] Hint Resolve order_exists : core.
  Lemma finish_counts s d x l ks : exists s', rtc t_step (s, TNftLoop d x l ks) (s', TIdle) /\ k_size s' = k_size s.
  Proof.
    revert s. induction ks as [|t ks IH]; intros s.
    - eexists. split; [eapply rtc_l; [apply t_nft_end|done]|done].
    - destruct (IH (set_knft s (k_nft s) (<[l := <[t := wrap64 (geti (default ∅ (k_nfts s !! l)) t + 1)]> (default ∅ (k_nfts s !! l))]> (k_nfts s)))) as (s' & R & E).
      exists s'. split; [|exact E]. eapply rtc_l; [apply t_nft_term|]. eapply rtc_l; [apply t_nft_w|exact R].
  Qed.
  Lemma finish_nft s d x : exists s', rtc t_step (s, TNft d x) (s', TIdle) /\ k_size s' = k_size s.
  Proof.
    destruct (k_nft s !! f_name x) as [l|] eqn:E.
    - destruct (finish_counts s d x l (map_to_list (f_tf x)).*1) as (s' & R & E'). exists s'. split; [|exact E']. eapply rtc_l; [by apply t_nft_old|exact R].
    - destruct (fresh_at (k_nfts s)) as [l Hl]. destruct (finish_counts (set_knft s (k_nft s) (<[l := ∅]> (k_nfts s))) d x l (map_to_list (f_tf x)).*1) as (s' & R & E'). exists s'. split; [|exact E']. eapply rtc_l; [by apply t_nft_new|exact R].
  Qed.
  Lemma finish_loop s full d x l ks : exists s', rtc t_step (s, TLoop full d x l ks) (s', TIdle) /\ k_size s' = k_size s.
  Proof.
    revert s. induction ks as [|t ks IH]; intros s.
    - destruct full; [|exists s; split; [|done]; eapply rtc_l; [apply t_loop_end|done]]. destruct (finish_nft s d x) as (s' & R & E). exists s'. split; [|done]. eapply rtc_l; [apply t_loop_end|exact R].
    - destruct (default ∅ (k_maps s !! l) !! t) as [a|] eqn:E.
      + destruct (IH (set_kindex s (k_index s) (k_maps s) (<[a := set_step (default set_new (k_sets s !! a)) (SAdd d)]> (k_sets s)))) as (s' & R & E'). exists s'. split; [|exact E']. eapply rtc_l; [apply t_loop|]. rewrite E. eapply rtc_l; [apply t_set_old|exact R].
      + destruct (fresh_at (k_sets s)) as [a Ha]. destruct (IH (set_kindex s (k_index s) (<[l := <[t := a]> (default ∅ (k_maps s !! l))]> (k_maps s)) (<[a := set_step set_new (SAdd d)]> (k_sets s)))) as (s' & R & E'). exists s'. split; [|exact E']. eapply rtc_l; [apply t_loop|]. rewrite E. eapply rtc_l; [by apply t_set_new|exact R].
  Qed.
  Lemma finish_idxnew s full d x : exists s', rtc t_step (s, TIdxNew full d x) (s', TIdle) /\ k_size s' = k_size s.
  Proof.
    destruct (fresh_at (k_maps s)) as [l Hl]. destruct (finish_loop (set_kindex s (<[f_name x := l]> (k_index s)) (<[l := ∅]> (k_maps s)) (k_sets s)) full d x l (map_to_list (f_tf x)).*1) as (s' & R & E').
    exists s'. split; [|exact E']. eapply rtc_l; [by apply t_idx_new|exact R].
  Qed.
  Lemma finish_idx s full d x : exists s', rtc t_step (s, TIdx full d x) (s', TIdle) /\ k_size s' = k_size s.
  Proof.
    destruct (k_index s !! f_name x) as [l|] eqn:E.
    - destruct (finish_loop s full d x l (map_to_list (f_tf x)).*1) as (s' & R & E'). exists s'. split; [|done]. eapply rtc_l; [by apply t_idx_old|exact R].
    - destruct (finish_idxnew s full d x) as (s' & R & E'). exists s'. split; [|done]. eapply rtc_l; [by apply t_idx_none|exact R].
  Qed.
  Lemma finish_len s full d x : exists s', rtc t_step (s, TLen full d x) (s', TIdle) /\ k_size s' = k_size s.
  Proof.
    destruct (finish_idx (set_klength s (<[f_name x := wrap64 (geti (k_length s) (f_name x) + f_length x)]> (k_length s))) full d x) as (s' & R & E'). exists s'. split; [|exact E'].
    eapply rtc_l; [apply t_len|]. eapply rtc_l; [apply t_len_w|exact R].
  Qed.
  (** Up to the point where the increment of the size is about to be stored. *)
  Lemma reach_sizew s f c : counted disk f c = true -> exists s' full d x, rtc t_step (s, t_enter disk c) (s', TSizeW full d x (geti (k_size s) f)) /\ f_name x = f /\ k_size s' = k_size s /\ k_index s' = k_index s /\ c = (if full then Save d x else Index d x).
  Proof.
    intros Hc. assert (forall s full d x, f_name x = f -> rtc t_step (s, TSize full d x) (s, TSizeW full d x (geti (k_size s) f))) as K. { intros s0 full d x <-. eapply rtc_l; [apply t_size|done]. }
    destruct c as [d x|d x]; cbn in *.
    - apply bool_decide_eq_true in Hc. destruct disk; [exists s, true, d, x; split; [by apply K|done]|].
      destruct (k_fdoc s !! d) as [l|] eqn:E.
      + eexists _, true, d, x. split; [|split; [done|]]; [eapply rtc_l; [apply t_doc|]; rewrite E; eapply rtc_l; [apply t_doc_old|exact (K (set_kfdoc s (k_fdoc s) (<[l := <[f_name x := x]> (default ∅ (k_fdocs s !! l))]> (k_fdocs s))) true d x Hc)]|]. done.
      + destruct (fresh_at (k_fdocs s)) as [l Hl]. eexists _, true, d, x. split; [|split; [done|]]; [eapply rtc_l; [apply t_doc|]; rewrite E; eapply rtc_l; [by apply (t_doc_new s d x l)|exact (K (set_kfdoc s (<[d := l]> (k_fdoc s)) (<[l := {[f_name x := x]}]> (k_fdocs s))) true d x Hc)]|]. done.
    - destruct disk; [done|]. cbn in Hc. apply bool_decide_eq_true in Hc. exists s, false, d, x. split; [by apply K|done].
  Qed.
  Definition at_sizew (f : string) (v : Z) (th : tpc * list call) : Prop := exists full d x, th = (TSizeW full d x v, []) /\ f_name x = f.
  Definition idle1 (c : call) : tpc * list call := (TIdle, [c]).
  Lemma phase_read f calls : forall s A B log, Forall (fun c => counted disk f c = true) calls ->
    exists s' ws log', rtc conc_step (mkConc s (A ++ map idle1 calls ++ B) log) (mkConc s' (A ++ ws ++ B) log') /\ k_size s' = k_size s /\ Forall (at_sizew f (geti (k_size s) f)) ws /\ length ws = length calls.
  Proof.
    induction calls as [|c calls IH]; intros s A B log H; [by exists s, [], log|]. apply Forall_cons in H as [Hc H].
    destruct (reach_sizew s f c Hc) as (s1 & full & d & x & R & Ex & Es & _ & _). destruct (IH s1 (A ++ [(TSizeW full d x (geti (k_size s) f), [])]) B (log ++ [c]) H) as (s' & ws & log' & R' & E1 & E2 & E3).
    exists s', ((TSizeW full d x (geti (k_size s) f), []) :: ws), log'. split; [|split; [congruence|split; [|cbn; lia]]].
    - cbn. eapply rtc_l; [apply solo_call|]. etransitivity; [by apply solo|]. rewrite <- !app_assoc in R'. exact R'.
    - rewrite Es in E2. constructor; [by exists full, d, x|exact E2].
  Qed.
  Lemma phase_write f v ws : forall s A B log, Forall (at_sizew f v) ws ->
    exists s', rtc conc_step (mkConc s (A ++ ws ++ B) log) (mkConc s' (A ++ replicate (length ws) (TIdle, []) ++ B) log) /\ (ws = [] -> s' = s) /\ (ws <> [] -> geti (k_size s') f = wrap64 (v + 1)).
  Proof.
    induction ws as [|w ws IH]; intros s A B log H; [exists s; done|]. apply Forall_cons in H as [(full & d & x & -> & Ex) H].
    destruct (finish_len (set_ksize s (<[f_name x := wrap64 (v + 1)]> (k_size s))) full d x) as (s1 & R & E). destruct (IH s1 (A ++ [(TIdle, [])]) B log H) as (s' & R' & E0 & E').
    exists s'. split; [|split; [done|]].
    - cbn. etransitivity; [apply solo; eapply rtc_l; [apply t_size_w|exact R]|]. rewrite <- !app_assoc in R'. exact R'.
    - intros _. destruct ws as [|w ws]; [|by apply E']. rewrite (E0 eq_refl), E. cbn [k_size set_ksize]. unfold geti. by rewrite Ex, lookup_insert.
  Qed.
  Lemma phase_serial f calls : forall s A B log, Forall (fun c => counted disk f c = true) calls -> 0 <= geti (k_size s) f -> geti (k_size s) f + Z.of_nat (length calls) < 2 ^ 63 ->
    exists s' log', rtc conc_step (mkConc s (A ++ map idle1 calls ++ B) log) (mkConc s' (A ++ replicate (length calls) (TIdle, []) ++ B) log') /\ geti (k_size s') f = geti (k_size s) f + Z.of_nat (length calls).
  Proof.
    induction calls as [|c calls IH]; intros s A B log H H0 Hb; [exists s, log; split; [done|cbn; lia]|]. apply Forall_cons in H as [Hc H]. cbn [length] in Hb.
    destruct (phase_read f [c] s A (map idle1 calls ++ B) log) as (s1 & ws & log1 & R1 & E1 & E2 & E3); [by constructor|].
    destruct (phase_write f _ ws s1 A (map idle1 calls ++ B) log1 E2) as (s2 & R2 & _ & E4). cbn in E3. rewrite E3 in R2. cbn [replicate] in R2.
    assert (geti (k_size s2) f = geti (k_size s) f + 1) as E5. { rewrite E4; [|by destruct ws]. apply wrap64_id. unfold int64_range. lia. }
    destruct (IH s2 (A ++ [(TIdle, [])]) B log1 H) as (s' & log' & R3 & E6); [lia|lia|]. exists s', log'. split; [|cbn [length]; lia].
    etransitivity; [exact R1|]. etransitivity; [exact R2|]. rewrite <- !app_assoc in R3. exact R3.
  Qed.
  (** * A field whose index is created twice *)
  Lemma reach_idxnew s f c : f_name (call_field c) = f -> k_index s !! f = None ->
    exists s' full d x, rtc t_step (s, t_enter disk c) (s', TIdxNew full d x) /\ k_index s' = k_index s /\ f_name x = f /\ d = call_doc c.
  Proof.
    intros Hf Hn. destruct (counted disk f c) eqn:Hc.
    - destruct (reach_sizew s f c Hc) as (s1 & full & d & x & R & Ex & _ & Ei & Ec). eexists _, full, d, x. split; [|split; [|split; [done|]]].
      + etransitivity; [exact R|]. eapply rtc_l; [apply t_size_w|]. eapply rtc_l; [apply t_len|]. eapply rtc_l; [apply t_len_w|]. eapply rtc_l; [apply t_idx_none|done]. cbn. by rewrite Ei, Ex.
      + exact Ei.
      + rewrite Ec. by destruct full.
    - destruct c as [d x|d x]; cbn in *; [by rewrite bool_decide_eq_true_2 in Hc|]. destruct disk; cbn in *; [|by rewrite bool_decide_eq_true_2 in Hc].
      exists s, false, d, x. split; [|done]. eapply rtc_l; [apply t_idx_none|done]. by rewrite Hf.
  Qed.
  Definition only (s : shared) (l : nat) (d : string) : Prop :=
    forall mp t a S d', k_maps s !! l = Some mp -> mp !! t = Some a -> k_sets s !! a = Some S -> is_Some (S !! d') -> d' = d.
  Definition only_inv (f : string) (l : nat) (d : string) (s : shared) (pc : tpc) : Prop :=
    k_index s !! f = Some l /\ only s l d /\
    match pc with
    | TLoop _ d' _ l' _ | TSet _ d' _ l' _ _ _ => d' = d /\ l' = l
    | TNft _ _ | TNftLoop _ _ _ _ | TNftW _ _ _ _ _ _ | TIdle => True
    | _ => False
    end.
  Lemma set_one (S : set_data) d d' : is_Some (set_step S (SAdd d) !! d') -> d' = d \/ is_Some (S !! d').
  Proof. cbn. destruct (decide (d = d')) as [->|Hn]; [by left|]. rewrite lookup_insert_ne by done. by right. Qed.
  Lemma only_step f l d s pc s' pc' : t_step (s, pc) (s', pc') -> only_inv f l d s pc -> only_inv f l d s' pc'.
  Proof.
    intros G (H1 & H2 & H3). inversion G; subst; try done.
    - by destruct full.
    - destruct H3 as [-> ->]. split; [done|]. split; [|done]. intros mp t' a' S d' Hm Ht HS Hd. cbn in Hm, HS. rewrite lookup_insert in Hm. injection Hm as <-.
      destruct (decide (a = a')) as [->|Ha]; [rewrite lookup_insert in HS; injection HS as <-; destruct (set_one _ _ _ Hd) as [?|[? E]]; [done|by destruct (lookup_empty_Some (M := gmap string) _ _ E)]|]. rewrite lookup_insert_ne in HS by done.
      destruct (decide (t = t')) as [->|Hn]; [rewrite lookup_insert in Ht; congruence|]. rewrite lookup_insert_ne in Ht by done. destruct (k_maps s !! l) as [mp|] eqn:Em; [|by destruct (lookup_empty_Some (M := gmap string) _ _ Ht)]. by eapply H2.
    - destruct H3 as [-> ->]. split; [done|]. split; [|done]. intros mp t' a' S d' Hm Ht HS Hd. cbn in Hm, HS.
      destruct (decide (a = a')) as [->|Ha]; [|rewrite lookup_insert_ne in HS by done; by eapply H2]. rewrite lookup_insert in HS. injection HS as <-. destruct (set_one _ _ _ Hd) as [?|Hd']; [done|].
      destruct (k_sets s !! a') as [S|] eqn:ES; [by eapply H2|destruct Hd' as [? E]; by destruct (lookup_empty_Some (M := gmap string) _ _ E)].
  Qed.
  Lemma only_steps f l d s pc s' pc' : rtc t_step (s, pc) (s', pc') -> only_inv f l d s pc -> only_inv f l d s' pc'.
  Proof.
    intros H. remember (s, pc) as x eqn:Ex. remember (s', pc') as z eqn:Ez. revert s pc Ex. induction H as [x|x [s1 pc1] z Hs _ IH]; intros s pc ->; [by injection Ez as -> ->|]. intros I. apply (IH Ez s1 pc1 eq_refl). by eapply only_step.
  Qed.
  Lemma lost_posting c1 c2 : f_name (call_field c1) = f_name (call_field c2) -> call_doc c1 <> call_doc c2 ->
    exists s', conc_run disk sh_new [[c1]; [c2]] s' /\ forall t, ~ shown s' (f_name (call_field c1)) t (call_doc c1).
  Proof.
    intros Hf Hd. destruct (reach_idxnew sh_new _ c1 eq_refl eq_refl) as (s1 & b1 & d1 & x1 & R1 & E1 & _ & _).
    destruct (reach_idxnew s1 (f_name (call_field c1)) c2 (eq_sym Hf)) as (s2 & b2 & d2 & x2 & R2 & E2 & N2 & D2); [by rewrite E1|].
    destruct (finish_idxnew s2 b1 d1 x1) as (s3 & R3 & _).
    destruct (fresh_at (k_maps s3)) as [l Hl]. set (s4 := set_kindex s3 (<[f_name x2 := l]> (k_index s3)) (<[l := ∅]> (k_maps s3)) (k_sets s3)).
    destruct (finish_loop s4 b2 d2 x2 l (map_to_list (f_tf x2)).*1) as (s5 & R5 & _).
    exists s5. split.
    - exists (mkConc s5 [(TIdle, []); (TIdle, [])] [c1; c2]). split; [|split; [|done]].
      + unfold conc_start. cbn [map].
        eapply rtc_l; [apply (solo_call sh_new c1 [] [] [(TIdle, [c2])])|]. etransitivity; [apply (solo _ _ _ _ [] [] [(TIdle, [c2])] _ R1)|].
        eapply rtc_l; [apply (solo_call s1 c2 [] [(TIdxNew b1 d1 x1, [])] [])|]. etransitivity; [apply (solo _ _ _ _ [(TIdxNew b1 d1 x1, [])] [] [] _ R2)|].
        etransitivity; [apply (solo _ _ _ _ [] [] [(TIdxNew b2 d2 x2, [])] _ R3)|].
        apply (solo s3 (TIdxNew b2 d2 x2) s5 TIdle [(TIdle, [])] [] []). eapply rtc_l; [by apply (t_idx_new s3 b2 d2 x2 l _ Hl (order_exists x2))|exact R5].
      + intros th [->|[->|Hn%elem_of_nil]%elem_of_cons]%elem_of_cons; done.
    - intros t (S & HS & Hin). assert (only_inv (f_name x2) l d2 s5 TIdle) as (I1 & I2 & _).
      { apply (only_steps _ _ _ _ _ _ _ R5). split; [cbn; by rewrite lookup_insert|]. split; [|done]. intros mp t' a S' d' Hm Ht. cbn in Hm. rewrite lookup_insert in Hm. injection Hm as <-. by rewrite lookup_empty in Ht. }
      destruct (view_posting s5 (f_name (call_field c1)) t S (call_doc c1)) as (l' & mp & a & F1 & F2 & F3 & F4); [|done|].
      { unfold mem_get_documents in HS. destruct (mm_index (view s5) !! _) as [idx|]; [|done]. cbn. by destruct (idx !! t). }
      rewrite <- N2, I1 in F1. injection F1 as <-. apply Hd. rewrite <- D2. by eapply I2.
  Qed.
End runs.
