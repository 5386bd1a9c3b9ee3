(** The LRU cache against its history specification. *)
From Verif Require Import Base M_LRU S_LRU P_Base P_Ring P_LRU.
#[local] Open Scope Z_scope.

Section hist.
Context {T : Type}.
Implicit Types (h : list (lru_event T)) (s : lru T).

Definition ev_key (e : lru_event T) : option string :=
  match e with EPut k _ | EHit k _ => Some k | EMiss _ => None end.
Lemma uses_key e k : uses e k <-> ev_key e = Some k.
Proof. destruct e; cbn; split; congruence || done. Qed.

Definition touch (L : list string) (e : lru_event T) : list string :=
  match ev_key e with Some k => k :: filter (fun x => x <> k) L | None => L end.
Definition recency h : list string := fold_left touch h [].
Lemma recency_snoc h e : recency (h ++ [e]) = touch (recency h) e.
Proof. unfold recency. by rewrite fold_left_app. Qed.
Lemma recency_NoDup h : NoDup (recency h).
Proof.
  induction h as [|e h IH] using rev_ind; [constructor|]. rewrite recency_snoc. unfold touch.
  destruct (ev_key e) as [k|]; [|done]. apply NoDup_cons. split.
  - rewrite elem_of_list_filter. tauto.
  - by apply NoDup_filter.
Qed.

Lemma filter_ne_notin (k : string) (L : list string) : k ∉ L -> filter (fun x => x <> k) L = L.
Proof.
  induction L as [|x L IH]; [done|]. rewrite not_elem_of_cons. intros [H1 H2].
  rewrite filter_cons_True by done. by rewrite IH.
Qed.
Lemma NoDup_split_unique {A} (k : A) a b c d :
  NoDup (a ++ k :: b) -> a ++ k :: b = c ++ k :: d -> a = c /\ b = d.
Proof.
  revert c. induction a as [|x a IH]; intros [|y c] Hnd E; cbn [app] in *.
  - by injection E as ->.
  - injection E as <- ->. apply NoDup_cons in Hnd as [Hn _]. exfalso. apply Hn, elem_of_app. right. left.
  - injection E as -> <-. apply NoDup_cons in Hnd as [Hn _]. exfalso. apply Hn, elem_of_app. right. left.
  - injection E as -> E. apply NoDup_cons in Hnd as [_ Hnd]. by destruct (IH c Hnd E) as [-> ->].
Qed.

Lemma recency_split h : forall L1 k L2, recency h = L1 ++ k :: L2 ->
  exists h1 e h2, h = h1 ++ e :: h2 /\ uses e k /\ (forall e', e' ∈ h2 -> ¬ uses e' k) /\
    forall x, x ∈ L1 <-> exists e', e' ∈ h2 /\ uses e' x.
Proof.
  induction h as [|ev h IH] using rev_ind; intros L1 k L2 E.
  { destruct L1; discriminate. }
  rewrite recency_snoc in E. unfold touch in E. destruct (ev_key ev) as [j|] eqn:Hj.
  - destruct L1 as [|j' L1]; cbn [app] in E.
    + injection E as -> _. exists h, ev, []. split; [done|]. split; [by apply uses_key|].
      split; [intros e' He'; inversion He'|]. intros x. split; [intros H; inversion H|].
      intros (e' & He' & _). inversion He'.
    + injection E as <- E.
      assert (k ∈ filter (fun x => x <> j) (recency h)) as Hk by (rewrite E; apply elem_of_app; right; left).
      apply elem_of_list_filter in Hk as [Hkj Hk].
      destruct (elem_of_list_split _ _ Hk) as (M1 & M2 & EM).
      destruct (IH _ _ _ EM) as (h1 & e & h2 & -> & Hu & Hno & Hx).
      assert (L1 = filter (fun x => x <> j) M1) as ->.
      { rewrite EM, filter_app, filter_cons_True in E by done.
        eapply (NoDup_split_unique k) in E as [-> _]; [done|].
        pose proof (recency_NoDup (h1 ++ e :: h2)) as Hnd. rewrite EM in Hnd.
        apply (NoDup_filter (fun x => x <> j)) in Hnd. by rewrite filter_app, filter_cons_True in Hnd. }
      exists h1, e, (h2 ++ [ev]). split; [by rewrite app_comm_cons, app_assoc|].
      split; [done|]. split.
      * intros e' He' Hu'. apply elem_of_app in He' as [He'|He']; [by apply (Hno e')|].
        apply elem_of_list_singleton in He' as ->. apply uses_key in Hu'. congruence.
      * intros x. rewrite elem_of_cons, elem_of_list_filter, Hx. split.
        -- intros [->|[_ (e' & ? & ?)]].
           ++ exists ev. split; [apply elem_of_app; right; left|by apply uses_key].
           ++ exists e'. split; [apply elem_of_app; by left|done].
        -- intros (e' & He' & Hu'). apply elem_of_app in He' as [He'|He'].
           ++ destruct (decide (x = j)); [by left|]. right. eauto.
           ++ apply elem_of_list_singleton in He' as ->. apply uses_key in Hu'. left. congruence.
  - destruct (IH _ _ _ E) as (h1 & e & h2 & -> & Hu & Hno & Hx).
    exists h1, e, (h2 ++ [ev]). split; [by rewrite app_comm_cons, app_assoc|].
    split; [done|]. split.
    + intros e' He' Hu'. apply elem_of_app in He' as [He'|He']; [by apply (Hno e')|].
      apply elem_of_list_singleton in He' as ->. apply uses_key in Hu'. congruence.
    + intros x. rewrite Hx. split; intros (e' & He' & Hu').
      * exists e'. split; [apply elem_of_app; by left|done].
      * apply elem_of_app in He' as [He'|He']; [eauto|].
        apply elem_of_list_singleton in He' as ->. apply uses_key in Hu'. congruence.
Qed.
Lemma recency_used h k : (exists e, e ∈ h /\ uses e k) -> k ∈ recency h.
Proof.
  induction h as [|ev h IH] using rev_ind; intros (e & He & Hu); [inversion He|].
  rewrite recency_snoc. unfold touch. apply elem_of_app in He as [He|He].
  - destruct (ev_key ev) as [j|] eqn:Hj; [|eauto].
    destruct (decide (k = j)) as [->|Hne]; [left|]. right. apply elem_of_list_filter. eauto.
  - apply elem_of_list_singleton in He as ->. apply uses_key in Hu. rewrite Hu. left.
Qed.

Lemma last_use_unique h1 e1 a1 h2 e2 a2 k :
  h1 ++ e1 :: a1 = h2 ++ e2 :: a2 -> uses e1 k -> uses e2 k ->
  (forall e', e' ∈ a1 -> ¬ uses e' k) -> (forall e', e' ∈ a2 -> ¬ uses e' k) ->
  a1 = a2.
Proof.
  revert h2. induction h1 as [|x h1 IH]; intros [|y h2] E U1 U2 N1 N2; cbn [app] in E.
  - by injection E as _ ->.
  - injection E as _ ->. exfalso. eapply N1; [|exact U2]. apply elem_of_app. right. left.
  - injection E as _ <-. exfalso. eapply N2; [|exact U1]. apply elem_of_app. right. left.
  - injection E as _ E. by eapply IH.
Qed.

Lemma in_take_split (L : list string) k n : k ∈ take n L <-> exists L1 L2, L = L1 ++ k :: L2 /\ k ∉ L1 /\ (length L1 < n)%nat.
Proof.
  split.
  - intros Hk. apply elem_of_list_split_l in Hk as (L1 & L2 & E & Hn).
    exists L1, (L2 ++ drop n L). split.
    + rewrite <- (take_drop n L) at 1. rewrite E, <- app_assoc. done.
    + split; [done|]. pose proof (take_length L n) as Hl. rewrite E in Hl.
      rewrite app_length in Hl. cbn [length] in Hl. lia.
  - intros (L1 & L2 & -> & Hn & Hl). rewrite take_app_ge by lia.
    apply elem_of_app. right. destruct (n - length L1)%nat as [|m] eqn:E; [lia|]. cbn [take]. left.
Qed.

Lemma recently_used_recency cap h k : 0 < cap ->
  recently_used cap h k <-> k ∈ take (Z.to_nat cap) (recency h).
Proof.
  intros Hc. rewrite in_take_split. split.
  - intros (h1 & e & h2 & Eh & Hu & Hno & Hks).
    assert (k ∈ recency h) as Hk.
    { apply recency_used. exists e. split; [|done]. rewrite Eh. apply elem_of_app. right. left. }
    destruct (elem_of_list_split_l _ _ Hk) as (L1 & L2 & E & Hn).
    exists L1, L2. split; [done|]. split; [done|].
    destruct (recency_split _ _ _ _ E) as (h1' & e' & h2' & Eh' & Hu' & Hno' & Hx).
    assert (h2 = h2') as <-.
    { eapply (last_use_unique h1 e h2 h1' e' h2' k); [congruence|done|done|done|done]. }
    assert (Z.of_nat (length L1) < cap); [|lia].
    apply Hks.
    + pose proof (recency_NoDup h) as Hnd. rewrite E in Hnd. by apply NoDup_app in Hnd as [? _].
    + intros x Hin. by apply Hx.
  - intros (L1 & L2 & E & Hn & Hl).
    destruct (recency_split _ _ _ _ E) as (h1 & e & h2 & Eh & Hu & Hno & Hx).
    exists h1, e, h2. split; [done|]. split; [done|]. split; [done|].
    intros ks Hnd Hks.
    assert (length ks <= length L1)%nat; [|lia].
    apply submseteq_length. apply NoDup_submseteq; [done|]. intros x Hin. apply Hx. by apply Hks.
Qed.

(** ** the invariant along a run *)
Lemma take_touch_in n (L : list string) k : NoDup L -> k ∈ take n L ->
  take n (k :: filter (fun x => x <> k) L) = k :: filter (fun x => x <> k) (take n L).
Proof.
  intros Hnd Hin. apply in_take_split in Hin as (L1 & L2 & -> & Hn & Hl).
  pose proof Hnd as Hnd'. rewrite NoDup_app, NoDup_cons in Hnd'. destruct Hnd' as (_ & _ & Hn2 & _).
  destruct n as [|n]; [lia|]. cbn [take]. f_equal.
  rewrite filter_app, filter_cons_False by auto. rewrite !filter_ne_notin by done.
  rewrite (take_app_ge L1) by lia. rewrite (take_app_ge L1) by lia.
  rewrite filter_app, (filter_ne_notin k L1) by done. f_equal.
  destruct (S n - length L1)%nat as [|m] eqn:E; [lia|]. cbn [take].
  rewrite filter_cons_False by auto.
  rewrite filter_ne_notin.
  - f_equal. lia.
  - intros H. apply Hn2. by apply elem_of_take in H as (i & Hi & _); eapply elem_of_list_lookup_2.
Qed.
Lemma removelast_take {A} (L : list A) n : (n <= length L)%nat -> removelast (take n L) = take (n - 1) L.
Proof.
  intros Hn. destruct n as [|n]; [done|]. replace (S n - 1)%nat with n by lia.
  destruct (lookup_lt_is_Some_2 L n ltac:(lia)) as [x Hx].
  rewrite (take_S_r _ _ _ Hx). apply removelast_last.
Qed.
Lemma take_touch_new n (L : list string) k : NoDup L -> (0 < n)%nat -> k ∉ take n L ->
  take n (k :: filter (fun x => x <> k) L)
  = k :: (if decide (n <= length (take n L))%nat then removelast (take n L) else take n L).
Proof.
  intros Hnd Hn Hk. destruct n as [|n]; [lia|]. cbn [take].
  change (match L with [] => [] | x :: l => x :: take n l end) with (take (S n) L) in *. f_equal.
  rewrite take_length. destruct (decide _) as [Hle|Hgt].
  - rewrite removelast_take by lia. replace (S n - 1)%nat with n by lia.
    rewrite <- (take_drop (S n) L) at 1. rewrite filter_app, filter_ne_notin by done.
    rewrite take_app_le by (rewrite take_length; lia). rewrite take_take. f_equal. lia.
  - rewrite (take_ge L) in Hk by lia. rewrite (take_ge L (S n)) by lia.
    rewrite filter_ne_notin by done. apply take_ge. lia.
Qed.

Lemma last_put_other h e k v : (forall w, e <> EPut k w) -> last_put h k v -> last_put (h ++ [e]) k v.
Proof.
  intros He (h1 & h2 & -> & Hn). exists h1, (h2 ++ [e]).
  rewrite app_comm_cons, app_assoc. split; [done|]. intros w Hin.
  apply elem_of_app in Hin as [Hin|Hin]; [by apply (Hn w)|].
  apply elem_of_list_singleton in Hin. by apply (He w).
Qed.
Lemma last_put_this h k v : last_put (h ++ [EPut k v]) k v.
Proof. exists h, []. split; [done|]. intros w H. inversion H. Qed.
Lemma last_put_unique h k v w : last_put h k v -> last_put h k w -> v = w.
Proof.
  intros (h1 & h2 & -> & H1) (g1 & g2 & E & H2). revert g1 E.
  induction h1 as [|x h1 IH]; intros [|y g1] E; cbn [app] in E.
  - congruence.
  - injection E as _ ->. exfalso. apply (H1 w). apply elem_of_app. right. left.
  - injection E as _ <-. exfalso. apply (H2 v). apply elem_of_app. right. left.
  - injection E as _ E. by eapply IH.
Qed.

Lemma filter_fst (k : string) (l : list (string * T)) :
  (filter (fun p => p.1 <> k) l).*1 = filter (fun x => x <> k) l.*1.
Proof.
  induction l as [|[k' v] l IH]; [done|]. rewrite fmap_cons. cbn [fst].
  destruct (decide (k' = k)) as [->|Hne].
  - rewrite !filter_cons_False by auto. done.
  - rewrite !filter_cons_True by done. rewrite fmap_cons, IH. done.
Qed.
Lemma removelast_fst (l : list (string * T)) : (removelast l).*1 = removelast l.*1.
Proof.
  induction l as [|a l IH]; [done|]. destruct l as [|b l]; [done|].
  change (removelast (a :: b :: l)) with (a :: removelast (b :: l)).
  rewrite !fmap_cons in *. change (removelast (a.1 :: b.1 :: l.*1)) with (a.1 :: removelast (b.1 :: l.*1)).
  by rewrite IH.
Qed.
Lemma removelast_elem {A} (x : A) l : x ∈ removelast l -> x ∈ l.
Proof.
  destruct (decide (l = [])) as [->|Hne]; [done|]. destruct (exists_last Hne) as (k & y & ->).
  rewrite removelast_last. intros H. apply elem_of_app. by left.
Qed.

Definition run_inv (cap : Z) h s : Prop :=
  exists l, R s l /\ lr_cap s = cap /\ l.*1 = take (Z.to_nat cap) (recency h) /\
    forall k v, (k, v) ∈ l -> last_put h k v.

Lemma run_invariant cap h s : 0 < cap -> lru_run cap h s -> run_inv cap h s.
Proof.
  intros Hcap Hrun. induction Hrun as [|h s k v s' Hrun IH Hp|h s k v s' e Hrun IH Hg Hd|h s k s' Hrun IH Hg].
  - exists []. split; [apply R_new|]. split; [done|]. split; [unfold recency; cbn [fold_left]; by rewrite take_nil|].
    intros k v H. inversion H.
  - destruct IH as (l & HR & Hc & Hl & Hlp).
    destruct (put_refine s l k v HR ltac:(lia)) as (s1 & E & Hc1 & HR1 & _).
    rewrite Hp in E. injection E as <-.
    exists (aput (lr_cap s) l k v). split; [done|]. split; [congruence|].
    rewrite recency_snoc. cbn [touch ev_key]. unfold touch. cbn [ev_key].
    pose proof (recency_NoDup h) as Hnd. unfold aput. destruct (decide (k ∈ l.*1)) as [Hin|Hnin].
    + split.
      * rewrite take_touch_in; [|done|by rewrite <- Hl]. rewrite fmap_cons, filter_fst, Hl. done.
      * intros k' v' H. apply elem_of_cons in H as [[= -> ->]|H]; [apply last_put_this|].
        apply elem_of_list_filter in H as [Hne H]. cbn [fst] in Hne.
        apply last_put_other; [intros w; congruence|auto].
    + split.
      * rewrite take_touch_new; [|done|lia|by rewrite <- Hl]. rewrite fmap_cons. cbn [fst]. f_equal.
        rewrite <- Hl, fmap_length, Hc.
        destruct (decide (Z.of_nat (length l) >= cap)), (decide (Z.to_nat cap <= length l)%nat);
          try lia; [apply removelast_fst|done].
      * intros k' v' H. apply elem_of_cons in H as [[= -> ->]|H]; [apply last_put_this|].
        assert ((k', v') ∈ l) as Hin.
        { destruct (decide _); [by apply removelast_elem|done]. }
        apply last_put_other; [|auto]. intros w [= -> ->].
        apply Hnin. by apply (elem_of_list_fmap_1 fst l (k', v')).
  - destruct IH as (l & HR & Hc & Hl & Hlp).
    pose proof (get_refine s l k HR) as H. rewrite Hg in H.
    destruct H as (Ht & Hpg & Htb & Hc' & v' & Hin & Hd' & HR').
    rewrite Hd in Hd'. injection Hd' as <-.
    exists ((k, v) :: filter (fun p => p.1 <> k) l). split; [done|]. split; [congruence|].
    rewrite recency_snoc. unfold touch. cbn [ev_key]. split.
    + rewrite take_touch_in; [|apply recency_NoDup|rewrite <- Hl; by apply (elem_of_list_fmap_1 fst l (k, v))].
      rewrite fmap_cons, filter_fst, Hl. done.
    + intros k' v' H. apply elem_of_cons in H as [[= -> ->]|H].
      * apply last_put_other; [done|auto].
      * apply elem_of_list_filter in H as [_ H]. apply last_put_other; [done|auto].
  - destruct IH as (l & HR & Hc & Hl & Hlp).
    pose proof (get_refine s l k HR) as H. rewrite Hg in H. destruct H as [_ ->].
    exists l. split; [done|]. split; [done|]. rewrite recency_snoc. unfold touch. cbn [ev_key].
    split; [done|]. intros k' v' H. apply last_put_other; [done|auto].
Qed.

(** ** top-level statements *)
Lemma lru_bounded cap h s : 0 < cap -> lru_run cap h s ->
  Z.of_nat (size (lr_table s)) <= cap /\ lr_len s = Z.of_nat (size (lr_table s)) /\
  exists order : list nat,
    (forall n, (length order <= n)%nat -> forward n (lr_ring s) = order /\ backward n (lr_ring s) = rev order) /\
    Z.of_nat (length order) = lr_len s /\
    NoDup (map (fun e => fst <$> lr_page s !! e) order) /\
    (forall k e, lr_table s !! k = Some e <-> e ∈ order /\ fst <$> lr_page s !! e = Some k).
Proof.
  intros Hcap Hrun. destruct (run_invariant _ _ _ Hcap Hrun) as (l & HR & Hc & Hl & _).
  destruct HR as [order H]. pose proof (rf_list _ _ _ H) as Hi.
  assert (length order = length l) as Hlen by (by eapply Forall2_length, H).
  pose proof (refines_NoDup _ _ _ H) as Hnd.
  assert (size (lr_table s) = length l) as Hsz.
  { change (size (lr_table s)) with (length (map_to_list (lr_table s))).
    rewrite <- (fmap_length fst), <- (fmap_length fst l). apply Permutation_length.
    apply NoDup_Permutation; [apply NoDup_fst_map_to_list|done|]. intros k.
    rewrite <- (refines_table_keys _ _ _ _ H). rewrite elem_of_list_fmap. split.
    - intros ([k' e] & -> & Hin). apply elem_of_map_to_list in Hin. eauto.
    - intros [e He]. exists (k, e). split; [done|]. by apply elem_of_map_to_list. }
  rewrite Hsz. split; [|split].
  - rewrite <- (fmap_length fst l), Hl, take_length. lia.
  - rewrite (li_len _ _ Hi). lia.
  - exists order. split; [|split; [|split]].
    + intros n Hn. by apply ring_traversals; [apply Hi|].
    + rewrite (li_len _ _ Hi). done.
    + assert (map (fun e => fst <$> lr_page s !! e) order = map Some l.*1) as ->.
      { pose proof (rf_pages _ _ _ H) as Hp. clear -Hp.
        induction Hp as [|e kv order l He Hp IH]; [done|]. cbn [map]. rewrite He, IH. done. }
      apply NoDup_fmap_2; [apply _|done].
    + intros k e. rewrite (rf_table _ _ _ H). f_equiv. split.
      * intros [v ->]. done.
      * destruct (lr_page s !! e) as [[k' v]|]; [|discriminate]. cbn. intros [= ->]. eauto.
Qed.

Lemma lru_get_preserves cap h s k s' r : 0 < cap -> lru_run cap h s -> lru_get s k = Some (s', r) ->
  forall k' v, holds s' k' v <-> holds s k' v.
Proof.
  intros Hcap Hrun Hg k' v. destruct (run_invariant _ _ _ Hcap Hrun) as (l & HR & _).
  pose proof (get_refine s l k HR) as H. rewrite Hg in H. destruct r as [e|].
  - destruct H as (_ & Hpg & Htb & _). unfold holds, lru_deref. by rewrite Hpg, Htb.
  - by destruct H as [_ ->].
Qed.

Lemma lru_exact cap h s k : 0 < cap -> lru_run cap h s ->
  (recently_used cap h k ->
     exists s' e v, lru_get s k = Some (s', Some e) /\ lru_deref s' e = Some v /\ last_put h k v) /\
  (¬ recently_used cap h k -> lru_get s k = Some (s, None)).
Proof.
  intros Hcap Hrun. destruct (run_invariant _ _ _ Hcap Hrun) as (l & HR & Hc & Hl & Hlp).
  rewrite recently_used_recency, <- Hl by done.
  pose proof (get_refine s l k HR) as H. destruct (lru_get s k) as [[s' [e|]]|]; [| |done].
  - destruct H as (Ht & Hpg & Htb & Hc' & v' & Hin & Hd' & HR'). split.
    + intros _. exists s', e, v'. auto.
    + intros Hn. exfalso. apply Hn. by apply (elem_of_list_fmap_1 fst l (k, v')).
  - destruct H as [Hn ->]. split; [done|]. done.
Qed.

Lemma lru_no_panic cap h s k v : 0 < cap -> lru_run cap h s ->
  (exists s', lru_put s k v = Some s') /\ (exists r, lru_get s k = Some r).
Proof.
  intros Hcap Hrun. destruct (run_invariant _ _ _ Hcap Hrun) as (l & HR & Hc & Hl & Hlp). split.
  - destruct (put_refine s l k v HR ltac:(lia)) as (s1 & -> & _). eauto.
  - pose proof (get_refine s l k HR) as H. destruct (lru_get s k); [eauto|done].
Qed.
Lemma lru_nonpositive cap k (v : T) : cap <= 0 ->
  lru_put (lru_new cap) k v = None /\ lru_get (lru_new cap : lru T) k = Some (lru_new cap, None).
Proof.
  intros Hc. split; [|done]. unfold lru_put, lru_new. cbn [lr_table lr_len lr_cap].
  rewrite lookup_empty. destruct (Z.geb_spec 0 cap); [done|lia].
Qed.

(** Values seen through pointers returned by earlier Gets. *)
Lemma lru_pointers cap h s k v s' : 0 < cap -> lru_run cap h s -> lru_put s k v = Some s' ->
  forall e, is_Some (lr_page s !! e) ->
  lru_deref s' e = if decide (lr_table s !! k = Some e) then Some v else lru_deref s e.
Proof.
  intros Hcap Hrun Hp e He. destruct (run_invariant _ _ _ Hcap Hrun) as (l & HR & Hc & _).
  destruct (put_refine s l k v HR ltac:(lia)) as (s1 & E & _ & _ & H1 & H2).
  rewrite Hp in E. injection E as <-. destruct (decide _) as [Ht|Ht].
  - by apply H2.
  - unfold lru_deref. by rewrite H1.
Qed.
End hist.
