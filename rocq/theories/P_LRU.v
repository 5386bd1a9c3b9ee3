(** Proofs about the LRU cache. *)
From Verif Require Import Base M_LRU S_LRU P_Base P_Ring.
#[local] Open Scope Z_scope.

Section lru.
Context {T : Type}.
Implicit Types s : lru T.

(** ** drop_elem *)
Lemma drop_elem_app e l1 l2 : drop_elem e (l1 ++ l2) = drop_elem e l1 ++ drop_elem e l2.
Proof. apply filter_app. Qed.
Lemma drop_elem_notin e l : e ∉ l -> drop_elem e l = l.
Proof.
  intros H. unfold drop_elem. induction l as [|x l IH]; [done|].
  rewrite not_elem_of_cons in H. destruct H as [H1 H2].
  rewrite filter_cons_True by done. by rewrite IH.
Qed.
Lemma drop_elem_split e l1 l2 : NoDup (l1 ++ e :: l2) -> drop_elem e (l1 ++ e :: l2) = l1 ++ l2.
Proof.
  intros Hnd. rewrite NoDup_app, NoDup_cons in Hnd. destruct Hnd as (_ & Hd & He & _).
  rewrite drop_elem_app. unfold drop_elem at 2. rewrite filter_cons_False by (intros ?; done).
  fold (drop_elem e l2). rewrite !drop_elem_notin; [done|done|].
  intros Hin. apply (Hd e Hin). left.
Qed.

(** ** list-level invariant of the container/list part *)
Record list_inv s (order : list nat) : Prop := {
  li_ring : ring_ok (lr_ring s) order;
  li_owned : forall e, e ∈ lr_owned s <-> e ∈ order;
  li_len : lr_len s = Z.of_nat (length order);
  li_next : forall e, e ∈ order -> (e < lr_next s)%nat;
  li_next0 : (0 < lr_next s)%nat;
}.
Lemma list_inv_new cap : list_inv (lru_new cap) [].
Proof. split; cbn; [apply ring_init_ok|set_solver|done|set_solver|lia]. Qed.
Lemma list_inv_NoDup s order : list_inv s order -> NoDup order /\ root ∉ order.
Proof. intros [[H _] _ _ _ _]. by apply NoDup_cons in H as [? ?]. Qed.

Lemma mtf_spec s order e : list_inv s order ->
  exists s', move_to_front s e = Some s' /\
    list_inv s' (if decide (e ∈ order) then e :: drop_elem e order else order) /\
    lr_cap s' = lr_cap s /\ lr_page s' = lr_page s /\ lr_table s' = lr_table s /\
    lr_next s' = lr_next s /\ lr_owned s' = lr_owned s.
Proof.
  intros Hi. pose proof Hi as [Hr Ho Hl Hn H0]. destruct (list_inv_NoDup _ _ Hi) as [Hnd Hroot].
  unfold move_to_front. destruct (decide (e ∈ order)) as [Hin|Hnin].
  - rewrite (bool_decide_false (e ∉ lr_owned s)) by (rewrite Ho; auto). cbn [orb].
    rewrite (ring_front _ _ Hr). case_bool_decide as Hf.
    + injection Hf as Hf. destruct order as [|x order]; [inversion Hin|]. cbn [hd] in Hf. subst x.
      apply NoDup_cons in Hnd as [He Hnd].
      exists s. split; [done|]. split; [|done].
      assert (drop_elem e (e :: order) = order) as ->
        by (apply (drop_elem_split e [] order); by apply NoDup_cons). exact Hi.
    + destruct (elem_of_list_split _ _ Hin) as (l1 & l2 & ->).
      assert (l1 <> []) as Hne by (intros ->; done).
      destruct (mtf_stmts _ _ _ _ Hr Hne) as (r' & -> & Hr').
      exists (with_ring s r'). split; [done|]. split; [|done].
      rewrite drop_elem_split by done.
      split; cbn [with_ring lr_ring lr_owned lr_len lr_next].
      * done.
      * intros x. rewrite Ho. set_solver.
      * rewrite Hl. cbn [length]. rewrite !app_length. cbn [length]. lia.
      * intros x Hx. apply Hn. set_solver.
      * done.
  - rewrite (bool_decide_true (e ∉ lr_owned s)) by (by rewrite Ho). cbn [orb].
    exists s. done.
Qed.

Lemma remove_spec s order e : list_inv s order ->
  exists s', list_remove s e = Some s' /\ list_inv s' (drop_elem e order) /\
    lr_cap s' = lr_cap s /\ lr_page s' = lr_page s /\ lr_table s' = lr_table s /\
    lr_next s' = lr_next s.
Proof.
  intros Hi. pose proof Hi as [Hr Ho Hl Hn H0]. destruct (list_inv_NoDup _ _ Hi) as [Hnd Hroot].
  unfold list_remove. case_bool_decide as Hin.
  - apply Ho in Hin. destruct (elem_of_list_split _ _ Hin) as (l1 & l2 & ->).
    destruct (remove_stmts_ok _ _ _ _ Hr) as (r' & -> & Hr').
    eexists. split; [done|]. split; [|done].
    rewrite drop_elem_split by done.
    rewrite NoDup_app, NoDup_cons in Hnd. destruct Hnd as (Hnd1 & Hd & He & Hnd2).
    split; cbn [lr_ring lr_owned lr_len lr_next].
    + done.
    + intros x. rewrite elem_of_difference, Ho, elem_of_singleton, !elem_of_app, elem_of_cons.
      split; [tauto|]. intros Hx. split; [tauto|]. intros ->. destruct Hx as [Hx|Hx]; [|done].
      apply (Hd e Hx). left.
    + rewrite Hl. rewrite !app_length. cbn [length]. lia.
    + intros x Hx. apply Hn. set_solver.
    + done.
  - rewrite Ho in Hin. exists s. rewrite drop_elem_notin by done. done.
Qed.

Lemma push_spec s order k v : list_inv s order ->
  exists s', push_front s k v = Some (s', lr_next s) /\ list_inv s' (lr_next s :: order) /\
    lr_cap s' = lr_cap s /\ lr_page s' = <[lr_next s := (k, v)]> (lr_page s) /\
    lr_table s' = lr_table s /\ lr_next s' = S (lr_next s).
Proof.
  intros Hi. pose proof Hi as [Hr Ho Hl Hn H0].
  unfold push_front.
  assert (lr_next s ∉ order) as Hf by (intros Hin; specialize (Hn _ Hin); lia).
  destruct (push_stmts _ (lr_next s) _ Hr ltac:(unfold root; lia) Hf) as (r' & -> & Hr').
  eexists. split; [done|]. split; [|done].
  split; cbn [lr_ring lr_owned lr_len lr_next].
  - done.
  - intros x. rewrite elem_of_union, Ho, elem_of_singleton, elem_of_cons. tauto.
  - cbn [length]. lia.
  - intros x Hx. apply elem_of_cons in Hx as [->|Hx]; [lia|]. specialize (Hn _ Hx). lia.
  - lia.
Qed.

(** Every sequence of list operations. *)
Lemma list_run_inv cap os s l : list_run (lru_new cap) os s l -> list_inv s l.
Proof.
  induction 1 as [|os o s l s' Hrun IH He]; [apply list_inv_new|].
  destruct o as [k v|e|e]; cbn [list_exec list_spec] in *.
  - destruct (push_spec s l k v IH) as (s1 & E & Hi & _). rewrite E in He. cbn in He.
    injection He as <-. done.
  - destruct (mtf_spec s l e IH) as (s1 & E & Hi & _). rewrite E in He. injection He as <-. done.
  - destruct (remove_spec s l e IH) as (s1 & E & Hi & _). rewrite E in He. injection He as <-. done.
Qed.
Lemma list_run_progress cap os s l o : list_run (lru_new cap) os s l -> exists s', list_exec s o = Some s'.
Proof.
  intros H%list_run_inv. destruct o as [k v|e|e]; cbn [list_exec].
  - destruct (push_spec s l k v H) as (s1 & -> & _). cbn. eauto.
  - destruct (mtf_spec s l e H) as (s1 & -> & _). eauto.
  - destruct (remove_spec s l e H) as (s1 & -> & _). eauto.
Qed.
Lemma list_run_traversals cap os s l : list_run (lru_new cap) os s l ->
  forall n, (length l <= n)%nat ->
  forward n (lr_ring s) = l /\ backward n (lr_ring s) = rev l /\
  NoDup l /\ lr_len s = Z.of_nat (length l).
Proof.
  intros H%list_run_inv n Hn. pose proof H as [Hr Ho Hl _ _].
  destruct (ring_traversals _ _ n Hr Hn) as [-> ->]. split; [done|]. split; [done|].
  split; [|done]. by eapply list_inv_NoDup.
Qed.

(** ** cache-level refinement *)
Definition aput (cap : Z) (l : list (string * T)) (k : string) (v : T) : list (string * T) :=
  if decide (k ∈ l.*1) then (k, v) :: filter (fun p => p.1 <> k) l
  else (k, v) :: (if decide (Z.of_nat (length l) >= cap) then removelast l else l).

Record refines s (order : list nat) (l : list (string * T)) : Prop := {
  rf_list : list_inv s order;
  rf_pages : Forall2 (fun e kv => lr_page s !! e = Some kv) order l;
  rf_table : forall k e, lr_table s !! k = Some e <-> e ∈ order /\ exists v, lr_page s !! e = Some (k, v);
  rf_page_lt : forall e kv, lr_page s !! e = Some kv -> (e < lr_next s)%nat;
}.
Definition R s l := exists order, refines s order l.

Lemma R_new cap : R (lru_new cap) [].
Proof.
  exists []. split; [apply list_inv_new|constructor| |].
  - intros k e. cbn. rewrite lookup_empty. split; [discriminate|]. intros [H _]. inversion H.
  - cbn. intros e kv H. by rewrite lookup_empty in H.
Qed.

Lemma refines_lookup s order l e : refines s order l -> e ∈ order ->
  exists kv, lr_page s !! e = Some kv /\ kv ∈ l.
Proof.
  intros [_ Hp _ _] He. induction Hp as [|e' kv order l H Hp IH]; [inversion He|].
  apply elem_of_cons in He as [->|He].
  - exists kv. split; [done|left].
  - destruct (IH He) as (kv' & ? & ?). exists kv'. split; [done|by right].
Qed.
Lemma refines_lookup_rev s order l kv : refines s order l -> kv ∈ l ->
  exists e, e ∈ order /\ lr_page s !! e = Some kv.
Proof.
  intros [_ Hp _ _] He. induction Hp as [|e' kv' order l H Hp IH]; [inversion He|].
  apply elem_of_cons in He as [->|He].
  - exists e'. split; [left|done].
  - destruct (IH He) as (e & ? & ?). exists e. split; [by right|done].
Qed.
Lemma refines_table_keys s order l k : refines s order l ->
  (is_Some (lr_table s !! k) <-> k ∈ l.*1).
Proof.
  intros H. split.
  - intros [e He]. apply (rf_table _ _ _ H) in He as [Hin [v Hv]].
    destruct (refines_lookup _ _ _ _ H Hin) as (kv & E & Hkv). rewrite Hv in E. injection E as <-.
    by apply (elem_of_list_fmap_1 fst l (k, v)).
  - intros Hk. apply elem_of_list_fmap in Hk as ([k' v] & -> & Hkv). cbn [fst].
    destruct (refines_lookup_rev _ _ _ _ H Hkv) as (e & Hin & Hp).
    exists e. apply (rf_table _ _ _ H). eauto.
Qed.
Lemma refines_NoDup s order l : refines s order l -> NoDup l.*1.
Proof.
  intros H. destruct (list_inv_NoDup _ _ (rf_list _ _ _ H)) as [Hnd _].
  pose proof (rf_pages _ _ _ H) as Hp.
  assert (forall e e' k v v', e ∈ order -> e' ∈ order -> lr_page s !! e = Some (k, v) ->
     lr_page s !! e' = Some (k, v') -> e = e') as Huniq.
  { intros e e' k v v' H1 H2 P1 P2.
    assert (lr_table s !! k = Some e) as E1 by (apply (rf_table _ _ _ H); eauto).
    assert (lr_table s !! k = Some e') as E2 by (apply (rf_table _ _ _ H); eauto). congruence. }
  clear H. revert Hnd Huniq. induction Hp as [|e [k v] order l He Hp IH]; intros Hnd Huniq; [constructor|].
  apply NoDup_cons in Hnd as [Hn Hnd]. rewrite fmap_cons. apply NoDup_cons. split.
  - cbn [fst]. intros Hk. apply elem_of_list_fmap in Hk as ([k' v'] & E & Hkv). cbn [fst] in E. subst k'.
    assert (exists e', e' ∈ order /\ lr_page s !! e' = Some (k, v')) as (e' & He' & Pe').
    { clear -Hp Hkv. induction Hp as [|e' kv' order l H Hp IH]; [inversion Hkv|].
      apply elem_of_cons in Hkv as [<-|Hkv]; [exists e'; split; [left|done]|].
      destruct (IH Hkv) as (e & ? & ?). exists e. split; [by right|done]. }
    assert (e = e') as <- by (eapply (Huniq e e' k v v'); [left|by right|done|done]). done.
  - apply IH; [done|]. intros a b k' w w' Ha Hb. apply Huniq; by right.
Qed.

(** drop at the element level = drop at the key level *)
Lemma pages_drop (pg : gmap nat (string * T)) order (l : list (string * T)) e k v :
  Forall2 (fun e kv => pg !! e = Some kv) order l ->
  (forall e' v', e' ∈ order -> pg !! e' = Some (k, v') -> e' = e) ->
  pg !! e = Some (k, v) ->
  Forall2 (fun e kv => pg !! e = Some kv) (drop_elem e order) (filter (fun p => p.1 <> k) l).
Proof.
  intros Hp Hu He. induction Hp as [|e' [k' v'] order l H Hp IH]; [constructor|].
  unfold drop_elem. destruct (decide (e' = e)) as [->|Hne].
  - rewrite filter_cons_False by auto. rewrite He in H. injection H as <- <-.
    rewrite filter_cons_False by auto. apply IH. intros e2 v2 Hin. apply Hu. by right.
  - rewrite filter_cons_True by done. rewrite filter_cons_True.
    2: { cbn [fst]. intros ->. apply Hne. eapply Hu; [left|done]. }
    constructor; [done|]. apply IH. intros e2 v2 Hin. apply Hu. by right.
Qed.

Lemma pages_insert_fresh (pg : gmap nat (string * T)) order (l : list (string * T)) e kv :
  e ∉ order -> Forall2 (fun e kv => pg !! e = Some kv) order l ->
  Forall2 (fun e' kv' => <[e := kv]> pg !! e' = Some kv') order l.
Proof.
  intros Hf Hp. induction Hp as [|e' kv' order l He Hp IH]; [constructor|].
  rewrite not_elem_of_cons in Hf. destruct Hf as [Hf1 Hf2].
  constructor; [by rewrite lookup_insert_ne|by apply IH].
Qed.

Lemma get_refine s l k : R s l ->
  match lru_get s k with
  | None => False
  | Some (s', None) => k ∉ l.*1 /\ s' = s
  | Some (s', Some e) =>
    lr_table s !! k = Some e /\ lr_page s' = lr_page s /\ lr_table s' = lr_table s /\ lr_cap s' = lr_cap s /\
    exists v, (k, v) ∈ l /\ lru_deref s' e = Some v /\
              R s' ((k, v) :: filter (fun p => p.1 <> k) l)
  end.
Proof.
  intros [order H]. unfold lru_get. destruct (lr_table s !! k) as [e|] eqn:Ht.
  - destruct (mtf_spec s order e (rf_list _ _ _ H)) as (s' & -> & Hi & Hc & Hpg & Htb & Hnx & Hown).
    pose proof Ht as Ht'. apply (rf_table _ _ _ H) in Ht' as [Hin [v Hv]].
    rewrite decide_True in Hi by done.
    destruct (refines_lookup _ _ _ _ H Hin) as (kv & E & Hkv). rewrite Hv in E. injection E as <-.
    split; [done|]. split; [done|]. split; [done|]. split; [done|].
    exists v. split; [done|]. split; [unfold lru_deref; rewrite Hpg, Hv; done|].
    exists (e :: drop_elem e order). split.
    + done.
    + rewrite Hpg. constructor; [done|]. eapply pages_drop; [apply H| |done].
      intros e' v' Hin' Hv'. assert (lr_table s !! k = Some e') as E by (apply (rf_table _ _ _ H); eauto).
      congruence.
    + intros k' e'. rewrite Htb, Hpg, (rf_table _ _ _ H). f_equiv.
      rewrite elem_of_cons. unfold drop_elem. rewrite elem_of_list_filter.
      split; [|intros [->|[_ ?]]; done]. intros ?. destruct (decide (e' = e)); auto.
    + intros e' kv'. rewrite Hpg, Hnx. apply H.
  - split; [|done]. intros Hk. apply (refines_table_keys _ _ _ _ H) in Hk as [e He]. congruence.
Qed.

Lemma Forall2_removelast {A B} (P : A -> B -> Prop) l k :
  Forall2 P l k -> Forall2 P (removelast l) (removelast k).
Proof.
  induction 1 as [|x y l k Hxy H IH]; [constructor|].
  destruct H; [constructor|]. cbn [removelast] in *. constructor; done.
Qed.
Lemma drop_last order : NoDup order -> order <> [] ->
  drop_elem (List.last order root) order = removelast order.
Proof.
  intros Hnd Hne. destruct (exists_last Hne) as (l & x & ->).
  rewrite last_last, removelast_last. rewrite drop_elem_split by done. by rewrite app_nil_r.
Qed.

Lemma put_refine s l k v : R s l -> 0 < lr_cap s ->
  exists s', lru_put s k v = Some s' /\ lr_cap s' = lr_cap s /\ R s' (aput (lr_cap s) l k v) /\
    (forall e, is_Some (lr_page s !! e) -> lr_table s !! k <> Some e -> lr_page s' !! e = lr_page s !! e) /\
    (forall e, lr_table s !! k = Some e -> lru_deref s' e = Some v /\ lr_table s' !! k = Some e).
Proof.
  intros [order H] Hcap. unfold lru_put. destruct (lr_table s !! k) as [e|] eqn:Ht.
  - destruct (mtf_spec s order e (rf_list _ _ _ H)) as (s' & -> & Hi & Hc & Hpg & Htb & Hnx & Hown).
    pose proof Ht as Ht'. apply (rf_table _ _ _ H) in Ht' as [Hin [v0 Hv]].
    rewrite decide_True in Hi by done. rewrite Hpg, Hv.
    eexists. split; [done|]. cbn [lr_cap lr_page lr_table lr_next]. split; [done|]. split; [|split].
    + unfold aput. rewrite decide_True.
      2: { apply (refines_table_keys _ _ _ _ H). eauto. }
      exists (e :: drop_elem e order). split; cbn [lr_ring lr_owned lr_len lr_next lr_page lr_table].
      * destruct Hi as [I1 I2 I3 I4 I5]. split; cbn [lr_ring lr_owned lr_len lr_next]; done.
      * constructor; [by rewrite lookup_insert|].
        apply pages_insert_fresh; [unfold drop_elem; rewrite elem_of_list_filter; tauto|].
        eapply pages_drop; [apply H| |done].
        intros e' v' Hin' Hv'. assert (lr_table s !! k = Some e') as E by (apply (rf_table _ _ _ H); eauto).
        congruence.
      * intros k' e'. rewrite Htb, (rf_table _ _ _ H).
        assert (e' ∈ order <-> e' ∈ e :: drop_elem e order) as Hord.
        { rewrite elem_of_cons. unfold drop_elem. rewrite elem_of_list_filter.
          split; [intros ?; destruct (decide (e' = e)); auto|intros [->|[_ ?]]; done]. }
        rewrite Hord. apply and_iff_compat_l. destruct (decide (e' = e)) as [->|Hne].
        -- rewrite lookup_insert. split; intros [w Hw]; [rewrite Hv in Hw|]; injection Hw as <- <-; eauto.
        -- by rewrite lookup_insert_ne.
      * intros e' kv'. rewrite Hnx. destruct (decide (e' = e)) as [->|Hne].
        -- intros _. by eapply (rf_page_lt _ _ _ H).
        -- rewrite lookup_insert_ne by done. apply (rf_page_lt _ _ _ H).
    + intros e' _ Hne. rewrite lookup_insert_ne by congruence. done.
    + intros e' E. injection E as <-. unfold lru_deref. cbn [lr_page]. rewrite lookup_insert.
      split; [done|]. by rewrite Htb.
  - (* new key *)
    assert (k ∉ l.*1) as Hk.
    { intros Hk. apply (refines_table_keys _ _ _ _ H) in Hk as [e He]. congruence. }
    assert (length order = length l) as Hlen by (by eapply Forall2_length, H).
    pose proof (rf_list _ _ _ H) as Hi.
    destruct (list_inv_NoDup _ _ Hi) as [Hnd Hroot].
    (* state after the optional eviction *)
    assert (exists s1 order1 l1,
      (if lr_len s >=? lr_cap s then
          match back s with
          | Some b =>
            match lr_page s !! b with
            | Some (bk, _) => list_remove (with_table s (delete bk (lr_table s))) b
            | None => None
            end
          | None => None
          end
        else Some s) = Some s1 /\ refines s1 order1 l1 /\
      l1 = (if decide (Z.of_nat (length l) >= lr_cap s) then removelast l else l) /\
      lr_cap s1 = lr_cap s /\ lr_page s1 = lr_page s /\ lr_next s1 = lr_next s /\
      lr_table s1 !! k = None) as (s1 & order1 & l1 & Hev & H1 & El1 & C1 & P1 & N1 & T1).
    { rewrite (li_len _ _ Hi), Hlen.
      destruct (Z.geb_spec (Z.of_nat (length l)) (lr_cap s)) as [Hge|Hlt].
      - rewrite decide_True by lia.
        assert (order <> []) as Hne by (intros ->; cbn in Hlen; lia).
        unfold back. rewrite (li_len _ _ Hi), Hlen.
        destruct (Z.eqb_spec (Z.of_nat (length l)) 0); [lia|].
        rewrite (ring_back _ _ (li_ring _ _ Hi)).
        set (b := List.last order root).
        assert (b ∈ order) as Hb.
        { unfold b. destruct (exists_last Hne) as (q & x & ->). rewrite last_last.
          apply elem_of_app. right. left. }
        destruct (refines_lookup _ _ _ _ H Hb) as ([bk bv] & Hpb & Hbl). rewrite Hpb.
        assert (list_inv (with_table s (delete bk (lr_table s))) order) as Hi'.
        { destruct Hi as [I1 I2 I3 I4 I5]. split; done. }
        destruct (remove_spec _ _ b Hi') as (s1 & -> & Hi1 & C1 & P1 & T1 & N1).
        cbn [with_table lr_cap lr_page lr_table lr_next] in *.
        exists s1, (drop_elem b order), (removelast l).
        split; [done|]. split; [|split; [done|split; [done|split; [done|split; [done|]]]]].
        + unfold b in *. rewrite (drop_last order) in * by done. split.
          * done.
          * rewrite P1. apply Forall2_removelast, H.
          * intros k' e'. rewrite T1, P1.
            rewrite <- (drop_last order) by done. set (b' := List.last order root) in *.
            unfold drop_elem. rewrite elem_of_list_filter.
            rewrite lookup_delete_Some, (rf_table _ _ _ H). split.
            -- intros (Hne' & Hin' & w & Hw). split; [|eauto]. split; [|done].
               intros ->. rewrite Hpb in Hw. congruence.
            -- intros ((Hne' & Hin') & w & Hw). split; [|eauto].
               intros <-. apply Hne'.
               assert (lr_table s !! bk = Some e') as E1 by (apply (rf_table _ _ _ H); eauto).
               assert (lr_table s !! bk = Some b') as E2 by (apply (rf_table _ _ _ H); eauto).
               congruence.
          * intros e' kv'. rewrite P1, N1. apply H.
        + rewrite T1. rewrite lookup_delete_None. by right.
      - rewrite decide_False by lia. exists s, order, l. done. }
    rewrite Hev. destruct (push_spec s1 order1 k v (rf_list _ _ _ H1)) as (s2 & -> & Hi2 & C2 & P2 & T2 & N2).
    eexists. split; [done|]. cbn [with_table lr_cap lr_page lr_table lr_next].
    split; [congruence|]. split; [|split].
    + unfold aput. rewrite decide_False by done. rewrite <- El1.
      assert (lr_next s1 ∉ order1) as Hf.
      { intros Hin. pose proof (li_next _ _ (rf_list _ _ _ H1) _ Hin). lia. }
      exists (lr_next s1 :: order1). split.
      * destruct Hi2 as [I1 I2 I3 I4 I5]. split; done.
      * cbn [with_table lr_page]. rewrite P2. constructor; [by rewrite lookup_insert|].
        apply pages_insert_fresh; [done|]. apply H1.
      * intros k' e'. cbn [with_table lr_table lr_page]. rewrite P2, T2.
        destruct (decide (k = k')) as [<-|Hkk].
        -- rewrite lookup_insert. split.
           ++ intros E. injection E as <-. split; [left|]. exists v. by rewrite lookup_insert.
           ++ intros [Hin [w Hw]]. destruct (decide (e' = lr_next s1)) as [->|Hne]; [done|].
              rewrite lookup_insert_ne in Hw by done.
              apply elem_of_cons in Hin as [?|Hin]; [done|].
              assert (lr_table s1 !! k = Some e') by (apply (rf_table _ _ _ H1); eauto). congruence.
        -- rewrite lookup_insert_ne by done. rewrite (rf_table _ _ _ H1), elem_of_cons.
           destruct (decide (e' = lr_next s1)) as [->|Hne].
           ++ rewrite lookup_insert. split; [intros [? _]; done|]. intros [_ [w Hw]]. congruence.
           ++ rewrite lookup_insert_ne by done. split; [intros [? ?]; auto|]. intros [[?|?] ?]; done.
      * intros e' kv'. cbn [with_table lr_page lr_next]. rewrite P2, N2.
        destruct (decide (e' = lr_next s1)) as [->|Hne].
        -- intros _. lia.
        -- rewrite lookup_insert_ne by done. intros Hp. pose proof (rf_page_lt _ _ _ H1 _ _ Hp). lia.
    + intros e' [kv Hp] _. rewrite P2, lookup_insert_ne; [by rewrite P1|].
      intros <-. pose proof (rf_page_lt _ _ _ H _ _ Hp). lia.
    + discriminate.
Qed.
End lru.
