(** The pointer ring of container/list implements a list. *)
From Verif Require Import Base M_LRU P_Base.
#[local] Open Scope Z_scope.

Fixpoint seg (r : ring) (a : nat) (l : list nat) (b : nat) : Prop :=
  match l with
  | [] => nx r !! a = Some b /\ pv r !! b = Some a
  | x :: l' => nx r !! a = Some x /\ pv r !! x = Some a /\ seg r x l' b
  end.
Definition ring_ok (r : ring) (order : list nat) : Prop :=
  NoDup (root :: order) /\ seg r root order root.

Lemma seg_app r l1 : forall a x l2 b, seg r a (l1 ++ x :: l2) b <-> seg r a l1 x /\ seg r x l2 b.
Proof.
  induction l1 as [|y l1 IH]; intros a x l2 b; cbn [app seg]; [tauto|]. rewrite IH. tauto.
Qed.
Lemma seg_frame r r' l : forall a b,
  (forall x, x ∈ a :: l -> nx r' !! x = nx r !! x) ->
  (forall x, x ∈ l ++ [b] -> pv r' !! x = pv r !! x) ->
  seg r a l b -> seg r' a l b.
Proof.
  induction l as [|y l IH]; intros a b Hn Hp; cbn [seg].
  - rewrite Hn, Hp; [done|left|left].
  - intros (H1 & H2 & H3). rewrite Hn, Hp; [|left|left]. split; [done|]. split; [done|].
    apply IH; [| |done].
    + intros x Hx. apply Hn. by right.
    + intros x Hx. apply Hp. by right.
Qed.
Lemma seg_hd r a l b : seg r a l b -> nx r !! a = Some (hd b l).
Proof. destruct l; cbn [seg hd]; tauto. Qed.
Lemma seg_hd_pv r a l b : seg r a l b -> pv r !! hd b l = Some a.
Proof. destruct l; cbn [seg hd]; tauto. Qed.
Lemma seg_last r l : forall a b, seg r a l b -> pv r !! b = Some (List.last l a).
Proof.
  induction l as [|x l IH]; intros a b; cbn [seg].
  - tauto.
  - intros (_ & _ & H). rewrite (IH _ _ H). destruct l; [done|]. cbn [List.last].
    clear. revert n. induction l as [|y l IH]; intros n; [done|]. apply IH.
Qed.

Lemma mtf_stmts r l1 e l2 :
  ring_ok r (l1 ++ e :: l2) -> l1 <> [] ->
  exists r', run_stmts (move_stmts e root) r = Some r' /\ ring_ok r' (e :: l1 ++ l2).
Proof.
  intros [Hnd Hs] Hne. apply seg_app in Hs as [H1 H2].
  destruct (exists_last Hne) as (q & p & ->).
  pose proof H1 as H1'. rewrite seg_app in H1'. destruct H1' as [Hq Hpe].
  cbn [seg] in Hpe. destruct Hpe as [Hpe1 Hpe2].
  pose proof (seg_hd _ _ _ _ H2) as Hn1. pose proof (seg_hd_pv _ _ _ _ H2) as Hn2.
  set (n := hd root l2) in *.
  pose proof (seg_hd _ _ _ _ H1) as Hx.
  set (x := hd e (q ++ [p])) in *.
  (* distinctness *)
  apply NoDup_cons in Hnd as [Hroot Hnd].
  rewrite NoDup_app, NoDup_cons in Hnd. destruct Hnd as (Hnd1 & Hdisj & Hel2 & Hnd2).
  rewrite not_elem_of_app, not_elem_of_cons in Hroot. destruct Hroot as (Hr1 & Hre & Hr2).
  assert (e ∉ q ++ [p]) as He1 by (intros Hin; apply (Hdisj e Hin); left).
  assert (forall y, y ∈ q ++ [p] -> y ∉ l2) as Hd12 by (intros y Hy Hy2; apply (Hdisj y Hy); by right).
  assert (p ∈ q ++ [p]) as Hpin by (apply elem_of_app; right; left).
  assert (x ∈ q ++ [p]) as Hxin.
  { unfold x. destruct q; cbn [app hd]; left. }
  assert (n = root \/ n ∈ l2) as Hnin.
  { unfold n. destruct l2; [by left|right; left]. }
  assert (p <> root) as Npr by (intros ->; done).
  assert (x <> root) as Nxr by (intros ->; done).
  assert (p <> e) as Npe by (intros ->; done).
  assert (x <> e) as Nxe by (intros ->; done).
  assert (n <> e) as Nne by (destruct Hnin as [->|?]; [done|intros ->; done]).
  assert (n <> x) as Nnx.
  { destruct Hnin as [->|?]; [done|]. intros E. rewrite E in *. by apply (Hd12 x). }
  assert (n <> p) as Nnp.
  { destruct Hnin as [->|?]; [done|]. intros E. rewrite E in *. by apply (Hd12 p). }
  set (nx' := <[root := e]> (<[e := x]> (<[p := n]> (nx r)))).
  set (pv' := <[x := e]> (<[e := root]> (<[n := p]> (pv r)))).
  exists (mkRing nx' pv'). split.
  - unfold move_stmts. cbn [run_stmts]. unfold st_unlink_next. rewrite Hpe2, Hn1. cbn [nx pv].
    unfold st_unlink_prev. cbn [nx pv]. rewrite lookup_insert_ne by done. rewrite Hn1, Hpe2. cbn [nx pv].
    unfold st_set_prev. cbn [nx pv].
    unfold st_set_next. cbn [nx pv]. rewrite lookup_insert_ne by done. rewrite Hx. cbn [nx pv].
    unfold st_link_next. cbn [nx pv]. rewrite lookup_insert. cbn [nx pv].
    unfold st_link_prev. cbn [nx pv]. rewrite lookup_insert_ne by done. rewrite lookup_insert. done.
  - assert (nx' !! root = Some e) as A1 by (unfold nx'; by rewrite lookup_insert).
    assert (nx' !! e = Some x) as A2
      by (unfold nx'; rewrite lookup_insert_ne by done; by rewrite lookup_insert).
    assert (nx' !! p = Some n) as A3
      by (unfold nx'; rewrite !lookup_insert_ne by done; by rewrite lookup_insert).
    assert (pv' !! x = Some e) as B1 by (unfold pv'; by rewrite lookup_insert).
    assert (pv' !! e = Some root) as B2
      by (unfold pv'; rewrite lookup_insert_ne by done; by rewrite lookup_insert).
    assert (pv' !! n = Some p) as B3
      by (unfold pv'; rewrite !lookup_insert_ne by done; by rewrite lookup_insert).
    assert (forall y, y <> root -> y <> e -> y <> p -> nx' !! y = nx r !! y) as A4
      by (intros; unfold nx'; by rewrite !lookup_insert_ne by done).
    assert (forall y, y <> x -> y <> e -> y <> n -> pv' !! y = pv r !! y) as B4
      by (intros; unfold pv'; by rewrite !lookup_insert_ne by done).
    clearbody nx' pv'. split.
    { rewrite NoDup_cons, not_elem_of_cons, not_elem_of_app. split; [done|].
      rewrite NoDup_cons, not_elem_of_app. split; [done|].
      apply NoDup_app. split; [done|]. split; [done|done]. }
    cbn [seg nx pv]. split; [done|]. split; [done|].
    assert (seg (mkRing nx' pv') p l2 root) as Hp2.
    { destruct l2 as [|n' l2]; cbn [seg nx pv].
      - done.
      - cbn [hd] in n. subst n. split; [done|]. split; [done|].
        cbn [seg] in H2. destruct H2 as (_ & _ & H2).
        apply NoDup_cons in Hnd2 as [Hn' Hnd2].
        eapply seg_frame; [| |exact H2]; cbn [nx pv].
        + intros y Hy. apply A4.
          * intros ->. done.
          * intros ->. done.
          * intros ->. by apply (Hd12 p).
        + intros y Hy. apply elem_of_app in Hy as [Hy|Hy].
          * apply B4.
            -- intros ->. apply (Hd12 x); [done|by right].
            -- intros ->. apply Hel2. by right.
            -- intros ->. done.
          * apply elem_of_list_singleton in Hy as ->. apply B4; try done.
            intros E. apply Hr2. rewrite E. left. }
    rewrite <- app_assoc. cbn [app]. destruct q as [|x' q].
    + cbn [app hd] in *. subst x. cbn [seg nx pv]. done.
    + cbn [app hd] in *. subst x. cbn [seg nx pv]. split; [done|]. split; [done|].
      apply seg_app. split; [|done].
      cbn [seg] in Hq. destruct Hq as (_ & _ & Hq).
      rewrite app_comm_cons in Hnd1. apply NoDup_app in Hnd1 as (Hndq & Hqp & _).
      eapply seg_frame; [| |exact Hq]; cbn [nx pv].
      * intros y Hy. apply A4.
        -- intros ->. apply Hr1. rewrite app_comm_cons. apply elem_of_app. by left.
        -- intros ->. apply He1. rewrite app_comm_cons. apply elem_of_app. by left.
        -- intros ->. apply (Hqp p Hy). left.
      * intros y Hy. apply NoDup_cons in Hndq as [Hx'q Hndq]. apply B4.
        -- intros ->. apply elem_of_app in Hy as [Hy|Hy]; [done|].
           apply elem_of_list_singleton in Hy as ->. apply (Hqp p); left.
        -- intros ->. apply He1. right. apply elem_of_app in Hy as [Hy|Hy]; apply elem_of_app; auto.
        -- intros ->. assert (n ∈ x' :: q ++ [p]) as Hin.
           { right. done. }
           destruct Hnin as [E|Hn]; [rewrite E in Hin; done|by apply (Hd12 n)].
Qed.

Lemma push_stmts r e order :
  ring_ok r order -> e <> root -> e ∉ order ->
  exists r', run_stmts (insert_stmts e root) r = Some r' /\ ring_ok r' (e :: order).
Proof.
  intros [Hnd Hs] Her Heo. apply NoDup_cons in Hnd as [Hro Hnd].
  pose proof (seg_hd _ _ _ _ Hs) as Hx. set (x := hd root order) in *.
  assert (x = root \/ x ∈ order) as Hxin by (unfold x; destruct order; [by left|right; left]).
  assert (x <> e) as Nxe by (destruct Hxin as [->|?]; [done|intros ->; done]).
  set (nx' := <[root := e]> (<[e := x]> (nx r))).
  set (pv' := <[x := e]> (<[e := root]> (pv r))).
  exists (mkRing nx' pv'). split.
  - unfold insert_stmts. cbn [run_stmts]. unfold st_set_prev. cbn [nx pv].
    unfold st_set_next. cbn [nx pv]. rewrite Hx. cbn [nx pv].
    unfold st_link_next. cbn [nx pv]. rewrite lookup_insert. cbn [nx pv].
    unfold st_link_prev. cbn [nx pv]. rewrite lookup_insert_ne by done. rewrite lookup_insert. done.
  - split.
    { apply NoDup_cons. split; [by rewrite not_elem_of_cons|]. by apply NoDup_cons. }
    cbn [seg nx pv]. unfold nx', pv'. split; [by rewrite lookup_insert|].
    split; [rewrite lookup_insert_ne by done; by rewrite lookup_insert|].
    destruct order as [|x' order]; cbn [seg nx pv hd] in *.
    + subst x. rewrite lookup_insert_ne by done. rewrite lookup_insert. by rewrite lookup_insert.
    + subst x. rewrite lookup_insert_ne by done. rewrite lookup_insert. rewrite lookup_insert.
      split; [done|]. split; [done|]. destruct Hs as (_ & _ & Hs).
      apply NoDup_cons in Hnd as [Hx'o Hnd].
      eapply seg_frame; [| |exact Hs]; cbn [nx pv].
      * intros y Hy. rewrite !lookup_insert_ne; [done| |].
        -- intros <-. done.
        -- intros <-. done.
      * intros y Hy. apply elem_of_app in Hy as [Hy|Hy].
        -- rewrite !lookup_insert_ne; [done| |].
           ++ intros <-. apply Heo. by right.
           ++ intros <-. done.
        -- apply elem_of_list_singleton in Hy as ->. rewrite !lookup_insert_ne; [done|done|].
           intros ->. apply Hro. left.
Qed.

(** Removing any element (the cache removes the last). *)
Lemma remove_stmts_ok r l1 e l2 :
  ring_ok r (l1 ++ e :: l2) ->
  exists r', run_stmts (remove_stmts e) r = Some r' /\ ring_ok r' (l1 ++ l2).
Proof.
  intros [Hnd Hs]. apply seg_app in Hs as [H1 H2].
  pose proof (seg_last _ _ _ _ H1) as Hp. set (p := List.last l1 root) in *.
  pose proof (seg_hd _ _ _ _ H2) as Hn. set (n := hd root l2) in *.
  apply NoDup_cons in Hnd as [Hroot Hnd].
  rewrite NoDup_app, NoDup_cons in Hnd. destruct Hnd as (Hnd1 & Hdisj & Hel2 & Hnd2).
  rewrite not_elem_of_app, not_elem_of_cons in Hroot. destruct Hroot as (Hr1 & Hre & Hr2).
  assert (e ∉ l1) as He1 by (intros Hin; apply (Hdisj e Hin); left).
  assert (forall y, y ∈ l1 -> y ∉ l2) as Hd12 by (intros y Hy Hy2; apply (Hdisj y Hy); by right).
  assert (forall k : list nat, List.last k root = root \/ List.last k root ∈ k) as Hlast.
  { clear. intros k. induction k as [|y k IH]; [by left|]. destruct k as [|z k]; [right; left|].
    destruct IH as [IH|IH]; [left; exact IH|right; right; exact IH]. }
  assert (p = root \/ p ∈ l1) as Hpin by apply Hlast.
  assert (n = root \/ n ∈ l2) as Hnin by (unfold n; destruct l2; [by left|right; left]).
  assert (p <> e) as Npe by (destruct Hpin as [->|?]; [done|intros ->; done]).
  assert (n <> e) as Nne by (destruct Hnin as [->|?]; [done|intros ->; done]).
  set (nx' := delete e (<[p := n]> (nx r))). set (pv' := delete e (<[n := p]> (pv r))).
  exists (mkRing nx' pv'). split.
  - unfold remove_stmts. cbn [run_stmts]. unfold st_unlink_next. rewrite Hp, Hn. cbn [nx pv].
    unfold st_unlink_prev. cbn [nx pv]. rewrite lookup_insert_ne by done. rewrite Hn, Hp. cbn [nx pv].
    done.
  - assert (nx' !! p = Some n) as A1 by (unfold nx'; rewrite lookup_delete_ne by done; by rewrite lookup_insert).
    assert (pv' !! n = Some p) as B1 by (unfold pv'; rewrite lookup_delete_ne by done; by rewrite lookup_insert).
    assert (forall y, y <> e -> y <> p -> nx' !! y = nx r !! y) as A2.
    { intros y ??. unfold nx'. rewrite lookup_delete_ne by done. by rewrite lookup_insert_ne. }
    assert (forall y, y <> e -> y <> n -> pv' !! y = pv r !! y) as B2.
    { intros y ??. unfold pv'. rewrite lookup_delete_ne by done. by rewrite lookup_insert_ne. }
    clearbody nx' pv'. split.
    { apply NoDup_cons. rewrite not_elem_of_app. split; [done|]. apply NoDup_app. done. }
    (* segment after p *)
    assert (seg (mkRing nx' pv') p l2 root) as Hp2.
    { destruct l2 as [|n' l2]; cbn [seg nx pv hd] in *; [by subst n|]. subst n.
      split; [done|]. split; [done|]. destruct H2 as (_ & _ & H2). apply NoDup_cons in Hnd2 as [Hn' Hnd2].
      eapply seg_frame; [| |exact H2]; cbn [nx pv].
      - intros y Hy. apply A2; [intros ->; done|]. intros ->.
        destruct Hpin as [E|?]; [|by apply (Hd12 p)]. apply Hr2. by rewrite <- E.
      - intros y Hy. apply elem_of_app in Hy as [Hy|Hy].
        + apply B2; [|by intros ->]. intros ->. apply Hel2. by right.
        + apply elem_of_list_singleton in Hy as ->. apply B2; [done|]. intros E. apply Hr2. rewrite E. left. }
    destruct (decide (l1 = [])) as [->|Hne]; [exact Hp2|].
    destruct (exists_last Hne) as (q & p' & ->).
    assert (p = p') as E by (unfold p; apply last_last). rewrite E in *. clear E.
    rewrite <- app_assoc. cbn [app]. apply seg_app. split; [|done].
    apply seg_app in H1 as [H1 _]. apply NoDup_app in Hnd1 as (Hndq & Hqp & _).
    assert (p' ∈ q ++ [p']) as Hp'in by (apply elem_of_app; right; left).
    eapply seg_frame; [| |exact H1]; cbn [nx pv].
    + intros y Hy. apply A2.
      * intros ->. apply elem_of_cons in Hy as [Hy|Hy]; [done|]. apply He1, elem_of_app. by left.
      * intros ->. apply elem_of_cons in Hy as [Hy|Hy]; [by subst p'|]. apply (Hqp _ Hy). left.
    + intros y Hy. apply B2; [by intros ->|]. intros ->.
      destruct Hnin as [E|?]; [rewrite E in Hy; done|by apply (Hd12 n)].
Qed.

Lemma ring_init_ok : ring_ok ring_init [].
Proof. split; [apply NoDup_singleton|]. cbn. done. Qed.

Lemma ring_front r order : ring_ok r order -> nx r !! root = Some (hd root order).
Proof. intros [_ H]. by eapply seg_hd. Qed.
Lemma ring_back r order : ring_ok r order -> pv r !! root = Some (List.last order root).
Proof. intros [_ H]. by eapply seg_last. Qed.

(** ** Traversals *)
Lemma traverse_nx r l : forall a n, root ∉ l -> seg r a l root -> (length l <= n)%nat ->
  traverse (nx r) n a = l.
Proof.
  induction l as [|x l IH]; intros a n Ha Hseg Hl; cbn [seg length] in *.
  - destruct n as [|n]; [done|]. cbn [traverse]. destruct Hseg as [-> _]. by rewrite bool_decide_true.
  - destruct n as [|n]; [lia|]. cbn [traverse]. destruct Hseg as (-> & _ & H2).
    rewrite not_elem_of_cons in Ha. destruct Ha as [Hax Ha].
    rewrite bool_decide_false by done. f_equal. apply IH; [done|done|lia].
Qed.
Lemma traverse_pv r l : forall b n, root ∉ l -> seg r root l b -> (length l <= n)%nat ->
  traverse (pv r) n b = rev l.
Proof.
  induction l as [|x l IH] using rev_ind; intros b n Ha Hseg Hl.
  - cbn [seg] in Hseg. destruct n as [|n]; [done|]. cbn [traverse]. destruct Hseg as [_ ->].
    by rewrite bool_decide_true.
  - rewrite app_length in Hl. cbn [length] in Hl. apply seg_app in Hseg as [H1 [_ H2]].
    rewrite not_elem_of_app, not_elem_of_cons in Ha. destruct Ha as (Ha & Hax & _).
    destruct n as [|n]; [lia|]. cbn [traverse]. rewrite H2. rewrite bool_decide_false by done.
    rewrite rev_app_distr. cbn [rev app]. f_equal. apply IH; [done|done|lia].
Qed.
Lemma ring_traversals r order n : ring_ok r order -> (length order <= n)%nat ->
  forward n r = order /\ backward n r = rev order.
Proof.
  intros [Hnd Hs] Hl. apply NoDup_cons in Hnd as [Hr _]. split.
  - by apply traverse_nx.
  - by apply traverse_pv.
Qed.
