(** Concurrent calls on the disk storage: where the postings are (C66). *)
From Verif Require Import Base M_Field M_LRU S_Visits M_Memory M_File M_Serialize M_Num M_FanIn M_Search M_Concurrent M_SearchConc M_Disk M_DiskBusy M_DiskMulti P_Base P_File S_Concurrent P_Concurrent P_Concurrent2 S_Disk P_DiskBase P_DiskInv P_DiskMem P_DiskWriter P_DiskIndex P_DiskIndex2 P_DiskIndex3 S_DiskMulti.
#[local] Open Scope Z_scope.
#[local] Opaque serialize_metrics deserialize_metrics serialize_nft deserialize_nft serialize_field_map deserialize_field_map serialize_index deserialize_index.
Notation k_index := M_Concurrent.k_index.
Notation todo_terms := P_Concurrent2.todo.

(** * The maps *)
Lemma own_m s pc s' pc' ol oa : t_step (s, pc) (s', pc') -> own_sh s ol oa -> own_pc ol oa pc ->
  exists ol' oa', ol ⊆ ol' /\ oa ⊆ oa' /\ own_sh s' ol' oa' /\ own_pc ol' oa' pc' /\
    forall a S d, k_sets s' !! a = Some S -> is_Some (S !! d) ->
      (exists S0, k_sets s !! a = Some S0 /\ is_Some (S0 !! d)) \/ exists f t, oa' !! a = Some (f, t) /\ after pc = ISend (mkPost f t d).
Proof.
  intros G W Op. inversion G; subst; cbn [own_pc] in Op;
    try (exists ol, oa; split; [done|]; split; [done|]; split; [by destruct W|]; split; [done|]; intros; left; by eexists).
  - exists ol, oa. do 3 (split; [done|]). split; [by apply (o_idx _ _ _ W)|]. intros; left; by eexists.
  - (* new index map *)
    assert (ol !! l = None) as Hl. { apply eq_None_not_Some. rewrite <- (o_map _ _ _ W). by apply eq_None_not_Some. }
    exists (<[l := f_name x]> ol), oa. split; [by apply insert_subseteq|]. split; [done|]. split; [|split; [cbn; by rewrite lookup_insert|intros; left; by eexists]].
    constructor; cbn [M_Concurrent.k_index k_maps k_sets set_kindex].
    + intros f l' Hf. destruct (decide (f = f_name x)) as [->|Hn].
      * rewrite lookup_insert in Hf. injection Hf as <-. by rewrite lookup_insert.
      * rewrite lookup_insert_ne in Hf by done. apply (o_idx _ _ _ W) in Hf. rewrite lookup_insert_ne; [done|]. intros ->. congruence.
    + intros l'. destruct (decide (l = l')) as [->|Hn]; [rewrite !lookup_insert; split; eauto|]. rewrite !lookup_insert_ne by done. apply (o_map _ _ _ W).
    + apply (o_dom _ _ _ W).
    + intros l' m t a Hm Ht. destruct (decide (l = l')) as [->|Hn].
      * rewrite lookup_insert in Hm. injection Hm as <-. by rewrite lookup_empty in Ht.
      * rewrite lookup_insert_ne in Hm by done. rewrite lookup_insert_ne by done. by eapply (o_set _ _ _ W).
  - (* read a set *)
    exists ol, oa. do 3 (split; [done|]). split; [|intros; left; by eexists]. cbn. split; [done|]. destruct (default ∅ (k_maps s' !! l) !! t) as [a|] eqn:E; [|done].
    destruct (k_maps s' !! l) as [m|] eqn:Em; [|by destruct (lookup_empty_Some (M := gmap string) _ _ E)]. cbn in E. destruct (o_set _ _ _ W _ _ _ _ Em E) as (f & E1 & E2). rewrite Op in E1. injection E1 as <-. done.
  - (* end of the loop *) exists ol, oa. do 3 (split; [done|]). split; [by destruct full|intros; left; by eexists].
  - (* new set *)
    destruct Op as [Op _]. assert (oa !! a = None) as Ha. { apply eq_None_not_Some. rewrite <- (o_dom _ _ _ W). by apply eq_None_not_Some. }
    exists ol, (<[a := (f_name x, t)]> oa). split; [done|]. split; [by apply insert_subseteq|]. split; [|split; [done|]].
    + constructor; cbn [M_Concurrent.k_index k_maps k_sets set_kindex].
      * apply (o_idx _ _ _ W).
      * intros l'. destruct (decide (l = l')) as [->|Hn]; [rewrite lookup_insert, Op; split; eauto|]. rewrite lookup_insert_ne by done. apply (o_map _ _ _ W).
      * intros a'. destruct (decide (a = a')) as [->|Hn]; [rewrite !lookup_insert; split; eauto|]. rewrite !lookup_insert_ne by done. apply (o_dom _ _ _ W).
      * assert (forall l' m t' a', k_maps s !! l' = Some m -> m !! t' = Some a' -> exists f, ol !! l' = Some f /\ <[a := (f_name x, t)]> oa !! a' = Some (f, t')) as Old.
        { intros l' m t' a' Hm Ht. destruct (o_set _ _ _ W _ _ _ _ Hm Ht) as (f & E1 & E2). exists f. split; [done|]. rewrite lookup_insert_ne; [done|]. intros ->. congruence. }
        intros l' m t' a' Hm Ht. destruct (decide (l = l')) as [->|Hn]; [|rewrite lookup_insert_ne in Hm by done; by eapply Old].
        rewrite lookup_insert in Hm. injection Hm as <-. destruct (decide (t = t')) as [->|Hnt]; [rewrite lookup_insert in Ht; injection Ht as <-; exists (f_name x); by rewrite lookup_insert|].
        rewrite lookup_insert_ne in Ht by done. destruct (k_maps s !! l') as [m|] eqn:Em; [|by destruct (lookup_empty_Some (M := gmap string) _ _ Ht)]. by eapply Old.
    + intros a' S d' HS Hd. cbn [k_sets set_kindex] in HS. destruct (decide (a = a')) as [->|Hn]; [|rewrite lookup_insert_ne in HS by done; left; by eexists].
      rewrite lookup_insert in HS. injection HS as <-. cbn in Hd. destruct (decide (d = d')) as [->|Hnd]; [|rewrite lookup_insert_ne in Hd by done; destruct Hd as [? Hd]; by destruct (lookup_empty_Some (M := gmap string) _ _ Hd)].
      right. exists (f_name x), t. rewrite lookup_insert. done.
  - (* add to a set *)
    destruct Op as [Op Oa]. exists ol, oa. do 2 (split; [done|]). split; [|split; [done|]].
    + constructor; cbn [M_Concurrent.k_index k_maps k_sets set_kindex]; try apply W. intros a'. destruct (decide (a = a')) as [->|Hn]; [rewrite lookup_insert, Oa; split; eauto|]. rewrite lookup_insert_ne by done. apply (o_dom _ _ _ W).
    + intros a' S d' HS Hd. cbn [k_sets set_kindex] in HS. destruct (decide (a = a')) as [->|Hn]; [|rewrite lookup_insert_ne in HS by done; left; by eexists].
      rewrite lookup_insert in HS. injection HS as <-. cbn in Hd. destruct (decide (d = d')) as [->|Hnd]; [right; exists (f_name x), t; done|].
      rewrite lookup_insert_ne in Hd by done. destruct (k_sets s !! a') as [S|] eqn:ES; [left; by exists S|destruct Hd as [? Hd]; by destruct (lookup_empty_Some (M := gmap string) _ _ Hd)].
Qed.
(** What a goroutine still has to post. *)
Lemma src_t s pc s' pc' h : t_step (s, pc) (s', pc') -> src_pc h pc -> src_pc h pc'.
Proof.
  intros G [P1 P2].
  assert (forall pc'', pc_call pc'' = pc_call pc -> (forall t, t ∈ todo_terms pc'' -> t ∈ todo_terms pc) -> src_pc h pc'') as K.
  { intros pc'' E1 E2. split; [by rewrite E1|]. intros c t. rewrite E1. intros Hc Ht. apply (P2 c t Hc). by apply E2. }
  assert (forall pc'' x, pc_call pc'' = pc_call pc -> match pc_call pc with Some (Save _ y) | Some (Index _ y) => y = x | None => False end -> range_order (f_tf x) (todo_terms pc'') -> src_pc h pc'') as K2.
  { intros pc'' x E1 Ex E2. split; [by rewrite E1|]. intros c t. rewrite E1. intros Hc Ht. rewrite Hc in Ex. destruct c; subst; by eapply order_some. }
  assert (src_pc h TIdle) as K0. { split; [done|]. intros c t [=]. }
  inversion G; subst; try (by apply K).
  - apply (K2 _ x); [done| |done]. by destruct full.
  - apply (K2 _ x); [done| |done]. by destruct full.
  - destruct full; [|exact K0]. apply K; [done|]. by intros t ?%elem_of_nil.
  - apply K; [done|]. intros t' Ht'. by right.
  - apply K; [done|]. intros t' Ht'. by right.
  - exact K0.
Qed.
Lemma post_t s pc s' pc' c t : t_step (s, pc) (s', pc') -> will_post t c pc -> is_Some (f_tf (call_field' c) !! t) ->
  will_post t c pc' \/ after pc = ISend (mkPost (f_name (call_field' c)) t (call_doc' c)).
Proof.
  intros G [W1 W2] Ht. inversion G; subst; cbn in W1, W2; try done; injection W1 as <-; try (by left).
  - left. split; [done|]. cbn. match goal with K : range_order _ _ |- _ => apply (range_elem _ _ t K) end. by destruct full.
  - left. split; [done|]. cbn. match goal with K : range_order _ _ |- _ => apply (range_elem _ _ t K) end. by destruct full.
  - by apply elem_of_nil in W2.
  - apply elem_of_cons in W2 as [->|W2]; [right; by destruct full|left; by split].
  - apply elem_of_cons in W2 as [->|W2]; [right; by destruct full|left; by split].
Qed.
(** What follows a statement concerns the call in progress. *)
Lemma after_call pc : match after pc with
  | NoMsg => True
  | FLen x => exists c, pc_call pc = Some c /\ call_field' c = x
  | ISend p => exists c, pc_call pc = Some c /\ p = mkPost (f_name (call_field' c)) (po_term p) (call_doc' c) /\ po_term p ∈ todo_terms pc
  | NCount f _ _ => exists c, pc_call pc = Some c /\ f_name (call_field' c) = f
  | DDoc d x dp => dp = None /\ pc_call pc = Some (Save d x)
  | _ => False end.
Proof.
  destruct pc; cbn; try done.
  - eexists. split; [done|]. by destruct full.
  - eexists. split; [done|]. split; [by destruct full|left].
  - by destruct ks.
  - by eexists.
Qed.

(** * The postings sent so far, as the index of a store with one caller *)
Definition ghost (u : up) (G : gmap string (gmap string set_data)) : up :=
  mkUp (set_index (u_mem u) G) CIdle (u_ich u) (u_mw u) (u_nw u) (u_dw u) (u_iw u) (u_mg u).
Definition sent (G : gmap string (gmap string set_data)) (f t d : string) : Prop := has (default ∅ (G !! f)) t d.
Section ghost.
  Variables (compress : bytes -> bytes) (decompress : bytes -> option bytes) (cache_size : Z).
  Hypothesis gz : gzip_ok compress decompress.
  Notation xup := (x_up decompress).
  Notation xv := (x_valid decompress).

  Lemma bg_step u s ev u' s' G : up_step compress decompress (u, s) ev (u', s') -> u_pc u = CIdle -> u_pc u' = CIdle ->
    up_step compress decompress (ghost u G, s) ev (ghost u' G, s') /\ u_mem u' = u_mem u.
  Proof.
    intros H E1 E2. inversion H; subst; cbn [u_pc] in *; subst; try done; unfold ghost; cbn [u_mem u_pc u_ich u_mw u_nw u_dw u_iw u_mg].
    - match goal with K : c_step _ _ _ _ |- _ => inversion K end.
    - match goal with K : c_doc _ _ _ |- _ => inversion K end.
    - split; [|done]. apply u_recv_index.
    - split; [|done]. by apply u_metrics.
    - split; [|done]. by apply u_nft.
    - split; [|done]. by apply u_docs.
    - split; [|done]. by apply u_index.
    - split; [|done]. by apply u_merge.
    - split; [|done]. by apply u_merge_end.
  Qed.
  Lemma bg_tick u s u' s' G : up_tick (u, s) (u', s') -> up_tick (ghost u G, s) (ghost u' G, s') /\ u_mem u' = u_mem u /\ u_pc u' = u_pc u.
  Proof.
    intros H. inversion H; subst; unfold ghost; cbn [u_mem u_pc u_ich u_mw u_nw u_dw u_iw u_mg]; (split; [|done]).
    - by apply t_metrics.
    - by apply t_nft.
    - by apply t_docs.
    - by apply t_index.
    - by apply t_merge.
  Qed.
  Lemma ghost_wf u s G : up_wf u s -> up_wf (ghost u G) s.
  Proof. intros [W1 W2 W3 W4 W5 W6 W7]. by constructor. Qed.
  (** A posting is sent. *)
  Lemma ghost_send u s L G f t d : layout s -> [] ∈ fs_dirs s -> up_wf u s -> xv s -> xup (ghost u G) s L -> nd f -> (length (u_ich u) < 100)%nat ->
    exists G' L', xup (ghost (with_ich u (u_ich u ++ [mkPost f t d])) G') s L' /\
      (forall f' t' d', sent G' f' t' d' <-> sent G f' t' d' \/ (f' = f /\ t' = t /\ d' = d)) /\
      (forall f' t' d', saved_posting L' f' t' d' -> saved_posting L f' t' d' \/ (f' = f /\ t' = t /\ d' = d)).
  Proof.
    intros Hl Hr Hw Hv Hx Hf Hlen. set (x := mkField f 0 {[t := 1]}).
    set (G0 := match G !! f with Some _ => G | None => <[f := ∅]> G end).
    assert (exists idx, G0 !! f = Some idx /\ idx = default ∅ (G !! f)) as (idx & Ei & Ed). { subst G0. destruct (G !! f) as [i|] eqn:E; [by exists i|]. exists ∅. by rewrite lookup_insert. }
    set (st := fun g pc ich => mkUp (set_index (u_mem u) g) pc ich (u_mw u) (u_nw u) (u_dw u) (u_iw u) (u_mg u)).
    assert (forall g pc ich, pc_nd pc -> Forall (fun p => nd (po_field p)) ich -> up_wf (st g pc ich) s) as SW. { intros g pc ich Hp Hi. destruct Hw as [W1 W2 W3 W4 W5 W6 W7]. by constructor. }
    pose proof (wf_ich _ _ Hw) as Wi. set (L1 := L ++ [ECall (Index d x)]).
    assert (up_call (st G CIdle (u_ich u)) [ECall (Index d x)] (st G (CIndex false d x) (u_ich u))) as K1 by apply M_Disk.k_index.
    destruct (up_call_x decompress _ _ _ s L Hx K1) as [X1 _]. fold L1 in X1.
    assert (up_step compress decompress (st G (CIndex false d x) (u_ich u), s) [] (st G0 (CIndexLoop false d x [t]) (u_ich u), s)) as K2.
    { apply u_client. pose proof (c_index_begin decompress s (set_index (u_mem u) G) false d x [t]) as Q. cbn [c_index set_index f_name x] in Q.
      assert ((match G !! f with Some _ => set_index (u_mem u) G | None => set_index (set_index (u_mem u) G) (<[f := ∅]> G) end) = set_index (u_mem u) G0) as E. { subst G0. by destruct (G !! f). }
      rewrite E in Q. apply Q. unfold range_order. cbn. rewrite map_to_list_singleton. done. }
    assert (up_wf (st G (CIndex false d x) (u_ich u)) s) as SW1 by (by apply SW).
    destruct (up_step_x compress decompress gz _ _ _ _ _ L1 Hl SW1 Hv X1 K2) as (_ & X2 & _). rewrite app_nil_r in X2.
    assert (up_step compress decompress (st G0 (CIndexLoop false d x [t]) (u_ich u), s) [] (st (<[f := index_term d idx t]> G0) (CIndexSend false d x t []) (u_ich u), s)) as K3.
    { apply u_client. pose proof (c_index_term decompress s (set_index (u_mem u) G0) false d x t [] idx) as Q. cbn [c_index set_index f_name x] in Q. by apply Q. }
    assert (up_wf (st G0 (CIndexLoop false d x [t]) (u_ich u)) s) as SW2 by (by apply SW).
    destruct (up_step_x compress decompress gz _ _ _ _ _ L1 Hl SW2 Hv X2 K3) as (_ & X3 & _). rewrite app_nil_r in X3.
    set (G' := <[f := index_term d idx t]> G0) in *.
    assert (up_step compress decompress (st G' (CIndexSend false d x t []) (u_ich u), s) [] (st G' (CIndexLoop false d x []) (u_ich u ++ [mkPost f t d]), s)) as K4 by (by apply u_send_index).
    assert (up_wf (st G' (CIndexSend false d x t []) (u_ich u)) s) as SW3 by (by apply SW).
    destruct (up_step_x compress decompress gz _ _ _ _ _ L1 Hl SW3 Hv X3 K4) as (_ & X4 & _). rewrite app_nil_r in X4.
    assert (up_step compress decompress (st G' (CIndexLoop false d x []) (u_ich u ++ [mkPost f t d]), s) [] (st G' CIdle (u_ich u ++ [mkPost f t d]), s)) as K5.
    { apply u_client. apply (c_index_end decompress s (set_index (u_mem u) G') false d x). }
    assert (up_wf (st G' (CIndexLoop false d x []) (u_ich u ++ [mkPost f t d])) s) as SW4. { apply SW; [done|]. apply Forall_app. split; [done|]. by constructor. }
    destruct (up_step_x compress decompress gz _ _ _ _ _ L1 Hl SW4 Hv X4 K5) as (_ & X5 & _). rewrite app_nil_r in X5.
    exists G', L1. split; [exact X5|]. split.
    - intros f' t' d'. unfold sent. subst G'. destruct (decide (f = f')) as [<-|Hn].
      + rewrite lookup_insert. cbn [default from_option id]. rewrite index_term_as, (has_insert _ _ _ _ _ _ eq_refl), Ed. split; [intros [[-> ->]|?]; auto|]. intros [?|(_ & -> & ->)]; auto.
      + rewrite lookup_insert_ne by done. assert (G0 !! f' = G !! f') as ->. { subst G0. destruct (G !! f); [done|]. by rewrite lookup_insert_ne. } split; [auto|]. intros [?|(-> & _)]; done.
    - intros f' t' d' (c & Hc & Q). unfold L1 in Hc. rewrite calls_app in Hc. apply elem_of_app in Hc as [Hc|Hc]; [left; by exists c|]. right. cbn in Hc. apply elem_of_list_singleton in Hc. subst c. cbn in Q. destruct Q as (<- & <- & [v Q]).
      split; [done|]. split; [|done]. destruct (decide (t = t')) as [<-|Hn]; [done|]. rewrite lookup_singleton_ne in Q by done. done.
  Qed.
End ghost.
