(** Concurrent saves: postings (C56). *)
From Verif Require Import Base M_Field M_Memory M_Concurrent S_Concurrent P_Base P_Concurrent.
#[local] Open Scope Z_scope.

Definition pc_call (pc : tpc) : option call :=
  match pc with
  | TIdle => None
  | TDoc d x | TDocW d x _ | TNft d x | TNftLoop d x _ _ | TNftW d x _ _ _ _ => Some (Save d x)
  | TSize full d x | TSizeW full d x _ | TLen full d x | TLenW full d x _ | TIdx full d x | TIdxNew full d x | TLoop full d x _ _ | TSet full d x _ _ _ _ =>
      Some (if full then Save d x else Index d x)
  end.
Definition todo (pc : tpc) : list string :=
  match pc with TLoop _ _ _ _ ks => ks | TSet _ _ _ _ t ks _ => t :: ks | _ => [] end.

Section own.
  Variable disk : bool.
  Notation conc_step := (conc_step disk).
  Definition own_pc (ol : gmap nat string) (oa : gmap nat (string * string)) (pc : tpc) : Prop :=
    match pc with
    | TLoop _ _ x l _ => ol !! l = Some (f_name x)
    | TSet _ _ x l t _ o => ol !! l = Some (f_name x) /\ match o with Some a => oa !! a = Some (f_name x, t) | None => True end
    | _ => True
    end.
  Record own_sh (s : shared) (ol : gmap nat string) (oa : gmap nat (string * string)) : Prop := {
    o_idx : forall f l, k_index s !! f = Some l -> ol !! l = Some f;
    o_map : forall l, is_Some (k_maps s !! l) <-> is_Some (ol !! l);
    o_dom : forall a, is_Some (k_sets s !! a) <-> is_Some (oa !! a);
    o_set : forall l m t a, k_maps s !! l = Some m -> m !! t = Some a -> exists f, ol !! l = Some f /\ oa !! a = Some (f, t) }.
  Definition src_sh (s : shared) (oa : gmap nat (string * string)) (h : list call) : Prop :=
    forall a S f t d, k_sets s !! a = Some S -> oa !! a = Some (f, t) -> is_Some (S !! d) -> exists c, c ∈ h /\ posts f t d c.
  Definition src_pc (h : list call) (pc : tpc) : Prop :=
    (forall c, pc_call pc = Some c -> c ∈ h) /\ forall c t, pc_call pc = Some c -> t ∈ todo pc -> match c with Save _ x | Index _ x => is_Some (f_tf x !! t) end.
  Definition own (y : conc) : Prop :=
    exists ol oa, own_sh (cs_sh y) ol oa /\ src_sh (cs_sh y) oa (cs_log y) /\ forall th, th ∈ cs_threads y -> own_pc ol oa th.1 /\ src_pc (cs_log y) th.1.

  Lemma own_pc_mono ol oa ol' oa' pc : ol ⊆ ol' -> oa ⊆ oa' -> own_pc ol oa pc -> own_pc ol' oa' pc.
  Proof.
    intros H1 H2. destruct pc; cbn; try done.
    - intros E. by eapply lookup_weaken.
    - intros [E Eo]. split; [by eapply lookup_weaken|]. destruct o; [|done]. by eapply lookup_weaken.
  Qed.
  Lemma src_pc_mono h h' pc : src_pc h pc -> src_pc (h ++ h') pc.
  Proof. intros [H1 H2]. split; [|done]. intros c Hc. apply elem_of_app. left. by apply H1. Qed.
  Lemma order_some x ks t : range_order (f_tf x) ks -> t ∈ ks -> is_Some (f_tf x !! t).
  Proof.
    intros H Ht. unfold range_order in H. rewrite H in Ht. apply elem_of_list_fmap in Ht as ([k v] & -> & Hkv). apply elem_of_map_to_list in Hkv. eauto.
  Qed.
  (** One step of a goroutine. *)
  Lemma own_t s pc s' pc' ol oa h : t_step (s, pc) (s', pc') -> own_sh s ol oa -> src_sh s oa h -> own_pc ol oa pc -> src_pc h pc ->
    exists ol' oa', ol ⊆ ol' /\ oa ⊆ oa' /\ own_sh s' ol' oa' /\ src_sh s' oa' h /\ own_pc ol' oa' pc' /\ src_pc h pc'.
  Proof.
    intros G W Sr Op [P1 P2].
    assert (forall pc'', pc_call pc'' = pc_call pc -> (forall t, t ∈ todo pc'' -> t ∈ todo pc) -> src_pc h pc'') as K.
    { intros pc'' E1 E2. split; [by rewrite E1|]. intros c t. rewrite E1. intros Hc Ht. apply (P2 c t Hc). by apply E2. }
    assert (forall pc'' x, pc_call pc'' = pc_call pc -> match pc_call pc with Some (Save _ y) | Some (Index _ y) => y = x | None => False end -> range_order (f_tf x) (todo pc'') -> src_pc h pc'') as K2.
    { intros pc'' x E1 Ex E2. split; [by rewrite E1|]. intros c t. rewrite E1. intros Hc Ht. rewrite Hc in Ex. destruct c; subst; by eapply order_some. }
    assert (src_pc h TIdle) as K0. { split; [done|]. intros c t [=]. }
    inversion G; subst; cbn [own_pc] in Op;
      try (exists ol, oa; split; [done|]; split; [done|]; split; [by destruct W|]; split; [done|]; split; [done|]; by apply K).
    - exists ol, oa. do 4 (split; [done|]). split; [by apply (o_idx _ _ _ W)|]. apply (K2 _ x); [done| |done]. by destruct full.
    - (* new index map *)
      assert (ol !! l = None) as Hl. { apply eq_None_not_Some. rewrite <- (o_map _ _ _ W). by apply eq_None_not_Some. }
      exists (<[l := f_name x]> ol), oa. split; [by apply insert_subseteq|]. split; [done|]. split; [|split; [done|]]; [|split; [cbn; by rewrite lookup_insert|apply (K2 _ x); [done|by destruct full|done]]].
      constructor; cbn [k_index k_maps k_sets set_kindex].
      + intros f l' Hf. destruct (decide (f = f_name x)) as [->|Hn].
        * rewrite lookup_insert in Hf. injection Hf as <-. by rewrite lookup_insert.
        * rewrite lookup_insert_ne in Hf by done. apply (o_idx _ _ _ W) in Hf. rewrite lookup_insert_ne; [done|]. intros ->. congruence.
      + intros l'. destruct (decide (l = l')) as [->|Hn]; [rewrite !lookup_insert; split; eauto|]. rewrite !lookup_insert_ne by done. apply (o_map _ _ _ W).
      + apply (o_dom _ _ _ W).
      + intros l' m t a Hm Ht. destruct (decide (l = l')) as [->|Hn].
        * rewrite lookup_insert in Hm. injection Hm as <-. by rewrite lookup_empty in Ht.
        * rewrite lookup_insert_ne in Hm by done. rewrite lookup_insert_ne by done. by eapply (o_set _ _ _ W).
    - (* read a set *)
      exists ol, oa. do 4 (split; [done|]). split; [|by apply K]. cbn. split; [done|]. destruct (default ∅ (k_maps s' !! l) !! t) as [a|] eqn:E; [|done].
      destruct (k_maps s' !! l) as [m|] eqn:Em; [|by destruct (lookup_empty_Some (M := gmap string) _ _ E)]. cbn in E. destruct (o_set _ _ _ W _ _ _ _ Em E) as (f & E1 & E2). rewrite Op in E1. injection E1 as <-. done.
    - (* end of the loop *) exists ol, oa. do 4 (split; [done|]). destruct full; [|by split]. split; [done|]. apply K; [done|]. by intros t ?%elem_of_nil.
    - (* new set *)
      destruct Op as [Op _]. assert (oa !! a = None) as Ha. { apply eq_None_not_Some. rewrite <- (o_dom _ _ _ W). by apply eq_None_not_Some. }
      exists ol, (<[a := (f_name x, t)]> oa). split; [done|]. split; [by apply insert_subseteq|]. split; [|split; [|split; [done|apply K; [done|intros t' Ht'; by right]]]].
      + constructor; cbn [k_index k_maps k_sets set_kindex].
        * apply (o_idx _ _ _ W).
        * intros l'. destruct (decide (l = l')) as [->|Hn]; [rewrite lookup_insert, Op; split; eauto|]. rewrite lookup_insert_ne by done. apply (o_map _ _ _ W).
        * intros a'. destruct (decide (a = a')) as [->|Hn]; [rewrite !lookup_insert; split; eauto|]. rewrite !lookup_insert_ne by done. apply (o_dom _ _ _ W).
        * assert (forall l' m t' a', k_maps s !! l' = Some m -> m !! t' = Some a' -> exists f, ol !! l' = Some f /\ <[a := (f_name x, t)]> oa !! a' = Some (f, t')) as Old.
          { intros l' m t' a' Hm Ht. destruct (o_set _ _ _ W _ _ _ _ Hm Ht) as (f & E1 & E2). exists f. split; [done|]. rewrite lookup_insert_ne; [done|]. intros ->. congruence. }
          intros l' m t' a' Hm Ht. destruct (decide (l = l')) as [->|Hn]; [|rewrite lookup_insert_ne in Hm by done; by eapply Old].
          rewrite lookup_insert in Hm. injection Hm as <-. destruct (decide (t = t')) as [->|Hnt]; [rewrite lookup_insert in Ht; injection Ht as <-; exists (f_name x); by rewrite lookup_insert|].
          rewrite lookup_insert_ne in Ht by done. destruct (k_maps s !! l') as [m|] eqn:Em; [|by destruct (lookup_empty_Some (M := gmap string) _ _ Ht)]. by eapply Old.
      + intros a' S f t' d' HS Ho Hd. cbn [k_sets set_kindex] in HS. destruct (decide (a = a')) as [->|Hn].
        * rewrite lookup_insert in HS. rewrite lookup_insert in Ho. injection HS as <-. injection Ho as <- <-. cbn in Hd. destruct (decide (d = d')) as [->|Hnd]; [|rewrite lookup_insert_ne in Hd by done; destruct Hd as [? Hd]; by destruct (lookup_empty_Some (M := gmap string) _ _ Hd)].
          eexists. split; [by apply P1|]. destruct full; (do 2 (split; [done|])); apply (P2 _ t eq_refl); left.
        * rewrite lookup_insert_ne in HS by done. rewrite lookup_insert_ne in Ho by done. by eapply Sr.
    - (* add to a set *)
      destruct Op as [Op Oa]. exists ol, oa. do 2 (split; [done|]). split; [|split; [|split; [done|apply K; [done|intros t' Ht'; by right]]]].
      + constructor; cbn [k_index k_maps k_sets set_kindex]; try apply W. intros a'. destruct (decide (a = a')) as [->|Hn]; [rewrite lookup_insert, Oa; split; eauto|]. rewrite lookup_insert_ne by done. apply (o_dom _ _ _ W).
      + intros a' S f t' d' HS Ho Hd. cbn [k_sets set_kindex] in HS. destruct (decide (a = a')) as [->|Hn]; [|rewrite lookup_insert_ne in HS by done; by eapply Sr].
        rewrite lookup_insert in HS. injection HS as <-. rewrite Oa in Ho. injection Ho as <- <-. cbn in Hd. destruct (decide (d = d')) as [->|Hnd].
        * eexists. split; [by apply P1|]. destruct full; (do 2 (split; [done|])); apply (P2 _ t eq_refl); left.
        * rewrite lookup_insert_ne in Hd by done. destruct (k_sets s !! a') as [S|] eqn:ES; [|destruct Hd as [? Hd]; by destruct (lookup_empty_Some (M := gmap string) _ _ Hd)]. by eapply Sr.
    - exists ol, oa. do 2 (split; [done|]). split; [by destruct W|]. do 2 (split; [done|]). exact K0.
  Qed.
  Lemma own_step a b : conc_step a b -> own a -> own b.
  Proof.
    intros H (ol & oa & W & Sr & Th). inversion H as [s ths log i c cs Hi|s ths log i pc cs s' pc' Hi G]; subst; clear H; cbn [cs_sh cs_threads cs_log] in *.
    - exists ol, oa. cbn [cs_sh cs_threads cs_log]. split; [done|]. split.
      { intros a S f t d H1 H2 H3. destruct (Sr _ _ _ _ _ H1 H2 H3) as (c' & Hc & Hp). exists c'. split; [apply elem_of_app; by left|done]. }
      intros th Hth. apply elem_of_insert in Hth as [->|Hth].
      + split; [destruct c; cbn; by destruct disk|]. split; [intros c'|intros c' t]; (destruct c; cbn; destruct disk; cbn; intros [= <-]; try (intros Hn; by apply elem_of_nil in Hn); apply elem_of_app; right; left).
      + destruct (Th th Hth) as [T1 T2]. split; [done|by apply src_pc_mono].
    - destruct (Th _ (elem_of_list_lookup_2 _ _ _ Hi)) as [T1 T2]. destruct (own_t _ _ _ _ _ _ _ G W Sr T1 T2) as (ol' & oa' & L1 & L2 & W' & Sr' & O' & P').
      exists ol', oa'. cbn [cs_sh cs_threads cs_log]. split; [done|]. split; [done|]. intros th Hth. apply elem_of_insert in Hth as [->|Hth]; [done|]. destruct (Th th Hth) as [Q1 Q2]. split; [by eapply own_pc_mono|done].
  Qed.
  Lemma own_reach progs y : rtc conc_step (conc_start sh_new progs) y -> own y.
  Proof.
    intros H. remember (conc_start sh_new progs) as y0 eqn:E0. assert (own y0) as I.
    { subst y0. exists ∅, ∅. split; [constructor; cbn; intros *; try by rewrite lookup_empty|]; [rewrite !lookup_empty; split; by intros [? ?]|rewrite !lookup_empty; split; by intros [? ?]|]. split; [intros a S f t d Ha; by destruct (lookup_empty_Some (M := gmap nat) _ _ Ha)|].
      cbn. intros th Hth. apply elem_of_list_fmap in Hth as (cs & -> & _). split; [done|]. split; [done|]. intros c t [=]. }
    clear E0. induction H as [y|a b c Hs _ IH]; [done|]. apply IH. by eapply own_step.
  Qed.
  (** What the getters show. *)
  Lemma view_posting s f t S d : mm_index (view s) !! f ≫= (.!! t) = Some S -> is_Some (S !! d) ->
    exists l m a, k_index s !! f = Some l /\ k_maps s !! l = Some m /\ m !! t = Some a /\ k_sets s !! a = Some S.
  Proof.
    intros H Hd. cbn in H. rewrite lookup_fmap in H. destruct (k_index s !! f) as [l|] eqn:El; [|done]. cbn in H. unfold sets_at in H. rewrite lookup_fmap in H. destruct (k_maps s !! l) as [m|] eqn:Em; [|cbn in H; by rewrite lookup_empty in H].
    cbn in H. destruct (m !! t) as [a|] eqn:Ea; [|done]. cbn in H. injection H as <-. destruct (k_sets s !! a) as [S|] eqn:ES; [|destruct Hd as [? Hd]; cbn in Hd; by rewrite lookup_empty in Hd]. exists l, m, a. done.
  Qed.
  Lemma no_phantom progs y f t S d : rtc conc_step (conc_start sh_new progs) y -> mm_index (view (cs_sh y)) !! f ≫= (.!! t) = Some S -> is_Some (S !! d) -> exists c, c ∈ cs_log y /\ posts f t d c.
  Proof.
    intros Hr H Hd. destruct (own_reach _ _ Hr) as (ol & oa & W & Sr & _). destruct (view_posting _ _ _ _ _ H Hd) as (l & m & a & E1 & E2 & E3 & E4).
    destruct (o_set _ _ _ W _ _ _ _ E2 E3) as (f' & F1 & F2). rewrite (o_idx _ _ _ W _ _ E1) in F1. injection F1 as <-. by eapply Sr.
  Qed.

  (** * Once a set exists and no call is in progress, no posting of that term is lost *)
  Definition safe_pc (f t : string) (l a : nat) (pc : tpc) : Prop :=
    match pc with
    | TIdxNew _ _ x => f_name x <> f
    | TLoop _ _ x l' _ => f_name x = f -> l' = l
    | TSet _ _ x l' t' _ o => (f_name x = f -> l' = l) /\ (f_name x = f -> t' = t -> o = Some a)
    | _ => True
    end.
  Definition will_post (t : string) (c : call) (pc : tpc) : Prop :=
    pc_call pc = Some c /\ match pc with TLoop _ _ _ _ _ | TSet _ _ _ _ _ _ _ => t ∈ todo pc | TNft _ _ | TNftLoop _ _ _ _ | TNftW _ _ _ _ _ _ => False | _ => True end.
  Definition kept_inv (f t : string) (l a : nat) (n : nat) (y : conc) : Prop :=
    (exists m, k_index (cs_sh y) !! f = Some l /\ k_maps (cs_sh y) !! l = Some m /\ m !! t = Some a /\ is_Some (k_sets (cs_sh y) !! a)) /\
    (forall th, th ∈ cs_threads y -> safe_pc f t l a th.1) /\
    forall c d, c ∈ drop n (cs_log y) -> posts f t d c -> (exists S, k_sets (cs_sh y) !! a = Some S /\ is_Some (S !! d)) \/ exists th, th ∈ cs_threads y /\ will_post t c th.1.
  Lemma insert_other {A} (l : list A) i x y z : l !! i = Some x -> z ∈ l -> z = x \/ z ∈ <[i := y]> l.
  Proof.
    intros Hi (j & Hj)%elem_of_list_lookup. destruct (decide (i = j)) as [->|Hn]; [left; congruence|]. right. apply elem_of_list_lookup_2 with j. by rewrite list_lookup_insert_ne.
  Qed.
  Lemma insert_self {A} (l : list A) i x y : l !! i = Some x -> y ∈ <[i := y]> l.
  Proof. intros Hi. apply elem_of_list_lookup_2 with i. apply list_lookup_insert. by eapply lookup_lt_Some. Qed.
  (** The heap part of a step. *)
  Lemma kept_t s pc s' pc' ol oa f t l a m : t_step (s, pc) (s', pc') -> own_sh s ol oa -> own_pc ol oa pc -> safe_pc f t l a pc ->
    k_index s !! f = Some l -> k_maps s !! l = Some m -> m !! t = Some a -> is_Some (k_sets s !! a) ->
    (exists m', k_index s' !! f = Some l /\ k_maps s' !! l = Some m' /\ m' !! t = Some a /\ is_Some (k_sets s' !! a)) /\ safe_pc f t l a pc' /\
    (forall S d, k_sets s !! a = Some S -> is_Some (S !! d) -> exists S', k_sets s' !! a = Some S' /\ is_Some (S' !! d)) /\
    forall c d, will_post t c pc -> posts f t d c -> is_Some (f_tf (match c with Save _ x | Index _ x => x end) !! t) -> will_post t c pc' \/ exists S', k_sets s' !! a = Some S' /\ is_Some (S' !! d).
  Proof.
    intros G W Op Sp H1 H2 H3 H4.
    assert (forall S (d : string), k_sets s !! a = Some S -> is_Some (S !! d) -> exists S', k_sets s !! a = Some S' /\ is_Some (S' !! d)) as K by eauto.
    assert (ol !! l = Some f) as Hol by by apply (o_idx _ _ _ W).
    inversion G; subst; cbn [own_pc safe_pc] in Op, Sp; cbn [k_index k_maps k_sets set_kindex set_ksize set_klength set_kfdoc set_knft] in *;
      try (split; [by exists m|]; split; [done|]; split; [done|]; intros c dd [E1 E2] _ _; left; split; [exact E1|done]).
    - (* TIdx finds the map *) split; [by exists m|]. split; [cbn; congruence|]. split; [done|]. intros c dd [E1 E2] Hp Ht. left. split; [exact E1|]. cbn in E1. injection E1 as <-. unfold posts in Hp.
      cbn [todo]. match goal with K : range_order _ _ |- _ => unfold range_order in K; rewrite K end. destruct full; (destruct Ht as [v Hv]; apply elem_of_list_fmap; exists (t, v); split; [done|]; by apply elem_of_map_to_list).
    - split; [by exists m|]. split; [cbn; congruence|]. split; [done|]. intros c dd [E1 E2] _ _. left. split; [exact E1|done].
    - (* a new map, for another field *) assert (l0 <> l) as Hnl by congruence. split; [exists m; rewrite !lookup_insert_ne by done; done|]. split; [cbn; done|]. split; [done|].
      intros c dd [E1 E2] Hp Ht. cbn in E1. injection E1 as <-. exfalso. destruct full; apply Sp, Hp.
    - (* read a set *) split; [by exists m|]. split; [|split; [done|]].
      + cbn. split; [done|]. intros Ef ->. rewrite (Sp Ef), H2. done.
      + intros c dd [E1 E2] _ _. left. split; [exact E1|done].
    - (* end of the loop *) split; [by exists m|]. split; [by destruct full|]. split; [done|]. intros c dd [E1 E2] _ _. cbn in E2. by apply elem_of_nil in E2.
    - (* new set *) destruct Op as [Op _]. destruct Sp as [Sp1 Sp2]. assert (a0 <> a) as Hna by (intros ->; destruct H4; congruence).
      split; [|split; [exact Sp1|split; [intros S dd HS HSd; exists S; by rewrite lookup_insert_ne|]]].
      + destruct (decide (l0 = l)) as [->|Hnl]; [|exists m; rewrite !lookup_insert_ne by done; done]. assert (f_name x = f) as Ef by congruence. assert (t0 <> t) as Hnt. { intros ->. by specialize (Sp2 Ef eq_refl). }
        exists (<[t0 := a0]> m). rewrite lookup_insert, H2. cbn [default from_option id]. split; [done|]. split; [done|]. rewrite !lookup_insert_ne by done. done.
      + intros c dd [E1 E2] Hp Ht. cbn in E1, E2. injection E1 as <-. left. split; [done|]. cbn. apply elem_of_cons in E2 as [->|E2]; [|done]. exfalso. destruct full; (destruct Hp as (_ & Hp & _); by specialize (Sp2 Hp eq_refl)).
    - (* add *) destruct Op as [Op Oa]. destruct Sp as [Sp1 Sp2].
      assert (forall S (d' : string), k_sets s !! a = Some S -> is_Some (S !! d') -> exists S', <[a0 := set_step (default set_new (k_sets s !! a0)) (SAdd d)]> (k_sets s) !! a = Some S' /\ is_Some (S' !! d')) as K'.
      { intros S d' HS HSd. destruct (decide (a0 = a)) as [->|Hna]; [rewrite lookup_insert, HS; eexists; split; [done|]; cbn; destruct (decide (d = d')) as [->|]; [rewrite lookup_insert; eauto|by rewrite lookup_insert_ne]|]. rewrite lookup_insert_ne by done. eauto. }
      split; [|split; [exact Sp1|split; [done|]]].
      + exists m. do 3 (split; [done|]). destruct (decide (a0 = a)) as [->|Hna]; [rewrite lookup_insert; eauto|by rewrite lookup_insert_ne].
      + intros c dd [E1 E2] Hp Ht. cbn in E1, E2. injection E1 as <-. apply elem_of_cons in E2 as [->|E2]; [|left; by split]. right.
        assert (f_name x = f /\ d = dd) as [Ef Ed] by (destruct full; destruct Hp as (? & ? & _); done). subst dd. specialize (Sp2 Ef eq_refl). injection Sp2 as ->.
        rewrite lookup_insert. eexists. split; [done|]. cbn. rewrite lookup_insert. eauto.
    - split; [by exists m|]. split; [done|]. split; [done|]. intros c dd [E1 E2]. done.
  Qed.
  Lemma kept_step f t l a n x y : (n <= length (cs_log x))%nat -> conc_step x y -> own x -> kept_inv f t l a n x -> kept_inv f t l a n y.
  Proof.
    intros Hn H (ol & oa & W & _ & Th) ((m & H1 & H2 & H3 & H4) & Sf & Po). inversion H as [s ths log i c cs Hi|s ths log i pc cs s' pc' Hi G]; subst; clear H; unfold kept_inv; cbn [cs_sh cs_threads cs_log] in *.
    - split; [by exists m|]. split.
      + intros th Hth. apply elem_of_insert in Hth as [->|Hth]; [|by apply Sf]. destruct c; cbn; by destruct disk.
      + intros c' d Hc Hp. rewrite drop_app_le in Hc by done. apply elem_of_app in Hc as [Hc|Hc].
        * destruct (Po c' d Hc Hp) as [E|(th & Hth & E)]; [by left|]. right. exists th. split; [|done]. destruct (insert_other _ _ _ (t_enter disk c, cs) _ Hi Hth) as [->|?]; [by destruct E|done].
        * apply elem_of_list_singleton in Hc. subst c'. right. exists (t_enter disk c, cs). split; [by eapply insert_self|]. split; destruct c; cbn; by destruct disk.
    - destruct (Th _ (elem_of_list_lookup_2 _ _ _ Hi)) as [O1 _]. destruct (kept_t _ _ _ _ _ _ _ _ _ _ _ G W O1 (Sf _ (elem_of_list_lookup_2 _ _ _ Hi)) H1 H2 H3 H4) as (K1 & K2 & K3 & K4).
      split; [done|]. split; [intros th Hth; apply elem_of_insert in Hth as [->|Hth]; [done|by apply Sf]|].
      intros c d Hc Hp. destruct (Po c d Hc Hp) as [(S & E1 & E2)|(th & Hth & E)]; [left; by eapply K3|]. destruct (insert_other _ _ _ (pc', cs) _ Hi Hth) as [->|?]; [|right; by exists th].
      destruct (K4 c d E Hp) as [K5|K5]; [destruct c; by destruct Hp as (_ & _ & ?)|right; exists (pc', cs); split; [by eapply insert_self|done]|by left].
  Qed.
  Lemma kept_sets f t l a n x y : conc_step x y -> own x -> kept_inv f t l a n x ->
    forall d S, k_sets (cs_sh x) !! a = Some S -> is_Some (S !! d) -> exists S', k_sets (cs_sh y) !! a = Some S' /\ is_Some (S' !! d).
  Proof.
    intros H (ol & oa & W & _ & Th) ((m & H1 & H2 & H3 & H4) & Sf & _). inversion H as [s ths log i c cs Hi|s ths log i pc cs s' pc' Hi G]; subst; clear H; cbn [cs_sh cs_threads cs_log] in *; [eauto|].
    destruct (Th _ (elem_of_list_lookup_2 _ _ _ Hi)) as [O1 _]. destruct (kept_t _ _ _ _ _ _ _ _ _ _ _ G W O1 (Sf _ (elem_of_list_lookup_2 _ _ _ Hi)) H1 H2 H3 H4) as (_ & _ & K3 & _). intros d S. apply K3.
  Qed.
End own.
