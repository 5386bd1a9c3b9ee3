(** Calls that do not overlap act one after the other (C56). *)
From Verif Require Import Base M_Field M_Memory M_Concurrent S_Concurrent P_Base P_Concurrent P_Concurrent2.
#[local] Open Scope Z_scope.

Lemma heap_ins {A} (idx : gmap string nat) (h h' : nat -> A) f l :
  (forall g l', idx !! g = Some l' -> g <> f -> h' l' = h l') -> h' <$> <[f := l]> idx = <[f := h' l]> (h <$> idx).
Proof.
  intros H. apply map_eq. intros g. rewrite lookup_fmap. destruct (decide (f = g)) as [->|Hn]; [by rewrite !lookup_insert|].
  rewrite !lookup_insert_ne, lookup_fmap by done. destruct (idx !! g) as [l'|] eqn:E; [|done]. cbn. f_equal. apply (H g); [done|congruence].
Qed.
Lemma heap_same {A} (idx : gmap string nat) (h h' : nat -> A) : (forall g l, idx !! g = Some l -> h' l = h l) -> h' <$> idx = h <$> idx.
Proof. intros H. apply map_eq. intros g. rewrite !lookup_fmap. destruct (idx !! g) as [l|] eqn:E; [|done]. cbn. f_equal. by eapply H. Qed.

(** Addresses of the other maps are used once. *)
Record once (s : shared) : Prop := {
  on_fdoc : forall d1 d2 l, k_fdoc s !! d1 = Some l -> k_fdoc s !! d2 = Some l -> d1 = d2;
  on_fdocs : forall d l, k_fdoc s !! d = Some l -> is_Some (k_fdocs s !! l);
  on_nft : forall f1 f2 l, k_nft s !! f1 = Some l -> k_nft s !! f2 = Some l -> f1 = f2;
  on_nfts : forall f l, k_nft s !! f = Some l -> is_Some (k_nfts s !! l) }.

Section serial.
  Variable disk : bool.
  Definition set_counters (m : memory) (x : field) : memory :=
    mkMem (mm_index m) (mm_fdoc m) (addi (mm_length m) (f_name x) (f_length x)) (addi (mm_size m) (f_name x) 1) (mm_nft m).
  Definition set_size (m : memory) (x : field) : memory :=
    mkMem (mm_index m) (mm_fdoc m) (mm_length m) (addi (mm_size m) (f_name x) 1) (mm_nft m).
  Definition set_index (m : memory) (d : string) (x : field) (ks : list string) : memory :=
    mkMem (<[f_name x := fold_left (index_term d) ks (default ∅ (mm_index m !! f_name x))]> (mm_index m)) (mm_fdoc m) (mm_length m) (mm_size m) (mm_nft m).
  Definition set_counts (m : memory) (x : field) (ks : list string) : memory :=
    mkMem (mm_index m) (mm_fdoc m) (mm_length m) (mm_size m) (<[f_name x := fold_left (fun ft t => addi ft t 1) ks (default ∅ (mm_nft m !! f_name x))]> (mm_nft m)).
  Definition base (m : memory) (c : call) : memory := match c with Save d x => if disk then m else mem_create_fdoc m d x | Index _ _ => m end.
  Definition base2 (m : memory) (c : call) : memory :=
    match c with Save d x => set_counters (base m c) x | Index d x => if disk then m else set_counters m x end.
  Lemma seq_save m d x ks1 ks2 : range_order (f_tf x) ks1 -> range_order (f_tf x) ks2 -> seq_step disk m (Save d x) (set_counts (set_index (base2 m (Save d x)) d x ks1) x ks2).
  Proof.
    intros H1 H2. unfold seq_step. cbn. destruct disk.
    - exists (mem_save m d x ks1 ks2). split; [by constructor|done].
    - exact (mem_step_save m d x ks1 ks2 H1 H2).
  Qed.
  Lemma seq_index m d x ks : range_order (f_tf x) ks -> seq_step disk m (Index d x) (set_index (base2 m (Index d x)) d x ks).
  Proof.
    intros H1. unfold seq_step. cbn. destruct disk.
    - exists (mem_update_index m d x ks). split; [by constructor|done].
    - exact (mem_step_index m d x ks H1).
  Qed.
  Definition of_call (full : bool) (d : string) (x : field) : call := if full then Save d x else Index d x.
  (** The state in the middle of a call made in state [m]. *)
  Definition mid (m : memory) (s : shared) (pc : tpc) : Prop :=
    match pc with
    | TIdle => view s = m
    | TDoc d x => disk = false /\ view s = m
    | TDocW d x o => disk = false /\ view s = m /\ o = k_fdoc s !! d
    | TSize full d x => (full = true \/ disk = false) /\ view s = base m (of_call full d x)
    | TSizeW full d x v => (full = true \/ disk = false) /\ view s = base m (of_call full d x) /\ v = geti (mm_size (view s)) (f_name x)
    | TLen full d x => (full = true \/ disk = false) /\ view s = set_size (base m (of_call full d x)) x
    | TLenW full d x v => (full = true \/ disk = false) /\ view s = set_size (base m (of_call full d x)) x /\ v = geti (mm_length (view s)) (f_name x)
    | TIdx full d x => view s = base2 m (of_call full d x)
    | TIdxNew full d x => view s = base2 m (of_call full d x) /\ k_index s !! f_name x = None
    | TLoop full d x l ks => exists ks0, range_order (f_tf x) (ks0 ++ ks) /\ view s = set_index (base2 m (of_call full d x)) d x ks0 /\ k_index s !! f_name x = Some l
    | TSet full d x l t ks o => exists ks0, range_order (f_tf x) (ks0 ++ t :: ks) /\ view s = set_index (base2 m (of_call full d x)) d x ks0 /\ k_index s !! f_name x = Some l /\ o = default ∅ (k_maps s !! l) !! t
    | TNft d x => exists ks1, range_order (f_tf x) ks1 /\ view s = set_index (base2 m (Save d x)) d x ks1
    | TNftLoop d x l ks => exists ks1 ks2, range_order (f_tf x) ks1 /\ range_order (f_tf x) (ks2 ++ ks) /\
        is_Some (k_nfts s !! l) /\ (forall g, k_nft s !! g = Some l -> g = f_name x) /\
        mkMem (mm_index (view s)) (mm_fdoc (view s)) (mm_length (view s)) (mm_size (view s)) (<[f_name x := counts_at s l]> (mm_nft (view s)))
        = set_counts (set_index (base2 m (Save d x)) d x ks1) x ks2
    | TNftW d x l t ks v => exists ks1 ks2, range_order (f_tf x) ks1 /\ range_order (f_tf x) (ks2 ++ t :: ks) /\
        is_Some (k_nfts s !! l) /\ (forall g, k_nft s !! g = Some l -> g = f_name x) /\
        mkMem (mm_index (view s)) (mm_fdoc (view s)) (mm_length (view s)) (mm_size (view s)) (<[f_name x := counts_at s l]> (mm_nft (view s)))
        = set_counts (set_index (base2 m (Save d x)) d x ks1) x ks2 /\ v = geti (counts_at s l) t
    end.
  Lemma mid_enter m s c : view s = m -> mid m s (t_enter disk c).
  Proof. intros H. destruct c; cbn; destruct disk eqn:E; cbn; rewrite ?E; try (split; [by auto|]); done. Qed.
  Lemma set_index_nil m d x l : mm_index m !! f_name x = Some l -> set_index m d x [] = m.
  Proof. intros H. destruct m. unfold set_index. cbn in *. by rewrite H, insert_id. Qed.
  Lemma set_index_snoc m d x ks t : set_index m d x (ks ++ [t]) =
    mkMem (<[f_name x := index_term d (default ∅ (mm_index (set_index m d x ks) !! f_name x)) t]> (mm_index (set_index m d x ks))) (mm_fdoc m) (mm_length m) (mm_size m) (mm_nft m).
  Proof. unfold set_index. cbn. rewrite lookup_insert, insert_insert, fold_left_app. done. Qed.
  Lemma view_fdoc s d l v : (forall d', k_fdoc s !! d' = Some l -> d' = d) ->
    view (set_kfdoc s (<[d := l]> (k_fdoc s)) (<[l := v]> (k_fdocs s))) = mkMem (mm_index (view s)) (<[d := v]> (mm_fdoc (view s))) (mm_length (view s)) (mm_size (view s)) (mm_nft (view s)).
  Proof.
    intros H. unfold view; cbn. f_equal.
    rewrite (heap_ins (k_fdoc s) (fields_at s)).
    - f_equal. unfold fields_at. cbn. by rewrite lookup_insert.
    - intros g l' E Hn. unfold fields_at. cbn. rewrite lookup_insert_ne; [done|]. intros <-. by apply Hn, H.
  Qed.
  Lemma view_index s f l mp sts : (forall g, k_index s !! g = Some l -> g = f) ->
    (forall g l' mp' t a, k_index s !! g = Some l' -> g <> f -> k_maps s !! l' = Some mp' -> mp' !! t = Some a -> sts !! a = k_sets s !! a) ->
    view (set_kindex s (<[f := l]> (k_index s)) (<[l := mp]> (k_maps s)) sts) =
    mkMem (<[f := (fun a : nat => default (∅ : set_data) (sts !! a)) <$> mp]> (mm_index (view s))) (mm_fdoc (view s)) (mm_length (view s)) (mm_size (view s)) (mm_nft (view s)).
  Proof.
    intros H1 H2. unfold view; cbn. f_equal. rewrite (heap_ins (k_index s) (sets_at s)).
    - f_equal. unfold sets_at. cbn. by rewrite lookup_insert.
    - intros g l' E Hn. unfold sets_at. cbn. rewrite lookup_insert_ne; [|intros <-; by apply Hn, H1]. destruct (k_maps s !! l') as [mp'|] eqn:Em; [|cbn; by rewrite !fmap_empty].
      cbn. apply heap_same. intros t a Ha. by rewrite (H2 g l' mp' t a).
  Qed.
  Lemma index_alone s ol oa f l : own_sh s ol oa -> k_index s !! f = Some l -> forall g, k_index s !! g = Some l -> g = f.
  Proof. intros W H g Hg. apply (o_idx _ _ _ W) in H, Hg. congruence. Qed.
  Lemma order_nodup x ks : range_order (f_tf x) ks -> NoDup ks.
  Proof. unfold range_order. intros ->. apply NoDup_fst_map_to_list. Qed.
  (** One step of the only call in progress. *)
  Lemma mid_step m s pc s' pc' ol oa : t_step (s, pc) (s', pc') -> own_sh s ol oa -> once s -> mid m s pc ->
    once s' /\ match pc' with TIdle => forall c, pc_call pc = Some c -> seq_step disk m c (view s') | _ => mid m s' pc' end.
  Proof.
    intros G W On H. inversion G; subst; cbn [mid] in H.
    - split; [done|]. cbn. destruct H. done.
    - (* existing document *) destruct H as (Hd & H & Hl). split.
      { destruct On. constructor; cbn; try done. intros d' l' E. destruct (decide (l = l')) as [->|Hn]; [rewrite lookup_insert; eauto|rewrite lookup_insert_ne by done; eauto]. }
      cbn [mid]. split; [by right|]. rewrite <- (insert_id (k_fdoc s) d l) at 1 by done. rewrite view_fdoc by (intros d' E; by eapply (on_fdoc _ On)).
      unfold of_call, base, mem_create_fdoc. rewrite Hd, <- H. cbn. rewrite lookup_fmap, <- Hl. cbn. done.
    - (* new document *) destruct H as (Hd & H & Hl). split.
      { destruct On. constructor; cbn; try done.
        - intros d1 d2 l' E1 E2. destruct (decide (d1 = d)) as [->|N1], (decide (d2 = d)) as [->|N2]; try done; rewrite ?lookup_insert, ?lookup_insert_ne in E1 by done; rewrite ?lookup_insert, ?lookup_insert_ne in E2 by done; [| |by eapply on_fdoc0].
          + injection E1 as <-. destruct (on_fdocs0 _ _ E2); congruence.
          + injection E2 as <-. destruct (on_fdocs0 _ _ E1); congruence.
        - intros d' l' E. destruct (decide (l = l')) as [->|Hn]; [rewrite lookup_insert; eauto|]. rewrite lookup_insert_ne by done. destruct (decide (d = d')) as [->|Hd']; [rewrite lookup_insert in E; congruence|rewrite lookup_insert_ne in E by done; eauto]. }
      cbn [mid]. split; [by right|]. rewrite view_fdoc by (intros d' E; destruct (on_fdocs _ On _ _ E); congruence).
      unfold of_call, base, mem_create_fdoc. rewrite Hd, <- H. cbn. rewrite lookup_fmap, <- Hl. cbn. done.
    - split; [done|]. destruct H as [? H]. cbn [mid]. done.
    - split; [by destruct On|]. destruct H as (Hf & H & ->). cbn [mid]. split; [done|]. unfold set_size. rewrite <- H. done.
    - split; [done|]. destruct H as [? H]. cbn [mid]. done.
    - split; [by destruct On|]. destruct H as (Hf & H & ->). cbn [mid]. assert (base2 m (of_call full d x) = set_counters (base m (of_call full d x)) x) as ->. { destruct Hf as [-> | Hf]; [done|]. destruct full; [done|]. cbn. by rewrite Hf. }
      assert (set_counters (base m (of_call full d x)) x = mkMem (mm_index (view s)) (mm_fdoc (view s)) (addi (mm_length (view s)) (f_name x) (f_length x)) (mm_size (view s)) (mm_nft (view s))) as ->; [|done]. rewrite H. done.
    - (* index found *) split; [done|]. cbn [mid]. exists []. split; [done|]. split; [|done]. rewrite <- H. symmetry. apply (set_index_nil _ _ _ (sets_at s' l)). cbn. rewrite lookup_fmap. match goal with E : k_index _ !! _ = _ |- _ => by rewrite E end.
    - split; [done|]. cbn [mid]. done.
    - (* new index *) destruct H as [H Hi]. split; [by destruct On|]. cbn [mid]. exists []. split; [done|]. split; [|cbn; by rewrite lookup_insert].
      rewrite view_index; [|intros g E; apply (o_idx _ _ _ W) in E; assert (is_Some (k_maps s !! l)) as [? ?] by (apply (o_map _ _ _ W); eauto); congruence|done].
      rewrite <- H. unfold set_index. cbn. rewrite lookup_fmap, Hi, fmap_empty. done.
    - split; [done|]. cbn [mid]. destruct H as (ks0 & ? & ? & ?). by exists ks0.
    - (* end of the loop *) split; [done|]. destruct H as (ks0 & Ho & H & Hi). rewrite app_nil_r in Ho. destruct full; [by exists ks0|]. intros c [= <-]. rewrite H. by apply seq_index.
    - (* new set *) destruct H as (ks0 & Ho & H & Hi & Ht). split; [by destruct On|]. cbn [mid]. exists (ks0 ++ [t]). split; [by rewrite <- app_assoc|]. split; [|done].
      rewrite <- (insert_id (k_index s) (f_name x) l) at 1 by done. rewrite view_index; [|by eapply index_alone|].
      + rewrite set_index_snoc. rewrite <- H. assert (mm_index (view s) !! f_name x = Some (sets_at s l)) as -> by (cbn; by rewrite lookup_fmap, Hi). cbn [default from_option id].
        assert (index_term d (sets_at s l) t = (fun a' : nat => default (∅ : set_data) (<[a := set_step set_new (SAdd d)]> (k_sets s) !! a')) <$> <[t := a]> (default ∅ (k_maps s !! l))) as ->.
        { unfold index_term. unfold sets_at at 1. rewrite lookup_fmap, <- Ht. cbn [fmap option_fmap option_map]. symmetry. etransitivity; [apply (heap_ins _ (fun a' : nat => default (∅ : set_data) (k_sets s !! a')))|].
          - intros g a' Hg Hn. rewrite lookup_insert_ne; [done|]. intros <-. destruct (k_maps s !! l) as [mp|] eqn:Em; [|by destruct (lookup_empty_Some (M := gmap string) _ _ Hg)]. destruct (o_set _ _ _ W _ _ _ _ Em Hg) as (? & _ & E).
            assert (is_Some (k_sets s !! a)) as [? ?] by (apply (o_dom _ _ _ W); eauto). congruence.
          - cbv beta. rewrite lookup_insert. done. }
        rewrite (f_equal mm_fdoc H), (f_equal mm_length H), (f_equal mm_size H), (f_equal mm_nft H). done.
      + intros g l' mp' t' a' _ _ Em Hg. rewrite lookup_insert_ne; [done|]. intros <-. destruct (o_set _ _ _ W _ _ _ _ Em Hg) as (? & _ & E). assert (is_Some (k_sets s !! a)) as [? ?] by (apply (o_dom _ _ _ W); eauto). congruence.
    - (* old set *) destruct H as (ks0 & Ho & H & Hi & Ht). split; [by destruct On|]. cbn [mid]. exists (ks0 ++ [t]). split; [by rewrite <- app_assoc|]. split; [|done].
      destruct (k_maps s !! l) as [mp|] eqn:Em; [|symmetry in Ht; by destruct (lookup_empty_Some (M := gmap string) _ _ Ht)]. cbn in Ht. destruct (o_set _ _ _ W _ _ _ _ Em (eq_sym Ht)) as (f' & E1 & E2). rewrite (o_idx _ _ _ W _ _ Hi) in E1. injection E1 as <-.
      rewrite <- (insert_id (k_index s) (f_name x) l) at 1 by done. rewrite <- (insert_id (k_maps s) l mp) at 1 by done. rewrite view_index; [|by eapply index_alone|].
      + rewrite set_index_snoc. rewrite <- H. assert (mm_index (view s) !! f_name x = Some (sets_at s l)) as -> by (cbn; by rewrite lookup_fmap, Hi). cbn [default from_option id].
        assert (is_Some (k_sets s !! a)) as [S HS] by (apply (o_dom _ _ _ W); eauto).
        assert (index_term d (sets_at s l) t = (fun a' : nat => default (∅ : set_data) (<[a := set_step (default set_new (k_sets s !! a)) (SAdd d)]> (k_sets s) !! a')) <$> mp) as ->.
        { unfold index_term. unfold sets_at at 1. rewrite lookup_fmap, Em. cbn [default from_option id]. rewrite <- Ht. cbn [fmap option_fmap option_map]. symmetry. rewrite <- (insert_id mp t a) at 1 by done. etransitivity; [apply (heap_ins _ (fun a' : nat => default (∅ : set_data) (k_sets s !! a')))|].
          - intros g a' Hg Hn. rewrite lookup_insert_ne; [done|]. intros <-. destruct (o_set _ _ _ W _ _ _ _ Em Hg) as (? & _ & E). rewrite E2 in E. congruence.
          - cbv beta. rewrite lookup_insert. unfold sets_at. rewrite Em, HS. done. }
        rewrite (f_equal mm_fdoc H), (f_equal mm_length H), (f_equal mm_size H), (f_equal mm_nft H). done.
      + intros g l' mp' t' a' Hg Hn Em' Ha. rewrite lookup_insert_ne; [done|]. intros <-. destruct (o_set _ _ _ W _ _ _ _ Em' Ha) as (f' & F1 & E). rewrite (o_idx _ _ _ W _ _ Hg) in F1. rewrite E2 in E. congruence.
    - (* counts found *) destruct H as (ks1 & Ho & H). match goal with E : k_nft _ !! _ = _ |- _ => rename E into En end. split; [done|]. cbn [mid]. exists ks1, []. split; [done|]. split; [done|]. split; [by eapply (on_nfts _ On)|]. split; [intros g Hg; by eapply (on_nft _ On)|].
      rewrite <- H. unfold set_counts. cbn. rewrite lookup_fmap, En. done.
    - (* new counts *) destruct H as (ks1 & Ho & H). match goal with E : k_nft _ !! _ = None |- _ => rename E into En end. match goal with E : k_nfts _ !! _ = None |- _ => rename E into El end.
      assert (forall g l', k_nft s !! g = Some l' -> l <> l') as Hf. { intros g l' E <-. destruct (on_nfts _ On _ _ E). congruence. }
      split.
      { destruct On. constructor; cbn; try done. intros g l' E. rewrite lookup_insert_ne by eauto. eauto. }
      cbn [mid]. exists ks1, []. split; [done|]. split; [done|]. split; [cbn; rewrite lookup_insert; eauto|]. split; [intros g Hg; cbn in Hg; by destruct (Hf _ _ Hg)|].
      rewrite <- H. unfold set_counts. cbn. rewrite lookup_fmap, En. cbn. unfold view; cbn. f_equal. unfold counts_at at 1. cbn. rewrite lookup_insert. cbn. f_equal.
      apply heap_same. intros g l' E. unfold counts_at. cbn. rewrite lookup_insert_ne by eauto. done.
    - split; [done|]. destruct H as (ks1 & ks2 & ? & ? & ? & ? & ?). cbn [mid]. by exists ks1, ks2.
    - (* count *) destruct H as (ks1 & ks2 & Ho1 & Ho2 & Hl & Ha & H & ->). split.
      { destruct On. constructor; cbn; try done. intros g l' E. destruct (decide (l = l')) as [->|Hn]; [rewrite lookup_insert; eauto|rewrite lookup_insert_ne by done; eauto]. }
      cbn [mid]. exists ks1, (ks2 ++ [t]). split; [done|]. split; [by rewrite <- app_assoc|]. split; [cbn; rewrite lookup_insert; eauto|]. split; [done|].
      unfold set_counts in H |- *. rewrite fold_left_app. cbn [fold_left]. injection H as H1 H2 H3 H4 H5. cbn [mm_index mm_fdoc mm_length mm_size mm_nft view k_size k_length set_knft].
      assert (counts_at s l = fold_left (fun ft t => addi ft t 1) ks2 (default ∅ (mm_nft (set_index (base2 m (Save d x)) d x ks1) !! f_name x))) as Ec.
      { apply (f_equal (lookup (f_name x))) in H5. rewrite !lookup_insert in H5. by injection H5. }
      cbn [mm_index mm_fdoc mm_length mm_size mm_nft set_index] in *. f_equal; [exact H1|exact H2|exact H3|exact H4|].
      apply map_eq. intros g. destruct (decide (f_name x = g)) as [<-|Hn].
      + rewrite !lookup_insert. f_equal. rewrite <- Ec. unfold counts_at. cbn [k_nfts set_knft]. rewrite lookup_insert. cbn [default from_option id]. unfold addi, counts_at. done.
      + apply (f_equal (lookup g)) in H5. rewrite !lookup_insert_ne in H5 by done. rewrite !lookup_insert_ne by done. etransitivity; [|exact H5]. cbn. rewrite !lookup_fmap. destruct (k_nft s !! g) as [l'|] eqn:Eg; [|done].
        cbn. f_equal. unfold counts_at. cbn. rewrite lookup_insert_ne; [done|]. intros <-. apply Hn. symmetry. by apply Ha.
    - (* end *) destruct H as (ks1 & ks2 & Ho1 & Ho2 & Hl & Ha & H). rewrite app_nil_r in Ho2. split.
      { destruct On. constructor; cbn; try done.
        - intros f1 f2 l' E1 E2. destruct (decide (f_name x = f1)) as [<-|N1], (decide (f_name x = f2)) as [<-|N2]; try done; rewrite ?lookup_insert, ?lookup_insert_ne in E1 by done; rewrite ?lookup_insert, ?lookup_insert_ne in E2 by done; [| |by eapply on_nft0].
          + injection E1 as <-. by apply Ha in E2.
          + injection E2 as <-. by apply Ha in E1.
        - intros g l' E. destruct (decide (f_name x = g)) as [<-|Hn]; [rewrite lookup_insert in E; congruence|rewrite lookup_insert_ne in E by done; eauto]. }
      intros c [= <-]. assert (view (set_knft s (<[f_name x:=l]> (k_nft s)) (k_nfts s)) = set_counts (set_index (base2 m (Save d x)) d x ks1) x ks2) as ->; [|by apply seq_save].
      rewrite <- H. unfold view; cbn. f_equal. apply (heap_ins (k_nft s) (counts_at s)). done.
  Qed.

  (** * Whole executions *)
  Lemma seq_snoc m h m1 c m2 : seq_run disk m h m1 -> seq_step disk m1 c m2 -> seq_run disk m (h ++ [c]) m2.
  Proof. induction 1 as [m|m c' m' h m'' Hs _ IH]; intros H; [econstructor; [done|constructor]|]. cbn. econstructor; [done|by apply IH]. Qed.
  Definition serial_inv (y : conc) : Prop :=
    once (cs_sh y) /\
    ((quiet y /\ seq_run disk mem_new (cs_log y) (view (cs_sh y))) \/
     exists i pc cs h m c, cs_threads y !! i = Some (pc, cs) /\ pc <> TIdle /\ pc_call pc = Some c /\ cs_log y = h ++ [c] /\ seq_run disk mem_new h m /\ mid m (cs_sh y) pc).
  Lemma step_call s pc s' pc' : t_step (s, pc) (s', pc') -> pc' <> TIdle -> pc_call pc' = pc_call pc.
  Proof. intros G. inversion G; subst; try done. destruct full; done. Qed.
  Lemma idle_dec (pc : tpc) : pc = TIdle \/ pc <> TIdle.
  Proof. destruct pc; by auto. Qed.
  Lemma serial_ok a b : serial_step disk a b -> own a -> one_at_a_time a -> serial_inv a -> serial_inv b.
  Proof.
    intros [H Ob] (ol & oa & W & _) Oa (On & I). inversion H as [s ths log i c cs Hi|s ths log i pc cs s' pc' Hi G]; subst; clear H; unfold serial_inv; cbn [cs_sh cs_threads cs_log] in *.
    - (* a call begins: none was in progress *) split; [done|]. right. destruct I as [[Hq Hr]|(j & pc & cs' & h & m & c' & Hj & Hn & _)].
      + exists i, (t_enter disk c), cs, log, (view s), c. split; [apply list_lookup_insert; by eapply lookup_lt_Some|]. split; [destruct c; cbn; by destruct disk|]. split; [destruct c; cbn; by destruct disk|]. split; [done|]. split; [done|]. by apply mid_enter.
      + exfalso. assert (i <> j) as Hij by (intros ->; rewrite Hi in Hj; injection Hj as <- _; done). apply Hij.
        apply (Ob i j (t_enter disk c) pc); cbn [cs_threads]; [rewrite list_lookup_insert by (by eapply lookup_lt_Some); done|rewrite list_lookup_insert_ne, Hj by done; done|destruct c; cbn; by destruct disk|done].
    - assert (pc <> TIdle) as Hpc by (inversion G; done). destruct I as [[Hq Hr]|(j & pc0 & cs' & h & m & c' & Hj & Hn & Hc & Hl & Hr & Hm)]; [by destruct Hpc; apply (Hq _ (elem_of_list_lookup_2 _ _ _ Hi))|].
      assert (i = j) as <-. { apply (Oa i j pc pc0); cbn [cs_threads]; try done; [by rewrite Hi|by rewrite Hj]. }
      rewrite Hi in Hj. injection Hj as <- <-. destruct (mid_step _ _ _ _ _ _ _ G W On Hm) as [On' K]. split; [done|].
      destruct (idle_dec pc') as [->|Hn'].
      + left. split; [|rewrite Hl; eapply seq_snoc; [done|by apply K]]. intros th Hth. cbn [cs_threads] in Hth. apply elem_of_list_lookup in Hth as (j & Hj). destruct (decide (i = j)) as [->|Hij]; [rewrite list_lookup_insert in Hj by (by eapply lookup_lt_Some); injection Hj as <-; done|].
        rewrite list_lookup_insert_ne in Hj by done. destruct th as [q cs']. destruct (idle_dec q) as [->|Hq]; [done|]. exfalso. apply Hij. apply (Oa i j pc q); cbn [cs_threads]; try done; [by rewrite Hi|by rewrite Hj].
      + right. exists i, pc', cs, h, m, c'. split; [apply list_lookup_insert; by eapply lookup_lt_Some|]. split; [done|]. split; [by rewrite (step_call _ _ _ _ G)|]. split; [done|]. split; [done|]. by destruct pc'.
  Qed.
End serial.
