(** Concurrent calls on the disk storage: the document-frequency files (C66). *)
From Verif Require Import Base M_Field M_LRU S_Visits M_Memory M_File M_Serialize M_Num M_FanIn M_Search M_Concurrent M_SearchConc M_Disk P_Base P_File S_Memory S_Concurrent P_Concurrent P_Concurrent2 P_DiskBase P_DiskInv P_DiskMem P_DiskWriter P_DiskNft M_DiskBusy M_DiskMulti P_DiskIndex3 P_DiskIndex4 S_Disk S_DiskMulti P_DiskMulti P_DiskMulti2 P_DiskMulti3 S_DiskMulti2 P_DiskMulti8.
#[local] Open Scope Z_scope.
#[local] Opaque serialize_metrics serialize_nft serialize_field_map serialize_index deserialize_index deserialize_nft deserialize_field_map deserialize_metrics.

(** The goroutine is still to count term [t] of field [f]. *)
Definition pn (f t : string) (th : thread) : Z :=
  match th.1.1 with
  | TSize true _ x | TSizeW true _ x _ | TLen true _ x | TLenW true _ x _ | TIdx true _ x | TIdxNew true _ x | TLoop true _ x _ _ | TSet true _ x _ _ _ _ | TNft _ x =>
      if decide (f_name x = f /\ is_Some (f_tf x !! t)) then 1 else 0
  | TNftLoop _ x _ ks => if decide (f_name x = f /\ t ∈ ks) then 1 else 0
  | TNftW _ x _ t' ks _ => if decide (f_name x = f /\ t ∈ t' :: ks) then 1 else 0
  | _ => 0
  end.
Lemma pn_pos f t th : 0 <= pn f t th.
Proof. unfold pn. destruct th.1.1; try lia; try destruct full; try lia; by destruct (decide _). Qed.

(** Whose the count maps are. *)
Definition npc_own (on : gmap nat string) (pc : tpc) : Prop :=
  match pc with
  | TDoc _ _ | TDocW _ _ _ => False
  | TNftLoop _ x l ks => on !! l = Some (f_name x) /\ NoDup ks
  | TNftW _ x l t ks _ => on !! l = Some (f_name x) /\ NoDup (t :: ks)
  | _ => True
  end.
Definition nmsg_own (on : gmap nat string) (m : msg) : Prop := match m with NCount f _ l => on !! l = Some f | _ => True end.
Record nf_own (on : gmap nat string) (sh : shared) (ths : list thread) : Prop := {
  no_idx : forall f l, k_nft sh !! f = Some l -> on !! l = Some f;
  no_dom : forall l, is_Some (k_nfts sh !! l) <-> is_Some (on !! l);
  no_th : forall th, th ∈ ths -> npc_own on th.1.1 /\ nmsg_own on th.1.2 }.
(** [n]: the saves of [f] with [t]; [n']: without those still to be counted. *)
Definition npc_est (f t : string) (n' : Z) (pc : tpc) : Prop :=
  match pc with TNftW _ x _ t' _ v => f_name x = f -> t' = t -> 0 <= v <= n' | _ => True end.
Definition nmsg_est (f t : string) (n : Z) (sh : shared) (m : msg) : Prop :=
  match m with
  | NCount f' t' l => f' = f -> t' = t -> 1 <= geti (counts_at sh l) t
  | NSend f' t' v => f' = f -> t' = t -> 1 <= v <= n
  | _ => True
  end.
Record nm (on : gmap nat string) (f t : string) (n : Z) (sh : shared) (ths : list thread) : Prop := {
  nm_n : tsum (pn f t) ths <= n;
  nm_at : forall l, on !! l = Some f -> 0 <= geti (counts_at sh l) t <= n - tsum (pn f t) ths;
  nm_th : forall th, th ∈ ths -> npc_est f t (n - tsum (pn f t) ths) th.1.1 /\ nmsg_est f t n sh th.1.2 }.
Lemma npc_mono f t n n' pc : n <= n' -> npc_est f t n pc -> npc_est f t n' pc.
Proof. intros H1. destruct pc; cbn; try done. intros H E1 E2. specialize (H E1 E2). lia. Qed.
Lemma nmsg_mono on f t n n' sh sh' m : nmsg_own on m -> n <= n' -> (forall l, on !! l = Some f -> 1 <= geti (counts_at sh l) t -> 1 <= geti (counts_at sh' l) t) -> nmsg_est f t n sh m -> nmsg_est f t n' sh' m.
Proof. intros H0 H1 H2. destruct m; cbn in *; try done; intros H E1 E2; specialize (H E1 E2); [subst; auto|lia]. Qed.
Lemma nm_upd on on' f t n sh ths sh' i th th' : ths !! i = Some th -> nf_own on sh ths -> nm on f t n sh ths -> pn f t th' <= pn f t th ->
  (forall l, on !! l = Some f -> 1 <= geti (counts_at sh l) t -> 1 <= geti (counts_at sh' l) t) ->
  (forall l, on' !! l = Some f -> 0 <= geti (counts_at sh' l) t <= n - tsum (pn f t) ths + pn f t th - pn f t th') ->
  npc_est f t (n - tsum (pn f t) ths + pn f t th - pn f t th') th'.1.1 -> nmsg_est f t n sh' th'.1.2 ->
  nm on' f t n sh' (<[i := th']> ths).
Proof.
  intros Hi O [T0 T1 T2] E1 E2 B1 B2 B3. constructor; rewrite (tsum_insert _ _ _ _ _ Hi).
  - lia.
  - intros l Hl. specialize (B1 l Hl). lia.
  - intros th0 Hth. apply elem_of_insert in Hth as [->|Hth].
    + split; [|done]. eapply npc_mono; [|exact B2]. lia.
    + destruct (T2 th0 Hth) as (K1 & K2). split; [|eapply nmsg_mono; [by apply (no_th _ _ _ O)|..|exact K2]; [lia|done]]. eapply npc_mono; [|exact K1]. lia.
Qed.
(** A goroutine accesses a map. *)
Lemma own_map on sh ths i pc cs sh' pc' : ths !! i = Some (pc, NoMsg, cs) -> t_step (sh, pc) (sh', pc') -> nf_own on sh ths ->
  exists on', on ⊆ on' /\ nf_own on' sh' (<[i := (pc', after pc, cs)]> ths) /\
    (forall l, on' !! l <> on !! l -> on !! l = None /\ counts_at sh' l = ∅).
Proof.
  intros Hi St O. pose proof O as [O1 O2 O3]. destruct (O3 _ (elem_of_list_lookup_2 _ _ _ Hi)) as [K1 _]. cbn [fst] in K1.
  assert (forall sh0 pc0, k_nft sh0 = k_nft sh -> k_nfts sh0 = k_nfts sh -> npc_own on pc0 -> nmsg_own on (after pc) -> exists on', on ⊆ on' /\ nf_own on' sh0 (<[i := (pc0, after pc, cs)]> ths) /\
    (forall l, on' !! l <> on !! l -> on !! l = None /\ counts_at sh0 l = ∅)) as Q.
  { intros sh0 pc0 E1 E2 Hp Hm. exists on. split; [done|]. split; [|done]. constructor; rewrite ?E1, ?E2; try done. intros th Hth. apply elem_of_insert in Hth as [->|Hth]; [done|by apply O3]. }
  inversion St; subst; cbn [npc_own] in K1; try done; try (by apply Q).
  - apply Q; try done. by destruct full.
  - (* the map of the field *) apply Q; try done. split; [by apply O1|]. by eapply range_order_NoDup.
  - (* a new map *)
    assert (on !! l = None) as Hl. { apply eq_None_not_Some. rewrite <- O2. by apply eq_None_not_Some. }
    exists (<[l := f_name x]> on). split; [by apply insert_subseteq|]. split.
    + constructor; cbn [k_nft k_nfts set_knft].
      * intros f l' Hf. apply O1 in Hf. rewrite lookup_insert_ne; [done|]. intros ->. congruence.
      * intros l'. destruct (decide (l = l')) as [->|Hn]; [rewrite !lookup_insert; split; eauto|]. rewrite !lookup_insert_ne by done. apply O2.
      * assert (forall l' f', on !! l' = Some f' -> <[l := f_name x]> on !! l' = Some f') as M. { intros l' f' Hf. rewrite lookup_insert_ne; [done|]. intros ->. congruence. }
        intros th Hth. apply elem_of_insert in Hth as [->|Hth].
        -- cbn. split; [|done]. rewrite lookup_insert. split; [done|]. by eapply range_order_NoDup.
        -- destruct (O3 th Hth) as [K2 K3]. split; [destruct th.1.1; cbn in *; try done; (destruct K2; split; [by apply M|done])|destruct th.1.2; cbn in *; try done; by apply M].
    + intros l' Hd. destruct (decide (l = l')) as [->|Hn]; [|by rewrite lookup_insert_ne in Hd]. split; [done|]. unfold counts_at. cbn. by rewrite lookup_insert.
  - (* the increment *)
    exists on. split; [done|]. split; [|done]. constructor; cbn [k_nft k_nfts set_knft]; try done.
    + intros l'. destruct (decide (l = l')) as [->|Hn]; [|rewrite lookup_insert_ne by done; apply O2]. rewrite lookup_insert. destruct K1 as [-> _]. split; eauto.
    + intros th Hth. apply elem_of_insert in Hth as [->|Hth]; [|by apply O3]. destruct K1 as [K1 K2]. apply NoDup_cons in K2 as [_ K2]. done.
  - (* the map is stored *)
    exists on. split; [done|]. split; [|done]. constructor; cbn [k_nft k_nfts set_knft]; try done.
    + intros f l' Hf. apply lookup_insert_Some in Hf as [[<- <-]|[_ Hf]]; [by apply K1|by apply O1].
    + intros th Hth. apply elem_of_insert in Hth as [->|Hth]; [done|by apply O3].
Qed.
Lemma nm_map on on' f t n sh ths i pc cs sh' pc' : n < 2 ^ 31 -> ths !! i = Some (pc, NoMsg, cs) -> t_step (sh, pc) (sh', pc') -> nf_own on sh ths ->
  on ⊆ on' -> (forall l, on' !! l <> on !! l -> on !! l = None /\ counts_at sh' l = ∅) -> nm on f t n sh ths -> nm on' f t n sh' (<[i := (pc', after pc, cs)]> ths).
Proof.
  intros Hn Hi St O Ho Hnew T. pose proof O as [O1 O2 O3]. destruct (O3 _ (elem_of_list_lookup_2 _ _ _ Hi)) as [K1 _]. pose proof T as [T0 T1 T2]. destruct (T2 _ (elem_of_list_lookup_2 _ _ _ Hi)) as [K2 _]. cbn [fst] in K1, K2.
  assert (0 <= tsum (pn f t) ths) as S1 by (apply tsum_pos; intros; apply pn_pos).
  pose proof (tsum_ge (pn f t) ths i _ (fun th _ => pn_pos f t th) Hi) as S2.
  assert (forall l, on' !! l = Some f -> on !! l = Some f \/ counts_at sh' l = ∅) as New.
  { intros l Hl. destruct (on !! l) as [g|] eqn:E; [left|right; apply Hnew; congruence]. assert (on' !! l = Some g) as E' by (by eapply lookup_weaken). congruence. }
  assert (forall l m, k_nfts sh' !! l = m -> counts_at sh' l = default ∅ m) as CA by (intros l m <-; done).
  assert (forall pc0, k_nfts sh' = k_nfts sh -> pn f t (pc0, after pc, cs) <= pn f t (pc, NoMsg, cs) -> npc_est f t (n - tsum (pn f t) ths + pn f t (pc, NoMsg, cs) - pn f t (pc0, after pc, cs)) pc0 -> nmsg_est f t n sh' (after pc) ->
    nm on' f t n sh' (<[i := (pc0, after pc, cs)]> ths)) as Q.
  { intros pc0 E Hp H1 H2. apply (nm_upd on on' f t n sh ths sh' i _ _ Hi O T); try done.
    - intros l _. unfold counts_at. by rewrite E.
    - intros l Hl. destruct (New l Hl) as [Hl'|E0]; [specialize (T1 l Hl'); unfold counts_at in *; rewrite E; lia|]. rewrite E0. change (geti ∅ t) with 0. lia. }
  inversion St; subst; cbn [npc_own] in K1; try done; try (by apply Q);
    try (apply Q; [done|unfold pn; cbn [fst]; destruct full; lia|done|done]).
  - apply Q; try done; [|by destruct full]. unfold pn; cbn [fst]. destruct full; lia.
  - apply Q; try done. unfold pn. cbn [fst]. match goal with K : range_order _ _ |- _ => rewrite (decide_ext _ _ 1 0 (and_iff_compat_l (f_name x = f) (range_elem _ _ t K))) end. done.
  - (* a new map *)
    assert (pn f t (TNftLoop d x l ks, after (TNft d x), cs) = pn f t (TNft d x, NoMsg, cs)) as Ep.
    { unfold pn. cbn [fst]. match goal with K : range_order _ _ |- _ => rewrite (decide_ext _ _ 1 0 (and_iff_compat_l (f_name x = f) (range_elem _ _ t K))) end. done. }
    assert (forall l', on !! l' = Some f -> counts_at (set_knft sh (k_nft sh) (<[l:=∅]> (k_nfts sh))) l' = counts_at sh l') as Ec.
    { intros l' Hl'. unfold counts_at. cbn. rewrite lookup_insert_ne; [done|]. intros <-. assert (is_Some (k_nfts sh !! l)) as [? ?] by (apply O2; by eexists). congruence. }
    apply (nm_upd on on' f t n sh ths _ i _ _ Hi O T); try done.
    + lia.
    + intros l' Hl'. by rewrite (Ec l' Hl').
    + intros l' Hl'. destruct (New l' Hl') as [Hl0|E0]; [rewrite (Ec l' Hl0); specialize (T1 l' Hl0); lia|]. rewrite E0. change (geti ∅ t) with 0. lia.
  - apply Q; try done. cbn [npc_est]. intros Ex Et. subst t0. destruct K1 as [K1 _]. rewrite Ex in K1. specialize (T1 l K1). unfold counts_at in T1. match goal with |- 0 <= _ <= _ + ?b - ?c => change c with b end. lia.
  - (* the increment *)
    destruct K1 as [K1 K3]. apply NoDup_cons in K3 as [K3 _]. cbn in K2.
    set (sh' := set_knft sh (k_nft sh) (<[l:=<[t0:=wrap64 (v + 1)]> (default ∅ (k_nfts sh !! l))]> (k_nfts sh))) in *.
    assert (forall l', counts_at sh' l' = if decide (l = l') then <[t0 := wrap64 (v + 1)]> (counts_at sh l) else counts_at sh l') as Ec.
    { intros l'. unfold counts_at, sh'. cbn. destruct (decide (l = l')) as [<-|Hne]; [by rewrite lookup_insert|by rewrite lookup_insert_ne]. }
    destruct (decide (f_name x = f /\ t0 = t)) as [[Ex Et]|Hne].
    + specialize (K2 Ex Et). subst t0 f. assert (wrap64 (v + 1) = v + 1) as W by (apply wrap64_id; unfold int64_range; lia).
      assert (pn (f_name x) t (TNftW d x l t ks v, NoMsg, cs) = 1) as P1. { unfold pn. cbn [fst]. rewrite decide_True; [done|]. split; [done|by left]. }
      assert (pn (f_name x) t (TNftLoop d x l ks, after (TNftW d x l t ks v), cs) = 0) as P2. { unfold pn. cbn [fst]. rewrite decide_False; [done|]. by intros [_ ?]. }
      apply (nm_upd on on' (f_name x) t n sh ths _ i _ _ Hi O T); rewrite ?P1, ?P2; try done.
      * intros l' _. rewrite Ec. destruct (decide (l = l')); [|done]. intros _. rewrite geti_insert, W. lia.
      * intros l' Hl'. rewrite Ec. destruct (decide (l = l')) as [<-|Hne]; [rewrite geti_insert, W; lia|]. destruct (New l' Hl') as [Hl0|E0]; [specialize (T1 l' Hl0); lia|]. rewrite Ec, decide_False in E0 by done. rewrite E0. change (geti ∅ t) with 0. lia.
      * cbn. intros _ _. rewrite Ec, decide_True by done. rewrite geti_insert, W. lia.
    + assert (pn f t (TNftLoop d x l ks, after (TNftW d x l t0 ks v), cs) = pn f t (TNftW d x l t0 ks v, NoMsg, cs)) as P.
      { unfold pn. cbn [fst]. apply decide_ext. rewrite elem_of_cons. split; [tauto|]. intros [E [->|?]]; [by destruct Hne|done]. }
      assert (forall l', on' !! l' = Some f -> geti (counts_at sh' l') t = geti (counts_at sh l') t) as Eg.
      { intros l' Hl'. rewrite Ec. destruct (decide (l = l')) as [<-|?]; [|done]. apply geti_insert_ne. intros ->. apply Hne. split; [|done]. assert (on' !! l = Some (f_name x)) as E by (by eapply lookup_weaken). congruence. }
      apply (nm_upd on on' f t n sh ths _ i _ _ Hi O T); rewrite ?P; try done.
      * intros l' Hl'. rewrite Eg; [done|]. by eapply lookup_weaken.
      * intros l' Hl'. rewrite (Eg l' Hl'). destruct (New l' Hl') as [Hl0|E0]; [specialize (T1 l' Hl0); lia|]. rewrite <- (Eg l' Hl'), E0. change (geti ∅ t) with 0. lia.
      * cbn. intros E1 E2. destruct Hne. by split.
  - apply Q; try done. unfold pn. cbn [fst]. rewrite decide_False; [lia|]. intros [_ ?%elem_of_nil]. done.
Qed.
Lemma own_client on sh u pc m cs ev sh' u' pc' m' ths i : ths !! i = Some (pc, m, cs) -> client_step (sh, u, (pc, m)) ev (sh', u', (pc', m')) -> nf_own on sh ths ->
  exists on', on ⊆ on' /\ nf_own on' sh' (<[i := (pc', m', cs)]> ths) /\ forall f t n, n < 2 ^ 31 -> nm on f t n sh ths -> nm on' f t n sh' (<[i := (pc', m', cs)]> ths).
Proof.
  intros Hi H O. pose proof O as [O1 O2 O3]. destruct (O3 _ (elem_of_list_lookup_2 _ _ _ Hi)) as [K1 K2]. cbn [fst snd] in K1, K2.
  assert (forall m0, nmsg_own on m0 -> (forall f t n, nm on f t n sh ths -> nmsg_est f t n sh m0) -> exists on', on ⊆ on' /\ nf_own on' sh (<[i := (pc, m0, cs)]> ths) /\ forall f t n, n < 2 ^ 31 -> nm on f t n sh ths -> nm on' f t n sh (<[i := (pc, m0, cs)]> ths)) as Q.
  { intros m0 Hm He. exists on. split; [done|]. split.
    - constructor; [done|done|]. intros th Hth. apply elem_of_insert in Hth as [->|Hth]; [done|by apply O3].
    - intros f t n Hn T. pose proof T as [T0 T1 T2]. destruct (T2 _ (elem_of_list_lookup_2 _ _ _ Hi)) as [K3 _]. apply (nm_upd on on f t n sh ths sh i _ _ Hi O T); try done.
      + intros l Hl. specialize (T1 l Hl). match goal with |- 0 <= _ <= _ + ?b - ?c => change c with b end. lia.
      + eapply npc_mono; [|exact K3]. match goal with |- _ <= _ + ?b - ?c => change c with b end. lia.
      + by apply He. }
  inversion H; subst; try (by apply Q).
  - match goal with K : t_step _ _ |- _ => rename K into St end. destruct (own_map _ _ _ _ _ _ _ _ Hi St O) as (on' & E1 & E2 & E3). exists on'. split; [done|]. split; [done|]. intros f t n Hn T. by eapply nm_map.
  - apply Q; [done|]. intros f0 t0 n T. pose proof T as [T0 T1 T2]. destruct (T2 _ (elem_of_list_lookup_2 _ _ _ Hi)) as [_ K3]. cbn in *. intros -> ->. specialize (K3 eq_refl eq_refl). specialize (T1 l K2).
    assert (0 <= tsum (pn f0 t0) ths) by (apply tsum_pos; intros; apply pn_pos). lia.
Qed.

(** * The writer and the files *)
Lemma term_app f t log ev : times_term f t log <= times_term f t (log ++ ev).
Proof. unfold times_term, count, saves_with. rewrite calls_app, List.filter_app, app_length. lia. Qed.
Lemma term_ev f t log ev : calls_of ev = [] -> times_term f t (log ++ ev) = times_term f t log.
Proof. intros E. unfold times_term. by rewrite calls_app, E, app_nil_r. Qed.

Section nft.
  Variables (compress : bytes -> bytes) (decompress : bytes -> option bytes) (cache_size : Z).
  Hypothesis gz : gzip_ok compress decompress.
  Notation step := (multi_step compress decompress cache_size).
  Notation nfile s f := (fs_files s !! [f; "nfterm"]).

  Definition table_est (f : string) (log : list event) (m : gmap string Z) : Prop := forall t v, m !! t = Some v -> times_term f t log < 2 ^ 31 -> 1 <= v <= times_term f t log.
  Definition nfile_est (s : fs) (log : list event) : Prop := forall f c, nd f -> nfile s f = Some c -> exists m, n_holds compress f c m /\ table_est f log m.
  Definition nbuf_est (w : writer (gmap string Z)) (log : list event) : Prop := forall f m, nd f -> w_buf w !! f = Some m -> table_est f log m.
  (** What a search holds: the counts it has read, the map it is about to read. *)
  Definition acc_est (f : string) (log : list event) (acc : gmap string Z) : Prop := forall t v, acc !! t = Some v -> nd f -> times_term f t log < 2 ^ 31 -> 0 <= v <= times_term f t log.
  Definition qn_ok (on : gmap nat string) (log : list event) (q : mquery) : Prop :=
    match mq_pc q with
    | MqLength | MqSize _ => True
    | MqNft _ _ ts acc => acc_est (mq_field q) log acc /\ dom acc ∪ list_to_set ts = (list_to_set (mq_terms q) : gset string)
    | MqNftTerm _ _ t l ts acc => (forall l0, l = Some l0 -> on !! l0 = Some (mq_field q)) /\ acc_est (mq_field q) log acc /\ dom acc ∪ list_to_set (t :: ts) = (list_to_set (mq_terms q) : gset string)
    | MqIds _ _ acc _ | MqFields _ _ acc _ | MqRet _ _ acc _ => acc_est (mq_field q) log acc /\ dom acc = (list_to_set (mq_terms q) : gset string)
    end.
  Lemma acc_est_app f log ev acc : acc_est f log acc -> acc_est f (log ++ ev) acc.
  Proof. intros H t v Hv Hf Hm. pose proof (term_app f t log ev). specialize (H t v Hv Hf). lia. Qed.
  Lemma qn_le on on' log ev q : on ⊆ on' -> qn_ok on log q -> qn_ok on' (log ++ ev) q.
  Proof.
    intros Ho. unfold qn_ok. destruct (mq_pc q); try done.
    - intros [H1 H2]. split; [by apply acc_est_app|done].
    - intros (H1 & H2 & H3). split; [intros l0 E; eapply lookup_weaken; [by apply H1|done]|]. split; [by apply acc_est_app|done].
    - intros [H1 H2]. split; [by apply acc_est_app|done].
    - intros [H1 H2]. split; [by apply acc_est_app|done].
    - intros [H1 H2]. split; [by apply acc_est_app|done].
  Qed.
  Lemma qn_all on on' log ev qs : on ⊆ on' -> Forall (qn_ok on log) qs -> Forall (qn_ok on' (log ++ ev)) qs.
  Proof. intros Ho H. eapply Forall_impl; [exact H|]. intros q. by apply qn_le. Qed.
  Lemma qn_search ncpu terms f sh m s q m' q' ths log on : msearch_step decompress ncpu terms f sh m s q (m', q') -> nf_own on sh ths ->
    (forall f t, nd f -> times_term f t log < 2 ^ 31 -> nm on f t (times_term f t log) sh ths) -> qn_ok on log (mkMQ ncpu terms f q) -> qn_ok on log (mkMQ ncpu terms f q').
  Proof.
    intros H O U3. inversion H; subst; unfold qn_ok; cbn [mq_pc mq_field mq_terms]; try done.
    - intros _. split; [|set_solver]. intros t v Hv. by rewrite lookup_empty in Hv.
    - intros [H1 H2]. split; [|done]. intros l0 E. by apply (no_idx _ _ _ O).
    - intros (H1 & H2 & H3). split; [|set_solver]. intros t' v Hv Hf Hm. apply lookup_insert_Some in Hv as [[<- <-]|[_ Hv]]; [|by apply H2].
      destruct (U3 f t Hf Hm) as [_ T _]. assert (0 <= tsum (pn f t) ths) by (apply tsum_pos; intros; apply pn_pos). destruct l as [l|]; [specialize (T l (H1 _ eq_refl)); lia|unfold times_term, count; lia].
    - intros [H1 H2]. split; [done|set_solver].
  Qed.
  Record n_est (u : up) (sh : shared) (ths : list thread) (qs : list mquery) (log : list event) : Prop := {
    ne_fl : w_flight compress n_ser (u_nw u);
    ne_buf : nbuf_est (u_nw u) log;
    ne_on : exists on, nf_own on sh ths /\ (forall f t, nd f -> times_term f t log < 2 ^ 31 -> nm on f t (times_term f t log) sh ths) /\ Forall (qn_ok on log) qs }.
  Definition n_inv' (a : multi) : Prop :=
    nfile_est (y_fs (mu_sys a)) (y_log (mu_sys a)) /\
    match y_proc (mu_sys a) with Up u => n_est u (mu_sh a) (mu_threads a) (mu_qs a) (y_log (mu_sys a)) | _ => True end.

  Lemma table_est_app f log ev m : table_est f log m -> table_est f (log ++ ev) m.
  Proof. intros H t v Hv Hm. pose proof (term_app f t log ev). specialize (H t v Hv). lia. Qed.
  Lemma nfile_app s log ev : nfile_est s log -> nfile_est s (log ++ ev).
  Proof. intros H f c Hf Hc. destruct (H f c Hf Hc) as (m & M1 & M2). exists m. split; [done|]. by apply table_est_app. Qed.
  Lemma nbuf_app w log ev : nbuf_est w log -> nbuf_est w (log ++ ev).
  Proof. intros H f c Hf Hc. apply table_est_app. by apply (H f). Qed.
  Lemma nfile_keeps s s' log : keeps ON s s' -> nfile_est s log -> nfile_est s' log.
  Proof. intros K H f c Hf Hc. apply (H f c Hf). rewrite <- Hc. symmetry. apply K. by apply owner_n. Qed.
  Lemma nfile_valid s log : nfile_est s log -> n_valid compress s.
  Proof. intros H f c Hf Hc. destruct (H f c Hf Hc) as (m & M & _). by exists m. Qed.
  Lemma nw_run w s w' s' log : layout s -> w_wf n_dir n_name nd w s -> nfile_est s log -> w_flight compress n_ser w -> nbuf_est w log ->
    w_step compress n_dir n_name n_ser (w, s) (w', s') -> nfile_est s' log /\ w_flight compress n_ser w' /\ nbuf_est w' log.
  Proof.
    intros Hl Hw Hf H1 H2 Hs.
    assert (forall f, nd f -> _) as HC by (intros f Hn; exact (w_cases compress n_dir n_name n_ser ON nd nd n_dir_ok n_own n_sep _ _ _ _ f Hl Hw Hs Hn)).
    change (forall f, nd f -> (nfile s' f = nfile s f /\ w_buf w' !! f = w_buf w !! f) \/
      (exists ks b pc, w_pc w = WSave f ks b pc /\ is_Some (w_buf w !! f) /\ w_buf w' !! f = w_buf w !! f /\ (nfile s' f = None \/ nfile s' f = Some (Whole b))) \/
      (exists ks b, w_pc w = WSave f ks b SSOk /\ w_pc w' = WLoop ks /\ s' = s /\ nfile s f = Some (Whole b) /\ is_Some (w_buf w !! f) /\ w_buf w' !! f = None)) in HC.
    split; [|split].
    - intros f c Hn Hc. destruct (HC f Hn) as [(E1 & _)|[(ks & b & pc & E1 & _ & _ & E2)|(ks & b & E1 & _ & -> & E2 & _)]].
      + rewrite E1 in Hc. by apply (Hf f).
      + destruct E2 as [E2|E2]; rewrite E2 in Hc; [done|]. injection Hc as <-. unfold w_flight in H1. rewrite E1 in H1. destruct H1 as (v & T & G0 & G1 & ->). exists v. split; [by exists T|]. by apply (H2 f).
      + by apply (Hf f).
    - by eapply w_flight_step.
    - intros f v Hn Hc. destruct (HC f Hn) as [(_ & E1)|[(ks & b & pc & _ & _ & E1 & _)|(ks & b & _ & _ & _ & _ & _ & E1)]]; rewrite E1 in Hc; [by apply (H2 f)..|done].
  Qed.
  Lemma bg_nft u s ev u' s' log sh ths qs : layout s -> up_wf u s -> u_pc u = CIdle -> u_pc u' = CIdle -> nfile_est s log -> n_est u sh ths qs log -> up_step compress decompress (u, s) ev (u', s') ->
    nfile_est s' log /\ n_est u' sh ths qs log.
  Proof.
    intros Bl Bp E1 E2 Hf [U1 U2 U3] HS.
    assert (keeps ON s s' -> u_nw u' = u_nw u -> nfile_est s' log /\ n_est u' sh ths qs log) as K.
    { intros K E. split; [by eapply nfile_keeps|]. constructor; rewrite ?E; done. }
    destruct (up_step_who _ _ _ _ _ _ _ Bl Bp HS) as [[-> Hq]|[Hq|[Hq|[Hq|[Hq|Hq]]]]].
    - apply K; [done|]. inversion Hq; subst; cbn [u_nw u_pc] in *; try done.
    - destruct Hq as (_ & E & K1 & _). apply K; [done|]. by rewrite E.
    - destruct Hq as (Hs & Hu & _). destruct (nw_run _ _ _ _ log Bl (wf_nw _ _ Bp) Hf U1 U2 Hs) as (R1 & R2 & R3). split; [done|]. by constructor.
    - destruct Hq as (_ & E & _ & K1 & _). apply K; [done|]. by rewrite E.
    - destruct Hq as (_ & E & _ & K1 & _). apply K; [done|]. by rewrite E.
    - destruct Hq as (_ & E & _ & K1 & _). apply K; [done|]. by rewrite E.
  Qed.
  Lemma n_ev u sh ths qs log ev : calls_of ev = [] -> n_est u sh ths qs log -> n_est u sh ths qs (log ++ ev).
  Proof.
    intros E1 [U1 U2 (on & O & U3 & U4)]. constructor; [done|by apply nbuf_app|]. exists on. split; [done|]. split; [|by eapply qn_all]. intros f t Hf. rewrite (term_ev f t log ev E1). by apply U3.
  Qed.
  Lemma client_nw sh u th ev sh' u' th' : client_step (sh, u, th) ev (sh', u', th') ->
    u_nw u' = u_nw u \/ exists pc f t n nb, th = (pc, NSend f t n) /\ u_nw u = mkW nb WIdle /\ u_nw u' = mkW (n_recv nb f t n) WIdle.
  Proof. intros H. inversion H; subst; try (by left). right. by eexists _, _, _, _, _. Qed.
  Lemma n_client u sh ths qs log i th cs ev sh' u' th' : ths !! i = Some (th, cs) -> client_step (sh, u, th) ev (sh', u', th') -> n_est u sh ths qs log ->
    n_est u' sh' (<[i := (th', cs)]> ths) qs (log ++ ev).
  Proof.
    intros Hi H [U1 U2 (on & O & U3 & U4)]. assert (calls_of ev = []) as V1 by (inversion H; subst; done).
    apply n_ev; [done|]. destruct th as [pc m], th' as [pc' m']. constructor.
    - destruct (client_nw _ _ _ _ _ _ _ H) as [->|(q & f & t & n & nb & _ & E1 & ->)]; done.
    - intros f v Hf Hv. destruct (client_nw _ _ _ _ _ _ _ H) as [E|(q & f' & t & n & nb & E0 & E1 & E)]; rewrite E in Hv; [by apply (U2 f)|]. injection E0 as -> ->. cbn in Hv.
      assert (forall m0, nb !! f = Some m0 -> table_est f log m0) as Old by (intros m0 Hm0; apply (U2 f); [done|by rewrite E1]).
      assert (f' = f -> times_term f t log < 2 ^ 31 -> 1 <= n <= times_term f t log) as New.
      { intros Ef Hm. destruct (U3 f t Hf Hm) as [_ _ T]. destruct (T _ (elem_of_list_lookup_2 _ _ _ Hi)) as (_ & T'). by apply T'. }
      unfold n_recv in Hv. destruct (decide (f' = f)) as [->|Hne].
      + destruct (nb !! f) as [m0|] eqn:E0; rewrite lookup_insert in Hv; injection Hv as <-; intros t' v' Hv' Hm.
        * apply lookup_insert_Some in Hv' as [[<- <-]|[_ Hv']]; [by apply New|by apply (Old m0)].
        * apply lookup_singleton_Some in Hv' as [<- <-]. by apply New.
      + apply Old. destruct (nb !! f'); by rewrite lookup_insert_ne in Hv.
    - destruct (own_client _ _ _ _ _ _ _ _ _ _ _ _ _ Hi H O) as (on' & Ho & O' & K). exists on'. split; [done|]. split; [|rewrite <- (app_nil_r log); by eapply qn_all]. intros f t Hf Hm. apply K; [done|]. by apply U3.
  Qed.
  Lemma n_call u sh ths qs log i c cs : ths !! i = Some (TIdle, NoMsg, c :: cs) -> n_est u sh ths qs log -> n_est u sh (<[i := (t_enter true c, NoMsg, cs)]> ths) qs (log ++ [ECall c]).
  Proof.
    intros Hi [U1 U2 (on & O & U3 & U4)]. constructor; [done|by apply nbuf_app|]. exists on. split; [|split; [|by eapply qn_all]].
    - destruct O as [O1 O2 O3]. constructor; [done|done|]. intros th Hth. apply elem_of_insert in Hth as [->|Hth]; [by destruct c|by apply O3].
    - intros f t Hf Hm. assert (times_term f t log < 2 ^ 31) as M by (pose proof (term_app f t log [ECall c]); lia). pose proof (U3 f t Hf M) as T. pose proof T as [T0 T1 T2].
      assert (pn f t (t_enter true c, NoMsg, cs) = times_term f t (log ++ [ECall c]) - times_term f t log) as N1.
      { unfold times_term, count, saves_with. rewrite calls_app, List.filter_app, app_length. change (calls_of [ECall c]) with [c].
        destruct c as [d x|d x]; unfold pn; cbn [t_enter fst List.filter is_save andb call_field]; [|cbn; lia]. unfold for_field, has_term. cbn [call_field].
        destruct (decide _) as [[E [w Ew]]|E].
        - rewrite Ew. subst f. rewrite String.eqb_refl. cbn. lia.
        - destruct (String.eqb_spec (f_name x) f) as [E1|E1]; cbn; [|lia]. destruct (f_tf x !! t) eqn:E2; [destruct E; split; [done|by eexists]|cbn; lia]. }
      assert (tsum (pn f t) (<[i := (t_enter true c, NoMsg, cs)]> ths) = tsum (pn f t) ths + pn f t (t_enter true c, NoMsg, cs)) as TS by (rewrite (tsum_insert _ _ _ _ _ Hi); change (pn f t (TIdle, NoMsg, c :: cs)) with 0; lia).
      constructor; rewrite ?TS, ?N1.
      + lia.
      + intros l Hl. specialize (T1 l Hl). lia.
      + pose proof (term_app f t log [ECall c]). intros th Hth. apply elem_of_insert in Hth as [->|Hth].
        * split; [|done]. by destruct c.
        * destruct (T2 th Hth) as (K1 & K2). split; [eapply npc_mono; [|exact K1]; lia|eapply nmsg_mono; [by apply (no_th _ _ _ O)|..|exact K2]; [lia|done]].
  Qed.
  (** What is loaded. *)
  Lemma nft_loaded s ns nft log f t : layout s -> nfile_est s log -> lists_dirs s [] ns -> load_nft decompress s ns = Some nft -> nd f -> times_term f t log < 2 ^ 31 ->
    0 <= geti (default ∅ (nft !! f)) t <= times_term f t log.
  Proof.
    intros Hl Hf H1 H2 Hn Hm. pose proof (load_nft_spec compress decompress gz s ns nft Hl (nfile_valid _ _ Hf) H1 H2 f Hn) as R. unfold n_read in R. destruct (nfile s f) as [c|] eqn:Ec.
    - destruct (Hf f c Hn Ec) as (m & M1 & M2). destruct (n_holds_load compress f c m M1) as (T & -> & ET). destruct R as (T' & E & ET'). injection E as E.
      assert (T = T') as <- by (pose proof (gz T) as X1; rewrite E, gz in X1; by injection X1). rewrite ET in ET'. injection ET' as <-. unfold geti. rewrite lookup_fmap. destruct (m !! t) as [v|] eqn:Ev; cbn; [|unfold times_term, count; lia].
      specialize (M2 t v Ev Hm). rewrite wrap32_id by (unfold int32_range; lia). lia.
    - rewrite R. unfold geti. rewrite lookup_empty. cbn. unfold times_term, count. lia.
  Qed.
  Lemma n_step a b : step a b -> good_log (mu_log b) -> m_inv decompress a -> n_inv' a -> n_inv' b.
  Proof.
    intros [H|(y' & H & ->)] Hg [Hb Hi] (Hf & Hu).
    2:{ inversion H as [s p log Hp E]; subst y'. unfold n_inv'. rewrite <- E in *. cbn in *. split; [by apply nfile_app|done]. }
    inversion H; subst; unfold n_inv', mu_log in *; cbn [mu_sys mu_sh mu_threads mu_qs y_proc y_fs y_log] in *.
    - match goal with K : live_step _ _ _ _ _, K2 : forall u, _ <> Up u |- _ => rename K into St; rename K2 into Nu end. destruct Hb as [Bl Bp].
      assert (nfile_est (y_fs y') (y_log y')) as F2; [|split; [done|]; destruct (y_proc y') as [| |u] eqn:E; [done|done|by destruct (Nu u)]].
      assert (forall s' ev, keeps ON (y_fs y) s' -> nfile_est s' (y_log y ++ ev)) as K.
      { intros s' ev K. apply nfile_app. by eapply nfile_keeps. }
      inversion St; subst; cbn [y_fs y_proc y_log] in *.
      + rewrite <- (app_nil_r log). apply K. match goal with G : mkdir_all _ _ = _ |- _ => destruct (mkdir_effect _ [] _ Bl eq_refl (Nat.le_0_l 2) G) as (_ & E & _) end. intros p _. by rewrite E.
      + destruct Bp as [_ Bp]. rewrite <- (app_nil_r log). apply K. match goal with G : g_step _ _ _ _ |- _ => destruct (g_step_base _ _ _ _ _ _ Bl Bp G) as (_ & _ & _ & E) end. intros p Hp. apply E; by rewrite Hp.
      + by apply K.
      + by destruct (Nu u').
      + by destruct (Nu u').
      + by destruct (Nu u').
    - match goal with K : live_step _ _ _ _ _ |- _ => rename K into St end. match goal with K : y_proc y' = Up _ |- _ => rename K into Eu end. match goal with K : loaded _ _ |- _ => rename K into Ld end. rewrite Eu.
      inversion St; subst; cbn [y_fs y_proc y_log] in *; try congruence. injection Eu as ->. split; [by apply nfile_app|]. destruct Hb as [Bl Bp]. cbn [y_fs] in Bl.
      match goal with G : opened _ _ _ _ _ |- _ => inversion G; subst end. destruct Ld as [Lv (ol & oa & on & _ & _ & _ & _ & L5 & L6)]. constructor; cbn [u_nw].
      + done.
      + intros f v _ Hv'. cbn in Hv'. by rewrite lookup_empty in Hv'.
      + exists on. split; [constructor; [by intros f l ?%L5|done|by intros th ?%elem_of_nil]|]. split; [|by constructor]. intros f t Hn Hm. rewrite (term_ev f t log [EOpened] eq_refl) in *.
        match goal with G1 : lists_dirs _ _ ?n1, G2 : load_nft _ _ ?n1 = _ |- _ => pose proof (nft_loaded s n1 _ log f t Bl Hf G1 G2 Hn Hm) as G0 end.
        constructor; cbn; [unfold times_term, count; lia| |by intros th ?%elem_of_nil].
        intros l Hl. apply L5 in Hl. unfold view in Lv. injection Lv as _ _ _ _ X. cbn in X. rewrite <- X, lookup_fmap, Hl in G0. cbn in G0. lia.
    - match goal with K : live_step _ _ _ _ _ |- _ => rename K into St end.
      match goal with K : y_proc y = _, K2 : y_proc y' = _, K3 : u_pc _ = CIdle |- _ => rewrite K in Hi, Hu; rewrite K2; rename K into Eu, K2 into Eu', K3 into Ep end.
      destruct Hi as (G & L & ol & oa & I). pose proof (mi_pc _ _ _ _ _ _ _ _ _ _ I) as Ip. destruct Hb as [Bl Bp]. rewrite Eu in Bp. destruct Bp as [Br Bw].
      inversion St; subst; cbn [y_fs y_proc y_log] in *; try congruence; injection Eu as ->; injection Eu' as ->.
      + match goal with K : up_step _ _ _ _ _ |- _ => rename K into US end. destruct (bg_nft _ _ _ _ _ _ _ _ _ Bl Bw Ip Ep Hf Hu US) as (F2 & F3).
        split; [by apply nfile_app|]. destruct (up_ev compress decompress _ _ _ _ _ US) as [V1 V2]. by apply n_ev.
      + match goal with K : up_tick _ _ |- _ => rename K into UT end. destruct (up_tick_wf _ _ _ _ Bw UT) as [-> _]. split; [done|]. destruct Hu as [U1 U2 U3].
        inversion UT; subst; try (by constructor). match goal with K : w_tick _ _ |- _ => inversion K; subst end. by constructor.
      + match goal with K : up_call _ _ _ |- _ => inversion K; subst; done end.
    - split; [done|]. destruct Hu as [U1 U2 (on & O & U3 & U4)]. constructor; try done. exists on. split; [|split; [|done]].
      + destruct O as [O1 O2 O3]. constructor; [done|done|]. intros th Hth. apply elem_of_app in Hth as [Hth|Hth]; [by apply O3|]. apply elem_of_list_singleton in Hth. by subst th.
      + intros f t Hf' Hm. destruct (U3 f t Hf' Hm) as [T1 T2 T3]. constructor; rewrite ?tsum_app; change (tsum (pn f t) [(TIdle, NoMsg, cs)]) with 0; rewrite ?Z.add_0_r; try done.
        intros th Hth. apply elem_of_app in Hth as [Hth|Hth]; [by apply T3|]. apply elem_of_list_singleton in Hth. by subst th.
    - split; [by apply nfile_app|]. by apply n_call.
    - split; [by apply nfile_app|]. by eapply n_client.
    - split; [done|]. destruct Hu as [U1 U2 (on & O & U3 & U4)]. constructor; [done|done|]. exists on. split; [done|]. split; [done|]. apply Forall_app. split; [done|]. by repeat constructor.
    - split; [done|]. destruct Hu as [U1 U2 (on & O & U3 & U4)]. constructor; [done|done|]. exists on. split; [done|]. split; [done|]. apply Forall_insert; [done|]. eapply qn_search; [eassumption|exact O|exact U3|]. match goal with K : qs !! i = _ |- _ => exact (Forall_lookup_1 _ _ _ _ U4 K) end.
  Qed.
  Lemma n_reach a : multi_reachable compress decompress cache_size a -> good_log (mu_log a) -> m_inv decompress a /\ n_inv' a.
  Proof.
    unfold multi_reachable. revert a. apply (rtc_ind_r (fun a => good_log (mu_log a) -> m_inv decompress a /\ n_inv' a) multi_init).
    - intros Hg. split; [apply (m_reach compress decompress cache_size gz); [apply rtc_refl|done]|]. split; [|done]. intros f c _ Hc. cbn in Hc. by rewrite lookup_empty in Hc.
    - intros a b _ Hab IH Hg. destruct (IH (m_good_mono _ _ _ _ _ Hab Hg)) as [M D]. split; [by eapply m_step|by eapply n_step].
  Qed.
End nft.
