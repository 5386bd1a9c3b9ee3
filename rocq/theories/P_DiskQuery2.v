(** Searches that run on the disk storage while several goroutines save (C68): what they
    find was saved, no panic, and they can always finish. *)
From Verif Require Import Base M_Field M_LRU S_Visits M_Memory M_File M_Serialize M_Num M_FanIn M_Search M_Concurrent M_SearchConc M_Disk P_Base P_File P_LRU P_FanIn2 P_SearchConc P_SearchConc3 S_Concurrent P_Concurrent P_Concurrent2 P_DiskBase P_DiskInv P_DiskMem P_DiskWriter P_DiskDocs P_DiskBusy P_DiskBusy2 P_DiskBusy3 P_DiskBusy4 P_DiskBusy5 P_DiskBusy6 P_DiskBusy7 P_DiskBusy8 P_DiskBusy9 P_DiskBusy10 P_DiskBusy11 P_DiskBusy12 M_DiskBusy M_DiskMulti P_DiskIndex3 P_DiskIndex4 S_Disk S_DiskMulti S_DiskQuery P_DiskMulti P_DiskMulti2 P_DiskMulti3 P_DiskQuery P_DiskMulti6.
#[local] Open Scope nat_scope.
#[local] Opaque serialize_metrics serialize_nft serialize_field_map serialize_index deserialize_index deserialize_nft deserialize_field_map deserialize_metrics.

Section query.
  Variables (compress : bytes -> bytes) (decompress : bytes -> option bytes) (cache_size : Z).
  Hypothesis gz : gzip_ok compress decompress.
  Hypothesis pos : (0 < cache_size)%Z.
  Notation step := (multi_step compress decompress cache_size).
  Notation live := (multi_live compress decompress cache_size).
  Notation reach := (multi_reachable compress decompress cache_size).

  (** What the index held when the store was opened was saved; searches exist only while the
      store is open and each has a processor. *)
  Definition s_inv (a : multi) : Prop :=
    Forall (fun q => 0 < mq_cpus q) (mu_qs a) /\
    match y_proc (mu_sys a) with
    | Up u => forall f t d, nd f -> listed (u_mem u) f t d -> saved_posting (mu_log a) f t d
    | _ => mu_qs a = []
    end.
  Lemma client_index sh u th ev sh' u' th' : client_step (sh, u, th) ev (sh', u', th') -> c_index (u_mem u') = c_index (u_mem u).
  Proof.
    intros H. inversion H; subst; try done; cbn [with_mem u_mem]; match goal with K : doc_step _ _ _ |- _ => inversion K; subst end; try done.
  Qed.
  Lemma s_step a b : step a b -> good_log (mu_log b) -> m_inv decompress a -> s_inv a -> s_inv b.
  Proof.
    intros [H|(y' & H & ->)] Hg [Hb Hi] [Hc Hs]; [|split; [constructor|]; inversion H; done].
    assert (forall (m m' : cmem) log ev, c_index m' = c_index m -> (forall f t d, nd f -> listed m f t d -> saved_posting log f t d) -> forall f t d, nd f -> listed m' f t d -> saved_posting (log ++ ev) f t d) as Q.
    { intros m m' log ev E K f t d Hf Hl. apply sp_app, K; [done|]. unfold listed, listed_set in *. by rewrite E in Hl. }
    inversion H; subst; unfold s_inv, mu_log in *; cbn [mu_sys mu_sh mu_threads mu_qs y_proc y_fs y_log] in *.
    - split; [done|]. match goal with K : live_step _ _ _ _ _, K2 : forall u, _ <> Up u |- _ => rename K into St; rename K2 into Nu end.
      assert (qs = []) as ->. { destruct (y_proc y) as [| |u] eqn:E; [done|done|]. exfalso. inversion St; subst; cbn in *; try done; by eapply Nu. }
      destruct (y_proc y') as [| |u] eqn:E; [done|done|by destruct (Nu u)].
    - split; [constructor|]. match goal with K : y_proc y' = _ |- _ => rename K into Eu end. rewrite Eu. match goal with K : live_step _ _ _ _ _ |- _ => rename K into St end.
      assert (sys_step compress decompress cache_size y y') as Ss by (by left). match goal with K : y_proc y = _ |- _ => rewrite K in Hi end. pose proof (x_step _ _ _ gz _ _ Hb Hg Hi Ss) as (_ & _ & X). rewrite Eu in X.
      intros f t d Hf Hl. apply (xu_sound _ _ _ _ X); [done|]. by apply listed_has.
    - split; [done|]. match goal with K : live_step _ _ _ _ _ |- _ => rename K into St end. match goal with K : y_proc y = _, K2 : y_proc y' = _, K3 : u_pc _ = CIdle |- _ => rewrite K in Hi, Hs; rewrite K2; rename K into Eu, K2 into Eu', K3 into Ep end.
      destruct Hi as (G & L & ol & oa & I). pose proof (mi_pc _ _ _ _ _ _ _ _ _ _ I) as Ip.
      inversion St; subst; cbn [y_fs y_proc y_log] in *; try congruence; injection Eu as ->; injection Eu' as ->.
      + match goal with K : up_step _ _ _ _ _ |- _ => destruct (bg_step compress decompress _ _ _ _ _ ∅ K Ip Ep) as [_ Em] end. apply (Q (u_mem u)); [by rewrite Em|done].
      + match goal with K : up_tick _ _ |- _ => destruct (bg_tick _ _ _ _ ∅ K) as (_ & Em & _) end. by rewrite Em.
      + match goal with K : up_call _ _ _ |- _ => inversion K; subst; done end.
    - done.
    - split; [done|]. by apply (Q (u_mem u)).
    - split; [done|]. apply (Q (u_mem u)); [by eapply client_index|done].
    - split; [|done]. apply Forall_app. split; [done|]. by repeat constructor.
    - match goal with K : qs !! i = _ |- _ => rename K into Qi end. split; [apply Forall_insert; [done|]; exact (Forall_lookup_1 _ _ _ _ Hc Qi)|]. cbn [with_mem u_mem]. rewrite <- (app_nil_r log). apply (Q (u_mem u)); [|done].
      match goal with K : msearch_step _ _ _ _ _ _ _ _ _ |- _ => apply search_mem in K; rename K into Sm end. by rewrite Sm.
  Qed.
  Lemma s_reach a : reach a -> good_log (mu_log a) -> s_inv a.
  Proof.
    unfold multi_reachable. intros R. revert a R. apply (rtc_ind_r (fun a => good_log (mu_log a) -> s_inv a)).
    - intros _. split; [constructor|done].
    - intros a b R Hab IH Hg. pose proof (m_good_mono _ _ _ _ _ Hab Hg) as Ga. eapply s_step; [exact Hab|done| |by apply IH]. by apply (m_reach compress decompress cache_size gz).
  Qed.
  Lemma fnd_saved a u f terms d : reach a -> good_log (mu_log a) -> mu_open a u -> f <> "docs" -> fnd (u_mem u) (mu_log a) f terms d -> exists t, t ∈ terms /\ saved_posting (mu_log a) f t d.
  Proof.
    intros R Hg Hu Hf (t & Ht & [Hl|Hl]); exists t; (split; [done|]); [|done]. destruct (s_reach _ R Hg) as [_ S]. unfold mu_open in Hu. rewrite Hu in S. by apply S.
  Qed.
  (** A search exists: the store is open, and what it holds is right. *)
  Lemma query_ok a i q : reach a -> good_log (mu_log a) -> mu_qs a !! i = Some q ->
    0 < mq_cpus q /\ exists u own ol oa, mu_open a u /\ files_ok compress (y_fs (mu_sys a)) (mu_log a) /\ knows cache_size (u_mem u) (mu_log a) own /\ mq_ok (u_mem u) (mu_log a) (mu_sh a) own ol oa q.
  Proof.
    intros R Hg Hi. destruct (s_reach _ R Hg) as [Hc Hs]. split; [exact (Forall_lookup_1 _ _ _ _ Hc Hi)|]. destruct (d_reach_multi compress decompress cache_size gz pos a R Hg) as [Hf Hu].
    unfold mu_open. destruct (y_proc (mu_sys a)) as [| |u] eqn:E; [by rewrite Hs in Hi|by rewrite Hs in Hi|].
    destruct Hu as (own & HU & _ & (ol & oa & _ & _ & _ & Z)). exists u, own, ol, oa. split; [done|]. split; [done|]. split; [apply HU|]. exact (Forall_lookup_1 _ _ _ _ Z Hi).
  Qed.
  Lemma mbatch_can f terms s log own m p : files_ok compress s log -> knows cache_size m log own -> (forall id, fnd m log f terms id -> plain_doc id) -> okb (menv m log own f terms) p ->
    (exists m' p', bbatch_step decompress f s (m, p) (m', p')) \/ (exists x p', bbatch_send p x p') \/ bbatch_stop p.
  Proof.
    intros Hf Hk Hp Op. pose proof Hk as [K1 K2 K3 K4]. destruct p as [[|id ids] acc|id e ids acc|id l ids acc|id ids acc|id l ids acc|[|kx kxs]]; cbn in Op.
    - left. do 2 eexists. by apply bb_range.
    - left. destruct (cache_get_some _ _ _ id K1) as (c' & [e|] & E); do 2 eexists; [by eapply bb_hit|by eapply bb_miss].
    - left. destruct Op as ([l Hl] & _). do 2 eexists. apply bb_deref. unfold lru_deref. by rewrite Hl.
    - left. destruct Op as (Ho & _). destruct (proj2 (K2 l)) as [fd Hfd]; [by eexists|]. do 2 eexists. by eapply bb_read.
    - left. destruct Op as (_ & Hid & _). destruct (load_some compress decompress gz s log id Hf (Hp id Hid)) as [[fd|] E]; [|do 2 eexists; by apply bb_nofile]. do 2 eexists. eapply (bb_load _ _ _ _ _ _ _ _ (fresh (dom (c_heap m)))); [done|]. apply not_elem_of_dom, is_fresh.
    - left. destruct (cache_put_some _ _ _ id l pos K1) as [c' E]. do 2 eexists. by eapply bb_put.
    - by do 2 right.
    - right. left. do 2 eexists. constructor.
  Qed.
  Lemma mbatch_not_fatal f terms s log own m p : files_ok compress s log -> knows cache_size m log own -> (forall id, fnd m log f terms id -> plain_doc id) -> okb (menv m log own f terms) p -> ~ bbatch_fatal decompress s m p.
  Proof.
    intros Hf Hk Hp Op Hx. pose proof Hk as [K1 K2 K3 K4]. inversion Hx; subst; cbn in Op.
    - destruct (cache_get_some _ _ _ id K1) as (c' & r & E). congruence.
    - destruct Op as (_ & Hid & _). destruct (load_some compress decompress gz s log id Hf (Hp id Hid)) as [? E]. congruence.
    - destruct (cache_put_some _ _ _ id l pos K1) as [c' E]. congruence.
  Qed.

  (** Only the search number [i] runs. *)
  Definition mown (i : nat) (a b : multi) : Prop :=
    exists s u log sh ths qs ncpu terms f q m q', a = mkMulti (mkSys s (Up u) log) sh ths qs /\ qs !! i = Some (mkMQ ncpu terms f q) /\ msearch_step decompress ncpu terms f sh (u_mem u) s q (m, q') /\
      b = mkMulti (mkSys s (Up (with_mem u m (u_pc u))) log) sh ths (<[i := mkMQ ncpu terms f q']> qs).
  Lemma mown_live i a b : mown i a b -> live a b.
  Proof. intros (s & u & log & sh & ths & qs & ncpu & terms & f & q & m & q' & -> & Hi & HS & ->). by econstructor. Qed.
  Section one.
    Variables (i ncpu : nat) (terms : list string) (f : string).
    Definition mready (sh : shared) (b : multi) (q : msearch) : Prop :=
      reach b /\ good_log (mu_log b) /\ mu_sh b = sh /\ mu_qs b !! i = Some (mkMQ ncpu terms f q) /\ exists u, mu_open b u /\ forall id, fnd (u_mem u) (mu_log b) f terms id -> plain_doc id.
    Lemma mready_step sh s u log sh0 ths qs q m q' : mready sh (mkMulti (mkSys s (Up u) log) sh0 ths qs) q -> msearch_step decompress ncpu terms f sh (u_mem u) s q (m, q') ->
      exists b, mown i (mkMulti (mkSys s (Up u) log) sh0 ths qs) b /\ mready sh b q'.
    Proof.
      intros (R & Hg & Es & Hi & u0 & Hu & Hp) HS. unfold mu_open in Hu. cbn in Hu, Hi, Hg, Es. injection Hu as <-. subst sh0. set (a := mkMulti (mkSys s (Up u) log) sh ths qs) in *.
      set (b := mkMulti (mkSys s (Up (with_mem u m (u_pc u))) log) sh ths (<[i := mkMQ ncpu terms f q']> qs)). assert (mown i a b) as Ho by (exists s, u, log, sh, ths, qs, ncpu, terms, f, q, m, q'; done).
      exists b. split; [done|]. pose proof (mown_live _ _ _ Ho) as HL. split; [unfold multi_reachable in *; eapply rtc_r; [exact R|by left]|]. split; [done|]. split; [done|]. split; [cbn; by rewrite list_lookup_insert by (by eapply lookup_lt_Some)|].
      eexists. split; [done|]. cbn. intros id Hid. apply Hp. apply search_mem in HS. assert (c_index m = c_index (u_mem u)) as E by (by rewrite HS).
      pose proof (fnd_le m (u_mem u) log [] f terms id (eq_sym E)) as Z. rewrite app_nil_r in Z. by apply Z.
    Qed.
    Lemma mready_shape sh b q : mready sh b q -> exists s u log ths qs, b = mkMulti (mkSys s (Up u) log) sh ths qs.
    Proof. intros (_ & _ & <- & _ & u & Hu & _). destruct b as [[s p log] sh ths qs]. unfold mu_open in Hu. cbn in Hu. subst p. cbn. eauto 10. Qed.
    Lemma mready_ok sh b q : mready sh b q -> 0 < ncpu /\ exists u own ol oa, mu_open b u /\ files_ok compress (y_fs (mu_sys b)) (mu_log b) /\ knows cache_size (u_mem u) (mu_log b) own /\ mq_ok (u_mem u) (mu_log b) sh own ol oa (mkMQ ncpu terms f q) /\
      forall id, fnd (u_mem u) (mu_log b) f terms id -> plain_doc id.
    Proof.
      intros (R & Hg & Es & Hi & u & Hu & Hp). destruct (query_ok _ _ _ R Hg Hi) as (Hc & u0 & own & ol & oa & Hu0 & H1 & H2 & H3). unfold mu_open in *. rewrite Hu in Hu0. injection Hu0 as <-. rewrite Es in H3.
      split; [done|]. by exists u, own, ol, oa.
    Qed.
    Lemma mfinish_fields sh b len n nft w : mready sh b (MqFields len n nft w) -> exists b' len' n' nft' docs, rtc (mown i) b b' /\ mready sh b' (MqRet len' n' nft' docs).
    Proof.
      intros Hr. set (inv := fun bw : multi * fan2 bbatch (gmap string field) => mready sh bw.1 (MqFields len n nft bw.2)).
      destruct (wf_reaches (fun x y : multi * fan2 bbatch (gmap string field) => mown i x.1 y.1) inv (fun x => fan2_done x.2) (fun x => measure2 pmb x.2)) with (s := (b, w)) as ([b1 w1] & R1 & I1 & D1); [|exact Hr|].
      - intros [a w0] I0. unfold inv in I0. cbn in I0 |- *. destruct (done_dec w0) as [?|Hd]; [by left|right]. destruct (mready_ok _ _ _ I0) as (Hc & u0 & own & ol & oa & Hu & Hf & Hk & Q & Hp). destruct (mready_shape _ _ _ I0) as (s & u & log & ths & qs & ->).
        unfold mu_open in Hu. cbn in Hu, Hf, Hk, Hp. injection Hu as <-. destruct Q as [[tasks HI] HA]. cbn in HA.
        destruct (fan2_progress (fun p p' => exists m', bbatch_step decompress f s (u_mem u, p) (m', p')) bbatch_send bbatch_stop (length terms) (ncpu * 2) w0) as (w1 & Hw); [lia| |by eapply inv2_base|done|].
        { destruct HA as [HA _]. eapply all_run_impl; [|exact HA]. intros p Op. destruct (mbatch_can _ _ _ _ _ _ _ Hf Hk Hp Op) as [(m' & p' & ?)|?]; [left; eauto|by right]. }
        pose proof (measure2_step _ _ _ _ _ _ _ _ (pmb_dec decompress f s (u_mem u)) (inv2_base _ _ _ _ _ HI) Hw) as Hme.
        assert (exists m', msearch_step decompress ncpu terms f sh (u_mem u) s (MqFields len n nft w0) (m', MqFields len n nft w1)) as [m' HS].
        { clear - Hw. inversion Hw; subst; try (exists (u_mem u); apply ms_fields; by econstructor). match goal with G : exists _, _ |- _ => destruct G as [m' G]; exists m'; eapply ms_inner; [exact G|constructor] end. }
        destruct (mready_step _ _ _ _ _ _ _ _ _ _ I0 HS) as (b1 & R1 & R2). exists (b1, w1). cbn. split; [exact R1|]. split; [exact R2|done].
      - unfold inv in I1. cbn in I1, D1. destruct (mready_shape _ _ _ I1) as (s & u & log & ths & qs & ->). pose proof (ms_return decompress ncpu terms f sh (u_mem u) s len n nft w1 D1) as HS. destruct (mready_step _ _ _ _ _ _ _ _ _ _ I1 HS) as (b2 & R2 & R3).
        do 5 eexists. split; [|exact R3]. eapply rtc_r; [|exact R2]. assert (forall x y, rtc (fun x y : multi * fan2 bbatch (gmap string field) => mown i x.1 y.1) x y -> rtc (mown i) x.1 y.1) as G. { intros x y H. induction H; [apply rtc_refl|by eapply rtc_l]. } apply (G _ _ R1).
    Qed.
    Lemma mfinish_ids sh b len n nft w : mready sh b (MqIds len n nft w) -> exists b' len' n' nft' docs, rtc (mown i) b b' /\ mready sh b' (MqRet len' n' nft' docs).
    Proof.
      intros Hr. set (inv := fun bw : multi * fan2 rd1 string => mready sh bw.1 (MqIds len n nft bw.2)).
      destruct (wf_reaches (fun x y : multi * fan2 rd1 string => mown i x.1 y.1) inv (fun x => fan2_done x.2) (fun x => measure2 (pm1 f sh) x.2)) with (s := (b, w)) as ([b1 w1] & R1 & I1 & D1); [|exact Hr|].
      - intros [a w0] I0. unfold inv in I0. cbn in I0 |- *. destruct (done_dec w0) as [?|Hd]; [by left|right]. destruct (mready_ok _ _ _ I0) as (Hc & u0 & own & ol & oa & Hu & Hf & Hk & Q & Hp). destruct (mready_shape _ _ _ I0) as (s & u & log & ths & qs & ->).
        unfold mu_open in Hu. cbn in Hu. injection Hu as <-. destruct Q as [HI [HA _]]. cbn in HI, HA.
        destruct (fan2_progress (rd1_step f sh) rd1_send rd1_stop (length terms) (ncpu * 2) w0) as (w1 & Hw); [lia| |by eapply inv2_base|done|].
        { eapply all_run_impl; [|exact HA]. intros p Op. apply (can1 ncpu); [done|]. destruct p; cbn in *; tauto. }
        pose proof (measure2_step _ _ _ _ _ _ _ _ (pm1_dec ncpu f Hc sh) (inv2_base _ _ _ _ _ HI) Hw) as Hme.
        pose proof (ms_ids decompress ncpu terms f sh (u_mem u) s len n nft w0 w1 Hw) as HS. destruct (mready_step _ _ _ _ _ _ _ _ _ _ I0 HS) as (b1 & R1 & R2). exists (b1, w1). cbn. split; [exact R1|]. split; [exact R2|done].
      - unfold inv in I1. cbn in I1, D1. destruct (mready_shape _ _ _ I1) as (s & u & log & ths & qs & ->). pose proof (ms_batches decompress ncpu terms f sh (u_mem u) s len n nft w1 D1) as HS. destruct (mready_step _ _ _ _ _ _ _ _ _ _ I1 HS) as (b2 & R2 & R3).
        destruct (mfinish_fields _ _ _ _ _ _ R3) as (b3 & len' & n' & nft' & docs & R4 & R5). exists b3, len', n', nft', docs. split; [|done].
        assert (forall x y, rtc (fun x y : multi * fan2 rd1 string => mown i x.1 y.1) x y -> rtc (mown i) x.1 y.1) as G. { intros x y H. induction H; [apply rtc_refl|by eapply rtc_l]. } etransitivity; [apply (G _ _ R1)|]. by eapply rtc_l.
    Qed.
    Lemma mfinish_nft sh ts : forall b len n acc, mready sh b (MqNft len n ts acc) -> exists b' len' n' nft' docs, rtc (mown i) b b' /\ mready sh b' (MqRet len' n' nft' docs).
    Proof.
      induction ts as [|t ts IH]; intros b len n acc Hr; destruct (mready_shape _ _ _ Hr) as (s & u & log & ths & qs & ->).
      - pose proof (ms_start decompress ncpu terms f sh (u_mem u) s len n acc) as HS. destruct (mready_step _ _ _ _ _ _ _ _ _ _ Hr HS) as (b1 & R1 & R2). destruct (mfinish_ids _ _ _ _ _ _ R2) as (b2 & l2 & n2 & nf2 & r & R4 & R5). exists b2, l2, n2, nf2, r. split; [by eapply rtc_l|done].
      - pose proof (ms_nft decompress ncpu terms f sh (u_mem u) s len n t ts acc) as HS. destruct (mready_step _ _ _ _ _ _ _ _ _ _ Hr HS) as (b1 & R1 & R2). destruct (mready_shape _ _ _ R2) as (s1 & u1 & log1 & ths1 & qs1 & ->).
        destruct (mready_step _ _ _ _ _ _ _ _ _ _ R2 (ms_nft_term decompress ncpu terms f sh (u_mem u1) s1 len n t (k_nft sh !! f) ts acc)) as (b3 & R3 & R4). destruct (IH _ _ _ _ R4) as (b2 & l2 & n2 & nf2 & r & R5 & R6). exists b2, l2, n2, nf2, r. split; [|done]. eapply rtc_l; [exact R1|]. by eapply rtc_l.
    Qed.
    Lemma mfinish_any sh b q : mready sh b q -> exists b' len' n' nft' docs, rtc (mown i) b b' /\ mready sh b' (MqRet len' n' nft' docs).
    Proof.
      assert (forall b len, mready sh b (MqSize len) -> exists b' len' n' nft' docs, rtc (mown i) b b' /\ mready sh b' (MqRet len' n' nft' docs)) as HSize.
      { intros b0 len Hr. destruct (mready_shape _ _ _ Hr) as (s & u & log & ths & qs & ->). destruct (mready_step _ _ _ _ _ _ _ _ _ _ Hr (ms_size decompress ncpu terms f sh (u_mem u) s len)) as (b1 & R1 & R2).
        destruct (mfinish_nft _ _ _ _ _ _ R2) as (b2 & l2 & n2 & nf2 & r & R5 & R6). exists b2, l2, n2, nf2, r. split; [|done]. by eapply rtc_l. }
      intros Hr. destruct (mready_shape _ _ _ Hr) as (s & u & log & ths & qs & ->). destruct q as [|len|len n ts acc|len n t l ts acc|len n nft w|len n nft w|len n nft docs].
      - destruct (mready_step _ _ _ _ _ _ _ _ _ _ Hr (ms_length decompress ncpu terms f sh (u_mem u) s)) as (b1 & R1 & R2). destruct (HSize _ _ R2) as (b2 & l2 & n2 & nf2 & r & R5 & R6). exists b2, l2, n2, nf2, r. split; [|done]. by eapply rtc_l.
      - by eapply HSize.
      - by eapply mfinish_nft.
      - destruct (mready_step _ _ _ _ _ _ _ _ _ _ Hr (ms_nft_term decompress ncpu terms f sh (u_mem u) s len n t l ts acc)) as (b1 & R1 & R2). destruct (mfinish_nft _ _ _ _ _ _ R2) as (b2 & l2 & n2 & nf2 & r & R5 & R6). exists b2, l2, n2, nf2, r. split; [|done]. by eapply rtc_l.
      - by eapply mfinish_ids.
      - by eapply mfinish_fields.
      - do 5 eexists. split; [apply rtc_refl|exact Hr].
    Qed.
  End one.
End query.
