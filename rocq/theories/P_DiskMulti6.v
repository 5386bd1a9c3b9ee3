(** Concurrent calls on the disk storage: the documents (C66). *)
From Verif Require Import Base M_Field M_LRU S_Visits M_Memory M_File M_Serialize M_Num M_FanIn M_Search M_Concurrent M_SearchConc M_Disk P_Base P_File P_LRU S_Concurrent P_Concurrent P_Concurrent2 P_DiskBase P_DiskInv P_DiskMem P_DiskWriter P_DiskDocs P_DiskBusy P_DiskBusy2 P_DiskBusy3 P_DiskBusy4 P_DiskBusy5 P_DiskBusy6 M_DiskBusy M_DiskMulti P_DiskIndex3 P_DiskIndex4 S_Disk S_DiskMulti P_DiskMulti P_DiskMulti2 P_DiskMulti3 P_DiskQuery.
#[local] Open Scope nat_scope.
#[local] Opaque serialize_metrics serialize_nft serialize_field_map serialize_index deserialize_index deserialize_nft deserialize_field_map deserialize_metrics.

Section docs.
  Variables (compress : bytes -> bytes) (decompress : bytes -> option bytes) (cache_size : Z).
  Hypothesis gz : gzip_ok compress decompress.
  Hypothesis pos : (0 < cache_size)%Z.
  Notation upok := (up_ok compress cache_size).
  Notation filesok := (files_ok compress).
  Notation step := (multi_step compress decompress cache_size).

  Definition dmsg_ok (m : cmem) (log : list event) (own : gmap nat string) (x : msg) : Prop :=
    match x with
    | DDoc d x dp => Save d x ∈ calls_of log /\ match dp with None => True | Some (DPtr e) => ptr m d e | Some (DMap l) | Some (DPut l) => own !! l = Some d end
    | DSend d x l => own !! l = Some d
    | _ => True
    end.
  (** The searches. *)
  Definition z_inv (m : cmem) (log : list event) (sh : shared) (own : gmap nat string) (ths : threads) (qs : list mquery) : Prop :=
    exists (ol : gmap nat string) (oa : gmap nat (string * string)), own_sh sh ol oa /\ (forall th, th ∈ ths -> own_pc ol oa th.1.1) /\ sets_ok m log sh oa /\ Forall (mq_ok m log sh own ol oa) qs.
  Definition d_inv (a : multi) : Prop :=
    filesok (y_fs (mu_sys a)) (y_log (mu_sys a)) /\
    match y_proc (mu_sys a) with
    | Up u => exists own, upok u (y_log (mu_sys a)) None own /\ (forall th, th ∈ mu_threads a -> dmsg_ok (u_mem u) (y_log (mu_sys a)) own th.1.2) /\
        z_inv (u_mem u) (y_log (mu_sys a)) (mu_sh a) own (mu_threads a) (mu_qs a)
    | _ => True
    end.
  Lemma dmsg_app m log ev own x : dmsg_ok m log own x -> dmsg_ok m (log ++ ev) own x.
  Proof. destruct x; cbn; try done. intros [H1 H2]. split; [|done]. rewrite calls_app. apply elem_of_app. by left. Qed.
  Lemma dmsg_next m log own m' own' x : own ⊆ own' -> ptrs_le m m' -> dmsg_ok m log own x -> dmsg_ok m' log own' x.
  Proof.
    intros H1 H2. destruct x; cbn; try done.
    - intros [H3 H4]. split; [done|]. destruct dp as [[e|l|l]|]; [by apply H2|by eapply lookup_weaken..|done].
    - intros H3. by eapply lookup_weaken.
  Qed.
  Lemma upok_log u log ev own : u_pc u = CIdle -> upok u log None own -> upok u (log ++ ev) None own.
  Proof.
    intros Ep [H1 H2 H3 H4 H5 H6 H7]. constructor; try done.
    - eapply mem_mono; [|exact H1]. intros k. apply known_mono. by intros f t d Hl.
    - by apply w_src_app.
    - intros c Hc. rewrite calls_app. apply elem_of_app. left. auto.
  Qed.
  (** Steps that do not touch the document part. *)
  Lemma upok_same u u' log own : u_pc u = CIdle -> u_pc u' = CIdle -> u_mem u' = u_mem u -> u_dw u' = u_dw u -> upok u log None own -> upok u' log None own.
  Proof.
    intros E1 E2 E3 E4 [H1 H2 H3 H4 H5 H6 H7]. constructor; rewrite ?E3, ?E4, ?E2; try done. by intros c ?%elem_of_nil.
  Qed.
  Lemma upok_idle u log dp own : upok u log dp own -> upok (with_mem u (u_mem u) CIdle) log None own.
  Proof. intros [H1 H2 H3 H4 H5 H6 H7]. constructor; try done. by intros c ?%elem_of_nil. Qed.
  Lemma upok_enter u log d x dp own : upok u log None own -> dmsg_ok (u_mem u) log own (DDoc d x dp) -> upok (with_mem u (u_mem u) (CDoc d x)) log dp own.
  Proof.
    intros [H1 H2 H3 H4 H5 H6 H7] [D1 D2]. constructor; cbn; try done.
    - intros c Hc. apply elem_of_list_singleton in Hc. by subst c.
    - destruct dp as [[e|l|l]|]; [exists d, x; done..|done].
  Qed.
  Lemma z_le m m' log ev sh own own' ths qs : c_index m' = c_index m -> ptrs_le m m' -> own ⊆ own' -> z_inv m log sh own ths qs -> z_inv m' (log ++ ev) sh own' ths qs.
  Proof.
    intros E1 E2 E3 (ol & oa & Z1 & Z2 & Z3 & Z4). exists ol, oa. split; [done|]. split; [done|]. split; [by eapply sets_le|]. eapply Forall_impl; [exact Z4|]. intros q. apply mq_le; try done. apply grown_refl.
  Qed.
  Lemma z_log m log ev sh own ths qs : z_inv m log sh own ths qs -> z_inv m (log ++ ev) sh own ths qs.
  Proof. apply z_le; try done. by intros ? ?. Qed.
  Lemma z_thread m log sh own ths qs i th pc' msg' cs : ths !! i = Some th -> (forall ol oa, own_pc ol oa th.1.1 -> own_pc ol oa pc') -> z_inv m log sh own ths qs -> z_inv m log sh own (<[i := (pc', msg', cs)]> ths) qs.
  Proof.
    intros Hi Hp (ol & oa & Z1 & Z2 & Z3 & Z4). exists ol, oa. split; [done|]. split; [|done]. intros th' Hth. apply elem_of_insert in Hth as [->|Hth]; [|by apply Z2]. cbn. apply Hp, Z2. by eapply elem_of_list_lookup_2.
  Qed.
  Lemma z_t m log sh own ths qs i pc msg' cs sh' pc' msg2 cs2 : ths !! i = Some (pc, msg', cs) -> t_step (sh, pc) (sh', pc') -> src_pc (calls_of log) pc ->
    z_inv m log sh own ths qs -> z_inv m log sh' own (<[i := (pc', msg2, cs2)]> ths) qs.
  Proof.
    intros Hi Ht [S1 S2] (ol & oa & Z1 & Z2 & Z3 & Z4). pose proof (Z2 _ (elem_of_list_lookup_2 _ _ _ Hi)) as Op. cbn in Op.
    destruct (own_m _ _ _ _ _ _ Ht Z1 Op) as (ol' & oa' & L1 & L2 & W & Op' & HN). exists ol', oa'. split; [done|]. split; [|split].
    - intros th' Hth. apply elem_of_insert in Hth as [->|Hth]; [done|]. eapply own_pc_mono; [exact L1|exact L2|by apply Z2].
    - intros a S f t d A1 A2 A3. destruct (HN a S d A1 A3) as [(S0 & B1 & B2)|(f' & t' & B1 & B2)].
      + assert (is_Some (oa !! a)) as [ft Hft]. { apply (o_dom _ _ _ Z1). by eexists. } rewrite (lookup_weaken _ _ _ _ Hft L2) in A2. injection A2 as ->. by apply (Z3 a S0).
      + rewrite B1 in A2. injection A2 as -> ->. right. pose proof (after_call pc) as A. rewrite B2 in A. destruct A as (c & C1 & C2 & C3). cbn in C2, C3. injection C2 as -> ->. exists c. split; [by apply S1|]. split; [done|]. split; [done|]. specialize (S2 c t C1 C3). by destruct c.
    - eapply Forall_impl; [exact Z4|]. intros q Hq. rewrite <- (app_nil_r log). eapply mq_le; [done|by intros ? ?|done|by eapply grown_t|done|done|exact Hq].
  Qed.
  Lemma known_posted m log f t d : posted_in m log f t d -> known m log d.
  Proof. intros [H|(c & H1 & H2 & H3 & H4)]; [left; eauto|right; eauto]. Qed.
  (** One step of a search. *)
  Lemma z_search ncpu terms f sh u s log own ol oa q m' q' : msearch_step decompress ncpu terms f sh (u_mem u) s q (m', q') -> filesok s log -> knows cache_size (u_mem u) log own -> own_sh sh ol oa -> sets_ok (u_mem u) log sh oa ->
    mq_ok (u_mem u) log sh own ol oa (mkMQ ncpu terms f q) -> exists own', mem_next cache_size log (u_mem u) own m' own' /\ mq_ok m' log sh own' ol oa (mkMQ ncpu terms f q').
  Proof.
    intros H Hf Hk W HS Q. unfold mq_ok in Q. cbn in Q.
    destruct (mqok_step _ _ _ _ _ _ _ _ _ _ log ol oa (menv (u_mem u) log own f terms) H W HS (fun id H => H) Q) as [[-> Q']|(len & size & nft & w & w' & p & p' & -> & -> & Hb & Hin & Op & QE)].
    { exists own. split; [by apply next_refl|done]. }
    assert (forall own', mem_next cache_size log (u_mem u) own m' own' ->
      env_step decompress f s (u_mem u) m' (menv (u_mem u) log own f terms) (menv m' log own' f terms) p -> mq_ok m' log sh own' ol oa (mkMQ ncpu terms f (MqFields len size nft w')) ) as HQ.
    { intros own' Hn He. pose proof Hn as (H1 & H2 & H3 & H4).
      assert (env_le (menv (u_mem u) log own f terms) (menv m' log own' f terms)) as Hle. { pose proof (menv_le (u_mem u) m' log [] own own' f terms H4 H3 H1) as Z. by rewrite app_nil_r in Z. }
      pose proof (okb_step _ _ _ _ _ _ _ _ _ Hle He Hb Op) as Op'. exact (QE _ _ Hle Op'). }
    inversion Hb; subst; cbn [okb] in Op.
    - match goal with G : lru_get _ _ = _ |- _ => destruct (next_get cache_size _ _ _ _ _ _ G Hk) as [Hn Hp] end. exists own. split; [done|]. apply HQ; [done|]. cbn. intros c1 r _ G1 _. rewrite G1 in *. match goal with G : Some _ = Some _ |- _ => injection G as <- -> end. by apply Hp.
    - match goal with G : lru_get _ _ = _ |- _ => destruct (next_get cache_size _ _ _ _ _ _ G Hk) as [Hn Hp] end. exists own. split; [done|]. apply HQ; [done|]. cbn. intros c1 r _ G1 _. rewrite G1 in *. match goal with G : Some _ = Some _ |- _ => injection G as <- -> end. done.
    - exists own. pose proof (next_refl _ _ _ _ Hk) as Hn. split; [done|]. apply HQ; [done|]. cbn. intros l0 _ [l1 Hp] Hd _. unfold lru_deref in Hd. rewrite Hp in Hd. injection Hd as <-. by apply (mo_page _ _ _ _ _ Hk e).
    - exists own. pose proof (next_refl _ _ _ _ Hk) as Hn. split; [done|]. apply HQ; [done|]. cbn. intros fd0 x Hid Ho Hh Hx _. split; [done|]. intros Hd. by apply (mo_src _ _ _ _ _ Hk l id fd0).
    - exists own. pose proof (next_refl _ _ _ _ Hk) as Hn. split; [done|]. apply HQ; [done|]. cbn. intros fd0 l0 _ _ Hl. congruence.
    - match goal with G : load_doc _ _ _ = Some (Some _) |- _ => pose proof (files_load compress decompress gz _ _ _ _ Hf G) as Hs; rename G into Gl end. match goal with G : c_heap _ !! l = None |- _ => pose proof (next_alloc cache_size _ _ _ _ id _ G Hs Hk) as Hn; rename G into Gh end.
      exists (<[l := id]> own). split; [done|]. apply HQ; [done|]. cbn. intros fd0 l0 Hid _ Hl Hh Hm. rewrite Gl in Hl. injection Hl as <-. assert (l0 = l) as ->. { injection Hm as Hm. destruct (decide (l0 = l)) as [|Hne]; [done|]. assert (<[l := fd]> (c_heap (u_mem u)) !! l = <[l0 := fd]> (c_heap (u_mem u)) !! l) as E by (by rewrite Hm). rewrite lookup_insert, lookup_insert_ne, Gh in E by done. done. }
      split; [by rewrite lookup_insert|]. intros x Hx. split; [done|]. intros Hd. by apply (Hs Hd).
    - destruct Op as (O1 & (t & Ht & O2) & _). cbn in O1. match goal with G : lru_put _ _ _ = _ |- _ => pose proof (next_put cache_size pos log _ own _ _ _ G O1 (known_posted _ _ _ _ _ O2) Hk) as Hn end. exists own. split; [done|]. by apply HQ.
    - exists own. pose proof (next_refl _ _ _ _ Hk) as Hn. split; [done|]. by apply HQ.
  Qed.
  Lemma bg_docs u s ev u' s' log own : layout s -> up_wf u s -> u_pc u = CIdle -> u_pc u' = CIdle -> upok u log None own -> filesok s log -> up_step compress decompress (u, s) ev (u', s') ->
    filesok s' log /\ upok u' log None own.
  Proof.
    intros Bl Bp E1 E2 HU Hf HS. destruct (bg_step compress decompress _ _ _ _ _ ∅ HS E1 E2) as [_ Em]. pose proof HU as [H1 H2 H3 H4 H5 H6 H7].
    assert (filesok s' log /\ (forall k l, w_buf (u_dw u') !! k = Some l -> own !! l = Some k) /\ w_src compress log (u_dw u')) as (F1 & F2 & F3).
    { destruct (up_step_who _ _ _ _ _ _ _ Bl Bp HS) as [[-> Hq]|[Hq|[Hq|[Hq|[Hq|Hq]]]]].
      - split; [done|]. inversion Hq; subst; cbn [u_dw u_pc] in *; done.
      - destruct Hq as (_ & E & _ & K & _). split; [by eapply files_keeps|]. by rewrite E.
      - destruct Hq as (_ & E & _ & K & _). split; [by eapply files_keeps|]. by rewrite E.
      - split; [by eapply files_run|]. by eapply dw_run.
      - destruct Hq as (_ & E & _ & _ & K & _). split; [by eapply files_keeps|]. by rewrite E.
      - destruct Hq as (_ & E & _ & _ & K & _). split; [by eapply files_keeps|]. by rewrite E. }
    split; [done|]. constructor; rewrite ?Em, ?E2; try done. by intros c ?%elem_of_nil.
  Qed.
  Lemma d_step a b : step a b -> good_log (mu_log b) -> m_inv decompress a -> d_inv a -> d_inv b.
  Proof.
    intros [H|(y' & H & ->)] Hg [Hb Hi] [Hf Hu].
    2:{ inversion H as [s p log Hp E]; subst y'. unfold d_inv. rewrite <- E in *. cbn in *. split; [by apply files_app|done]. }
    inversion H; subst; unfold d_inv, mu_log in *; cbn [mu_sys mu_sh mu_threads y_proc y_fs y_log] in *.
    - match goal with K : live_step _ _ _ _ _, K2 : forall u, _ <> Up u |- _ => rename K into St; rename K2 into Nu end. destruct Hb as [Bl Bp].
      assert (filesok (y_fs y') (y_log y')) as F; [|split; [done|]; destruct (y_proc y') as [| |u] eqn:E; [done|done|by destruct (Nu u)]].
      inversion St; subst; cbn [y_fs y_proc y_log] in *.
      + match goal with G : mkdir_all _ _ = _ |- _ => destruct (mkdir_effect _ [] _ Bl eq_refl (Nat.le_0_l 2) G) as (_ & E & _) end. refine (files_keeps _ _ _ _ _ Hf). intros p _. cbn. by rewrite E.
      + destruct Bp as [_ Bp]. match goal with G : g_step _ _ _ _ |- _ => destruct (g_step_base _ _ _ _ _ _ Bl Bp G) as (_ & _ & _ & E) end. refine (files_keeps _ _ _ _ _ Hf). intros p Hp. cbn. apply E; by rewrite Hp.
      + by apply files_app.
      + by destruct (Nu u').
      + by destruct (Nu u').
      + by destruct (Nu u').
    - match goal with K : live_step _ _ _ _ _ |- _ => rename K into St end. match goal with K : y_proc y' = Up _ |- _ => rename K into Eu end. rewrite Eu.
      inversion St; subst; cbn [y_fs y_proc y_log] in *; try congruence. injection Eu as ->. split; [by apply files_app|].
      exists ∅. split; [|split; [intros th Hth; by apply elem_of_nil in Hth|]; match goal with K : loaded _ _ |- _ => destruct (sets_opened _ (log ++ [EOpened]) _ K) as (ol & oa & W1 & W2) end; exists ol, oa; split; [done|]; split; [intros th Hth; by apply elem_of_nil in Hth|]; split; [done|by constructor]]. match goal with G : opened _ _ _ _ _ |- _ => inversion G; subst end. constructor; cbn; try done; [|by intros c ?%elem_of_nil].
      constructor; cbn; try done; [apply cache_new|]. intros l. rewrite !lookup_empty. split; by intros [? ?].
    - match goal with K : live_step _ _ _ _ _ |- _ => rename K into St end.
      match goal with K : y_proc y = _, K2 : y_proc y' = _, K3 : u_pc _ = CIdle |- _ => rewrite K in Hi, Hu; rewrite K2; rename K into Eu, K2 into Eu', K3 into Ep end.
      destruct Hi as (G & L & ol & oa & I). pose proof (mi_pc _ _ _ _ _ _ _ _ _ _ I) as Ip. destruct Hb as [Bl Bp]. rewrite Eu in Bp. destruct Bp as [Br Bw]. destruct Hu as (own & HU & HT & HZ).
      inversion St; subst; cbn [y_fs y_proc y_log] in *; try congruence; injection Eu as ->; injection Eu' as ->.
      + match goal with K : up_step _ _ _ _ _ |- _ => rename K into US end. destruct (bg_docs _ _ _ _ _ _ _ Bl Bw Ip Ep HU Hf US) as [F U]. destruct (bg_step compress decompress _ _ _ _ _ ∅ US Ip Ep) as [_ Em].
        split; [by apply files_app|]. exists own. split; [by apply upok_log|]. rewrite Em. split; [|by apply z_log]. intros th Hth. apply dmsg_app. by apply HT.
      + match goal with K : up_tick _ _ |- _ => rename K into UT end. destruct (up_tick_wf _ _ _ _ Bw UT) as [-> _]. destruct (bg_tick _ _ _ _ ∅ UT) as (_ & Em & _). split; [done|]. exists own. split; [|by rewrite Em].
        pose proof HU as [H1 H2 H3 H4 H5 H6 H7].
        assert ((forall k l, w_buf (u_dw u') !! k = Some l -> own !! l = Some k) /\ w_src compress log (u_dw u')) as (F2 & F3).
        { inversion UT; subst; cbn [u_dw] in *; try done. match goal with G : w_tick _ _ |- _ => inversion G; subst end. done. }
        constructor; rewrite ?Em, ?Ep; try done. by intros c ?%elem_of_nil.
      + match goal with K : up_call _ _ _ |- _ => inversion K; subst; done end.
    - split; [done|]. destruct Hu as (own & HU & HT & HZ). exists own. split; [done|]. split; [intros th Hth; apply elem_of_app in Hth as [Hth|Hth]; [by apply HT|]; apply elem_of_list_singleton in Hth; by subst th|]. destruct HZ as (ol & oa & Z1 & Z2 & Z3 & Z4). exists ol, oa. split; [done|]. split; [|done]. intros th Hth. apply elem_of_app in Hth as [Hth|Hth]; [by apply Z2|]. apply elem_of_list_singleton in Hth. by subst th.
    - destruct Hi as (G & L & ol & oa & I). pose proof (mi_pc _ _ _ _ _ _ _ _ _ _ I) as Ip.
      split; [by apply files_app|]. destruct Hu as (own & HU & HT & HZ). exists own. split; [by apply upok_log|]. split; [intros th Hth; apply elem_of_insert in Hth as [->|Hth]; [done|]; apply dmsg_app; by apply HT|]. apply z_log. eapply z_thread; [eassumption| |exact HZ]. intros ol' oa' _. by destruct c.
    - match goal with K : ths !! i = _ |- _ => rename K into Ti end. match goal with K : client_step _ _ _ |- _ => rename K into St end.
      destruct Hi as (G & L & ol & oa & I). pose proof (mi_pc _ _ _ _ _ _ _ _ _ _ I) as Ip. destruct Hu as (own & HU & HT & HZ).
      split; [by apply files_app|]. pose proof (HT _ (elem_of_list_lookup_2 _ _ _ Ti)) as T0. destruct th as [pc m], th' as [pc' m']. cbn [fst snd] in T0.
      destruct (mi_th _ _ _ _ _ _ _ _ _ _ I _ (elem_of_list_lookup_2 _ _ _ Ti)) as (_ & T2' & _). pose proof T2' as [T2 _]. cbn [fst snd] in T2, T2'.
      (* nothing happens to the documents *)
      assert (forall u0, u_mem u0 = u_mem u -> u_dw u0 = u_dw u -> u_pc u0 = CIdle -> dmsg_ok (u_mem u) (log ++ ev) own m' -> (pc' = pc /\ sh' = sh \/ t_step (sh, pc) (sh', pc')) -> exists own0, upok u0 (log ++ ev) None own0 /\ (forall th, th ∈ <[i := (pc', m', cs)]> ths -> dmsg_ok (u_mem u0) (log ++ ev) own0 th.1.2) /\ z_inv (u_mem u0) (log ++ ev) sh' own0 (<[i := (pc', m', cs)]> ths) qs) as Q.
      { intros u0 E1 E2 E3 D E4. exists own. split; [apply upok_log; [done|]; by apply (upok_same u)|]. rewrite E1. split; [intros th Hth; apply elem_of_insert in Hth as [->|Hth]; [done|]; apply dmsg_app; by apply HT|]. apply z_log.
        destruct E4 as [[-> ->]|E4]; [eapply z_thread; [exact Ti|done|exact HZ]|by eapply z_t]. }
      inversion St; subst; clear St.
      + apply Q; try done; [|by right]. pose proof (after_call pc) as A. destruct (after pc); cbn; try done. destruct A as [-> A]. split; [|done]. rewrite calls_app. apply elem_of_app. left. by apply T2.
      + apply Q; try done. by left.
      + apply Q; try done. by left.
      + apply Q; try done. by left.
      + apply Q; try done. by left.
      + apply Q; try done. by left.
      + apply Q; try done. by left.
      + match goal with K : doc_step _ _ _ |- _ => rename K into D end. rewrite app_nil_r.
        destruct (doc_step_ok compress cache_size pos (with_mem u (u_mem u) (CDoc d x)) log dp own _ _ _ (upok_enter _ _ _ _ _ _ HU T0) D) as (own' & (N1 & N2 & N3 & N4) & U').
        exists own'. split; [rewrite Ip; exact (upok_idle _ _ _ _ U')|]. cbn [with_mem u_mem] in *. split; [|rewrite <- (app_nil_r log); apply (z_le (u_mem u) _ log [] _ own); [done|done|done|]; eapply z_thread; [exact Ti|done|exact HZ]]. intros th Hth. apply elem_of_insert in Hth as [->|Hth].
        * cbn. destruct T0 as [T0 _]. split; [done|]. destruct U' as [_ _ _ _ _ _ V]. cbn in V. destruct dp' as [[e|l|l]|]; [..|done]; destruct V as (d1 & x1 & E & V); cbn in E; injection E as <- <-; done.
        * eapply dmsg_next; [exact N1|exact N3|by apply HT].
      + match goal with K : doc_step _ _ _ |- _ => rename K into D end. rewrite app_nil_r.
        destruct (doc_step_ok compress cache_size pos (with_mem u (u_mem u) (CDoc d x)) log dp own _ _ _ (upok_enter _ _ _ _ _ _ HU T0) D) as (own' & (N1 & N2 & N3 & N4) & U').
        exists own'. split; [rewrite Ip; exact (upok_idle _ _ _ _ U')|]. cbn [with_mem u_mem] in *. split; [|rewrite <- (app_nil_r log); apply (z_le (u_mem u) _ log [] _ own); [done|done|done|]; eapply z_thread; [exact Ti|done|exact HZ]]. intros th Hth. apply elem_of_insert in Hth as [->|Hth].
        * cbn. destruct U' as [_ _ _ _ _ V _]. cbn in V. by apply (V d x l).
        * eapply dmsg_next; [exact N1|exact N3|by apply HT].
      + match goal with K : u_dw u = _ |- _ => rename K into E end. rewrite app_nil_r. exists own. split; [|split; [intros th Hth; apply elem_of_insert in Hth as [->|Hth]; [done|by apply HT]|eapply z_thread; [exact Ti|done|exact HZ]]].
        pose proof HU as [H1 H2 H3 H4 H5 H6 H7]. constructor; cbn; try done.
        intros k l0 Hk. unfold d_recv in Hk. apply lookup_insert_Some in Hk as [[<- <-]|[_ Hk]]; [done|]. apply H2. by rewrite E.
    - (* a search is called *)
      split; [done|]. destruct Hu as (own & HU & HT & HZ). exists own. split; [done|]. split; [done|]. destruct HZ as (ol & oa & Z1 & Z2 & Z3 & Z4). exists ol, oa. split; [done|]. split; [done|]. split; [done|]. apply Forall_app. split; [done|]. by constructor.
    - (* a search *)
      destruct Hi as (G & L & ol0 & oa0 & I). pose proof (mi_pc _ _ _ _ _ _ _ _ _ _ I) as Ip. split; [done|]. destruct Hu as (own & HU & HT & (ol & oa & Z1 & Z2 & Z3 & Z4)).
      match goal with K : qs !! i = _ |- _ => pose proof (Forall_lookup_1 _ _ _ _ Z4 K) as Qi; cbn beta in Qi end. match goal with K : msearch_step _ _ _ _ _ _ _ _ _ |- _ => rename K into St end.
      destruct (z_search _ _ _ _ _ _ _ _ _ _ _ _ _ St Hf (uo_mem _ _ _ _ _ _ HU) Z1 Z3 Qi) as (own' & Hn & Q'). pose proof Hn as (N1 & N2 & N3 & N4).
      exists own'. split; [|split].
      + eapply up_ok_mem; [exact HU|exact Hn|apply HU|done| |done]. intros d x l E. rewrite Ip in E. discriminate E.
      + cbn [with_mem u_mem]. intros th Hth. eapply dmsg_next; [exact N1|exact N3|by apply HT].
      + cbn [with_mem u_mem]. exists ol, oa. split; [done|]. split; [done|]. split; [rewrite <- (app_nil_r log); by eapply sets_le|]. apply Forall_insert; [|exact Q'].
        eapply Forall_impl; [exact Z4|]. intros q0 Hq. rewrite <- (app_nil_r log). eapply mq_le; [exact N4|exact N3|exact N1|apply grown_refl|done|done|exact Hq].
  Qed.
  Lemma d_reach_multi a : multi_reachable compress decompress cache_size a -> good_log (mu_log a) -> d_inv a.
  Proof.
    unfold multi_reachable. intros R Hg. assert (m_inv decompress a /\ d_inv a) as [_ ?]; [|done]. revert a R Hg. apply (rtc_ind_r (fun a => good_log (mu_log a) -> m_inv decompress a /\ d_inv a) multi_init).
    - intros Hg. split; [apply (m_reach compress decompress cache_size gz); [apply rtc_refl|done]|]. split; [|done]. intros d _ [c Hc]. unfold doc_file in Hc. cbn in Hc. by rewrite lookup_empty in Hc.
    - intros a b _ Hab IH Hg. destruct (IH (m_good_mono _ _ _ _ _ Hab Hg)) as [M D]. split; [by eapply m_step|by eapply d_step].
  Qed.
End docs.
