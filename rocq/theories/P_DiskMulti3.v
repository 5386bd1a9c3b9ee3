(** Concurrent calls on the disk storage: every reachable state (C66). *)
From Verif Require Import Base M_Field M_LRU S_Visits M_Memory M_File M_Serialize M_Num M_FanIn M_Search M_Concurrent M_SearchConc M_Disk M_DiskBusy M_DiskMulti P_Base P_File S_Concurrent P_Concurrent P_Concurrent2 S_Disk P_DiskBase P_DiskInv P_DiskMem P_DiskWriter P_DiskIndex P_DiskIndex2 P_DiskIndex3 P_DiskIndex4 S_DiskMulti P_DiskMulti P_DiskMulti2.
#[local] Open Scope Z_scope.
#[local] Opaque serialize_metrics deserialize_metrics serialize_nft deserialize_nft serialize_field_map deserialize_field_map serialize_index deserialize_index.

Lemma will_enter c t : is_Some (f_tf (call_field' c) !! t) -> will_post t c (t_enter true c).
Proof. intros H. by destruct c. Qed.
Lemma enter_call c c' : pc_call (t_enter true c) = Some c' -> c' = c /\ (forall t, t ∈ todo_terms (t_enter true c) -> is_Some (f_tf (call_field' c) !! t)).
Proof. destruct c; cbn; intros [= <-]; (split; [done|]); by intros t ?%elem_of_nil. Qed.

Section inv.
  Variables (compress : bytes -> bytes) (decompress : bytes -> option bytes) (cache_size : Z).
  Hypothesis gz : gzip_ok compress decompress.
  Notation xup := (x_up decompress).
  Notation xv := (x_valid decompress).
  Notation step := (multi_step compress decompress cache_size).
  Notation minv := (m_inv decompress).
  Notation sstep := (sys_step compress decompress cache_size).

  Lemma m_log_mono a b : step a b -> exists ev, mu_log b = mu_log a ++ ev.
  Proof.
    unfold mu_log. intros [H|(y' & H & ->)]; [inversion H; subst; cbn [mu_sys y_log]|].
    - apply (log_mono compress decompress cache_size). by left.
    - apply (log_mono compress decompress cache_size). by left.
    - apply (log_mono compress decompress cache_size). by left.
    - exists []. by rewrite app_nil_r.
    - by exists [ECall c].
    - by exists ev.
    - exists []. by rewrite app_nil_r.
    - exists []. by rewrite app_nil_r.
    - apply (log_mono compress decompress cache_size). by right.
  Qed.
  Lemma m_good_mono a b : step a b -> good_log (mu_log b) -> good_log (mu_log a).
  Proof. intros H. destruct (m_log_mono _ _ H) as (ev & ->). rewrite good_app. tauto. Qed.

  Lemma mi_safe s u log sh ths G L ol oa f t d : mi decompress s u log sh ths G L ol oa -> nd f -> safe decompress s (u_mg u) f t d -> saved_posting log f t d.
  Proof.
    intros H Hf Hs. apply (mi_sound _ _ _ _ _ _ _ _ _ _ H); [done|]. apply (xu_sound _ _ _ _ (mi_x _ _ _ _ _ _ _ _ _ _ H)); [done|].
    apply (xu_cons _ _ _ _ (mi_x _ _ _ _ _ _ _ _ _ _ H)); [done|]. by right.
  Qed.
  Lemma m_opened s u log sh' : loaded (u_mem u) sh' -> xv s -> xup u s (log ++ [EOpened]) -> u_pc u = CIdle ->
    exists G L ol oa, mi decompress s u (log ++ [EOpened]) sh' [] G L ol oa.
  Proof.
    intros (V & ol & oa & on & O1 & O2 & O3 & O4 & _) Hv Hx Hp. exists (c_index (u_mem u)), (log ++ [EOpened]), ol, oa.
    assert (mm_index (view sh') = c_index (u_mem u)) as Vi by (by rewrite V).
    constructor; try done.
    - destruct u as [m pc ich mw nw dw iw mg]. cbn in Hp. subst pc. unfold ghost. cbn. by destruct m.
    - constructor; [intros f l; apply O1|done|done|]. intros l m t a Hm Ht. assert (is_Some (ol !! l)) as [f Hf] by (apply O2; by eexists).
      exists f. split; [done|]. apply O4. exists l, m. split; [by apply O1|done].
    - intros a S f t d A1 A2 A3. left. unfold sent. rewrite <- Vi. cbn [view mm_index]. apply O4 in A2 as (l & m & B1 & B2 & B3).
      rewrite lookup_fmap, B1. cbn. exists S. split; [|done]. unfold sets_at. rewrite lookup_fmap, B2. cbn. rewrite B3. cbn. by rewrite A1.
    - intros th Hth. by apply elem_of_nil in Hth.
    - exists log, []. split; [done|]. split; [apply not_elem_of_nil|]. intros c t Hc. by apply elem_of_nil in Hc.
  Qed.

  Lemma m_step a b : step a b -> good_log (mu_log b) -> minv a -> minv b.
  Proof.
    intros [H|(y' & H & ->)] Hg [Hb Hi].
    - inversion H; subst; unfold m_inv, mu_log in *; cbn [mu_sys mu_sh mu_threads y_proc y_fs y_log] in *.
      + (* closed *)
        match goal with K : live_step _ _ _ _ _, K2 : forall u, _ <> Up u |- _ => rename K into St; rename K2 into Nu end.
        assert (sstep y y') as Ss by (by left). pose proof (base_step _ _ _ _ _ Hb Ss Hg) as Hb'. split; [done|].
        assert (forall u, y_proc y <> Up u) as Nu0. { intros u E. inversion St; subst; cbn in E; try done; by destruct (Nu u'). }
        assert (x_inv decompress y) as Hx. { destruct (y_proc y) eqn:E; [done|done|]. by destruct (Nu0 u). }
        pose proof (x_step _ _ _ gz _ _ Hb Hg Hx Ss) as Hx'. destruct (y_proc y') eqn:E; [done|done|]. by destruct (Nu u).
      + (* opened *)
        match goal with K : live_step _ _ _ _ _ |- _ => rename K into St end.
        match goal with K : loaded _ _ |- _ => rename K into Ld end.
        assert (sstep y y') as Ss by (by left). pose proof (base_step _ _ _ _ _ Hb Ss Hg) as Hb'. split; [done|].
        match goal with K : y_proc y = _ |- _ => rewrite K in Hi end.
        pose proof (x_step _ _ _ gz _ _ Hb Hg Hi Ss) as (X1 & _ & X2).
        match goal with K : y_proc y' = _ |- _ => rewrite K in *; rename K into Eu end.
        inversion St; subst; cbn in *; try congruence. injection Eu as ->. apply m_opened; try done.
        match goal with K : opened _ _ _ _ _ |- _ => by inversion K end.
      + (* background *)
        match goal with K : live_step _ _ _ _ _ |- _ => rename K into St end.
        assert (sstep y y') as Ss by (by left). pose proof (base_step _ _ _ _ _ Hb Ss Hg) as Hb'. split; [done|].
        match goal with K : y_proc y = _, K2 : y_proc y' = _, K3 : u_pc _ = CIdle |- _ => rewrite K in Hi; rewrite K2; rename K into Eu, K2 into Eu', K3 into Ep end.
        destruct Hi as (G & L & ol & oa & I). pose proof (mi_pc _ _ _ _ _ _ _ _ _ _ I) as Ip. destruct Hb as [Bl Bp]. rewrite Eu in Bp. destruct Bp as [Br Bw].
        inversion St; subst; cbn in *; try congruence; injection Eu as ->; injection Eu' as ->.
        * match goal with K : up_step _ _ _ _ _ |- _ => rename K into US end. destruct (bg_step compress decompress _ _ _ _ _ G US Ip Ep) as [GS _].
          destruct (up_step_x compress decompress gz _ _ _ _ _ L Bl (ghost_wf _ _ G Bw) (mi_xv _ _ _ _ _ _ _ _ _ _ I) (mi_x _ _ _ _ _ _ _ _ _ _ I) GS) as (Y1 & Y2 & _).
          destruct (up_ev _ _ _ _ _ _ _ US) as [E1 E2]. exists G, (L ++ ev), ol, oa. apply (mi_bg decompress s u log sh ths G L ol oa s' u' (L ++ ev) ev); try done.
          intros f t d (c & Hc & Q). exists c. rewrite calls_app, E1, app_nil_r in Hc. done.
        * match goal with K : up_tick _ _ |- _ => rename K into UT end. destruct (bg_tick _ _ _ _ G UT) as (GT & _).
          destruct (up_tick_x decompress _ _ _ _ L (ghost_wf _ _ G Bw) (mi_x _ _ _ _ _ _ _ _ _ _ I) GT) as (-> & Y2 & _).
          exists G, L, ol, oa. rewrite <- (app_nil_r log). apply (mi_bg decompress s u log sh ths G L ol oa s u' L []); try done; [exact (mi_xv _ _ _ _ _ _ _ _ _ _ I)|apply not_elem_of_nil].
        * match goal with K : up_call _ _ _ |- _ => inversion K; subst; done end.
      + (* a request *)
        split; [done|]. destruct Hi as (G & L & ol & oa & [I1 I2 I3 I4 I5 I6 I7 I8]). exists G, L, ol, oa.
        assert (forall p, pend ths p -> pend (ths ++ [(TIdle, NoMsg, cs)]) p) as KP. { intros p (th & Hth & E). exists th. split; [|done]. apply elem_of_app. by left. }
        constructor; try done.
        * intros a0 S f t d A1 A2 A3. destruct (I6 a0 S f t d A1 A2 A3) as [?|?]; [by left|right; by apply KP].
        * intros th Hth. apply elem_of_app in Hth as [Hth|Hth]; [by apply I7|]. apply elem_of_list_singleton in Hth. subst th. cbn. split; [done|]. split; [|done]. split; [done|]. by intros c t [=].
        * destruct I8 as (l1 & l2 & El & Hn & HC). exists l1, l2. split; [done|]. split; [done|]. intros c t Hc Ht. destruct (HC c t Hc Ht) as [?|[?|(th & Hth & E)]]; [by left|right; left; by apply KP|].
          right. right. exists th. split; [|done]. apply elem_of_app. by left.
      + (* a call *)
        match goal with K : ths !! i = _ |- _ => rename K into Ti end.
        split; [done|]. destruct Hi as (G & L & ol & oa & [I1 I2 I3 I4 I5 I6 I7 I8]). exists G, L, ol, oa.
        assert (forall p, pend ths p -> pend (<[i := (t_enter true c, NoMsg, cs)]> ths) p) as KP. { intros p Hp. destruct (pend_insert _ _ _ _ _ (t_enter true c) NoMsg cs p Ti Hp) as [?|?]; done. }
        constructor; try done.
        * intros f t d Hf Hs. apply sp_app. auto.
        * intros a0 S f t d A1 A2 A3. destruct (I6 a0 S f t d A1 A2 A3) as [?|?]; [by left|right; by apply KP].
        * intros th Hth. apply elem_of_insert in Hth as [->|Hth].
          -- cbn [fst snd]. split; [by destruct c|]. split; [|done]. split.
             ++ intros c' Hc'. apply enter_call in Hc' as [-> _]. rewrite calls_app. apply elem_of_app. right. cbn. by left.
             ++ intros c' t Hc' Ht. apply enter_call in Hc' as [-> Hc']. specialize (Hc' t Ht). by destruct c.
          -- destruct (I7 th Hth) as (J1 & [J2 J2'] & J3). split; [done|]. split; [|by apply msg_ok_app]. split; [|done]. intros c' Hc'. rewrite calls_app. apply elem_of_app. left. auto.
        * destruct I8 as (l1 & l2 & El & Hn & HC). exists l1, (l2 ++ [ECall c]). split; [rewrite El; by rewrite <- app_assoc|]. split; [rewrite elem_of_app; intros [?|Hx]; [done|by apply elem_of_list_singleton in Hx]|].
          intros c' t Hc Ht. rewrite calls_app in Hc. apply elem_of_app in Hc as [Hc|Hc].
          -- destruct (HC c' t Hc Ht) as [?|[?|Hd]]; [by left|right; left; by apply KP|]. right. right. destruct (due_insert _ _ _ _ _ (t_enter true c) NoMsg cs t c' Ti Hd) as [?|[? _]]; done.
          -- cbn in Hc. apply elem_of_list_singleton in Hc. subst c'. right. right. eapply due_new; [exact Ti|]. by apply will_enter.
      + (* inside a call *)
        match goal with K : ths !! i = _ |- _ => rename K into Ti end. match goal with K : client_step _ _ _ |- _ => rename K into St end.
        destruct Hi as (G & L & ol & oa & I). destruct Hb as [Bl [Br Bw]]. destruct th as [pc m], th' as [pc' m']. cbn [y_fs] in Bl, Br, Bw.
        assert (good_log log) as Hg0 by (by apply good_app in Hg as [? _]).
        destruct (mi_client compress decompress gz _ _ _ _ _ _ _ _ _ _ _ _ _ _ _ _ _ _ Bl Br Bw Hg0 I Ti St) as (Y1 & Y2 & Y3). split; [by split|done].
      + (* a search is called *) done.
      + (* a search *)
        match goal with K : msearch_step _ _ _ _ _ _ _ _ _ |- _ => apply search_mem in K; rename K into Sm end.
        destruct Hb as [B1 [B2 [W1 W2 W3 W4 W5 W6 W7]]]. split; [split; [done|]; split; [done|]; by constructor|].
        destruct Hi as (G & L & ol & oa & I). exists G, L, ol, oa. by apply mi_mem.
    - inversion H as [s p log Hp Ea]; subst. unfold m_inv, mu_log in *. rewrite <- Ea in *. cbn [mu_sys mu_sh mu_threads y_proc y_fs y_log] in *.
      split; [by destruct Hb|]. unfold x_inv, y_safe. cbn [y_fs y_proc y_log]. destruct p as [|g|u]; [done| |].
      + destruct Hi as (X1 & X2 & _). split; [done|]. split; [|done]. intros f t d Hf Hd. apply sp_app, X2; [done|]. by left.
      + destruct Hi as (G & L & ol & oa & I). split; [by apply (mi_xv _ _ _ _ _ _ _ _ _ _ I)|]. split; [|done]. intros f t d Hf Hd. apply sp_app. eapply mi_safe; [exact I|done|]. by left.
  Qed.

  Lemma m_reach a : multi_reachable compress decompress cache_size a -> good_log (mu_log a) -> minv a.
  Proof.
    unfold multi_reachable. revert a. apply (rtc_ind_r (fun a => good_log (mu_log a) -> minv a) multi_init).
    - intros _. split; [exact base_init|]. cbn. assert (reachable compress decompress cache_size sys_init) as R by apply rtc_refl.
      destruct (x_reach _ _ cache_size gz sys_init R) as [_ X]; [|exact X]. intros c Hc. by apply elem_of_nil in Hc.
    - intros a b _ Hab IH Hg. eapply m_step; [exact Hab|done|]. apply IH. by eapply m_good_mono.
  Qed.
  Lemma m_up a u : multi_reachable compress decompress cache_size a -> good_log (mu_log a) -> mu_open a u ->
    layout (y_fs (mu_sys a)) /\ up_wf u (y_fs (mu_sys a)) /\ exists G L ol oa, mi decompress (y_fs (mu_sys a)) u (mu_log a) (mu_sh a) (mu_threads a) G L ol oa.
  Proof.
    intros R Hg Hu. destruct (m_reach a R Hg) as [[Bl Bp] Hi]. unfold mu_open in Hu. rewrite Hu in *. split; [done|]. split; [by destruct Bp|done].
  Qed.
End inv.
