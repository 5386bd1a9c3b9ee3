(** Concurrent calls on the disk storage: no deadlock, and every request is served (C66). *)
From Coq Require Import Wellfounded.Inverse_Image Wellfounded.Inclusion Wellfounded.Lexicographic_Product Arith.Wf_nat.
From Verif Require Import Base M_Field M_LRU S_LRU S_Visits M_Memory M_File M_Serialize M_Num M_FanIn M_Search M_Concurrent M_SearchConc M_Disk P_Base P_File P_LRU S_Concurrent P_Concurrent P_Concurrent2 P_DiskBase P_DiskInv P_DiskMem P_DiskWriter P_DiskTerm P_DiskDocs P_DiskDocs2 P_DiskDocs3 X_DiskExec S_DiskFair P_DiskFair P_DiskFair2 P_DiskBusy P_DiskBusy2 P_DiskBusy3 P_DiskBusy4 P_DiskBusy5 P_DiskBusy6 M_DiskBusy M_DiskMulti P_DiskIndex3 P_DiskIndex4 S_Disk S_DiskMulti P_DiskMulti P_DiskMulti2 P_DiskMulti3 P_DiskMulti6.
#[local] Open Scope nat_scope.
#[local] Opaque serialize_metrics serialize_nft serialize_field_map serialize_index deserialize_index deserialize_nft deserialize_field_map deserialize_metrics.

(** * A measure *)
Definition base_rank (full : bool) (x : field) : nat := if full then 8 + 4 * n_terms x else 1.
Definition t_rank (pc : tpc) : nat :=
  match pc with
  | TIdle => 0
  | TNftLoop _ _ _ ks => 6 + 4 * length ks
  | TNftW _ _ _ _ ks _ => 9 + 4 * length ks
  | M_Concurrent.TNft _ x => 7 + 4 * n_terms x
  | TLoop full _ x _ ks => base_rank full x + 3 * length ks
  | TSet full _ x _ _ ks _ => base_rank full x + 2 + 3 * length ks
  | TIdxNew full _ x => base_rank full x + 1 + 3 * n_terms x
  | TIdx full _ x => base_rank full x + 2 + 3 * n_terms x
  | TLenW full _ x _ => base_rank full x + 6 + 3 * n_terms x
  | TLen full _ x => base_rank full x + 7 + 3 * n_terms x
  | TSizeW full _ x _ => base_rank full x + 8 + 3 * n_terms x
  | TSize full _ x => base_rank full x + 9 + 3 * n_terms x
  | TDocW _ x _ => base_rank true x + 10 + 3 * n_terms x
  | TDoc _ x => base_rank true x + 11 + 3 * n_terms x
  end.
Definition m_rank (m : msg) : nat :=
  match m with
  | NoMsg => 0
  | FSend _ _ _ | ISend _ | NSend _ _ _ | DSend _ _ _ => 1
  | FSize _ _ | NCount _ _ _ | DDoc _ _ (Some (DPut _)) => 2
  | FLen _ | DDoc _ _ (Some (DMap _)) => 3
  | DDoc _ _ (Some (DPtr _)) => 4
  | DDoc _ _ None => 5
  end.
Definition th_rank (th : tpc * msg * list call) : nat := t_rank th.1.1 + m_rank th.1.2 + sum_list_with (fun c => S (t_rank (t_enter true c))) th.2.
Lemma t_rank_step s pc s' pc' : t_step (s, pc) (s', pc') -> t_rank pc' + m_rank (after pc) < t_rank pc.
Proof.
  intros H. inversion H; subst; cbn [t_rank after m_rank base_rank length];
    try (match goal with G : range_order _ _ |- _ => apply range_length in G; rewrite G; unfold n_terms end); unfold n_terms; try lia.
  - destruct full; cbn; unfold n_terms; lia.
Qed.
Lemma c_rank_client sh u pc m ev sh' u' pc' m' : client_step (sh, u, (pc, m)) ev (sh', u', (pc', m')) -> t_rank pc' + m_rank m' < t_rank pc + m_rank m.
Proof.
  intros H. inversion H; subst; cbn [m_rank]; try lia.
  - match goal with G : t_step _ _ |- _ => apply t_rank_step in G end. lia.
  - match goal with G : doc_step _ _ _ |- _ => inversion G; subst end; cbn; lia.
  - match goal with G : doc_step _ _ _ |- _ => inversion G; subst end; cbn; lia.
Qed.
Lemma sum_insert {A} (f : A -> nat) l i x y : l !! i = Some x -> f y < f x -> sum_list_with f (<[i := y]> l) < sum_list_with f l.
Proof.
  revert i. induction l as [|z l IH]; intros [|i] H Hlt; cbn in *; try done.
  - injection H as ->. lia.
  - apply Nat.add_lt_mono_l. by apply IH.
Qed.
Definition bg_rank (u : up) : nat := w_rank (u_mw u) + w_rank (u_nw u) + w_rank (u_dw u) + i_rank (u_iw u) + length (u_ich u).
Definition mg_rank (g : merger) : nat * (nat * nat) := match m_pc g with MFields [] => (0, (9, 0)) | _ => g_rank g end.

Section live.
  Variables (compress : bytes -> bytes) (decompress : bytes -> option bytes) (cache_size : Z).
  Notation works := (works compress decompress).
  Lemma bg_rank_step u s ev u' s' : up_step compress decompress (u, s) ev (u', s') -> u_pc u = CIdle -> u_pc u' = CIdle ->
    bg_rank u' < bg_rank u \/ (bg_rank u' = bg_rank u /\ lex3 (g_rank (u_mg u')) (g_rank (u_mg u))).
  Proof.
    intros H E1 E2. inversion H; subst; cbn [u_pc] in *; try discriminate E1; unfold bg_rank; cbn [u_mw u_nw u_dw u_iw u_ich u_mg].
    - subst pc. match goal with G : c_step _ _ _ _ |- _ => inversion G end.
    - subst pc. match goal with G : c_doc _ _ _ |- _ => inversion G end.
    - left. unfold i_rank. cbn. lia.
    - left. match goal with G : w_step _ _ _ _ _ _ |- _ => apply w_rank_step in G end. lia.
    - left. match goal with G : w_step _ _ _ _ _ _ |- _ => apply w_rank_step in G end. lia.
    - left. match goal with G : w_step _ _ _ _ _ _ |- _ => apply w_rank_step in G end. lia.
    - left. match goal with G : i_step _ _ _ |- _ => apply i_rank_step in G end. lia.
    - right. split; [done|]. by eapply g_rank_step.
    - right. split; [done|]. unfold g_rank. cbn. apply lex3_2. lia.
  Qed.
  (** Without requests, ticks and crashes the goroutines come to rest. *)
  Definition total_rank (a : multi) : nat := sum_list_with th_rank (mu_threads a).
  Definition quiet_up (a : multi) : Prop := forall u, y_proc (mu_sys a) = Up u -> u_pc u = CIdle.
  Lemma client_pc sh u th ev sh' u' th' : client_step (sh, u, th) ev (sh', u', th') -> u_pc u' = u_pc u.
  Proof. intros H. by inversion H; subst. Qed.
  Lemma works_quiet a b : works a b -> quiet_up a -> quiet_up b.
  Proof.
    intros H Hq. inversion H; subst; intros v Hv; cbn in Hv; injection Hv as <-; [done|by apply (Hq u)|].
    match goal with G : client_step _ _ _ |- _ => apply client_pc in G; rewrite G end. by apply (Hq u).
  Qed.
  Lemma works_acc a : quiet_up a -> Acc (fun b a => works a b) a.
  Proof.
    remember (total_rank a) as n eqn:En. revert a En. induction (lt_wf n) as [n _ IHn].
    assert (forall k m, forall a, total_rank a = n -> (forall u, y_proc (mu_sys a) = Up u -> bg_rank u = k /\ g_rank (u_mg u) = m) -> quiet_up a -> Acc (fun b a => works a b) a) as Main.
    { intros k. induction (lt_wf k) as [k _ IHk]. intros m. induction (lex3_wf m) as [m _ IHm]. intros a Ha Hu Hq.
      constructor. intros b Hab. pose proof (works_quiet _ _ Hab Hq) as Hqb. inversion Hab; subst.
      - destruct (Hu u eq_refl) as [K1 K2]. match goal with G : up_step _ _ _ _ _ |- _ => rename G into St end.
        destruct (bg_rank_step _ _ _ _ _ St (Hq u eq_refl) (Hqb u' eq_refl)) as [Hlt|[E Hlt]].
        + eapply (IHk (bg_rank u')); [lia|done| |done]. intros v Hv. cbn in Hv. injection Hv as <-. done.
        + rewrite K2 in Hlt. eapply (IHm (g_rank (u_mg u'))); [exact Hlt|done| |done]. intros v Hv. cbn in Hv. injection Hv as <-. split; [lia|done].
      - eapply IHn; [|reflexivity|done]. unfold total_rank. cbn [mu_threads]. eapply sum_insert; [eassumption|]. unfold th_rank. cbn. lia.
      - eapply IHn; [|reflexivity|done]. unfold total_rank. cbn [mu_threads]. eapply sum_insert; [eassumption|]. unfold th_rank. cbn.
        destruct th as [pc m0], th' as [pc' m0']. match goal with G : client_step _ _ _ |- _ => apply c_rank_client in G end. cbn. lia. }
    intros a -> Hq. destruct (y_proc (mu_sys a)) as [|g|u] eqn:E.
    - apply (Main 0 (0, (0, 0))); [done| |done]. intros u Hu. congruence.
    - apply (Main 0 (0, (0, 0))); [done| |done]. intros u Hu. congruence.
    - apply (Main (bg_rank u) (g_rank (u_mg u))); [done| |done]. intros v Hv. rewrite Hv in E. by injection E as ->.
  Qed.
End live.

(** * Progress *)
Section progress.
  Variables (compress : bytes -> bytes) (decompress : bytes -> option bytes) (cache_size : Z).
  Hypothesis gz : gzip_ok compress decompress.
  Hypothesis pos : (0 < cache_size)%Z.
  Notation works := (works compress decompress).
  Notation upok := (up_ok compress cache_size).
  Lemma acts_pc u s ev u' s' A : A <> Caller -> up_step compress decompress (u, s) ev (u', s') -> acts A u u' -> u_pc u' = u_pc u.
  Proof. intros HA H Ha. destruct A; cbn in Ha; try (by destruct Ha). Qed.
  Lemma docs_ready u s log own : up_wf u s -> upok u log None own -> w_pc (u_dw u) <> WIdle -> ~ up_fatal decompress (u, s) -> exists ev u' s', up_step compress decompress (u, s) ev (u', s') /\ u_pc u' = u_pc u.
  Proof.
    intros Hw HU Hn Hf. pose proof (wf_dw _ _ Hw) as W. destruct HU as [K Hb _ _ _ _ _]. destruct K as [_ Ho _ _]. destruct u as [m pc ich mw nw dw iw mg]. cbn [u_dw u_mem] in *.
    destruct (w_enabled compress d_dir d_name (d_ser (c_heap m)) (d_ser_fails (c_heap m)) (d_serf (c_heap m)) anyk dw s) as (w' & s' & G); [| |exact W|done|intros F; apply Hf; by apply f_docs|].
    - intros k l T Hl ET. unfold d_serf in ET. destruct (c_heap m !! l) as [x|] eqn:Ex; [|discriminate ET].
      exists x, (visit_fields x). split; [done|]. split; [apply visit_fields_ok|exact ET].
    - intros k l Hl ET. unfold d_serf in ET. destruct (proj2 (Ho l)) as [x Ex]; [rewrite (Hb _ _ Hl); eauto|]. rewrite Ex in ET.
      exists x, (visit_fields x). split; [done|]. split; [apply visit_fields_ok|exact ET].
    - eexists _, _, _. split; [by apply u_docs|]. done.
  Qed.
  Lemma fresh_at {A} (m : gmap nat A) : exists l, m !! l = None.
  Proof. exists (fresh (dom m)). apply not_elem_of_dom. apply is_fresh. Qed.
  Lemma served_or (ths : list (tpc * msg * list call)) : (forall th, th ∈ ths -> th = (TIdle, NoMsg, [])) \/ exists i th, ths !! i = Some th /\ th <> (TIdle, NoMsg, []).
  Proof.
    induction ths as [|th ths [IH|(i & th' & H1 & H2)]]; [left; by intros ? ?%elem_of_nil| |right; by exists (S i), th'].
    assert (th = (TIdle, NoMsg, []) \/ th <> (TIdle, NoMsg, [])) as [->|H]; [| |right; by exists 0, th].
    - destruct th as [[pc m] cs]. destruct pc; try (right; discriminate). destruct m; try (right; discriminate). destruct cs; [by left|right; discriminate].
    - left. intros th [->|H]%elem_of_cons; [done|by apply IH].
  Qed.
  Lemma w_idle {V} (w : writer V) : w_pc w = WIdle \/ w_pc w <> WIdle.
  Proof. destruct (w_pc w); first [by left|right; discriminate]. Qed.
  Lemma i_idle (w : iwriter) : i_pc w = IIdle \/ i_pc w <> IIdle.
  Proof. destruct (i_pc w); first [by left|right; discriminate]. Qed.
  Lemma idle_w' {V} (w : writer V) : w_pc w = WIdle -> w = mkW (w_buf w) WIdle.
  Proof. destruct w. cbn. by intros ->. Qed.
  Lemma t_idle (pc : tpc) : pc = TIdle \/ pc <> TIdle.
  Proof. destruct pc; first [by left|right; discriminate]. Qed.
  Lemma t_total s pc : pc <> TIdle -> exists s' pc', t_step (s, pc) (s', pc').
  Proof.
    destruct pc; intros H; try done; try (eexists _, _; econstructor; fail).
    - destruct o; [eexists _, _; constructor|]. destruct (fresh_at (k_fdocs s)) as [l1 Hl]. eexists _, _. by apply t_doc_new.
    - destruct (M_Concurrent.k_index s !! f_name x) as [l|] eqn:E; eexists _, _; [eapply t_idx_old; [exact E|apply keys_of_order]|by apply t_idx_none].
    - destruct (fresh_at (k_maps s)) as [l Hl]. eexists _, _. eapply t_idx_new; [exact Hl|apply keys_of_order].
    - destruct ks; eexists _, _; constructor.
    - destruct o; [eexists _, _; constructor|]. destruct (fresh_at (k_sets s)) as [l1 Hl]. eexists _, _. by apply t_set_new.
    - destruct (k_nft s !! f_name x) as [l|] eqn:E; [eexists _, _; eapply t_nft_old; [exact E|apply keys_of_order]|].
      destruct (fresh_at (k_nfts s)) as [l Hl]. eexists _, _. eapply t_nft_new; [exact E|exact Hl|apply keys_of_order].
    - destruct ks; eexists _, _; constructor.
  Qed.
  Lemma no_deadlock a u : multi_reachable compress decompress cache_size a -> good_log (mu_log a) -> mu_open a u -> ~ served a -> ~ up_fatal decompress (u, y_fs (mu_sys a)) -> exists b, works a b.
  Proof.
    intros R Hg Hu Hs Hf. destruct (m_up compress decompress cache_size gz a u R Hg Hu) as (Bl & Bw & G & L & ol & oa & I).
    destruct (d_reach_multi compress decompress cache_size gz pos a R Hg) as [_ D]. unfold mu_open in Hu. rewrite Hu in D. destruct D as (own & HU & HT & _).
    pose proof (mi_pc _ _ _ _ _ _ _ _ _ _ I) as Ip. destruct a as [[s p log] sh ths qs]. cbn in *. subst p.
    assert (forall ev u' s', up_step compress decompress (u, s) ev (u', s') -> u_pc u' = u_pc u -> exists b, works (mkMulti (mkSys s (Up u) log) sh ths qs) b) as BG.
    { intros ev u' s' St E. eexists. apply wk_background; [exact St|congruence]. }
    assert (exists i th, ths !! i = Some th /\ th <> (TIdle, NoMsg, [])) as (i & [[pc m] cs] & Hi & Hn).
    { destruct (served_or ths) as [H|H]; [by destruct Hs|exact H]. }
    assert (forall ev sh' u' th', client_step (sh, u, (pc, m)) ev (sh', u', th') -> exists b, works (mkMulti (mkSys s (Up u) log) sh ths qs) b) as CL.
    { intros ev sh' u' th' St. eexists. eapply wk_client; [exact Hi|exact St]. }
    pose proof (HT _ (elem_of_list_lookup_2 _ _ _ Hi)) as T0. cbn in T0.
    destruct m.
    - destruct (t_idle pc) as [->|Hpc].
      + destruct cs as [|c cs]; [done|]. eexists. by apply wk_call.
      + destruct (t_total sh pc Hpc) as (s1 & p1 & St). eapply CL. by apply m_map.
    - eapply CL. constructor.
    - eapply CL. constructor.
    - destruct (w_idle (u_mw u)) as [Hw|Hw]; [eapply CL; constructor; by apply idle_w'|].
      destruct (mw_ready compress decompress u s Bw) as (ev & u' & s' & St & Ha); [done|done|]. eapply BG; [exact St|]. by eapply (acts_pc _ _ _ _ _ MetricsWriter).
    - destruct (decide (length (u_ich u) < 100)) as [Hl|Hl]; [eapply CL; by constructor|].
      destruct (i_idle (u_iw u)) as [Hw|Hw].
      + destruct (recv_ready compress decompress u s) as (ev & u' & s' & St & Ha); [intros E; rewrite E in Hl; cbn in Hl; lia|done|]. eapply BG; [exact St|]. by eapply (acts_pc _ _ _ _ _ IndexReceive).
      + destruct (iw_ready compress decompress u s Bw) as (ev & u' & s' & St & Ha); [done|done|]. eapply BG; [exact St|]. by eapply (acts_pc _ _ _ _ _ IndexWriter).
    - eapply CL. constructor.
    - destruct (w_idle (u_nw u)) as [Hw|Hw]; [eapply CL; constructor; by apply idle_w'|].
      destruct (nw_ready compress decompress u s Bw) as (ev & u' & s' & St & Ha); [done|done|]. eapply BG; [exact St|]. by eapply (acts_pc _ _ _ _ _ NftWriter).
    - destruct T0 as [_ T0]. pose proof (uo_mem _ _ _ _ _ _ HU) as K. pose proof K as [K1 K2 K3 _]. destruct dp as [[e|l|l]|].
      + destruct T0 as [l El]. eapply CL. apply m_doc. apply (ds_deref _ _ _ _ _ l). unfold lru_deref. by rewrite El.
      + destruct (proj2 (K2 l)) as [fd Hfd]; [eauto|]. destruct (w_idle (u_dw u)) as [Hw|Hw].
        * eapply CL. apply m_doc. eapply ds_write; [exact Hfd|]. intros (k & ks & T & E & _). congruence.
        * destruct (docs_ready u s _ _ Bw HU Hw Hf) as (ev & u' & s' & St & Ha). by eapply BG.
      + destruct (cache_put_some _ _ _ d l pos K1) as [c' Hc]. eapply CL. eapply m_doc_put. by apply ds_put.
      + destruct (cache_get_some _ _ _ d K1) as (c' & [e|] & Hc).
        * eapply CL. apply m_doc. by eapply ds_hit.
        * destruct (fresh_at (c_heap (u_mem u))) as [l Hl]. eapply CL. apply m_doc. by eapply ds_miss.
    - destruct (w_idle (u_dw u)) as [Hw|Hw]; [eapply CL; constructor; by apply idle_w'|].
      destruct (docs_ready u s _ _ Bw HU) as (ev & u' & s' & St & Ha); [done|done|]. by eapply BG.
  Qed.
  Lemma works_live a b : works a b -> quiet_up a -> multi_live compress decompress cache_size a b.
  Proof.
    intros H Hq. inversion H; subst.
    - eapply mz_background; [by constructor|reflexivity|reflexivity|done].
    - by constructor.
    - by eapply mz_client.
  Qed.
End progress.
