(** The disk storage: enabledness of every goroutine, and the temporal argument (C55). *)
From Verif Require Import Base M_Field M_LRU S_LRU S_Visits M_Memory M_File M_Serialize M_Disk P_Base P_File P_LRU S_Disk P_DiskBase P_DiskInv P_DiskMem P_DiskWriter P_DiskTerm P_DiskDocs P_DiskDocs2 P_DiskDocs3 X_DiskExec S_DiskFair P_DiskFair.
#[local] Open Scope nat_scope.
#[local] Opaque serialize_metrics deserialize_metrics serialize_nft deserialize_nft serialize_field_map deserialize_field_map serialize_index deserialize_index.

Definition idx_ok (m : cmem) (pc : cpc) : Prop :=
  match pc with CIndexLoop _ _ x _ | CIndexSend _ _ x _ _ => is_Some (c_index m !! f_name x) | _ => True end.
Section ready.
  Variables (compress : bytes -> bytes) (decompress : bytes -> option bytes) (cache_size : Z).
  Hypothesis pos : (0 < cache_size)%Z.
  Notation up_step := (up_step compress decompress).
  Notation reach := (reachable compress decompress cache_size).
  Notation d_up := (d_up compress cache_size).

  Lemma idx_step u s ev u' s' : up_step (u, s) ev (u', s') -> idx_ok (u_mem u) (u_pc u) -> idx_ok (u_mem u') (u_pc u').
  Proof.
    intros H Hi. inversion H; subst; cbn [u_mem u_pc] in *; try done.
    - match goal with G : c_step _ _ _ _ |- _ => inversion G; subst; cbn [idx_ok] in *; try done end.
      + destruct (c_index m !! f_name x) eqn:E; [by rewrite E|]. cbn. rewrite lookup_insert. eauto.
      + cbn. rewrite lookup_insert. eauto.
      + by destruct full.
    - match goal with G : c_doc _ _ _ |- _ => inversion G; subst; done end.
  Qed.
  Lemma idx_reach y u : reach y -> y_proc y = Up u -> idx_ok (u_mem u) (u_pc u).
  Proof.
    intros Hr. revert u. unfold reachable in Hr. revert y Hr.
    apply (rtc_ind_r (R := sys_step compress decompress cache_size) (fun y => forall u, y_proc y = Up u -> idx_ok (u_mem u) (u_pc u)) sys_init); [done|].
    intros a b Ha Hab IH u Hu.
    destruct Hab as [H|H]; inversion H; subst; cbn [y_proc] in *; try discriminate; injection Hu as <-.
    - match goal with G : opened _ _ _ _ _ |- _ => inversion G; subst; done end.
    - eapply idx_step; [eassumption|]. by apply IH.
    - match goal with G : up_tick _ _ |- _ => inversion G; subst; exact (IH _ eq_refl) end.
    - match goal with G : up_call _ _ _ |- _ => inversion G; subst; done end.
  Qed.

  (** What makes the caller wait. *)
  Definition waits (u : up) : Prop :=
    match u_pc u with
    | CFieldSend _ _ => w_pc (u_mw u) <> WIdle
    | CNftSend _ _ _ _ _ => w_pc (u_nw u) <> WIdle
    | CDocSend _ _ _ => w_pc (u_dw u) <> WIdle
    | CIndexSend _ _ _ _ _ => 100 <= length (u_ich u)
    | _ => False
    end.
  Lemma fresh_nat (h : gmap nat (gmap string field)) : exists l, h !! l = None.
  Proof. exists (fresh (dom h)). apply not_elem_of_dom. apply is_fresh. Qed.
  Lemma client_ready u s kvs own : d_up u kvs own -> idx_ok (u_mem u) (u_pc u) -> u_pc u <> CIdle -> ~ up_fatal decompress (u, s) -> ~ waits u ->
    exists ev u' s', up_step (u, s) ev (u', s') /\ u_pc u' <> u_pc u.
  Proof.
    intros HD Hi Hn Hf Hw.
    cut (exists ev u' s', up_step (u, s) ev (u', s') /\ c_rank (u_pc u') < c_rank (u_pc u)).
    { intros (ev & u' & s' & H & Hr). exists ev, u', s'. split; [done|]. intros E. rewrite E in Hr. lia. }
    pose proof (du_R _ _ _ _ _ HD) as HR. pose proof (du_cap _ _ _ _ _ HD) as Hc. pose proof (du_own _ _ _ _ _ HD) as Ho. pose proof (du_kvs _ _ _ _ _ HD) as Hk. clear HD.
    destruct u as [m pc ich mw nw dw iw mg]. unfold waits in Hw. cbn [u_pc u_mem u_mw u_nw u_dw u_ich] in *.
    assert (forall m' pc', c_step decompress s (m, pc) (m', pc') -> exists ev u' s', up_step (mkUp m pc ich mw nw dw iw mg, s) ev (u', s') /\ c_rank (u_pc u') < c_rank pc) as Cs.
    { intros m' pc' G. eexists _, _, _. split; [by apply u_client|]. cbn. by eapply c_rank_step. }
    assert (forall k, (exists c' e l fd, lru_get (c_cache m) k = Some (c', Some e) /\ lru_deref c' e = Some l /\ c_heap m !! l = Some fd /\ exists kv', R c' kv' /\ lr_cap c' = cache_size) \/ lru_get (c_cache m) k = Some (c_cache m, None)) as Cg.
    { intros k. pose proof (get_refine _ _ k HR) as G. destruct (lru_get (c_cache m) k) as [[c' [e|]]|]; [|right; destruct G as [_ ->]; done|done].
      left. destruct G as (_ & _ & _ & Gc & v & Gv & Gd & GR). destruct (proj2 (Ho v)) as [fd Hfd]; [rewrite (Hk _ _ Gv); eauto|]. exists c', e, v, fd. do 3 (split; [done|]). eexists. split; [exact GR|]. by rewrite Gc. }
    destruct pc.
    - done.
    - eapply Cs, c_save.
    - destruct mw as [mb mp]. cbn in Hw. destruct mp; try (exfalso; by apply Hw). eexists _, _, _. split; [apply u_send_field|]. cbn. unfold after_index, n_terms. lia.
    - eapply Cs. apply c_index_begin. by apply (reflexivity (R := Permutation)).
    - destruct ks as [|t ks]; [eapply Cs, c_index_end|]. destruct Hi as [idx Hi]. eapply Cs. by eapply c_index_term.
    - eexists _, _, _. split; [apply u_send_index; lia|]. cbn. lia.
    - eapply Cs. apply c_nft_begin. by apply (reflexivity (R := Permutation)).
    - destruct ks as [|t ks]; [eapply Cs, c_nft_end|]. eapply Cs. apply c_nft_term.
    - destruct nw as [nb np]. cbn in Hw. destruct np; try (exfalso; by apply Hw). eexists _, _, _. split; [apply u_send_nft|]. cbn. lia.
    - assert (exists l m' pc', c_doc (m, CDoc d x) l (m', pc')) as (l & m' & pc' & G).
      { destruct (Cg d) as [(c' & e & l & fd & G1 & G2 & G3 & kv' & G4 & G5)|G1].
        - destruct (put_refine c' kv' d l G4) as (c2 & G6 & _); [lia|]. eexists _, _, _. by eapply c_doc_hit.
        - destruct (fresh_nat (c_heap m)) as [l Hl]. destruct (put_refine (c_cache m) kvs d l HR) as (c2 & G6 & _); [lia|]. eexists _, _, _. by eapply c_doc_miss. }
      assert (iterating dw l \/ ~ iterating dw l) as [Hit|Hit].
      { destruct (w_pc dw) eqn:E; try (right; intros (? & ? & ? & E2 & _); rewrite E2 in E; discriminate E).
        destruct (decide (w_buf dw !! k = Some l)) as [El|El]; [left; by exists k, ks, T|right]. intros (k2 & ? & ? & E2 & E3). rewrite E2 in E. injection E as -> _ _. done. }
      + exfalso. apply Hf. by eapply f_race.
      + pose proof (c_rank_doc _ _ _ _ _ G). eexists _, _, _. split; [by eapply u_doc|]. done.
    - destruct dw as [db dp]. cbn in Hw. destruct dp; try (exfalso; by apply Hw). eexists _, _, _. split; [apply u_send_doc|]. cbn. lia.
    - destruct ids as [|id ids]; [eapply Cs, c_get_end|]. destruct (Cg id) as [(c' & e & l & fd & G1 & G2 & G3 & _)|G1]; [eapply Cs; by eapply c_get_hit|eapply Cs; by eapply c_get_miss].
    - destruct (load_doc decompress s id) as [[fd|]|] eqn:E.
      + destruct (fresh_nat (c_heap m)) as [l Hl]. destruct (put_refine (c_cache m) kvs id l HR) as (c2 & G6 & _); [lia|]. eapply Cs. by eapply c_load_some.
      + eapply Cs. by apply c_load_none.
      + exfalso. apply Hf. apply f_client. by apply c_fatal_load.
    - eapply Cs. apply c_got.
  Qed.

  (** A goroutine in the middle of its work can continue. *)
  Lemma mw_ready u s : up_wf u s -> w_pc (u_mw u) <> WIdle -> ~ up_fatal decompress (u, s) -> exists ev u' s', up_step (u, s) ev (u', s') /\ acts MetricsWriter u u'.
  Proof.
    intros Hw Hn Hf. pose proof (wf_mw _ _ Hw) as W. destruct u as [m pc ich mw nw dw iw mg]. cbn [u_mw] in *.
    destruct (w_enabled compress m_dir m_name m_ser m_ser_fails (fun f v => serialize_metrics f (wrap32 v.1) (wrap32 v.2)) nd mw s) as (w' & s' & G); [done|done|exact W|done|intros F; apply Hf; by apply f_metrics|].
    eexists _, _, _. split; [by apply u_metrics|]. cbn. split; [done|]. intros E. apply w_rank_step in G. rewrite E in G. lia.
  Qed.
  Lemma nw_ready u s : up_wf u s -> w_pc (u_nw u) <> WIdle -> ~ up_fatal decompress (u, s) -> exists ev u' s', up_step (u, s) ev (u', s') /\ acts NftWriter u u'.
  Proof.
    intros Hw Hn Hf. pose proof (wf_nw _ _ Hw) as W. destruct u as [m pc ich mw nw dw iw mg]. cbn [u_nw] in *.
    destruct (w_enabled compress n_dir n_name n_ser n_ser_fails (fun f v => serialize_nft (map_to_list v)) nd nw s) as (w' & s' & G);
      [intros k v T _ E; exists (map_to_list v); split; [unfold visits; reflexivity|exact E]|intros k v _ E; exists (map_to_list v); split; [unfold visits; reflexivity|exact E]|exact W|done|intros F; apply Hf; by apply f_nft|].
    eexists _, _, _. split; [by apply u_nft|]. cbn. split; [done|]. intros E. apply w_rank_step in G. rewrite E in G. lia.
  Qed.
  Lemma dw_ready u s kvs own : up_wf u s -> d_up u kvs own -> w_pc (u_dw u) <> WIdle -> ~ up_fatal decompress (u, s) -> exists ev u' s', up_step (u, s) ev (u', s') /\ acts DocsWriter u u'.
  Proof.
    intros Hw HD Hn Hf. pose proof (wf_dw _ _ Hw) as W. pose proof (du_own _ _ _ _ _ HD) as Ho. pose proof (du_buf _ _ _ _ _ HD) as Hb. clear HD. destruct u as [m pc ich mw nw dw iw mg]. cbn [u_dw u_mem] in *.
    destruct (w_enabled compress d_dir d_name (d_ser (c_heap m)) (d_ser_fails (c_heap m)) (d_serf (c_heap m)) anyk dw s) as (w' & s' & G); [| |exact W|done|intros F; apply Hf; by apply f_docs|].
    - intros k l T Hl ET. unfold d_serf in ET. destruct (c_heap m !! l) as [x|] eqn:Ex; [|discriminate ET].
      exists x, (visit_fields x). split; [done|]. split; [apply visit_fields_ok|exact ET].
    - intros k l Hl ET. unfold d_serf in ET. destruct (proj2 (Ho l)) as [x Ex]; [rewrite (Hb _ _ Hl); eauto|]. rewrite Ex in ET.
      exists x, (visit_fields x). split; [done|]. split; [apply visit_fields_ok|exact ET].
    - eexists _, _, _. split; [by apply u_docs|]. cbn. split; [done|]. intros E. apply w_rank_step in G. rewrite E in G. lia.
  Qed.
  Lemma iw_ready u s : up_wf u s -> i_pc (u_iw u) <> IIdle -> ~ up_fatal decompress (u, s) -> exists ev u' s', up_step (u, s) ev (u', s') /\ acts IndexWriter u u'.
  Proof.
    intros Hw Hn Hf. pose proof (wf_iw _ _ Hw) as W. destruct u as [m pc ich mw nw dw iw mg]. cbn [u_iw] in *.
    destruct (i_enabled compress iw s) as (w' & s' & G); [exact W|done|intros F; apply Hf; by apply f_index|].
    eexists _, _, _. split; [by apply u_index|]. cbn. do 2 (split; [done|]). intros E. apply i_rank_step in G. rewrite E in G. lia.
  Qed.
  Lemma recv_ready u s : u_ich u <> [] -> i_pc (u_iw u) = IIdle -> exists ev u' s', up_step (u, s) ev (u', s') /\ acts IndexReceive u u'.
  Proof.
    intros Hn Hi. destruct u as [m pc ich mw nw dw [ib ip] mg]. cbn in *. subst ip. destruct ich as [|p ich]; [done|].
    eexists _, _, _. split; [by apply u_recv_index|]. cbn. split; [done|]. intros E. apply (f_equal length) in E. cbn in E. lia.
  Qed.
End ready.

(** * Time *)
Section time.
  Variables (compress : bytes -> bytes) (decompress : bytes -> option bytes) (cache_size : Z).
  Hypothesis pos : (0 < cache_size)%Z.
  Variable r : nat -> sys.
  Hypothesis ex : execution compress decompress cache_size r.
  Hypothesis fa : fair compress decompress r.
  Hypothesis re : reachable compress decompress cache_size (r 0).
  Hypothesis go : forall i, good_log (y_log (r i)).

  Lemma r_reach i : reachable compress decompress cache_size (r i).
  Proof.
    induction i as [|i IH]; [done|]. destruct (ex i) as [[->|H] _]; [done|]. unfold reachable in *. eapply rtc_r; [exact IH|]. by left.
  Qed.
  Lemma r_up i : exists u kvs own, y_proc (r i) = Up u /\ ~ up_fatal decompress (u, y_fs (r i)) /\ up_wf u (y_fs (r i)) /\ d_up compress cache_size u kvs own /\ idx_ok (u_mem u) (u_pc u).
  Proof.
    destruct (ex i) as [_ (u & Hu & Hf)]. destruct (d_reach compress decompress cache_size pos (r i) (r_reach i) (go i)) as [[_ B] [_ D]].
    pose proof (idx_reach compress decompress cache_size (r i) u (r_reach i) Hu). rewrite Hu in B, D. destruct D as (kvs & own & D). exists u, kvs, own. tauto.
  Qed.
  (** One instant: what can change. *)
  Definition instant (u u' : up) (s s' : fs) : Prop :=
    (u' = u /\ s' = s) \/ up_tick (u, s) (u', s') \/ (exists ev, up_step compress decompress (u, s) ev (u', s')) \/ (u_pc u = CIdle /\ s' = s /\ exists ev, up_call u ev u').
  Lemma r_step i u u' : y_proc (r i) = Up u -> y_proc (r (S i)) = Up u' -> instant u u' (y_fs (r i)) (y_fs (r (S i))).
  Proof.
    intros Hu Hu'. destruct (ex i) as [[E|H] _].
    - rewrite E in *. left. split; [congruence|done].
    - right. revert H Hu Hu'. generalize (r i), (r (S i)). intros a b H Hu Hu'. inversion H as [| | |? ? ? ? ? ? G|? ? ? ? ? G|? ? ? ? ? G]; subst; cbn [y_proc y_fs] in *; try discriminate; injection Hu as ->; injection Hu' as ->.
      + right. left. eauto.
      + by left.
      + right. right. split; [by inversion G|]. split; [done|]. eauto.
  Qed.
  Lemma can A i u : y_proc (r i) = Up u -> (exists ev u' s', up_step compress decompress (u, y_fs (r i)) ev (u', s') /\ acts A u u') -> can_move compress decompress A (r i).
  Proof. intros Hu (ev & u' & s' & G & Ga). exists (mkSys s' (Up u') (y_log (r i) ++ ev)). exists u, ev, u'. cbn. done. Qed.
  Lemma did A i u u' : y_proc (r i) = Up u -> y_proc (r (S i)) = Up u' -> moves compress decompress A (r i) (r (S i)) -> exists ev, up_step compress decompress (u, y_fs (r i)) ev (u', y_fs (r (S i))) /\ acts A u u'.
  Proof. intros Hu Hu' (v & ev & v' & Hv & Hv' & _ & G & Ga). rewrite Hu in Hv. rewrite Hu' in Hv'. injection Hv as <-. injection Hv' as <-. eauto. Qed.

  Lemma progress (idle mv : nat -> Prop) (rank : nat -> nat) :
    (forall i, idle i \/ rank (S i) <= rank i) -> (forall i, mv i -> idle i \/ rank (S i) < rank i) -> (forall i, exists j, i <= j /\ (idle j \/ mv j)) -> forall i, exists j, i <= j /\ idle j.
  Proof.
    intros H1 H2 H3.
    assert (forall n i, exists j, i <= j <= i + n /\ (idle j \/ rank (i + n) <= rank i)) as H4.
    { induction n as [|n IH]; intros i; [exists i; rewrite Nat.add_0_r; split; [lia|by right]|]. destruct (IH i) as (j & Hj & [Hi|Hi]); [exists j; split; [lia|by left]|].
      destruct (H1 (i + n)) as [G|G]; [exists (i + n); split; [lia|by left]|]. exists i. split; [lia|]. right. rewrite Nat.add_succ_r. lia. }
    cut (forall n i, rank i <= n -> exists j, i <= j /\ idle j); [intros C i; by apply (C (rank i))|].
    induction n as [n IH] using lt_wf_ind. intros i Hn. destruct (H3 i) as (k & Hk & [Hi|Hi]); [eauto|].
    destruct (H4 (k - i) i) as (j & Hj & [G|G]); [exists j; split; [lia|done]|]. replace (i + (k - i)) with k in G by lia.
    destruct (H2 k Hi) as [G2|G2]; [eauto|]. destruct (IH (rank (S k))) with (i := S k) as (j' & Hj' & G3); [lia|lia|]. exists j'. split; [lia|done].
  Qed.

  (** * Every writer is back at its select again and again *)
  Definition idle_w {V} (get : up -> writer V) (i : nat) : Prop := exists u, y_proc (r i) = Up u /\ w_pc (get u) = WIdle.
  Lemma w_often {V} (get : up -> writer V) A :
    (forall u s ev u' s', up_step compress decompress (u, s) ev (u', s') -> steady (get u) (get u')) ->
    (forall u s u' s', up_tick (u, s) (u', s') -> steady (get u) (get u')) ->
    (forall u ev u', up_call u ev u' -> get u' = get u) ->
    (forall u u', acts A u u' -> get u' <> get u) ->
    (forall u s kvs own, up_wf u s -> d_up compress cache_size u kvs own -> w_pc (get u) <> WIdle -> ~ up_fatal decompress (u, s) -> exists ev u' s', up_step compress decompress (u, s) ev (u', s') /\ acts A u u') ->
    forall i, exists j, i <= j /\ idle_w get j.
  Proof.
    intros S1 S2 S3 S4 S5.
    assert (forall w : writer V, {w_pc w = WIdle} + {w_pc w <> WIdle}) as dec by (intros w; destruct (w_pc w); by (left + right)).
    assert (forall i u u', y_proc (r i) = Up u -> y_proc (r (S i)) = Up u' -> steady (get u) (get u')) as St.
    { intros i u u' Hu Hu'. destruct (r_step i u u' Hu Hu') as [[-> _]|[G|[[ev G]|(_ & _ & ev & G)]]]; [intros _; by left|by eapply S2|by eapply S1|]. intros _. left. by eapply S3. }
    apply (progress (idle_w get) (fun i => moves compress decompress A (r i) (r (S i))) (fun i => match y_proc (r i) with Up u => w_rank (get u) | _ => 0 end)).
    - intros i. destruct (r_up i) as (u & _ & _ & Hu & _). destruct (r_up (S i)) as (u' & _ & _ & Hu' & _). destruct (dec (get u)) as [E|E]; [left; by exists u|right]. rewrite Hu, Hu'.
      destruct (St i u u' Hu Hu' E) as [->|G]; lia.
    - intros i Hm. destruct (r_up i) as (u & _ & _ & Hu & _). destruct (r_up (S i)) as (u' & _ & _ & Hu' & _). destruct (dec (get u)) as [E|E]; [left; by exists u|right]. rewrite Hu, Hu'.
      destruct (did A i u u' Hu Hu' Hm) as (ev & _ & Ga). destruct (St i u u' Hu Hu' E) as [G|G]; [by apply S4 in Ga|done].
    - intros i. destruct (fa A i) as [(k & Hk & Hm)|(k & Hk & Hm)]; [eauto|]. destruct (r_up k) as (u & kvs & own & Hu & Hf & Hw & HD & _).
      destruct (dec (get u)) as [E|E]; [exists k; split; [done|]; left; by exists u|]. exfalso. apply (Hm k); [done|]. apply (can _ _ u Hu). by eapply S5.
  Qed.
  Lemma call_parts u ev u' : up_call u ev u' -> u_mw u' = u_mw u /\ u_nw u' = u_nw u /\ u_dw u' = u_dw u /\ u_iw u' = u_iw u /\ u_ich u' = u_ich u.
  Proof. by inversion 1. Qed.
  Lemma mw_often i : exists j, i <= j /\ idle_w u_mw j.
  Proof.
    apply (w_often u_mw MetricsWriter).
    - intros. by eapply step_mw.
    - intros u s u' s' H. apply tick_same in H. destruct H as (_ & _ & _ & ? & ? & ? & _). assumption.
    - intros u ev u' H. apply call_parts in H. destruct H as (? & ? & ? & _). assumption.
    - intros u u' [_ H]. exact H.
    - intros. by eapply mw_ready.
  Qed.
  Lemma nw_often i : exists j, i <= j /\ idle_w u_nw j.
  Proof.
    apply (w_often u_nw NftWriter).
    - intros. by eapply step_nw.
    - intros u s u' s' H. apply tick_same in H. destruct H as (_ & _ & _ & ? & ? & ? & _). assumption.
    - intros u ev u' H. apply call_parts in H. destruct H as (? & ? & ? & _). assumption.
    - intros u u' [_ H]. exact H.
    - intros. by eapply nw_ready.
  Qed.
  Lemma dw_often i : exists j, i <= j /\ idle_w u_dw j.
  Proof.
    apply (w_often u_dw DocsWriter).
    - intros. by eapply step_dw.
    - intros u s u' s' H. apply tick_same in H. destruct H as (_ & _ & _ & ? & ? & ? & _). assumption.
    - intros u ev u' H. apply call_parts in H. destruct H as (? & ? & ? & _). assumption.
    - intros u u' [_ H]. exact H.
    - intros. by eapply dw_ready.
  Qed.
  Definition idle_i (i : nat) : Prop := exists u, y_proc (r i) = Up u /\ i_pc (u_iw u) = IIdle.
  Lemma iw_often i : exists j, i <= j /\ idle_i j.
  Proof.
    assert (forall w : iwriter, {i_pc w = IIdle} + {i_pc w <> IIdle}) as dec by (intros w; destruct (i_pc w); by (left + right)).
    assert (forall i u u', y_proc (r i) = Up u -> y_proc (r (S i)) = Up u' -> i_pc (u_iw u) <> IIdle -> u_iw u' = u_iw u \/ i_rank (u_iw u') < i_rank (u_iw u)) as St.
    { clear i. intros i u u' Hu Hu'. destruct (r_step i u u' Hu Hu') as [[-> _]|[G|[[ev G]|(_ & _ & ev & G)]]]; [intros _; by left| |intros Hn; by eapply step_iw|]; intros Hn; left; [apply tick_same in G; destruct G as (_ & _ & _ & _ & _ & _ & G); by apply G|apply call_parts in G; destruct G as (_ & _ & _ & G & _); exact G]. }
    revert i. apply (progress idle_i (fun i => moves compress decompress IndexWriter (r i) (r (S i))) (fun i => match y_proc (r i) with Up u => i_rank (u_iw u) | _ => 0 end)).
    - intros i. destruct (r_up i) as (u & _ & _ & Hu & _). destruct (r_up (S i)) as (u' & _ & _ & Hu' & _). destruct (dec (u_iw u)) as [E|E]; [left; by exists u|right]. rewrite Hu, Hu'.
      destruct (St i u u' Hu Hu' E) as [->|G]; lia.
    - intros i Hm. destruct (r_up i) as (u & _ & _ & Hu & _). destruct (r_up (S i)) as (u' & _ & _ & Hu' & _). destruct (dec (u_iw u)) as [E|E]; [left; by exists u|right]. rewrite Hu, Hu'.
      destruct (did _ i u u' Hu Hu' Hm) as (ev & _ & _ & _ & Ga). by destruct (St i u u' Hu Hu' E) as [G|G].
    - intros i. destruct (fa IndexWriter i) as [(k & Hk & Hm)|(k & Hk & Hm)]; [eauto|]. destruct (r_up k) as (u & kvs & own & Hu & Hf & Hw & HD & _).
      destruct (dec (u_iw u)) as [E|E]; [exists k; split; [done|]; left; by exists u|]. exfalso. apply (Hm k); [done|]. apply (can _ _ u Hu). by eapply iw_ready.
  Qed.

  (** * The caller *)
  Definition idle_c (i : nat) : Prop := exists u, y_proc (r i) = Up u /\ u_pc u = CIdle.
  Lemma pc_dec (u : up) : {u_pc u = CIdle} + {u_pc u <> CIdle}.
  Proof. destruct (u_pc u); by (left + right). Qed.
  Lemma stuck_pc k u : (forall m, k <= m -> ~ can_move compress decompress Caller (r m)) -> y_proc (r k) = Up u -> u_pc u <> CIdle ->
    forall m v, k <= m -> y_proc (r m) = Up v -> u_pc v = u_pc u.
  Proof.
    intros Hs Hu Hn m v Hm. revert v. induction Hm as [|m Hm IH]; intros v Hv; [congruence|].
    destruct (r_up m) as (w & _ & _ & Hw & _). rewrite <- (IH w Hw). destruct (r_step m w v Hw Hv) as [[-> _]|[G|[[ev G]|(G & _)]]]; [done|apply tick_same in G; destruct G as (G & _); exact G| |].
    - destruct (step_pc _ _ _ _ _ _ _ G) as [E|E]; [|done]. exfalso. apply (Hs m); [lia|]. apply (can _ _ w Hw). eexists _, _, _. split; [exact G|]. cbn. intros E2. rewrite E2 in E. lia.
    - by rewrite (IH w Hw) in G.
  Qed.
  Lemma caller_moves i : exists j, i <= j /\ (idle_c j \/ moves compress decompress Caller (r j) (r (S j))).
  Proof.
    destruct (fa Caller i) as [(k & Hk & Hm)|(k & Hk & Hs)]; [eauto|]. destruct (r_up k) as (u & _ & _ & Hu & _).
    destruct (pc_dec u) as [E|Hn]; [exists k; split; [done|]; left; by exists u|]. exfalso.
    assert (forall m, k <= m -> exists v, y_proc (r m) = Up v /\ u_pc v = u_pc u /\ (~ waits v -> False)) as Hw.
    { intros m Hm. destruct (r_up m) as (v & kvs & own & Hv & Hf & Wf & HD & Hi). exists v. pose proof (stuck_pc k u Hs Hu Hn m v Hm Hv) as E. do 2 (split; [done|]). intros W.
      apply (Hs m Hm). apply (can _ _ v Hv). by eapply client_ready; [exact pos|exact HD|exact Hi|rewrite E|..]. }
    assert (forall V (get : up -> writer V), (forall v, u_pc v = u_pc u -> w_pc (get v) = WIdle -> ~ waits v) -> (exists j, k <= j /\ idle_w get j) -> False) as Hc.
    { intros V get Hg (j & Hj & v & Hv & E). destruct (Hw j Hj) as (v' & Hv' & E2 & W). rewrite Hv in Hv'. injection Hv' as <-. apply W. by apply Hg. }
    destruct (u_pc u) as [|d x|d x|full d x|full d x ks|full d x t ks|d x|d x ft ks|d x ft t ks|d x|d x l|ids0 f ids acc|ids0 f id ids acc|ids0 f acc] eqn:Epc;
      try (destruct (Hw k) as (v & _ & E & W); [done|]; apply W; unfold waits; rewrite E; exact (fun F => F)).
    - apply (Hc _ u_mw); [|apply mw_often]. intros v E1 E2 W. unfold waits in W. rewrite E1 in W. done.
    - (* the channel drains *)
      destruct (progress (fun i => i < k \/ exists u, y_proc (r i) = Up u /\ length (u_ich u) < 100) (fun i => moves compress decompress IndexReceive (r i) (r (S i))) (fun i => match y_proc (r i) with Up u => length (u_ich u) | _ => 0 end)) with (i := k)
        as (j & Hj & [G|(v & Hv & G)]).
      + intros m. destruct (decide (m < k)) as [|Hm]; [by left; left|]. right. destruct (Hw m) as (v & Hv & E & _); [lia|]. destruct (Hw (S m)) as (v' & Hv' & E' & _); [lia|]. rewrite Hv, Hv'.
        destruct (r_step m v v' Hv Hv') as [[-> _]|[H|[[ev H]|(H & _)]]]; [lia|by destruct (tick_same _ _ _ _ H) as (_ & -> & _)| |congruence].
        destruct (step_ich _ _ _ _ _ _ _ H) as [->|]; [congruence|lia|lia].
      + intros m Hm. destruct (decide (m < k)) as [|Hmk]; [by left; left|]. right. destruct (Hw m) as (v & Hv & E & _); [lia|]. destruct (Hw (S m)) as (v' & Hv' & E' & _); [lia|]. rewrite Hv, Hv'.
        destruct (did _ m v v' Hv Hv' Hm) as (ev & H & _ & Ga). destruct (step_ich _ _ _ _ _ _ _ H) as [|]; [congruence|done|lia].
      + intros m. destruct (fa IndexReceive m) as [(k2 & Hk2 & Hm)|(k2 & Hk2 & Hm)]; [eauto|]. destruct (iw_often (k `max` k2)) as (j & Hj & v & Hv & E). exists j. split; [lia|]. left. right. exists v. split; [done|].
        destruct (decide (length (u_ich v) < 100)) as [|Hl]; [done|]. exfalso. apply (Hm j); [lia|]. apply (can _ _ v Hv). apply recv_ready; [|done]. intros E2. rewrite E2 in Hl. cbn in Hl. lia.
      + lia.
      + destruct (Hw j Hj) as (v' & Hv' & E2 & W). rewrite Hv in Hv'. injection Hv' as <-. apply W. unfold waits. rewrite E2. lia.
    - apply (Hc _ u_nw); [|apply nw_often]. intros v E1 E2 W. unfold waits in W. rewrite E1 in W. done.
    - apply (Hc _ u_dw); [|apply dw_often]. intros v E1 E2 W. unfold waits in W. rewrite E1 in W. done.
  Qed.
  Lemma caller_idle i : exists j, i <= j /\ idle_c j.
  Proof.
    revert i. apply (progress idle_c (fun i => moves compress decompress Caller (r i) (r (S i))) (fun i => match y_proc (r i) with Up u => c_rank (u_pc u) | _ => 0 end)).
    - intros i. destruct (r_up i) as (u & _ & _ & Hu & _). destruct (r_up (S i)) as (u' & _ & _ & Hu' & _). destruct (pc_dec u) as [E|E]; [left; by exists u|right]. rewrite Hu, Hu'.
      destruct (r_step i u u' Hu Hu') as [[-> _]|[H|[[ev H]|(H & _)]]]; [lia|by destruct (tick_same _ _ _ _ H) as (-> & _)| |congruence]. destruct (step_pc _ _ _ _ _ _ _ H) as [| ->]; lia.
    - intros i Hm. destruct (r_up i) as (u & _ & _ & Hu & _). destruct (r_up (S i)) as (u' & _ & _ & Hu' & _). right. rewrite Hu, Hu'. destruct (did _ i u u' Hu Hu' Hm) as (ev & H & Ga). by destruct (step_pc _ _ _ _ _ _ _ H).
    - apply caller_moves.
  Qed.

  (** The call in progress at [i] is the one that ends. *)
  Lemma step_no_call i u u' : y_proc (r i) = Up u -> y_proc (r (S i)) = Up u' -> u_pc u <> CIdle -> exists ev, y_log (r (S i)) = y_log (r i) ++ ev /\ forall e, e ∈ ev -> (forall c, e <> ECall c) /\ (forall ids f, e <> EGet ids f).
  Proof.
    intros Hu Hu' Hn. destruct (ex i) as [[E|H] _]; [exists []; rewrite E, app_nil_r; split; [done|]; by intros e ?%elem_of_nil|]. revert H Hu Hu'. generalize (r i), (r (S i)). intros a b H Hu Hu'.
    inversion H as [| | |? ? ? ? ? ? G|? ? ? ? ? G|? ? ? ? ? G]; subst; cbn [y_proc y_log] in *; try discriminate; injection Hu as ->; injection Hu' as ->.
    - eexists. split; [done|]. inversion G; subst; intros e He; try (by apply elem_of_nil in He); [apply elem_of_list_singleton in He; subst e; done|].
      unfold nft_event in He. destruct (w_pc nw) as [| | | |? ? ? []]; try (by apply elem_of_nil in He). apply elem_of_list_singleton in He. subst e. done.
    - exists []. rewrite app_nil_r. split; [done|]. by intros e ?%elem_of_nil.
    - inversion G; subst; done.
  Qed.
  Lemma call_returns i : exists j u ev, i <= j /\ y_proc (r j) = Up u /\ u_pc u = CIdle /\ y_log (r j) = y_log (r i) ++ ev /\ forall e, e ∈ ev -> (forall c, e <> ECall c) /\ (forall ids f, e <> EGet ids f).
  Proof.
    destruct (caller_idle i) as (j0 & Hj & u0 & Hu0 & E0). remember (j0 - i) as n eqn:En. revert i Hj En. induction n as [|n IH]; intros i Hj En.
    - assert (j0 = i) as -> by lia. exists i, u0, []. rewrite app_nil_r. do 4 (split; [done|]). by intros e ?%elem_of_nil.
    - destruct (r_up i) as (u & _ & _ & Hu & _). destruct (pc_dec u) as [E|E].
      + exists i, u, []. rewrite app_nil_r. do 4 (split; [done|]). by intros e ?%elem_of_nil.
      + destruct (r_up (S i)) as (u' & _ & _ & Hu' & _). destruct (step_no_call i u u' Hu Hu' E) as (ev1 & L1 & N1). destruct (IH (S i)) as (j & v & ev & G1 & G2 & G3 & G4 & G5); [lia|lia|].
        exists j, v, (ev1 ++ ev). split; [lia|]. do 2 (split; [done|]). split; [by rewrite G4, L1, app_assoc|]. intros e [He|He]%elem_of_app; [by apply N1|by apply G5].
  Qed.

  (** * The index channel *)
  Lemma ich_cap y u : reachable compress decompress cache_size y -> y_proc y = Up u -> length (u_ich u) <= 100.
  Proof.
    intros Hr. revert u. unfold reachable in Hr. revert y Hr.
    apply (rtc_ind_r (R := sys_step compress decompress cache_size) (fun y => forall u, y_proc y = Up u -> length (u_ich u) <= 100) sys_init); [done|].
    intros a b Ha Hab IH u Hu. destruct Hab as [H|H]; inversion H; subst; cbn [y_proc] in *; try discriminate; injection Hu as <-.
    - match goal with G : opened _ _ _ _ _ |- _ => inversion G; subst; cbn; lia end.
    - specialize (IH _ eq_refl). match goal with G : up_step _ _ _ _ _ |- _ => inversion G; subst; cbn [u_ich] in *; try exact IH end; [rewrite app_length; cbn; lia|cbn in IH; lia].
    - match goal with G : up_tick _ _ |- _ => inversion G; subst; exact (IH _ eq_refl) end.
    - match goal with G : up_call _ _ _ |- _ => inversion G; subst; exact (IH _ eq_refl) end.
  Qed.
  Lemma ich_often i : exists j u, i <= j /\ y_proc (r j) = Up u /\ length (u_ich u) < 100.
  Proof.
    destruct (fa IndexReceive i) as [(k & Hk & Hm)|(k & Hk & Hm)].
    - destruct (r_up k) as (u & _ & _ & Hu & _). destruct (r_up (S k)) as (u' & _ & _ & Hu' & _). exists (S k), u'. split; [lia|]. split; [done|].
      pose proof (ich_cap _ _ (r_reach k) Hu). destruct (did _ k u u' Hu Hu' Hm) as (ev & H2 & E & Ga). destruct (step_ich _ _ _ _ _ _ _ H2 E) as [|]; [done|lia].
    - destruct (iw_often k) as (j & Hj & u & Hu & E). exists j, u. split; [lia|]. split; [done|]. destruct (u_ich u) as [|p l] eqn:El; [cbn; lia|]. exfalso. apply (Hm j Hj). apply (can _ _ u Hu). apply recv_ready; [by rewrite El|done].
  Qed.
End time.
