(** C66: with fair scheduling and tickers running every request is served. *)
From Verif Require Import Base M_Field M_LRU S_LRU S_Visits M_Memory M_File M_Serialize M_Num M_FanIn M_Search M_Concurrent M_SearchConc M_Disk P_Base P_File P_LRU S_Concurrent P_Concurrent P_Concurrent2 P_DiskBase P_DiskInv P_DiskMem P_DiskWriter P_DiskTerm P_DiskDocs P_DiskDocs2 P_DiskDocs3 X_DiskExec P_DiskBusy P_DiskBusy2 P_DiskBusy3 P_DiskBusy4 P_DiskBusy5 P_DiskBusy6 M_DiskBusy M_DiskMulti P_DiskIndex3 P_DiskIndex4 P_DiskFair P_DiskFair2 S_Disk S_DiskFair S_DiskMulti P_DiskMulti P_DiskMulti2 P_DiskMulti3 P_DiskMulti6 P_DiskMulti7 S_DiskMultiFair.
#[local] Open Scope nat_scope.
#[local] Opaque serialize_metrics deserialize_metrics serialize_nft deserialize_nft serialize_field_map deserialize_field_map serialize_index deserialize_index.

Section fair.
  Variables (compress : bytes -> bytes) (decompress : bytes -> option bytes) (cache_size : Z).
  Hypothesis gz : gzip_ok compress decompress.
  Hypothesis pos : (0 < cache_size)%Z.
  Notation live := (multi_live compress decompress cache_size).
  Notation reach := (multi_reachable compress decompress cache_size).
  Notation rstep := (request_step compress decompress).

  Lemma client_works s u log sh ths qs i th cl ev sh' u' th' : ths !! i = Some (th, cl) -> client_step (sh, u, th) ev (sh', u', th') ->
    rstep (mkMulti (mkSys s (Up u) log) sh ths qs) (mkMulti (mkSys s (Up u') (log ++ ev)) sh' (<[i := (th', cl)]> ths) qs).
  Proof.
    intros Hi H. split; [by eapply wk_client|]. cbn. intros E. assert ((<[i := (th', cl)]> ths) !! i = Some (th', cl)) as E2 by (apply list_lookup_insert; by eapply lookup_lt_Some).
    rewrite E, Hi in E2. injection E2 as E2. destruct th as [pc m0], th' as [pc' m0']. apply c_rank_client in H. injection E2 as -> ->. lia.
  Qed.
  Lemma call_works s u log sh ths qs i c cl : ths !! i = Some (TIdle, NoMsg, c :: cl) ->
    rstep (mkMulti (mkSys s (Up u) log) sh ths qs) (mkMulti (mkSys s (Up u) (log ++ [ECall c])) sh (<[i := (t_enter true c, NoMsg, cl)]> ths) qs).
  Proof.
    intros Hi. split; [by eapply wk_call|]. cbn. intros E. assert ((<[i := (t_enter true c, NoMsg, cl)]> ths) !! i = Some (t_enter true c, NoMsg, cl)) as E2 by (apply list_lookup_insert; by eapply lookup_lt_Some).
    rewrite E, Hi in E2. injection E2 as _ E2. clear -E2. assert (length (c :: cl) = length cl) as K by (by rewrite E2). cbn in K. lia.
  Qed.
  Lemma request_rank a b : rstep a b -> total_rank b < total_rank a.
  Proof.
    intros [H Ht]. inversion H as [|s u log sh ths qs i c cl Hi E1 E2|s u log sh ths qs i th cl ev sh' u' th' Hi HC E1 E2]; subst; cbn in *; [done| |]; unfold total_rank; cbn [mu_threads].
    - eapply sum_insert; [exact Hi|]. unfold th_rank. cbn. lia.
    - eapply sum_insert; [exact Hi|]. destruct th as [pc m0], th' as [pc' m0']. apply c_rank_client in HC. unfold th_rank. cbn. lia.
  Qed.
  Lemma client_parts sh u th ev sh' u' th' : client_step (sh, u, th) ev (sh', u', th') ->
    steady (u_mw u) (u_mw u') /\ steady (u_nw u) (u_nw u') /\ steady (u_dw u) (u_dw u') /\ u_iw u' = u_iw u.
  Proof.
    intros H. unfold steady. inversion H; subst; cbn [u_mw u_nw u_dw u_iw with_mw with_nw with_dw with_ich with_mem]; repeat split; intros Hn; try (by left).
    all: exfalso; apply Hn; match goal with E : _ = mkW _ WIdle |- _ => by rewrite E end.
  Qed.
  (** What one moment can change. *)
  Lemma live_parts a b u u' : live a b -> length (mu_threads b) <= length (mu_threads a) -> mu_open a u -> mu_open b u' -> u_pc u = CIdle ->
    (steady (u_mw u) (u_mw u') /\ steady (u_nw u) (u_nw u') /\ steady (u_dw u) (u_dw u') /\ (i_pc (u_iw u) <> IIdle -> u_iw u' = u_iw u \/ i_rank (u_iw u') < i_rank (u_iw u))) /\
    ((mu_threads b = mu_threads a /\ (u_ich u' = u_ich u \/ length (u_ich u') < length (u_ich u))) \/ rstep a b).
  Proof.
    intros H Hl Hu Hu' Hp. unfold mu_open in *. destruct H as [y y' sh ths qs K1 K2|y y' sh ths qs g v sh' K1 K2 K3 K4|y y' sh ths qs v v' K1 K2 K3 K4|s v log sh ths qs cl|s v log sh ths qs i c cl Hi|s v log sh ths qs i th cl ev sh' v' th' Hi HC|s v log sh ths qs c t f|s v log sh ths qs i c t f q m q' Hi HS]; cbn [mu_sys mu_threads y_proc] in *.
    - exfalso. by eapply K2.
    - congruence.
    - rewrite Hu in K2. rewrite Hu' in K3. injection K2 as <-. injection K3 as <-. inversion K1 as [| | |s v ev v' s' log G|s v v' s' log G|v ev v' s log G]; subst; cbn in Hu, Hu'; try discriminate; injection Hu as ->; injection Hu' as ->.
      + split; [split; [by eapply step_mw|]; split; [by eapply step_nw|]; split; [by eapply step_dw|by eapply step_iw]|]. left. split; [done|]. eapply step_ich; [exact G|congruence].
      + apply tick_same in G. destruct G as (_ & E & _ & G1 & G2 & G3 & G4). split; [split; [done|]; split; [done|]; split; [done|]; intros Hn; left; by apply G4|]. left. split; [done|]. by left.
      + apply call_parts in G. destruct G as (E1 & E2 & E3 & E4 & E5). split; [repeat split; intros Hn; by left|]. left. split; [done|]. by left.
    - rewrite app_length in Hl. cbn in Hl. lia.
    - injection Hu as ->. injection Hu' as ->. split; [repeat split; intros Hn; by left|]. right. by apply call_works.
    - injection Hu as ->. injection Hu' as ->. split; [|right; by eapply client_works]. apply client_parts in HC as (? & ? & ? & E). repeat split; try done. intros Hn. by left.
    - injection Hu as ->. injection Hu' as ->. split; [repeat split; intros Hn; by left|]. left. split; [done|]. by left.
    - injection Hu as ->. injection Hu' as <-. split; [repeat split; intros Hn; by left|]. left. split; [done|]. by left.
  Qed.

  (** * A goroutine that cannot take a step waits for a writer *)
  Definition waits_for (u : up) (th : tpc * msg * list call) : Prop :=
    match th.1.2 with
    | FSend _ _ _ => w_pc (u_mw u) <> WIdle
    | ISend _ => 100 <= length (u_ich u)
    | NSend _ _ _ => w_pc (u_nw u) <> WIdle
    | DDoc _ _ _ | DSend _ _ _ => w_pc (u_dw u) <> WIdle
    | _ => False
    end.
  Lemma stuck a u i th : reach a -> good_log (mu_log a) -> mu_open a u -> mu_threads a !! i = Some th -> th <> (TIdle, NoMsg, []) -> (forall b, ~ rstep a b) -> waits_for u th.
  Proof.
    intros R Hg Hu Hi Hn Hno. destruct (m_up compress decompress cache_size gz a u R Hg Hu) as (Bl & Bw & G & L & ol & oa & I).
    destruct (d_reach_multi compress decompress cache_size gz pos a R Hg) as [_ D]. unfold mu_open in Hu. rewrite Hu in D. destruct D as (own & HU & HT & _).
    destruct a as [[s p log] sh ths qs]. cbn in *. subst p. destruct th as [[pc m] cl].
    assert (forall ev sh' u' th', client_step (sh, u, (pc, m)) ev (sh', u', th') -> False) as CL.
    { intros ev sh' u' th' St. eapply Hno. eapply client_works; [exact Hi|exact St]. }
    pose proof (HT _ (elem_of_list_lookup_2 _ _ _ Hi)) as T0. cbn in T0. unfold waits_for. cbn.
    destruct m.
    - exfalso. destruct (t_idle pc) as [->|Hpc].
      + destruct cl as [|c cl]; [done|]. eapply Hno. by eapply call_works.
      + destruct (t_total sh pc Hpc) as (s1 & p1 & St). eapply CL. by apply m_map.
    - exfalso. eapply CL. constructor.
    - exfalso. eapply CL. constructor.
    - intros Hw. eapply CL. constructor. by apply idle_w'.
    - destruct (decide (length (u_ich u) < 100)) as [Hl|Hl]; [exfalso; eapply CL; by constructor|lia].
    - exfalso. eapply CL. constructor.
    - intros Hw. eapply CL. constructor. by apply idle_w'.
    - intros Hw. destruct T0 as [_ T0]. pose proof (uo_mem _ _ _ _ _ _ HU) as K. pose proof K as [K1 K2 K3 _]. destruct dp as [[e|l|l]|].
      + destruct T0 as [l El]. eapply CL. apply m_doc. apply (ds_deref _ _ _ _ _ l). unfold lru_deref. by rewrite El.
      + destruct (proj2 (K2 l)) as [fd Hfd]; [eauto|]. eapply CL. apply m_doc. eapply ds_write; [exact Hfd|]. intros (k & ks & T & E & _). congruence.
      + destruct (cache_put_some _ _ _ d l pos K1) as [c' Hc]. eapply CL. eapply m_doc_put. by apply ds_put.
      + destruct (cache_get_some _ _ _ d K1) as (c' & [e|] & Hc).
        * eapply CL. apply m_doc. by eapply ds_hit.
        * destruct (P_DiskMulti7.fresh_at (c_heap (u_mem u))) as [l Hl]. eapply CL. apply m_doc. by eapply ds_miss.
    - intros Hw. eapply CL. constructor. by apply idle_w'.
  Qed.
  Lemma docs_ready' u s log own : up_wf u s -> up_ok compress cache_size u log None own -> w_pc (u_dw u) <> WIdle -> ~ up_fatal decompress (u, s) -> exists ev u' s', up_step compress decompress (u, s) ev (u', s') /\ acts DocsWriter u u'.
  Proof.
    intros Hw HU Hn Hf. pose proof (wf_dw _ _ Hw) as W. destruct HU as [K Hb _ _ _ _ _]. destruct K as [_ Ho _ _]. destruct u as [m pc ich mw nw dw iw mg]. cbn [u_dw u_mem] in *.
    destruct (w_enabled compress d_dir d_name (d_ser (c_heap m)) (d_ser_fails (c_heap m)) (d_serf (c_heap m)) anyk dw s) as (w' & s' & G); [| |exact W|done|intros F; apply Hf; by apply f_docs|].
    - intros k l T Hl ET. unfold d_serf in ET. destruct (c_heap m !! l) as [x|] eqn:Ex; [|discriminate ET].
      exists x, (visit_fields x). split; [done|]. split; [apply visit_fields_ok|exact ET].
    - intros k l Hl ET. unfold d_serf in ET. destruct (proj2 (Ho l)) as [x Ex]; [rewrite (Hb _ _ Hl); eauto|]. rewrite Ex in ET.
      exists x, (visit_fields x). split; [done|]. split; [apply visit_fields_ok|exact ET].
    - eexists _, _, _. split; [by apply u_docs|]. cbn. split; [done|]. intros E. apply w_rank_step in G. rewrite E in G. lia.
  Qed.
  Section time.
  Variable r : nat -> multi.
  Hypothesis ex : multi_run compress decompress cache_size r.
  Hypothesis fa : multi_fair compress decompress r.
  Hypothesis re : reach (r 0).
  Hypothesis go : forall i, good_log (mu_log (r i)).
  Lemma mr_reach i : reach (r i).
  Proof. induction i as [|i IH]; [done|]. destruct (ex i) as [[->|[H _]] _]; [done|]. unfold multi_reachable in *. eapply rtc_r; [exact IH|]. by left. Qed.
  Lemma mr_up i : exists u own, mu_open (r i) u /\ ~ up_fatal decompress (u, y_fs (mu_sys (r i))) /\ up_wf u (y_fs (mu_sys (r i))) /\ up_ok compress cache_size u (mu_log (r i)) None own /\ u_pc u = CIdle.
  Proof.
    destruct (ex i) as [_ [[u Hu] Hf]]. destruct (m_up compress decompress cache_size gz (r i) u (mr_reach i) (go i) Hu) as (Bl & Bw & G & L & ol & oa & I).
    destruct (d_reach_multi compress decompress cache_size gz pos (r i) (mr_reach i) (go i)) as [_ D]. pose proof Hu as Hu2. unfold mu_open in Hu2. rewrite Hu2 in D. destruct D as (own & HU & HT & _).
    pose proof (mi_pc _ _ _ _ _ _ _ _ _ _ I) as Ip. exists u, own. split; [done|]. split; [|done]. intros X. apply Hf. by exists u.
  Qed.
  Lemma mr_step i u u' : mu_open (r i) u -> mu_open (r (S i)) u' ->
    (steady (u_mw u) (u_mw u') /\ steady (u_nw u) (u_nw u') /\ steady (u_dw u) (u_dw u') /\ (i_pc (u_iw u) <> IIdle -> u_iw u' = u_iw u \/ i_rank (u_iw u') < i_rank (u_iw u))) /\
    ((mu_threads (r (S i)) = mu_threads (r i) /\ (u_ich u' = u_ich u \/ length (u_ich u') < length (u_ich u))) \/ rstep (r i) (r (S i))).
  Proof.
    intros Hu Hu'. destruct (mr_up i) as (v & own & Hv & _ & _ & _ & Hp). assert (v = u) as -> by (unfold mu_open in *; congruence).
    destruct (ex i) as [[E|[H Hl]] _]; [|by eapply live_parts].
    rewrite E in *. assert (u' = u) as -> by (unfold mu_open in *; congruence). split; [repeat split; intros _; by left|]. left. split; [done|]. by left.
  Qed.
  Lemma mcan A i u : mu_open (r i) u -> (exists ev u' s', up_step compress decompress (u, y_fs (mu_sys (r i))) ev (u', s') /\ acts A u u') -> can_move compress decompress A (mu_sys (r i)).
  Proof. intros Hu (ev & u' & s' & G & Ga). exists (mkSys s' (Up u') (y_log (mu_sys (r i)) ++ ev)). exists u, ev, u'. cbn. done. Qed.
  Lemma mdid A i u u' : mu_open (r i) u -> mu_open (r (S i)) u' -> moves compress decompress A (mu_sys (r i)) (mu_sys (r (S i))) -> exists ev, up_step compress decompress (u, y_fs (mu_sys (r i))) ev (u', y_fs (mu_sys (r (S i)))) /\ acts A u u'.
  Proof. intros Hu Hu' (v & ev & v' & Hv & Hv' & _ & G & Ga). unfold mu_open in *. rewrite Hu in Hv. rewrite Hu' in Hv'. injection Hv as <-. injection Hv' as <-. eauto. Qed.
  Definition midle {V} (get : up -> writer V) (i : nat) : Prop := exists u, mu_open (r i) u /\ w_pc (get u) = WIdle.
  Lemma mw_often_ {V} (get : up -> writer V) A : A <> Caller ->
    (forall i u u', mu_open (r i) u -> mu_open (r (S i)) u' -> steady (get u) (get u')) ->
    (forall u u', acts A u u' -> get u' <> get u) ->
    (forall u s log own, up_wf u s -> up_ok compress cache_size u log None own -> u_pc u = CIdle -> w_pc (get u) <> WIdle -> ~ up_fatal decompress (u, s) -> exists ev u' s', up_step compress decompress (u, s) ev (u', s') /\ acts A u u') ->
    forall i, exists j, i <= j /\ midle get j.
  Proof.
    intros HA St S4 S5.
    assert (forall w : writer V, {w_pc w = WIdle} + {w_pc w <> WIdle}) as dec by (intros w; destruct (w_pc w); by (left + right)).
    apply (progress (midle get) (fun i => moves compress decompress A (mu_sys (r i)) (mu_sys (r (S i)))) (fun i => match y_proc (mu_sys (r i)) with Up u => w_rank (get u) | _ => 0 end)).
    - intros i. destruct (mr_up i) as (u & _ & Hu & _). destruct (mr_up (S i)) as (u' & _ & Hu' & _). destruct (dec (get u)) as [E|E]; [left; by exists u|right]. 
      destruct (St i u u' Hu Hu' E) as [G|G]; unfold mu_open in *; rewrite Hu, Hu'; [rewrite G|]; lia.
    - intros i Hm. destruct (mr_up i) as (u & _ & Hu & _). destruct (mr_up (S i)) as (u' & _ & Hu' & _). destruct (dec (get u)) as [E|E]; [left; by exists u|right].
      destruct (mdid A i u u' Hu Hu' Hm) as (ev & _ & Ga). destruct (St i u u' Hu Hu' E) as [G|G]; [by apply S4 in Ga|]. unfold mu_open in *. by rewrite Hu, Hu'.
    - intros i. destruct (proj1 fa A i HA) as [(k & Hk & Hm)|(k & Hk & Hm)]; [eauto|]. destruct (mr_up k) as (u & own & Hu & Hf & Hw & HD & Hp).
      destruct (dec (get u)) as [E|E]; [exists k; split; [done|]; left; by exists u|]. exfalso. apply (Hm k); [done|]. apply (mcan _ _ u Hu). by eapply S5.
  Qed.
  Lemma mmw i : exists j, i <= j /\ midle u_mw j.
  Proof. apply (mw_often_ u_mw MetricsWriter); [done|intros; by eapply mr_step|by intros u u' [_ H]|intros; by eapply mw_ready]. Qed.
  Lemma mnw i : exists j, i <= j /\ midle u_nw j.
  Proof. apply (mw_often_ u_nw NftWriter); [done|intros; by eapply mr_step|by intros u u' [_ H]|intros; by eapply nw_ready]. Qed.
  Lemma mdw i : exists j, i <= j /\ midle u_dw j.
  Proof.
    apply (mw_often_ u_dw DocsWriter); [done|intros; by eapply mr_step|by intros u u' [_ H]|].
    intros u s log own Hw HU Hp Hn Hf. by eapply docs_ready'.
  Qed.
  Lemma miw i : exists j, i <= j /\ exists u, mu_open (r j) u /\ i_pc (u_iw u) = IIdle.
  Proof.
    assert (forall w : iwriter, {i_pc w = IIdle} + {i_pc w <> IIdle}) as dec by (intros w; destruct (i_pc w); by (left + right)).
    revert i. apply (progress (fun j => exists u, mu_open (r j) u /\ i_pc (u_iw u) = IIdle) (fun i => moves compress decompress IndexWriter (mu_sys (r i)) (mu_sys (r (S i)))) (fun i => match y_proc (mu_sys (r i)) with Up u => i_rank (u_iw u) | _ => 0 end)).
    - intros i. destruct (mr_up i) as (u & _ & Hu & _). destruct (mr_up (S i)) as (u' & _ & Hu' & _). destruct (dec (u_iw u)) as [E|E]; [left; by exists u|right].
      destruct (mr_step i u u' Hu Hu') as [(_ & _ & _ & G) _]. destruct (G E) as [G2|G2]; unfold mu_open in *; rewrite Hu, Hu'; [rewrite G2|]; lia.
    - intros i Hm. destruct (mr_up i) as (u & _ & Hu & _). destruct (mr_up (S i)) as (u' & _ & Hu' & _). destruct (dec (u_iw u)) as [E|E]; [left; by exists u|right].
      destruct (mdid _ i u u' Hu Hu' Hm) as (ev & _ & _ & _ & Ga). destruct (mr_step i u u' Hu Hu') as [(_ & _ & _ & G) _]. destruct (G E) as [G2|G2]; [done|]. unfold mu_open in *. by rewrite Hu, Hu'.
    - intros i. destruct (proj1 fa IndexWriter i) as [(k & Hk & Hm)|(k & Hk & Hm)]; [done|eauto|]. destruct (mr_up k) as (u & own & Hu & Hf & Hw & HD & Hp).
      destruct (dec (u_iw u)) as [E|E]; [exists k; split; [done|]; left; by exists u|]. exfalso. apply (Hm k); [done|]. apply (mcan _ _ u Hu). by eapply iw_ready.
  Qed.
  (** * Where no goroutine of a request can take a step any more *)
  Section frozen.
    Variable k : nat.
    Hypothesis fz : forall m b, k <= m -> ~ rstep (r m) b.
    Lemma fz_threads d : mu_threads (r (k + d)) = mu_threads (r k).
    Proof.
      induction d as [|d IH]; [by rewrite Nat.add_0_r|]. rewrite Nat.add_succ_r, <- IH. destruct (mr_up (k + d)) as (u & _ & Hu & _). destruct (mr_up (S (k + d))) as (u' & _ & Hu' & _).
      destruct (mr_step _ u u' Hu Hu') as [_ [[E _]|H]]; [done|]. exfalso. eapply (fz (k + d)); [lia|exact H].
    Qed.
    Lemma fz_room : exists d u, mu_open (r (k + d)) u /\ length (u_ich u) < 100.
    Proof.
      destruct (progress (fun d => exists u, mu_open (r (k + d)) u /\ length (u_ich u) < 100) (fun d => moves compress decompress IndexReceive (mu_sys (r (k + d))) (mu_sys (r (S (k + d))))) (fun d => match y_proc (mu_sys (r (k + d))) with Up u => length (u_ich u) | _ => 0 end)) with (i := 0) as (d & _ & u & H); [| | |by exists d, u].
      - intros d. destruct (mr_up (k + d)) as (u & _ & Hu & _). destruct (mr_up (S (k + d))) as (u' & _ & Hu' & _). right. rewrite Nat.add_succ_r.
        destruct (mr_step _ u u' Hu Hu') as [_ [[_ E]|H]]; [|exfalso; eapply (fz (k + d)); [lia|exact H]]. unfold mu_open in *. rewrite Hu, Hu'. destruct E as [->|E]; lia.
      - intros d Hm. destruct (mr_up (k + d)) as (u & _ & Hu & _). destruct (mr_up (S (k + d))) as (u' & _ & Hu' & _). right. rewrite Nat.add_succ_r.
        destruct (mdid _ _ u u' Hu Hu' Hm) as (ev & _ & _ & Ga). destruct (mr_step _ u u' Hu Hu') as [_ [[_ E]|H]]; [|exfalso; eapply (fz (k + d)); [lia|exact H]]. unfold mu_open in *. rewrite Hu, Hu'. destruct E as [E|E]; [done|lia].
      - intros d. destruct (proj1 fa IndexReceive (k + d)) as [(j & Hj & Hm)|(j & Hj & Hm)]; [done|exists (j - k); split; [lia|]; right; by replace (k + (j - k)) with j by lia|].
        destruct (miw j) as (j2 & Hj2 & u & Hu & E). exists (j2 - k). split; [lia|]. left. replace (k + (j2 - k)) with j2 by lia. exists u. split; [done|].
        destruct (decide (length (u_ich u) < 100)) as [Hl|Hl]; [done|exfalso]. apply (Hm j2); [done|]. apply (mcan _ _ u Hu). apply recv_ready; [intros E2; rewrite E2 in Hl; cbn in Hl; lia|done].
    Qed.
    Lemma fz_served : served (r k).
    Proof.
      destruct (served_or (mu_threads (r k))) as [?|(i & th & Hi & Hn)]; [done|exfalso].
      assert (forall d u, mu_open (r (k + d)) u -> waits_for u th) as W.
      { intros d u Hu. apply (stuck (r (k + d)) u i th); [apply mr_reach|apply go|exact Hu|by rewrite fz_threads|done|]. intros b. apply fz. lia. }
      destruct (mmw k) as (j1 & J1 & u1 & U1 & E1). destruct (mnw k) as (j2 & J2 & u2 & U2 & E2). destruct (mdw k) as (j3 & J3 & u3 & U3 & E3). destruct fz_room as (d4 & u4 & U4 & E4).
      replace j1 with (k + (j1 - k)) in U1 by lia. replace j2 with (k + (j2 - k)) in U2 by lia. replace j3 with (k + (j3 - k)) in U3 by lia.
      apply W in U1, U2, U3, U4. unfold waits_for in *. destruct th.1.2; try done. lia.
    Qed.
  End frozen.
  Lemma served_at i : exists j, i <= j /\ served (r j).
  Proof.
    revert i. apply (progress (fun j => served (r j)) (fun j => rstep (r j) (r (S j))) (fun j => total_rank (r j))).
    - intros i. right. destruct (mr_up i) as (u & _ & Hu & _). destruct (mr_up (S i)) as (u' & _ & Hu' & _). destruct (mr_step i u u' Hu Hu') as [_ [[E _]|H]]; [unfold total_rank; by rewrite E|]. apply request_rank in H. lia.
    - intros i H. right. by apply request_rank.
    - intros i. destruct (proj2 fa i) as [(k & Hk & H)|(k & Hk & H)]; exists k; (split; [done|]); [by right|left; by apply fz_served].
  Qed.
  End time.
End fair.
