(** Searches that run on the disk storage while the client saves (C64): runs. *)
From Verif Require Import Base M_Field M_LRU S_Visits M_Memory M_File M_Serialize M_Num M_FanIn M_Search M_SearchConc M_Disk P_Base P_LRU P_FanIn2 P_SearchConc P_DiskBase P_DiskInv P_DiskMem P_DiskWriter P_DiskDocs P_DiskBusy P_DiskBusy2 P_DiskBusy3 P_DiskBusy4 P_DiskBusy5 P_DiskBusy6 P_DiskBusy7 P_DiskBusy8 P_DiskBusy9 M_DiskBusy S_Disk.
#[local] Open Scope nat_scope.
#[local] Opaque serialize_metrics serialize_nft serialize_field_map serialize_index deserialize_index deserialize_nft deserialize_field_map deserialize_metrics.

Section runs.
  Variables (compress : bytes -> bytes) (decompress : bytes -> option bytes) (cache_size : Z) (N : numops) (ncpu : nat).
  Hypothesis gz : gzip_ok compress decompress.
  Hypothesis pos : (0 < cache_size)%Z.
  Notation blive := (busy_live compress decompress cache_size N ncpu).
  Notation sound := (sound compress cache_size N).
  Definition goodb (b : busy N) : Prop := base (by_sys b) /\ sound b.
  Lemma live_log a b : rtc blive a b -> exists ev, y_log (by_sys b) = y_log (by_sys a) ++ ev.
  Proof. intros H. eapply (busy_log_rtc compress decompress cache_size N ncpu). eapply rtc_subrel; [|exact H]. intros x y Hxy. by left. Qed.
  Lemma good_prefix a b : rtc blive a b -> good_log (y_log (by_sys b)) -> good_log (y_log (by_sys a)).
  Proof. intros H Hg. destruct (live_log _ _ H) as [ev E]. rewrite E in Hg. by apply good_app in Hg as [? _]. Qed.
  Lemma live_good a b : blive a b -> goodb a -> good_log (y_log (by_sys b)) -> goodb b.
  Proof. intros H [Ba Sa] Hg. split; [eapply base_busy; [exact Ba|by left|done]|eapply sound_step; [done|done|exact Ba|exact Sa|by left]]. Qed.
  Lemma rtc_good a b : rtc blive a b -> goodb a -> good_log (y_log (by_sys b)) -> goodb b.
  Proof.
    induction 1 as [a|a b c Hab Hbc IH]; [done|]. intros Ga Hg. apply IH; [|done]. eapply live_good; [exact Hab|done|]. by eapply good_prefix.
  Qed.
  Lemma rtc_known a b k : rtc blive a b -> goodb a -> good_log (y_log (by_sys b)) -> known_in N a k -> known_in N b k.
  Proof.
    induction 1 as [a|a b c Hab Hbc IH]; [done|]. intros Ga Hg Hk. pose proof (good_prefix _ _ Hbc Hg) as Hgb. apply IH; [by eapply live_good|done|]. eapply live_known_in; [apply Ga|exact Hab|done].
  Qed.
  Section room.
    Variables (D : gset string).
    Hypothesis Hroom : (Z.of_nat (size D) <= cache_size)%Z.
    Definition fits (b : busy N) : Prop := forall k, known_in N b k -> k ∈ D.
    Lemma fits_back a b : rtc blive a b -> goodb a -> good_log (y_log (by_sys b)) -> fits b -> fits a.
    Proof. intros H Ga Hg Hf k Hk. apply Hf. by eapply rtc_known. Qed.
    Lemma rtc_keeping d x log0 n a b : rtc blive a b -> goodb a -> good_log (y_log (by_sys b)) -> fits b -> keeping N d x log0 n a -> keeping N d x log0 n b.
    Proof.
      induction 1 as [a|a b c Hab Hbc IH]; [done|]. intros Ga Hg Hf K. pose proof (good_prefix _ _ Hbc Hg) as Hgb. apply IH; [by eapply live_good|done|done|].
      eapply keeping_step; [exact Hroom|apply Ga|exact K|exact Hab|]. eapply fits_back; [eapply rtc_l; [exact Hab|exact Hbc]|done|done|done].
    Qed.
    Definition idle_in (b : busy N) : Prop := exists u, y_proc (by_sys b) = Up u /\ u_pc u = CIdle.
    Lemma stage_start d x b : idle_in b -> stage N d x (y_log (by_sys b)) b.
    Proof. intros (u & Hu & Hpc). exists u, []. split; [done|]. split; [by rewrite app_nil_r|]. intros _. by left. Qed.
    Lemma stage_end d x log1 ev b : sound b -> stage N d x log1 b -> calm N d D b -> y_log (by_sys b) = log1 ++ ev -> calls_of ev = [Save d x] -> idle_in b ->
      keeping N d x (y_log (by_sys b)) (length (by_qs b)) b.
    Proof.
      intros [_ Hs] (u & ev0 & Hu & Hlog & Hst) Hcalm Hlog' Hev (u1 & Hu1 & Hpc). rewrite Hu in Hu1. injection Hu1 as <-. rewrite Hlog in Hlog'. apply app_inv_head in Hlog' as ->.
      destruct Hst as [[E _]|[_ M]]; [by rewrite Hev|congruence|]. rewrite Hpc in M. destruct M as (Ha & e & l & Hh). rewrite Hu in Hs. destruct Hs as (own & HU & HQ). exists u, e, l, []. split; [done|]. split; [by rewrite app_nil_r|]. split; [done|]. split; [done|]. split; [rewrite Hpc; by intros c ?%elem_of_nil|].
      split. { pose proof (uo_doc _ _ _ _ _ _ HU) as Hd. rewrite Hpc in Hd. destruct (by_doc b) as [[?|?|?]|]; [..|done]; by destruct Hd as (? & ? & ? & _). }
      split; [done|]. intros i t Hi. left. split; [by eapply lookup_lt_Some|]. destruct Hcalm as [Hal|(x0 & log0 & n & (u1 & e' & l' & ev1 & Hu1 & _ & Hh' & _ & _ & _ & _ & Hq) & _)]; [left; by eapply Hal|].
      rewrite Hu in Hu1. injection Hu1 as <-. assert (e' = e /\ l' = l) as [-> ->]. { destruct Hh' as (A1 & A2 & _). destruct Hh as (B1 & B2 & _). rewrite A1 in B1. injection B1 as <-. rewrite A2 in B2. by injection B2. }
      destruct (Hq _ _ Hi) as [[_ ?]|[_ ?]]; [done|right; by eapply k_o_ok].
    Qed.
    (** The first SaveOrUpdate, while nobody searches. *)
    Definition quiet_live (a b : busy N) : Prop := blive a b /\ alone N b.
    Lemma quiet_rtc a b : rtc quiet_live a b -> rtc blive a b.
    Proof. intros H. eapply rtc_subrel; [|exact H]. by intros x y []. Qed.
    Lemma quiet_stage d x log1 a b : rtc quiet_live a b -> alone N a -> goodb a -> good_log (y_log (by_sys b)) -> stage N d x log1 a -> stage N d x log1 b /\ alone N b.
    Proof.
      induction 1 as [a|a b c [Hab Hal] Hbc IH]; [done|]. intros Ha Ga Hg Hst. pose proof (good_prefix _ _ (quiet_rtc _ _ Hbc) Hg) as Hgb. apply IH; [done|by eapply live_good|done|]. eapply stage_step; [exact Hroom|apply Ga|exact Hst|by left|exact Hab].
    Qed.
    Lemma first_keeping d x a b ev : goodb a -> idle_in a -> alone N a -> rtc quiet_live a b -> good_log (y_log (by_sys b)) -> y_log (by_sys b) = y_log (by_sys a) ++ ev -> calls_of ev = [Save d x] -> idle_in b ->
      keeping N d x (y_log (by_sys b)) (length (by_qs b)) b.
    Proof.
      intros Ga Hi Ha H Hg E Hev Hib. destruct (quiet_stage d x _ _ _ H Ha Ga Hg (stage_start d x a Hi)) as [Hst Hal]. eapply stage_end; [|exact Hst|by left|exact E|done|done]. apply (rtc_good _ _ (quiet_rtc _ _ H) Ga Hg).
    Qed.
    (** A later one. *)
    Lemma later_stage d x x0 log0 n log1 a b : rtc blive a b -> goodb a -> good_log (y_log (by_sys b)) -> fits b -> keeping N d x0 log0 n a -> stage N d x log1 a -> stage N d x log1 b /\ keeping N d x0 log0 n b.
    Proof.
      induction 1 as [a|a b c Hab Hbc IH]; [done|]. intros Ga Hg Hf K Hst. pose proof (good_prefix _ _ Hbc Hg) as Hgb.
      assert (fits a) as Hfa by (eapply fits_back; [eapply rtc_l; [exact Hab|exact Hbc]|done|done|done]).
      apply IH; [by eapply live_good|done|done| |].
      - eapply keeping_step; [exact Hroom|apply Ga|exact K|exact Hab|done].
      - eapply stage_step; [exact Hroom|apply Ga|exact Hst| |exact Hab]. right. exists x0, log0, n. done.
    Qed.
    Lemma later_keeping d x x0 log0 n a b ev : goodb a -> idle_in a -> keeping N d x0 log0 n a -> rtc blive a b -> good_log (y_log (by_sys b)) -> fits b -> y_log (by_sys b) = y_log (by_sys a) ++ ev -> calls_of ev = [Save d x] -> idle_in b ->
      keeping N d x (y_log (by_sys b)) (length (by_qs b)) b.
    Proof.
      intros Ga Hi K H Hg Hf E Hev Hib. destruct (later_stage d x x0 log0 n _ _ _ H Ga Hg Hf K (stage_start d x a Hi)) as [Hst K']. eapply stage_end; [|exact Hst| |exact E|done|done]; [|right; by exists x0, log0, n]. apply (rtc_good _ _ H Ga Hg).
    Qed.
    Lemma keeping_found d x log0 n b i terms r t : keeping N d x log0 n b -> by_qs b !! i = Some (terms, f_name x, SRet r) -> n <= i -> t ∈ terms -> is_Some (f_tf x !! t) ->
      exists y ev, sr_docs r !! d = Some y /\ y_log (by_sys b) = log0 ++ ev /\ (y = x \/ (Save d y ∈ calls_of ev /\ f_name y = f_name x)).
    Proof.
      intros (u & e & l & ev & Hu & Hlog & _ & _ & _ & _ & _ & Hq) Hi Hn Ht Hf. destruct (Hq _ _ Hi) as [[? _]|[_ [K1 K2]]]; [lia|]. cbn in K1, K2. destruct (K2 eq_refl) as [y Hy]; [by exists t|]. exists y, ev. split; [done|]. split; [done|]. exact (K1 d y Hy eq_refl eq_refl).
    Qed.
  End room.
End runs.
