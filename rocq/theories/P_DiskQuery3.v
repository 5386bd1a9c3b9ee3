(** Searches that run on the disk storage while several goroutines save (C68): the
    statistics. *)
From Verif Require Import Base M_Field M_LRU S_Visits M_Memory M_File M_Serialize M_Num M_FanIn M_Search M_Concurrent M_SearchConc M_Disk P_Base P_File P_LRU S_Concurrent P_Concurrent P_Concurrent2 P_DiskBase P_DiskInv P_DiskMem P_DiskWriter M_DiskBusy M_DiskMulti P_DiskIndex3 P_DiskIndex4 S_Disk S_DiskMulti S_DiskMulti2 S_DiskQuery P_DiskMulti P_DiskMulti2 P_DiskMulti3 P_DiskMulti5 P_DiskMulti8 P_DiskMulti9.
#[local] Opaque serialize_metrics serialize_nft serialize_field_map serialize_index deserialize_index deserialize_nft deserialize_field_map deserialize_metrics.

Section stat.
  Variables (compress : bytes -> bytes) (decompress : bytes -> option bytes) (cache_size : Z).
  Hypothesis gz : gzip_ok compress decompress.
  Notation step := (multi_step compress decompress cache_size).
  Notation live := (multi_live compress decompress cache_size).
  Notation reach := (multi_reachable compress decompress cache_size).
  Notation session := (mu_session compress decompress cache_size).
  Notation moment := (mu_moment compress decompress cache_size).

  (** The numbers read so far. *)
  Definition q_len (q : msearch) : option Z :=
    match q with MqLength => None | MqSize len | MqNft len _ _ _ | MqNftTerm len _ _ _ _ _ | MqIds len _ _ _ | MqFields len _ _ _ | MqRet len _ _ _ => Some len end.
  Definition q_size (q : msearch) : option Z :=
    match q with MqLength | MqSize _ => None | MqNft _ n _ _ | MqNftTerm _ n _ _ _ _ | MqIds _ n _ _ | MqFields _ n _ _ | MqRet _ n _ _ => Some n end.
  Lemma search_len ncpu terms f sh m s q m' q' len : msearch_step decompress ncpu terms f sh m s q (m', q') -> q_len q' = Some len -> q_len q = Some len \/ len = geti (k_length sh) f.
  Proof. intros H. inversion H; subst; cbn; try (by left). intros [= <-]. by right. Qed.
  Lemma search_size ncpu terms f sh m s q m' q' n : msearch_step decompress ncpu terms f sh m s q (m', q') -> q_size q' = Some n -> q_size q = Some n \/ n = geti (k_size sh) f.
  Proof. intros H. inversion H; subst; cbn; try (by left); try done. intros [= <-]. by right. Qed.

  Definition lb_ok (log : list event) (q : mquery) : Prop :=
    nd (mq_field q) -> moderate (mq_field q) log ->
    (forall len, q_len (mq_pc q) = Some len -> 0 <= len <= length_saved (mq_field q) log) /\ (forall n, q_size (mq_pc q) = Some n -> 0 <= n <= times_saved (mq_field q) log).
  Lemma lb_app log ev q : lb_ok log q -> lb_ok (log ++ ev) q.
  Proof.
    intros H Hn Hm. destruct (mod_app _ _ _ Hm) as (M & L1 & L2). destruct (H Hn M) as [K1 K2]. split; [intros len E; specialize (K1 _ E)|intros n E; specialize (K2 _ E)]; lia.
  Qed.
  Lemma lb_all log ev qs : Forall (lb_ok log) qs -> Forall (lb_ok (log ++ ev)) qs.
  Proof. intros H. eapply Forall_impl; [exact H|]. intros q. apply lb_app. Qed.
  Lemma tm_bounds a u f : reach a -> good_log (mu_log a) -> mu_open a u -> nd f -> moderate f (mu_log a) ->
    0 <= geti (k_size (mu_sh a)) f <= times_saved f (mu_log a) /\ 0 <= geti (k_length (mu_sh a)) f <= length_saved f (mu_log a).
  Proof.
    intros R Hg Hu Hf Hm. destruct (e_reach compress decompress cache_size gz a R Hg) as [_ (_ & _ & H)]. unfold mu_open in Hu. rewrite Hu in H. destruct H as [_ _ H _]. specialize (H f Hf Hm). destruct (tm_tot _ _ _ _ _ H) as [T1 T2]. destruct H as [T3 T4 _].
    unfold mu_log. lia.
  Qed.
  Lemma lb_step a b : reach a -> step a b -> good_log (mu_log b) -> Forall (lb_ok (mu_log a)) (mu_qs a) -> Forall (lb_ok (mu_log b)) (mu_qs b).
  Proof.
    intros R Hab Hg Ha. pose proof (m_good_mono _ _ _ _ _ Hab Hg) as Hga. destruct Hab as [H|(y' & H & ->)]; [|constructor]. pose proof (m_log_mono compress decompress cache_size a b ltac:(by left)) as (ev0 & El).
    inversion H; subst; unfold mu_log in *; cbn [mu_sys mu_sh mu_threads mu_qs y_proc y_fs y_log] in *; try (by constructor); try (rewrite El; by apply lb_all).
    - apply Forall_app. split; [done|]. constructor; [|constructor]. intros _ _. by split.
    - apply Forall_insert; [done|]. match goal with K : qs !! i = _ |- _ => pose proof (Forall_lookup_1 _ _ _ _ Ha K) as Q end. match goal with K : msearch_step _ _ _ _ _ _ _ _ _ |- _ => rename K into St end.
      intros Hn Hm. destruct (Q Hn Hm) as [Q1 Q2]. cbn [mq_field mq_pc] in *. destruct (tm_bounds _ u f R Hga eq_refl Hn Hm) as [B1 B2]. unfold mu_log in *. cbn [mu_sys mu_sh y_log] in *.
      split; [intros len E; destruct (search_len _ _ _ _ _ _ _ _ _ _ St E) as [E2| ->]|intros n E; destruct (search_size _ _ _ _ _ _ _ _ _ _ St E) as [E2| ->]]; auto.
  Qed.
  Lemma lb_reach a : reach a -> good_log (mu_log a) -> Forall (lb_ok (mu_log a)) (mu_qs a).
  Proof.
    intros R. pose proof R as R0. unfold multi_reachable in R0. revert a R0 R. apply (rtc_ind_r (fun a => reach a -> good_log (mu_log a) -> Forall (lb_ok (mu_log a)) (mu_qs a))).
    - intros _ _. constructor.
    - intros a b R0 Hab IH _ Hg. pose proof (m_good_mono _ _ _ _ _ Hab Hg) as Ga. assert (reach a) as R by done. eapply lb_step; [done|exact Hab|done|]. by apply IH.
  Qed.

  (** Moments. *)
  Lemma session_open a b : session a b -> (exists u, mu_open a u) -> exists u, mu_open b u.
  Proof.
    intros H. induction H as [|a b c [H1 [u Hu]] _ IH]; [done|]. intros _. apply IH. destruct (proj_step _ _ _ _ _ _ [] H1 Hu) as [? _]. done.
  Qed.
  Lemma moment_later a b c P : session b c -> moment a b P -> moment a c P.
  Proof. intros H (m & u & H1 & H2 & H3 & H4). exists m, u. split; [done|]. split; [unfold mu_session in *; by etransitivity|done]. Qed.
  Definition st_ok (a b : multi) (f : string) (q : msearch) : Prop :=
    (forall len, q_len q = Some len -> moment a b (fun sh => mem_get_length (view sh) f = len)) /\ (forall n, q_size q = Some n -> moment a b (fun sh => mem_get_size (view sh) f = n)).
  Lemma st_session a b : session a b -> (exists u, mu_open a u) -> forall i ncpu terms f q, (mu_searches a <= i)%nat -> mu_qs b !! i = Some (mkMQ ncpu terms f q) -> st_ok a b f q.
  Proof.
    intros R [ua Hua]. pose proof R as R0. unfold mu_session in R0. revert b R0 R. apply (rtc_ind_r (fun b => session a b -> forall i ncpu terms f q, (mu_searches a <= i)%nat -> mu_qs b !! i = Some (mkMQ ncpu terms f q) -> st_ok a b f q)).
    - intros _ i ncpu terms f q Hi Hq. apply lookup_lt_Some in Hq. unfold mu_searches in Hi. lia.
    - intros b c Rb [HL [u Hu]] IH _ i ncpu terms f q Hi Hq. assert (session b c) as Hbc by (apply rtc_once; split; [done|by exists u]). assert (session a b) as Hab by done. specialize (IH Hab).
      assert (forall ncpu terms f q, mu_qs b !! i = Some (mkMQ ncpu terms f q) -> st_ok a c f q) as Old.
      { intros ncpu0 terms0 f0 q0 H0. destruct (IH _ _ _ _ _ Hi H0) as [K1 K2]. split; [intros len E|intros n E]; eapply moment_later; try exact Hbc; auto. }
      assert (forall P : shared -> Prop, P (mu_sh b) -> moment a c P) as Now. { intros P HP. exists b, u. by split. }
      unfold mu_open in Hu. inversion HL; subst; cbn [mu_qs mu_sys y_proc mu_sh] in *.
      + by eapply Old.
      + congruence.
      + by eapply Old.
      + by eapply Old.
      + by eapply Old.
      + by eapply Old.
      + apply lookup_app_Some in Hq as [Hq|[_ Hq]]; [by eapply Old|]. apply list_lookup_singleton_Some in Hq as [_ E]. injection E as <- <- <- <-. by split.
      + match goal with K : msearch_step _ _ _ _ _ _ _ _ _ |- _ => rename K into St end. match goal with K : qs !! ?j = Some _ |- _ => rename K into Qj; rename j into j0 end.
        destruct (decide (j0 = i)) as [->|Hne]; [|rewrite list_lookup_insert_ne in Hq by done; by eapply Old]. rewrite list_lookup_insert in Hq by (by eapply lookup_lt_Some). injection Hq as -> -> -> ->.
        destruct (Old _ _ _ _ Qj) as [K1 K2]. split; [intros len E; destruct (search_len _ _ _ _ _ _ _ _ _ _ St E) as [E2| ->]|intros n E; destruct (search_size _ _ _ _ _ _ _ _ _ _ St E) as [E2| ->]]; auto.
  Qed.
End stat.
