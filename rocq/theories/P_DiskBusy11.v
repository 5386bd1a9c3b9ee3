(** Searches that run on the disk storage while the client saves (C64): the index;
    statistics. *)
From Verif Require Import Base M_Field M_LRU S_Visits M_Memory M_File M_Serialize M_Num M_FanIn M_Search M_SearchConc M_Disk P_Base P_LRU P_FanIn2 P_SearchConc P_DiskBase P_DiskInv P_DiskMem P_DiskWriter P_DiskDocs P_DiskIndex P_DiskIndex2 P_DiskIndex3 P_DiskBusy P_DiskBusy2 P_DiskBusy3 P_DiskBusy4 P_DiskBusy5 P_DiskBusy6 P_DiskBusy7 P_DiskBusy8 P_DiskBusy9 P_DiskBusy10 M_DiskBusy S_Disk.
#[local] Open Scope nat_scope.
#[local] Opaque serialize_metrics serialize_nft serialize_field_map serialize_index deserialize_index deserialize_nft deserialize_field_map deserialize_metrics.

Section index.
  Variables (compress : bytes -> bytes) (decompress : bytes -> option bytes) (cache_size : Z) (N : numops) (ncpu : nat).
  Hypothesis gz : gzip_ok compress decompress.
  Notation blive := (busy_live compress decompress cache_size N ncpu).
  Notation xinv := (x_inv decompress).
  Lemma x_up_mem u s log m pc : x_up decompress u s log -> c_index m = c_index (u_mem u) -> (pc = u_pc u \/ exists d x, u_pc u = CDoc d x /\ (pc = CDoc d x \/ exists l, pc = CDocSend d x l)) -> x_up decompress (with_mem u m pc) s log.
  Proof.
    intros [X1 X2 X3 X4 X5 X6 X7] Hi Hpc. assert (forall f, disk_get_index m f = disk_get_index (u_mem u) f) as Hg by (intros f; unfold disk_get_index; by rewrite Hi).
    assert (forall f t d, flight_pc pc f t d <-> flight_pc (u_pc u) f t d) as Hfl. { destruct Hpc as [->|(d & x & E & [->|[l ->]])]; [done|by rewrite E|]. rewrite E. intros f t d0. split; intros (? & ? & ? & ? & _); done. }
    assert (forall c t, todo pc c t <-> todo (u_pc u) c t) as Htd. { destruct Hpc as [->|(d & x & E & [->|[l ->]])]; [done|by rewrite E|]. rewrite E. intros c t. unfold todo. split; intros [_ []]. }
    assert (pc_ok pc log) as Hok. { destruct Hpc as [->|(d & x & E & [->|[l ->]])]; [done|by rewrite E in X5|]. rewrite E in X5. exact X5. }
    constructor; cbn [with_mem u_mem u_pc u_mg u_iw]; try done.
    - intros f Hf. rewrite Hg. auto.
    - intros f t d Hf. rewrite Hg, X4 by done. rewrite !in_flight_parts. cbn. by rewrite Hfl.
    - intros f t d Hf. rewrite Hg. auto.
    - destruct X7 as (l1 & l2 & E1 & E2 & E3). exists l1, l2. split; [done|]. split; [done|]. intros c t Hc Ht. cbn. rewrite Hg, Htd. auto.
  Qed.
  Lemma x_inv_mem s u log m pc : xinv (mkSys s (Up u) log) -> c_index m = c_index (u_mem u) -> (pc = u_pc u \/ exists d x, u_pc u = CDoc d x /\ (pc = CDoc d x \/ exists l, pc = CDocSend d x l)) -> xinv (mkSys s (Up (with_mem u m pc)) log).
  Proof. intros (X1 & X2 & X3) Hi Hpc. split; [done|]. split; [done|]. cbn in *. by apply x_up_mem. Qed.
  Lemma x_busy a b : base (by_sys a) -> xinv (by_sys a) -> busy_step compress decompress cache_size N ncpu a b -> good_log (y_log (by_sys b)) -> xinv (by_sys b).
  Proof.
    intros B X [H|(y' & H & ->)] Hg; [|eapply (x_step compress decompress cache_size); [exact gz|exact B|exact Hg|exact X|by right]].
    destruct H as [y y' dp qs HL Hnd|s u log dp m pc dp' qs HD|s u log dp qs terms f|s u log dp qs i terms f q m q' Hi HS]; cbn [by_sys] in *.
    - eapply (x_step compress decompress cache_size); [exact gz|exact B|exact Hg|exact X|by left].
    - apply x_inv_mem; [done|by eapply doc_step_index|]. inversion HD; subst; right; do 2 eexists; (split; [by eauto|]); eauto.
    - done.
    - apply x_inv_mem; [done|by eapply search_index|by left].
  Qed.
  Lemma busy_x b : busy_reachable compress decompress cache_size N ncpu b -> good_log (y_log (by_sys b)) -> base (by_sys b) /\ xinv (by_sys b).
  Proof.
    intros H. unfold busy_reachable in H. revert b H. apply (rtc_ind_r (fun b => good_log (y_log (by_sys b)) -> base (by_sys b) /\ xinv (by_sys b))).
    - intros Hg. cbn. apply (x_reach compress decompress cache_size gz sys_init); [apply rtc_refl|done].
    - intros a b _ Hab IH Hg. destruct (busy_log _ _ _ _ _ _ _ Hab) as [ev E]. assert (good_log (y_log (by_sys a))) as Ga. { rewrite E in Hg. by apply good_app in Hg as [? _]. }
      destruct (IH Ga) as [Ba Xa]. split; [by eapply base_busy|by eapply x_busy].
  Qed.
  Lemma listed_has m f t d : listed m f t d <-> has (disk_get_index m f) t d.
  Proof.
    unfold listed, listed_set, has, disk_get_index. destruct (default (∅ : gmap string set_data) (c_index m !! f) !! t) as [S|] eqn:E.
    - cbn. split; [intros H; by exists S|]. intros (S' & [= <-] & H). done.
    - cbn. rewrite lookup_empty. split; [by intros []|]. intros (S' & ? & _). done.
  Qed.
  Lemma busy_listed b u f t d : busy_reachable compress decompress cache_size N ncpu b -> good_log (y_log (by_sys b)) -> y_proc (by_sys b) = Up u -> f <> "docs" -> listed (u_mem u) f t d -> saved_posting (y_log (by_sys b)) f t d.
  Proof.
    intros H Hg Hu Hf Hl. destruct (busy_x _ H Hg) as [_ (_ & _ & X)]. rewrite Hu in X. apply (xu_sound _ _ _ _ X); [done|]. by apply listed_has.
  Qed.
End index.

Section stats.
  Variables (compress : bytes -> bytes) (decompress : bytes -> option bytes) (cache_size : Z) (N : numops) (ncpu : nat).
  Notation blive := (busy_live compress decompress cache_size N ncpu).
  (** A moment of a run at which the process was up. *)
  Definition at_moment (a b : busy N) (P : up -> Prop) : Prop := exists m u, rtc blive a m /\ rtc blive m b /\ y_proc (by_sys m) = Up u /\ P u.
  Lemma moment_grows a b c P : rtc blive b c -> at_moment a b P -> at_moment a c P.
  Proof. intros H (m & u & H1 & H2 & H3). exists m, u. split; [done|]. split; [by etransitivity|done]. Qed.
  Definition counts_ok (a b : busy N) (f : string) (acc : gmap string Z) : Prop :=
    forall t v, acc !! t = Some v -> at_moment a b (fun u => v = geti (default (∅ : gmap string Z) (nft_now u f)) t).
  Definition len_ok (a b : busy N) (f : string) (len : Z) : Prop := at_moment a b (fun u => len = geti (c_length (u_mem u)) f).
  Definition size_ok (a b : busy N) (f : string) (n : Z) : Prop := at_moment a b (fun u => n = geti (c_size (u_mem u)) f).
  Definition head_ok (a b : busy N) (terms : list string) (f : string) (len n : Z) (nft : gmap string Z) : Prop :=
    len_ok a b f len /\ size_ok a b f n /\ counts_ok a b f nft /\ dom nft = list_to_set terms.
  Definition q_stat (a b : busy N) (t : query N) : Prop :=
    let terms := t.1.1 in let f := t.1.2 in
    match t.2 with
    | SLength => True
    | SSize len => len_ok a b f len
    | SNft len n ts acc => len_ok a b f len /\ size_ok a b f n /\ counts_ok a b f acc /\ exists done, terms = done ++ ts /\ dom acc = list_to_set done
    | SNftTerm len n t some ts acc => len_ok a b f len /\ size_ok a b f n /\ counts_ok a b f acc /\ (exists done, terms = done ++ t :: ts /\ dom acc = list_to_set done) /\
        (some = false -> at_moment a b (fun u => nft_now u f = None))
    | SIds len n nft _ | SFields len n nft _ => head_ok a b terms f len n nft
    | SRet r => exists len n, head_ok a b terms f len n (sr_nft r) /\ sr_total r = of_int N n /\ sr_avg r = ndiv N (of_int N len) (of_int N n)
    end.
  Lemma counts_grow a b c f acc : rtc blive b c -> counts_ok a b f acc -> counts_ok a c f acc.
  Proof. intros H K t v Ht. eapply moment_grows; [exact H|]. by apply K. Qed.
  Lemma head_grow a b c terms f len n nft : rtc blive b c -> head_ok a b terms f len n nft -> head_ok a c terms f len n nft.
  Proof. intros H (H1 & H2 & H3 & H4). split; [by eapply moment_grows|]. split; [by eapply moment_grows|]. split; [by eapply counts_grow|done]. Qed.
  Lemma stat_grows a b c t : rtc blive b c -> q_stat a b t -> q_stat a c t.
  Proof.
    intros H. destruct t as [[terms f] q]. destruct q; cbn; try done.
    - by apply moment_grows.
    - intros (H1 & H2 & H3 & H4). split; [by eapply moment_grows|]. split; [by eapply moment_grows|]. split; [by eapply counts_grow|done].
    - intros (H1 & H2 & H3 & H4 & H5). split; [by eapply moment_grows|]. split; [by eapply moment_grows|]. split; [by eapply counts_grow|]. split; [done|]. intros E. eapply moment_grows; [exact H|auto].
    - by apply head_grow.
    - by apply head_grow.
    - intros (len & n & H1 & H2). exists len, n. split; [by eapply head_grow|done].
  Qed.
  Lemma stat_step a b c i terms f q m q' s u log dp qs : rtc blive a b -> b = mkBusy (mkSys s (Up u) log) dp qs -> qs !! i = Some (terms, f, q) -> dsearch_step decompress N ncpu terms f u s q (m, q') ->
    rtc blive b c -> q_stat a b (terms, f, q) -> q_stat a c (terms, f, q').
  Proof.
    intros Hab -> Hi HS Hbc K. assert (forall P : up -> Prop, P u -> at_moment a c P) as Hnow. { intros P HP. eexists _, u. split; [exact Hab|]. split; [exact Hbc|]. done. }
    pose proof (stat_grows _ _ _ _ Hbc K) as K'. inversion HS; subst; cbn in K, K' |- *; try done.
    - by apply Hnow.
    - split; [done|]. split; [by apply Hnow|]. split; [intros t v Ht; by rewrite lookup_empty in Ht|]. exists []. split; [done|]. by rewrite dom_empty_L.
    - destruct K' as (H1 & H2 & H3 & dn & H4 & H5). split_and!; try done; [by exists dn|]. intros E. apply Hnow. by destruct (nft_now u f).
    - destruct K' as (H1 & H2 & H3 & (dn & H4 & H5) & H6). split; [done|]. split; [done|]. split.
      + intros t0 v Hv. apply lookup_insert_Some in Hv as [[<- <-]|[_ Hv]]; [|by apply H3]. destruct b; [by apply Hnow|]. destruct (H6 eq_refl) as (m1 & u1 & M1 & M2 & M3 & M4). exists m1, u1. split_and!; try done. rewrite M4. done.
      + exists (dn ++ [t]). split; [by rewrite <- app_assoc|]. rewrite dom_insert_L, H5, list_to_set_app_L. cbn. set_solver.
    - destruct K' as (H1 & H2 & H3 & dn & H4 & H5). rewrite app_nil_r in H4. subst dn. done.
    - exists len, size. done.
  Qed.
  Lemma stat_run a : forall b, rtc blive a b -> forall i t, length (by_qs a) <= i -> by_qs b !! i = Some t -> q_stat a b t.
  Proof.
    apply (rtc_ind_r (fun b => forall i t, length (by_qs a) <= i -> by_qs b !! i = Some t -> q_stat a b t)).
    - intros i t Hi Ht. apply lookup_lt_Some in Ht. lia.
    - intros b c Hab Hbc IH j t Hj Ht. pose proof (rtc_once _ _ Hbc) as Hbc'. pose proof Hbc as H. destruct H as [y y' dp qs HL Hnd|s u log dp m pc dp' qs HD|s u log dp qs terms f|s u log dp qs i terms f q m q' Hi HS]; cbn [by_qs] in *.
      + eapply stat_grows; [exact Hbc'|]. by eapply IH.
      + eapply stat_grows; [exact Hbc'|]. by eapply IH.
      + apply lookup_app_Some in Ht as [Ht|[_ Ht]]; [eapply stat_grows; [exact Hbc'|]; by eapply IH|]. apply list_lookup_singleton_Some in Ht as [_ <-]. done.
      + destruct (decide (i = j)) as [<-|Hn]; [|rewrite list_lookup_insert_ne in Ht by done; eapply stat_grows; [exact Hbc'|]; by eapply IH].
        rewrite list_lookup_insert in Ht by (by eapply lookup_lt_Some). injection Ht as <-. eapply stat_step; [exact Hab|done|exact Hi|exact HS|done|]. by eapply IH.
  Qed.
End stats.
