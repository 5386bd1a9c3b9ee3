(** Searches that run on the disk storage while the client saves (C64): all reachable
    states. *)
From Verif Require Import Base M_Field M_LRU S_Visits M_Memory M_File M_Serialize M_Num M_FanIn M_Search M_SearchConc M_Disk M_DiskBusy P_Base P_LRU P_DiskBase P_DiskInv P_DiskMem P_DiskWriter P_DiskDocs P_DiskBusy P_DiskBusy2 P_DiskBusy3 P_DiskBusy4 P_DiskBusy5 M_DiskBusy S_Disk.
#[local] Open Scope nat_scope.
#[local] Opaque serialize_metrics serialize_nft serialize_field_map serialize_index deserialize_index deserialize_nft deserialize_field_map deserialize_metrics.

Section sound.
  Variables (compress : bytes -> bytes) (decompress : bytes -> option bytes) (cache_size : Z) (N : numops) (ncpu : nat).
  Hypothesis gz : gzip_ok compress decompress.
  Hypothesis pos : (0 < cache_size)%Z.
  Notation mem_ok := (mem_ok cache_size).

  Definition files_ok (s : fs) (log : list event) : Prop := forall d, plain_doc d -> is_Some (doc_file s d) -> exists m, d_holds compress (doc_file s d) m /\ src log d m.
  Lemma files_load s log d fd : files_ok s log -> load_doc decompress s d = Some (Some fd) -> src log d fd.
  Proof.
    intros H Hl Hp. assert (is_Some (doc_file s d)) as Hs. { unfold load_doc in Hl. unfold doc_file. destruct (fs_files s !! _); [by eexists|done]. }
    destruct (H d Hp Hs) as (m & H1 & H2). rewrite (d_holds_load _ _ gz _ _ _ H1) in Hl. injection Hl as <-. by apply src_load.
  Qed.
  Lemma files_app s log ev : files_ok s log -> files_ok s (log ++ ev).
  Proof. intros H d Hd Hf. destruct (H d Hd Hf) as (m & H1 & H2). exists m. split; [done|]. by apply src_app. Qed.
  Lemma files_keeps s s' log : keeps OD s s' -> files_ok s log -> files_ok s' log.
  Proof. intros K H d Hd Hs. unfold doc_file in *. rewrite (K ["docs"; "metrics"; d]) in * by apply owner_d. by apply H. Qed.

  Lemma senv_le0 m m' log own own' f terms : grows m m' -> ptrs_le m m' -> own ⊆ own' -> env_le (senv m log own f terms) (senv m' log own' f terms).
  Proof. intros H1 H2 H3. pose proof (senv_le m m' log [] own own' f terms H1 H2 H3) as H. by rewrite app_nil_r in H. Qed.
  Lemma found_grows m m' f terms d : grows m m' -> found m f terms d -> found m' f terms d.
  Proof. intros H (t & H1 & H2). exists t. split; [done|]. by apply H. Qed.
  Lemma grows_same m m' : c_index m' = c_index m -> grows m m'.
  Proof. intros E f t d. unfold listed, listed_set. by rewrite E. Qed.
  Lemma known_same m m' log d : c_index m' = c_index m -> known m log d -> known m' log d.
  Proof. intros E H. pose proof (known_mono m m' log [] d (grows_same _ _ E) H) as K. by rewrite app_nil_r in K. Qed.
  Lemma mem_mono0 (K K' : string -> Prop) log m own : (forall k, K k -> K' k) -> mem_ok K log m own -> mem_ok K' log m own.
  Proof. intros H M. pose proof (mem_mono cache_size K K' log [] m own H M) as R. by rewrite app_nil_r in R. Qed.
  Definition knows (m : cmem) (log : list event) (own : gmap nat string) : Prop := mem_ok (known m log) log m own.
  (** The memory after a step, and what stays true of pointers. *)
  Definition mem_next (log : list event) (m : cmem) (own : gmap nat string) (m' : cmem) (own' : gmap nat string) : Prop :=
    own ⊆ own' /\ knows m' log own' /\ ptrs_le m m' /\ c_index m' = c_index m.
  Lemma next_refl log m own : knows m log own -> mem_next log m own m own.
  Proof. intros H. split; [done|]. split; [done|]. split; [by intros ? ?|done]. Qed.
  Lemma next_get log m own k c' r : lru_get (c_cache m) k = Some (c', r) -> knows m log own -> mem_next log m own (set_cache m c' (c_heap m)) own /\ (forall e, r = Some e -> ptr (set_cache m c' (c_heap m)) k e).
  Proof. intros Hg Hk. destruct (mem_get _ _ _ _ _ _ _ _ Hg Hk) as (M1 & M2 & M3). split; [|done]. split; [done|]. done. Qed.
  Lemma next_put log m own k l c' : lru_put (c_cache m) k l = Some c' -> own !! l = Some k -> known m log k -> knows m log own -> mem_next log m own (set_cache m c' (c_heap m)) own.
  Proof. intros Hp Ho Hk H. destruct (mem_put _ pos _ _ _ _ _ _ _ Hp Ho Hk H) as (M1 & M2). split; [done|]. done. Qed.
  Lemma next_alloc log m own l k fd : c_heap m !! l = None -> src log k fd -> knows m log own -> mem_next log m own (set_cache m (c_cache m) (<[l := fd]> (c_heap m))) (<[l := k]> own).
  Proof. intros Hf Hs H. destruct (mem_alloc _ _ _ _ _ _ _ _ Hf Hs H) as (M1 & M2). split; [by apply insert_subseteq|]. split; [done|]. split; [by intros ? ?|done]. Qed.
  Lemma next_write log m own l d fd x : c_heap m !! l = Some fd -> own !! l = Some d -> Save d x ∈ calls_of log -> knows m log own ->
    mem_next log m own (set_cache m (c_cache m) (<[l := <[f_name x := x]> fd]> (c_heap m))) own.
  Proof. intros Hf Ho Hc H. split; [done|]. split; [by eapply mem_write|]. split; [by intros ? ?|done]. Qed.

  Definition q_ok (m : cmem) (log : list event) (own : gmap nat string) (t : query N) : Prop :=
    qok t.1.1 (found m t.1.2 t.1.1) (senv m log own t.1.2 t.1.1) t.2.
  Lemma q_ok_next log m own m' own' t : mem_next log m own m' own' -> q_ok m log own t -> q_ok m' log own' t.
  Proof.
    intros (H1 & H2 & H3 & H4) Q. destruct t as [[terms f] q]. unfold q_ok in *. cbn in *. apply grows_same in H4 as Hg. eapply qok_le; [| |exact Q]; [intros id; by apply found_grows|by apply senv_le0].
  Qed.
  Lemma q_ok_app log ev m own m' t : grows m m' -> c_cache m' = c_cache m -> q_ok m log own t -> q_ok m' (log ++ ev) own t.
  Proof.
    intros Hg Hc Q. destruct t as [[terms f] q]. unfold q_ok in *. cbn in *. eapply qok_le; [| |exact Q]; [intros id; by apply found_grows|]. apply senv_le; [done| |done]. intros d e [l Hl]. exists l. by rewrite Hc.
  Qed.
  (** One step of a search. *)
  Lemma search_ok terms f u s log own (q : dsearch N) m' q' : dsearch_step decompress N ncpu terms f u s q (m', q') -> files_ok s log -> knows (u_mem u) log own -> q_ok (u_mem u) log own (terms, f, q) ->
    exists own', mem_next log (u_mem u) own m' own' /\ q_ok m' log own' (terms, f, q').
  Proof.
    intros H Hf Hk Q. unfold q_ok in Q. cbn in Q.
    destruct (qok_step _ _ _ _ _ _ _ _ _ (found (u_mem u) f terms) (senv (u_mem u) log own f terms) H (fun t id H1 H2 => ex_intro _ t (conj H1 H2)) (fun id H => H) Q) as [[-> Q']|(len & size & nft & w & w' & p & p' & -> & -> & Hb & Hin & Op & QE)].
    { exists own. split; [by apply next_refl|done]. }
    assert (forall own', mem_next log (u_mem u) own m' own' ->
      env_step decompress f s (u_mem u) m' (senv (u_mem u) log own f terms) (senv m' log own' f terms) p -> q_ok m' log own' (terms, f, SFields len size nft w') ) as HQ.
    { intros own' Hn He. pose proof Hn as (H1 & H2 & H3 & H4). pose proof (grows_same _ _ H4) as Hg. pose proof (grows_same _ _ (eq_sym H4)) as Hg'.
      assert (env_le (senv (u_mem u) log own f terms) (senv m' log own' f terms)) as Hle by (by apply senv_le0).
      pose proof (okb_step _ _ _ _ _ _ _ _ _ Hle He Hb Op) as Op'. exact (QE _ Hle Op'). }
    inversion Hb; subst; cbn [okb] in Op.
    - match goal with G : lru_get _ _ = _ |- _ => destruct (next_get _ _ _ _ _ _ G Hk) as [Hn Hp] end. exists own. split; [done|]. apply HQ; [done|]. cbn. intros c1 r _ G1 _. rewrite G1 in *. match goal with G : Some _ = Some _ |- _ => injection G as <- -> end. by apply Hp.
    - match goal with G : lru_get _ _ = _ |- _ => destruct (next_get _ _ _ _ _ _ G Hk) as [Hn Hp] end. exists own. split; [done|]. apply HQ; [done|]. cbn. intros c1 r _ G1 _. rewrite G1 in *. match goal with G : Some _ = Some _ |- _ => injection G as <- -> end. done.
    - exists own. pose proof (next_refl _ _ _ Hk) as Hn. split; [done|]. apply HQ; [done|]. cbn. intros l0 _ [l1 Hp] Hd _. unfold lru_deref in Hd. rewrite Hp in Hd. injection Hd as <-. by apply (mo_page _ _ _ _ _ Hk e).
    - exists own. pose proof (next_refl _ _ _ Hk) as Hn. split; [done|]. apply HQ; [done|]. cbn. intros fd0 x Hid Ho Hh Hx _. split; [done|]. intros Hd. by apply (mo_src _ _ _ _ _ Hk l id fd0).
    - exists own. pose proof (next_refl _ _ _ Hk) as Hn. split; [done|]. apply HQ; [done|]. cbn. intros fd0 l0 _ _ Hl. congruence.
    - match goal with G : load_doc _ _ _ = Some (Some _) |- _ => pose proof (files_load _ _ _ _ Hf G) as Hs; rename G into Gl end. match goal with G : c_heap _ !! l = None |- _ => pose proof (next_alloc _ _ _ _ id _ G Hs Hk) as Hn; rename G into Gh end.
      exists (<[l := id]> own). split; [done|]. apply HQ; [done|]. cbn. intros fd0 l0 Hid _ Hl Hh Hm. rewrite Gl in Hl. injection Hl as <-. assert (l0 = l) as ->. { injection Hm as Hm. destruct (decide (l0 = l)) as [|Hne]; [done|]. assert (<[l := fd]> (c_heap (u_mem u)) !! l = <[l0 := fd]> (c_heap (u_mem u)) !! l) as E by (by rewrite Hm). rewrite lookup_insert, lookup_insert_ne, Gh in E by done. done. }
      split; [by rewrite lookup_insert|]. intros x Hx. split; [done|]. intros Hd. by apply (Hs Hd).
    - destruct Op as (O1 & (t & Ht & O2) & _). cbn in O1. match goal with G : lru_put _ _ _ = _ |- _ => pose proof (next_put log _ own _ _ _ G O1 ltac:(left; eauto) Hk) as Hn end. exists own. split; [done|]. by apply HQ.
    - exists own. pose proof (next_refl _ _ _ Hk) as Hn. split; [done|]. by apply HQ.
  Qed.

  (** * The client and the writers *)
  Definition w_src (log : list event) (w : writer nat) : Prop :=
    match w_pc w with
    | WIter k _ T => exists m, d_enc m T /\ src log k m
    | WSave k _ b _ => exists m T, d_enc m T /\ b = compress T /\ src log k m
    | _ => True
    end.
  Definition doc_ok (m : cmem) (own : gmap nat string) (pc : cpc) (dp : option doc_pc) : Prop :=
    match dp with
    | None => True
    | Some (DPtr e) => exists d x, pc = CDoc d x /\ ptr m d e
    | Some (DMap l) | Some (DPut l) => exists d x, pc = CDoc d x /\ own !! l = Some d
    end.
  Record up_ok (u : up) (log : list event) (dp : option doc_pc) (own : gmap nat string) : Prop := {
    uo_mem : knows (u_mem u) log own;
    uo_buf : forall k l, w_buf (u_dw u) !! k = Some l -> own !! l = Some k;
    uo_w : w_src log (u_dw u);
    uo_get : noget (u_pc u);
    uo_pend : forall c, c ∈ pending (u_pc u) -> c ∈ calls_of log;
    uo_send : forall d x l, u_pc u = CDocSend d x l -> own !! l = Some d;
    uo_doc : doc_ok (u_mem u) own (u_pc u) dp }.
  Lemma w_src_app log ev w : w_src log w -> w_src (log ++ ev) w.
  Proof. unfold w_src. destruct (w_pc w); try done; [intros (m & ? & ?)|intros (m & T & ? & ? & ?)]; eauto 10 using src_app. Qed.
  (** The memory changes, the client's position may change. *)
  Lemma up_ok_mem u log dp own m' own' pc' dp' : up_ok u log dp own -> mem_next log (u_mem u) own m' own' -> noget pc' -> (forall c, c ∈ pending pc' -> c ∈ pending (u_pc u)) ->
    (forall d x l, pc' = CDocSend d x l -> own' !! l = Some d) -> doc_ok m' own' pc' dp' -> up_ok (with_mem u m' pc') log dp' own'.
  Proof.
    intros [H1 H2 H3 H4 H5 H6 H7] (N1 & N2 & N3 & N4) A1 A2 A3 A4. constructor; cbn [with_mem u_mem u_pc u_dw]; try done.
    - intros k l Hk. eapply lookup_weaken; [|exact N1]. auto.
    - auto.
  Qed.
  Lemma doc_ok_next log m own m' own' pc dp : mem_next log m own m' own' -> doc_ok m own pc dp -> doc_ok m' own' pc dp.
  Proof.
    intros (N1 & N2 & N3 & N4). destruct dp as [[e|l|l]|]; [..|done]; intros (d & x & H1 & H2); exists d, x; (split; [done|]); [by apply N3|by eapply lookup_weaken..].
  Qed.
  (** UpdateFieldDocument. *)
  Lemma doc_step_ok u log dp own m pc dp' : up_ok u log dp own -> doc_step (u_dw u) (u_mem u, u_pc u, dp) (m, pc, dp') ->
    exists own', mem_next log (u_mem u) own m own' /\ up_ok (with_mem u m pc) log dp' own'.
  Proof.
    intros HU H. pose proof HU as [H1 H2 H3 H4 H5 H6 H7]. inversion H; subst; match goal with G : _ = u_pc u |- _ => rename G into Hpc end.
    - match goal with G : lru_get _ _ = _ |- _ => destruct (next_get _ _ _ _ _ _ G H1) as [Hn Hp] end. exists own. split; [done|]. eapply up_ok_mem; try done; [by rewrite <- Hpc|]. exists d, x. split; [done|]. by apply Hp.
    - match goal with G : lru_get _ _ = _ |- _ => destruct (next_get _ _ _ _ _ _ G H1) as [Hn _] end. pose proof Hn as (_ & Hk & Hpl & _).
      match goal with G : c_heap _ !! l = None |- _ => destruct (next_alloc log (set_cache (u_mem u) c' (c_heap (u_mem u))) own l d ∅ G (src_empty _ _) Hk) as (N1 & N2 & N3 & N4) end.
      assert (mem_next log (u_mem u) own (set_cache (u_mem u) c' (<[l := ∅]> (c_heap (u_mem u)))) (<[l := d]> own)) as Hn'. { split; [done|]. split; [exact N2|]. split; [|done]. intros d0 e0 Hd. apply N3. by apply Hpl. }
      exists (<[l := d]> own). split; [done|]. eapply up_ok_mem; try done; [by rewrite <- Hpc|]. exists d, x. split; [done|]. by rewrite lookup_insert.
    - pose proof (next_refl _ _ _ H1) as Hn. exists own. split; [done|]. eapply up_ok_mem; try done; [by rewrite <- Hpc|]. destruct H7 as (d0 & x0 & E & [l1 Hp]). rewrite <- Hpc in E. injection E as <- <-. exists d, x. split; [done|].
      match goal with G : lru_deref _ _ = _ |- _ => unfold lru_deref in G; rewrite Hp in G; injection G as <- end. by apply (mo_page _ _ _ _ _ H1 e).
    - destruct H7 as (d0 & x0 & E & Ho). rewrite <- Hpc in E. injection E as <- <-. assert (Save d x ∈ calls_of log) as Hc by (apply H5; rewrite <- Hpc; left).
      match goal with G : c_heap _ !! l = Some _ |- _ => pose proof (next_write _ _ _ _ _ _ _ G Ho Hc H1) as Hn end. exists own. split; [done|]. eapply up_ok_mem; try done; [by rewrite <- Hpc|]. exists d, x. done.
    - destruct H7 as (d0 & x0 & E & Ho). rewrite <- Hpc in E. injection E as <- <-. assert (Save d x ∈ calls_of log) as Hc by (apply H5; rewrite <- Hpc; left).
      match goal with G : lru_put _ _ _ = _ |- _ => pose proof (next_put log _ own _ _ _ G Ho ltac:(right; eexists; split; [exact Hc|done]) H1) as Hn end. exists own. split; [done|]. eapply up_ok_mem; try done; [by rewrite <- Hpc|]. by intros d0 x0 l0 [= <- <- <-].
  Qed.
  (** The document writer's files. *)
  Lemma files_run s s' u u' ev log dp own : layout s -> up_wf u s -> up_ok u log dp own -> files_ok s log -> runs compress decompress WhoD u s ev u' s' -> files_ok s' log.
  Proof.
    intros Hl Hw HU Hv Hr d Hd Hf. destruct (d_cases _ _ _ _ _ _ _ d Hl Hw Hr Hd) as [(E & _)|[(ks & b & pc & E1 & E2 & E3 & E4)|(ks & b & E1 & -> & _)]].
    - rewrite E in *. by apply Hv.
    - pose proof (uo_w _ _ _ _ HU) as H7. unfold w_src in H7. rewrite E1 in H7. destruct H7 as (m & T & A1 & -> & A3).
      destruct E4 as [E4|E4]; rewrite E4 in *; [by destruct Hf|]. exists m. split; [exists T; done|done].
    - by apply Hv.
  Qed.
  Lemma dw_run s s' u u' ev log dp own : up_ok u log dp own -> runs compress decompress WhoD u s ev u' s' ->
    (forall k l, w_buf (u_dw u') !! k = Some l -> own !! l = Some k) /\ w_src log (u_dw u').
  Proof.
    intros [H1 H2 H3 H4 H5 H6 H7] (Hs & Hu & _). clear Hu. destruct (u_dw u) as [buf pc]. destruct (u_dw u') as [buf' pc']. inversion Hs; subst; cbn [w_buf w_pc w_src] in *; try (split; [done|]; cbn; done).
    - split; [done|]. match goal with G : d_ser _ _ _ _ |- _ => destruct G as (m0 & es & A1 & A2 & A3) end. cbn. exists m0. split; [by exists es|]. eapply (mo_src _ _ _ _ _ H1); [|exact A1]. auto.
    - split; [done|]. destruct H3 as (m0 & A1 & A2). cbn. eauto.
    - split; [|done]. intros k0 l0 Hk. apply lookup_delete_Some in Hk as [_ Hk]. auto.
  Qed.
  Lemma up_ok_client u u' ev log dp own : up_ok u log dp own -> client_ok u u' ev -> (forall k l, w_buf (u_dw u') !! k = Some l -> own !! l = Some k) -> w_src log (u_dw u') -> up_ok u' (log ++ ev) dp own.
  Proof.
    intros [H1 H2 H3 H4 H5 H6 H7] [C1 C2 C3 C4 C5 C6 C7 C8] A1 A2. constructor; try done.
    - eapply mem_same; [exact C1|exact C2|]. eapply mem_mono; [|exact H1]. intros k. by apply known_mono.
    - by apply w_src_app.
    - intros c Hc. rewrite calls_app. apply elem_of_app. destruct (C4 c Hc) as [?|?]; [left; auto|by right].
    - intros d x l E. apply H6 with x. by apply C7.
    - destruct dp as [[e|l|l]|]; [..|done]; destruct H7 as (d & x & E & H7); exists d, x; (split; [by apply C8|]); [|done..]. destruct H7 as [l Hl]. exists l. by rewrite C1.
  Qed.
  Definition sound (b : busy N) : Prop := files_ok (y_fs (by_sys b)) (y_log (by_sys b)) /\
    match y_proc (by_sys b) with
    | Up u => exists own, up_ok u (y_log (by_sys b)) (by_doc b) own /\ Forall (q_ok (u_mem u) (y_log (by_sys b)) own) (by_qs b)
    | _ => by_doc b = None /\ by_qs b = []
    end.
  Lemma qs_app log ev m own m' qs : grows m m' -> c_cache m' = c_cache m -> Forall (q_ok m log own) qs -> Forall (q_ok m' (log ++ ev) own) qs.
  Proof. intros H1 H2 H. eapply Forall_impl; [exact H|]. intros t. by apply q_ok_app. Qed.
  Lemma base_mem s u log m pc : base (mkSys s (Up u) log) -> (forall f, pc_field pc = Some f -> pc_field (u_pc u) = Some f) -> base (mkSys s (Up (with_mem u m pc)) log).
  Proof.
    intros [B1 [B2 [W1 W2 W3 W4 W5 W6 W7]]] H. split; [done|]. split; [done|]. constructor; try done. unfold pc_nd in *. cbn. destruct (pc_field pc) as [f|]; [|done]. by rewrite (H f) in W1.
  Qed.
  Lemma base_busy a b : base (by_sys a) -> busy_step compress decompress cache_size N ncpu a b -> good_log (y_log (by_sys b)) -> base (by_sys b).
  Proof.
    intros B [H|(y' & H & ->)] Hg; [|eapply (base_step compress decompress cache_size); [exact B|by right|exact Hg]].
    destruct H; cbn [by_sys] in *.
    - eapply (base_step compress decompress cache_size); [exact B|by left|exact Hg].
    - apply base_mem; [done|]. intros f.
      match goal with G : doc_step _ _ _ |- _ => inversion G; subst end.
      all: intros Hq; exact Hq.
    - done.
    - by apply base_mem.
  Qed.
  Lemma sound_step a b : base (by_sys a) -> sound a -> busy_step compress decompress cache_size N ncpu a b -> sound b.
  Proof.
    intros [Bl Bp] [Hf Hu] [H|(y' & H & ->)].
    2:{ inversion H as [s p log Hp E]; subst y'. rewrite <- E in *. cbn in *. split; [by apply files_app|done]. }
    destruct H as [y y' dp qs HL Hnd|s u log dp m pc dp' qs HD|s u log dp qs terms f|s u log dp qs i terms f q m q' Hi HS]; cbn [by_sys by_doc by_qs] in *.
    - inversion HL; subst; cbn [y_fs y_proc y_log] in *.
      + split; [|done]. match goal with G : mkdir_all _ _ = _ |- _ => destruct (mkdir_effect _ [] _ Bl eq_refl (Nat.le_0_l 2) G) as (_ & E & _) end. refine (files_keeps _ _ _ _ Hf). intros p _. cbn. by rewrite E.
      + split; [|done]. destruct Bp as [_ Bp]. match goal with G : g_step _ _ _ _ |- _ => destruct (g_step_base _ _ _ _ _ _ Bl Bp G) as (_ & _ & _ & E) end. refine (files_keeps _ _ _ _ Hf). intros p Hp. cbn. apply E; by rewrite Hp.
      + destruct Hu as [-> ->]. split; [by apply files_app|]. cbn. exists ∅. split; [|constructor]. match goal with G : opened _ _ _ _ _ |- _ => inversion G; subst end. constructor; cbn; try done; [|by intros c ?%elem_of_nil].
        constructor; cbn; try done; [apply cache_new|]. intros l. rewrite !lookup_empty. split; by intros [? ?].
      + destruct Hu as (own & HU & HQ). destruct Bp as [_ Bp]. match goal with G : up_step _ _ _ _ _ |- _ => rename G into HS end.
        assert (client_ok u u' ev) as HC. { eapply up_step_client; [exact HS|apply HU|]. destruct (Hnd u u' eq_refl eq_refl) as [? _]. done. }
        assert (files_ok s' log /\ (forall k l, w_buf (u_dw u') !! k = Some l -> own !! l = Some k) /\ w_src log (u_dw u')) as (F1 & F2 & F3).
        { pose proof HU as [H1 H2 H3 H4 H5 H6 H7].
          destruct (up_step_who _ _ _ _ _ _ _ Bl Bp HS) as [[-> Hq]|[Hq|[Hq|[Hq|[Hq|Hq]]]]].
          - split; [done|]. inversion Hq; subst; cbn [u_dw u_pc] in *; try done. split; [|done]. cbn. intros k l0 Hk. unfold d_recv in Hk. apply lookup_insert_Some in Hk as [[<- <-]|[_ Hk]]; [|auto]. by eapply H6.
          - destruct Hq as (_ & E & _ & K & _). split; [by eapply files_keeps|]. by rewrite E.
          - destruct Hq as (_ & E & _ & K & _). split; [by eapply files_keeps|]. by rewrite E.
          - split; [by eapply files_run|]. by eapply dw_run.
          - destruct Hq as (_ & E & _ & _ & K & _). split; [by eapply files_keeps|]. by rewrite E.
          - destruct Hq as (_ & E & _ & _ & K & _). split; [by eapply files_keeps|]. by rewrite E. }
        split; [by apply files_app|]. cbn. exists own. split; [by eapply up_ok_client|]. eapply qs_app; [apply HC|apply HC|exact HQ].
      + destruct Hu as (own & HU & HQ). match goal with G : up_tick _ _ |- _ => rename G into HS end. pose proof (up_tick_client _ _ _ _ HS (uo_get _ _ _ _ HU)) as HC.
        assert (s' = s /\ (forall k l, w_buf (u_dw u') !! k = Some l -> own !! l = Some k) /\ w_src log (u_dw u')) as (-> & F2 & F3).
        { pose proof HU as [H1 H2 H3 H4 H5 H6 H7]. inversion HS; subst; cbn [u_dw] in *; try done. match goal with G : w_tick _ _ |- _ => inversion G; subst end. done. }
        split; [done|]. cbn. exists own. pose proof (up_ok_client _ _ _ _ _ _ HU HC F2 F3) as U'. pose proof (qs_app log [] _ own (u_mem u') qs (co_grows _ _ _ HC) (co_cache _ _ _ HC) HQ) as Q'. rewrite app_nil_r in U', Q'. done.
      + destruct Hu as (own & HU & HQ). match goal with G : up_call _ _ _ |- _ => rename G into HS end.
        assert (client_ok u u' ev) as HC. { apply up_call_client; [done|]. inversion HS; subst; try done. exfalso. destruct (Hnd _ _ eq_refl eq_refl) as [_ K]. by apply (K ids f ids ∅). }
        split; [by apply files_app|]. cbn. exists own. pose proof HU as [H1 H2 H3 H4 H5 H6 H7]. split; [|eapply qs_app; [apply HC|apply HC|exact HQ]]. eapply up_ok_client; [exact HU|exact HC|inversion HS; by subst..].
    - destruct Hu as (own & HU & HQ). split; [done|]. cbn. destruct (doc_step_ok _ _ _ _ _ _ _ HU HD) as (own' & Hn & HU'). exists own'. split; [done|]. eapply Forall_impl; [exact HQ|]. intros t. by apply q_ok_next.
    - destruct Hu as (own & HU & HQ). split; [done|]. cbn. exists own. split; [done|]. apply Forall_app. split; [done|]. by constructor.
    - destruct Hu as (own & HU & HQ). split; [done|]. cbn. pose proof HQ as HQi. rewrite Forall_lookup in HQi. specialize (HQi _ _ Hi). destruct (search_ok _ _ _ _ _ _ _ _ _ HS Hf (uo_mem _ _ _ _ HU) HQi) as (own' & Hn & HQ').
      exists own'. split.
      + eapply up_ok_mem; [exact HU|exact Hn|apply HU|done| |by eapply doc_ok_next; [|apply HU]]. intros d x l E. pose proof Hn as (N1 & _). eapply lookup_weaken; [|exact N1]. by eapply (uo_send _ _ _ _ HU).
      + apply Forall_insert; [|done]. eapply Forall_impl; [exact HQ|]. intros t. by apply q_ok_next.
  Qed.
  Lemma busy_log a b : busy_step compress decompress cache_size N ncpu a b -> exists ev, y_log (by_sys b) = y_log (by_sys a) ++ ev.
  Proof.
    intros [H|(y' & H & ->)].
    - destruct H; cbn; try (exists []; by rewrite app_nil_r). eapply (log_mono compress decompress cache_size). by left.
    - cbn. eapply (log_mono compress decompress cache_size). by right.
  Qed.
  Lemma busy_log_rtc a b : rtc (busy_step compress decompress cache_size N ncpu) a b -> exists ev, y_log (by_sys b) = y_log (by_sys a) ++ ev.
  Proof.
    induction 1 as [a|a b c Hab _ [ev2 IH]]; [exists []; by rewrite app_nil_r|]. destruct (busy_log _ _ Hab) as [ev1 E]. exists (ev1 ++ ev2). by rewrite IH, E, app_assoc.
  Qed.
  (** Every reachable state. *)
  Lemma busy_sound b : busy_reachable compress decompress cache_size N ncpu b -> good_log (y_log (by_sys b)) -> base (by_sys b) /\ sound b.
  Proof.
    intros H. unfold busy_reachable in H. revert b H. apply (rtc_ind_r (fun b => good_log (y_log (by_sys b)) -> base (by_sys b) /\ sound b)).
    - intros _. split; [apply base_init|]. split; [|done]. intros d _ [c Hc]. unfold doc_file in Hc. cbn in Hc. by rewrite lookup_empty in Hc.
    - intros a b _ Hab IH Hg. destruct (busy_log _ _ Hab) as [ev E]. assert (good_log (y_log (by_sys a))) as Ga. { rewrite E in Hg. by apply good_app in Hg as [? _]. }
      destruct (IH Ga) as [Ba Sa]. split; [by eapply base_busy|by eapply sound_step].
  Qed.
End sound.
