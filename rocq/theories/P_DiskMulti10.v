(** Concurrent calls on the disk storage: every saved document reaches its file (C66). *)
From Verif Require Import Base M_Field M_LRU S_Visits M_Memory M_File M_Serialize M_Num M_FanIn M_Search M_Concurrent M_SearchConc M_Disk P_Base P_File P_LRU S_Concurrent P_Concurrent P_Concurrent2 P_DiskBase P_DiskInv P_DiskMem P_DiskWriter P_DiskDocs P_DiskBusy P_DiskBusy2 P_DiskBusy3 P_DiskBusy4 P_DiskBusy5 P_DiskBusy6 M_DiskBusy M_DiskMulti P_DiskIndex3 P_DiskIndex4 S_Disk S_DiskMulti P_DiskMulti P_DiskMulti2 P_DiskMulti3 P_DiskMulti6.
#[local] Open Scope nat_scope.
#[local] Opaque serialize_metrics serialize_nft serialize_field_map serialize_index deserialize_index deserialize_nft deserialize_field_map deserialize_metrics.

Notation thread := (tpc * msg * list call)%type.
(** [fd] holds a field that a call of [cs] has saved for [d]. *)
Definition goodm (cs : list call) (d : string) (fd : gmap string field) : Prop := exists x, Save d x ∈ cs /\ fd !! f_name x = Some x.
Definition goodl (cs : list call) (heap : gmap nat (gmap string field)) (d : string) (l : nat) : Prop := exists fd, heap !! l = Some fd /\ goodm cs d fd.
Lemma goodm_app cs cs' d fd : goodm cs d fd -> goodm (cs ++ cs') d fd.
Proof. intros (x & H1 & H2). exists x. split; [|done]. apply elem_of_app. by left. Qed.
Lemma goodl_app cs cs' h d l : goodl cs h d l -> goodl (cs ++ cs') h d l.
Proof. intros (fd & H1 & H2). exists fd. split; [done|]. by apply goodm_app. Qed.
Definition undoc (d : string) (th : thread) : Prop := exists x, executing th.1 = Some (Save d x).
Definition th_good (cs : list call) (h : gmap nat (gmap string field)) (th : thread) : Prop :=
  (forall c, executing th.1 = Some c -> c ∈ cs) /\
  match th.1.2 with
  | DDoc d x dp => Save d x ∈ cs /\ match dp with Some (DPut l) => goodl cs h d l | _ => True end
  | DSend d x l => goodl cs h d l
  | _ => True
  end.
Lemma th_good_app cs cs' h th : th_good cs h th -> th_good (cs ++ cs') h th.
Proof.
  intros [H1 H2]. split; [intros c Hc; apply elem_of_app; left; by apply H1|]. destruct (th.1.2); try done.
  - destruct H2 as [H2 H3]. split; [apply elem_of_app; by left|]. destruct dp as [[]|]; try done. by apply goodl_app.
  - by apply goodl_app.
Qed.

Section docs.
  Variables (compress : bytes -> bytes) (decompress : bytes -> option bytes) (cache_size : Z).
  Hypothesis gz : gzip_ok compress decompress.
  Hypothesis pos : (0 < cache_size)%Z.
  Notation step := (multi_step compress decompress cache_size).
  Notation d_inv := (P_DiskMulti6.d_inv compress cache_size).

  Definition fl_good (cs : list call) (w : writer nat) : Prop :=
    match w_pc w with
    | WIter k _ T => exists m, d_enc m T /\ goodm cs k m
    | WSave k _ b _ => exists m T, d_enc m T /\ b = compress T /\ goodm cs k m
    | _ => True
    end.
  Definition file_good (cs : list call) (s : fs) (d : string) : Prop := exists m, d_holds compress (doc_file s d) m /\ goodm cs d m.
  Record k_up (s : fs) (u : up) (ths : list thread) (cs : list call) : Prop := {
    ku_buf : forall d l, w_buf (u_dw u) !! d = Some l -> goodl cs (c_heap (u_mem u)) d l;
    ku_fl : fl_good cs (u_dw u);
    ku_th : forall th, th ∈ ths -> th_good cs (c_heap (u_mem u)) th;
    ku_kept : forall d x, plain_doc d -> Save d x ∈ cs -> is_Some (w_buf (u_dw u) !! d) \/ file_good cs s d \/ exists th, th ∈ ths /\ undoc d th }.
  Definition k_inv (a : multi) : Prop :=
    match y_proc (mu_sys a) with
    | Up u => exists l1 l2, y_log (mu_sys a) = l1 ++ EOpened :: l2 /\ EOpened ∉ l2 /\ k_up (y_fs (mu_sys a)) u (mu_threads a) (calls_of l2)
    | _ => True
    end.
  Lemma file_good_keeps cs s s' d : keeps OD s s' -> file_good cs s d -> file_good cs s' d.
  Proof. intros K (m & H1 & H2). exists m. split; [|done]. unfold doc_file in *. by rewrite (K ["docs"; "metrics"; d]) by apply owner_d. Qed.
  Lemma file_good_app cs cs' s d : file_good cs s d -> file_good (cs ++ cs') s d.
  Proof. intros (m & H1 & H2). exists m. split; [done|]. by apply goodm_app. Qed.
  Lemma fl_good_app cs cs' w : fl_good cs w -> fl_good (cs ++ cs') w.
  Proof. unfold fl_good. destruct (w_pc w); try done; [intros (m & ? & ?)|intros (m & T & ? & ? & ?)]; eauto 10 using goodm_app. Qed.
  (** The document writer. *)
  Lemma kd_run s s' u u' ev ths cs : layout s -> up_wf u s -> runs compress decompress WhoD u s ev u' s' -> k_up s u ths cs -> k_up s' u' ths cs.
  Proof.
    intros Bl Bw Hr [K1 K2 K3 K4]. pose proof Hr as (Hs & Hu & _).
    assert (u_mem u' = u_mem u) as Em by (by rewrite Hu).
    assert ((forall d l, w_buf (u_dw u') !! d = Some l -> w_buf (u_dw u) !! d = Some l) /\ fl_good cs (u_dw u')) as [B1 B2].
    { clear Hu Hr K3 K4 Bw Em. destruct (u_dw u) as [buf pc]. destruct (u_dw u') as [buf' pc']. unfold fl_good in *. inversion Hs; subst; cbn [w_buf w_pc] in *; try (split; [done|]; cbn; done).
      - split; [done|]. match goal with G : d_ser _ _ _ _ |- _ => destruct G as (m0 & es & A1 & A2 & A3) end. exists m0. split; [by exists es|].
        match goal with G : buf' !! k = Some ?l |- _ => destruct (K1 k l G) as (fd & F1 & F2) end. rewrite A1 in F1. injection F1 as <-. done.
      - split; [done|]. destruct K2 as (m0 & A1 & A2). eauto.
      - split; [|done]. intros k0 l0 Hk. by apply lookup_delete_Some in Hk as [_ Hk]. }
    constructor.
    - intros d l Hd. rewrite Em. apply K1. by apply B1.
    - done.
    - intros th Hth. rewrite Em. by apply K3.
    - intros d x Hd Hc. destruct (d_cases compress decompress _ _ _ _ _ d Bl Bw Hr Hd) as [(E1 & E2)|[(ks & b & pc & E1 & E2 & E3 & E4)|(ks & b & E1 & -> & E2 & [l' E3] & E4)]].
      + rewrite E2. unfold file_good. rewrite E1. by apply (K4 d x).
      + left. by rewrite E3.
      + right. left. unfold fl_good in K2. rewrite E1 in K2. destruct K2 as (m & T & A1 & -> & A3). exists m. split; [|done]. exists T. done.
  Qed.
  Lemma bg_k u s ev u' s' ths cs : layout s -> up_wf u s -> u_pc u = CIdle -> u_pc u' = CIdle -> k_up s u ths cs -> up_step compress decompress (u, s) ev (u', s') -> k_up s' u' ths cs.
  Proof.
    intros Bl Bp E1 E2 HK HS. destruct (bg_step compress decompress _ _ _ _ _ ∅ HS E1 E2) as [_ Em].
    assert (keeps OD s s' -> u_dw u' = u_dw u -> k_up s' u' ths cs) as K.
    { intros K E. destruct HK as [K1 K2 K3 K4]. constructor; rewrite ?E, ?Em; try done. intros d x Hd Hc. destruct (K4 d x Hd Hc) as [?|[?|?]]; [by left| |right; by right]. right. left. by eapply file_good_keeps. }
    destruct (up_step_who _ _ _ _ _ _ _ Bl Bp HS) as [[-> Hq]|[Hq|[Hq|[Hq|[Hq|Hq]]]]].
    - apply K; [done|]. inversion Hq; subst; cbn [u_dw u_pc] in *; done.
    - destruct Hq as (_ & E & _ & K0 & _). apply K; [done|]. by rewrite E.
    - destruct Hq as (_ & E & _ & K0 & _). apply K; [done|]. by rewrite E.
    - by eapply kd_run.
    - destruct Hq as (_ & E & _ & _ & K0 & _). apply K; [done|]. by rewrite E.
    - destruct Hq as (_ & E & _ & _ & K0 & _). apply K; [done|]. by rewrite E.
  Qed.
  Lemma undoc_insert d (ths : list thread) i th th' : ths !! i = Some th -> (exists th, th ∈ ths /\ undoc d th) -> (exists th, th ∈ <[i := th']> ths /\ undoc d th) \/ undoc d th.
  Proof. intros Hi (th0 & H & Hu). destruct (insert_other _ _ _ th' _ Hi H) as [->|H']; [by right|]. left. by exists th0. Qed.
  (** What a statement of UpdateFieldDocument does to the maps. *)
  Lemma doc_step_good cs dw m d x dp m' pc' dp' (own : gmap nat string) : doc_step dw (m, CDoc d x, dp) (m', pc', dp') -> Save d x ∈ cs ->
    match dp with Some (DMap l) => own !! l = Some d | _ => True end ->
    (forall d0 l0, own !! l0 = Some d0 -> goodl cs (c_heap m) d0 l0 -> goodl cs (c_heap m') d0 l0) /\
    (forall l, dp' = Some (DPut l) -> goodl cs (c_heap m') d l) /\ (forall l, pc' = CDocSend d x l -> dp = Some (DPut l) /\ c_heap m' = c_heap m).
  Proof.
    intros H Hc Ho. inversion H; subst; cbn [c_heap set_cache]; (split; [|split; [try done|try done]]); try done.
    - intros d0 l0 _ (fd & F1 & F2). exists fd. split; [|done]. rewrite lookup_insert_ne; [done|]. intros ->. congruence.
    - intros d0 l0 Hl (fd0 & F1 & F2). destruct (decide (l0 = l)) as [->|N].
      + assert (d0 = d) as -> by congruence. exists (<[f_name x := x]> fd). split; [by rewrite lookup_insert|]. exists x. split; [done|]. by rewrite lookup_insert.
      + exists fd0. split; [|done]. by rewrite lookup_insert_ne.
    - intros l' [= <-]. exists (<[f_name x := x]> fd). split; [by rewrite lookup_insert|]. exists x. split; [done|]. by rewrite lookup_insert.
    - intros l' [= <-]. done.
  Qed.
  Lemma k_client s u sh ths cs0 i pc m cs ev sh' u' pc' m' own log : ths !! i = Some (pc, m, cs) -> client_step (sh, u, (pc, m)) ev (sh', u', (pc', m')) ->
    up_ok compress cache_size u log None own -> (forall th, th ∈ ths -> dmsg_ok (u_mem u) log own th.1.2) ->
    k_up s u ths cs0 -> k_up s u' (<[i := (pc', m', cs)]> ths) cs0.
  Proof.
    intros Hi H HU HD [K1 K2 K3 K4]. destruct (K3 _ (elem_of_list_lookup_2 _ _ _ Hi)) as [T1 T2]. pose proof (HD _ (elem_of_list_lookup_2 _ _ _ Hi)) as D0. cbn [fst snd] in *.
    assert (forall u0, (forall d0 l0, own !! l0 = Some d0 -> goodl cs0 (c_heap (u_mem u)) d0 l0 -> goodl cs0 (c_heap (u_mem u0)) d0 l0) -> u_dw u0 = u_dw u ->
      th_good cs0 (c_heap (u_mem u0)) (pc', m', cs) -> (forall c, executing (pc, m) = Some c -> executing (pc', m') = Some c \/ exists d x, c = Index d x) -> k_up s u0 (<[i := (pc', m', cs)]> ths) cs0) as Q.
    { intros u0 Hg Ed Hth Hx. constructor; rewrite ?Ed.
      - intros d l Hl. apply Hg; [by apply (uo_buf _ _ _ _ _ _ HU)|by apply K1].
      - done.
      - intros th Hin. apply elem_of_insert in Hin as [->|Hin]; [done|]. destruct (K3 th Hin) as [A1 A2]. pose proof (HD th Hin) as A3. split; [done|]. unfold dmsg_ok in A3. destruct (th.1.2); try done.
        + destruct A2 as [A2 A4]. split; [done|]. destruct dp as [[]|]; try done. apply Hg; [apply A3|done].
        + by apply Hg.
      - intros d x Hd Hc. destruct (K4 d x Hd Hc) as [?|[?|Hu]]; [by left|right; by left|]. right. right. destruct (undoc_insert _ _ _ _ (pc', m', cs) Hi Hu) as [?|[x' Hx']]; [done|].
        eexists. split; [by eapply insert_self|]. exists x'. destruct (Hx _ Hx') as [?|(? & ? & ?)]; done. }
    inversion H; subst; clear H.
    - match goal with K : t_step _ _ |- _ => rename K into St end. assert ((forall c, executing (pc', after pc) = Some c -> executing (pc, NoMsg) = Some c) /\ (forall c, executing (pc, NoMsg) = Some c -> executing (pc', after pc) = Some c \/ exists d x, c = Index d x)) as [X1 X2].
      { inversion St; subst; cbn; try (split; [done|by left]); try (by destruct full; split; [done|by left]). destruct full; cbn; split; try done; [by left|]. intros c [= <-]. right. by eexists _, _. }
      apply Q; [done|done| |done]. split; [intros c Hc; apply T1; by apply X1|]. cbn. pose proof (after_call pc) as A. destruct (after pc) eqn:Ea; try done. destruct A as [-> A]. split; [|done]. by apply T1.
    - apply Q; [done|done|done|by left].
    - apply Q; [done|done|done|by left].
    - apply Q; [done|done| |intros c Hc; left; by destruct pc']. split; [|done]. cbn. intros c Hc. apply T1. by destruct pc'.
    - apply Q; [done|done| |intros c Hc; left; by destruct pc']. split; [|done]. cbn. intros c Hc. apply T1. by destruct pc'.
    - apply Q; [done|done|done|by left].
    - apply Q; [done|done| |intros c Hc; left; by destruct pc']. split; [|done]. cbn. intros c Hc. apply T1. by destruct pc'.
    - match goal with K : doc_step _ _ _ |- _ => rename K into D end. destruct T2 as [T2 T3].
      destruct (doc_step_good cs0 _ _ _ _ _ _ _ _ own D T2) as (G1 & G2 & _). { destruct D0 as [_ D0]. by destruct dp as [[]|]. }
      apply Q; [done|done| |by left]. split; [exact T1|]. cbn. split; [done|]. destruct dp' as [[]|]; try done. by apply G2.
    - match goal with K : doc_step _ _ _ |- _ => rename K into D end. destruct T2 as [T2 T3].
      destruct (doc_step_good cs0 _ _ _ _ _ _ _ _ own D T2) as (G1 & _ & G3). { destruct D0 as [_ D0]. by destruct dp as [[]|]. } destruct (G3 l eq_refl) as [-> Eh].
      apply Q; [done|done| |by left]. split; [exact T1|]. cbn. by rewrite Eh.
    - match goal with K : u_dw u = _ |- _ => rename K into E end. rewrite E in *. cbn [w_buf w_pc] in *. constructor; cbn [u_dw u_mem with_dw w_buf w_pc].
      + intros d0 l0 Hd. unfold d_recv in Hd. apply lookup_insert_Some in Hd as [[<- <-]|[_ Hd]]; [done|by apply K1].
      + done.
      + intros th Hin. apply elem_of_insert in Hin as [->|Hin]; [|by apply K3]. split; [|done]. cbn. intros c Hc. apply T1. by destruct pc'.
      + intros d0 x0 Hd Hc. unfold d_recv. destruct (decide (d0 = d)) as [->|N]; [left; rewrite lookup_insert; by eexists|]. rewrite lookup_insert_ne by done.
        destruct (K4 d0 x0 Hd Hc) as [?|[?|Hu]]; [by left|right; by left|]. right. right. destruct (undoc_insert _ _ _ _ (pc', NoMsg, cs) Hi Hu) as [?|[x' Hx']]; [done|].
        cbn in Hx'. eexists. split; [by eapply insert_self|]. exists x'. cbn. destruct pc'; cbn in *; try done. congruence.
  Qed.
  Lemma search_heap ncpu terms f sh m s q m' q' : msearch_step decompress ncpu terms f sh m s q (m', q') -> c_heap m ⊆ c_heap m'.
  Proof.
    intros H. inversion H; subst; try done. match goal with K : bbatch_step _ _ _ _ _ |- _ => inversion K; subst end; try done. cbn. by apply insert_subseteq.
  Qed.
  Lemma k_step a b : step a b -> good_log (mu_log b) -> m_inv decompress a -> d_inv a -> k_inv a -> k_inv b.
  Proof.
    intros [H|(y' & H & ->)] Hg [Hb Hi] [Hf Hd] Hu.
    2:{ inversion H as [s p log Hp E]; subst y'. done. }
    inversion H; subst; unfold k_inv, mu_log in *; cbn [mu_sys mu_sh mu_threads y_proc y_fs y_log] in *.
    - match goal with K2 : forall u, _ <> Up u |- _ => rename K2 into Nu end. destruct (y_proc y') as [| |u] eqn:E; [done|done|by destruct (Nu u)].
    - match goal with K : live_step _ _ _ _ _ |- _ => rename K into St end. match goal with K : y_proc y' = Up _ |- _ => rename K into Eu end. rewrite Eu.
      inversion St; subst; cbn [y_fs y_proc y_log] in *; try congruence. injection Eu as ->. exists log, []. split; [done|]. split; [apply not_elem_of_nil|].
      match goal with G : opened _ _ _ _ _ |- _ => inversion G; subst end. constructor; cbn; try done; [by intros th ?%elem_of_nil|by intros d x _ ?%elem_of_nil].
    - match goal with K : live_step _ _ _ _ _ |- _ => rename K into St end.
      match goal with K : y_proc y = _, K2 : y_proc y' = _, K3 : u_pc _ = CIdle |- _ => rewrite K in Hi, Hu; rewrite K2; rename K into Eu, K2 into Eu', K3 into Ep end.
      destruct Hi as (G & L & ol & oa & I). pose proof (mi_pc _ _ _ _ _ _ _ _ _ _ I) as Ip. destruct Hb as [Bl Bp]. rewrite Eu in Bp. destruct Bp as [Br Bw]. destruct Hu as (l1 & l2 & El & Hn & HK).
      inversion St; subst; cbn [y_fs y_proc y_log] in *; try congruence; injection Eu as ->; injection Eu' as ->.
      + match goal with K : up_step _ _ _ _ _ |- _ => rename K into US end. destruct (up_ev compress decompress _ _ _ _ _ US) as [V1 V2].
        exists l1, (l2 ++ ev). split; [rewrite El; by rewrite <- app_assoc|]. split; [rewrite elem_of_app; tauto|]. rewrite calls_app, V1, app_nil_r. by eapply bg_k.
      + match goal with K : up_tick _ _ |- _ => rename K into UT end. destruct (up_tick_wf _ _ _ _ Bw UT) as [-> _]. destruct (bg_tick _ _ _ _ ∅ UT) as (_ & Em & _). exists l1, l2. split; [done|]. split; [done|].
        destruct HK as [K1 K2 K3 K4]. inversion UT; subst; try (by constructor). match goal with K : w_tick _ _ |- _ => inversion K; subst end. by constructor.
      + match goal with K : up_call _ _ _ |- _ => inversion K; subst; done end.
    - destruct Hu as (l1 & l2 & El & Hn & [K1 K2 K3 K4]). exists l1, l2. split; [done|]. split; [done|]. constructor; try done.
      + intros th Hth. apply elem_of_app in Hth as [Hth|Hth]; [by apply K3|]. apply elem_of_list_singleton in Hth. subst th. by split.
      + intros d x Hd' Hc. destruct (K4 d x Hd' Hc) as [?|[?|(th & T & T')]]; [by left|right; by left|]. right. right. exists th. split; [|done]. apply elem_of_app. by left.
    - match goal with K : ths !! i = _ |- _ => rename K into Ti end. destruct Hu as (l1 & l2 & El & Hn & [K1 K2 K3 K4]). exists l1, (l2 ++ [ECall c]). split; [rewrite El; by rewrite <- app_assoc|].
      split; [rewrite elem_of_app, elem_of_list_singleton; intros [?|?]; done|]. rewrite calls_app. change (calls_of [ECall c]) with [c]. constructor.
      + intros d l Hl. apply goodl_app. by apply K1.
      + by apply fl_good_app.
      + intros th Hth. apply elem_of_insert in Hth as [->|Hth]; [|apply th_good_app; by apply K3]. split; [|done]. intros c' Hc'. apply elem_of_app. right. apply elem_of_list_singleton. destruct c; cbn in Hc'; congruence.
      + intros d x Hd' Hc. apply elem_of_app in Hc as [Hc|Hc].
        * destruct (K4 d x Hd' Hc) as [?|[?|Hx]]; [by left|right; left; by apply file_good_app|]. right. right. destruct (undoc_insert _ _ _ _ (t_enter true c, NoMsg, cs) Ti Hx) as [?|[x' Hx']]; done.
        * apply elem_of_list_singleton in Hc. subst c. right. right. eexists. split; [by eapply insert_self|]. by exists x.
    - match goal with K : ths !! i = _ |- _ => rename K into Ti end. match goal with K : client_step _ _ _ |- _ => rename K into St end. destruct Hu as (l1 & l2 & El & Hn & HK).
      assert (calls_of ev = [] /\ EOpened ∉ ev) as [V1 V2]. { inversion St; subst; (split; [done|]); try apply not_elem_of_nil. intros X. by apply elem_of_list_singleton in X. }
      exists l1, (l2 ++ ev). split; [rewrite El; by rewrite <- app_assoc|]. split; [rewrite elem_of_app; tauto|]. rewrite calls_app, V1, app_nil_r.
      destruct Hd as (own & HU & HT & _). destruct th as [pc m], th' as [pc' m']. by eapply k_client.
    - done.
    - match goal with K : msearch_step _ _ _ _ _ _ _ _ _ |- _ => apply search_heap in K; rename K into St end. destruct Hu as (l1 & l2 & El & Hn & [K1 K2 K3 K4]). exists l1, l2. split; [done|]. split; [done|].
      assert (forall d l, goodl (calls_of l2) (c_heap (u_mem u)) d l -> goodl (calls_of l2) (c_heap m) d l) as KG. { intros d l (fd & F1 & F2). exists fd. split; [|done]. by eapply lookup_weaken. }
      constructor; cbn [with_mem u_mem u_dw]; try done.
      + intros d l Hl. apply KG. by apply K1.
      + intros th Hth. destruct (K3 th Hth) as [A1 A2]. split; [done|]. destruct (th.1.2); try done; [|by apply KG]. destruct A2 as [A2 A3]. split; [done|]. destruct dp as [[]|]; try done. by apply KG.
  Qed.
  Lemma k_reach a : multi_reachable compress decompress cache_size a -> good_log (mu_log a) -> k_inv a.
  Proof.
    unfold multi_reachable. intros R Hg. assert (m_inv decompress a /\ d_inv a /\ k_inv a) as (_ & _ & ?); [|done]. revert a R Hg.
    apply (rtc_ind_r (fun a => good_log (mu_log a) -> m_inv decompress a /\ d_inv a /\ k_inv a) multi_init).
    - intros Hg. split; [apply (m_reach compress decompress cache_size gz); [apply rtc_refl|done]|]. split; [|done]. by apply (d_reach_multi compress decompress cache_size gz pos); [apply rtc_refl|].
    - intros a b _ Hab IH Hg. destruct (IH (m_good_mono _ _ _ _ _ Hab Hg)) as (M & D & K). split; [by eapply m_step|]. split; [by eapply d_step|by eapply k_step].
  Qed.
End docs.
