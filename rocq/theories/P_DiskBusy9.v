(** Searches that run on the disk storage while the client saves (C64): one SaveOrUpdate
    from its call to its return. *)
From Verif Require Import Base M_Field M_LRU S_Visits M_Memory M_File M_Serialize M_Num M_FanIn M_Search M_SearchConc M_Disk P_Base P_LRU P_FanIn2 P_SearchConc P_DiskBase P_DiskInv P_DiskMem P_DiskWriter P_DiskDocs P_DiskBusy P_DiskBusy2 P_DiskBusy3 P_DiskBusy4 P_DiskBusy5 P_DiskBusy6 P_DiskBusy7 P_DiskBusy8 M_DiskBusy S_Disk.
#[local] Open Scope nat_scope.
#[local] Opaque serialize_metrics serialize_nft serialize_field_map serialize_index deserialize_index deserialize_nft deserialize_field_map deserialize_metrics.

Section stage.
  Variables (compress : bytes -> bytes) (decompress : bytes -> option bytes) (cache_size : Z) (N : numops) (ncpu : nat).
  Notation blive := (busy_live compress decompress cache_size N ncpu).
  Notation sound := (sound compress cache_size N).
  Variables (d : string) (x : field) (D : gset string).
  Hypothesis Hroom : (Z.of_nat (size D) <= cache_size)%Z.
  Notation f := (f_name x).
  Definition written (m : cmem) : Prop := exists e l, held d x m e l [].
  Definition mine (pc : cpc) (m : cmem) (dp : option doc_pc) : Prop :=
    match pc with
    | CSave d' x' | CFieldSend d' x' => d' = d /\ x' = x
    | CIndex full d' x' => full = true /\ d' = d /\ x' = x
    | CIndexLoop full d' x' ks | CIndexSend full d' x' _ ks => full = true /\ d' = d /\ x' = x /\ forall t, is_Some (f_tf x !! t) -> listed m f t d \/ t ∈ ks
    | CNft d' x' | CNftLoop d' x' _ _ | CNftSend d' x' _ _ _ => d' = d /\ x' = x /\ all_listed d x m
    | CDoc d' x' => d' = d /\ x' = x /\ all_listed d x m /\ match dp with Some (DPut l) => exists fd, c_heap m !! l = Some fd /\ fd !! f = Some x | _ => True end
    | CDocSend d' x' l => d' = d /\ x' = x /\ all_listed d x m /\ written m
    | CIdle => all_listed d x m /\ written m
    | _ => False
    end.
  Lemma mine_up u s ev u' s' dp : up_step compress decompress (u, s) ev (u', s') -> (forall d x, u_pc u = CDoc d x -> u_pc u' = CDoc d x) -> ((forall d x, u_pc u <> CDoc d x) -> dp = None) -> mine (u_pc u) (u_mem u) dp -> mine (u_pc u') (u_mem u') dp.
  Proof.
    intros H Hd Hdp M. inversion H; subst; cbn [u_pc u_mem] in *; try done.
    - match goal with G : c_step _ _ _ _ |- _ => inversion G; subst end; cbn [mine] in *; try done.
      + destruct M as (-> & -> & ->). do 3 (split; [done|]). intros t Ht. right. match goal with G : range_order _ _ |- _ => unfold range_order in G; rewrite G end. destruct Ht as [v Hv]. apply elem_of_list_fmap. exists (t, v). split; [done|]. by apply elem_of_map_to_list.
      + destruct M as (-> & -> & -> & M). do 3 (split; [done|]). intros t0 Ht. match goal with G : c_index m !! _ = Some _ |- _ => pose proof (listed_term m f _ d t f t0 d G) as L end. destruct (M t0 Ht) as [K|[->|K]%elem_of_cons]; [left; apply L; by left|left; apply L; by right|by right].
      + destruct M as (-> & -> & -> & M). cbn. do 2 (split; [done|]). intros t Ht. destruct (M t Ht) as [?|K]; [done|by apply elem_of_nil in K].
      + destruct M as (-> & -> & M). do 2 (split; [done|]). split; [done|]. rewrite Hdp; done.
    - exfalso. match goal with G : c_doc _ _ _ |- _ => inversion G; subst end; by specialize (Hd _ _ eq_refl).
    - destruct M as (_ & _ & M). done.
  Qed.
  Lemma search_heap terms f' u s (q : dsearch N) m' q' l fd : dsearch_step decompress N ncpu terms f' u s q (m', q') -> c_heap (u_mem u) !! l = Some fd -> c_heap m' !! l = Some fd.
  Proof.
    intros H Hl. inversion H; subst; try done. match goal with G : bbatch_step _ _ _ _ _ |- _ => inversion G; subst end; try done. cbn. rewrite lookup_insert_ne; [done|]. congruence.
  Qed.
  Lemma mine_mem pc m m' dp : c_index m' = c_index m -> (forall l fd, c_heap m !! l = Some fd -> c_heap m' !! l = Some fd) -> (all_listed d x m -> written m -> written m') -> mine pc m dp -> mine pc m' dp.
  Proof.
    intros Hi Hh Hw M. pose proof (grows_same _ _ Hi) as Hg. assert (all_listed d x m -> all_listed d x m') as Ha by (intros A t Ht; apply Hg; auto). destruct pc; cbn [mine] in *; try done; try (destruct M as (M1 & M2 & M3); auto; fail).
    - destruct M as (M1 & M2). auto.
    - destruct M as (M1 & M2 & M3 & M4). do 3 (split; [done|]). intros t Ht. destruct (M4 t Ht); auto.
    - destruct M as (M1 & M2 & M3 & M4). do 3 (split; [done|]). intros t0 Ht. destruct (M4 t0 Ht); auto.
    - destruct M as (M1 & M2 & M3 & M4). do 2 (split; [done|]). split; [auto|]. destruct dp as [[| |l]|]; try done. destruct M4 as (fd & H1 & H2). eauto.
    - destruct M as (M1 & M2 & M3 & M4). auto.
  Qed.
  Lemma mine_doc u log dp own m pc dp' : up_ok compress cache_size u log dp own -> doc_step (u_dw u) (u_mem u, u_pc u, dp) (m, pc, dp') -> mine (u_pc u) (u_mem u) dp -> mine pc m dp'.
  Proof.
    intros HU H M. inversion H; subst; match goal with G : _ = u_pc u |- _ => rewrite <- G in M end; cbn [mine] in *; destruct M as (-> & -> & M1 & M2); (split; [done|]; split; [done|]); try (split; [done|done]).
    - split; [done|]. cbn. eexists. rewrite lookup_insert. split; [done|]. by rewrite lookup_insert.
    - split; [done|]. destruct M2 as (fd & M2 & M3). pose proof (mo_cache _ _ _ _ _ (uo_mem _ _ _ _ _ _ HU)) as Hc. match goal with G : lru_put _ _ _ = _ |- _ => destruct (put_effect _ _ _ _ G) as [(e & k' & v' & T1 & P1 & E1 & E2)|(T1 & e & t & E1 & E2 & _)] end.
      + destruct (cache_page _ _ _ _ _ Hc T1) as [l1 Hl1]. rewrite Hl1 in P1. injection P1 as <- <-. exists e, l. split; [cbn; by rewrite E2|]. split; [cbn; rewrite E1; by rewrite lookup_insert|]. exists fd, x. split; [done|]. split; [done|]. by left.
      + exists e, l. split; [cbn; by rewrite E2, lookup_insert|]. split; [cbn; rewrite E1; by rewrite lookup_insert|]. exists fd, x. split; [done|]. split; [done|]. by left.
  Qed.
  Definition alone (b : busy N) : Prop := forall i t, by_qs b !! i = Some t -> returned N t.2.
  (** The call has not been made, is in progress or has returned; or other calls were made. *)
  Definition stage (log1 : list event) (b : busy N) : Prop :=
    exists u ev, y_proc (by_sys b) = Up u /\ y_log (by_sys b) = log1 ++ ev /\
      (calls_of ev `prefix_of` [Save d x] -> (calls_of ev = [] /\ u_pc u = CIdle) \/ (calls_of ev = [Save d x] /\ mine (u_pc u) (u_mem u) (by_doc b))).
  Lemma prefix_more ev ev' : calls_of (ev ++ ev') `prefix_of` [Save d x] -> calls_of ev `prefix_of` [Save d x].
  Proof. intros K. rewrite calls_app in K. by apply prefix_app_l in K. Qed.
  Definition calm (b : busy N) : Prop := alone b \/ exists x0 log0 n, keeping N d x0 log0 n b /\ forall k, known_in N b k -> k ∈ D.
  Lemma stage_step log1 a b : sound a -> stage log1 a -> calm a -> blive a b -> stage log1 b.
  Proof.
    intros [Hf Hs] (u & ev & Hu & Hlog & Hst) Hcalm H. rewrite Hu in Hs. destruct Hs as (own & HU & HQ).
    destruct H as [y y' dp qs HL Hnd|s u0 log dp m pc dp' qs HD|s u0 log dp qs terms f'|s u0 log dp qs i terms f' q m q' Hi HS]; cbn [by_sys y_proc y_log by_doc by_qs y_fs] in *.
    - destruct y as [s p log]. cbn in Hu, Hlog. subst p log. inversion HL; subst.
      + exists u', (ev ++ ev0). cbn. split; [done|]. split; [by rewrite app_assoc|]. destruct (Hnd u u' eq_refl eq_refl) as [Hdc _]. assert (calls_of ev0 = []) as E0.
        { match goal with G : up_step _ _ _ _ _ |- _ => inversion G; subst end; try done. unfold nft_event. match goal with |- context [match ?t with _ => _ end] => destruct t as [| | | |? ? ? []] end; done. }
        intros Hpre. destruct (Hst (prefix_more _ _ Hpre)) as [[S1 S2]|[S1 S2]]; [left|right].
        * rewrite calls_app, S1, E0. split; [done|]. match goal with G : up_step _ _ _ _ _ |- _ => inversion G; subst end; cbn [u_pc] in *; try done; subst.
          -- match goal with G : c_step _ _ _ _ |- _ => inversion G end.
          -- match goal with G : c_doc _ _ _ |- _ => inversion G end.
        * rewrite calls_app, S1, E0. split; [done|]. eapply mine_up; [eassumption|done| |done]. intros Hno. pose proof (uo_doc _ _ _ _ _ _ HU) as Hdoc. destruct dp as [[?|?|?]|]; [..|done]; exfalso; destruct Hdoc as (d1 & x1 & E1 & _); by apply (Hno d1 x1).
      + exists u', ev. cbn. split; [done|]. split; [done|]. match goal with G : up_tick _ _ |- _ => inversion G; subst end; done.
      + exists u', (ev ++ ev0). cbn. split; [done|]. split; [by rewrite app_assoc|]. match goal with G : up_call _ _ _ |- _ => inversion G; subst end.
        * intros Hpre. destruct (Hst (prefix_more _ _ Hpre)) as [[S1 S2]|[S1 S2]]; rewrite calls_app, S1 in *; cbn in *.
          -- right. assert (Save d0 x0 = Save d x) as [= -> ->] by (by apply prefix_cons_inv_1 in Hpre). done.
          -- apply prefix_length in Hpre. cbn in Hpre. lia.
        * intros Hpre. destruct (Hst (prefix_more _ _ Hpre)) as [[S1 S2]|[S1 S2]]; rewrite calls_app, S1 in *; cbn in *; [by apply prefix_cons_inv_1 in Hpre|]. apply prefix_length in Hpre. cbn in Hpre. lia.
        * exfalso. destruct (Hnd _ _ eq_refl eq_refl) as [_ K]. by eapply K.
    - injection Hu as ->. subst log. eexists _, ev. cbn. split; [done|]. split; [done|]. intros Hpre. destruct (Hst Hpre) as [[S1 S2]|[S1 S2]]; [exfalso|right].
      + inversion HD; subst; congruence.
      + split; [done|]. by eapply mine_doc.
    - injection Hu as ->. subst log. eexists _, ev. cbn. done.
    - injection Hu as ->. subst log. eexists _, ev. cbn. split; [done|]. split; [done|]. intros Hpre. destruct (Hst Hpre) as [[S1 S2]|[S1 S2]]; [by left|right]. split; [done|].
      destruct Hcalm as [Hal|(x0 & log0 & n & (u1 & e & l & ev0 & Hu1 & Hl0 & Hh & _ & _ & _ & _ & Hq) & HK)]. { destruct (Hal i _ Hi) as [r Er]. cbn in Er. subst q. inversion HS. }
      cbn in Hu1, Hl0, Hq. injection Hu1 as <-. eapply mine_mem; [by eapply search_index|intros l1 fd1; by eapply search_heap| |exact S2].
      intros Ha (e' & l' & Hw). assert (e' = e /\ l' = l) as [-> ->]. { destruct Hh as (A1 & A2 & _). destruct Hw as (B1 & B2 & _). rewrite A1 in B1. injection B1 as <-. rewrite A2 in B2. by injection B2. }
      exists e, l. pose proof HQ as HQi. rewrite Forall_lookup in HQi. specialize (HQi _ _ Hi).
      assert (o_ok N d e l (terms, f', q)) as Ho. { destruct (Hq _ _ Hi) as [[_ [[r Er]|?]]|[_ ?]]; [cbn in Er; subst q; inversion HS|done|by eapply k_o_ok]. }
      assert (cache_ok cache_size (fun k => k ∈ D) (c_cache (u_mem u))) as Hc. { eapply cache_mono; [|exact (mo_cache _ _ _ _ _ (uo_mem _ _ _ _ _ _ HU))]. intros k Hk. apply HK. exists u. done. }
      eapply (search_o_ok decompress cache_size N ncpu d x D Hroom _ _ _ _ _ _ _ _ _ _ (log1 ++ ev) own HS Hw Hc Ha); [|exact HQi|exact Ho]. intros id (t & T1 & T2). apply HK. eexists. split; [done|]. left. eauto.
  Qed.
End stage.
