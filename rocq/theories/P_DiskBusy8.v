(** Searches that run on the disk storage while the client saves (C64): a saved document
    is found, all steps. *)
From Verif Require Import Base M_Field M_LRU S_Visits M_Memory M_File M_Serialize M_Num M_FanIn M_Search M_SearchConc M_Disk P_Base P_LRU P_FanIn2 P_SearchConc P_DiskBase P_DiskInv P_DiskMem P_DiskWriter P_DiskDocs P_DiskBusy P_DiskBusy2 P_DiskBusy3 P_DiskBusy4 P_DiskBusy5 P_DiskBusy6 P_DiskBusy7 M_DiskBusy S_Disk.
#[local] Open Scope nat_scope.
#[local] Opaque serialize_metrics serialize_nft serialize_field_map serialize_index deserialize_index deserialize_nft deserialize_field_map deserialize_metrics.

Section keeping.
  Variables (compress : bytes -> bytes) (decompress : bytes -> option bytes) (cache_size : Z) (N : numops) (ncpu : nat).
  Hypothesis gz : gzip_ok compress decompress.
  Hypothesis pos : (0 < cache_size)%Z.
  Notation blive := (busy_live compress decompress cache_size N ncpu).
  Notation sound := (sound compress cache_size N).

  Lemma live_client s u log y' : noget (u_pc u) -> not_doc (mkSys s (Up u) log) y' -> live_step compress decompress cache_size (mkSys s (Up u) log) y' ->
    exists s' u' ev, y' = mkSys s' (Up u') (log ++ ev) /\ client_ok u u' ev.
  Proof.
    intros Hg Hn H. inversion H; subst.
    - exists s', u', ev. split; [done|]. eapply up_step_client; [eassumption|done|]. by destruct (Hn u u' eq_refl eq_refl).
    - exists s', u', []. rewrite app_nil_r. split; [done|]. by eapply up_tick_client.
    - exists s, u', ev. split; [done|]. apply up_call_client; [done|]. match goal with G : up_call _ _ _ |- _ => inversion G; subst end; try done. exfalso. destruct (Hn _ _ eq_refl eq_refl) as [_ K]. by apply (K ids f ids ∅).
  Qed.
  Lemma doc_step_index dw m pc dp m' pc' dp' : doc_step dw (m, pc, dp) (m', pc', dp') -> c_index m' = c_index m.
  Proof. intros H. by inversion H; subst. Qed.
  Lemma search_index terms f u s (q : dsearch N) m' q' : dsearch_step decompress N ncpu terms f u s q (m', q') -> c_index m' = c_index (u_mem u).
  Proof. intros H. inversion H; subst; try done. match goal with G : bbatch_step _ _ _ _ _ |- _ => by inversion G; subst end. Qed.
  Definition known_in (b : busy N) (k : string) : Prop := exists u, y_proc (by_sys b) = Up u /\ known (u_mem u) (y_log (by_sys b)) k.
  (** A step of the running process. *)
  Lemma live_known a b u : sound a -> blive a b -> y_proc (by_sys a) = Up u -> exists u' ev, y_proc (by_sys b) = Up u' /\ y_log (by_sys b) = y_log (by_sys a) ++ ev /\ grows (u_mem u) (u_mem u').
  Proof.
    intros [_ Hs] H Hu. rewrite Hu in Hs. destruct Hs as (own & HU & _).
    destruct H as [y y' dp qs HL Hnd|s u0 log dp m pc dp' qs HD|s u0 log dp qs terms f|s u0 log dp qs i terms f q m q' Hi HS]; cbn [by_sys y_proc y_log] in *.
    - destruct y as [s p log]. cbn in Hu. subst p. destruct (live_client s u log y' (uo_get _ _ _ _ _ _ HU) Hnd HL) as (s' & u' & ev & -> & HC). exists u', ev. split; [done|]. split; [done|]. apply HC.
    - injection Hu as ->. eexists _, []. rewrite app_nil_r. split; [done|]. split; [done|]. apply grows_same. by eapply doc_step_index.
    - injection Hu as ->. eexists _, []. rewrite app_nil_r. split; [done|]. split; [done|]. by apply grows_same.
    - injection Hu as ->. eexists _, []. rewrite app_nil_r. split; [done|]. split; [done|]. apply grows_same. by eapply search_index.
  Qed.
  Lemma live_known_in a b k : sound a -> blive a b -> known_in a k -> known_in b k.
  Proof. intros Hs H (u & Hu & Hk). destruct (live_known _ _ _ Hs H Hu) as (u' & ev & H1 & H2 & H3). exists u'. split; [done|]. rewrite H2. by apply known_mono with (m := u_mem u). Qed.

  Section doc.
    Variables (d : string) (x : field) (D : gset string).
    Hypothesis Hroom : (Z.of_nat (size D) <= cache_size)%Z.
    Notation held := (held d x).
    Notation k_ok := (k_ok N d x).
    Definition dpk (pc : cpc) (dp : option doc_pc) (e l : nat) : Prop :=
      match dp with
      | None => True
      | Some (DPtr e') => forall z, pc = CDoc d z -> e' = e
      | Some (DMap l') | Some (DPut l') => forall z, pc = CDoc d z -> l' = l
      end.
    Definition returned (q : dsearch N) : Prop := exists r, q = SRet r.
    Definition old_ok (e l : nat) (t : query N) : Prop := returned t.2 \/ o_ok N d e l t.
    Definition keeping (log0 : list event) (n : nat) (b : busy N) : Prop :=
      exists u e l ev, y_proc (by_sys b) = Up u /\ y_log (by_sys b) = log0 ++ ev /\ held (u_mem u) e l ev /\ all_listed d x (u_mem u) /\
        (forall c, c ∈ pending (u_pc u) -> c ∈ calls_of ev) /\ dpk (u_pc u) (by_doc b) e l /\ n <= length (by_qs b) /\
        forall i t, by_qs b !! i = Some t -> (i < n /\ old_ok e l t) \/ (n <= i /\ k_ok (u_mem u) e l ev t).
    Lemma qs_next n (qs : list (query N)) (O P P' : query N -> Prop) : (forall t, P t -> P' t) -> (forall i t, qs !! i = Some t -> (i < n /\ O t) \/ (n <= i /\ P t)) -> forall i t, qs !! i = Some t -> (i < n /\ O t) \/ (n <= i /\ P' t).
    Proof. intros H K i t Hi. destruct (K i t Hi) as [?|[? ?]]; [by left|right; auto]. Qed.
    Lemma keeping_step log0 n a b : sound a -> keeping log0 n a -> blive a b -> (forall k, known_in a k -> k ∈ D) -> keeping log0 n b.
    Proof.
      intros [Hf Hs] (u & e & l & ev & Hu & Hlog & Hh & Ha & Hp & Hd & Hn & Hq) H HK. rewrite Hu in Hs. destruct Hs as (own & HU & HQ).
      assert (cache_ok cache_size (fun k => k ∈ D) (c_cache (u_mem u))) as Hc. { eapply cache_mono; [|exact (mo_cache _ _ _ _ _ (uo_mem _ _ _ _ _ _ HU))]. intros k Hk. apply HK. exists u. done. }
      assert (own !! l = Some d) as Hol. { destruct Hh as (_ & Hpg & _). by apply (mo_page _ _ _ _ _ (uo_mem _ _ _ _ _ _ HU) e). }
      destruct H as [y y' dp qs HL Hnd|s u0 log dp m pc dp' qs HD|s u0 log dp qs terms f|s u0 log dp qs i terms f q m q' Hi HS]; cbn [by_sys y_proc y_log by_doc by_qs y_fs] in *.
      - destruct y as [s p log]. cbn in Hu, Hlog. subst p log. destruct (live_client s u _ y' (uo_get _ _ _ _ _ _ HU) Hnd HL) as (s' & u' & ev' & -> & HC). destruct HC as [C1 C2 C3 C4 C5 C6 C7 C8].
        exists u', e, l, (ev ++ ev'). cbn. split; [done|]. split; [by rewrite app_assoc|]. split; [by eapply held_app|]. split; [intros t Ht; apply C5; by apply Ha|]. split.
        { intros c Hcc. rewrite calls_app. apply elem_of_app. destruct (C4 c Hcc); [left; auto|by right]. }
        split. { pose proof (uo_doc _ _ _ _ _ _ HU) as Hdoc. cbn in Hdoc. destruct dp as [[e'|l'|l']|]; [..|done]; cbn in *; destruct Hdoc as (d0 & x0 & E0 & _); intros z Hz; rewrite (C8 _ _ E0) in Hz; injection Hz as -> ->; eapply Hd; exact E0. }
        split; [done|]. eapply qs_next; [|exact Hq]. intros t. by apply k_ok_app.
      - injection Hu as ->. subst log. pose proof (doc_step_index _ _ _ _ _ _ _ HD) as Hix.
        assert (forall m' pc' dp', held m' e l ev -> c_index m' = c_index (u_mem u) -> (forall c, c ∈ pending pc' -> c ∈ pending (u_pc u)) -> dpk pc' dp' e l ->
          keeping log0 n (mkBusy (mkSys s (Up (with_mem u m' pc')) (log0 ++ ev)) dp' qs)) as HG.
        { intros m1 pc1 dp1 G1 G2 G3 G4. eexists _, e, l, ev. cbn. split; [done|]. split; [done|]. split; [done|]. split; [intros t Ht; eapply grows_same; [exact G2|by apply Ha]|]. split; [auto|]. split; [done|]. split; [done|]. eapply qs_next; [|exact Hq]. intros t. by apply k_ok_same. }
        pose proof (uo_doc _ _ _ _ _ _ HU) as Hdoc. cbn in Hdoc.
        inversion HD; subst; match goal with G : _ = u_pc u |- _ => rename G into Hpc end.
        + apply HG; [by eapply held_get|done|by rewrite <- Hpc|]. cbn. intros z [= -> ->]. destruct Hh as (T1 & _). match goal with G : lru_get _ _ = _ |- _ => destruct (get_keeps _ _ _ _ G) as (_ & _ & _ & E) end. congruence.
        + match goal with G : lru_get _ _ = _ |- _ => destruct (get_keeps _ _ _ _ G) as (_ & _ & _ & E) end. apply HG; [|done|by rewrite <- Hpc|].
          * apply (held_alloc d x (set_cache (u_mem u) c' (c_heap (u_mem u))) e l ev l0 ∅); [done|]. by eapply held_get.
          * cbn. intros z [= -> ->]. destruct Hh as (T1 & _). congruence.
        + apply HG; [done|done|by rewrite <- Hpc|]. cbn. intros z [= -> ->]. cbn in Hd. rewrite <- Hpc in Hd. rewrite (Hd _ eq_refl) in *. destruct Hh as (_ & T2 & _). match goal with G : lru_deref _ _ = _ |- _ => unfold lru_deref in G; rewrite T2 in G; by injection G end.
        + destruct Hdoc as (d1 & x1 & E1 & Ho). rewrite <- Hpc in E1. injection E1 as <- <-. apply HG; [|done|by rewrite <- Hpc|].
          * apply held_write; [done| |done]. intros ->. rewrite Hol in Ho. injection Ho as <-. apply Hp. rewrite <- Hpc. left.
          * cbn in *. intros z [= -> ->]. rewrite <- Hpc in Hd. by apply (Hd z).
        + destruct Hdoc as (d1 & x1 & E1 & Ho). rewrite <- Hpc in E1. injection E1 as <- <-. apply HG; [|done|by rewrite <- Hpc|done].
          destruct (decide (d0 = d)) as [->|Hne].
          * cbn in Hd. rewrite <- Hpc in Hd. rewrite (Hd _ eq_refl) in *. by apply held_put_doc.
          * eapply held_put; [exact Hroom|exact Hc| |exact Hne|eassumption|done]. apply HK. eexists. split; [done|]. right. exists (Save d0 x0). split; [|done]. cbn. rewrite calls_app. apply elem_of_app. right. apply Hp. rewrite <- Hpc. left.
      - injection Hu as ->. subst log. exists u, e, l, ev. cbn. do 6 (split; [done|]). split; [rewrite app_length; lia|]. intros i t Hi. apply lookup_app_Some in Hi as [Hi|[Hle Hi]]; [by apply Hq|]. right. apply list_lookup_singleton_Some in Hi as [Hi <-]. split; [lia|]. split; cbn; done.
      - injection Hu as ->. subst log. pose proof HQ as HQi. rewrite Forall_lookup in HQi. specialize (HQi _ _ Hi).
        pose proof (search_index _ _ _ _ _ _ _ HS) as Hix.
        assert (forall id, found (u_mem u) f terms id -> id ∈ D) as HF. { intros id (t & T1 & T2). apply HK. eexists. split; [done|]. left. eauto. }
        assert (held m e l ev /\ ((i < n /\ old_ok e l (terms, f, q')) \/ (n <= i /\ k_ok m e l ev (terms, f, q')))) as [Hh' Hk'].
        { destruct (Hq _ _ Hi) as [[Hni [[r Er]|Ho]]|[Hni Hk]].
          - cbn in Er. subst q. inversion HS.
          - destruct (search_o_ok decompress cache_size N ncpu d x D Hroom _ _ _ _ _ _ _ _ _ _ (log0 ++ ev) own HS Hh Hc Ha HF HQi Ho) as [? ?]. split; [done|]. left. split; [done|]. by right.
          - destruct (search_k_ok decompress cache_size N ncpu d x D Hroom _ _ _ _ _ _ _ _ _ _ (log0 ++ ev) own HS Hh Hc Ha HF HQi Hk) as [? ?]. split; [done|]. by right. }
        eexists _, e, l, ev. cbn. split; [done|]. split; [done|]. split; [done|]. split; [intros t Ht; eapply grows_same; [exact Hix|by apply Ha]|]. split; [done|]. split; [done|]. split; [by rewrite insert_length|].
        intros j t Hj. destruct (decide (i = j)) as [<-|Hij].
        + rewrite list_lookup_insert in Hj by (by eapply lookup_lt_Some). injection Hj as <-. done.
        + rewrite list_lookup_insert_ne in Hj by done. destruct (Hq _ _ Hj) as [?|[? ?]]; [by left|right]. split; [done|]. by eapply k_ok_same.
    Qed.
  End doc.
End keeping.
