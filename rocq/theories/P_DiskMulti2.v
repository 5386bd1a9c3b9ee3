(** Concurrent calls on the disk storage: the invariant (C66). *)
From Verif Require Import Base M_Field M_LRU S_Visits M_Memory M_File M_Serialize M_Num M_FanIn M_Search M_Concurrent M_SearchConc M_Disk M_DiskBusy M_DiskMulti P_Base P_File S_Concurrent P_Concurrent P_Concurrent2 S_Disk P_DiskBase P_DiskInv P_DiskMem P_DiskWriter P_DiskIndex P_DiskIndex2 P_DiskIndex3 P_DiskIndex4 S_DiskMulti P_DiskMulti.
#[local] Open Scope Z_scope.
#[local] Opaque serialize_metrics deserialize_metrics serialize_nft deserialize_nft serialize_field_map deserialize_field_map serialize_index deserialize_index.

Notation threads := (list (tpc * msg * list call)).
Definition pend (ths : threads) (p : posting) : Prop := exists th, th ∈ ths /\ th.1.2 = ISend p.
Definition due (ths : threads) (t : string) (c : call) : Prop := exists th, th ∈ ths /\ will_post t c th.1.1.
Definition msg_ok (log : list event) (m : msg) : Prop :=
  match m with
  | FLen x | FSize x _ | FSend x _ _ => nd (f_name x)
  | ISend p => nd (po_field p) /\ saved_posting log (po_field p) (po_term p) (po_doc p)
  | NCount f _ _ | NSend f _ _ => nd f
  | _ => True
  end.
Lemma pend_insert ths i pc m cs pc' m' cs' p : ths !! i = Some (pc, m, cs) -> pend ths p -> pend (<[i := (pc', m', cs')]> ths) p \/ m = ISend p.
Proof.
  intros Hi (th & Hth & E). destruct (insert_other _ _ _ (pc', m', cs') _ Hi Hth) as [->|H]; [by right|]. left. by exists th.
Qed.
Lemma pend_new ths i (x : tpc * msg * list call) pc' cs' p : ths !! i = Some x -> pend (<[i := (pc', ISend p, cs')]> ths) p.
Proof. intros Hi. exists (pc', ISend p, cs'). split; [by eapply insert_self|done]. Qed.
Lemma due_insert ths i pc m cs pc' m' cs' t c : ths !! i = Some (pc, m, cs) -> due ths t c -> due (<[i := (pc', m', cs')]> ths) t c \/ will_post t c pc.
Proof.
  intros Hi (th & Hth & E). destruct (insert_other _ _ _ (pc', m', cs') _ Hi Hth) as [->|H]; [by right|]. left. by exists th.
Qed.
Lemma due_new ths i (x : tpc * msg * list call) pc' m' cs' t c : ths !! i = Some x -> will_post t c pc' -> due (<[i := (pc', m', cs')]> ths) t c.
Proof. intros Hi. exists (pc', m', cs'). split; [by eapply insert_self|done]. Qed.

(** A search changes only the document cache and its maps. *)
Lemma search_mem decompress ncpu terms f sh m s q m' q' : msearch_step decompress ncpu terms f sh m s q (m', q') -> m' = set_cache m (c_cache m') (c_heap m').
Proof.
  intros H. inversion H; subst; try (by destruct m'). match goal with K : bbatch_step _ _ _ _ _ |- _ => inversion K; subst end; try done; by destruct m'.
Qed.

Section inv.
  Variables (compress : bytes -> bytes) (decompress : bytes -> option bytes) (cache_size : Z).
  Hypothesis gz : gzip_ok compress decompress.
  Notation xup := (x_up decompress).
  Notation xv := (x_valid decompress).
  Notation step := (multi_step compress decompress cache_size).

  Lemma x_up_same u u' s L : xup u s L -> c_index (u_mem u') = c_index (u_mem u) -> u_pc u' = u_pc u -> u_ich u' = u_ich u -> u_iw u' = u_iw u -> u_mg u' = u_mg u -> xup u' s L.
  Proof.
    intros [X1 X2 X3 X4 X5 X6 X7] E1 E2 E3 E4 E5. unfold disk_get_index in *. constructor; unfold disk_get_index; rewrite ?E1, ?E2, ?E3, ?E4, ?E5; try done.
    - intros f t d Hf. rewrite (X4 f t d Hf), !in_flight_parts, E2, E3, E4. done.
    - unfold x_calls, disk_get_index. by rewrite E1, E2.
  Qed.

  Record mi (s : fs) (u : up) (log : list event) (sh : shared) (ths : threads) (G : gmap string (gmap string set_data)) (L : list event) (ol : gmap nat string) (oa : gmap nat (string * string)) : Prop := {
    mi_xv : xv s;
    mi_x : xup (ghost u G) s L;
    mi_pc : u_pc u = CIdle;
    mi_sound : forall f t d, nd f -> saved_posting L f t d -> saved_posting log f t d;
    mi_own : own_sh sh ol oa;
    mi_sets : forall a S f t d, k_sets sh !! a = Some S -> oa !! a = Some (f, t) -> is_Some (S !! d) -> sent G f t d \/ pend ths (mkPost f t d);
    mi_th : forall th, th ∈ ths -> own_pc ol oa th.1.1 /\ src_pc (calls_of log) th.1.1 /\ msg_ok log th.1.2;
    mi_calls : exists l1 l2, log = l1 ++ EOpened :: l2 /\ EOpened ∉ l2 /\
      forall c t, c ∈ calls_of l2 -> is_Some (f_tf (call_field' c) !! t) ->
        sent G (f_name (call_field' c)) t (call_doc' c) \/ pend ths (mkPost (f_name (call_field' c)) t (call_doc' c)) \/ due ths t c }.
  Definition m_inv (a : multi) : Prop :=
    base (mu_sys a) /\
    match y_proc (mu_sys a) with
    | Up u => exists G L ol oa, mi (y_fs (mu_sys a)) u (y_log (mu_sys a)) (mu_sh a) (mu_threads a) G L ol oa
    | _ => x_inv decompress (mu_sys a)
    end.

  Lemma mi_mem s u log sh ths G L ol oa m : m = set_cache (u_mem u) (c_cache m) (c_heap m) -> mi s u log sh ths G L ol oa -> mi s (with_mem u m (u_pc u)) log sh ths G L ol oa.
  Proof.
    intros E [I1 I2 I3 I4 I5 I6 I7 I8]. constructor; try done. by apply (x_up_same (ghost u G)).
  Qed.
  Lemma msg_ok_app log ev m : msg_ok log m -> msg_ok (log ++ ev) m.
  Proof. destruct m; cbn; try done. intros [? ?]. split; [done|]. by apply sp_app. Qed.
  (** Events that are neither calls nor openings. *)
  Lemma mi_ev s u log sh ths G L ol oa ev : calls_of ev = [] -> EOpened ∉ ev -> mi s u log sh ths G L ol oa -> mi s u (log ++ ev) sh ths G L ol oa.
  Proof.
    intros E1 E2 [I1 I2 I3 I4 I5 I6 I7 (l1 & l2 & -> & Hn & H)]. assert (calls_of ((l1 ++ EOpened :: l2) ++ ev) = calls_of (l1 ++ EOpened :: l2)) as E by (rewrite calls_app, E1; by rewrite app_nil_r).
    constructor; try done.
    - intros f t d Hf Hs. apply sp_app. auto.
    - intros th Hth. destruct (I7 th Hth) as (J1 & J2 & J3). rewrite E. split; [done|]. split; [done|]. by apply msg_ok_app.
    - exists l1, (l2 ++ ev). split; [by rewrite <- app_assoc|]. split; [rewrite elem_of_app; tauto|]. intros c t. rewrite calls_app, E1, app_nil_r. auto.
  Qed.
  (** The store's own goroutines. *)
  Lemma mi_bg s u log sh ths G L ol oa s' u' L' ev : xv s' -> xup (ghost u' G) s' L' -> u_pc u' = CIdle -> (forall f t d, saved_posting L' f t d -> saved_posting L f t d) ->
    calls_of ev = [] -> EOpened ∉ ev -> mi s u log sh ths G L ol oa -> mi s' u' (log ++ ev) sh ths G L' ol oa.
  Proof.
    intros H1 H2 H3 H4 E1 E2 H. apply mi_ev; [done|done|]. destruct H as [I1 I2 I3 I4 I5 I6 I7 I8]. constructor; try done. auto.
  Qed.
  Lemma call_nd log pc c : good_log log -> src_pc (calls_of log) pc -> pc_call pc = Some c -> nd (f_name (call_field' c)).
  Proof. intros Hg [H _] Hc. apply (Hg c (H c Hc)). Qed.
  (** One step of a goroutine inside a call. *)
  Lemma mi_client s u log sh ths G L ol oa i pc m cs ev sh' u' pc' m' :
    layout s -> [] ∈ fs_dirs s -> up_wf u s -> good_log log -> mi s u log sh ths G L ol oa -> ths !! i = Some (pc, m, cs) ->
    client_step (sh, u, (pc, m)) ev (sh', u', (pc', m')) ->
    up_wf u' s /\ calls_of ev = [] /\ exists G' L' ol' oa', mi s u' (log ++ ev) sh' (<[i := (pc', m', cs)]> ths) G' L' ol' oa'.
  Proof.
    intros Hl Hr Hw Hg [I1 I2 I3 I4 I5 I6 I7 I8] Hi H.
    destruct (I7 _ (elem_of_list_lookup_2 _ _ _ Hi)) as (T1 & T2 & T3). cbn [fst snd] in T1, T2, T3.
    pose proof Hw as [W1 W2 W3 W4 W5 W6 W7].
    (* steps that change neither the maps nor what is to be posted *)
    assert (forall u0 m0 ev0, calls_of ev0 = [] -> EOpened ∉ ev0 -> c_index (u_mem u0) = c_index (u_mem u) -> u_pc u0 = u_pc u -> u_ich u0 = u_ich u -> u_iw u0 = u_iw u -> u_mg u0 = u_mg u ->
      (forall p, m <> ISend p) -> msg_ok log m0 -> exists G' L' ol' oa', mi s u0 (log ++ ev0) sh (<[i := (pc, m0, cs)]> ths) G' L' ol' oa') as Q.
    { intros u0 m0 ev0 V1 V2 E1 E2 E3 E4 E5 Hm Hm0. exists G, L, ol, oa. apply mi_ev; [done|done|].
      assert (forall p, pend ths p -> pend (<[i := (pc, m0, cs)]> ths) p) as KP. { intros p Hp. destruct (pend_insert _ _ _ _ _ pc m0 cs p Hi Hp) as [?|?]; [done|]. by destruct (Hm p). }
      constructor; try done.
      - eapply x_up_same; [exact I2|..]; unfold ghost; cbn; congruence.
      - congruence.
      - intros a S f t d A1 A2 A3. destruct (I6 a S f t d A1 A2 A3) as [?|?]; [by left|right; by apply KP].
      - intros th Hth. apply elem_of_insert in Hth as [->|Hth]; [done|by apply I7].
      - destruct I8 as (l1 & l2 & El & Hn & HC). exists l1, l2. split; [done|]. split; [done|]. intros c t Hc Ht. destruct (HC c t Hc Ht) as [?|[?|Hd]]; [by left|right; left; by apply KP|].
        right. right. destruct (due_insert _ _ _ _ _ pc m0 cs t c Hi Hd) as [?|?]; [done|by eapply due_new]. }
    inversion H; subst; clear H.
    - (* the maps *)
      split; [done|]. split; [done|]. rewrite app_nil_r.
      match goal with K : t_step _ _ |- _ => rename K into St end.
      destruct (own_m _ _ _ _ _ _ St I5 T1) as (ol' & oa' & O1 & O2 & O3 & O4 & O5).
      exists G, L, ol', oa'.
      assert (forall p, pend ths p -> pend (<[i := (pc', after pc, cs)]> ths) p) as KP. { intros p Hp. destruct (pend_insert _ _ _ _ _ pc' (after pc) cs p Hi Hp) as [?|?]; done. }
      constructor; try done.
      + intros a S f t d A1 A2 A3. destruct (O5 a S d A1 A3) as [(S0 & B1 & B2)|(f' & t' & B1 & B2)].
        * assert (is_Some (oa !! a)) as [ft Hft] by (apply (o_dom _ _ _ I5); by eexists). assert (oa' !! a = Some ft) as E by (by eapply lookup_weaken). rewrite A2 in E. injection E as <-.
          destruct (I6 a S0 f t d B1 Hft B2) as [?|?]; [by left|right; by apply KP].
        * rewrite A2 in B1. injection B1 as <- <-. right. rewrite B2. by eapply pend_new.
      + intros th Hth. apply elem_of_insert in Hth as [->|Hth].
        * cbn [fst snd]. split; [done|]. split; [by eapply src_t|]. pose proof (after_call pc) as A. destruct (after pc); cbn; try done.
          -- destruct A as (c & A1 & <-). by eapply call_nd.
          -- destruct A as (c & A1 & A2 & A3). rewrite A2. cbn. split; [by eapply call_nd|]. exists c. destruct T2 as [P1 P2]. split; [by apply P1|]. split; [done|]. split; [done|]. specialize (P2 c _ A1 A3). by destruct c.
          -- destruct A as (c & A1 & <-). by eapply call_nd.
        * destruct (I7 th Hth) as (J1 & J2). split; [by eapply own_pc_mono|done].
      + destruct I8 as (l1 & l2 & El & Hn & HC). exists l1, l2. split; [done|]. split; [done|]. intros c t Hc Ht. destruct (HC c t Hc Ht) as [?|[?|Hd]]; [by left|right; left; by apply KP|].
        destruct (due_insert _ _ _ _ _ pc' (after pc) cs t c Hi Hd) as [?|Hd']; [right; by right|].
        destruct (post_t _ _ _ _ c t St Hd' Ht) as [?|E]; [right; right; by eapply due_new|]. right. left. rewrite E. by eapply pend_new.
    - split; [done|]. split; [done|]. apply Q; try done. apply not_elem_of_nil.
    - split; [done|]. split; [done|]. apply Q; try done. apply not_elem_of_nil.
    - match goal with K : u_mw u = _ |- _ => rename K into E end. split.
      + constructor; cbn; try done. rewrite E in W3. destruct W3 as [W3 _]. split; [|done]. cbn in *. by apply ins_nd.
      + split; [done|]. apply Q; try done. apply not_elem_of_nil.
    - (* a posting is sent *)
      destruct p as [f t d]. destruct T3 as [T3 T4]. cbn in T3, T4. split.
      { constructor; cbn; try done. apply Forall_app. split; [done|]. by constructor. }
      split; [done|]. rewrite app_nil_r.
      destruct (ghost_send compress decompress gz u s L G f t d Hl Hr Hw I1 I2 T3) as (G' & L' & X1 & X2 & X3); [done|].
      exists G', L', ol, oa.
      assert (forall p, pend ths p -> pend (<[i := (pc', NoMsg, cs)]> ths) p \/ p = mkPost f t d) as KP. { intros p Hp. destruct (pend_insert _ _ _ _ _ pc' NoMsg cs p Hi Hp) as [?|E]; [by left|]. injection E as ->. by right. }
      constructor; try done.
      + intros f' t' d' Hf Hs. destruct (X3 f' t' d' Hs) as [?|(-> & -> & ->)]; [auto|done].
      + intros a S f' t' d' A1 A2 A3. destruct (I6 a S f' t' d' A1 A2 A3) as [?|Hp]; [left; apply X2; by left|]. destruct (KP _ Hp) as [?|[= -> -> ->]]; [by right|]. left. apply X2. by right.
      + intros th Hth. apply elem_of_insert in Hth as [->|Hth]; [done|by apply I7].
      + destruct I8 as (l1 & l2 & El & Hn & HC). exists l1, l2. split; [done|]. split; [done|]. intros c t' Hc Ht. destruct (HC c t' Hc Ht) as [?|[Hp|Hd]].
        * left. apply X2. by left.
        * destruct (KP _ Hp) as [?|E]; [right; by left|]. left. apply X2. right. injection E as -> -> ->. done.
        * right. right. destruct (due_insert _ _ _ _ _ pc' NoMsg cs t' c Hi Hd) as [?|?]; [done|by eapply due_new].
    - split; [done|]. split; [done|]. apply Q; try done. apply not_elem_of_nil.
    - match goal with K : u_nw u = _ |- _ => rename K into E end. split.
      + constructor; cbn; try done. rewrite E in W4. destruct W4 as [W4 _]. split; [|done]. cbn in *. unfold n_recv. destruct (nb !! f); by apply ins_nd.
      + split; [done|]. apply Q; try done. intros Hin. by apply elem_of_list_singleton in Hin.
    - match goal with K : doc_step _ _ _ |- _ => rename K into D end. split.
      + constructor; cbn; try done.
      + split; [done|]. apply Q; try done; [apply not_elem_of_nil|]. inversion D; subst; done.
    - match goal with K : doc_step _ _ _ |- _ => rename K into D end. split.
      + constructor; cbn; try done.
      + split; [done|]. apply Q; try done; [apply not_elem_of_nil|]. inversion D; subst; done.
    - match goal with K : u_dw u = _ |- _ => rename K into E end. split.
      + constructor; cbn; try done.
      + split; [done|]. apply Q; try done. apply not_elem_of_nil.
  Qed.
End inv.
