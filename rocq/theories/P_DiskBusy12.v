(** Searches that run on the disk storage while the client saves (C64): no panic, and a
    search can always finish. *)
From Verif Require Import Base M_Field M_LRU S_Visits M_Memory M_File M_Serialize M_Num M_FanIn M_Search M_SearchConc M_Disk P_Base P_LRU P_FanIn2 P_SearchConc P_SearchConc3 P_DiskBase P_DiskInv P_DiskMem P_DiskWriter P_DiskDocs P_DiskBusy P_DiskBusy2 P_DiskBusy3 P_DiskBusy4 P_DiskBusy5 P_DiskBusy6 P_DiskBusy7 P_DiskBusy8 P_DiskBusy9 P_DiskBusy10 P_DiskBusy11 M_DiskBusy S_Disk.
#[local] Open Scope nat_scope.
#[local] Opaque serialize_metrics serialize_nft serialize_field_map serialize_index deserialize_index deserialize_nft deserialize_field_map deserialize_metrics.

Section finish.
  Variables (compress : bytes -> bytes) (decompress : bytes -> option bytes) (cache_size : Z) (N : numops) (ncpu : nat).
  Hypothesis gz : gzip_ok compress decompress.
  Hypothesis pos : (0 < cache_size)%Z.
  Notation blive := (busy_live compress decompress cache_size N ncpu).
  Notation sound := (sound compress cache_size N).

  Lemma load_some s log d : files_ok compress s log -> plain_doc d -> is_Some (load_doc decompress s d).
  Proof.
    intros Hf Hp. destruct (doc_file s d) as [c|] eqn:E.
    - destruct (Hf d Hp) as (m & Hm & _); [by rewrite E|]. rewrite (d_holds_load _ _ gz _ _ _ Hm). by eexists.
    - unfold load_doc. unfold doc_file in E. rewrite E. by eexists.
  Qed.
  Lemma batch_can f terms s log own m p : files_ok compress s log -> knows cache_size m log own -> (forall id, found m f terms id -> plain_doc id) -> okb (senv m log own f terms) p ->
    (exists m' p', bbatch_step decompress f s (m, p) (m', p')) \/ (exists x p', bbatch_send p x p') \/ bbatch_stop p.
  Proof.
    intros Hf Hk Hp Op. pose proof Hk as [K1 K2 K3 K4]. destruct p as [[|id ids] acc|id e ids acc|id l ids acc|id ids acc|id l ids acc|[|kx kxs]]; cbn in Op.
    - left. do 2 eexists. by apply bb_range.
    - left. destruct (cache_get_some _ _ _ id K1) as (c' & [e|] & E); do 2 eexists; [by eapply bb_hit|by eapply bb_miss].
    - left. destruct Op as ([l Hl] & _). do 2 eexists. apply bb_deref. unfold lru_deref. by rewrite Hl.
    - left. destruct Op as (Ho & _). destruct (proj2 (K2 l)) as [fd Hfd]; [by eexists|]. do 2 eexists. by eapply bb_read.
    - left. destruct Op as (_ & Hid & _). destruct (load_some s log id Hf (Hp id Hid)) as [[fd|] E]; [|do 2 eexists; by apply bb_nofile]. do 2 eexists. eapply (bb_load _ _ _ _ _ _ _ _ (fresh (dom (c_heap m)))); [done|]. apply not_elem_of_dom, is_fresh.
    - left. destruct (cache_put_some _ _ _ id l pos K1) as [c' E]. do 2 eexists. by eapply bb_put.
    - by do 2 right.
    - right. left. do 2 eexists. constructor.
  Qed.
  Lemma batch_not_fatal f terms s log own m p : files_ok compress s log -> knows cache_size m log own -> (forall id, found m f terms id -> plain_doc id) -> okb (senv m log own f terms) p -> ~ bbatch_fatal decompress s m p.
  Proof.
    intros Hf Hk Hp Op Hx. pose proof Hk as [K1 K2 K3 K4]. inversion Hx; subst; cbn in Op.
    - destruct (cache_get_some _ _ _ id K1) as (c' & r & E). congruence.
    - destruct Op as (_ & Hid & _). destruct (load_some s log id Hf (Hp id Hid)) as [? E]. congruence.
    - destruct (cache_put_some _ _ _ id l pos K1) as [c' E]. congruence.
  Qed.
  Definition pmb (p : bbatch) : nat :=
    match p with
    | BDocs ids acc => 7 * length ids + 2 * size acc + 2
    | BPtr _ _ ids acc => 7 * length ids + 2 * size acc + 6
    | BMap _ _ ids acc => 7 * length ids + 2 * size acc + 5
    | BLoad _ ids acc => 7 * length ids + 2 * size acc + 6
    | BPut _ _ ids acc => 7 * length ids + 2 * size acc + 3
    | BOut kxs => 2 * length kxs
    end.
  Lemma add_size f id fd (acc : gmap string field) : size (add_field f id fd acc) <= S (size acc).
  Proof. unfold add_field. destruct (fd !! f) as [x|]; [|lia]. destruct (acc !! id) eqn:E; [rewrite map_size_insert_Some by (by eexists); lia|rewrite map_size_insert_None by done; lia]. Qed.
  Lemma pmb_dec f s m : decreases (fun p p' => exists m', bbatch_step decompress f s (m, p) (m', p')) bbatch_send pmb.
  Proof.
    split.
    - intros p p' (m' & H). inversion H; subst; cbn [pmb length]; try lia.
      + pose proof (add_size f id fd acc). lia.
      + pose proof (add_size f id fd acc). lia.
      + match goal with G : _ ≡ₚ _ |- _ => change (size acc) with (length (map_to_list acc)); rewrite G; lia end.
    - intros p x p' H. inversion H; subst; cbn. lia.
  Qed.
  (** The goroutines of the terms. *)
  Definition okm (m : cmem) (f : string) (p : bterm) : Prop := match p with BRange t must _ | BId t must _ _ => must ⊆ dom (listed_set m f t) | _ => True end.
  Definition q_must (m : cmem) (t : query N) : Prop := match t.2 with SIds _ _ _ w => all_run (okm m t.1.2) w | _ => True end.
  Lemma okm_grows m m' f p : grows m m' -> okm m f p -> okm m' f p.
  Proof. intros Hg. destruct p; cbn; try done; intros H k Hk; apply elem_of_dom; apply Hg; unfold listed; apply elem_of_dom; auto. Qed.
  Lemma must_grows m m' t : grows m m' -> q_must m t -> q_must m' t.
  Proof. intros Hg. destruct t as [[terms f] q]. destruct q; try done. cbn. apply all_run_impl. intros p. by apply okm_grows. Qed.
  Lemma okm_step m f p p' : bterm_step f m p p' -> okm m f p -> okm m f p'.
  Proof. intros H. inversion H; subst; cbn; try done; set_solver. Qed.
  Lemma okm_send m f p x p' : bterm_send p x p' -> okm m f p -> okm m f p'.
  Proof. intros H. inversion H; subst; cbn; done. Qed.
  Lemma must_search terms f u s (q : dsearch N) m q' : dsearch_step decompress N ncpu terms f u s q (m, q') -> q_must (u_mem u) (terms, f, q) -> q_must m (terms, f, q').
  Proof.
    intros H K. pose proof (search_index _ _ _ _ _ _ _ _ _ _ H) as Hi. apply (must_grows (u_mem u)); [by apply grows_same|]. inversion H; subst; try done.
    - apply all_run_init, Forall_fmap, Forall_true. done.
    - cbn in *. eapply all_run_step; [| |eassumption|exact K]; [intros p p'; apply okm_step|intros p x p'; apply okm_send].
  Qed.
  Definition musts (b : busy N) : Prop := match y_proc (by_sys b) with Up u => Forall (q_must (u_mem u)) (by_qs b) | _ => by_qs b = [] end.
  Lemma musts_live a b : goodb compress cache_size N a -> blive a b -> musts a -> musts b.
  Proof.
    intros [_ Hs] H. destruct (y_proc (by_sys a)) as [|g|u] eqn:Hu.
    - destruct Hs as [_ Hs]. rewrite Hu in Hs. destruct Hs as [_ Hq]. intros _. unfold musts. inversion H; subst; cbn in *; try done. subst. destruct (y_proc y'); [done|done|constructor].
    - destruct Hs as [_ Hs]. rewrite Hu in Hs. destruct Hs as [_ Hq]. intros _. unfold musts. inversion H; subst; cbn in *; try done. subst. destruct (y_proc y'); [done|done|constructor].
    - destruct (live_known _ _ _ _ _ _ _ _ Hs H Hu) as (u' & ev & E1 & _ & Hg). unfold musts. rewrite Hu, E1. intros K.
      assert (Forall (q_must (u_mem u')) (by_qs a)) as K'. { eapply Forall_impl; [exact K|]. intros t. by apply must_grows. }
      destruct H as [y y' dp qs HL Hnd|s u0 log dp m pc dp' qs HD|s u0 log dp qs terms f|s u0 log dp qs i terms f q m q' Hi HS]; cbn [by_qs by_sys y_proc] in *; try done.
      + apply Forall_app. split; [done|]. by repeat constructor.
      + injection Hu as ->. injection E1 as <-. cbn [with_mem u_mem] in *. apply Forall_insert; [done|]. eapply must_search; [exact HS|]. rewrite Forall_lookup in K. by eapply K.
  Qed.
  Lemma busy_musts b : busy_reachable compress decompress cache_size N ncpu b -> good_log (y_log (by_sys b)) -> musts b.
  Proof.
    intros H. unfold busy_reachable in H. revert b H. apply (rtc_ind_r (fun b => good_log (y_log (by_sys b)) -> musts b)).
    - intros _. done.
    - intros a b Ha Hab IH Hg. destruct (busy_log _ _ _ _ _ _ _ Hab) as [ev E]. assert (good_log (y_log (by_sys a))) as Ga. { rewrite E in Hg. by apply good_app in Hg as [? _]. }
      specialize (IH Ga). pose proof (busy_sound _ _ _ _ _ gz pos _ Ha Ga) as Gd. destruct Hab as [Hab|(y' & Hc & ->)]; [by eapply musts_live|]. unfold musts. cbn. by destruct Hc.
  Qed.
  Definition pmt (m : cmem) (f : string) (p : bterm) : nat :=
    match p with
    | BTerm t => 3 * size (dom (listed_set m f t)) + 4
    | BField t => 3 * size (dom (listed_set m f t)) + 3
    | BSet t => 3 * size (dom (listed_set m f t)) + 2
    | BRange t _ sent => 3 * size (dom (listed_set m f t) ∖ list_to_set sent) + 1
    | BId t _ sent id => 3 * size (dom (listed_set m f t) ∖ list_to_set (sent ++ [id])) + 3
    | BEnd => 0
    end.
  Lemma pmt_dec m f : decreases (bterm_step f m) bterm_send (pmt m f).
  Proof.
    split.
    - intros p p' H. inversion H; subst; cbn [pmt]; try lia.
      + rewrite list_to_set_nil, difference_empty_L. lia.
      + assert (size (dom (listed_set m f t) ∖ list_to_set (sent ++ [id])) < size (dom (listed_set m f t) ∖ (list_to_set sent : gset string))); [|lia]. apply subset_size. rewrite list_to_set_app_L. cbn.
        assert (id ∈ dom (listed_set m f t)) by (by apply elem_of_dom). assert (id ∉ (list_to_set sent : gset string)) by (by rewrite elem_of_list_to_set). set_solver.
    - intros p x p' H. inversion H; subst; cbn [pmt]. lia.
  Qed.
  Lemma term_can m f p : okm m f p -> (exists p', bterm_step f m p p') \/ (exists x p', bterm_send p x p') \/ bterm_stop p.
  Proof.
    intros O. destruct p as [t|t|t|t must sent|t must sent id|]; cbn in O.
    - left. destruct (c_index m !! f) eqn:E; eexists; [by eapply bt_index|by apply bt_none].
    - left. destruct (default (∅ : gmap string set_data) (c_index m !! f) !! t) eqn:E; eexists; [by eapply bt_term|by apply bt_noterm].
    - left. eexists. constructor.
    - left. destruct (decide (must ⊆ list_to_set sent)) as [H|H]; [eexists; by apply bt_last|].
      assert (exists id, id ∈ must ∖ list_to_set sent) as (id & Hid). { apply set_choose_L. intros E. apply H. set_solver. }
      apply elem_of_difference in Hid as [H1 H2]. exists (BId t must sent id). constructor; [apply elem_of_dom; by apply O|]. by rewrite elem_of_list_to_set in H2.
    - right. left. do 2 eexists. constructor.
    - by do 2 right.
  Qed.
  (** Only the search number [i] runs. *)
  Definition own_step (i : nat) (a b : busy N) : Prop :=
    exists s u log dp qs terms f q m q', a = mkBusy (mkSys s (Up u) log) dp qs /\ qs !! i = Some (terms, f, q) /\ dsearch_step decompress N ncpu terms f u s q (m, q') /\
      b = mkBusy (mkSys s (Up (with_mem u m (u_pc u))) log) dp (<[i := (terms, f, q')]> qs).
  Lemma own_live i a b : own_step i a b -> blive a b.
  Proof. intros (s & u & log & dp & qs & terms & f & q & m & q' & -> & Hi & HS & ->). by econstructor. Qed.
  Lemma own_rtc i a b : rtc (own_step i) a b -> rtc blive a b.
  Proof. intros H. eapply rtc_subrel; [|exact H]. intros x y. apply own_live. Qed.
  Section one.
    Variables (i : nat) (terms : list string) (f : string).
    Hypothesis Hcpu : 0 < ncpu.
    (** The invariant while the search runs. *)
    Definition ready (b : busy N) (q : dsearch N) : Prop :=
      goodb compress cache_size N b /\ musts b /\ good_log (y_log (by_sys b)) /\ by_qs b !! i = Some (terms, f, q) /\
      exists u, y_proc (by_sys b) = Up u /\ forall id, found (u_mem u) f terms id -> plain_doc id.
    Lemma ready_step s u log dp qs q m q' : ready (mkBusy (mkSys s (Up u) log) dp qs) q -> dsearch_step decompress N ncpu terms f u s q (m, q') ->
      let b := mkBusy (mkSys s (Up (with_mem u m (u_pc u))) log) dp (<[i := (terms, f, q')]> qs) in own_step i (mkBusy (mkSys s (Up u) log) dp qs) b /\ ready b q'.
    Proof.
      intros (Hg & Hm & Hl & Hi & u0 & Hu & Hp) HS b. cbn in Hu, Hi, Hl. injection Hu as <-. assert (own_step i (mkBusy (mkSys s (Up u) log) dp qs) b) as Ho by (exists s, u, log, dp, qs, terms, f, q, m, q'; done).
      split; [done|]. pose proof (own_live _ _ _ Ho) as HL. split; [by eapply live_good|]. split; [by eapply musts_live|]. split; [done|]. split; [cbn; by rewrite list_lookup_insert by (by eapply lookup_lt_Some)|].
      eexists. split; [done|]. cbn. intros id Hid. apply Hp. eapply found_grows; [|exact Hid]. apply grows_same. symmetry. by eapply search_index.
    Qed.
    Lemma ready_shape b q : ready b q -> exists s u log dp qs, b = mkBusy (mkSys s (Up u) log) dp qs.
    Proof. intros (_ & _ & _ & _ & u & Hu & _). destruct b as [[s p log] dp qs]. cbn in Hu. subst p. eauto 10. Qed.
    Definition done_w {P A} (w : fan2 P A) := fan2_done w.
    Lemma finish_fields b len n nft w : ready b (SFields len n nft w) -> exists b' r, rtc (own_step i) b b' /\ ready b' (SRet r).
    Proof.
      intros Hr. set (inv := fun bw : busy N * fan2 bbatch (gmap string field) => ready bw.1 (SFields len n nft bw.2)).
      destruct (wf_reaches (fun x y : busy N * fan2 bbatch (gmap string field) => own_step i x.1 y.1) inv (fun x => fan2_done x.2) (fun x => measure2 pmb x.2)) with (s := (b, w)) as ([b1 w1] & R1 & I1 & D1); [|exact Hr|].
      - intros [a w0] I0. unfold inv in I0. cbn in I0 |- *. destruct (done_dec w0) as [?|Hd]; [by left|right]. destruct (ready_shape _ _ I0) as (s & u & log & dp & qs & ->). pose proof I0 as ([_ [Hf Hs]] & _ & _ & Hi & u0 & Hu & Hp). cbn in Hu, Hi, Hf, Hs. injection Hu as <-. destruct Hs as (own & HU & HQ).
        rewrite Forall_lookup in HQ. specialize (HQ _ _ Hi). destruct HQ as [[tasks HI] HA]. cbn in HA.
        destruct (fan2_progress (fun p p' => exists m', bbatch_step decompress f s (u_mem u, p) (m', p')) bbatch_send bbatch_stop (length terms) (ncpu * 2) w0) as (w1 & Hw); [lia| |by eapply inv2_base|done|].
        { destruct HA as [HA _]. eapply all_run_impl; [|exact HA]. intros p Op. destruct (batch_can _ _ _ _ _ _ _ Hf (uo_mem _ _ _ _ _ _ HU) Hp Op) as [(m' & p' & ?)|?]; [left; eauto|by right]. }
        pose proof (measure2_step _ _ _ _ _ _ _ _ (pmb_dec f s (u_mem u)) (inv2_base _ _ _ _ _ HI) Hw) as Hme.
        assert (exists m', dsearch_step decompress N ncpu terms f u s (SFields len n nft w0) (m', SFields len n nft w1)) as [m' HS].
        { clear - Hw. inversion Hw; subst; try (exists (u_mem u); apply s_fields; by econstructor). match goal with G : exists _, _ |- _ => destruct G as [m' G]; exists m'; eapply s_inner; [exact G|constructor] end. }
        destruct (ready_step _ _ _ _ _ _ _ _ I0 HS) as [R1 R2]. eexists (_, w1). cbn. split; [exact R1|]. split; [exact R2|done].
      - unfold inv in I1. cbn in I1, D1. destruct (ready_shape _ _ I1) as (s & u & log & dp & qs & ->). pose proof (s_return decompress N ncpu terms f u s len n nft w1 D1) as HS. destruct (ready_step _ _ _ _ _ _ _ _ I1 HS) as [R2 R3].
        do 2 eexists. split; [|exact R3]. eapply rtc_r; [|exact R2]. assert (forall x y, rtc (fun x y : busy N * fan2 bbatch (gmap string field) => own_step i x.1 y.1) x y -> rtc (own_step i) x.1 y.1) as G. { intros x y H. induction H; [apply rtc_refl|by eapply rtc_l]. } apply (G _ _ R1).
    Qed.
    Lemma finish_ids b len n nft w : ready b (SIds len n nft w) -> exists b' r, rtc (own_step i) b b' /\ ready b' (SRet r).
    Proof.
      intros Hr. set (inv := fun bw : busy N * fan2 bterm string => ready bw.1 (SIds len n nft bw.2)).
      assert (forall a w0, ready a (SIds len n nft w0) -> ~ fan2_done w0 -> exists b1 w1, own_step i a b1 /\ ready b1 (SIds len n nft w1) /\ (forall u, y_proc (by_sys a) = Up u -> measure2 (pmt (u_mem u) f) w1 < measure2 (pmt (u_mem u) f) w0) /\ forall u u', y_proc (by_sys a) = Up u -> y_proc (by_sys b1) = Up u' -> c_index (u_mem u') = c_index (u_mem u)) as Hone.
      { intros a w0 I0 Hd. destruct (ready_shape _ _ I0) as (s & u & log & dp & qs & ->). pose proof I0 as ([_ [Hf Hs]] & Hm & _ & Hi & u0 & Hu & Hp). cbn in Hu, Hi, Hf, Hs. injection Hu as <-. destruct Hs as (own & HU & HQ).
        rewrite Forall_lookup in HQ. specialize (HQ _ _ Hi). destruct HQ as [HI _]. cbn in HI. unfold musts in Hm. cbn in Hm. rewrite Forall_lookup in Hm. specialize (Hm _ _ Hi). cbn in Hm.
        destruct (fan2_progress (bterm_step f (u_mem u)) bterm_send bterm_stop (length terms) (ncpu * 2) w0) as (w1 & Hw); [lia| |by eapply inv2_base|done|].
        { eapply all_run_impl; [|exact Hm]. intros p. apply term_can. }
        pose proof (measure2_step _ _ _ _ _ _ _ _ (pmt_dec (u_mem u) f) (inv2_base _ _ _ _ _ HI) Hw) as Hme.
        pose proof (s_ids decompress N ncpu terms f u s len n nft w0 w1 Hw) as HS. destruct (ready_step _ _ _ _ _ _ _ _ I0 HS) as [R1 R2]. do 2 eexists. split; [exact R1|]. split; [exact R2|]. cbn. split; [by intros u0 [= <-]|]. by intros u0 u1 [= <-] [= <-]. }
      destruct (wf_reaches (fun x y : busy N * fan2 bterm string => own_step i x.1 y.1) inv (fun x => fan2_done x.2) (fun x => match y_proc (by_sys x.1) with Up u => measure2 (pmt (u_mem u) f) x.2 | _ => 0 end)) with (s := (b, w)) as ([b1 w1] & R1 & I1 & D1); [|exact Hr|].
      - intros [a w0] I0. unfold inv in I0. cbn in I0 |- *. destruct (done_dec w0) as [?|Hd]; [by left|right]. destruct (Hone _ _ I0 Hd) as (b1 & w1 & H1 & H2 & H3 & H4). exists (b1, w1). cbn. split; [done|]. split; [done|].
        pose proof I0 as (_ & _ & _ & _ & u & Hu & _). pose proof H2 as (_ & _ & _ & _ & u1 & Hu1 & _). rewrite Hu, Hu1. specialize (H3 _ Hu). specialize (H4 _ _ Hu Hu1).
        assert (forall p, pmt (u_mem u1) f p = pmt (u_mem u) f p) as E. { intros p. unfold pmt, listed_set. by rewrite H4. } assert (measure2 (pmt (u_mem u1) f) w1 = measure2 (pmt (u_mem u) f) w1) as ->; [|done]. unfold measure2. f_equal. f_equal. f_equal. f_equal; [f_equal; apply map_ext; intros []; cbn; by rewrite ?E|]. f_equal. apply map_ext. intros p. by rewrite E.
      - unfold inv in I1. cbn in I1, D1. destruct (ready_shape _ _ I1) as (s & u & log & dp & qs & ->). pose proof (s_batches decompress N ncpu terms f u s len n nft w1 D1) as HS. destruct (ready_step _ _ _ _ _ _ _ _ I1 HS) as [R2 R3].
        destruct (finish_fields _ _ _ _ _ R3) as (b2 & r & R4 & R5). exists b2, r. split; [|done]. assert (forall x y, rtc (fun x y : busy N * fan2 bterm string => own_step i x.1 y.1) x y -> rtc (own_step i) x.1 y.1) as G. { intros x y H. induction H; [apply rtc_refl|by eapply rtc_l]. } etransitivity; [apply (G _ _ R1)|]. by eapply rtc_l.
    Qed.
    Lemma finish_nft ts : forall b len n acc, ready b (SNft len n ts acc) -> exists b' r, rtc (own_step i) b b' /\ ready b' (SRet r).
    Proof.
      induction ts as [|t ts IH]; intros b len n acc Hr; destruct (ready_shape _ _ Hr) as (s & u & log & dp & qs & ->).
      - pose proof (s_start decompress N ncpu terms f u s len n acc) as HS. destruct (ready_step _ _ _ _ _ _ _ _ Hr HS) as [R1 R2]. destruct (finish_ids _ _ _ _ _ R2) as (b2 & r & R4 & R5). exists b2, r. split; [by eapply rtc_l|done].
      - pose proof (s_nft decompress N ncpu terms f u s len n t ts acc) as HS. destruct (ready_step _ _ _ _ _ _ _ _ Hr HS) as [R1 R2]. match type of R2 with ready ?b1 (SNftTerm _ _ _ ?bb _ _) => pose proof (s_nft_term decompress N ncpu terms f (with_mem u (u_mem u) (u_pc u)) s len n t bb ts acc) as HS2 end.
        destruct (ready_step _ _ _ _ _ _ _ _ R2 HS2) as [R3 R4]. destruct (IH _ _ _ _ R4) as (b2 & r & R5 & R6). exists b2, r. split; [|done]. eapply rtc_l; [exact R1|]. by eapply rtc_l.
    Qed.
    Lemma finish_any b q : ready b q -> exists b' r, rtc (own_step i) b b' /\ ready b' (SRet r).
    Proof.
      intros Hr. destruct (ready_shape _ _ Hr) as (s & u & log & dp & qs & ->). destruct q as [|len|len n ts acc|len n t some ts acc|len n nft w|len n nft w|r].
      - pose proof (s_length decompress N ncpu terms f u s) as HS. destruct (ready_step _ _ _ _ _ _ _ _ Hr HS) as [R1 R2]. pose proof (s_size decompress N ncpu terms f (with_mem u (u_mem u) (u_pc u)) s (geti (c_length (u_mem u)) f)) as HS2. destruct (ready_step _ _ _ _ _ _ _ _ R2 HS2) as [R3 R4].
        destruct (finish_nft _ _ _ _ _ R4) as (b2 & r & R5 & R6). exists b2, r. split; [|done]. eapply rtc_l; [exact R1|]. by eapply rtc_l.
      - pose proof (s_size decompress N ncpu terms f u s len) as HS2. destruct (ready_step _ _ _ _ _ _ _ _ Hr HS2) as [R3 R4]. destruct (finish_nft _ _ _ _ _ R4) as (b2 & r & R5 & R6). exists b2, r. split; [|done]. by eapply rtc_l.
      - by eapply finish_nft.
      - pose proof (s_nft_term decompress N ncpu terms f u s len n t some ts acc) as HS2. destruct (ready_step _ _ _ _ _ _ _ _ Hr HS2) as [R3 R4]. destruct (finish_nft _ _ _ _ _ R4) as (b2 & r & R5 & R6). exists b2, r. split; [|done]. by eapply rtc_l.
      - by eapply finish_ids.
      - by eapply finish_fields.
      - do 2 eexists. split; [apply rtc_refl|exact Hr].
    Qed.
  End one.
End finish.
