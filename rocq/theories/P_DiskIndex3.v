(** The disk storage: where the postings are, in every reachable state. *)
From Verif Require Import Base M_Field M_LRU S_Visits M_Memory M_File M_Serialize M_Disk P_Base P_File S_Disk P_DiskBase P_DiskInv P_DiskMem P_DiskWriter P_DiskIndex P_DiskIndex2.
#[local] Open Scope Z_scope.
#[local] Opaque serialize_metrics deserialize_metrics serialize_nft deserialize_nft serialize_field_map deserialize_field_map serialize_index deserialize_index.

Definition flight_pc (pc : cpc) (f t d : string) : Prop := exists full x ks, pc = CIndexSend full d x t ks /\ f_name x = f.
Definition pc_ok (pc : cpc) (log : list event) : Prop :=
  (forall c, c ∈ pending pc -> c ∈ calls_of log) /\
  match pc with
  | CIndexLoop _ _ x ks => forall t, t ∈ ks -> is_Some (f_tf x !! t)
  | CIndexSend _ _ x t ks => forall t', t' ∈ t :: ks -> is_Some (f_tf x !! t')
  | _ => True
  end.
(** Terms of the call in progress that are not in memory yet. *)
Definition todo (pc : cpc) (c : call) (t : string) : Prop :=
  c ∈ pending pc /\
  match pc with
  | CSave _ _ | CFieldSend _ _ | CIndex _ _ _ => True
  | CIndexLoop _ _ _ ks | CIndexSend _ _ _ _ ks => t ∈ ks
  | _ => False
  end.
Lemma flight_saved pc log f t d : pc_ok pc log -> flight_pc pc f t d -> saved_posting log f t d.
Proof.
  intros [H1 H2] (full & x & ks & -> & <-). exists (if full then Save d x else Index d x). split; [apply H1; destruct full; left|].
  destruct full; cbn; (split; [done|]); (split; [done|]); apply H2; left.
Qed.
Lemma sp_app log ev f t d : saved_posting log f t d -> saved_posting (log ++ ev) f t d.
Proof. intros (c & Hc & H). exists c. split; [|done]. rewrite calls_app. apply elem_of_app. by left. Qed.
Lemma pc_ok_app pc log ev : pc_ok pc log -> pc_ok pc (log ++ ev).
Proof. intros [H1 H2]. split; [|done]. intros c Hc. rewrite calls_app. apply elem_of_app. left. auto. Qed.

Definition x_calls (u : up) (log : list event) : Prop :=
  exists l1 l2, log = l1 ++ EOpened :: l2 /\ EOpened ∉ l2 /\
    forall c t, c ∈ calls_of l2 -> is_Some (f_tf (call_field' c) !! t) ->
      has (disk_get_index (u_mem u) (f_name (call_field' c))) t (call_doc' c) \/ todo (u_pc u) c t.

Lemma range_elem (m : gmap string Z) ks t : range_order m ks -> t ∈ ks <-> is_Some (m !! t).
Proof.
  intros Hr. unfold range_order in Hr. rewrite Hr. rewrite elem_of_list_fmap. split.
  - intros ([k v] & -> & H). apply elem_of_map_to_list in H. by eexists.
  - intros [v H]. exists (t, v). split; [done|]. by apply elem_of_map_to_list.
Qed.

Section client.
  Variable decompress : bytes -> option bytes.
  Lemma c_step_x s m pc m' pc' log : c_step decompress s (m, pc) (m', pc') -> pc_ok pc log ->
    pc_ok pc' log /\
    (forall f, proper (disk_get_index m f) -> proper (disk_get_index m' f)) /\
    (forall f t d, has (disk_get_index m' f) t d <-> has (disk_get_index m f) t d \/ flight_pc pc' f t d) /\
    (forall f t d, ~ flight_pc pc f t d) /\
    (forall c t, todo pc c t -> is_Some (f_tf (call_field' c) !! t) -> has (disk_get_index m' (f_name (call_field' c))) t (call_doc' c) \/ todo pc' c t).
  Proof.
    intros H [P1 P2].
    assert (forall pc0 f t d, (match pc0 with CIndexSend _ _ _ _ _ => False | _ => True end) -> ~ flight_pc pc0 f t d) as HN.
    { intros pc0 f t d Hm (? & ? & ? & -> & _). done. }
    assert (forall m1 m2 pc2, c_index m2 = c_index m1 -> (match pc2 with CIndexSend _ _ _ _ _ => False | _ => True end) ->
      (forall f, proper (disk_get_index m1 f) -> proper (disk_get_index m2 f)) /\ forall f t d, has (disk_get_index m2 f) t d <-> has (disk_get_index m1 f) t d \/ flight_pc pc2 f t d) as HQ.
    { intros m1 m2 pc2 E Hm. unfold disk_get_index. rewrite E. split; [done|]. intros f t d. split; [auto|]. intros [?|G]; [done|]. by apply HN in G. }
    inversion H; subst; try (match goal with |- pc_ok ?P _ /\ (forall f, proper (disk_get_index ?A f) -> proper (disk_get_index ?B f)) /\ _ => destruct (HQ A B P eq_refl I) as [Q1 Q2] end; split; [by split|]; split; [exact Q1|]; split; [exact Q2|]; split; [intros; by apply HN|]; intros c0 t0 [T1 T2]; by try (right; split)).
    - match goal with G : range_order _ _ |- _ => rename G into Hr end. split.
      { split; [done|]. intros t Ht. by apply (range_elem _ _ _ Hr). }
      assert (forall f, disk_get_index (match c_index m !! f_name x with Some _ => m | None => set_index m (<[f_name x := ∅]> (c_index m)) end) f = disk_get_index m f) as E.
      { intros f. destruct (c_index m !! f_name x) eqn:E; [done|]. unfold disk_get_index. cbn. destruct (decide (f_name x = f)) as [<-|Hne]; [by rewrite lookup_insert, E|by rewrite lookup_insert_ne]. }
      split; [intros f; by rewrite E|]. split; [intros f t d0; rewrite E; split; [auto|]; intros [?|G]; [done|]; by apply HN in G|]. split; [intros; by apply HN|].
      intros c0 t0 [T1 _] Hs. right. split; [done|]. cbn in T1 |- *. apply (range_elem _ _ _ Hr). destruct full; apply elem_of_list_singleton in T1 as ->; exact Hs.
    - match goal with G : c_index m !! f_name x = Some _ |- _ => rename G into Hx end.
      assert (disk_get_index m (f_name x) = idx) as E0 by (unfold disk_get_index; by rewrite Hx).
      assert (forall f, f <> f_name x -> disk_get_index (set_index m (<[f_name x := index_term d idx t]> (c_index m))) f = disk_get_index m f) as E1.
      { intros f Hne. unfold disk_get_index. cbn. by rewrite lookup_insert_ne. }
      assert (disk_get_index (set_index m (<[f_name x := index_term d idx t]> (c_index m))) (f_name x) = index_term d idx t) as E2.
      { unfold disk_get_index. cbn. by rewrite lookup_insert. }
      split; [split; [done|]; exact P2|]. split.
      { intros f Hp. destruct (decide (f = f_name x)) as [->|Hne]; [|by rewrite E1]. rewrite E2, index_term_as. apply proper_insert; [done|]. by rewrite <- E0. }
      assert (forall f t0 d0, has (disk_get_index (set_index m (<[f_name x := index_term d idx t]> (c_index m))) f) t0 d0 <-> has (disk_get_index m f) t0 d0 \/ flight_pc (CIndexSend full d x t ks) f t0 d0) as HH.
      { intros f t0 d0. destruct (decide (f = f_name x)) as [->|Hne].
        - rewrite E2, index_term_as, (has_insert _ _ _ _ _ _ eq_refl), E0. split.
          + intros [[-> ->]|?]; [right; by exists full, x, ks|by left].
          + intros [?|(? & ? & ? & [= <- <- <- <- <-] & _)]; auto.
        - rewrite E1 by done. split; [auto|]. intros [?|(? & ? & ? & [= <- <- <- <- <-] & <-)]; done. }
      split; [exact HH|]. split; [intros; by apply HN|].
      intros c0 t0 [T1 T2] _. apply elem_of_cons in T2 as [->|T2]; [|right; split; done]. left. apply HH. right.
      destruct full; apply elem_of_list_singleton in T1 as ->; cbn; eexists _, x, ks; done.
    - destruct full.
      + split; [by split|]. destruct (HQ m' m' (CNft d x) eq_refl I) as [Q1 Q2]. split; [exact Q1|]. split; [exact Q2|]. split; [intros; by apply HN|]. intros c0 t0 [T1 T2]. by apply elem_of_nil in T2.
      + split; [by split; [intros c Hc; by apply elem_of_nil in Hc|]|]. destruct (HQ m' m' CIdle eq_refl I) as [Q1 Q2]. split; [exact Q1|]. split; [exact Q2|]. split; [intros; by apply HN|]. intros c0 t0 [T1 T2]. by apply elem_of_nil in T2.
  Qed.
End client.

Section system.
  Variables (compress : bytes -> bytes) (decompress : bytes -> option bytes) (cache_size : Z).
  Hypothesis gz : gzip_ok compress decompress.
  Notation inf := (in_file decompress).
  Notation disk := (on_disk decompress).
  Notation sf := (safe decompress).
  Notation xv := (x_valid decompress).
  Notation ginv := (g_inv decompress).
  Notation step := (sys_step compress decompress cache_size).
  Notation reach := (reachable compress decompress cache_size).

  Record x_up (u : up) (s : fs) (log : list event) : Prop := {
    xu_g : ginv (u_mg u) s;
    xu_i : i_inv decompress (u_iw u) (u_mg u) s;
    xu_proper : forall f, nd f -> proper (disk_get_index (u_mem u) f);
    xu_cons : forall f t d, nd f -> has (disk_get_index (u_mem u) f) t d <-> in_flight u f t d \/ sf s (u_mg u) f t d;
    xu_pc : pc_ok (u_pc u) log;
    xu_sound : forall f t d, nd f -> has (disk_get_index (u_mem u) f) t d -> saved_posting log f t d;
    xu_calls : x_calls u log }.
  (** The postings that a live process will not lose. *)
  Definition y_safe (y : sys) (f t d : string) : Prop :=
    match y_proc y with Down => disk (y_fs y) f t d | Loading g => sf (y_fs y) g f t d | Up u => sf (y_fs y) (u_mg u) f t d end.
  Definition x_inv (y : sys) : Prop :=
    xv (y_fs y) /\ (forall f t d, nd f -> y_safe y f t d -> saved_posting (y_log y) f t d) /\
    match y_proc y with
    | Down => True
    | Loading g => ginv g (y_fs y) /\ l_inv decompress g (y_fs y)
    | Up u => x_up u (y_fs y) (y_log y)
    end.

  Lemma keeps_safe s s' g f : nd f -> keeps OI s s' -> keeps OF s s' -> forall t d, sf s g f t d <-> sf s' g f t d.
  Proof.
    intros Hf K1 K2 t d. destruct (owner_i f Hf) as (O1 & O2 & _). apply safe_files; [by apply K1|intros u; apply K2; by apply owner_f|by apply K1|done].
  Qed.
  Lemma up_ev u s ev u' s' : up_step compress decompress (u, s) ev (u', s') -> calls_of ev = [] /\ EOpened ∉ ev.
  Proof.
    intros H. inversion H; subst; try (split; [done|apply not_elem_of_nil]).
    - split; [done|]. intros Hin. by apply elem_of_list_singleton in Hin.
    - unfold nft_event. destruct (w_pc nw) as [| | | |? ? ? []]; (split; [done|]); try apply not_elem_of_nil. intros Hin. by apply elem_of_list_singleton in Hin.
  Qed.
  Lemma x_calls_ev u u' log ev : calls_of ev = [] -> EOpened ∉ ev -> x_calls u log ->
    (forall c t, is_Some (f_tf (call_field' c) !! t) -> has (disk_get_index (u_mem u) (f_name (call_field' c))) t (call_doc' c) \/ todo (u_pc u) c t ->
       has (disk_get_index (u_mem u') (f_name (call_field' c))) t (call_doc' c) \/ todo (u_pc u') c t) -> x_calls u' (log ++ ev).
  Proof.
    intros E1 E2 (l1 & l2 & -> & Hn & H) Hm. exists l1, (l2 ++ ev). split; [by rewrite <- app_assoc|]. split; [rewrite elem_of_app; tauto|].
    intros c t. rewrite calls_app, E1, app_nil_r. auto.
  Qed.
  Lemma in_flight_parts u f t d : in_flight u f t d <-> flight_pc (u_pc u) f t d \/ mkPost f t d ∈ u_ich u \/ has (default ∅ (i_buf (u_iw u) !! f)) t d.
  Proof. done. Qed.

  (** A step that changes neither the postings nor the files concerned. *)
  Lemma x_up_quiet u s log u' s' ev : x_up u s log -> i_wf (u_iw u) s -> g_wf (u_mg u) s -> keeps OI s s' -> keeps OF s s' -> calls_of ev = [] -> EOpened ∉ ev ->
    u_mem u' = u_mem u -> u_pc u' = u_pc u -> u_ich u' = u_ich u -> u_iw u' = u_iw u -> u_mg u' = u_mg u -> x_up u' s' (log ++ ev).
  Proof.
    intros [X1 X2 X3 X4 X5 X6 X7] Hiw Hgw K1 K2 E1 E2 U1 U2 U3 U4 U5.
    assert (forall f n, nd f -> owner [f; n] = Some OI -> fs_files s' !! [f; n] = fs_files s !! [f; n]) as K1' by (intros; by apply K1).
    assert (forall f u0, nd f -> frag s' f u0 = frag s f u0) as K2' by (intros; apply K2; by apply owner_f).
    constructor; rewrite ?U1, ?U2, ?U3, ?U4, ?U5.
    - eapply g_inv_frame; [exact Hgw|done|intros f Hf; apply K1', owner_i; done|intros; by apply K2'|intros; by rewrite K2'].
    - eapply i_inv_frame; [exact Hiw|exact X2|intros f t d Hf; apply (keeps_safe s s' _ f Hf K1 K2 t d)|intros; by rewrite K2'].
    - done.
    - intros f t d Hf. rewrite in_flight_parts, U2, U3, U4. rewrite (X4 f t d Hf), in_flight_parts, (keeps_safe s s' _ f Hf K1 K2 t d). done.
    - by apply pc_ok_app.
    - intros f t d Hf Hh. apply sp_app. auto.
    - apply (x_calls_ev u); [done|done|done|]. by rewrite U1, U2.
  Qed.

  Lemma up_step_x u s ev u' s' log : layout s -> up_wf u s -> xv s -> x_up u s log -> up_step compress decompress (u, s) ev (u', s') ->
    xv s' /\ x_up u' s' (log ++ ev) /\ forall f t d, nd f -> sf s (u_mg u) f t d -> sf s' (u_mg u') f t d.
  Proof.
    intros Hl Hw Hv Hx H. pose proof (up_ev _ _ _ _ _ H) as [Ev1 Ev2]. pose proof Hw as [W1 W2 W3 W4 W5 W6 W7].
    destruct (up_step_who _ _ _ _ _ _ _ Hl Hw H) as [[-> Hq]|[Hq|[Hq|[Hq|[Hq|Hq]]]]].
    - split; [done|]. clear Hw.
      inversion Hq; subst; cbn [u_pc u_mem u_ich u_iw u_mg u_mw u_nw u_dw] in *.
      + split; [|done]. rewrite app_nil_r. match goal with G : c_step _ _ _ _ |- _ => destruct (c_step_x _ _ _ _ _ _ log G (xu_pc _ _ _ Hx)) as (C1 & C2 & C3 & C4 & C5) end.
        destruct Hx as [X1 X2 X3 X4 X5 X6 X7]. cbn [u_pc u_mem u_ich u_iw u_mg] in *. constructor; cbn [u_pc u_mem u_ich u_iw u_mg].
        * done.
        * done.
        * auto.
        * intros f t d Hf. rewrite C3, (X4 f t d Hf), !in_flight_parts. cbn. pose proof (C4 f t d). tauto.
        * done.
        * intros f t d Hf Hh. apply C3 in Hh as [Hh|Hh]; [auto|]. by eapply flight_saved.
        * rewrite <- (app_nil_r log). eapply x_calls_ev; [done|done|exact X7|]. cbn. intros c t Hs [Hh|Ht]; [left; apply C3; by left|auto].
      + split; [|done]. rewrite app_nil_r. destruct Hx as [X1 X2 X3 X4 X5 X6 X7]. cbn [u_pc u_mem u_ich u_iw u_mg] in *.
        match goal with G : c_doc _ _ _ |- _ => inversion G; subst end; constructor; cbn [u_pc u_mem u_ich u_iw u_mg] in *; try done.
        * intros f t d0 Hf. rewrite (X4 f t d0 Hf), !in_flight_parts. cbn. unfold flight_pc. split; (intros [[(? & ? & ? & ? & _)|?]|?]; [done|by auto|by auto]).
        * intros f t d0 Hf. rewrite (X4 f t d0 Hf), !in_flight_parts. cbn. unfold flight_pc. split; (intros [[(? & ? & ? & ? & _)|?]|?]; [done|by auto|by auto]).
      + split; [|done]. rewrite app_nil_r. destruct Hx as [X1 X2 X3 X4 X5 X6 X7]. cbn [u_pc u_mem u_ich u_iw u_mg] in *. constructor; cbn [u_pc u_mem u_ich u_iw u_mg] in *; try done.
        * intros f t d0 Hf. rewrite (X4 f t d0 Hf), !in_flight_parts. cbn. unfold flight_pc. split; (intros [[(? & ? & ? & ? & _)|?]|?]; [done|by auto|by auto]).
      + split; [|done]. rewrite app_nil_r. destruct Hx as [X1 X2 X3 X4 X5 X6 X7]. cbn [u_pc u_mem u_ich u_iw u_mg] in *. constructor; cbn [u_pc u_mem u_ich u_iw u_mg] in *; try done.
        * intros f t0 d0 Hf. rewrite (X4 f t0 d0 Hf), !in_flight_parts. cbn. rewrite elem_of_app, elem_of_list_singleton. unfold flight_pc. split.
          -- intros [[(? & ? & ? & [= <- <- <- <- <-] & <-)|[?|?]]|?]; auto 10.
          -- intros [[(? & ? & ? & ? & _)|[[?|[= -> -> ->]]|?]]|?]; [done|by auto 10| |by auto 10|by auto 10]. left. left. by exists full, x, ks.
        * destruct X5 as [P1 P2]. split; [by destruct full|]. intros t' Ht'. apply P2. by right.
      + split; [|done]. rewrite app_nil_r. destruct Hx as [X1 [X2 _] X3 X4 X5 X6 X7]. cbn [u_pc u_mem u_ich u_iw u_mg i_buf] in *. constructor; cbn [u_pc u_mem u_ich u_iw u_mg] in *; try done.
        * split; [|done]. cbn. by apply i_recv_proper.
        * intros f t d Hf. rewrite (X4 f t d Hf), !in_flight_parts. cbn. rewrite i_recv_has, elem_of_cons. split; (intros [[?|[?|?]]|?]; destruct_or?; subst; auto 10).
      + split; [|done]. destruct Hx as [X1 X2 X3 X4 X5 X6 X7]. cbn [u_pc u_mem u_ich u_iw u_mg] in *. constructor; cbn [u_pc u_mem u_ich u_iw u_mg] in *; try done.
        * intros f t0 d0 Hf. rewrite (X4 f t0 d0 Hf), !in_flight_parts. cbn. unfold flight_pc. split; (intros [[(? & ? & ? & ? & _)|?]|?]; [done|by auto|by auto]).
        * apply pc_ok_app. exact X5.
        * intros f t0 d0 Hf Hh. apply sp_app. auto.
        * eapply x_calls_ev; [done|done|exact X7|]. cbn. intros c t0 Hs [Hh|[_ []]]. by left.
      + split; [|done]. rewrite app_nil_r. destruct Hx as [X1 X2 X3 X4 X5 X6 X7]. cbn [u_pc u_mem u_ich u_iw u_mg] in *. constructor; cbn [u_pc u_mem u_ich u_iw u_mg] in *; try done.
        * intros f t0 d0 Hf. rewrite (X4 f t0 d0 Hf), !in_flight_parts. cbn. unfold flight_pc. split; (intros [[(? & ? & ? & ? & _)|?]|?]; [done|by auto|by auto]).
        * split; [|done]. intros c Hc. by apply elem_of_nil in Hc.
        * rewrite <- (app_nil_r log). eapply x_calls_ev; [done|done|exact X7|]. cbn. intros c t0 Hs [Hh|[_ []]]. by left.
      + assert (forall f t d, sf s (mkM acc (MFields [])) f t d <-> sf s (mkM ∅ MIdle) f t d) as HS by (intros; rewrite !safe_no_gap by (by apply no_gap); done).
        split; [|intros; by apply HS]. rewrite app_nil_r. destruct Hx as [X1 X2 X3 X4 X5 X6 X7]. cbn [u_pc u_mem u_ich u_iw u_mg] in *. constructor; cbn [u_pc u_mem u_ich u_iw u_mg] in *; try done.
        * eapply i_inv_frame; [exact W6|exact X2|intros; by apply HS|done].
        * intros f t d Hf. rewrite (X4 f t d Hf), !in_flight_parts, HS. done.
    - destruct Hq as (G1 & E & _ & _ & K1 & K2 & _). split; [eapply x_valid_same; [|exact Hv]; intros p [Hp|Hp]; [by apply K1|by apply K2]|].
      rewrite E. split; [apply (x_up_quiet u s); done|]. intros f t d Hf. cbn. apply (keeps_safe s s' _ f Hf K1 K2 t d).
    - destruct Hq as (G1 & E & _ & _ & K1 & K2 & _). split; [eapply x_valid_same; [|exact Hv]; intros p [Hp|Hp]; [by apply K1|by apply K2]|].
      rewrite E. split; [apply (x_up_quiet u s); done|]. intros f t d Hf. cbn. apply (keeps_safe s s' _ f Hf K1 K2 t d).
    - destruct Hq as (G1 & E & _ & _ & K1 & K2 & _). split; [eapply x_valid_same; [|exact Hv]; intros p [Hp|Hp]; [by apply K1|by apply K2]|].
      rewrite E. split; [apply (x_up_quiet u s); done|]. intros f t d Hf. cbn. apply (keeps_safe s s' _ f Hf K1 K2 t d).
    - destruct Hq as (G1 & E & _ & _ & _ & _ & ->). rewrite app_nil_r. pose proof (i_step_inv compress decompress gz _ _ _ _ (u_mg u) Hl W6 W7 Hv (xu_g _ _ _ Hx) (xu_i _ _ _ Hx) G1) as (I1 & I2 & I3 & I4 & I5).
      split; [done|]. rewrite E in I3, I5 |- *. cbn [u_iw u_mg] in *. split; [|done]. destruct Hx as [X1 X2 X3 X4 X5 X6 X7]. constructor; cbn [u_pc u_mem u_ich u_iw u_mg] in *; try done.
      intros f t d Hf. rewrite (X4 f t d Hf), !in_flight_parts. cbn. specialize (I5 f t d Hf). cbn in I5. tauto.
    - destruct Hq as (G1 & E & _ & _ & _ & ->). rewrite app_nil_r. pose proof (g_step_inv compress decompress gz _ _ _ _ Hl W7 Hv (xu_g _ _ _ Hx) G1) as (I1 & I2 & I3).
      split; [done|]. rewrite E in I2, I3 |- *. cbn [u_iw u_mg] in *. split; [|intros f t d Hf; by apply I3]. destruct Hx as [X1 X2 X3 X4 X5 X6 X7]. constructor; cbn [u_pc u_mem u_ich u_iw u_mg] in *; try done.
      + eapply i_inv_frame; [exact W6|exact X2|intros f t d Hf; by apply I3|]. intros f u0 Hf. by apply (g_step_torn compress decompress _ _ _ _ f u0 Hl W7 X1 G1).
      + intros f t d Hf. rewrite (X4 f t d Hf), !in_flight_parts. cbn. by rewrite (I3 f t d Hf).
  Qed.
  Lemma up_tick_x u s u' s' log : up_wf u s -> x_up u s log -> up_tick (u, s) (u', s') ->
    s' = s /\ x_up u' s log /\ forall f t d, nd f -> sf s (u_mg u) f t d <-> sf s (u_mg u') f t d.
  Proof.
    intros [W1 W2 W3 W4 W5 W6 W7] [X1 X2 X3 X4 X5 X6 X7] H. inversion H; subst; (split; [done|]); cbn [u_pc u_mem u_ich u_iw u_mg] in *.
    - split; [|done]. constructor; done.
    - split; [|done]. constructor; done.
    - split; [|done]. constructor; done.
    - split; [|done]. match goal with G : i_tick _ _ |- _ => inversion G as [buf ks Hr]; subst end. constructor; cbn [u_pc u_mem u_ich u_iw u_mg i_buf] in *; try done.
      split; [by destruct X2|]. cbn. intros f t d Hf Hni Hh. exfalso. apply Hni. unfold range_order in Hr. rewrite Hr. destruct (buf !! f) as [m0|] eqn:E; [|by apply has_empty in Hh].
      apply elem_of_list_fmap. exists (f, m0). split; [done|]. by apply elem_of_map_to_list.
    - match goal with G : g_start _ _ |- _ => inversion G; subst end.
      assert (forall f t d, sf s' (mkM acc MIdle) f t d <-> sf s' (mkM ∅ (MFields ns)) f t d) as HS by (intros; rewrite !safe_no_gap by (by apply no_gap); done).
      split; [|intros; by apply HS]. constructor; cbn [u_pc u_mem u_ich u_iw u_mg] in *; try done.
      + eapply i_inv_frame; [exact W6|exact X2|intros; by apply HS|done].
      + intros f t d Hf. rewrite (X4 f t d Hf), !in_flight_parts, HS. done.
  Qed.
  Lemma up_call_x u ev u' s log : x_up u s log -> up_call u ev u' -> x_up u' s (log ++ ev) /\ u_mg u' = u_mg u.
  Proof.
    intros [X1 X2 X3 X4 X5 X6 (l1 & l2 & -> & L1 & L2)] H.
    assert (EOpened ∉ ev) as Hev. { inversion H; subst; try apply not_elem_of_nil; intros Hin; by apply elem_of_list_singleton in Hin. }
    inversion H; subst; (split; [|done]); cbn [u_pc u_mem u_ich u_iw u_mg] in *; constructor; cbn [u_pc u_mem u_ich u_iw u_mg] in *; try done;
      try (intros f0 t0 d0 Hf Hh; apply sp_app; auto; fail);
      try (intros f0 t0 d0 Hf; rewrite (X4 f0 t0 d0 Hf), !in_flight_parts; cbn; unfold flight_pc; split; (intros [[(? & ? & ? & ? & _)|?]|?]; [done|by auto|by auto]); fail).
    - split; [|done]. intros c Hc. rewrite calls_app. apply elem_of_app. by right.
    - exists l1, (l2 ++ [ECall (Save d x)]). split; [by rewrite <- app_assoc|]. split; [rewrite elem_of_app; tauto|]. intros c t. rewrite calls_app, elem_of_app. intros [Hc|Hc] Hs.
      + destruct (L2 c t Hc Hs) as [?|[? []]]. by left.
      + right. split; done.
    - split; [|done]. intros c Hc. rewrite calls_app. apply elem_of_app. by right.
    - exists l1, (l2 ++ [ECall (Index d x)]). split; [by rewrite <- app_assoc|]. split; [rewrite elem_of_app; tauto|]. intros c t. rewrite calls_app, elem_of_app. intros [Hc|Hc] Hs.
      + destruct (L2 c t Hc Hs) as [?|[? []]]. by left.
      + right. split; done.
    - split; [|done]. intros c Hc. by apply elem_of_nil in Hc.
    - exists l1, (l2 ++ [EGet ids f]). split; [by rewrite <- app_assoc|]. split; [rewrite elem_of_app; tauto|]. intros c t Hc Hs. rewrite calls_app in Hc. cbn in Hc. rewrite app_nil_r in Hc. destruct (L2 c t Hc Hs) as [?|[? []]]. by left.
  Qed.

  Lemma clean_disk s f t d : clean s f -> disk s f t d <-> inf (idx s f) t d.
  Proof.
    intros (H & _). unfold on_disk, in_index_file, in_fragment. split; [|by left]. intros [?|(u & Hu)]; [done|]. rewrite H in Hu. by apply inf_none in Hu.
  Qed.
  Lemma opened_x s acc u log : xv s -> l_inv decompress (mkM acc (MFields [])) s -> (forall f t d, nd f -> disk s f t d -> saved_posting log f t d) ->
    opened decompress cache_size s acc u -> x_up u s (log ++ [EOpened]) /\ m_pc (u_mg u) = MIdle.
  Proof.
    intros Hv [_ Hl] Hs H. inversion H; subst. split; [|done]. cbn in Hl.
    assert (forall f, nd f -> proper (default ∅ (acc !! f)) /\ forall t d, has (default ∅ (acc !! f)) t d <-> disk s f t d) as HL.
    { intros f Hf. destruct (Hl f Hf) as (L1 & L2 & L3); [apply not_elem_of_nil|]. split; [done|]. intros t d. by rewrite (clean_disk s f t d L1). }
    constructor; cbn; try done.
    - intros f Hf. by apply HL.
    - intros f t d Hf. unfold disk_get_index. cbn. rewrite (proj2 (HL f Hf)), in_flight_parts. cbn. rewrite safe_no_gap by (by apply no_gap). rewrite lookup_empty. cbn. rewrite has_empty, elem_of_nil.
      unfold flight_pc. split; [auto|]. intros [[(? & ? & ? & ? & _)|[[]|[]]]|?]; done.
    - split; [|done]. intros c Hc. by apply elem_of_nil in Hc.
    - intros f t d Hf Hh. apply sp_app, Hs; [done|]. by apply HL.
    - exists log, []. split; [done|]. split; [apply not_elem_of_nil|]. intros c t Hc. by apply elem_of_nil in Hc.
  Qed.

  Lemma x_step a b : base a -> good_log (y_log b) -> x_inv a -> step a b -> x_inv b.
  Proof.
    intros [Bl Bp] Hg (Hv & Hs & Hp) [H|H]; inversion H; subst; unfold x_inv, y_safe in *; cbn [y_fs y_proc y_log] in *.
    - match goal with G : mkdir_all _ _ = _ |- _ => destruct (mkdir_effect _ [] _ Bl eq_refl (Nat.le_0_l 2) G) as (E1 & E2 & _) end.
      match goal with G : g_start _ _ |- _ => pose proof G as Gs; inversion G; subst end.
      assert (forall f t d, disk s' f t d <-> disk s f t d) as HD by (intros f t d; apply disk_same; by rewrite E2).
      split; [eapply x_valid_same; [|exact Hv]; by rewrite E2|]. split.
      + intros f t d Hf. rewrite safe_no_gap by (by apply no_gap). rewrite HD. auto.
      + split; [done|]. by apply l_start.
    - destruct Bp as [Br Bp]. destruct Hp as [Hi Hll]. match goal with G : g_step _ _ _ _ |- _ => rename G into GG end.
      pose proof (g_step_inv compress decompress gz _ _ _ _ Bl Bp Hv Hi GG) as (I1 & I2 & I3). split; [done|]. split; [intros f t d Hf Hx; apply Hs; [done|by apply I3]|]. split; [done|].
      by apply (l_step compress decompress gz g s g' s').
    - destruct Hp as [Hi Hll]. match goal with G : opened _ _ _ _ _ |- _ => destruct (opened_x s acc u log Hv Hll) as [O1 O2]; [|exact G|] end.
      { intros f t d Hf Hd. apply Hs; [done|]. by left. }
      split; [done|]. split; [|done]. intros f t d Hf Hx. apply sp_app, Hs; [done|]. left. revert Hx. rewrite safe_no_gap; [done|]. apply no_gap. by rewrite O2.
    - destruct Bp as [Br Bp]. match goal with G : up_step _ _ _ _ _ |- _ => destruct (up_step_x _ _ _ _ _ _ Bl Bp Hv Hp G) as (U1 & U2 & _) end.
      split; [done|]. split; [|done]. intros f t d Hf Hx. apply (xu_sound _ _ _ U2); [done|]. apply (xu_cons _ _ _ U2); [done|]. by right.
    - destruct Bp as [Br Bp]. match goal with G : up_tick _ _ |- _ => destruct (up_tick_x _ _ _ _ _ Bp Hp G) as (-> & U2 & U3) end.
      split; [done|]. split; [|done]. intros f t d Hf Hx. apply Hs; [done|]. by apply U3.
    - match goal with G : up_call _ _ _ |- _ => destruct (up_call_x _ _ _ _ _ Hp G) as (U2 & U3) end.
      split; [done|]. split; [|done]. intros f t d Hf Hx. apply sp_app, Hs; [done|]. by rewrite <- U3.
    - split; [done|]. split; [|done]. intros f t d Hf Hx. apply sp_app, Hs; [done|]. destruct p; [done|by left|by left].
  Qed.
  Lemma x_reach y : reach y -> good_log (y_log y) -> base y /\ x_inv y.
  Proof.
    revert y. apply reach_ind.
    - split; [intros f _; split; [intros [c Hc]|intros u [c Hc]]; cbn in Hc; by rewrite lookup_empty in Hc|]. split; [|done]. intros f t d _ [Hx|(u & Hx)].
      + unfold in_index_file in Hx. cbn in Hx. rewrite lookup_empty in Hx. by apply inf_none in Hx.
      + cbn in Hx. rewrite lookup_empty in Hx. by apply inf_none in Hx.
    - intros a b Ha Hb Hs Hg Hi. by eapply x_step.
  Qed.
End system.
