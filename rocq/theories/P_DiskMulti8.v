(** Concurrent calls on the disk storage: the metrics files (C66). *)
From Verif Require Import Base M_Field M_LRU S_Visits M_Memory M_File M_Serialize M_Num M_FanIn M_Search M_Concurrent M_SearchConc M_Disk P_Base P_File S_Concurrent P_Concurrent P_Concurrent2 P_DiskBase P_DiskInv P_DiskMem P_DiskWriter P_DiskMetrics M_DiskBusy M_DiskMulti P_DiskIndex3 P_DiskIndex4 S_Disk S_DiskMulti P_DiskMulti P_DiskMulti2 P_DiskMulti3 S_DiskMulti2.
#[local] Open Scope Z_scope.
#[local] Opaque serialize_metrics serialize_nft serialize_field_map serialize_index deserialize_index deserialize_nft deserialize_field_map deserialize_metrics.

Notation thread := (tpc * msg * list call)%type.
Definition tsum (g : thread -> Z) (ths : list thread) : Z := zsum (map g ths).
Lemma tsum_cons g th ths : tsum g (th :: ths) = g th + tsum g ths.
Proof. done. Qed.
Lemma tsum_insert g ths i th th' : ths !! i = Some th -> tsum g (<[i := th']> ths) = tsum g ths - g th + g th'.
Proof.
  revert i. induction ths as [|z l IH]; intros [|i] H; try discriminate H; cbn [insert list_insert]; rewrite ?tsum_cons.
  - injection H as ->. lia.
  - specialize (IH i H). etransitivity; [exact (f_equal (Z.add (g z)) IH)|lia].
Qed.
Lemma tsum_app g l1 l2 : tsum g (l1 ++ l2) = tsum g l1 + tsum g l2.
Proof. induction l1 as [|z l IH]; [done|]. cbn [app]. rewrite !tsum_cons. lia. Qed.
Lemma tsum_pos g ths : (forall th, th ∈ ths -> 0 <= g th) -> 0 <= tsum g ths.
Proof.
  induction ths as [|z l IH]; intros H; [done|]. rewrite tsum_cons. pose proof (H z ltac:(by left)). assert (0 <= tsum g l); [|lia]. apply IH. intros. apply H. by right.
Qed.
Lemma tsum_ge g ths i th : (forall th, th ∈ ths -> 0 <= g th) -> ths !! i = Some th -> g th <= tsum g ths.
Proof.
  revert i. induction ths as [|z l IH]; intros i H Hi; [done|]. rewrite tsum_cons. pose proof (H z ltac:(by left)) as Hz. destruct i as [|i].
  - injection Hi as ->. assert (0 <= tsum g l); [|lia]. apply tsum_pos. intros. apply H. by right.
  - assert (g th <= tsum g l); [|lia]. apply (IH i); [|done]. intros. apply H. by right.
Qed.

(** The calls on [f] whose increments are still to be stored. *)
Definition ps (f : string) (th : thread) : Z :=
  match th.1.1 with TSize _ _ x | TSizeW _ _ x _ => if decide (f_name x = f) then 1 else 0 | _ => 0 end.
Definition pl (f : string) (th : thread) : Z :=
  match th.1.1 with TSize _ _ x | TSizeW _ _ x _ | TLen _ _ x | TLenW _ _ x _ => if decide (f_name x = f) then f_length x else 0 | _ => 0 end.
(** ... or whose counters are still to be sent to the writer. *)
Definition unsent (f : string) (th : thread) : Prop :=
  match th.1.1, th.1.2 with
  | _, (FLen x | FSize x _ | FSend x _ _) => f_name x = f
  | (TSize _ _ x | TSizeW _ _ x _ | TLen _ _ x | TLenW _ _ x _), NoMsg => f_name x = f
  | _, _ => False
  end.
Lemma ps_pos f th : 0 <= ps f th.
Proof. unfold ps. destruct th.1.1; try lia; by destruct (decide _). Qed.
(** [n], [l]: the saves of [f] and their lengths; [n'], [l']: without those still to be
    stored; [k]: the number in memory. *)
Definition pc_est (f : string) (n' l' k : Z) (pc : tpc) : Prop :=
  match pc with
  | TDoc _ _ | TDocW _ _ _ => False                        (* the Disk storage does not get there *)
  | TSizeW _ _ x v => f_name x = f -> 0 <= v <= n'
  | TLen _ _ x => f_name x = f -> 1 <= k
  | TLenW _ _ x v => f_name x = f -> 1 <= k /\ 0 <= v <= l'
  | _ => True
  end.
Definition msg_est (f : string) (n l k : Z) (m : msg) : Prop :=
  match m with
  | FLen x => f_name x = f -> 1 <= k
  | FSize x len => f_name x = f -> 1 <= k /\ 0 <= len <= l
  | FSend x len size => f_name x = f -> 1 <= size <= n /\ 0 <= len <= l
  | _ => True
  end.
Record tm (f : string) (n l : Z) (sh : shared) (ths : list thread) : Prop := {
  tm_size : 0 <= geti (k_size sh) f <= n - tsum (ps f) ths;
  tm_len : 0 <= geti (k_length sh) f <= l - tsum (pl f) ths;
  tm_th : forall th, th ∈ ths -> 0 <= pl f th /\ pc_est f (n - tsum (ps f) ths) (l - tsum (pl f) ths) (geti (k_size sh) f) th.1.1 /\ msg_est f n l (geti (k_size sh) f) th.1.2 }.
Lemma pc_est_mono f n l k n' l' k' pc : n <= n' -> l <= l' -> (1 <= k -> 1 <= k') -> pc_est f n l k pc -> pc_est f n' l' k' pc.
Proof. intros H1 H2 H3. destruct pc; cbn; try done; intros H E; specialize (H E); repeat split; first [lia|tauto]. Qed.
Lemma msg_est_mono f n l k n' l' k' m : n <= n' -> l <= l' -> (1 <= k -> 1 <= k') -> msg_est f n l k m -> msg_est f n' l' k' m.
Proof. intros H1 H2 H3. destruct m; cbn; try done; intros H E; specialize (H E); repeat split; first [lia|tauto]. Qed.
Lemma tm_tot f n l sh ths : tm f n l sh ths -> geti (k_size sh) f <= n /\ geti (k_length sh) f <= l.
Proof.
  intros [H1 H2 H3]. assert (0 <= tsum (ps f) ths) by (apply tsum_pos; intros; apply ps_pos). assert (0 <= tsum (pl f) ths) by (apply tsum_pos; intros th Hth; by apply H3). lia.
Qed.
Lemma tm_upd f n l sh ths sh' i th th' : ths !! i = Some th -> tm f n l sh ths ->
  ps f th' <= ps f th -> pl f th' <= pl f th -> 0 <= pl f th' -> (1 <= geti (k_size sh) f -> 1 <= geti (k_size sh') f) ->
  0 <= geti (k_size sh') f <= n - tsum (ps f) ths + ps f th - ps f th' -> 0 <= geti (k_length sh') f <= l - tsum (pl f) ths + pl f th - pl f th' ->
  pc_est f (n - tsum (ps f) ths + ps f th - ps f th') (l - tsum (pl f) ths + pl f th - pl f th') (geti (k_size sh') f) th'.1.1 -> msg_est f n l (geti (k_size sh') f) th'.1.2 ->
  tm f n l sh' (<[i := th']> ths).
Proof.
  intros Hi [T1 T2 T3] E1 E2 E3 E4 B1 B2 B3 B4. constructor; rewrite ?(tsum_insert _ _ _ _ _ Hi).
  - lia.
  - lia.
  - intros th0 Hth. apply elem_of_insert in Hth as [->|Hth].
    + split; [done|]. split; [|done]. eapply pc_est_mono; [..|exact B3]; [lia|lia|done].
    + destruct (T3 th0 Hth) as (K1 & K2 & K3). split; [done|]. split; [|eapply msg_est_mono; [..|exact K3]; [lia|lia|done]]. eapply pc_est_mono; [..|exact K2]; [lia|lia|done].
Qed.
(** A goroutine accesses a map. *)
Lemma geti_insert (m : gmap string Z) k v : geti (<[k := v]> m) k = v.
Proof. unfold geti. by rewrite lookup_insert. Qed.
Lemma geti_insert_ne (m : gmap string Z) k k' v : k <> k' -> geti (<[k := v]> m) k' = geti m k'.
Proof. intros. unfold geti. by rewrite lookup_insert_ne. Qed.
Lemma t_map f n l sh ths i pc cs sh' pc' : n < 2 ^ 31 -> l < 2 ^ 31 -> ths !! i = Some (pc, NoMsg, cs) -> t_step (sh, pc) (sh', pc') ->
  tm f n l sh ths -> tm f n l sh' (<[i := (pc', after pc, cs)]> ths).
Proof.
  intros Hn Hl Hi St T. pose proof T as [T1 T2 T3]. pose proof (T3 _ (elem_of_list_lookup_2 _ _ _ Hi)) as (K1 & K2 & _). pose proof (tm_tot _ _ _ _ _ T) as [G1 G2].
  assert (0 <= tsum (ps f) ths) as S1 by (apply tsum_pos; intros; apply ps_pos). assert (0 <= tsum (pl f) ths) as S2 by (apply tsum_pos; intros th Hth; by apply T3).
  inversion St; subst; cbn [fst snd] in K2; try done;
    try (apply (tm_upd f n l _ ths _ i _ _ Hi T); cbn [ps pl fst snd after k_size k_length set_kindex set_knft pc_est msg_est]; solve [lia|done]).
  - apply (tm_upd f n l sh' ths _ i _ _ Hi T); unfold ps, pl in *; cbn [fst snd after pc_est msg_est] in *; try lia; try done. intros <-. destruct (decide _); [|done]. lia.
  - unfold pc_est in K2. destruct (decide (f_name x = f)) as [E|E].
    + specialize (K2 E). subst f. assert (wrap64 (v + 1) = v + 1) as W by (apply wrap64_id; unfold int64_range; lia).
      apply (tm_upd _ n l sh ths _ i _ _ Hi T); unfold ps, pl in *; cbn [fst snd after pc_est msg_est k_size k_length set_ksize] in *; rewrite ?geti_insert, ?W; rewrite ?decide_True in * by done; try lia; try done.
    + apply (tm_upd _ n l sh ths _ i _ _ Hi T); unfold ps, pl in *; cbn [fst snd after pc_est msg_est k_size k_length set_ksize] in *; rewrite ?geti_insert_ne by done; rewrite ?decide_False in * by done; try lia; try done.
  - unfold pc_est in K2. apply (tm_upd f n l sh' ths _ i _ _ Hi T); unfold ps, pl in *; cbn [fst snd after pc_est msg_est] in *; try lia; try done. intros E. specialize (K2 E). rewrite E. lia.
  - unfold pc_est in K2. destruct (decide (f_name x = f)) as [E|E].
    + specialize (K2 E). subst f. unfold pl in K1. cbn [fst] in K1. rewrite decide_True in K1 by done.
      pose proof (tsum_ge (pl (f_name x)) ths i _ (fun th Hth => proj1 (T3 th Hth)) Hi) as S3. unfold pl in S3 at 1. cbn [fst] in S3. rewrite decide_True in S3 by done.
      assert (wrap64 (v + f_length x) = v + f_length x) as W by (apply wrap64_id; unfold int64_range; lia).
      apply (tm_upd _ n l sh ths _ i _ _ Hi T); unfold ps, pl in *; cbn [fst snd after pc_est msg_est k_size k_length set_klength] in *; rewrite ?geti_insert, ?W; rewrite ?decide_True in * by done; try lia; try done.
    + apply (tm_upd _ n l sh ths _ i _ _ Hi T); unfold ps, pl in *; cbn [fst snd after pc_est msg_est k_size k_length set_klength] in *; rewrite ?geti_insert_ne by done; rewrite ?decide_False in * by done; try lia; try done.
  - destruct full; apply (tm_upd f n l sh' ths _ i _ _ Hi T); unfold ps, pl in *; cbn [fst snd after pc_est msg_est] in *; try lia; try done.
Qed.

(** * The writer and the files *)
Definition in_est (n l : Z) (v : Z * Z) : Prop := 1 <= v.1 <= n /\ 0 <= v.2 <= l.
Lemma in_est_mono n l n' l' v : n <= n' -> l <= l' -> in_est n l v -> in_est n' l' v.
Proof. unfold in_est. lia. Qed.
Lemma counted_app f h h' : counted_calls true f (h ++ h') = counted_calls true f h ++ counted_calls true f h'.
Proof. apply List.filter_app. Qed.
Lemma zsum_app l1 l2 : zsum (l1 ++ l2) = zsum l1 + zsum l2.
Proof. induction l1 as [|x l IH]; [done|]. change (zsum ((x :: l) ++ l2)) with (x + zsum (l ++ l2)). change (zsum (x :: l)) with (x + zsum l). lia. Qed.
Lemma zsum_pos l : (forall x, x ∈ l -> 0 <= x) -> 0 <= zsum l.
Proof. induction l as [|x l IH]; intros H; [done|]. change (zsum (x :: l)) with (x + zsum l). pose proof (H x ltac:(by left)). assert (0 <= zsum l); [|lia]. apply IH. intros. apply H. by right. Qed.
Lemma mod_app f log ev : moderate f (log ++ ev) -> moderate f log /\ times_saved f log <= times_saved f (log ++ ev) /\ length_saved f log <= length_saved f (log ++ ev).
Proof.
  unfold moderate, times_saved, length_saved. rewrite calls_app, counted_app, map_app, zsum_app, app_length. intros (H1 & H2 & H3).
  assert (0 <= zsum (map (fun c => f_length (call_field' c)) (counted_calls true f (calls_of ev)))).
  { apply zsum_pos. intros x Hx. apply elem_of_list_fmap in Hx as (c & -> & Hc). apply H1. apply elem_of_app. by right. }
  split; [split; [|lia]|lia]. intros c Hc. apply H1. apply elem_of_app. by left.
Qed.
Lemma mod_ev f log ev : calls_of ev = [] -> times_saved f (log ++ ev) = times_saved f log /\ length_saved f (log ++ ev) = length_saved f log /\ (moderate f (log ++ ev) <-> moderate f log).
Proof. intros E. unfold moderate, times_saved, length_saved. rewrite calls_app, E, app_nil_r. done. Qed.

Lemma unsent_client f sh u pc m ev sh' u' pc' m' cs : client_step (sh, u, (pc, m)) ev (sh', u', (pc', m')) -> unsent f (pc, m, cs) -> unsent f (pc', m', cs) \/ is_Some (w_buf (u_mw u') !! f).
Proof.
  intros H Hu. inversion H; subst; unfold unsent in *; cbn [fst snd] in *; try (by destruct pc'); try (by left; destruct pc').
  - left. match goal with K : t_step _ _ |- _ => inversion K; subst; cbn [after]; try done end.
  - right. assert (f_name x = f) as <- by (by destruct pc'). cbn. unfold m_recv. rewrite lookup_insert. by eexists.
Qed.
Lemma client_mw sh u th ev sh' u' th' : client_step (sh, u, th) ev (sh', u', th') ->
  u_mw u' = u_mw u \/ exists pc x len size mb, th = (pc, FSend x len size) /\ u_mw u = mkW mb WIdle /\ u_mw u' = mkW (m_recv mb (f_name x) size len) WIdle.
Proof. intros H. inversion H; subst; try (by left). right. by eexists _, _, _, _, _. Qed.
Lemma tm_client f n l sh u pc m cs ev sh' u' pc' m' ths i : n < 2 ^ 31 -> l < 2 ^ 31 -> ths !! i = Some (pc, m, cs) -> client_step (sh, u, (pc, m)) ev (sh', u', (pc', m')) ->
  tm f n l sh ths -> tm f n l sh' (<[i := (pc', m', cs)]> ths).
Proof.
  intros Hn Hl Hi H T. pose proof T as [T1 T2 T3]. pose proof (T3 _ (elem_of_list_lookup_2 _ _ _ Hi)) as (K1 & K2 & K3). pose proof (tm_tot _ _ _ _ _ T) as [G1 G2]. cbn [fst snd] in K2, K3.
  assert (forall m0, msg_est f n l (geti (k_size sh) f) m0 -> tm f n l sh (<[i := (pc, m0, cs)]> ths)) as Q.
  { intros m0 Hm. apply (tm_upd f n l sh ths sh i _ _ Hi T); try done; unfold ps, pl in *; cbn [fst snd] in *; try lia. eapply pc_est_mono; [..|exact K2]; [lia|lia|done]. }
  inversion H; subst; try (by apply Q).
  - by eapply t_map.
  - apply Q. cbn in *. intros E. specialize (K3 E). rewrite E. lia.
  - apply Q. cbn in *. intros E. specialize (K3 E). rewrite E. lia.
Qed.

Section metrics.
  Variables (compress : bytes -> bytes) (decompress : bytes -> option bytes) (cache_size : Z).
  Hypothesis gz : gzip_ok compress decompress.
  Notation step := (multi_step compress decompress cache_size).
  Notation mfile s f := (fs_files s !! [f; "metrics"]).

  Definition file_est (s : fs) (log : list event) : Prop :=
    forall f c, nd f -> moderate f log -> mfile s f = Some c -> exists v, m_holds compress f c v /\ in_est (times_saved f log) (length_saved f log) v.
  Definition buf_est (w : writer (Z * Z)) (log : list event) : Prop :=
    forall f v, nd f -> moderate f log -> w_buf w !! f = Some v -> in_est (times_saved f log) (length_saved f log) v.
  Definition kept_m (s : fs) (w : writer (Z * Z)) (ths : list thread) (log : list event) : Prop :=
    exists l1 l2, log = l1 ++ EOpened :: l2 /\ EOpened ∉ l2 /\
      forall d x, nd (f_name x) -> Save d x ∈ calls_of l2 -> is_Some (w_buf w !! f_name x) \/ is_Some (mfile s (f_name x)) \/ exists th, th ∈ ths /\ unsent (f_name x) th.
  Record e_up (s : fs) (u : up) (sh : shared) (ths : list thread) (log : list event) : Prop := {
    eu_fl : w_flight compress m_ser (u_mw u);
    eu_buf : buf_est (u_mw u) log;
    eu_tm : forall f, nd f -> moderate f log -> tm f (times_saved f log) (length_saved f log) sh ths;
    eu_kept : kept_m s (u_mw u) ths log }.
  Definition e_inv (a : multi) : Prop :=
    m_valid compress (y_fs (mu_sys a)) /\ file_est (y_fs (mu_sys a)) (y_log (mu_sys a)) /\
    match y_proc (mu_sys a) with Up u => e_up (y_fs (mu_sys a)) u (mu_sh a) (mu_threads a) (y_log (mu_sys a)) | _ => True end.

  Lemma file_est_app s log ev : file_est s log -> file_est s (log ++ ev).
  Proof. intros H f c Hf Hm Hc. destruct (mod_app _ _ _ Hm) as (M & M1 & M2). destruct (H f c Hf M Hc) as (v & V1 & V2). exists v. split; [done|]. by eapply in_est_mono. Qed.
  Lemma buf_est_app w log ev : buf_est w log -> buf_est w (log ++ ev).
  Proof. intros H f c Hf Hm Hc. destruct (mod_app _ _ _ Hm) as (M & M1 & M2). eapply in_est_mono; [exact M1|exact M2|]. by apply H. Qed.
  Lemma file_est_keeps s s' log : keeps OM s s' -> file_est s log -> file_est s' log.
  Proof. intros K H f c Hf Hm Hc. apply (H f c Hf Hm). rewrite <- Hc. symmetry. apply K. by apply owner_m. Qed.
  Lemma kept_keeps s s' w ths log : keeps OM s s' -> kept_m s w ths log -> kept_m s' w ths log.
  Proof. intros K (l1 & l2 & E & Hn & H). exists l1, l2. split; [done|]. split; [done|]. intros d x Hx Hc. rewrite (K [f_name x; "metrics"]); [by apply (H d)|]. by apply owner_m. Qed.
  Lemma kept_ev s w ths log ev : calls_of ev = [] -> EOpened ∉ ev -> kept_m s w ths log -> kept_m s w ths (log ++ ev).
  Proof.
    intros E1 E2 (l1 & l2 & -> & Hn & H). exists l1, (l2 ++ ev). split; [by rewrite <- app_assoc|]. split; [rewrite elem_of_app; tauto|]. intros d x. rewrite calls_app, E1, app_nil_r. apply H.
  Qed.
  (** The metrics writer. *)
  Lemma mw_run w s w' s' log ths : layout s -> w_wf m_dir m_name nd w s -> m_valid compress s -> file_est s log -> w_flight compress m_ser w -> buf_est w log -> kept_m s w ths log ->
    w_step compress m_dir m_name m_ser (w, s) (w', s') -> m_valid compress s' /\ file_est s' log /\ w_flight compress m_ser w' /\ buf_est w' log /\ kept_m s' w' ths log.
  Proof.
    intros Hl Hw Hv Hf H1 H2 H3 Hs.
    assert (forall f, nd f -> _) as HC by (intros f Hn; exact (w_cases compress m_dir m_name m_ser OM nd nd m_dir_ok m_own m_sep _ _ _ _ f Hl Hw Hs Hn)).
    change (forall f, nd f -> (mfile s' f = mfile s f /\ w_buf w' !! f = w_buf w !! f) \/
      (exists ks b pc, w_pc w = WSave f ks b pc /\ is_Some (w_buf w !! f) /\ w_buf w' !! f = w_buf w !! f /\ (mfile s' f = None \/ mfile s' f = Some (Whole b))) \/
      (exists ks b, w_pc w = WSave f ks b SSOk /\ w_pc w' = WLoop ks /\ s' = s /\ mfile s f = Some (Whole b) /\ is_Some (w_buf w !! f) /\ w_buf w' !! f = None)) in HC.
    split; [|split; [|split; [|split]]].
    - intros f c Hn Hc. destruct (HC f Hn) as [(E1 & _)|[(ks & b & pc & E1 & _ & _ & E2)|(ks & b & E1 & _ & -> & E2 & _)]].
      + rewrite E1 in Hc. by apply (Hv f).
      + destruct E2 as [E2|E2]; rewrite E2 in Hc; [done|]. injection Hc as <-. unfold w_flight in H1. rewrite E1 in H1. destruct H1 as (v & T & _ & G1 & ->). exists v, T. done.
      + by apply (Hv f).
    - intros f c Hn Hm Hc. destruct (HC f Hn) as [(E1 & _)|[(ks & b & pc & E1 & _ & _ & E2)|(ks & b & E1 & _ & -> & E2 & _)]].
      + rewrite E1 in Hc. by apply (Hf f).
      + destruct E2 as [E2|E2]; rewrite E2 in Hc; [done|]. injection Hc as <-. unfold w_flight in H1. rewrite E1 in H1. destruct H1 as (v & T & G0 & G1 & ->). exists v. split; [by exists T|]. by apply (H2 f).
      + by apply (Hf f).
    - by eapply w_flight_step.
    - intros f v Hn Hm Hc. destruct (HC f Hn) as [(_ & E1)|[(ks & b & pc & _ & _ & E1 & _)|(ks & b & _ & _ & _ & _ & _ & E1)]]; rewrite E1 in Hc; [by apply (H2 f)..|done].
    - destruct H3 as (l1 & l2 & E & Hn & H). exists l1, l2. split; [done|]. split; [done|]. intros d x Hx Hc. specialize (H d x Hx Hc).
      destruct (HC _ Hx) as [(E1 & E2)|[(ks & b & pc & _ & E1 & E2 & _)|(ks & b & _ & _ & -> & E1 & _)]]; [by rewrite E1, E2|left; by rewrite E2|right; left; by eexists].
  Qed.
  Lemma bg_metrics u s ev u' s' log sh ths : layout s -> up_wf u s -> u_pc u = CIdle -> u_pc u' = CIdle -> m_valid compress s -> file_est s log -> e_up s u sh ths log -> up_step compress decompress (u, s) ev (u', s') ->
    m_valid compress s' /\ file_est s' log /\ e_up s' u' sh ths log.
  Proof.
    intros Bl Bp E1 E2 Hv Hf [U1 U2 U3 U4] HS.
    assert (keeps OM s s' -> u_mw u' = u_mw u -> m_valid compress s' /\ file_est s' log /\ e_up s' u' sh ths log) as K.
    { intros K E. split; [by eapply m_valid_keeps|]. split; [by eapply file_est_keeps|]. constructor; rewrite ?E; try done. by eapply kept_keeps. }
    destruct (up_step_who _ _ _ _ _ _ _ Bl Bp HS) as [[-> Hq]|[Hq|[Hq|[Hq|[Hq|Hq]]]]].
    - apply K; [done|]. inversion Hq; subst; cbn [u_mw u_pc] in *; try done.
    - destruct Hq as (Hs & Hu & _). destruct (mw_run _ _ _ _ log ths Bl (wf_mw _ _ Bp) Hv Hf U1 U2 U4 Hs) as (R1 & R2 & R3 & R4 & R5). split; [done|]. split; [done|]. by constructor.
    - destruct Hq as (_ & E & K1 & _). apply K; [done|]. by rewrite E.
    - destruct Hq as (_ & E & K1 & _). apply K; [done|]. by rewrite E.
    - destruct Hq as (_ & E & K1 & _). apply K; [done|]. by rewrite E.
    - destruct Hq as (_ & E & K1 & _). apply K; [done|]. by rewrite E.
  Qed.
  Lemma e_ev s u sh ths log ev : calls_of ev = [] -> EOpened ∉ ev -> e_up s u sh ths log -> e_up s u sh ths (log ++ ev).
  Proof.
    intros E1 E2 [U1 U2 U3 U4]. constructor; [done|by apply buf_est_app| |by apply kept_ev]. intros f Hf Hm. destruct (mod_ev f log ev E1) as (-> & -> & M). apply U3; [done|]. by apply M.
  Qed.
  Lemma unsent_insert f (ths : list thread) i th th' : ths !! i = Some th -> (exists th, th ∈ ths /\ unsent f th) -> (exists th, th ∈ <[i := th']> ths /\ unsent f th) \/ unsent f th.
  Proof. intros Hi (th0 & H & Hu). destruct (insert_other _ _ _ th' _ Hi H) as [->|H']; [by right|]. left. by exists th0. Qed.
  Lemma e_client s u sh ths log i th cs ev sh' u' th' : ths !! i = Some (th, cs) -> client_step (sh, u, th) ev (sh', u', th') -> e_up s u sh ths log ->
    e_up s u' sh' (<[i := (th', cs)]> ths) (log ++ ev).
  Proof.
    intros Hi H [U1 U2 U3 U4]. assert (calls_of ev = [] /\ EOpened ∉ ev) as [V1 V2].
    { inversion H; subst; (split; [done|]); try apply not_elem_of_nil. intros X. by apply elem_of_list_singleton in X. }
    apply e_ev; [done|done|]. destruct th as [pc m], th' as [pc' m'].
    assert (forall f, is_Some (w_buf (u_mw u) !! f) -> is_Some (w_buf (u_mw u') !! f)) as B.
    { intros f Hb. destruct (client_mw _ _ _ _ _ _ _ H) as [->|(q & x & len & size & mb & _ & E1 & ->)]; [done|]. rewrite E1 in Hb. cbn in *. unfold m_recv. destruct (decide (f_name x = f)) as [<-|E]; [rewrite lookup_insert; by eexists|by rewrite lookup_insert_ne]. }
    constructor.
    - destruct (client_mw _ _ _ _ _ _ _ H) as [->|(q & x & len & size & mb & _ & E1 & ->)]; done.
    - intros f v Hf Hm Hv. destruct (client_mw _ _ _ _ _ _ _ H) as [E|(q & x & len & size & mb & E0 & E1 & E)]; rewrite E in Hv; [by apply (U2 f)|]. cbn in Hv. unfold m_recv in Hv.
      apply lookup_insert_Some in Hv as [[E2 <-]|[_ Hv]]; [|apply (U2 f); [done|done|by rewrite E1]].
      injection E0 as -> ->. destruct (U3 f Hf Hm) as [_ _ T]. destruct (T _ (elem_of_list_lookup_2 _ _ _ Hi)) as (_ & _ & T'). exact (T' E2).
    - intros f Hf Hm. pose proof Hm as (_ & M1 & M2). eapply tm_client; [exact M1|exact M2|exact Hi|exact H|by apply U3].
    - destruct U4 as (l1 & l2 & E & Hn & K). exists l1, l2. split; [done|]. split; [done|]. intros d x Hx Hc. destruct (K d x Hx Hc) as [?|[?|Hu]]; [left; by apply B|right; by left|].
      destruct (unsent_insert _ _ _ _ (pc', m', cs) Hi Hu) as [?|Hu']; [right; by right|]. destruct (unsent_client _ _ _ _ _ _ _ _ _ _ _ H Hu') as [?|?]; [|by left].
      right. right. eexists. split; [by eapply insert_self|done].
  Qed.
  Lemma e_call s u sh ths log i c cs : ths !! i = Some (TIdle, NoMsg, c :: cs) -> e_up s u sh ths log -> e_up s u sh (<[i := (t_enter true c, NoMsg, cs)]> ths) (log ++ [ECall c]).
  Proof.
    intros Hi [U1 U2 U3 U4]. constructor; [done|by apply buf_est_app| |].
    - intros f Hf Hm. destruct (mod_app _ _ _ Hm) as (M & M1 & M2). pose proof (U3 f Hf M) as T. pose proof T as [T1 T2 T3].
      assert (ps f (t_enter true c, NoMsg, cs) = times_saved f (log ++ [ECall c]) - times_saved f log /\ pl f (t_enter true c, NoMsg, cs) = length_saved f (log ++ [ECall c]) - length_saved f log /\ 0 <= pl f (t_enter true c, NoMsg, cs)) as (N1 & N2 & N3).
      { assert (forall c', c' ∈ counted_calls true f [c] -> 0 <= f_length (call_field' c')) as P. { intros c' Hc. apply (proj1 Hm). rewrite calls_app, counted_app. apply elem_of_app. right. exact Hc. }
        unfold times_saved, length_saved. rewrite calls_app, counted_app, map_app, zsum_app, app_length. change (calls_of [ECall c]) with [c].
        destruct c as [d x|d x]; unfold ps, pl; cbn [t_enter fst]; unfold counted_calls in *; cbn [List.filter counted negb andb] in *.
        - destruct (decide (f_name x = f)) as [E|E]; [rewrite bool_decide_true in * by done|rewrite bool_decide_false in * by done]; cbn; [|lia]. specialize (P (Save d x) ltac:(by left)). cbn in P. lia.
        - cbn. lia. }
      assert (forall g, g (TIdle, NoMsg, c :: cs) = 0 -> tsum g (<[i := (t_enter true c, NoMsg, cs)]> ths) = tsum g ths + g (t_enter true c, NoMsg, cs)) as TS by (intros g E; rewrite (tsum_insert _ _ _ _ _ Hi); lia).
      constructor; rewrite ?(TS (ps f) eq_refl), ?(TS (pl f) eq_refl), ?N1, ?N2.
      + lia.
      + lia.
      + intros th Hth. apply elem_of_insert in Hth as [->|Hth].
        * split; [done|]. split; [|done]. by destruct c.
        * destruct (T3 th Hth) as (K1 & K2 & K3). split; [done|]. split; [eapply pc_est_mono; [..|exact K2]; [lia|lia|done]|eapply msg_est_mono; [..|exact K3]; [lia|lia|done]].
    - destruct U4 as (l1 & l2 & -> & Hn & K). exists l1, (l2 ++ [ECall c]). split; [by rewrite <- app_assoc|]. split; [rewrite elem_of_app, elem_of_list_singleton; intros [?|?]; done|].
      intros d x Hx Hc. rewrite calls_app in Hc. apply elem_of_app in Hc as [Hc|Hc].
      + destruct (K d x Hx Hc) as [?|[?|Hu]]; [by left|right; by left|]. destruct (unsent_insert _ _ _ _ (t_enter true c, NoMsg, cs) Hi Hu) as [?|Hu']; [right; by right|]. done.
      + apply elem_of_list_singleton in Hc. subst c. right. right. eexists. split; [by eapply insert_self|]. done.
  Qed.
  Lemma e_step a b : step a b -> good_log (mu_log b) -> m_inv decompress a -> e_inv a -> e_inv b.
  Proof.
    intros [H|(y' & H & ->)] Hg [Hb Hi] (Hv & Hf & Hu).
    2:{ inversion H as [s p log Hp E]; subst y'. unfold e_inv. rewrite <- E in *. cbn in *. split; [done|]. split; [by apply file_est_app|done]. }
    inversion H; subst; unfold e_inv, mu_log in *; cbn [mu_sys mu_sh mu_threads y_proc y_fs y_log] in *.
    - match goal with K : live_step _ _ _ _ _, K2 : forall u, _ <> Up u |- _ => rename K into St; rename K2 into Nu end. destruct Hb as [Bl Bp].
      assert (m_valid compress (y_fs y') /\ file_est (y_fs y') (y_log y')) as [F1 F2]; [|split; [done|]; split; [done|]; destruct (y_proc y') as [| |u] eqn:E; [done|done|by destruct (Nu u)]].
      assert (forall s' ev, keeps OM (y_fs y) s' -> m_valid compress s' /\ file_est s' (y_log y ++ ev)) as K.
      { intros s' ev K. split; [by eapply m_valid_keeps|]. apply file_est_app. by eapply file_est_keeps. }
      inversion St; subst; cbn [y_fs y_proc y_log] in *.
      + rewrite <- (app_nil_r log). apply K. match goal with G : mkdir_all _ _ = _ |- _ => destruct (mkdir_effect _ [] _ Bl eq_refl (Nat.le_0_l 2) G) as (_ & E & _) end. intros p _. by rewrite E.
      + destruct Bp as [_ Bp]. rewrite <- (app_nil_r log). apply K. match goal with G : g_step _ _ _ _ |- _ => destruct (g_step_base _ _ _ _ _ _ Bl Bp G) as (_ & _ & _ & E) end. intros p Hp. apply E; by rewrite Hp.
      + by apply K.
      + by destruct (Nu u').
      + by destruct (Nu u').
      + by destruct (Nu u').
    - match goal with K : live_step _ _ _ _ _ |- _ => rename K into St end. match goal with K : y_proc y' = Up _ |- _ => rename K into Eu end. match goal with K : loaded _ _ |- _ => rename K into Ld end. rewrite Eu.
      inversion St; subst; cbn [y_fs y_proc y_log] in *; try congruence. injection Eu as ->. split; [done|]. split; [by apply file_est_app|]. destruct Hb as [Bl Bp]. cbn [y_fs] in Bl.
      match goal with G : opened _ _ _ _ _ |- _ => inversion G; subst end. destruct Ld as [Lv _]. constructor; cbn [u_mw].
      + done.
      + intros f v _ _ Hv'. cbn in Hv'. by rewrite lookup_empty in Hv'.
      + intros f Hn Hm. destruct (mod_app _ _ _ Hm) as (M & M1 & M2).
        match goal with G1 : lists_dirs _ _ ?n1, G2 : load_metrics _ _ ?n1 = _ |- _ => destruct (load_metrics_spec compress decompress gz s n1 _ _ Bl Hv G1 G2 f Hn) as [_ G0] end.
        assert (k_size sh' = size /\ k_length sh' = len) as [Ez El]. { unfold view in Lv. injection Lv as _ _ X1 X2 _. done. }
        assert (0 <= geti size f <= times_saved f log /\ 0 <= geti len f <= length_saved f log) as (X1 & X2).
        { unfold m_disk in G0. destruct (mfile s f) as [c|] eqn:Ec.
          - destruct (Hf f c Hn M Ec) as (v & V1 & V2 & V3). specialize (G0 v V1). injection G0 as -> ->. pose proof M as (_ & W1 & W2). rewrite !wrap32_id by (unfold int32_range; lia). lia.
          - specialize (G0 (0, 0) eq_refl). injection G0 as -> ->. change (wrap32 0) with 0. assert (0 <= length_saved f log); [|unfold times_saved; lia].
            apply zsum_pos. intros z Hz. apply elem_of_list_fmap in Hz as (c & -> & Hc). by apply M. }
        constructor; rewrite ?Ez, ?El; cbn; [lia|lia|]. intros th Hth. by apply elem_of_nil in Hth.
      + exists log, []. split; [done|]. split; [apply not_elem_of_nil|]. intros d x _ Hc. by apply elem_of_nil in Hc.
    - match goal with K : live_step _ _ _ _ _ |- _ => rename K into St end.
      match goal with K : y_proc y = _, K2 : y_proc y' = _, K3 : u_pc _ = CIdle |- _ => rewrite K in Hi, Hu; rewrite K2; rename K into Eu, K2 into Eu', K3 into Ep end.
      destruct Hi as (G & L & ol & oa & I). pose proof (mi_pc _ _ _ _ _ _ _ _ _ _ I) as Ip. destruct Hb as [Bl Bp]. rewrite Eu in Bp. destruct Bp as [Br Bw].
      inversion St; subst; cbn [y_fs y_proc y_log] in *; try congruence; injection Eu as ->; injection Eu' as ->.
      + match goal with K : up_step _ _ _ _ _ |- _ => rename K into US end. destruct (bg_metrics _ _ _ _ _ _ _ _ Bl Bw Ip Ep Hv Hf Hu US) as (F1 & F2 & F3).
        split; [done|]. split; [by apply file_est_app|]. destruct (up_ev compress decompress _ _ _ _ _ US) as [V1 V2]. by apply e_ev.
      + match goal with K : up_tick _ _ |- _ => rename K into UT end. destruct (up_tick_wf _ _ _ _ Bw UT) as [-> _]. split; [done|]. split; [done|]. destruct Hu as [U1 U2 U3 U4].
        inversion UT; subst; try (by constructor). match goal with K : w_tick _ _ |- _ => inversion K; subst end. by constructor.
      + match goal with K : up_call _ _ _ |- _ => inversion K; subst; done end.
    - split; [done|]. split; [done|]. destruct Hu as [U1 U2 U3 U4]. constructor; try done.
      + intros f Hf' Hm. destruct (U3 f Hf' Hm) as [T1 T2 T3]. constructor; rewrite ?tsum_app; change (tsum (ps f) [(TIdle, NoMsg, cs)]) with 0; change (tsum (pl f) [(TIdle, NoMsg, cs)]) with 0; rewrite ?Z.add_0_r; try done.
        intros th Hth. apply elem_of_app in Hth as [Hth|Hth]; [by apply T3|]. apply elem_of_list_singleton in Hth. by subst th.
      + destruct U4 as (l1 & l2 & E & Hn & K). exists l1, l2. split; [done|]. split; [done|]. intros d x Hx Hc. destruct (K d x Hx Hc) as [?|[?|(th & T & T')]]; [by left|right; by left|]. right. right. exists th. split; [|done]. apply elem_of_app. by left.
    - split; [done|]. split; [by apply file_est_app|]. by apply e_call.
    - split; [done|]. split; [by apply file_est_app|]. by eapply e_client.
    - done.
    - split; [done|]. split; [done|]. destruct Hu as [U1 U2 U3 U4]. by constructor.
  Qed.
  Lemma e_reach a : multi_reachable compress decompress cache_size a -> good_log (mu_log a) -> m_inv decompress a /\ e_inv a.
  Proof.
    unfold multi_reachable. revert a. apply (rtc_ind_r (fun a => good_log (mu_log a) -> m_inv decompress a /\ e_inv a) multi_init).
    - intros Hg. split; [apply (m_reach compress decompress cache_size gz); [apply rtc_refl|done]|]. split; [|split; [|done]].
      + intros f c _ Hc. cbn in Hc. by rewrite lookup_empty in Hc.
      + intros f c _ _ Hc. cbn in Hc. by rewrite lookup_empty in Hc.
    - intros a b _ Hab IH Hg. destruct (IH (m_good_mono _ _ _ _ _ Hab Hg)) as [M D]. split; [by eapply m_step|by eapply e_step].
  Qed.
End metrics.
