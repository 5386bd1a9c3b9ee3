(** The disk storage: the basic invariant of the whole system. *)
From Verif Require Import Base M_Field M_LRU S_Visits M_Memory M_File M_Serialize M_Disk P_Base P_File S_Disk P_DiskBase.
#[local] Open Scope Z_scope.

Lemma m_dir_ok k : nd k -> owner (m_dir k) = None /\ (length (m_dir k) <= 2)%nat.
Proof. intros _. cbn. auto. Qed.
Lemma m_own k : nd k -> owner (cur_path (m_dir k) (m_name k)) = Some OM /\ owner (temp_path (m_dir k) (m_name k)) = Some OM /\ owner (old_path (m_dir k) (m_name k)) = Some OM.
Proof. exact (owner_m k). Qed.
Lemma n_dir_ok k : nd k -> owner (n_dir k) = None /\ (length (n_dir k) <= 2)%nat.
Proof. intros _. cbn. auto. Qed.
Lemma n_own k : nd k -> owner (cur_path (n_dir k) (n_name k)) = Some ON /\ owner (temp_path (n_dir k) (n_name k)) = Some ON /\ owner (old_path (n_dir k) (n_name k)) = Some ON.
Proof. exact (owner_n k). Qed.
Definition anyk (k : string) : Prop := True.
Lemma d_dir_ok k : anyk k -> owner (d_dir k) = None /\ (length (d_dir k) <= 2)%nat.
Proof. intros _. cbn. auto. Qed.
Lemma d_own k : anyk k -> owner (cur_path (d_dir k) (d_name k)) = Some OD /\ owner (temp_path (d_dir k) (d_name k)) = Some OD /\ owner (old_path (d_dir k) (d_name k)) = Some OD.
Proof. intros _. done. Qed.
Notation mw_wf := (w_wf m_dir m_name nd).
Notation nw_wf := (w_wf n_dir n_name nd).
Notation dw_wf := (w_wf d_dir d_name anyk).

(** The field the client is working on. *)
Definition pc_field (pc : cpc) : option string :=
  match pc with
  | CSave _ x | CFieldSend _ x | CIndex _ _ x | CIndexLoop _ _ x _ | CIndexSend _ _ x _ _ | CNft _ x
  | CNftLoop _ x _ _ | CNftSend _ x _ _ _ | CDoc _ x | CDocSend _ x _ => Some (f_name x)
  | _ => None
  end.
Definition pc_nd (pc : cpc) : Prop := match pc_field pc with Some f => nd f | None => True end.
Record up_wf (u : up) (s : fs) : Prop := {
  wf_pc : pc_nd (u_pc u);
  wf_ich : Forall (fun p => nd (po_field p)) (u_ich u);
  wf_mw : mw_wf (u_mw u) s;
  wf_nw : nw_wf (u_nw u) s;
  wf_dw : dw_wf (u_dw u) s;
  wf_iw : i_wf (u_iw u) s;
  wf_mg : g_wf (u_mg u) s }.
Definition base (y : sys) : Prop :=
  layout (y_fs y) /\ match y_proc y with Down => True | Loading g => [] ∈ fs_dirs (y_fs y) /\ g_wf g (y_fs y) | Up u => [] ∈ fs_dirs (y_fs y) /\ up_wf u (y_fs y) end.

Lemma calls_app l1 l2 : calls_of (l1 ++ l2) = calls_of l1 ++ calls_of l2.
Proof. unfold calls_of. apply omap_app. Qed.
Lemma good_app l1 l2 : good_log (l1 ++ l2) <-> good_log l1 /\ good_log l2.
Proof.
  unfold good_log. rewrite calls_app. split.
  - intros H. split; intros c Hc; apply H, elem_of_app; auto.
  - intros [H1 H2] c Hc. apply elem_of_app in Hc as [?|?]; auto.
Qed.

Section inv.
  Variables (compress : bytes -> bytes) (decompress : bytes -> option bytes) (cache_size : Z).
  Notation live := (live_step compress decompress cache_size).
  Notation step := (sys_step compress decompress cache_size).
  Notation reach := (reachable compress decompress cache_size).

  Lemma log_mono a b : step a b -> exists ev, y_log b = y_log a ++ ev.
  Proof.
    intros [H|H]; inversion H; subst; cbn; try (by eexists); exists []; by rewrite app_nil_r.
  Qed.
  Lemma good_mono a b : step a b -> good_log (y_log b) -> good_log (y_log a).
  Proof. intros H Hg. destruct (log_mono a b H) as [ev E]. rewrite E in Hg. by apply good_app in Hg as [? _]. Qed.

  Lemma c_step_field s m pc m' pc' : c_step decompress s (m, pc) (m', pc') -> pc_nd pc -> pc_nd pc'.
  Proof. intros H Hp. inversion H; subst; cbn in *; try done. by destruct full. Qed.
  Lemma c_doc_field m pc l m' pc' : c_doc (m, pc) l (m', pc') -> pc_nd pc -> pc_nd pc'.
  Proof. intros H Hp. inversion H; subst; done. Qed.

  Lemma ins_nd {A} (P : string -> Prop) (m : gmap string A) k v : (forall k', is_Some (m !! k') -> P k') -> P k ->
    forall k', is_Some (<[k := v]> m !! k') -> P k'.
  Proof. intros H Hk k' Hs. destruct (decide (k = k')) as [<-|Hne]; [done|]. rewrite lookup_insert_ne in Hs by done. auto. Qed.

  (** What one step of the running process does to the file system: a step either
      leaves it alone or is a step of one component. *)
  Lemma up_step_wf u s ev u' s' : layout s -> [] ∈ fs_dirs s -> up_wf u s -> up_step compress decompress (u, s) ev (u', s') ->
    layout s' /\ [] ∈ fs_dirs s' /\ up_wf u' s'.
  Proof.
    intros Hl Hr Hw H. destruct Hw as [W1 W2 W3 W4 W5 W6 W7].
    inversion H; subst; cbn [u_pc u_ich u_mw u_nw u_dw u_iw u_mg] in *.
    - split; [done|]. split; [done|]. constructor; cbn; try done. by eapply c_step_field.
    - split; [done|]. split; [done|]. constructor; cbn; try done. by eapply c_doc_field.
    - split; [done|]. split; [done|]. constructor; cbn; try done. destruct W3 as [W3 _]. split; [|done]. cbn. by apply ins_nd.
    - split; [done|]. split; [done|]. constructor; cbn; try done. apply Forall_app. split; [done|]. by constructor.
    - split; [done|]. split; [done|]. apply Forall_cons in W2 as [W2 W2']. constructor; cbn; try done.
      destruct W6 as [W6 _]. split; [|done]. cbn. by apply ins_nd.
    - split; [done|]. split; [done|]. constructor; cbn; try done. destruct W4 as [W4 _]. split; [|done]. cbn. unfold n_recv.
      destruct (nb !! f_name x); by apply ins_nd.
    - split; [done|]. split; [done|]. constructor; cbn; try done. 
    - match goal with H : w_step _ _ _ _ _ _ |- _ => destruct (w_step_base _ _ _ _ OM nd m_dir_ok m_own _ _ _ _ Hl W3 H) as (E1 & E2 & E3 & E4) end.
      split; [done|]. split; [auto|]. constructor; cbn; try done.
      + eapply w_wf_frame; [exact n_own|done|done|]. intros p Hp. apply E4. congruence.
      + eapply w_wf_frame; [exact d_own|done|done|]. intros p Hp. apply E4. congruence.
      + by eapply i_wf_frame.
      + eapply g_wf_frame; [done|done|]. intros p Hp. apply E4. congruence.
    - match goal with H : w_step _ _ _ _ _ _ |- _ => destruct (w_step_base _ _ _ _ ON nd n_dir_ok n_own _ _ _ _ Hl W4 H) as (E1 & E2 & E3 & E4) end.
      split; [done|]. split; [auto|]. constructor; cbn; try done.
      + eapply w_wf_frame; [exact m_own|done|done|]. intros p Hp. apply E4. congruence.
      + eapply w_wf_frame; [exact d_own|done|done|]. intros p Hp. apply E4. congruence.
      + by eapply i_wf_frame.
      + eapply g_wf_frame; [done|done|]. intros p Hp. apply E4. congruence.
    - match goal with H : w_step _ _ _ _ _ _ |- _ => destruct (w_step_base _ _ _ _ OD anyk d_dir_ok d_own _ _ _ _ Hl W5 H) as (E1 & E2 & E3 & E4) end.
      split; [done|]. split; [auto|]. constructor; cbn; try done.
      + eapply w_wf_frame; [exact m_own|done|done|]. intros p Hp. apply E4. congruence.
      + eapply w_wf_frame; [exact n_own|done|done|]. intros p Hp. apply E4. congruence.
      + by eapply i_wf_frame.
      + eapply g_wf_frame; [done|done|]. intros p Hp. apply E4. congruence.
    - match goal with H : i_step _ _ _ |- _ => destruct (i_step_base _ _ _ _ _ Hl W6 H) as (E1 & E2 & E3 & E4) end.
      split; [done|]. split; [auto|]. constructor; cbn; try done.
      + eapply w_wf_frame; [exact m_own|done|done|]. intros p Hp. apply E4. congruence.
      + eapply w_wf_frame; [exact n_own|done|done|]. intros p Hp. apply E4. congruence.
      + eapply w_wf_frame; [exact d_own|done|done|]. intros p Hp. apply E4. congruence.
      + eapply g_wf_frame; [done|done|]. intros p Hp. apply E4. congruence.
    - match goal with H : g_step _ _ _ _ |- _ => destruct (g_step_base _ _ _ _ _ _ Hl W7 H) as (E1 & E2 & E3 & E4) end.
      split; [done|]. split; [auto|]. constructor; cbn; try done.
      + eapply w_wf_frame; [exact m_own|done|done|]. intros p Hp. apply E4; congruence.
      + eapply w_wf_frame; [exact n_own|done|done|]. intros p Hp. apply E4; congruence.
      + eapply w_wf_frame; [exact d_own|done|done|]. intros p Hp. apply E4; congruence.
      + by eapply i_wf_frame.
    - split; [done|]. split; [done|]. constructor; cbn; done.
  Qed.
  Lemma up_tick_wf u s u' s' : up_wf u s -> up_tick (u, s) (u', s') -> s' = s /\ up_wf u' s.
  Proof.
    intros [W1 W2 W3 W4 W5 W6 W7] H. inversion H; subst; cbn [u_pc u_ich u_mw u_nw u_dw u_iw u_mg] in *; (split; [done|]); constructor; cbn; try done.
    - by eapply w_tick_wf.
    - by eapply w_tick_wf.
    - by eapply w_tick_wf.
    - by eapply i_tick_wf.
    - by apply g_start_wf.
  Qed.

  Lemma base_step a b : base a -> step a b -> good_log (y_log b) -> base b.
  Proof.
    intros [Hl Hp] [H|H] Hg; inversion H; subst; cbn [y_fs y_proc y_log] in *.
    - match goal with H : mkdir_all _ _ = _ |- _ => destruct (mkdir_effect _ [] _ Hl eq_refl (Nat.le_0_l 2) H) as (E1 & E2 & E3 & E4 & _) end.
      split; [done|]. cbn. split; [done|]. by apply g_start_wf.
    - destruct Hp as [Hr Hp]. match goal with H : g_step _ _ _ _ |- _ => destruct (g_step_base _ _ _ _ _ _ Hl Hp H) as (E1 & E2 & E3 & E4) end.
      split; [done|]. cbn. auto.
    - split; [done|]. cbn. destruct Hp as [Hr Hp]. split; [done|].
      match goal with H : opened _ _ _ _ _ |- _ => inversion H; subst end.
      assert (forall {A} (P : string -> Prop) k, is_Some ((∅ : gmap string A) !! k) -> P k) as He.
      { intros A P k [? Hk]. by rewrite lookup_empty in Hk. }
      constructor; cbn; try done; (split; cbn; [intros k; apply He|done]).
    - destruct Hp as [Hr Hp]. match goal with H : up_step _ _ _ _ _ |- _ => destruct (up_step_wf _ _ _ _ _ Hl Hr Hp H) as (? & ? & ?) end.
      split; [done|]. cbn. done.
    - destruct Hp as [Hr Hp]. match goal with H : up_tick _ _ |- _ => destruct (up_tick_wf _ _ _ _ Hp H) as (-> & ?) end.
      split; [done|]. cbn. done.
    - destruct Hp as [Hr Hp]. split; [done|]. cbn. split; [done|]. apply good_app in Hg as [_ Hg].
      match goal with H : up_call _ _ _ |- _ => inversion H; subst; destruct Hp as [W1 W2 W3 W4 W5 W6 W7]; constructor; cbn in *; try done end.
      + apply (Hg (Save d x)). left.
      + apply (Hg (Index d x)). left.
    - split; [done|]. done.
  Qed.
  Lemma base_init : base sys_init.
  Proof.
    split; [|done]. constructor; cbn.
    - intros p [? H]. by rewrite lookup_empty in H.
    - intros p H. set_solver.
    - intros p H. set_solver.
  Qed.

  (** Induction over reachable states with good logs; the basic invariant is available. *)
  Lemma reach_ind (P : sys -> Prop) : P sys_init ->
    (forall a b, reach a -> base a -> base b -> good_log (y_log b) -> P a -> step a b -> P b) ->
    forall y, reach y -> good_log (y_log y) -> base y /\ P y.
  Proof.
    intros H0 Hs y Hr. unfold reachable in Hr. revert y Hr.
    apply (rtc_ind_r (fun y => good_log (y_log y) -> base y /\ P y) sys_init).
    - intros _. split; [exact base_init|done].
    - intros a b Ha Hab IH Hg. destruct (IH (good_mono _ _ Hab Hg)) as [B1 P1].
      pose proof (base_step _ _ B1 Hab Hg) as B2. split; [done|]. by apply (Hs a b).
  Qed.
  Lemma reach_base y : reach y -> good_log (y_log y) -> base y.
  Proof. intros. by apply (reach_ind (fun _ => True)). Qed.
End inv.
