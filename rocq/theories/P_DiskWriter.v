(** The disk storage: what a whole-file writer does to the files of its keys. *)
From Verif Require Import Base M_Field M_LRU S_Visits M_Memory M_File M_Serialize M_Disk P_Base P_File S_Disk P_DiskBase P_DiskInv.
#[local] Open Scope Z_scope.

Section writer.
  Context {V : Type} (compress : bytes -> bytes).
  Variables (dirof : string -> path) (nameof : string -> string) (ser : string -> V -> bytes -> Prop) (C : comp) (P Q : string -> Prop).
  Hypothesis Hdir : forall k, P k -> owner (dirof k) = None /\ (length (dirof k) <= 2)%nat.
  Hypothesis Hown : forall k, P k -> owner (cur_path (dirof k) (nameof k)) = Some C /\
     owner (temp_path (dirof k) (nameof k)) = Some C /\ owner (old_path (dirof k) (nameof k)) = Some C.
  Notation cur k := (cur_path (dirof k) (nameof k)).
  Notation tmp k := (temp_path (dirof k) (nameof k)).
  Notation old k := (old_path (dirof k) (nameof k)).
  (** [Q]: keys whose file is not confused with the temporary files of others. *)
  Hypothesis Hsep : forall k k', P k -> Q k' -> cur k' <> tmp k /\ cur k' <> old k /\ (cur k' = cur k -> k' = k).

  Lemma w_cases w s w' s' k' : layout s -> w_wf dirof nameof P w s -> w_step compress dirof nameof ser (w, s) (w', s') -> Q k' ->
    (fs_files s' !! cur k' = fs_files s !! cur k' /\ w_buf w' !! k' = w_buf w !! k') \/
    (exists ks b pc, w_pc w = WSave k' ks b pc /\ is_Some (w_buf w !! k') /\ w_buf w' !! k' = w_buf w !! k' /\
       (fs_files s' !! cur k' = None \/ fs_files s' !! cur k' = Some (Whole b))) \/
    (exists ks b, w_pc w = WSave k' ks b SSOk /\ w_pc w' = WLoop ks /\ s' = s /\ fs_files s !! cur k' = Some (Whole b) /\
       is_Some (w_buf w !! k') /\ w_buf w' !! k' = None).
  Proof.
    intros Hl [Hb Hp] H Hq. inversion H; subst; cbn [w_buf w_pc] in *.
    - by left.
    - destruct Hp as [Hn Hk]. assert (P k) as Pk by (apply Hb, Hk; left).
      destruct (Hdir k Pk) as [D1 D2].
      match goal with G : mkdir_all _ _ = _ |- _ => destruct (mkdir_effect _ _ _ Hl D1 D2 G) as (_ & E2 & _) end.
      left. by rewrite E2.
    - by left.
    - by left.
    - destruct Hp as (Hk & Hd & Hok). assert (P k) as Pk by (apply Hb, Hk; left).
      match goal with G : ss_step _ _ _ _ = _ |- _ => destruct (ss_one _ _ _ _ _ _ _ (names_free_w dirof nameof C P Hown k s Hl Pk Hd) Hok G) as (E1 & E2 & E3) end.
      destruct (Hsep k k' Pk Hq) as (S1 & S2 & S3). destruct (decide (k' = k)) as [->|Hne].
      + pose proof (cur_tmp (dirof k) (nameof k)) as N1. pose proof (cur_old (dirof k) (nameof k)) as N2.
        assert (is_Some (buf !! k)) as Hbk by (apply Hk; left).
        unfold ss_eff in E2. destruct pc.
        * left. destruct E2 as [_ ->]. by rewrite lookup_insert_ne.
        * left. destruct E2 as [_ ->]. by rewrite lookup_insert_ne.
        * left. destruct E2 as [-> _]. done.
        * right. left. exists ks, b, SSRenameOld. split; [done|]. split; [done|]. split; [done|]. left.
          destruct E2 as (_ & c & _ & ->). rewrite lookup_insert_ne by done. by rewrite lookup_delete.
        * right. left. exists ks, b, SSRenameCur. split; [done|]. split; [done|]. split; [done|]. right.
          destruct E2 as [_ ->]. by rewrite lookup_insert.
        * left. destruct E2 as [-> _]. done.
        * left. destruct E2 as [_ ->]. by rewrite lookup_delete_ne.
        * done.
        * done.
      + left. split; [|done]. apply (ss_eff_frame _ _ _ _ _ _ _ _ E2); [|done|done]. intros E. by apply S3 in E.
    - destruct (decide (k' = k)) as [->|Hne].
      + right. right. exists ks, b. destruct Hp as (Hk & Hd & Hok). cbn in Hok. destruct Hok as (Hok & _).
        split; [done|]. split; [done|]. split; [done|]. split; [done|]. split; [apply Hk; left|]. by rewrite lookup_delete.
      + left. split; [done|]. by rewrite lookup_delete_ne.
  Qed.

  (** The bytes in flight are those of the value in the buffer. *)
  Definition w_flight (w : writer V) : Prop :=
    match w_pc w with
    | WIter k ks T => exists v, w_buf w !! k = Some v /\ ser k v T
    | WSave k ks b _ => exists v T, w_buf w !! k = Some v /\ ser k v T /\ b = compress T
    | _ => True
    end.
  Lemma w_flight_step w s w' s' : w_flight w -> w_step compress dirof nameof ser (w, s) (w', s') -> w_flight w'.
  Proof.
    unfold w_flight. intros Hf H. inversion H; subst; cbn [w_buf w_pc] in *; try done.
    - eauto.
    - destruct Hf as (v & H1 & H2). eauto.
  Qed.
  Lemma w_flight_tick w w' : w_tick w w' -> w_flight w'.
  Proof. intros H. inversion H; subst. done. Qed.
End writer.

(** Loading and merging leave the other files alone. *)
Section loading.
  Variables (compress : bytes -> bytes) (decompress : bytes -> option bytes).
  Lemma loads_frame s g s' : layout s -> loads compress decompress s g s' ->
    layout s' /\ g_wf g s' /\ fs_dirs s ⊆ fs_dirs s' /\ (forall p, owner p <> Some OI -> owner p <> Some OF -> fs_files s' !! p = fs_files s !! p).
  Proof.
    intros Hl (s0 & g0 & Hm & Hs & Hr). destruct (mkdir_effect s [] s0 Hl eq_refl (Nat.le_0_l 2) Hm) as (L0 & F0 & D0 & _).
    apply g_start_wf in Hs.
    assert (forall a b, rtc (g_step compress decompress) a b -> layout a.2 -> g_wf a.1 a.2 -> fs_dirs s ⊆ fs_dirs a.2 ->
       (forall p, owner p <> Some OI -> owner p <> Some OF -> fs_files a.2 !! p = fs_files s !! p) ->
       layout b.2 /\ g_wf b.1 b.2 /\ fs_dirs s ⊆ fs_dirs b.2 /\ (forall p, owner p <> Some OI -> owner p <> Some OF -> fs_files b.2 !! p = fs_files s !! p)) as IH.
    { induction 1 as [a|a b c Hab _ IH]; [done|]. intros Ha1 Ha2 Ha3 Ha4. destruct a as [g1 s1], b as [g2 s2]. cbn in *.
      destruct (g_step_base _ _ _ _ _ _ Ha1 Ha2 Hab) as (B1 & B2 & B3 & B4). apply IH; [done|done|set_solver|].
      intros p P1 P2. rewrite B4 by done. auto. }
    apply (IH (g0, s0) (g, s') Hr); cbn; [done|done|done|]. intros p _ _. by rewrite F0.
  Qed.
End loading.

(** * Which step changes the files of which component *)
Definition keeps (C : comp) (s s' : fs) : Prop := forall p, owner p = Some C -> fs_files s' !! p = fs_files s !! p.
Lemma keeps_refl C s : keeps C s s.
Proof. by intros p _. Qed.
Inductive who := WhoM | WhoN | WhoD | WhoI | WhoG | WhoNobody.
(** The component that runs in a step. *)
Section who.
  Variables (compress : bytes -> bytes) (decompress : bytes -> option bytes).
  Definition runs (w : who) (u : up) (s : fs) (ev : list event) (u' : up) (s' : fs) : Prop :=
    match w with
    | WhoM => w_step compress m_dir m_name m_ser (u_mw u, s) (u_mw u', s') /\ u' = mkUp (u_mem u) (u_pc u) (u_ich u) (u_mw u') (u_nw u) (u_dw u) (u_iw u) (u_mg u) /\
              keeps ON s s' /\ keeps OD s s' /\ keeps OI s s' /\ keeps OF s s' /\ ev = []
    | WhoN => w_step compress n_dir n_name n_ser (u_nw u, s) (u_nw u', s') /\ u' = mkUp (u_mem u) (u_pc u) (u_ich u) (u_mw u) (u_nw u') (u_dw u) (u_iw u) (u_mg u) /\
              keeps OM s s' /\ keeps OD s s' /\ keeps OI s s' /\ keeps OF s s' /\ ev = nft_event (u_nw u)
    | WhoD => w_step compress d_dir d_name (d_ser (c_heap (u_mem u))) (u_dw u, s) (u_dw u', s') /\ u' = mkUp (u_mem u) (u_pc u) (u_ich u) (u_mw u) (u_nw u) (u_dw u') (u_iw u) (u_mg u) /\
              keeps OM s s' /\ keeps ON s s' /\ keeps OI s s' /\ keeps OF s s' /\ ev = []
    | WhoI => i_step compress (u_iw u, s) (u_iw u', s') /\ u' = mkUp (u_mem u) (u_pc u) (u_ich u) (u_mw u) (u_nw u) (u_dw u) (u_iw u') (u_mg u) /\
              keeps OM s s' /\ keeps ON s s' /\ keeps OD s s' /\ keeps OI s s' /\ ev = []
    | WhoG => g_step compress decompress (u_mg u, s) (u_mg u', s') /\ u' = mkUp (u_mem u) (u_pc u) (u_ich u) (u_mw u) (u_nw u) (u_dw u) (u_iw u) (u_mg u') /\
              keeps OM s s' /\ keeps ON s s' /\ keeps OD s s' /\ ev = []
    | WhoNobody => s' = s
    end.
  (** Steps without file system access. *)
  Inductive quick (s : fs) : up -> list event -> up -> Prop :=
  | q_client m pc m' pc' ich mw nw dw iw mg :
      c_step decompress s (m, pc) (m', pc') -> quick s (mkUp m pc ich mw nw dw iw mg) [] (mkUp m' pc' ich mw nw dw iw mg)
  | q_doc m pc l m' pc' ich mw nw dw iw mg :
      c_doc (m, pc) l (m', pc') -> ~ iterating dw l -> quick s (mkUp m pc ich mw nw dw iw mg) [] (mkUp m' pc' ich mw nw dw iw mg)
  | q_send_field m d x ich mb nw dw iw mg :
      quick s (mkUp m (CFieldSend d x) ich (mkW mb WIdle) nw dw iw mg) []
        (mkUp m (CIndex true d x) ich (mkW (m_recv mb (f_name x) (geti (c_size m) (f_name x)) (geti (c_length m) (f_name x))) WIdle) nw dw iw mg)
  | q_send_index m full d x t ks ich mw nw dw iw mg : (length ich < 100)%nat ->
      quick s (mkUp m (CIndexSend full d x t ks) ich mw nw dw iw mg) [] (mkUp m (CIndexLoop full d x ks) (ich ++ [mkPost (f_name x) t d]) mw nw dw iw mg)
  | q_recv_index m pc p ich mw nw dw ib mg :
      quick s (mkUp m pc (p :: ich) mw nw dw (mkI ib IIdle) mg) [] (mkUp m pc ich mw nw dw (mkI (i_recv ib p) IIdle) mg)
  | q_send_nft m d x ft t ks ich mw nb dw iw mg :
      quick s (mkUp m (CNftSend d x ft t ks) ich mw (mkW nb WIdle) dw iw mg) [ENft (f_name x) t (geti ft t)]
        (mkUp m (CNftLoop d x ft ks) ich mw (mkW (n_recv nb (f_name x) t (geti ft t)) WIdle) dw iw mg)
  | q_send_doc m d x l ich mw nw db iw mg :
      quick s (mkUp m (CDocSend d x l) ich mw nw (mkW db WIdle) iw mg) [] (mkUp m CIdle ich mw nw (mkW (d_recv db d l) WIdle) iw mg)
  | q_merge_end m pc ich mw nw dw iw acc :
      quick s (mkUp m pc ich mw nw dw iw (mkM acc (MFields []))) [] (mkUp m pc ich mw nw dw iw (mkM ∅ MIdle)).

  Lemma up_step_who u s ev u' s' : layout s -> up_wf u s -> up_step compress decompress (u, s) ev (u', s') ->
    (s' = s /\ quick s u ev u') \/ runs WhoM u s ev u' s' \/ runs WhoN u s ev u' s' \/ runs WhoD u s ev u' s' \/ runs WhoI u s ev u' s' \/ runs WhoG u s ev u' s'.
  Proof.
    intros Hl [W1 W2 W3 W4 W5 W6 W7] H.
    inversion H; subst; cbn [u_pc u_ich u_mw u_nw u_dw u_iw u_mg] in *; try (left; split; [done|]; by econstructor).
    - right. left. match goal with G : w_step _ _ _ _ _ _ |- _ => destruct (w_step_base _ _ _ _ OM nd m_dir_ok m_own _ _ _ _ Hl W3 G) as (E1 & E2 & E3 & E4) end.
      cbn. split; [done|]. split; [done|]. repeat split; intros p Hp; apply E4; congruence.
    - do 2 right. left. match goal with G : w_step _ _ _ _ _ _ |- _ => destruct (w_step_base _ _ _ _ ON nd n_dir_ok n_own _ _ _ _ Hl W4 G) as (E1 & E2 & E3 & E4) end.
      cbn. split; [done|]. split; [done|]. repeat split; intros p Hp; apply E4; congruence.
    - do 3 right. left. match goal with G : w_step _ _ _ _ _ _ |- _ => destruct (w_step_base _ _ _ _ OD anyk d_dir_ok d_own _ _ _ _ Hl W5 G) as (E1 & E2 & E3 & E4) end.
      cbn. split; [done|]. split; [done|]. repeat split; intros p Hp; apply E4; congruence.
    - do 4 right. left. match goal with G : i_step _ _ _ |- _ => destruct (i_step_base _ _ _ _ _ Hl W6 G) as (E1 & E2 & E3 & E4) end.
      cbn. split; [done|]. split; [done|]. repeat split; intros p Hp; apply E4; congruence.
    - do 5 right. match goal with G : g_step _ _ _ _ |- _ => destruct (g_step_base _ _ _ _ _ _ Hl W7 G) as (E1 & E2 & E3 & E4) end.
      cbn. split; [done|]. split; [done|]. repeat split; intros p Hp; apply E4; congruence.
  Qed.
End who.

(** * During a flush the buffer holds exactly the keys still to be written *)
Definition w_full {V} (w : writer V) : Prop :=
  match w_pc w with
  | WIdle => True
  | WLoop ks => forall k, is_Some (w_buf w !! k) -> k ∈ ks
  | WSer k0 ks | WIter k0 ks _ | WSave k0 ks _ _ => forall k, is_Some (w_buf w !! k) -> k ∈ k0 :: ks
  end.
Lemma w_full_step {V} c (dirof : string -> path) nameof ser (w w' : writer V) s s' : w_full w -> w_step c dirof nameof ser (w, s) (w', s') -> w_full w'.
Proof.
  unfold w_full. intros Hf H. inversion H; subst; cbn [w_buf w_pc] in *; try done.
  intros k' Hk. apply lookup_delete_is_Some in Hk as [Hne Hk]. apply Hf in Hk. apply elem_of_cons in Hk as [->|?]; done.
Qed.
Lemma w_full_tick {V} (w w' : writer V) : w_tick w w' -> w_full w'.
Proof.
  intros H. inversion H as [buf ks Hr]; subst. cbn. intros k [v Hk]. unfold range_order in Hr. rewrite Hr. apply elem_of_list_fmap.
  exists (k, v). split; [done|]. by apply elem_of_map_to_list.
Qed.
Section full.
  Variables (compress : bytes -> bytes) (decompress : bytes -> option bytes) (cache_size : Z).
  Definition full_inv (y : sys) : Prop := match y_proc y with Up u => w_full (u_mw u) /\ w_full (u_nw u) /\ w_full (u_dw u) | _ => True end.
  Lemma full_inv_step a b : full_inv a -> sys_step compress decompress cache_size a b -> full_inv b.
  Proof.
    unfold full_inv. intros Ha [H|H]; inversion H; subst; cbn [y_fs y_proc y_log] in *; try done.
    - match goal with G : opened _ _ _ _ _ |- _ => inversion G; subst end. done.
    - destruct Ha as (A1 & A2 & A3). match goal with G : up_step _ _ _ _ _ |- _ => inversion G; subst end; cbn [u_mw u_nw u_dw] in *; try done;
        repeat (split; [try done; by eapply w_full_step|]); try done; by eapply w_full_step.
    - destruct Ha as (A1 & A2 & A3). match goal with G : up_tick _ _ |- _ => inversion G; subst end; cbn [u_mw u_nw u_dw] in *; try done;
        repeat (split; [try done; by eapply w_full_tick|]); try done; by eapply w_full_tick.
    - match goal with G : up_call _ _ _ |- _ => inversion G; subst end; done.
  Qed.
  Lemma full_reach y : reachable compress decompress cache_size y -> full_inv y.
  Proof. revert y. apply (rtc_ind_r full_inv sys_init); [done|]. intros a b _ Hab Ha. by eapply full_inv_step. Qed.
End full.
