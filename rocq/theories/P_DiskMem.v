(** The disk storage: what the client sees in memory (C46). *)
From Verif Require Import Base M_Field M_LRU S_Visits M_Memory M_File M_Serialize M_Disk P_Base P_File S_Disk P_DiskBase P_DiskInv.
#[local] Open Scope Z_scope.

Definition pending (pc : cpc) : list call :=
  match pc with
  | CSave d x | CFieldSend d x | CIndex true d x | CIndexLoop true d x _ | CIndexSend true d x _ _ | CNft d x
  | CNftLoop d x _ _ | CNftSend d x _ _ _ | CDoc d x | CDocSend d x _ => [Save d x]
  | CIndex false d x | CIndexLoop false d x _ | CIndexSend false d x _ _ => [Index d x]
  | _ => []
  end.
Section rel.
  Variables (M : cmem) (m ms : memory).
  Definition cnt0 : Prop := c_size M = mm_size ms /\ c_length M = mm_length ms.
  Definition cnt1 (x : field) : Prop := c_size M = addi (mm_size ms) (f_name x) 1 /\ c_length M = addi (mm_length ms) (f_name x) (f_length x).
  Definition cnt (full : bool) (x : field) : Prop := if full then cnt1 x else cnt0.
  Definition idx0 : Prop := c_index M = mm_index m.
  Definition idxd (d : string) (x : field) (dn : list string) : Prop :=
    c_index M = <[f_name x := fold_left (index_term d) dn (default ∅ (mm_index m !! f_name x))]> (mm_index m).
  Definition nft0 : Prop := c_nft M = mm_nft m.
  Definition nftd (x : field) (dn : list string) : gmap string Z := fold_left (fun ft t => addi ft t 1) dn (default ∅ (mm_nft m !! f_name x)).
  Definition rel (pc : cpc) : Prop :=
    match pc with
    | CIdle | CGet _ _ _ _ | CGetLoad _ _ _ _ _ | CGot _ _ _ => cnt0 /\ idx0 /\ nft0
    | CSave d x => cnt0 /\ idx0 /\ nft0
    | CFieldSend d x => cnt1 x /\ idx0 /\ nft0
    | CIndex full d x => cnt full x /\ idx0 /\ nft0
    | CIndexLoop full d x ks => cnt full x /\ nft0 /\ exists dn, range_order (f_tf x) (dn ++ ks) /\ idxd d x dn
    | CIndexSend full d x t ks => cnt full x /\ nft0 /\ exists dn, range_order (f_tf x) (dn ++ [t] ++ ks) /\ idxd d x (dn ++ [t])
    | CNft d x => cnt1 x /\ nft0 /\ exists dn, range_order (f_tf x) dn /\ idxd d x dn
    | CNftLoop d x ft ks => cnt1 x /\ nft0 /\ (exists dn, range_order (f_tf x) dn /\ idxd d x dn) /\
        exists dn, range_order (f_tf x) (dn ++ ks) /\ ft = nftd x dn
    | CNftSend d x ft t ks => cnt1 x /\ nft0 /\ (exists dn, range_order (f_tf x) dn /\ idxd d x dn) /\
        exists dn, range_order (f_tf x) (dn ++ [t] ++ ks) /\ ft = nftd x (dn ++ [t])
    | CDoc d x | CDocSend d x _ => cnt1 x /\ (exists dn, range_order (f_tf x) dn /\ idxd d x dn) /\
        exists dn, range_order (f_tf x) dn /\ c_nft M = <[f_name x := nftd x dn]> (mm_nft m)
    end.
End rel.

Definition tracks (m0 : memory) (u : up) (cs : list call) : Prop :=
  exists h m ms, cs = h ++ pending (u_pc u) /\ mem_run m0 h m /\ mem_run m0 (saves h) ms /\ rel (u_mem u) m ms (u_pc u).

Lemma mem_run_snoc m0 h m c m' : mem_run m0 h m -> mem_step m c m' -> mem_run m0 (h ++ [c]) m'.
Proof. induction 1; cbn; intros; [econstructor; [done|constructor]|]. econstructor; eauto. Qed.
Lemma saves_app h1 h2 : saves (h1 ++ h2) = saves h1 ++ saves h2.
Proof. apply List.filter_app. Qed.

Section mem.
  Variables (compress : bytes -> bytes) (decompress : bytes -> option bytes) (cache_size : Z).

  Lemma tracks_idle m0 m h M ms d x l ich mw nw dw iw mg :
    mem_run m0 h m -> mem_run m0 (saves h) ms -> rel M m ms (CDocSend d x l) ->
    tracks m0 (mkUp M CIdle ich mw nw dw iw mg) (h ++ [Save d x]).
  Proof.
    intros Hm Hms (Hc & (k1 & R1 & H1) & (k2 & R2 & H2)).
    exists (h ++ [Save d x]), (mem_save m d x k1 k2), (mem_save ms d x k1 k2).
    split; [cbn; by rewrite app_nil_r|]. split; [eapply mem_run_snoc; [done|by constructor]|].
    split; [rewrite saves_app; eapply mem_run_snoc; [done|by constructor]|].
    destruct Hc as [Hc1 Hc2]. cbn. split; [by split|]. split; done.
  Qed.

  Lemma c_step_tracks m0 s m pc m' pc' ich mw nw dw iw mg cs :
    tracks m0 (mkUp m pc ich mw nw dw iw mg) cs -> c_step decompress s (m, pc) (m', pc') ->
    tracks m0 (mkUp m' pc' ich mw nw dw iw mg) cs.
  Proof.
    intros (h & mm & ms & Hcs & Hm & Hms & Hr) H. inversion H; subst; cbn [u_pc u_mem pending] in *;
      try (exists h, mm, ms; split; [done|]; split; [done|]; split; [done|]).
    - destruct Hr as ([G1 G2] & G3 & G4). split; [|done]. split; cbn; congruence.
    - destruct Hr as (G1 & G2 & G3). cbn. unfold idx0 in G2.
      destruct (c_index m !! f_name x) eqn:E.
      + split; [done|]. split; [done|]. exists []. split; [done|]. unfold idxd. cbn. rewrite G2 in E |- *. rewrite E. cbn. by rewrite insert_id.
      + split; [by destruct full|]. split; [done|]. exists []. split; [done|]. unfold idxd. cbn. rewrite G2 in E |- *. by rewrite E.
    - destruct Hr as (G1 & G2 & dn & R & G3). split; [by destruct full|]. split; [done|]. exists dn. split; [done|].
      unfold idxd in *. cbn. rewrite G3 in *. rewrite lookup_insert in *.
      match goal with E : Some _ = Some _ |- _ => injection E as <- end.
      rewrite insert_insert. by rewrite fold_left_app.
    - destruct Hr as (G1 & G2 & dn & R & G3). rewrite app_nil_r in R. destruct full.
      + exists h, mm, ms. split; [done|]. split; [done|]. split; [done|]. cbn. eauto 10.
      + exists (h ++ [Index d x]), (mem_update_index mm d x dn), ms. cbn. split; [by rewrite app_nil_r|].
        split; [eapply mem_run_snoc; [done|by constructor]|]. split; [rewrite saves_app; cbn; by rewrite app_nil_r|].
        split; [done|]. split; [|done]. unfold idx0, idxd in *. by rewrite G3.
    - destruct Hr as (G1 & G2 & G3). split; [done|]. split; [done|]. split; [done|]. exists []. split; [done|].
      unfold nftd. cbn. unfold nft0 in G2. by rewrite G2.
    - destruct Hr as (G1 & G2 & G3 & dn & R & G4). split; [done|]. split; [done|]. split; [done|]. exists dn. split; [done|].
      rewrite G4. unfold nftd. by rewrite fold_left_app.
    - destruct Hr as (G1 & G2 & G3 & dn & R & G4). rewrite app_nil_r in R. split; [done|]. split; [done|]. exists dn. split; [done|].
      cbn. unfold nft0 in G2. by rewrite G2, G4.
    - done.
    - done.
    - done.
    - done.
    - done.
    - done.
  Qed.
  Lemma c_doc_tracks m0 m pc l m' pc' ich mw nw dw iw mg cs :
    tracks m0 (mkUp m pc ich mw nw dw iw mg) cs -> c_doc (m, pc) l (m', pc') ->
    tracks m0 (mkUp m' pc' ich mw nw dw iw mg) cs.
  Proof. intros (h & mm & ms & Hcs & Hm & Hms & Hr) H. inversion H; subst; cbn in *; exists h, mm, ms; done. Qed.

  Lemma up_step_tracks m0 u s ev u' s' cs : tracks m0 u cs -> up_step compress decompress (u, s) ev (u', s') ->
    calls_of ev = [] /\ tracks m0 u' cs.
  Proof.
    intros Ht H. inversion H; subst; try (split; [done|]; done).
    - split; [done|]. by eapply c_step_tracks.
    - split; [done|]. by eapply c_doc_tracks.
    - split; [done|]. destruct Ht as (h & mm & ms & Hcs & Hm & Hms & Hr). exists h, mm, ms. cbn in *.
      destruct full; (split; [done|]; split; [done|]; split; [done|]); destruct Hr as (G1 & G2 & dn & R & G3);
        (split; [done|]; split; [done|]); exists (dn ++ [t]); by rewrite <- app_assoc.
    - split; [done|]. destruct Ht as (h & mm & ms & Hcs & Hm & Hms & Hr). exists h, mm, ms. cbn in *.
      split; [done|]. split; [done|]. split; [done|]. destruct Hr as (G1 & G2 & G3 & dn & R & G4).
      split; [done|]. split; [done|]. split; [done|]. exists (dn ++ [t]). by rewrite <- app_assoc.
    - split; [done|]. destruct Ht as (h & mm & ms & Hcs & Hm & Hms & Hr). cbn in Hcs. subst cs.
      by eapply (tracks_idle m0 mm h m ms d x l ich mw nw _ iw mg).
    - split; [|done]. unfold nft_event. destruct (w_pc nw) as [| | | |? ? ? []]; done.
  Qed.
  Lemma up_tick_tracks m0 u s u' s' cs : tracks m0 u cs -> up_tick (u, s) (u', s') -> tracks m0 u' cs.
  Proof. intros Ht H. inversion H; subst; done. Qed.
  Lemma up_call_tracks m0 u ev u' cs : tracks m0 u cs -> up_call u ev u' -> tracks m0 u' (cs ++ calls_of ev).
  Proof.
    intros (h & mm & ms & Hcs & Hm & Hms & Hr) H. inversion H; subst; cbn in *; exists h, mm, ms; by rewrite !app_nil_r.
  Qed.

  Lemma up_idle_answers m0 u cs : tracks m0 u cs -> u_pc u = CIdle ->
    exists m ms, mem_run m0 cs m /\ mem_run m0 (saves cs) ms /\
      c_index (u_mem u) = mm_index m /\ c_nft (u_mem u) = mm_nft m /\ c_size (u_mem u) = mm_size ms /\ c_length (u_mem u) = mm_length ms.
  Proof.
    intros (h & mm & ms & Hcs & Hm & Hms & Hr) E. rewrite E in *. cbn in Hcs. rewrite app_nil_r in Hcs. subst h.
    exists mm, ms. cbn in Hr. destruct Hr as ([? ?] & ? & ?). auto 10.
  Qed.

  Notation session := (session compress decompress cache_size).
  Lemma session_tracks a ev b u0 : y_proc a = Up u0 -> u_pc u0 = CIdle -> session a ev b ->
    exists u, y_proc b = Up u /\ tracks (contents (u_mem u0)) u (calls_of ev).
  Proof.
    intros Ha Hi. induction 1 as [a|a ev b ev' c Hs IH H Hl].
    - exists u0. split; [done|]. exists [], (contents (u_mem u0)), (contents (u_mem u0)). rewrite Hi. split; [done|]. split; [constructor|].
      split; [constructor|]. done.
    - destruct (IH Ha) as (u & Hb & Ht). rewrite calls_app. inversion H; subst; cbn [y_proc y_log] in *; try discriminate;
        injection Hb as ->; eexists; (split; [reflexivity|]).
      + apply app_inv_head in Hl. subst ev'. match goal with G : up_step _ _ _ _ _ |- _ => destruct (up_step_tracks _ _ _ _ _ _ _ Ht G) as [E1 E2] end.
        rewrite E1, app_nil_r. done.
      + assert (ev' = []) as ->. { symmetry in Hl. rewrite <- (app_nil_r log) in Hl at 2. by apply app_inv_head in Hl. }
        rewrite app_nil_r. by eapply up_tick_tracks.
      + apply app_inv_head in Hl. subst ev'. by eapply up_call_tracks.
  Qed.
End mem.

(** * A store on which no SaveOrUpdate or UpdateIndex was ever called is empty *)
Definition quiet_pc (pc : cpc) : Prop :=
  match pc with CIdle | CGet _ _ _ _ | CGetLoad _ _ _ _ _ | CGot _ _ _ => True | _ => False end.
Definition quiet_w {V} (w : writer V) : Prop := w_buf w = ∅ /\ (w_pc w = WIdle \/ w_pc w = WLoop []).
Definition quiet_i (w : iwriter) : Prop := i_buf w = ∅ /\ (i_pc w = IIdle \/ i_pc w = ILoop []).
Definition quiet_g (g : merger) : Prop := m_acc g = ∅ /\ (m_pc g = MIdle \/ m_pc g = MFields []).
Definition quiet_up (u : up) : Prop :=
  contents (u_mem u) = mem_new /\ quiet_pc (u_pc u) /\ u_ich u = [] /\ quiet_w (u_mw u) /\ quiet_w (u_nw u) /\ quiet_w (u_dw u) /\
  quiet_i (u_iw u) /\ quiet_g (u_mg u).
Definition quiet (y : sys) : Prop :=
  calls_of (y_log y) = [] -> fs_files (y_fs y) = ∅ /\ (forall p, p ∈ fs_dirs (y_fs y) -> p = []) /\
  match y_proc y with Down => True | Loading g => quiet_g g | Up u => quiet_up u end.

Lemma range_order_empty {A} ks : range_order (∅ : gmap string A) ks -> ks = [].
Proof. unfold range_order. rewrite map_to_list_empty. cbn. intros H. by apply Permutation_nil_r in H. Qed.
Lemma quiet_tick {V} (w w' : writer V) : quiet_w w -> w_tick w w' -> quiet_w w'.
Proof. intros [H1 H2] H. inversion H; subst. cbn in *. subst. apply range_order_empty in H0 as ->. split; [done|]. by right. Qed.
Lemma quiet_wstep {V} c (dirof : string -> path) nameof ser (w w' : writer V) s s' : quiet_w w -> w_step c dirof nameof ser (w, s) (w', s') -> quiet_w w' /\ s' = s.
Proof.
  intros [H1 H2] H. inversion H; subst; cbn in *; destruct H2 as [H2|H2]; try discriminate.
  split; [split; [done|by left]|done].
Qed.
Lemma quiet_start s g : (forall p, p ∈ fs_dirs s -> p = []) -> g_start s g -> quiet_g g.
Proof.
  intros Hd H. inversion H as [ns [Hn Hl]]; subst. split; [done|]. right. cbn. f_equal.
  destruct ns as [|n ns]; [done|]. destruct (Hl n) as [Hn1 _]. destruct Hn1 as [Hn1 _]; [left|]. by apply Hd in Hn1.
Qed.
Lemma quiet_gstep c dc g s g' s' : quiet_g g -> g_step c dc (g, s) (g', s') -> False.
Proof. intros [H1 [H2|H2]] H; inversion H; subst; cbn in *; discriminate. Qed.
Lemma lists_dirs_nil s ns : (forall p, p ∈ fs_dirs s -> p = []) -> lists_dirs s [] ns -> ns = [].
Proof.
  intros Hd [Hn Hl]. destruct ns as [|n ns]; [done|]. destruct (Hl n) as [Hn1 _]. destruct Hn1 as [Hn1 _]; [left|]. by apply Hd in Hn1.
Qed.

Section quiet.
  Variables (compress : bytes -> bytes) (decompress : bytes -> option bytes) (cache_size : Z).
  Lemma quiet_up_step u s ev u' s' : quiet_up u -> up_step compress decompress (u, s) ev (u', s') -> quiet_up u' /\ s' = s.
  Proof.
    intros (Q1 & Q2 & Q3 & Q4 & Q5 & Q6 & Q7 & Q8) H. inversion H; subst; cbn [u_mem u_pc u_ich u_mw u_nw u_dw u_iw u_mg] in *; try done.
    - split; [|done]. match goal with G : c_step _ _ _ _ |- _ => inversion G; subst; try done end.
    - match goal with G : c_doc _ _ _ |- _ => inversion G; subst; done end.
    - match goal with G : w_step _ _ _ _ _ _ |- _ => destruct (quiet_wstep _ _ _ _ _ _ _ _ Q4 G) as [? ->] end. done.
    - match goal with G : w_step _ _ _ _ _ _ |- _ => destruct (quiet_wstep _ _ _ _ _ _ _ _ Q5 G) as [? ->] end. done.
    - match goal with G : w_step _ _ _ _ _ _ |- _ => destruct (quiet_wstep _ _ _ _ _ _ _ _ Q6 G) as [? ->] end. done.
    - destruct Q7 as [E1 E2]. match goal with G : i_step _ _ _ |- _ => inversion G; subst; cbn in *; destruct E2 as [E2|E2]; try discriminate end.
      split; [|done]. do 6 (split; [done|]). split; [|done]. split; [done|]. by left.
    - match goal with G : g_step _ _ _ _ |- _ => by apply quiet_gstep in G end.
    - split; [|done]. do 7 (split; [done|]). split; [done|]. by left.
  Qed.
  Lemma quiet_up_tick u s u' s' : (forall p, p ∈ fs_dirs s -> p = []) -> quiet_up u -> up_tick (u, s) (u', s') -> quiet_up u' /\ s' = s.
  Proof.
    intros Hd (Q1 & Q2 & Q3 & Q4 & Q5 & Q6 & Q7 & Q8) H. inversion H; subst; cbn [u_mem u_pc u_ich u_mw u_nw u_dw u_iw u_mg] in *;
      (split; [|done]).
    - do 3 (split; [done|]). split; [by eapply quiet_tick|done].
    - do 4 (split; [done|]). split; [by eapply quiet_tick|done].
    - do 5 (split; [done|]). split; [by eapply quiet_tick|done].
    - do 6 (split; [done|]). split; [|done]. destruct Q7 as [E1 E2]. match goal with G : i_tick _ _ |- _ => inversion G; subst; cbn in * end. subst.
      match goal with G : range_order _ _ |- _ => apply range_order_empty in G as -> end. split; [done|]. by right.
    - do 7 (split; [done|]). by eapply quiet_start.
  Qed.
  Lemma quiet_step a b : quiet a -> sys_step compress decompress cache_size a b -> quiet b.
  Proof.
    intros Q H Hc. destruct (log_mono _ _ _ _ _ H) as [ev El]. rewrite El, calls_app in Hc.
    apply app_eq_nil in Hc as [Hc Hc']. destruct (Q Hc) as (F & D & P).
    destruct H as [H|H]; inversion H; subst; cbn [y_fs y_proc y_log] in *.
    - match goal with G : mkdir_all _ _ = _ |- _ => unfold mkdir_all in G; destruct (forallb _ _); [|discriminate]; injection G as <- end.
      cbn [fs_files fs_dirs] in *.
      assert (forall p : path, p ∈ (list_to_set (prefixes []) : gset path) ∪ fs_dirs s -> p = []) as D'.
      { intros p Hp. apply elem_of_union in Hp as [Hp|Hp]; [|auto]. cbn in Hp. set_solver. }
      split; [done|]. split; [done|]. eapply quiet_start; [|eassumption]. exact D'.
    - match goal with G : g_step _ _ _ _ |- _ => by apply quiet_gstep in G end.
    - split; [done|]. split; [done|]. match goal with G : opened _ _ _ _ _ |- _ => inversion G; subst end.
      apply lists_dirs_nil in H1 as ->; [|done]. apply lists_dirs_nil in H3 as ->; [|done].
      match goal with G : load_metrics _ _ [] = _ |- _ => cbn in G; injection G as <- <- end.
      match goal with G : load_nft _ _ [] = _ |- _ => cbn in G; injection G as <- end.
      destruct P as [P _]. cbn in P. subst acc. unfold quiet_up, contents, quiet_w, quiet_i, quiet_g. cbn. auto 20.
    - match goal with G : up_step _ _ _ _ _ |- _ => destruct (quiet_up_step _ _ _ _ _ P G) as [? ->] end. done.
    - match goal with G : up_tick _ _ |- _ => destruct (quiet_up_tick _ _ _ _ D P G) as [? ->] end. done.
    - split; [done|]. split; [done|]. apply app_inv_head in El. subst ev.
      match goal with G : up_call _ _ _ |- _ => inversion G; subst; try discriminate end.
      destruct P as (Q1 & Q2 & Q3). done.
    - done.
  Qed.
  Lemma quiet_reach y : reachable compress decompress cache_size y -> quiet y.
  Proof.
    revert y. apply (rtc_ind_r quiet sys_init).
    - intros _. cbn. split; [done|]. split; [|done]. intros p Hp. set_solver.
    - intros a b _ Hab Q. by eapply quiet_step.
  Qed.

  (** The first session. *)
  Definition first_session (y : sys) : Prop :=
    match y_proc y with
    | Up u => exists l1 l2, y_log y = l1 ++ EOpened :: l2 /\ EOpened ∉ l2 /\ (calls_of l1 = [] -> tracks mem_new u (calls_of l2))
    | _ => True
    end.
  Lemma up_step_events u s ev u' s' : up_step compress decompress (u, s) ev (u', s') -> EOpened ∉ ev.
  Proof.
    intros H. inversion H; subst; try by apply not_elem_of_nil.
    - rewrite elem_of_list_singleton. done.
    - unfold nft_event. destruct (w_pc nw) as [| | | |? ? ? []]; rewrite ?elem_of_list_singleton, ?elem_of_nil; auto; done.
  Qed.
  Lemma first_session_reach y : reachable compress decompress cache_size y -> first_session y.
  Proof.
    intros Hr. unfold reachable in Hr. revert y Hr. apply (rtc_ind_r first_session sys_init); [done|].
    intros a b Ha Hab Q. pose proof (quiet_reach a Ha) as Qa. destruct Hab as [H|H]; inversion H; subst; unfold first_session in *; cbn [y_fs y_proc y_log] in *; try done.
    - exists log, []. split; [done|]. split; [apply not_elem_of_nil|]. intros Hc. 
      assert (quiet_up u) as QU.
      { assert (quiet (mkSys s (Up u) (log ++ [EOpened]))) as Qb by (eapply quiet_step; [exact Qa|by left]).
        apply Qb. cbn. rewrite calls_app, Hc. done. }
      destruct QU as (Q1 & Q2 & _). exists [], mem_new, mem_new. match goal with G : opened _ _ _ _ _ |- _ => inversion G; subst end. cbn in *.
      split; [done|]. split; [constructor|]. split; [constructor|]. unfold contents in Q1. cbn in Q1. injection Q1 as -> -> -> ->. done.
    - destruct Q as (l1 & l2 & -> & Hn & Ht). exists l1, (l2 ++ ev). match goal with G : up_step _ _ _ _ _ |- _ => pose proof (up_step_events _ _ _ _ _ G) as He; rename G into Hu end.
      split; [by rewrite <- app_assoc|]. split; [rewrite elem_of_app; tauto|]. intros Hc. rewrite calls_app.
      destruct (up_step_tracks _ _ _ _ _ _ _ _ _ (Ht Hc) Hu) as [-> ?]. by rewrite app_nil_r.
    - destruct Q as (l1 & l2 & -> & Hn & Ht). exists l1, l2. split; [done|]. split; [done|]. intros Hc. eapply up_tick_tracks; eauto.
    - destruct Q as (l1 & l2 & -> & Hn & Ht). exists l1, (l2 ++ ev). split; [by rewrite <- app_assoc|]. split.
      + rewrite elem_of_app. intros [?|He]; [done|]. match goal with G : up_call _ _ _ |- _ => inversion G; subst end;
          rewrite ?elem_of_list_singleton, ?elem_of_nil in He; done.
      + intros Hc. rewrite calls_app. eapply up_call_tracks; eauto.
  Qed.
End quiet.
