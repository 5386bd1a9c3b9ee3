(** The disk storage: no deadlock, and calls complete under fairness (C55). *)
From Verif Require Import Base M_Field M_LRU S_LRU S_Visits M_Memory M_File M_Serialize M_Disk P_Base P_File P_LRU S_Disk P_DiskBase P_DiskInv P_DiskMem P_DiskWriter P_DiskTerm P_DiskDocs P_DiskDocs2 P_DiskDocs3 X_DiskExec S_DiskFair.
#[local] Open Scope nat_scope.
#[local] Opaque serialize_metrics deserialize_metrics serialize_nft deserialize_nft serialize_field_map deserialize_field_map serialize_index deserialize_index.

(** * Ranks *)
Definition w_rank {V} (w : writer V) : nat :=
  match w_pc w with
  | WIdle => 0
  | WLoop ks => 1 + 20 * length ks
  | WSer k ks => 19 + 20 * length ks
  | WIter k ks T => 18 + 20 * length ks
  | WSave k ks b pc => 2 + ss_rank pc + 20 * length ks
  end.
Lemma w_rank_step {V} c dirof nameof ser (w w' : writer V) s s' : w_step c dirof nameof ser (w, s) (w', s') -> w_rank w' < w_rank w.
Proof.
  intros H. inversion H; subst; unfold w_rank; cbn; try lia.
  match goal with G : ss_step _ _ _ _ = _ |- _ => apply ss_rank_step in G end. lia.
Qed.
Definition i_rank (w : iwriter) : nat :=
  match i_pc w with
  | IIdle => 0
  | ILoop ks => 1 + 10 * length ks
  | IMkdir k ks b => 9 + 10 * length ks
  | IOpen k ks b => 8 + 10 * length ks
  | IWrite k ks b u => 7 + 10 * length ks
  end.
Lemma i_rank_step c w w' s s' : i_step c (w, s) (w', s') -> i_rank w' < i_rank w.
Proof. intros H. inversion H; subst; unfold i_rank; cbn; lia. Qed.

Definition n_terms (x : field) : nat := size (f_tf x).
Definition after_index (full : bool) (x : field) : nat := if full then 5 + 2 * n_terms x else 1.
Definition c_rank (pc : cpc) : nat :=
  match pc with
  | CIdle => 0
  | CDocSend _ _ _ => 1
  | CDoc _ _ => 2
  | CNftLoop _ _ _ ks => 3 + 2 * length ks
  | CNftSend _ _ _ _ ks => 4 + 2 * length ks
  | CNft _ x => 4 + 2 * n_terms x
  | CIndexLoop full _ x ks => after_index full x + 2 * length ks
  | CIndexSend full _ x _ ks => after_index full x + 1 + 2 * length ks
  | CIndex full _ x => after_index full x + 1 + 2 * n_terms x
  | CFieldSend _ x => after_index true x + 2 + 2 * n_terms x
  | CSave _ x => after_index true x + 3 + 2 * n_terms x
  | CGet _ _ ids _ => 2 + 2 * length ids
  | CGetLoad _ _ _ ids _ => 3 + 2 * length ids
  | CGot _ _ _ => 1
  end.
Lemma range_length {A} (m : gmap string A) ks : range_order m ks -> length ks = size m.
Proof. intros H. unfold range_order in H. rewrite H, fmap_length. done. Qed.
Lemma c_rank_step decompress s m pc m' pc' : c_step decompress s (m, pc) (m', pc') -> c_rank pc' < c_rank pc.
Proof.
  intros H. inversion H; subst; cbn [c_rank]; unfold after_index, n_terms;
    try (match goal with G : range_order _ _ |- _ => apply range_length in G; rewrite G end); try (destruct full); cbn [length c_rank]; unfold n_terms; lia.
Qed.
Lemma c_rank_doc m pc l m' pc' : c_doc (m, pc) l (m', pc') -> c_rank pc' < c_rank pc.
Proof. intros H. inversion H; subst; cbn; lia. Qed.

(** * Who moved *)
Section who.
  Variables (compress : bytes -> bytes) (decompress : bytes -> option bytes) (cache_size : Z).
  Notation up_step := (up_step compress decompress).
  (** Every step lowers the caller's rank or leaves it where it is. *)
  Lemma step_pc u s ev u' s' : up_step (u, s) ev (u', s') -> c_rank (u_pc u') < c_rank (u_pc u) \/ u_pc u' = u_pc u.
  Proof.
    intros H. inversion H; subst; cbn [u_pc]; try (by right); left; try (cbn; try (destruct full); cbn; unfold n_terms; lia).
    - by eapply c_rank_step.
    - by eapply c_rank_doc.
  Qed.
  Definition steady {V} (w w' : writer V) : Prop := w_pc w <> WIdle -> w' = w \/ w_rank w' < w_rank w.
  Lemma step_mw u s ev u' s' : up_step (u, s) ev (u', s') -> steady (u_mw u) (u_mw u').
  Proof. intros H Hn. inversion H; subst; cbn [u_mw] in *; try (by left). right. by eapply w_rank_step. Qed.
  Lemma step_nw u s ev u' s' : up_step (u, s) ev (u', s') -> steady (u_nw u) (u_nw u').
  Proof. intros H Hn. inversion H; subst; cbn [u_nw] in *; try (by left). right. by eapply w_rank_step. Qed.
  Lemma step_dw u s ev u' s' : up_step (u, s) ev (u', s') -> steady (u_dw u) (u_dw u').
  Proof. intros H Hn. inversion H; subst; cbn [u_dw] in *; try (by left). right. by eapply w_rank_step. Qed.
  Lemma step_iw u s ev u' s' : up_step (u, s) ev (u', s') -> i_pc (u_iw u) <> IIdle -> u_iw u' = u_iw u \/ i_rank (u_iw u') < i_rank (u_iw u).
  Proof. intros H Hn. inversion H; subst; cbn [u_iw] in *; try (by left). right. by eapply i_rank_step. Qed.
  (** Only the caller sends; a receive shortens the channel. *)
  Lemma step_ich u s ev u' s' : up_step (u, s) ev (u', s') -> u_pc u' = u_pc u -> u_ich u' = u_ich u \/ length (u_ich u') < length (u_ich u).
  Proof. intros H E. inversion H; subst; cbn [u_ich u_pc] in *; try (by left). right. cbn. lia. Qed.
  Lemma tick_same u s u' s' : up_tick (u, s) (u', s') -> u_pc u' = u_pc u /\ u_ich u' = u_ich u /\ s' = s /\
    steady (u_mw u) (u_mw u') /\ steady (u_nw u) (u_nw u') /\ steady (u_dw u) (u_dw u') /\ (i_pc (u_iw u) <> IIdle -> u_iw u' = u_iw u).
  Proof.
    intros H. unfold steady. inversion H; subst; cbn [u_pc u_ich u_mw u_nw u_dw u_iw]; do 3 (split; [done|]); repeat split; intros Hn; try (by left); try done;
      match goal with G : w_tick _ _ |- _ => inversion G; subst; done | G : i_tick _ _ |- _ => inversion G; subst; done end.
  Qed.

  (** * What is enabled *)
  Lemma w_enabled {V} dirof nameof (ser : string -> V -> bytes -> Prop) (ser_fails : string -> V -> Prop) (serf : string -> V -> option bytes) P (w : writer V) s :
    (forall k v T, w_buf w !! k = Some v -> serf k v = Some T -> ser k v T) -> (forall k v, w_buf w !! k = Some v -> serf k v = None -> ser_fails k v) ->
    w_wf dirof nameof P w s -> w_pc w <> WIdle -> ~ w_fatal dirof ser_fails (w, s) -> exists w' s', w_step compress dirof nameof ser (w, s) (w', s').
  Proof.
    intros S1 S2 [_ Hw] Hn Hf. destruct w as [buf pc]. cbn [w_pc w_buf] in *. destruct pc as [|[|k ks]|k ks|k ks T|k ks b pc].
    - done.
    - eexists _, _. constructor.
    - destruct (mkdir_all s (dirof k)) as [s'|] eqn:E; [eexists _, _; by constructor|]. exfalso. apply Hf. by constructor.
    - destruct Hw as [[_ Hw] _]. destruct (Hw k) as [v Hv]; [left|]. destruct (serf k v) as [T|] eqn:E.
      + eexists _, _. econstructor; [exact Hv|by eapply S1].
      + exfalso. apply Hf. econstructor; [exact Hv|by eapply S2].
    - eexists _, _. constructor.
    - destruct (ss_step (dirof k) (nameof k) b (pc, s)) as [[pc' s']|] eqn:E; [eexists _, _; by constructor|]. destruct pc; try discriminate E; try (cbn in E; case_match; discriminate E).
      + eexists _, _. apply w_done.
      + exfalso. apply Hf. apply w_fatal_save.
  Qed.
  Lemma i_enabled w s : i_wf w s -> i_pc w <> IIdle -> ~ i_fatal (w, s) -> exists w' s', i_step compress (w, s) (w', s').
  Proof.
    intros [_ Hw] Hn Hf. destruct w as [buf pc]. cbn [i_pc i_buf] in *. destruct pc as [|[|k ks]|k ks b|k ks b|k ks b u].
    - done.
    - eexists _, _. constructor.
    - destruct Hw as [_ Hw]. destruct (Hw k) as [m Hm]; [left|]. destruct (serialize_index (visit_index m)) as [T|] eqn:E.
      + eexists _, _. econstructor; [exact Hm|]. eexists. split; [apply visit_index_ok|exact E].
      + exfalso. apply Hf. econstructor; [exact Hm|]. eexists. split; [apply visit_index_ok|exact E].
    - destruct (mkdir_all s [k; "temp"]) as [s'|] eqn:E; [eexists _, _; by constructor|]. exfalso. apply Hf. by constructor.
    - set (used := omap (fun p : path => match p with [_; _; n] => Some n | _ => None end) ((map_to_list (fs_files s)).*1)).
      pose (n := fresh used). assert (fs_files s !! [k; "temp"; n] = None) as Hfr.
      { apply eq_None_not_Some. intros [c Hc]. apply (infinite_is_fresh used). apply elem_of_list_omap. exists [k; "temp"; n]. split; [|done]. apply elem_of_list_fmap. exists ([k; "temp"; n], c). split; [done|]. by apply elem_of_map_to_list. }
      destruct (open_trunc s [k; "temp"; n]) as [s'|] eqn:E; [eexists _, _; by econstructor|]. exfalso. apply Hf. by econstructor.
    - eexists _, _. constructor.
  Qed.
End who.
