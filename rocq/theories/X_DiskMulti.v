(** Executions of M_DiskMulti, computed.  Used only to exhibit concrete reachable states
    beside the theorems. *)
From Verif Require Import Base M_Field M_LRU S_Visits M_Memory M_File M_Serialize M_Num M_FanIn M_Search M_Concurrent M_SearchConc M_Disk M_DiskBusy M_DiskMulti S_Disk X_DiskExec X_DiskBusy.
#[local] Open Scope Z_scope.

Definition fresh_key {A} (h : gmap nat A) : nat := S (max_list (map_to_list h).*1).
Lemma fresh_key_ok {A} (h : gmap nat A) : h !! fresh_key h = None.
Proof.
  apply eq_None_not_Some. intros [v H]. apply elem_of_map_to_list in H. assert (fresh_key h ∈ (map_to_list h).*1) as Hin by (apply elem_of_list_fmap; by exists (fresh_key h, v)).
  apply max_list_elem_of_le in Hin. unfold fresh_key in Hin. lia.
Qed.
Definition t_exec (s : shared) (pc : tpc) : option (shared * tpc) :=
  match pc with
  | TSize full d x => Some (s, TSizeW full d x (geti (k_size s) (f_name x)))
  | TSizeW full d x v => Some (set_ksize s (<[f_name x := wrap64 (v + 1)]> (k_size s)), TLen full d x)
  | TLen full d x => Some (s, TLenW full d x (geti (k_length s) (f_name x)))
  | TLenW full d x v => Some (set_klength s (<[f_name x := wrap64 (v + f_length x)]> (k_length s)), TIdx full d x)
  | TIdx full d x => match M_Concurrent.k_index s !! f_name x with Some l => Some (s, TLoop full d x l (keys_of (f_tf x))) | None => Some (s, TIdxNew full d x) end
  | TIdxNew full d x => let l := fresh_key (k_maps s) in
      Some (set_kindex s (<[f_name x := l]> (M_Concurrent.k_index s)) (<[l := ∅]> (k_maps s)) (k_sets s), TLoop full d x l (keys_of (f_tf x)))
  | TLoop full d x l (t :: ks) => Some (s, TSet full d x l t ks (default ∅ (k_maps s !! l) !! t))
  | TLoop full d x l [] => Some (s, if full then M_Concurrent.TNft d x else TIdle)
  | TSet full d x l t ks None => let a := fresh_key (k_sets s) in
      Some (set_kindex s (M_Concurrent.k_index s) (<[l := <[t := a]> (default ∅ (k_maps s !! l))]> (k_maps s)) (<[a := set_step set_new (SAdd d)]> (k_sets s)), TLoop full d x l ks)
  | TSet full d x l t ks (Some a) =>
      Some (set_kindex s (M_Concurrent.k_index s) (k_maps s) (<[a := set_step (default set_new (k_sets s !! a)) (SAdd d)]> (k_sets s)), TLoop full d x l ks)
  | M_Concurrent.TNft d x => match k_nft s !! f_name x with Some l => Some (s, TNftLoop d x l (keys_of (f_tf x)))
      | None => let l := fresh_key (k_nfts s) in Some (set_knft s (k_nft s) (<[l := ∅]> (k_nfts s)), TNftLoop d x l (keys_of (f_tf x))) end
  | TNftLoop d x l (t :: ks) => Some (s, TNftW d x l t ks (geti (default ∅ (k_nfts s !! l)) t))
  | TNftW d x l t ks v => Some (set_knft s (k_nft s) (<[l := <[t := wrap64 (v + 1)]> (default ∅ (k_nfts s !! l))]> (k_nfts s)), TNftLoop d x l ks)
  | TNftLoop d x l [] => Some (set_knft s (<[f_name x := l]> (k_nft s)) (k_nfts s), TIdle)
  | _ => None
  end.
Lemma t_exec_ok s pc r : t_exec s pc = Some r -> t_step (s, pc) r.
Proof.
  destruct pc; cbn [t_exec]; intros H; try discriminate H.
  - injection H as <-. constructor.
  - injection H as <-. constructor.
  - injection H as <-. constructor.
  - injection H as <-. constructor.
  - destruct (M_Concurrent.k_index s !! f_name x) eqn:E; injection H as <-; constructor; try done. apply keys_of_order.
  - injection H as <-. constructor; [apply fresh_key_ok|apply keys_of_order].
  - destruct ks; injection H as <-; constructor.
  - destruct o; injection H as <-; constructor. apply fresh_key_ok.
  - destruct (k_nft s !! f_name x) eqn:E; injection H as <-; constructor; try done; [apply keys_of_order|apply fresh_key_ok|apply keys_of_order].
  - destruct ks; injection H as <-; constructor.
  - injection H as <-. constructor.
Qed.
Definition client_exec (sh : shared) (u : up) (pc : tpc) (m : msg) : option (shared * up * msg * tpc * list event) :=
  match m with
  | NoMsg => r ← t_exec sh pc; Some (r.1, u, after pc, r.2, [])
  | FLen x => Some (sh, u, FSize x (geti (k_length sh) (f_name x)), pc, [])
  | FSize x len => Some (sh, u, FSend x len (geti (k_size sh) (f_name x)), pc, [])
  | FSend x len size => match w_pc (u_mw u) with WIdle => Some (sh, with_mw u (mkW (m_recv (w_buf (u_mw u)) (f_name x) size len) WIdle), NoMsg, pc, []) | _ => None end
  | ISend p => if decide (length (u_ich u) < 100)%nat then Some (sh, with_ich u (u_ich u ++ [p]), NoMsg, pc, []) else None
  | NCount f t l => Some (sh, u, NSend f t (geti (counts_at sh l) t), pc, [])
  | NSend f t n => match w_pc (u_nw u) with WIdle => Some (sh, with_nw u (mkW (n_recv (w_buf (u_nw u)) f t n) WIdle), NoMsg, pc, [ENft f t n]) | _ => None end
  | DDoc d x dp => r ← doc_exec (u_dw u) (u_mem u) (CDoc d x) dp;
      match r with
      | (m', CDocSend d' x' l, None) => if bool_decide (d' = d /\ x' = x) then Some (sh, with_mem u m' (u_pc u), DSend d x l, pc, []) else None
      | (m', CDoc d' x', dp') => if bool_decide (d' = d /\ x' = x) then Some (sh, with_mem u m' (u_pc u), DDoc d x dp', pc, []) else None
      | _ => None end
  | DSend d x l => match w_pc (u_dw u) with WIdle => Some (sh, with_dw u (mkW (d_recv (w_buf (u_dw u)) d l) WIdle), NoMsg, pc, []) | _ => None end
  end.
Lemma idle_writer {V} (w : writer V) : w_pc w = WIdle -> w = mkW (w_buf w) WIdle.
Proof. destruct w. cbn. by intros ->. Qed.
Lemma client_exec_ok sh u pc m sh' u' m' pc' ev : client_exec sh u pc m = Some (sh', u', m', pc', ev) -> client_step (sh, u, (pc, m)) ev (sh', u', (pc', m')).
Proof.
  destruct m; cbn [client_exec]; intros H.
  - destruct (t_exec sh pc) as [[s1 p1]|] eqn:E; [|discriminate H]. injection H as <- <- <- <- <-. constructor. by apply t_exec_ok in E.
  - injection H as <- <- <- <- <-. constructor.
  - injection H as <- <- <- <- <-. constructor.
  - destruct (w_pc (u_mw u)) eqn:E; try discriminate H. injection H as <- <- <- <- <-. constructor. by apply idle_writer.
  - destruct (decide _); [|discriminate H]. injection H as <- <- <- <- <-. by constructor.
  - injection H as <- <- <- <- <-. constructor.
  - destruct (w_pc (u_nw u)) eqn:E; try discriminate H. injection H as <- <- <- <- <-. constructor. by apply idle_writer.
  - destruct (doc_exec (u_dw u) (u_mem u) (CDoc d x) dp) as [[[m1 p1] d1]|] eqn:E; [|discriminate H]. apply doc_exec_ok in E. cbn in H.
    destruct p1; try discriminate H.
    + case_bool_decide as B; [|discriminate H]. destruct B as [-> ->]. injection H as <- <- <- <- <-. by apply m_doc.
    + destruct d1; [discriminate H|]. case_bool_decide as B; [|discriminate H]. destruct B as [-> ->]. injection H as <- <- <- <- <-. by eapply m_doc_put.
  - destruct (w_pc (u_dw u)) eqn:E; try discriminate H. injection H as <- <- <- <- <-. constructor. by apply idle_writer.
Qed.
Inductive mact := MSys (a : act) | MReq (cs : list call) | MCall (i : nat) | MStep (i : nat).
Section exec.
  Variables (compress : bytes -> bytes) (decompress : bytes -> option bytes) (cache_size : Z).
  Notation step := (multi_step compress decompress cache_size).
  Definition mexec (a : mact) (b : multi) : option multi :=
    let 'mkMulti y sh ths qs := b in
    match a with
    | MSys a => y' ← exec compress decompress cache_size a y;
        match y_proc y, y_proc y' with
        | _, Down => Some (mkMulti y' sh_new [] [])
        | Loading _, Up u => if bool_decide (c_index (u_mem u) = ∅ /\ c_length (u_mem u) = ∅ /\ c_size (u_mem u) = ∅ /\ c_nft (u_mem u) = ∅) then Some (mkMulti y' sh_new [] []) else None
        | Up _, Up u' => match u_pc u' with CIdle => Some (mkMulti y' sh ths qs) | _ => None end
        | _, Loading _ => Some (mkMulti y' sh ths qs)
        | Down, Up _ => None
        end
    | MReq cs => match y with mkSys s (Up u) log => Some (mkMulti y sh (ths ++ [(TIdle, NoMsg, cs)]) qs) | _ => None end
    | MCall i => match y, ths !! i with
        | mkSys s (Up u) log, Some (TIdle, NoMsg, c :: cs) => Some (mkMulti (mkSys s (Up u) (log ++ [ECall c])) sh (<[i := (t_enter true c, NoMsg, cs)]> ths) qs)
        | _, _ => None end
    | MStep i => match y, ths !! i with
        | mkSys s (Up u) log, Some (pc, m, cs) => r ← client_exec sh u pc m;
            let '(sh', u', m', pc', ev) := r in Some (mkMulti (mkSys s (Up u') (log ++ ev)) sh' (<[i := (pc', m', cs)]> ths) qs)
        | _, _ => None end
    end.
  Lemma loaded_empty m : c_index m = ∅ -> c_length m = ∅ -> c_size m = ∅ -> c_nft m = ∅ -> loaded m sh_new.
  Proof.
    intros E1 E2 E3 E4. split; [unfold view; cbn; rewrite E1, E2, E3, E4, !fmap_empty; done|]. exists ∅, ∅, ∅. cbn.

    split; [intros f l; by rewrite !lookup_empty|]. split; [intros l; rewrite !lookup_empty; split; by intros [? ?]|]. split; [intros l; rewrite !lookup_empty; split; by intros [? ?]|].
    split; [intros f t a; rewrite lookup_empty; split; [|done]; intros (l & m0 & H & _); done|].
    split; [intros f l; by rewrite !lookup_empty|]. intros l; rewrite !lookup_empty; split; by intros [? ?].
  Qed.
  Lemma mexec_ok a b c : mexec a b = Some c -> step b c.
  Proof.
    destruct b as [y sh ths qs]. destruct a as [a|cs|i|i]; cbn [mexec]; intros H.
    - destruct (exec compress decompress cache_size a y) as [y'|] eqn:E; [|discriminate H]. apply exec_ok in E. cbn in H.
      destruct (y_proc y') as [|g|u'] eqn:E2.
      + assert (c = mkMulti y' sh_new [] []) as ->. { destruct (y_proc y); by injection H as <-. }
        destruct E as [E|E]; [|right; by exists y']. exfalso. inversion E; subst; cbn in E2; discriminate E2.
      + assert (c = mkMulti y' sh ths qs) as ->. { destruct (y_proc y); by injection H as <-. }
        left. destruct E as [E|E]; [|exfalso; inversion E; subst; cbn in E2; discriminate E2]. apply mz_closed; [done|]. intros u. congruence.
      + destruct E as [E|E]; [|exfalso; inversion E; subst; cbn in E2; discriminate E2]. left. destruct (y_proc y) as [|g|u] eqn:E1; [discriminate H| |].
        * case_bool_decide as B; [|discriminate H]. injection H as <-. destruct B as (B1 & B2 & B3 & B4). eapply mz_opened; try done. by apply loaded_empty.
        * destruct (u_pc u') eqn:Ep; try discriminate H. injection H as <-. by eapply mz_background.
    - destruct y as [s [|g|u] log]; try discriminate H. injection H as <-. left. constructor.
    - destruct y as [s [|g|u] log]; try discriminate H. destruct (ths !! i) as [[[pc m] cs]|] eqn:E; [|discriminate H]. destruct pc; try discriminate H. destruct m; try discriminate H. destruct cs as [|c0 cs]; [discriminate H|].
      injection H as <-. left. by constructor.
    - destruct y as [s [|g|u] log]; try discriminate H. destruct (ths !! i) as [[[pc m] cs]|] eqn:E; [|discriminate H]. destruct (client_exec sh u pc m) as [[[[[sh' u'] m'] pc'] ev]|] eqn:E2; [|discriminate H].
      cbn in H. injection H as <-. left. eapply mz_client; [exact E|]. by apply client_exec_ok.
  Qed.
  Fixpoint mscript (l : list mact) (b : multi) : option multi := match l with [] => Some b | a :: l => c ← mexec a b; mscript l c end.
  Lemma mscript_ok l : forall b c, mscript l b = Some c -> rtc step b c.
  Proof.
    induction l as [|a l IH]; intros b c H; cbn in H; [injection H as <-; apply rtc_refl|]. destruct (mexec a b) as [b'|] eqn:E; [|discriminate H]. eapply rtc_l; [by eapply mexec_ok|]. by apply IH.
  Qed.
  (** [true]: repeat the action as long as it is possible. *)
  Fixpoint mwhile (n : nat) (a : mact) (b : multi) : multi := match n with O => b | S n => match mexec a b with Some c => mwhile n a c | None => b end end.
  Lemma mwhile_ok n a : forall b, rtc step b (mwhile n a b).
  Proof.
    induction n as [|n IH]; intros b; cbn; [apply rtc_refl|]. destruct (mexec a b) as [c|] eqn:E; [|apply rtc_refl]. eapply rtc_l; [by eapply mexec_ok|]. apply IH.
  Qed.
  Fixpoint mplay (l : list (bool * mact)) (b : multi) : option multi :=
    match l with [] => Some b | (true, a) :: l => mplay l (mwhile 100 a b) | (false, a) :: l => c ← mexec a b; mplay l c end.
  Lemma mplay_ok l : forall b c, mplay l b = Some c -> rtc step b c.
  Proof.
    induction l as [|[[] a] l IH]; intros b c H; cbn [mplay] in H; [injection H as <-; apply rtc_refl| |].
    - etransitivity; [apply mwhile_ok|]. by apply IH.
    - destruct (mexec a b) as [b'|] eqn:E; [|discriminate H]. eapply rtc_l; [by eapply mexec_ok|]. by apply IH.
  Qed.
End exec.
Lemma mplay_obs {A} (cs : Z) l (obs : multi -> A) (v : A) :
  option_map obs (mplay id Some cs l multi_init) = Some v -> exists a, multi_reachable id Some cs a /\ obs a = v.
Proof. destruct (mplay id Some cs l multi_init) as [a|] eqn:E; [|done]. cbn. intros [= <-]. exists a. split; [|done]. by eapply mplay_ok. Qed.
