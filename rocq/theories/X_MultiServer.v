(** Executions of M_MultiServer.v, computed.  Used only to exhibit concrete reachable
    states beside the theorems. *)
From Verif Require Import Base M_Text M_Language M_Field M_LRU S_Visits M_Memory M_File M_Serialize M_Num M_FanIn M_Search M_Concurrent M_SearchConc M_Disk P_DiskBusy M_DiskBusy M_DiskMulti M_Standard M_Server M_BusyServer M_MultiServer S_Search S_Server S_DiskMulti S_DiskQuery S_BusyServer S_MultiServer P_Base P_Server X_DiskExec X_DiskBusy X_DiskMulti X_DiskQuery T_Server T_BusyServer T_BusyServer2 S_Disk.
#[local] Open Scope nat_scope.

(** Two documents. *)
Definition mb_bind (body : string) : option document :=
  if String.eqb body "one" then Some (mkDocument "d1" "star" "red sun") else if String.eqb body "two" then Some (mkDocument "d2" "moon" "blue sun") else None.
Notation mb_post := (post mb_bind bs_letter bs_number same same same).
Lemma mb_post_ok body doc : mb_bind body = Some doc -> mb_post body 201 (map (Save (d_id doc)) (bs_fields doc)).
Proof.
  intros H. assert (is_not_document_complete doc = false) as Hc. { unfold mb_bind in H. repeat (case_match; [injection H as <-; reflexivity|]). discriminate H. }
  apply (post_created mb_bind bs_letter bs_number same same same body doc (bs_terms (d_id doc)) (bs_terms (d_title doc)) (bs_terms (d_text doc)) H Hc); by apply preprocess_terms.
Qed.
(** The maps of a loaded store: the i-th field at address i, its j-th term at 100 i + j. *)
Definition number {A} (l : list A) : list (nat * A) := zip (seq 0 (length l)) l.
Definition build_terms (m : cmem) : list (nat * string * list (nat * (string * gmap string bool))) :=
  map (fun p => (p.1, p.2.1, map (fun q => (100 * p.1 + q.1, q.2)) (number (map_to_list p.2.2)))) (number (map_to_list (c_index m))).
Definition build (m : cmem) : shared * gmap nat string * gmap nat (string * string) * gmap nat string :=
  let T := build_terms m in let n := number (map_to_list (c_nft m)) in
  (mkSh (c_size m) (c_length m) (list_to_map (map (fun p => (p.1.2, p.1.1)) T))
     (list_to_map (map (fun p => (p.1.1, list_to_map (map (fun q => (q.2.1, q.1)) p.2) : gmap string nat)) T))
     (list_to_map (concat (map (fun p => map (fun q => (q.1, q.2.2)) p.2) T)))
     (list_to_map (map (fun p => (p.2.1, p.1)) n)) (list_to_map (map (fun p => (p.1, p.2.2)) n)) ∅ ∅,
   list_to_map (map (fun p => (p.1.1, p.1.2)) T), list_to_map (concat (map (fun p => map (fun q => (q.1, (p.1.2, q.2.1))) p.2) T)), list_to_map (map (fun p => (p.1, p.2.1)) n)).

Inductive vact := VQ (a : qact) | VOpen | VPost (body : string) | VGet (text : string).
Section exec.
  Context {N : numops}.
  Variables (cs : Z) (ncpu : nat).
  Notation live := (mserver_live id Some cs mb_bind bs_letter bs_number same same same N ncpu).
  Notation step := (mserver_step id Some cs mb_bind bs_letter bs_number same same same N ncpu).
  Definition vstore (a : qact) (x : mserver N) : option (mserver N) :=
    let 'mkMServer b gs now past := x in
    match qexec id Some cs a b with
    | Some b' => match y_proc (mu_sys b') with
        | Down => Some (mkMServer (mkMulti (mu_sys b') sh_new [] []) [] [] (past ++ now))
        | _ => if (length (mu_threads b') <=? length (mu_threads b)) && (length (mu_qs b') <=? length (mu_qs b)) then Some (mkMServer b' gs now past) else None end
    | None => None end.
  Definition vexec (a : vact) (x : mserver N) : option (mserver N) :=
    match a with
    | VQ a => vstore a x
    | VOpen => match exec id Some cs AOpen (mu_sys (ms_store x)) with
        | Some y' => match y_proc y' with Up u => let '(sh, ol, oa, on) := build (u_mem u) in vstore (QOpen sh ol oa on) x | _ => None end
        | None => None end
    | VPost body => match mb_bind body, x with
        | Some doc, mkMServer (mkMulti (mkSys s (Up u) log) sh ths qs) gs now past => Some (mkMServer (mkMulti (mkSys s (Up u) log) sh (ths ++ [(TIdle, NoMsg, map (Save (d_id doc)) (bs_fields doc))]) qs) gs (now ++ [body]) past)
        | _, _ => None end
    | VGet text => match y_proc (mu_sys (ms_store x)) with
        | Up _ => Some (mkMServer (ms_store x) (ms_gets x ++ [(get_queries N (bs_terms text), fan_init true 0 (JCall <$> get_queries N (bs_terms text)))]) (ms_now x) (ms_past x))
        | _ => None end
    end.
  Lemma live_not_down b b' : multi_live id Some cs b b' -> y_proc (mu_sys b') <> Down.
  Proof.
    intros H. inversion H; subst; cbn [mu_sys y_proc]; try done; try congruence. match goal with K : live_step _ _ _ _ _ |- _ => by inversion K; subst end.
  Qed.
  Lemma vstore_ok a x y : vstore a x = Some y -> step x y /\ (y_proc (mu_sys (ms_store y)) <> Down -> live x y).
  Proof.
    destruct x as [b gs now past]. unfold vstore. destruct (qexec id Some cs a b) as [b'|] eqn:E; [|discriminate 1]. apply qexec_ok in E. intros H.
    destruct E as [E|(y' & E & ->)].
    - pose proof (live_not_down _ _ E) as Hn. destruct (y_proc (mu_sys b')); [done|..].
      all: destruct (_ && _) eqn:El; [|discriminate H]; injection H as <-; apply andb_true_iff in El as [E1 E2]; apply Nat.leb_le in E1, E2.
      all: assert (live (mkMServer b gs now past) (mkMServer b' gs now past)) by (by apply mv_step); split; [by left|done].
    - assert (y_proc y' = Down) as Ed by (by inversion E). cbn [mu_sys] in H. rewrite Ed in H. injection H as <-. split; [right; by exists y'|]. cbn. by rewrite Ed.
  Qed.
  Lemma vexec_ok a x y : vexec a x = Some y -> step x y /\ (y_proc (mu_sys (ms_store y)) <> Down -> live x y).
  Proof.
    destruct a as [a| |body|text]; cbn [vexec]; intros H.
    - by eapply vstore_ok.
    - destruct (exec _ _ _ _ _) as [y'|]; [|discriminate H]. destruct (y_proc y') as [| |u]; try discriminate H. destruct (build (u_mem u)) as [[[sh ol] oa] on]. by eapply vstore_ok.
    - destruct (mb_bind body) as [doc|] eqn:Eb; [|discriminate H]. destruct x as [[[s [|g|u] log] sh ths qs] gs now past]; try discriminate H. injection H as <-.
      assert (live (mkMServer (mkMulti (mkSys s (Up u) log) sh ths qs) gs now past) (mkMServer (mkMulti (mkSys s (Up u) log) sh (ths ++ [(TIdle, NoMsg, map (Save (d_id doc)) (bs_fields doc))]) qs) gs (now ++ [body]) past)) by (eapply mv_post, mb_post_ok; exact Eb).
      split; [by left|done].
    - destruct (y_proc (mu_sys (ms_store x))) as [| |u] eqn:E; try discriminate H. injection H as <-. destruct x as [b gs now past]. cbn in *.
      assert (live (mkMServer b gs now past) (mkMServer b (gs ++ [(get_queries N (bs_terms text), fan_init true 0 (JCall <$> get_queries N (bs_terms text)))]) now past)) by (by eapply mv_get). split; [by left|done].
  Qed.
  (** [ok] is checked before and after every step. *)
  Section play.
    Variable ok : mserver N -> bool.
    Definition vnext (a : vact) (x : mserver N) : option (mserver N) :=
      if ok x then match vexec a x with Some y => if ok y then Some y else None | None => None end else None.
    Fixpoint vwhile (n : nat) (a : vact) (x : mserver N) : mserver N := match n with O => x | S n => match vnext a x with Some y => vwhile n a y | None => x end end.
    Fixpoint vplay (l : list (bool * vact)) (x : mserver N) : option (mserver N) :=
      match l with [] => Some x | (true, a) :: l => vplay l (vwhile 100 a x) | (false, a) :: l => match vnext a x with Some y => vplay l y | None => None end end.
    Definition checked (x y : mserver N) : Prop := step x y /\ (y_proc (mu_sys (ms_store y)) <> Down -> live x y) /\ ok x = true /\ ok y = true.
    Lemma vnext_ok a x y : vnext a x = Some y -> checked x y.
    Proof. unfold vnext. destruct (ok x) eqn:E1; [|discriminate 1]. destruct (vexec a x) as [z|] eqn:E; [|discriminate 1]. destruct (ok z) eqn:E2; [|discriminate 1]. intros [= <-]. destruct (vexec_ok _ _ _ E). done. Qed.
    Lemma vwhile_ok n a : forall x, rtc checked x (vwhile n a x).
    Proof. induction n as [|n IH]; intros x; cbn; [apply rtc_refl|]. destruct (vnext a x) as [y|] eqn:E; [|apply rtc_refl]. eapply rtc_l; [by eapply vnext_ok|]. apply IH. Qed.
    Lemma vplay_ok l : forall x y, vplay l x = Some y -> rtc checked x y.
    Proof.
      induction l as [|[[] a] l IH]; intros x y H; cbn [vplay] in H; [injection H as <-; apply rtc_refl| |].
      - etransitivity; [apply vwhile_ok|]. by apply IH.
      - destruct (vnext a x) as [x'|] eqn:E; [|discriminate H]. eapply rtc_l; [by eapply vnext_ok|]. by apply IH.
    Qed.
  End play.
  Definition v_any (_ : mserver N) : bool := true.
  Definition v_up (x : mserver N) : bool := match y_proc (mu_sys (ms_store x)) with Up _ => true | _ => false end.
  Definition v_alive (x : mserver N) : bool := match y_proc (mu_sys (ms_store x)) with Down => false | _ => true end.
  Lemma vplay_step l x y ok : vplay ok l x = Some y -> rtc step x y.
  Proof. intros H. apply vplay_ok in H. eapply rtc_subrel; [|exact H]. by intros ? ? []. Qed.
  Lemma vplay_session l x y : vplay v_up l x = Some y -> ms_session id Some cs mb_bind bs_letter bs_number same same same ncpu x y.
  Proof.
    intros H. apply vplay_ok in H. eapply rtc_subrel; [|exact H]. intros a b (_ & H1 & H2 & H3). unfold v_up, mu_open in *. split.
    - apply H1. intros E. by rewrite E in H3.
    - destruct (y_proc (mu_sys (ms_store a))); try discriminate H2. by eexists.
  Qed.
  Lemma vplay_live l x y : vplay v_alive l x = Some y -> rtc live x y.
  Proof. intros H. apply vplay_ok in H. eapply rtc_subrel; [|exact H]. intros a b (_ & H1 & _ & H3). apply H1. intros E. unfold v_alive in H3. by rewrite E in H3. Qed.
End exec.
