(** Concrete executions of M_DiskBusy.v, computed. *)
From Verif Require Import Base M_Field M_LRU S_Visits M_Memory M_File M_Serialize M_Num M_FanIn M_Search M_SearchConc M_Disk X_DiskExec P_DiskBusy M_DiskBusy S_Disk.
#[local] Open Scope nat_scope.

Section fan.
  Context {P A M : Type}.
  Variables (inner : P -> option (M * P)) (send : P -> option (A * P)) (stop : P -> bool) (ccap scap : nat).
  Definition fan_worker (m : main_pc P) (pre : list (worker2 P)) (w : worker2 P) (post : list (worker2 P)) wg sem (ch : list A) cl got : option (fan2 P A * option M) :=
    match w with
    | VAcquire p => if sem <? scap then Some (mkFan2 m (pre ++ VRun p :: post) wg (S sem) ch cl got false, None) else None
    | VRun p =>
        match inner p with
        | Some (x, p') => Some (mkFan2 m (pre ++ VRun p' :: post) wg sem ch cl got false, Some x)
        | None => match send p with
          | Some (x, p') => match cl with CClosed => None | _ =>
              if length ch <? ccap then Some (mkFan2 m (pre ++ VRun p' :: post) wg sem (ch ++ [x]) cl got false, None) else None end
          | None => if stop p then match sem with S sem' => Some (mkFan2 m (pre ++ VFinish :: post) wg sem' ch cl got false, None) | O => None end else None
          end
        end
    | VFinish => match wg with S wg' => Some (mkFan2 m (pre ++ post) wg' sem ch cl got false, None) | O => None end
    end.
  Fixpoint fan_scan m (pre ws : list (worker2 P)) wg sem (ch : list A) cl got : option (fan2 P A * option M) :=
    match ws with
    | [] => None
    | w :: ws' => match fan_worker m pre w ws' wg sem ch cl got with Some r => Some r | None => fan_scan m (pre ++ [w]) ws' wg sem ch cl got end
    end.
  Definition fan_exec (w : fan2 P A) : option (fan2 P A * option M) :=
    match w with
    | mkFan2 m ws wg sem ch cl got false =>
        match m, cl with
        | MSpawn (p :: todo), _ => Some (mkFan2 (MSpawn todo) (ws ++ [VAcquire p]) (S wg) sem ch cl got false, None)
        | MSpawn [], CNone => Some (mkFan2 MCollect ws wg sem ch CWait got false, None)
        | _, _ =>
            match fan_scan m [] ws wg sem ch cl got with
            | Some r => Some r
            | None => match m, ch, cl, wg with
              | MCollect, x :: ch', _, _ => Some (mkFan2 MCollect ws wg sem ch' cl (got ++ [x]) false, None)
              | _, _, CWait, O => Some (mkFan2 m ws 0 sem ch CClosed got false, None)
              | MCollect, [], CClosed, _ => Some (mkFan2 MDone ws wg sem [] CClosed got false, None)
              | _, _, _, _ => None
              end
            end
        end
    | _ => None
    end.
  Variables (psend : P -> A -> P -> Prop) (pstop : P -> Prop).
  Hypothesis send_ok : forall p x p', send p = Some (x, p') -> psend p x p'.
  Hypothesis stop_ok : forall p, stop p = true -> pstop p.
  Definition fan_good (w : fan2 P A) (r : fan2 P A * option M) : Prop :=
    match r.2 with
    | None => fan2_step (fun _ _ => False) psend pstop ccap scap w r.1
    | Some x => exists p p', inner p = Some (x, p') /\ fan2_inner p p' w r.1
    end.
  Lemma fan_worker_ok m pre w post wg sem ch cl got r : fan_worker m pre w post wg sem ch cl got = Some r -> fan_good (mkFan2 m (pre ++ w :: post) wg sem ch cl got false) r.
  Proof.
    destruct w as [p|p|]; cbn [fan_worker].
    - destruct (sem <? scap) eqn:E; [|done]. apply Nat.ltb_lt in E. intros [= <-]. by apply f2_acquire.
    - destruct (inner p) as [[x p']|] eqn:Ei; [intros [= <-]; exists p, p'; by split|]. destruct (send p) as [[x p']|] eqn:Es.
      + destruct cl; try done; (destruct (length ch <? ccap) eqn:E; [|done]); apply Nat.ltb_lt in E; intros [= <-]; (eapply f2_send; [by apply send_ok|done|done]).
      + destruct (stop p) eqn:Et; [|done]. destruct sem; [done|]. intros [= <-]. apply f2_release. by apply stop_ok.
    - destruct wg; [done|]. intros [= <-]. constructor.
  Qed.
  Lemma fan_scan_ok m ws wg sem ch cl got r : forall pre, fan_scan m pre ws wg sem ch cl got = Some r -> fan_good (mkFan2 m (pre ++ ws) wg sem ch cl got false) r.
  Proof.
    induction ws as [|w ws IH]; intros pre; cbn; [done|]. destruct (fan_worker m pre w ws wg sem ch cl got) as [r'|] eqn:E; [intros [= <-]; by apply fan_worker_ok|]. intros H. apply IH in H. by rewrite <- app_assoc in H.
  Qed.
  Lemma fan_exec_ok w r : fan_exec w = Some r -> fan_good w r.
  Proof.
    destruct w as [m ws wg sem ch cl got []]; [done|]. cbn.
    assert (match fan_scan m [] ws wg sem ch cl got with
            | Some r => Some r
            | None => match m, ch, cl, wg with
              | MCollect, x :: ch', _, _ => Some (mkFan2 MCollect ws wg sem ch' cl (got ++ [x]) false, None)
              | _, _, CWait, O => Some (mkFan2 m ws 0 sem ch CClosed got false, None)
              | MCollect, [], CClosed, _ => Some (mkFan2 MDone ws wg sem [] CClosed got false, None)
              | _, _, _, _ => None
              end
            end = Some r -> fan_good (mkFan2 m ws wg sem ch cl got false) r) as H.
    { destruct (fan_scan m [] ws wg sem ch cl got) as [r'|] eqn:E; [intros [= <-]; by apply (fan_scan_ok _ _ _ _ _ _ _ _ [])|]. destruct m as [| |], ch, cl, wg; try done; intros [= <-]; constructor. }
    destruct m as [[|p todo]| |]; [destruct cl; [|exact H|exact H]|..]; try exact H; intros [= <-]; constructor.
  Qed.
End fan.

Definition bterm_exec (f : string) (m : cmem) (p : bterm) : option (unit * bterm) :=
  match p with
  | BTerm t => match c_index m !! f with None => Some (tt, BEnd) | Some _ => Some (tt, BField t) end
  | BField t => match default (∅ : gmap string set_data) (c_index m !! f) !! t with None => Some (tt, BEnd) | Some _ => Some (tt, BSet t) end
  | BSet t => Some (tt, BRange t (dom (listed_set m f t)) [])
  | BRange t must sent =>
      match List.filter (fun id => bool_decide (id ∉ sent)) (map_to_list (listed_set m f t)).*1 with
      | id :: _ => Some (tt, BId t must sent id)
      | [] => if bool_decide (must ⊆ list_to_set sent) then Some (tt, BEnd) else None
      end
  | _ => None
  end.
Lemma bterm_exec_ok f m p x p' : bterm_exec f m p = Some (x, p') -> bterm_step f m p p'.
Proof.
  destruct p as [t|t|t|t must sent|t must sent id|]; cbn; try done.
  - destruct (c_index m !! f) eqn:E; intros [= _ <-]; [by eapply bt_index|by apply bt_none].
  - destruct (default (∅ : gmap string set_data) (c_index m !! f) !! t) eqn:E; intros [= _ <-]; [by eapply bt_term|by apply bt_noterm].
  - intros [= _ <-]. constructor.
  - destruct (List.filter _ _) as [|id ids] eqn:E.
    + destruct (bool_decide _) eqn:Eb; [|done]. apply bool_decide_eq_true_1 in Eb. intros [= _ <-]. by constructor.
    + intros [= _ <-]. assert (In id (id :: ids)) as Hin by (by left). rewrite <- E in Hin. apply filter_In in Hin as [H1 H2]. apply bool_decide_eq_true_1 in H2. apply elem_of_list_In, elem_of_list_fmap in H1 as ([k v] & -> & H1). apply elem_of_map_to_list in H1. constructor; [by eexists|done].
Qed.
Definition bterm_sendf (p : bterm) : option (string * bterm) := match p with BId t must sent id => Some (id, BRange t must (sent ++ [id])) | _ => None end.
Definition bterm_stopf (p : bterm) : bool := match p with BEnd => true | _ => false end.
Section batch.
  Variable decompress : bytes -> option bytes.
  Definition bbatch_exec (f : string) (s : fs) (m : cmem) (p : bbatch) : option (cmem * bbatch) :=
    match p with
    | BDocs (id :: ids) acc => match lru_get (c_cache m) id with
        | Some (c', Some e) => Some (set_cache m c' (c_heap m), BPtr id e ids acc)
        | Some (c', None) => Some (set_cache m c' (c_heap m), BLoad id ids acc)
        | None => None end
    | BDocs [] acc => Some (m, BOut (map_to_list acc))
    | BPtr id e ids acc => l ← lru_deref (c_cache m) e; Some (m, BMap id l ids acc)
    | BMap id l ids acc => fd ← c_heap m !! l; Some (m, BDocs ids (add_field f id fd acc))
    | BLoad id ids acc => match load_doc decompress s id with
        | Some (Some fd) => let l := fresh_addr (c_heap m) in Some (set_cache m (c_cache m) (<[l := fd]> (c_heap m)), BPut id l ids (add_field f id fd acc))
        | Some None => Some (m, BDocs ids acc)
        | None => None end
    | BPut id l ids acc => c' ← lru_put (c_cache m) id l; Some (set_cache m c' (c_heap m), BDocs ids acc)
    | BOut _ => None
    end.
  Lemma bbatch_exec_ok f s m p m' p' : bbatch_exec f s m p = Some (m', p') -> bbatch_step decompress f s (m, p) (m', p').
  Proof.
    destruct p as [[|id ids] acc|id e ids acc|id l ids acc|id ids acc|id l ids acc|kxs]; cbn [bbatch_exec]; intros H.
    - injection H as <- <-. by constructor.
    - destruct (lru_get (c_cache m) id) as [[c' [e|]]|] eqn:E; [..|done]; injection H as <- <-; by constructor.
    - destruct (lru_deref (c_cache m) e) as [l|] eqn:E; [|done]. injection H as <- <-. by constructor.
    - destruct (c_heap m !! l) as [fd|] eqn:E; [|done]. injection H as <- <-. by constructor.
    - destruct (load_doc decompress s id) as [[fd|]|] eqn:E; [..|done]; injection H as <- <-; constructor; try done. apply fresh_addr_ok.
    - destruct (lru_put (c_cache m) id l) as [c'|] eqn:E; [|done]. injection H as <- <-. by constructor.
    - done.
  Qed.
End batch.
Definition bbatch_sendf (p : bbatch) : option (gmap string field * bbatch) := match p with BOut (kx :: kxs) => Some ({[ kx.1 := kx.2 ]}, BOut kxs) | _ => None end.
Definition bbatch_stopf (p : bbatch) : bool := match p with BOut [] => true | _ => false end.

#[local] Instance call_eq_dec : EqDecision call.
Proof. solve_decision. Defined.
#[local] Instance cpc_eq_dec : EqDecision cpc.
Proof. solve_decision. Defined.
Section busy.
  Variables (compress : bytes -> bytes) (decompress : bytes -> option bytes) (cache_size : Z) (N : numops) (ncpu : nat).
  Definition search_exec (terms : list string) (f : string) (u : up) (s : fs) (q : dsearch N) : option (cmem * dsearch N) :=
    let m := u_mem u in
    match q with
    | SLength => Some (m, SSize (geti (c_length m) f))
    | SSize len => Some (m, SNft len (geti (c_size m) f) terms ∅)
    | SNft len n (t :: ts) acc => Some (m, SNftTerm len n t (match nft_now u f with Some _ => true | None => false end) ts acc)
    | SNft len n [] acc => Some (m, SIds len n acc (fan2_init 0 (BTerm <$> terms)))
    | SNftTerm len n t b ts acc => Some (m, SNft len n ts (<[t := if b then geti (default (∅ : gmap string Z) (nft_now u f)) t else 0%Z]> acc))
    | SIds len n nft w => match f2_main w with
        | MDone => Some (m, SFields len n nft (fan2_init (f2_sem w) ((fun b => BDocs b ∅) <$> batches_of (f2_got w))))
        | _ => r ← fan_exec (bterm_exec f m) bterm_sendf bterm_stopf (length terms) (ncpu * 2) w; Some (m, SIds len n nft r.1) end
    | SFields len n nft w => match f2_main w with
        | MDone => Some (m, SRet (mkResult (ndiv N (of_int N len) (of_int N n)) (merge_fields (f2_got w)) (of_int N n) nft))
        | _ => r ← fan_exec (bbatch_exec decompress f s m) bbatch_sendf bbatch_stopf (length terms) (ncpu * 2) w; Some (default m r.2, SFields len n nft r.1) end
    | SRet _ => None
    end.
  Lemma search_exec_ok terms f u s q m' q' : search_exec terms f u s q = Some (m', q') -> dsearch_step decompress N ncpu terms f u s q (m', q').
  Proof.
    destruct q as [|len|len n [|t ts] acc|len n t b ts acc|len n nft w|len n nft w|r]; cbn [search_exec]; intros H; try (injection H as <- <-; constructor); [..|done].
    - assert (forall p x p', bterm_sendf p = Some (x, p') -> bterm_send p x p') as S1. { intros p x p' Hp. destruct p; try done. cbn in Hp. injection Hp as <- <-. constructor. }
      assert (forall p, bterm_stopf p = true -> bterm_stop p) as S2 by (intros []; done).
      destruct (f2_main w) eqn:E; [| |injection H as <- <-; by constructor].
      all: destruct (fan_exec _ _ _ _ _ w) as [[w' [[]|]]|] eqn:Ef; [..|done]; injection H as <- <-; apply (fan_exec_ok _ _ _ _ _ bterm_send bterm_stop S1 S2) in Ef.
      all: constructor.
      + destruct Ef as (p & p' & E1 & E2). apply bterm_exec_ok in E1. by eapply inner_step.
      + cbn in Ef. eapply P_FanIn2.fan2_step_mono; [| | |exact Ef]; done.
      + destruct Ef as (p & p' & E1 & E2). apply bterm_exec_ok in E1. by eapply inner_step.
      + cbn in Ef. eapply P_FanIn2.fan2_step_mono; [| | |exact Ef]; done.
    - assert (forall p x p', bbatch_sendf p = Some (x, p') -> bbatch_send p x p') as S1. { intros p x p' Hp. destruct p as [| | | | |[|kx kxs]]; try done. cbn in Hp. injection Hp as <- <-. constructor. }
      assert (forall p, bbatch_stopf p = true -> bbatch_stop p) as S2 by (intros [| | | | |[|]]; done).
      destruct (f2_main w) eqn:E; [| |injection H as <- <-; by constructor].
      all: destruct (fan_exec _ _ _ _ _ w) as [[w' [m1|]]|] eqn:Ef; [..|done]; injection H as <- <-; apply (fan_exec_ok _ _ _ _ _ bbatch_send bbatch_stop S1 S2) in Ef.
      + destruct Ef as (p & p' & E1 & E2). apply bbatch_exec_ok in E1. by eapply s_inner.
      + by constructor.
      + destruct Ef as (p & p' & E1 & E2). apply bbatch_exec_ok in E1. by eapply s_inner.
      + by constructor.
  Qed.
  Definition doc_exec (dw : writer nat) (m : cmem) (pc : cpc) (dp : option doc_pc) : option (cmem * cpc * option doc_pc) :=
    match pc, dp with
    | CDoc d x, None => match lru_get (c_cache m) d with
        | Some (c', Some e) => Some (set_cache m c' (c_heap m), pc, Some (DPtr e))
        | Some (c', None) => let l := fresh_addr (c_heap m) in Some (set_cache m c' (<[l := ∅]> (c_heap m)), pc, Some (DMap l))
        | None => None end
    | CDoc d x, Some (DPtr e) => l ← lru_deref (c_cache m) e; Some (m, pc, Some (DMap l))
    | CDoc d x, Some (DMap l) => if iterb dw l then None else fd ← c_heap m !! l; Some (set_cache m (c_cache m) (<[l := <[f_name x := x]> fd]> (c_heap m)), pc, Some (DPut l))
    | CDoc d x, Some (DPut l) => c' ← lru_put (c_cache m) d l; Some (set_cache m c' (c_heap m), CDocSend d x l, None)
    | _, _ => None
    end.
  Lemma doc_exec_ok dw m pc dp r : doc_exec dw m pc dp = Some r -> doc_step dw (m, pc, dp) r.
  Proof.
    destruct pc; try done. destruct dp as [[e|l|l]|]; cbn [doc_exec]; intros H.
    - destruct (lru_deref (c_cache m) e) as [l|] eqn:E; [|done]. injection H as <-. by constructor.
    - destruct (iterb dw l) eqn:Ei; [done|]. apply iterb_ok in Ei. destruct (c_heap m !! l) as [fd|] eqn:E; [|done]. injection H as <-. by constructor.
    - destruct (lru_put (c_cache m) d l) as [c'|] eqn:E; [|done]. injection H as <-. by constructor.
    - destruct (lru_get (c_cache m) d) as [[c' [e|]]|] eqn:E; [..|done]; injection H as <-; constructor; try done. apply fresh_addr_ok.
  Qed.
  Inductive bact := XSys (a : act) | XDoc | XCall (terms : list string) (f : string) | XSearch (i : nat).
  Definition not_docb (a b : sys) : bool :=
    match y_proc a, y_proc b with
    | Up u, Up u' => match u_pc u with CDoc _ _ => bool_decide (u_pc u' = u_pc u) | _ => true end && match u_pc u' with CGet _ _ _ _ => false | _ => true end
    | _, _ => true
    end.
  Lemma not_docb_ok a b : not_docb a b = true -> not_doc a b.
  Proof.
    unfold not_docb. intros H u u' E1 E2. rewrite E1, E2 in H. apply andb_true_iff in H as [H1 H2]. split.
    - intros d x E. rewrite E in H1. by apply bool_decide_eq_true_1 in H1.
    - intros ids0 f ids acc E. by rewrite E in H2.
  Qed.
  Definition bexec (a : bact) (b : busy N) : option (busy N) :=
    let 'mkBusy y dp qs := b in
    match a with
    | XSys a => y' ← exec compress decompress cache_size a y;
        match y_proc y' with Down => Some (mkBusy y' None []) | _ => if not_docb y y' then Some (mkBusy y' dp qs) else None end
    | XDoc => match y with mkSys s (Up u) log => r ← doc_exec (u_dw u) (u_mem u) (u_pc u) dp; Some (mkBusy (mkSys s (Up (with_mem u r.1.1 r.1.2)) log) r.2 qs) | _ => None end
    | XCall terms f => match y with mkSys s (Up u) log => Some (mkBusy y dp (qs ++ [(terms, f, SLength)])) | _ => None end
    | XSearch i => match y, qs !! i with
        | mkSys s (Up u) log, Some (terms, f, q) => r ← search_exec terms f u s q; Some (mkBusy (mkSys s (Up (with_mem u r.1 (u_pc u))) log) dp (<[i := (terms, f, r.2)]> qs))
        | _, _ => None end
    end.
  Notation bstep := (busy_step compress decompress cache_size N ncpu).
  Lemma bexec_ok a b b' : bexec a b = Some b' -> bstep b b'.
  Proof.
    destruct b as [y dp qs]. destruct a as [a| |terms f|i]; cbn [bexec]; intros H.
    - destruct (exec compress decompress cache_size a y) as [y'|] eqn:E; [|done]. cbn in H. apply exec_ok in E. destruct (y_proc y') eqn:Ey.
      + injection H as <-. right. destruct E as [E|E]; [exfalso; inversion E; subst; cbn in Ey; done|]. by exists y'.
      + destruct (not_docb y y') eqn:En; [|done]. injection H as <-. left. destruct E as [E|E]; [|inversion E; subst; cbn in Ey; done]. constructor; [done|]. by apply not_docb_ok.
      + destruct (not_docb y y') eqn:En; [|done]. injection H as <-. left. destruct E as [E|E]; [|inversion E; subst; cbn in Ey; done]. constructor; [done|]. by apply not_docb_ok.
    - destruct y as [s [| |u] log]; try done. destruct (doc_exec _ _ _ _) as [[[m pc] dp']|] eqn:E; [|done]. injection H as <-. left. cbn. constructor. by apply doc_exec_ok.
    - destruct y as [s [| |u] log]; try done. injection H as <-. left. constructor.
    - destruct y as [s [| |u] log]; try done. destruct (qs !! i) as [[[terms f] q]|] eqn:Eq; [|done]. destruct (search_exec terms f u s q) as [[m q']|] eqn:E; [|done]. injection H as <-. left. cbn. econstructor; [done|]. by apply search_exec_ok.
  Qed.
  (** An action, or an action repeated until it is disabled (at most 60 times). *)
  Fixpoint buntil (n : nat) (a : bact) (b : busy N) : busy N := match n with O => b | S n' => match bexec a b with Some b' => buntil n' a b' | None => b end end.
  Lemma buntil_ok n a : forall b, rtc bstep b (buntil n a b).
  Proof. induction n as [|n IH]; intros b; cbn; [apply rtc_refl|]. destruct (bexec a b) as [b'|] eqn:E; [|apply rtc_refl]. eapply rtc_l; [by eapply bexec_ok|apply IH]. Qed.
  Fixpoint brun (l : list (bool * bact)) (b : busy N) : option (busy N) :=
    match l with
    | [] => Some b
    | (false, a) :: l' => b' ← bexec a b; brun l' b'
    | (true, a) :: l' => brun l' (buntil 60 a b)
    end.
  Lemma brun_ok l : forall b b', brun l b = Some b' -> rtc bstep b b'.
  Proof.
    induction l as [|[[] a] l IH]; intros b b'; cbn [brun]; [intros [= <-]; apply rtc_refl|intros H; etransitivity; [apply (buntil_ok 60 a)|by apply IH]|].
    destruct (bexec a b) as [b1|] eqn:E; [|done]. intros H. eapply rtc_l; [by eapply bexec_ok|by apply IH].
  Qed.
  Lemma brun_app l1 l2 b : brun (l1 ++ l2) b = (b1 ← brun l1 b; brun l2 b1).
  Proof. revert b. induction l1 as [|[[] a] l1 IH]; intros b; cbn [app brun]; [done|apply IH|]. destruct (bexec a b); cbn [mbind option_bind]; [apply IH|done]. Qed.
End busy.
Lemma brun_obs {A} (cs : Z) N ncpu l (obs : busy N -> A) (v : A) : option_map obs (brun id Some cs N ncpu l (busy_init N)) = Some v ->
  exists b, busy_reachable id Some cs N ncpu b /\ obs b = v.
Proof. destruct (brun id Some cs N ncpu l (busy_init N)) as [b|] eqn:E; [|done]. cbn [option_map]. intros [= <-]. exists b. split; [by eapply brun_ok|done]. Qed.

(** Runs without a crash; runs in which nobody searches. *)
Section runs.
  Variables (compress : bytes -> bytes) (decompress : bytes -> option bytes) (cache_size : Z) (N : numops) (ncpu : nat).
  Notation blive := (busy_live compress decompress cache_size N ncpu).
  Notation bexec := (bexec compress decompress cache_size N ncpu).
  Notation brun := (brun compress decompress cache_size N ncpu).
  Definition no_crash (a : bact) : bool := match a with XSys ACrash => false | _ => true end.
  Definition no_search (a : bact) : bool := match a with XSys ACrash => false | XCall _ _ | XSearch _ => false | _ => true end.
  Lemma exec_live a y y' : a <> ACrash -> exec compress decompress cache_size a y = Some y' -> y_proc y' <> Down.
  Proof.
    intros Ha H E. pose proof (exec_ok _ _ _ _ _ _ H) as [L|C].
    - destruct L; cbn in E; discriminate E.
    - destruct y as [s [|g|u] log]; inversion C; subst. 
      all: destruct a; try done; cbn [exec] in H; try discriminate H.
      all: repeat match goal with G : context [match ?x with _ => _ end] |- _ => destruct x; try discriminate G end.
      all: repeat match goal with G : (_ ≫= _) = Some _ |- _ => apply bind_Some in G as (? & _ & G) end; congruence.
  Qed.
  Lemma bexec_live a b b' : no_crash a = true -> bexec a b = Some b' -> blive b b'.
  Proof.
    intros Ha H. pose proof (bexec_ok _ _ _ _ _ _ _ _ H) as [?|(y' & C & ->)]; [done|]. exfalso. assert (y_proc y' = Down) as E by (by inversion C). destruct b as [y dp qs]. destruct a as [a| |terms f|i]; cbn [X_DiskBusy.bexec] in H.
    - destruct (exec compress decompress cache_size a y) as [y1|] eqn:Ey; [|done]. cbn in H. assert (y1 = y') as ->. { destruct (y_proc y1); [by injection H|..]; (destruct (not_docb y y1); [|done]; by injection H). } eapply exec_live; [|exact Ey|exact E]. by intros ->.
    - destruct y as [s [| |u] log]; try done. destruct (doc_exec _ _ _ _); [|done]. injection H as H. subst y'. done.
    - destruct y as [s [| |u] log]; try done. injection H as H. subst y'. done.
    - destruct y as [s [| |u] log]; try done. destruct (qs !! i) as [[[]]|]; [|done]. destruct (search_exec _ _ _ _ _ _ _ _); [|done]. injection H as H. subst y'. done.
  Qed.
  Lemma bexec_quiet a b b' : no_search a = true -> by_qs b = [] -> bexec a b = Some b' -> by_qs b' = [].
  Proof.
    intros Ha Hq H. destruct b as [y dp qs]. cbn in Hq. subst qs. destruct a as [a| |terms f|i]; try done; cbn [X_DiskBusy.bexec] in H.
    - destruct (exec compress decompress cache_size a y) as [y1|] eqn:Ey; [|done]. cbn in H. destruct (y_proc y1); [by injection H as <-|..]; (destruct (not_docb y y1); [|done]; by injection H as <-).
    - destruct y as [s [| |u] log]; try done. destruct (doc_exec _ _ _ _); [|done]. by injection H as <-.
  Qed.
  Lemma brun_live l : forall b b', forallb (fun x => no_crash x.2) l = true -> brun l b = Some b' -> rtc blive b b'.
  Proof.
    induction l as [|[[] a] l IH]; intros b b' Hl; cbn [X_DiskBusy.brun]; [intros [= <-]; apply rtc_refl|..]; cbn [forallb snd] in Hl; apply andb_true_iff in Hl as [Ha Hl].
    - intros H. etransitivity; [|by apply IH]. generalize 60. intros n. clear H. revert b. induction n as [|n IHn]; intros b; cbn [buntil]; [apply rtc_refl|]. destruct (bexec a b) as [b1|] eqn:E; [|apply rtc_refl]. eapply rtc_l; [by eapply bexec_live|apply IHn].
    - destruct (bexec a b) as [b1|] eqn:E; [|done]. intros H. eapply rtc_l; [by eapply bexec_live|by apply IH].
  Qed.
  Lemma no_search_crash a : no_search a = true -> no_crash a = true.
  Proof. by destruct a as [[]| | |]. Qed.
  Lemma brun_quiet l : forall b b', forallb (fun x => no_search x.2) l = true -> by_qs b = [] -> brun l b = Some b' -> rtc (fun a b => blive a b /\ by_qs b = []) b b' /\ by_qs b' = [].
  Proof.
    induction l as [|[[] a] l IH]; intros b b' Hl Hq; cbn [X_DiskBusy.brun]; [intros [= <-]; split; [apply rtc_refl|done]|..]; cbn [forallb snd] in Hl; apply andb_true_iff in Hl as [Ha Hl].
    - intros H. assert (forall n b, by_qs b = [] -> rtc (fun a b => blive a b /\ by_qs b = []) b (buntil compress decompress cache_size N ncpu n a b) /\ by_qs (buntil compress decompress cache_size N ncpu n a b) = []) as K.
      { clear - Ha. induction n as [|n IHn]; intros b Hq; cbn [buntil]; [split; [apply rtc_refl|done]|]. destruct (bexec a b) as [b1|] eqn:E; [|split; [apply rtc_refl|done]]. pose proof (bexec_quiet _ _ _ Ha Hq E) as Hq1. destruct (IHn b1 Hq1) as [K1 K2]. split; [|done]. eapply rtc_l; [|exact K1]. split; [|done]. eapply bexec_live; [by apply no_search_crash|done]. }
      destruct (K 60 b Hq) as [K1 K2]. destruct (IH _ _ Hl K2 H) as [I1 I2]. split; [by etransitivity|done].
    - destruct (bexec a b) as [b1|] eqn:E; [|done]. intros H. pose proof (bexec_quiet _ _ _ Ha Hq E) as Hq1. destruct (IH _ _ Hl Hq1 H) as [I1 I2]. split; [|done]. eapply rtc_l; [|exact I1]. split; [|done]. eapply bexec_live; [by apply no_search_crash|done].
  Qed.
End runs.
