(** Executions of M_DiskMulti.v with searches, computed.  Used only to exhibit concrete
    reachable states beside the theorems. *)
From Verif Require Import Base M_Field M_LRU S_Visits M_Memory M_File M_Serialize M_Num M_FanIn M_Search M_Concurrent M_SearchConc M_Disk P_DiskBusy M_DiskBusy M_DiskMulti S_Disk S_DiskMulti S_DiskQuery X_DiskExec X_DiskBusy X_DiskMulti.
#[local] Open Scope Z_scope.

Definition rd1_exec (f : string) (s : shared) (p : rd1) : option (unit * rd1) :=
  match p with
  | RTerm t => match M_Concurrent.k_index s !! f with None => Some (tt, REnd) | Some l => Some (tt, RMap t l) end
  | RMap t l => match default (∅ : gmap string nat) (k_maps s !! l) !! t with None => Some (tt, REnd) | Some a => Some (tt, RSet a) end
  | RSet a => Some (tt, RRange a (dom (set_at s a)) [])
  | RRange a must sent =>
      match List.filter (fun id => bool_decide (id ∉ sent)) (map_to_list (set_at s a)).*1 with
      | id :: _ => Some (tt, RId a must sent id)
      | [] => if bool_decide (must ⊆ list_to_set sent) then Some (tt, REnd) else None
      end
  | _ => None
  end.
Lemma rd1_exec_ok f s p x p' : rd1_exec f s p = Some (x, p') -> rd1_step f s p p'.
Proof.
  destruct p as [t|t l|a|a must sent|a must sent id|]; cbn; try done.
  - destruct (M_Concurrent.k_index s !! f) eqn:E; intros [= _ <-]; [by eapply r1_index|by apply r1_none].
  - destruct (default (∅ : gmap string nat) (k_maps s !! l) !! t) eqn:E; intros [= _ <-]; [by eapply r1_term|by apply r1_noterm].
  - intros [= _ <-]. constructor.
  - destruct (List.filter _ _) as [|id ids] eqn:E.
    + destruct (bool_decide _) eqn:Eb; [|done]. apply bool_decide_eq_true_1 in Eb. intros [= _ <-]. by constructor.
    + intros [= _ <-]. assert (In id (id :: ids)) as Hin by (by left). rewrite <- E in Hin. apply filter_In in Hin as [H1 H2]. apply bool_decide_eq_true_1 in H2. apply elem_of_list_In, elem_of_list_fmap in H1 as ([k v] & -> & H1). apply elem_of_map_to_list in H1. apply r1_next; [cbn; by rewrite H1|done].
Qed.
Definition rd1_sendf (p : rd1) : option (string * rd1) := match p with RId a must sent id => Some (id, RRange a must (sent ++ [id])) | _ => None end.
Definition rd1_stopf (p : rd1) : bool := match p with REnd => true | _ => false end.
Section exec.
  Variables (compress : bytes -> bytes) (decompress : bytes -> option bytes) (cache_size : Z).
  Notation live := (multi_live compress decompress cache_size).
  Notation step := (multi_step compress decompress cache_size).
  Definition msearch_exec (ncpu : nat) (terms : list string) (f : string) (sh : shared) (m : cmem) (s : fs) (q : msearch) : option (cmem * msearch) :=
    match q with
    | MqLength => Some (m, MqSize (geti (k_length sh) f))
    | MqSize len => Some (m, MqNft len (geti (k_size sh) f) terms ∅)
    | MqNft len n (t :: ts) acc => Some (m, MqNftTerm len n t (k_nft sh !! f) ts acc)
    | MqNft len n [] acc => Some (m, MqIds len n acc (fan2_init 0 (RTerm <$> terms)))
    | MqNftTerm len n t l ts acc => Some (m, MqNft len n ts (<[t := match l with Some l => geti (counts_at sh l) t | None => 0 end]> acc))
    | MqIds len n nft w => match f2_main w with
        | MDone => Some (m, MqFields len n nft (fan2_init (f2_sem w) ((fun b => BDocs b ∅) <$> batches_of (f2_got w))))
        | _ => r ← fan_exec (rd1_exec f sh) rd1_sendf rd1_stopf (length terms) (ncpu * 2) w; Some (m, MqIds len n nft r.1) end
    | MqFields len n nft w => match f2_main w with
        | MDone => Some (m, MqRet len n nft (merge_fields (f2_got w)))
        | _ => r ← fan_exec (bbatch_exec decompress f s m) bbatch_sendf bbatch_stopf (length terms) (ncpu * 2) w; Some (default m r.2, MqFields len n nft r.1) end
    | MqRet _ _ _ _ => None
    end.
  Lemma msearch_exec_ok ncpu terms f sh m s q m' q' : msearch_exec ncpu terms f sh m s q = Some (m', q') -> msearch_step decompress ncpu terms f sh m s q (m', q').
  Proof.
    destruct q as [|len|len n [|t ts] acc|len n t b ts acc|len n nft w|len n nft w|? ? ? ?]; cbn [msearch_exec]; intros H; try (injection H as <- <-; constructor); [..|done].
    - assert (forall p x p', rd1_sendf p = Some (x, p') -> rd1_send p x p') as S1. { intros p x p' Hp. destruct p; try done. cbn in Hp. injection Hp as <- <-. constructor. }
      assert (forall p, rd1_stopf p = true -> rd1_stop p) as S2 by (intros []; done).
      destruct (f2_main w) eqn:E; [| |injection H as <- <-; by constructor].
      all: destruct (fan_exec _ _ _ _ _ w) as [[w' [[]|]]|] eqn:Ef; [..|done]; injection H as <- <-; apply (fan_exec_ok _ _ _ _ _ rd1_send rd1_stop S1 S2) in Ef.
      all: constructor.
      + destruct Ef as (p & p' & E1 & E2). apply rd1_exec_ok in E1. by eapply inner_step.
      + cbn in Ef. eapply P_FanIn2.fan2_step_mono; [| | |exact Ef]; done.
      + destruct Ef as (p & p' & E1 & E2). apply rd1_exec_ok in E1. by eapply inner_step.
      + cbn in Ef. eapply P_FanIn2.fan2_step_mono; [| | |exact Ef]; done.
    - assert (forall p x p', bbatch_sendf p = Some (x, p') -> bbatch_send p x p') as S1. { intros p x p' Hp. destruct p as [| | | | |[|kx kxs]]; try done. cbn in Hp. injection Hp as <- <-. constructor. }
      assert (forall p, bbatch_stopf p = true -> bbatch_stop p) as S2 by (intros [| | | | |[|]]; done).
      destruct (f2_main w) eqn:E; [| |injection H as <- <-; by constructor].
      all: destruct (fan_exec _ _ _ _ _ w) as [[w' [m1|]]|] eqn:Ef; [..|done]; injection H as <- <-; apply (fan_exec_ok _ _ _ _ _ bbatch_send bbatch_stop S1 S2) in Ef.
      + destruct Ef as (p & p' & E1 & E2). apply bbatch_exec_ok in E1. by eapply ms_inner.
      + by constructor.
      + destruct Ef as (p & p' & E1 & E2). apply bbatch_exec_ok in E1. by eapply ms_inner.
      + by constructor.
  Qed.
  (** The maps after opening a store that is not empty, given explicitly. *)
  Definition loadedb (m : cmem) (s : shared) (ol : gmap nat string) (oa : gmap nat (string * string)) (on : gmap nat string) : bool :=
    bool_decide (mm_index (view s) = c_index m /\ mm_fdoc (view s) = ∅ /\ mm_length (view s) = c_length m /\ mm_size (view s) = c_size m /\ mm_nft (view s) = c_nft m) &&
    bool_decide (map_Forall (fun f l => ol !! l = Some f) (M_Concurrent.k_index s)) && bool_decide (map_Forall (fun l f => M_Concurrent.k_index s !! f = Some l) ol) &&
    bool_decide ((dom (k_maps s) : gset nat) = dom ol) && bool_decide ((dom (k_sets s) : gset nat) = dom oa) &&
    bool_decide (map_Forall (fun f l => map_Forall (fun t a => oa !! a = Some (f, t)) (default ∅ (k_maps s !! l))) (M_Concurrent.k_index s)) &&
    bool_decide (map_Forall (fun (a : nat) (p : string * string) => (l ← M_Concurrent.k_index s !! p.1; mp ← k_maps s !! l; (mp : gmap string nat) !! p.2) = Some a) oa) &&
    bool_decide (map_Forall (fun f l => on !! l = Some f) (k_nft s)) && bool_decide (map_Forall (fun l f => k_nft s !! f = Some l) on) &&
    bool_decide ((dom (k_nfts s) : gset nat) = dom on).
  Lemma loadedb_ok m s ol oa on : loadedb m s ol oa on = true -> loaded m s.
  Proof.
    unfold loadedb. rewrite !andb_true_iff, !bool_decide_eq_true. intros (((((((((H1 & H2) & H3) & H4) & H5) & H6) & H7) & H8) & H9) & H10).
    split; [destruct H1 as (E1 & E2 & E3 & E4 & E5); destruct (view s); cbn in *; congruence|]. exists ol, oa, on. split; [|split; [|split; [|split; [|split]]]].
    - intros f l. split; [apply H2|apply H3].
    - intros l. by rewrite <- !elem_of_dom, H4.
    - intros a. by rewrite <- !elem_of_dom, H5.
    - intros f t a. split.
      + intros (l & mp & E1 & E2 & E3). specialize (H6 f l E1). cbn in H6. rewrite E2 in H6. by apply (H6 t a).
      + intros E. specialize (H7 a (f, t) E). cbn in H7. apply bind_Some in H7 as (l & E1 & (mp & E2 & E3)%bind_Some). by exists l, mp.
    - intros f l. split; [apply H8|apply H9].
    - intros l. by rewrite <- !elem_of_dom, H10.
  Qed.
  Inductive qact := QM (a : mact) | QOpen (sh : shared) (ol : gmap nat string) (oa : gmap nat (string * string)) (on : gmap nat string) | QCall (ncpu : nat) (terms : list string) (f : string) | QSearch (i : nat).
  Definition qexec (a : qact) (b : multi) : option multi :=
    match a with
    | QM a => mexec compress decompress cache_size a b
    | QOpen sh' ol oa on => y' ← exec compress decompress cache_size AOpen (mu_sys b);
        match y_proc (mu_sys b), y_proc y' with Loading _, Up u => if loadedb (u_mem u) sh' ol oa on then Some (mkMulti y' sh' [] []) else None | _, _ => None end
    | QCall ncpu terms f => match b with mkMulti (mkSys s (Up u) log) sh ths qs => if decide (0 < ncpu)%nat then Some (mkMulti (mkSys s (Up u) log) sh ths (qs ++ [mkMQ ncpu terms f MqLength])) else None | _ => None end
    | QSearch i => match b with
        | mkMulti (mkSys s (Up u) log) sh ths qs => match qs !! i with
            | Some (mkMQ ncpu terms f q) => r ← msearch_exec ncpu terms f sh (u_mem u) s q; Some (mkMulti (mkSys s (Up (with_mem u r.1 (u_pc u))) log) sh ths (<[i := mkMQ ncpu terms f r.2]> qs))
            | None => None end
        | _ => None end
    end.
  Lemma qexec_ok a b c : qexec a b = Some c -> step b c.
  Proof.
    destruct a as [a|sh' ol oa on|ncpu terms f|i]; cbn [qexec]; intros H; [by eapply mexec_ok| |..].
    { destruct (exec compress decompress cache_size AOpen (mu_sys b)) as [y'|] eqn:E; [|discriminate H]. apply exec_ok in E. cbn [mbind option_bind] in H. destruct (y_proc (mu_sys b)) as [|g|] eqn:E1; try discriminate H. destruct (y_proc y') as [| |u] eqn:E2; try discriminate H.
      destruct (loadedb _ _ _ _ _) eqn:El; [|discriminate H]. injection H as <-. apply loadedb_ok in El. destruct E as [E|E]; [|exfalso; inversion E; subst; cbn in E2; discriminate E2]. left. destruct b. by eapply mz_opened. }
    all: destruct b as [[s [|g|u] log] sh ths qs]; try discriminate H.
    - destruct (decide _); [|discriminate H]. injection H as <-. left. by constructor.
    - destruct (qs !! i) as [[ncpu terms f q]|] eqn:E; [|discriminate H]. destruct (msearch_exec ncpu terms f sh (u_mem u) s q) as [[m' q']|] eqn:E2; [|discriminate H]. injection H as <-. left. eapply mz_search; [exact E|]. by apply msearch_exec_ok.
  Qed.
  Fixpoint qwhile (n : nat) (a : qact) (b : multi) : multi := match n with O => b | S n => match qexec a b with Some c => qwhile n a c | None => b end end.
  Lemma qwhile_ok n a : forall b, rtc step b (qwhile n a b).
  Proof.
    induction n as [|n IH]; intros b; cbn; [apply rtc_refl|]. destruct (qexec a b) as [c|] eqn:E; [|apply rtc_refl]. eapply rtc_l; [by eapply qexec_ok|]. apply IH.
  Qed.
  Fixpoint qplay (l : list (bool * qact)) (b : multi) : option multi :=
    match l with [] => Some b | (true, a) :: l => qplay l (qwhile 100 a b) | (false, a) :: l => c ← qexec a b; qplay l c end.
  Lemma qplay_ok l : forall b c, qplay l b = Some c -> rtc step b c.
  Proof.
    induction l as [|[[] a] l IH]; intros b c H; cbn [qplay] in H; [injection H as <-; apply rtc_refl| |].
    - etransitivity; [apply qwhile_ok|]. by apply IH.
    - destruct (qexec a b) as [b'|] eqn:E; [|discriminate H]. eapply rtc_l; [by eapply qexec_ok|]. by apply IH.
  Qed.
  (** Without crashes and openings: a session. *)
  Definition q_insession (a : qact) : bool := match a with QOpen _ _ _ _ => false | QM (MSys a) => match a with ACrash | AStart | AOpen | ALoad => false | _ => true end | _ => true end.
  Lemma qexec_session a b c u : q_insession a = true -> mu_open b u -> qexec a b = Some c -> live b c /\ exists u', mu_open c u'.
  Proof.
    intros Hs Hu H. assert (exists u', mu_open c u') as Ho.
    { unfold mu_open in *. destruct a as [a|? ? ? ?|ncpu terms f|i]; [|discriminate Hs|..]; cbn [qexec] in H; destruct b as [[s p log] sh ths qs]; cbn in Hu; subst p.
      - destruct a as [a|cs|i|i]; cbn [mexec] in H.
        + destruct (exec compress decompress cache_size a (mkSys s (Up u) log)) as [y'|] eqn:E; [|discriminate H]. cbn in H.
          assert (exists u', y_proc y' = Up u') as [u' E']. { assert ((r ← up_exec compress decompress a u s; Some (mkSys r.1.2 (Up r.1.1) (log ++ r.2))) = Some y' -> exists u', y_proc y' = Up u') as HU.
              { destruct (up_exec compress decompress a u s) as [[[u1 s1] ev]|]; cbn; [|done]. intros [= <-]. by eexists. }
            apply HU. destruct a; try discriminate Hs; exact E. }
          rewrite E' in H. destruct (u_pc u'); try discriminate H. injection H as <-. by exists u'.
        + injection H as <-. by exists u.
        + destruct (ths !! i) as [[[pc m] cs]|]; [|discriminate H]. destruct pc; try discriminate H. destruct m; try discriminate H. destruct cs; [discriminate H|]. injection H as <-. by eexists.
        + destruct (ths !! i) as [[[pc m] cs]|]; [|discriminate H]. destruct (client_exec sh u pc m) as [[[[[sh' u'] m'] pc'] ev]|]; [|discriminate H]. cbn in H. injection H as <-. by eexists.
      - destruct (decide _); [|discriminate H]. injection H as <-. by eexists.
      - destruct (qs !! i) as [[ncpu terms f q]|]; [|discriminate H]. destruct (msearch_exec ncpu terms f sh (u_mem u) s q) as [[m' q']|]; [|discriminate H]. injection H as <-. by eexists. }
    split; [|done]. apply qexec_ok in H. destruct H as [H|(y' & H & ->)]; [done|]. destruct Ho as [u' Ho]. unfold mu_open in Ho. inversion H; subst. cbn in Ho. congruence.
  Qed.
  Lemma qwhile_session n a : q_insession a = true -> forall b u, mu_open b u -> mu_session compress decompress cache_size b (qwhile n a b) /\ exists u', mu_open (qwhile n a b) u'.
  Proof.
    intros Hs. induction n as [|n IH]; intros b u Hu; cbn; [split; [apply rtc_refl|by exists u]|]. destruct (qexec a b) as [c|] eqn:E; [|split; [apply rtc_refl|by exists u]].
    destruct (qexec_session _ _ _ _ Hs Hu E) as [HL [u' Hu']]. destruct (IH c u' Hu') as [R Ho]. split; [|done]. eapply rtc_l; [|exact R]. split; [done|by exists u].
  Qed.
  Lemma qplay_session l : forallb (fun p => q_insession p.2) l = true -> forall b c u, mu_open b u -> qplay l b = Some c -> mu_session compress decompress cache_size b c.
  Proof.
    induction l as [|[[] a] l IH]; intros Hl b c u Hu H; cbn [qplay] in H; [injection H as <-; apply rtc_refl|..]; cbn in Hl; apply andb_true_iff in Hl as [Ha Hl].
    - destruct (qwhile_session 100 a Ha b u Hu) as [R [u' Hu']]. unfold mu_session in *. etransitivity; [exact R|]. by eapply IH.
    - destruct (qexec a b) as [b'|] eqn:E; [|discriminate H]. destruct (qexec_session _ _ _ _ Ha Hu E) as [HL [u' Hu']]. eapply rtc_l; [split; [exact HL|by exists u]|]. by eapply IH.
  Qed.
End exec.
Lemma qplay_obs {A} (cs : Z) l (obs : multi -> A) (v : A) :
  option_map obs (qplay id Some cs l multi_init) = Some v -> exists a, multi_reachable id Some cs a /\ obs a = v.
Proof. destruct (qplay id Some cs l multi_init) as [a|] eqn:E; [|done]. cbn. intros [= <-]. exists a. split; [|done]. by eapply qplay_ok. Qed.
Lemma qplay_obs2 {A} (cs : Z) l1 l2 (obs : multi -> multi -> A) (v : A) : forallb (fun p => q_insession p.2) l2 = true ->
  match qplay id Some cs l1 multi_init with
  | Some a => match y_proc (mu_sys a) with Up _ => match qplay id Some cs l2 a with Some b => Some (obs a b) | None => None end | _ => None end
  | None => None end = Some v ->
  exists a b u, multi_reachable id Some cs a /\ mu_open a u /\ mu_session id Some cs a b /\ multi_reachable id Some cs b /\ obs a b = v.
Proof.
  intros Hl. destruct (qplay id Some cs l1 multi_init) as [a|] eqn:Ea; [|done]. destruct (y_proc (mu_sys a)) as [| |u] eqn:Eu; [done..|].
  destruct (qplay id Some cs l2 a) as [b|] eqn:Eb; [|done]. intros [= <-]. pose proof (qplay_ok _ _ _ _ _ _ Ea) as Ra. exists a, b, u.
  split; [exact Ra|]. split; [exact Eu|]. split; [by eapply qplay_session|]. split; [|done]. unfold multi_reachable in *. etransitivity; [exact Ra|]. by eapply qplay_ok.
Qed.
Lemma qplay_open {A} (cs : Z) l1 sh ol oa on l2 (obs : multi -> multi -> A) (v : A) : forallb (fun p => q_insession p.2) l2 = true ->
  match qplay id Some cs l1 multi_init with
  | Some a => match y_proc (mu_sys a), qexec id Some cs (QOpen sh ol oa on) a with Loading _, Some b => match y_proc (mu_sys b), qplay id Some cs l2 b with Up _, Some c => Some (obs b c) | _, _ => None end | _, _ => None end
  | None => None end = Some v ->
  exists a b c u, multi_reachable id Some cs a /\ mu_opens id Some cs a b u /\ mu_session id Some cs b c /\ multi_reachable id Some cs c /\ obs b c = v.
Proof.
  intros Hl. destruct (qplay id Some cs l1 multi_init) as [a|] eqn:Ea; [|done]. destruct (y_proc (mu_sys a)) as [|g|] eqn:Eg; [done| |done]. destruct (qexec id Some cs (QOpen sh ol oa on) a) as [b|] eqn:Eb; [|done].
  destruct (y_proc (mu_sys b)) as [| |u] eqn:Eu; [done..|]. destruct (qplay id Some cs l2 b) as [c|] eqn:Ec; [|done]. intros [= <-].
  pose proof (qplay_ok _ _ _ _ _ _ Ea) as Ra. pose proof (qexec_ok _ _ _ _ _ _ Eb) as Sb. pose proof (qplay_ok _ _ _ _ _ _ Ec) as Rc.
  assert (multi_live id Some cs a b) as HL. { destruct Sb as [H|(y' & H & E)]; [done|]. exfalso. inversion H as [s0 p0 log0 Hp0 E1 E2]. rewrite E, <- E2 in Eu. discriminate Eu. }
  exists a, b, c, u. split; [exact Ra|]. split; [split; [exact HL|]; split; [by exists g|exact Eu]|]. split; [by eapply qplay_session|]. split; [|done]. unfold multi_reachable in *. etransitivity; [exact Ra|]. eapply rtc_l; [exact Sb|exact Rc].
Qed.
