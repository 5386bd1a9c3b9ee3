(** C64: what can go wrong; cases. *)
From Verif Require Import Base M_Field M_LRU S_LRU S_Visits M_Memory M_File M_Serialize M_Num M_FanIn M_Search M_SearchConc M_Disk M_DiskBusy P_Base S_Disk S_DiskBusy X_DiskExec X_DiskBusy T_DiskNft T_DiskIndex T_DiskDocs.
#[local] Open Scope nat_scope.
#[local] Opaque serialize_metrics serialize_nft serialize_field_map serialize_index deserialize_index deserialize_nft deserialize_field_map deserialize_metrics.

(** Scripts. *)
Definition bs (l : list (bool * act)) : list (bool * bact) := map (fun x => (x.1, XSys x.2)) l.
Definition bsave (d : string) (x : field) : list (bool * bact) := [(false, XSys (ACall (Save d x))); (true, XSys AClient); (true, XDoc); (true, XSys AClient); (true, XSys ARecv)].
Definition times {A} (n : nat) (a : A) : list (bool * A) := map (fun a => (false, a)) (repeat a n).
(** A second version of the field of [x_a], with one term more. *)
Definition x_ab : field := mkField "text" 3 {["a" := 1%Z; "b" := 2%Z]}.

Section stages.
  Context {N : numops} {A : Type}.
  Variables (cs : Z) (ncpu : nat).
  Notation run := (brun id Some cs N ncpu).
  Lemma stages4 l1 l2 l3 l4 (obs : busy N -> busy N -> busy N -> busy N -> A) (v : A) :
    (a ← run l1 (busy_init N); b ← run l2 a; c ← run l3 b; e ← run l4 c; Some (obs a b c e)) = Some v ->
    exists a b c e, busy_reachable id Some cs N ncpu a /\ run l2 a = Some b /\ run l3 b = Some c /\ run l4 c = Some e /\ obs a b c e = v.
  Proof.
    destruct (run l1 (busy_init N)) as [a|] eqn:Ea; [|discriminate 1]. cbn [mbind option_bind]. destruct (run l2 a) as [b|] eqn:Eb; [|discriminate 1]. cbn [mbind option_bind]. destruct (run l3 b) as [c|] eqn:Ec; [|discriminate 1]. cbn [mbind option_bind].
    destruct (run l4 c) as [e|] eqn:Ee; [|discriminate 1]. cbn [mbind option_bind]. intros [= <-]. exists a, b, c, e. split; [by eapply brun_ok|done].
  Qed.
  (** The observations used. *)
  Definition idleb (b : busy N) : bool := match y_proc (by_sys b) with Up u => match u_pc u with CIdle => true | _ => false end | _ => false end.
  Lemma idleb_ok b : idleb b = true -> client_idle b.
  Proof. unfold idleb, client_idle. destruct (y_proc (by_sys b)) as [| |u]; try discriminate 1. destruct (u_pc u) eqn:E; try discriminate 1. by exists u. Qed.
  Definition added (a b : busy N) : list event := drop (length (y_log (by_sys a))) (y_log (by_sys b)).
  Definition addsb (a b : busy N) (h : list call) : bool := bool_decide (y_log (by_sys b) = y_log (by_sys a) ++ added a b) && bool_decide (calls_of (added a b) = h).
  Lemma addsb_ok a b h : addsb a b h = true -> exists ev, y_log (by_sys b) = y_log (by_sys a) ++ ev /\ calls_of ev = h.
  Proof. intros [H1 H2]%andb_true_iff. apply bool_decide_eq_true_1 in H1, H2. by exists (added a b). Qed.
  Definition knownb (D : gset string) (b : busy N) : bool :=
    match y_proc (by_sys b) with Up u => bool_decide (map_Forall (fun (_ : string) (idx : gmap string set_data) => map_Forall (fun (_ : string) (S : set_data) => dom S ⊆ D) idx) (c_index (u_mem u))) | _ => true end &&
    forallb (fun c => bool_decide (call_doc' c ∈ D)) (history b).
  Lemma knownb_ok (D : gset string) b : knownb D b = true -> (Z.of_nat (size D) <= cs)%Z -> room cs b.
  Proof.
    intros [H1 H2]%andb_true_iff HD. exists D. split; [done|]. intros d [(u & f & t & Hu & S & HS & Hd)|(c & Hc & <-)].
    - rewrite Hu in H1. apply bool_decide_eq_true_1 in H1. unfold disk_get_index in HS. destruct (c_index (u_mem u) !! f) as [idx|] eqn:E; [|done]. pose proof (H1 _ _ E _ _ HS) as K. cbn in K. apply K. by apply elem_of_dom.
    - rewrite forallb_forall in H2. specialize (H2 c). rewrite <- elem_of_list_In in H2. specialize (H2 Hc). by apply bool_decide_eq_true_1 in H2.
  Qed.
  Definition answer (b : busy N) (i : nat) : option (list string * string * gmap string field) :=
    match by_qs b !! i with Some (terms, f, SRet r) => Some (terms, f, sr_docs r) | _ => None end.
  Lemma answer_ok b i terms f docs : answer b i = Some (terms, f, docs) -> exists r, search_returned b i terms f r /\ sr_docs r = docs.
  Proof. unfold answer, search_returned. destruct (by_qs b !! i) as [[[terms' f'] q]|]; [|discriminate 1]. destruct q; try discriminate 1. intros [= <- <- <-]. by eexists. Qed.
End stages.

(** * Lost updates *)
(** A search that has read the file of a document puts what it has read into the cache,
    whatever was saved since.  Here a SaveOrUpdate returns; a search called afterwards,
    for a term this SaveOrUpdate has added, is answered with the field of before, which
    does not have the term; the cache has room for all documents.  When another field
    of the document is saved later, the file is written from the old one: the
    SaveOrUpdate is undone for good, with no crash in between. *)
Definition stale1 : list (bool * bact) := bs dopen ++ bsave "d1" x_a ++ bs (dflush ++ [(false, TIndex); (true, AIndex "u1"); (false, ACrash)] ++ dopen) ++ (false, XCall ["a"] "text") :: times 29 (XSearch 0).
Theorem C64_stale_overwrites : forall N, exists (a b c e : busy N) r u,
  busy_reachable id Some 5 N 4 a /\ busy_run id Some 5 4 a b /\ one_save "d1" x_ab a b /\
  busy_run id Some 5 4 b c /\ (exists ev, y_log (by_sys c) = y_log (by_sys b) ++ ev /\ calls_of ev = []) /\ room 5 c /\ searches b = 1 /\
  search_returned c 1 ["b"] "text" r /\ sr_docs r = {["d1" := x_a]} /\
  busy_run id Some 5 4 c e /\ one_save "d1" x_t c e /\ good_log (y_log (by_sys e)) /\
  y_proc (by_sys e) = Up u /\ w_buf (u_dw u) = ∅ /\ load_doc Some (y_fs (by_sys e)) "d1" = Some (Some {["text" := x_a; "title" := x_t]}).
Proof.
  intros N. destruct (stages4 (N := N) 5 4 stale1 (bsave "d1" x_ab) [(true, XSearch 0); (false, XCall ["b"] "text"); (true, XSearch 1)] (bsave "d1" x_t ++ bs dflush)
    (fun a b c e => (idleb a && idleb b && idleb c && idleb e, (addsb a b [Save "d1" x_ab], addsb b c [], addsb c e [Save "d1" x_t]), knownb {["d1"]} c, (searches b),
       bool_decide (answer c 1 = Some (["b"], "text", {["d1" := x_a]})), bool_decide (history e = [Save "d1" x_a; Save "d1" x_ab; Save "d1" x_t]),
       match y_proc (by_sys e) with Up u => bool_decide (w_buf (u_dw u) = ∅) | _ => false end, bool_decide (load_doc Some (y_fs (by_sys e)) "d1" = Some (Some {["text" := x_a; "title" := x_t]}))))
    (true, (true, true, true), true, 1, true, true, true, true)) as (a & b & c & e & Ha & Hb & Hc & He & H); [vm_compute; reflexivity|].
  repeat (apply pair_equal_spec in H as [H ?H]). apply andb_true_iff in H as [[[H I2]%andb_true_iff I3]%andb_true_iff I4]. repeat (apply pair_equal_spec in H6 as [H6 ?H]).
  apply bool_decide_eq_true_1 in H0, H2, H3. apply answer_ok in H3 as (r & Hr & Hd). destruct (y_proc (by_sys e)) as [| |u] eqn:Eu; try discriminate H1. apply bool_decide_eq_true_1 in H1.
  apply idleb_ok in H, I2, I3, I4. apply addsb_ok in H6, H7, H8.
  exists a, b, c, e, r, u. split; [done|]. split; [eapply brun_live; [|exact Hb]; reflexivity|]. split; [done|]. split; [eapply brun_live; [|exact Hc]; reflexivity|]. split; [done|]. split; [by eapply knownb_ok|]. split; [done|]. split; [done|]. split; [done|].
  split; [eapply brun_live; [|exact He]; reflexivity|]. split; [done|]. split; [|done]. apply (good_log_case _ _ H2). repeat constructor; done.
Qed.
Print Assumptions C64_stale_overwrites.

(** * Data races *)
(** The client writes to the map of a document while a search is about to read the same
    map: nothing orders the two accesses. *)
Definition raceb {N} (b : busy N) : bool :=
  match by_doc b, by_qs b with
  | Some (DMap l), [(_, _, SFields _ _ _ w)] => match f2_workers w with VRun (BMap _ l' _ _) :: _ => bool_decide (l' = l) | _ => false end
  | _, _ => false
  end.
Theorem C64_map_race : forall N, exists b : busy N, busy_reachable id Some 5 N 4 b /\ good_log (y_log (by_sys b)) /\ ECrash ∉ y_log (by_sys b) /\ map_race N b.
Proof.
  intros N. destruct (brun_obs 5 N 4 (bs dopen ++ bsave "d1" x_a ++ (false, XCall ["a"] "text") :: times 29 (XSearch 0) ++ [(false, XSys (ACall (Save "d1" x_ab))); (true, XSys AClient); (false, XDoc); (false, XDoc)])
    (fun b => (raceb b, bool_decide (history b = [Save "d1" x_a; Save "d1" x_ab]), bool_decide (ECrash ∉ y_log (by_sys b)))) (true, true, true)) as (b & Hb & H); [vm_compute; reflexivity|].
  apply pair_equal_spec in H as [H H2]. apply pair_equal_spec in H as [H H1]. apply bool_decide_eq_true_1 in H1, H2. exists b. split; [done|]. split; [apply (good_log_case _ _ H1); repeat constructor; done|]. split; [done|].
  unfold raceb in H. destruct (by_doc b) as [[e|l|l]|] eqn:E1; try discriminate H. destruct (by_qs b) as [|[[terms f] q] [|]] eqn:E2; try discriminate H; destruct q as [| | | | |len n nft w|]; try discriminate H.
  destruct (f2_workers w) as [|[p|p|] ws] eqn:E3; try discriminate H; destruct p as [|?|id l' ids acc| | |]; try discriminate H. apply bool_decide_eq_true_1 in H. subst l'.
  exists l, terms, f, len, n, nft, w, id, ids, acc. split; [done|]. split; [rewrite E2; by left|]. rewrite E3. by left.
Qed.
Print Assumptions C64_map_race.

(** * An average of no moment *)
(** The total length is read before, the number of documents after a SaveOrUpdate: the
    search answers 1/2, where the average was 1/1 before and is 4/2 after. *)
Definition x_1 : field := mkField "text" 1 {["a" := 1%Z]}.
Definition x_3 : field := mkField "text" 3 {["a" := 3%Z]}.
Theorem C64_torn_average : forall N, exists (a b : busy N) ua ub r,
  busy_reachable id Some 5 N 4 a /\ busy_run id Some 5 4 a b /\ good_log (y_log (by_sys b)) /\ one_save "d2" x_3 a b /\ searches a = 0 /\ searches b = 1 /\
  y_proc (by_sys a) = Up ua /\ disk_get_length (u_mem ua) "text" = 1%Z /\ disk_get_size (u_mem ua) "text" = 1%Z /\
  y_proc (by_sys b) = Up ub /\ disk_get_length (u_mem ub) "text" = 4%Z /\ disk_get_size (u_mem ub) "text" = 2%Z /\
  search_returned b 0 ["a"] "text" r /\ sr_avg r = ndiv N (of_int N 1) (of_int N 2) /\ sr_docs r = {["d1" := x_1; "d2" := x_3]}.
Proof.
  intros N. destruct (stages4 (N := N) 5 4 (bs dopen ++ bsave "d1" x_1) ((false, XCall ["a"] "text") :: (false, XSearch 0) :: bsave "d2" x_3 ++ [(true, XSearch 0); (true, XSearch 0)]) [] []
    (fun a b _ _ => (idleb a && idleb b, addsb a b [Save "d2" x_3], (searches a, searches b), bool_decide (history b = [Save "d1" x_1; Save "d2" x_3]),
       match y_proc (by_sys a) with Up u => Some (disk_get_length (u_mem u) "text", disk_get_size (u_mem u) "text") | _ => None end,
       match y_proc (by_sys b) with Up u => Some (disk_get_length (u_mem u) "text", disk_get_size (u_mem u) "text") | _ => None end,
       match by_qs b with [(terms, f, SRet r)] => Some (terms, f, sr_avg r, bool_decide (sr_docs r = {["d1" := x_1; "d2" := x_3]})) | _ => None end))
    (true, true, (0, 1), true, Some (1, 1)%Z, Some (4, 2)%Z, Some (["a"], "text", ndiv N (of_int N 1) (of_int N 2), true))) as (a & b & _ & _ & Ha & Hb & _ & _ & H); [vm_compute; reflexivity|].
  repeat (apply pair_equal_spec in H as [H ?H]). apply andb_true_iff in H as [I1 I2]. apply idleb_ok in I1, I2. apply addsb_ok in H5. apply bool_decide_eq_true_1 in H3. injection H4 as S1 S2.
  destruct (y_proc (by_sys a)) as [| |ua] eqn:Eu; try discriminate H2. destruct (y_proc (by_sys b)) as [| |ub] eqn:Ev; try discriminate H1. injection H2 as L1 L2. injection H1 as M1 M2.
  destruct (by_qs b) as [|[[terms f] q] [|]] eqn:Eq; try discriminate H0; destruct q; try discriminate H0. injection H0 as Q1 Q2 Q3 Q4. apply bool_decide_eq_true_1 in Q4.
  exists a, b, ua, ub, r. split; [done|]. split; [eapply brun_live; [|exact Hb]; reflexivity|]. split; [apply (good_log_case _ _ H3); repeat constructor; done|]. split; [done|]. split; [done|]. split; [done|]. split; [done|]. split; [done|]. split; [done|]. split; [done|]. split; [done|]. split; [done|]. split; [|done]. unfold search_returned. rewrite Eq. cbn. by rewrite Q1, Q2.
Qed.
Print Assumptions C64_torn_average.

(** * Cases *)
Lemma quiet_ok {N} cs ncpu l (a b : busy N) : forallb (fun x => no_search x.2) l = true -> by_qs a = [] -> brun id Some cs N ncpu l a = Some b -> nobody_searching a /\ quiet_run id Some cs ncpu a b.
Proof.
  intros Hl Ha Hr. destruct (brun_quiet _ _ _ _ _ _ _ _ Hl Ha Hr) as [H _]. assert (forall x : busy N, by_qs x = [] -> nobody_searching x) as K by (intros x E i terms f q Hi; by rewrite E in Hi).
  split; [by apply K|]. eapply rtc_subrel; [|exact H]. intros x y [H1 H2]. split; [done|]. by apply K.
Qed.
(** The hypotheses of C64_finds_saved: after the first SaveOrUpdate a search is called,
    stops half-way, another document is saved, and a second search runs to its end. *)
Example C64_finds_case : forall N, exists (a b c : busy N) r,
  busy_reachable id Some 5 N 4 a /\ nobody_searching a /\ quiet_run id Some 5 4 a b /\ one_save "d1" x_ab a b /\
  busy_run id Some 5 4 b c /\ good_log (y_log (by_sys c)) /\ room 5 c /\ ~ nobody_searching c /\
  search_returned c 1 ["a"; "c"] "text" r /\ searches b <= 1 /\ "a" ∈ ["a"; "c"] /\ is_Some (f_tf x_ab !! "a") /\ sr_docs r = {["d1" := x_ab; "d2" := x_a]}.
Proof.
  intros N. destruct (stages4 (N := N) 5 4 (bs dopen) (bsave "d1" x_ab) ((false, XCall ["b"] "text") :: times 9 (XSearch 0) ++ bsave "d2" x_a ++ [(false, XCall ["a"; "c"] "text"); (true, XSearch 1); (true, XSearch 1)]) []
    (fun a b c _ => (idleb a && idleb b, addsb a b [Save "d1" x_ab], knownb {["d1"; "d2"]} c, bool_decide (history c = [Save "d1" x_ab; Save "d2" x_a]), bool_decide (answer c 1 = Some (["a"; "c"], "text", {["d1" := x_ab; "d2" := x_a]})),
      match by_qs a, by_qs c with [], (["b"], "text", SIds _ _ _ _) :: _ => searches b | _, _ => 2 end))
    (true, true, true, true, true, 0)) as (a & b & c & _ & Ha & Hb & Hc & _ & H); [vm_compute; reflexivity|].
  repeat (apply pair_equal_spec in H as [H ?H]). apply andb_true_iff in H as [I1 I2]. apply idleb_ok in I1, I2. apply addsb_ok in H4. apply bool_decide_eq_true_1 in H1, H2. apply answer_ok in H1 as (r & Hr & Hd).
  destruct (by_qs a) eqn:Eqa; [|discriminate H0]. destruct (quiet_ok 5 4 (bsave _ _) _ _ eq_refl Eqa Hb) as [Q1 Q2]. exists a, b, c, r. split; [done|]. split; [done|]. split; [done|]. split; [done|]. split; [eapply brun_live; [|exact Hc]; reflexivity|].
  split; [apply (good_log_case _ _ H2); repeat constructor; done|]. split; [by eapply knownb_ok|]. split.
  { intros Hn. destruct (by_qs c) as [|[[terms f] q] qs] eqn:Eqc; [discriminate H0|]. destruct (Hn 0 terms f q) as [r' Hr']; [by rewrite Eqc|]. unfold search_returned in Hr'. rewrite Eqc in Hr'. injection Hr' as ->.
    repeat (case_match; try discriminate H0). }
  split; [done|]. split; [|split; [by left|split; [by eexists|done]]]. repeat (case_match; try discriminate H0). lia.
Qed.
(** Those of C64_finds_later: the second SaveOrUpdate starts and ends while a search is
    in progress. *)
Example C64_later_case : forall N, exists (a b a' b' c : busy N) r,
  busy_reachable id Some 5 N 4 a /\ nobody_searching a /\ quiet_run id Some 5 4 a b /\ one_save "d1" x_a a b /\ busy_run id Some 5 4 b a' /\
  busy_run id Some 5 4 a' b' /\ one_save "d1" x_ab a' b' /\ busy_run id Some 5 4 b' c /\ good_log (y_log (by_sys c)) /\ room 5 c /\
  search_returned c 1 ["b"] "text" r /\ searches b' <= 1 /\ "b" ∈ ["b"] /\ is_Some (f_tf x_ab !! "b") /\ sr_docs r = {["d1" := x_ab]}.
Proof.
  intros N. destruct (stages4 (N := N) 5 4 (bs dopen) (bsave "d1" x_a) ((false, XCall ["a"] "text") :: times 28 (XSearch 0)) (bsave "d1" x_ab)
    (fun a b a' b' => (idleb a && idleb b && idleb a' && idleb b', addsb a b [Save "d1" x_a], addsb a' b' [Save "d1" x_ab], bool_decide (history b' = [Save "d1" x_a; Save "d1" x_ab]), match by_qs a with [] => searches b' | _ => 2 end,
      c ← brun id Some 5 N 4 [(true, XSearch 0); (false, XCall ["b"] "text"); (true, XSearch 1)] b'; Some (knownb {["d1"]} c, bool_decide (y_log (by_sys c) = y_log (by_sys b')), bool_decide (answer c 1 = Some (["b"], "text", {["d1" := x_ab]})))))
    (true, true, true, true, 1, Some (true, true, true))) as (a & b & a' & b' & Ha & Hb & Ha' & Hb' & H); [vm_compute; reflexivity|].
  repeat (apply pair_equal_spec in H as [H ?H]). apply andb_true_iff in H as [[[I1 I2]%andb_true_iff I3]%andb_true_iff I4]. apply idleb_ok in I1, I2, I3, I4. apply addsb_ok in H4, H3. apply bool_decide_eq_true_1 in H2.
  destruct (brun id Some 5 N 4 _ b') as [c|] eqn:Hc; [|discriminate H0]. cbn [mbind option_bind] in H0. injection H0 as K1 K2 K3. apply bool_decide_eq_true_1 in K2, K3. apply answer_ok in K3 as (r & Hr & Hd).
  destruct (by_qs a) eqn:Eqa; [|discriminate H1]. destruct (quiet_ok 5 4 (bsave _ _) _ _ eq_refl Eqa Hb) as [Q1 Q2]. exists a, b, a', b', c, r. split; [done|]. split; [done|]. split; [done|]. split; [done|]. split; [eapply brun_live; [|exact Ha']; reflexivity|]. split; [eapply brun_live; [|exact Hb']; reflexivity|]. split; [done|].
  split; [eapply brun_live; [|exact Hc]; reflexivity|]. split; [rewrite K2; apply (good_log_case _ _ H2); repeat constructor; done|]. split; [by eapply knownb_ok|]. split; [done|]. split; [lia|]. split; [by left|]. split; [by eexists|done].
Qed.
(** Those of C64_finds_unsaved, with a cache for one document: a search is called, stops
    between reading the file and putting it into the cache, another document is saved,
    and a second search runs to its end, then the first. *)
Example C64_unsaved_case : forall N, exists (a b c : busy N) u r r0,
  busy_reachable id Some 1 N 4 a /\ opens id Some 1 4 a b u /\ plain_doc "d1" /\ has (disk_get_index (u_mem u) "text") "a" "d1" /\
  load_doc Some (y_fs (by_sys b)) "d1" = Some (Some {["text" := x_a]}) /\ busy_run id Some 1 4 b c /\ (exists ev, y_log (by_sys c) = y_log (by_sys b) ++ ev /\ calls_of ev = [Save "d2" x_ab]) /\ good_log (y_log (by_sys c)) /\
  search_returned c 0 ["a"] "text" r0 /\ sr_docs r0 = {["d1" := x_a]} /\ search_returned c 1 ["a"; "c"] "text" r /\ sr_docs r = {["d1" := x_a; "d2" := x_ab]}.
Proof.
  intros N. destruct (stages4 (N := N) 1 4 (bs dopen ++ bsave "d1" x_a ++ bs (dflush ++ [(false, TIndex); (true, AIndex "u1"); (false, ACrash); (false, AStart); (true, ALoad)])) (bs [(false, AOpen)])
    ((false, XCall ["a"] "text") :: times 29 (XSearch 0) ++ bsave "d2" x_ab ++ [(false, XCall ["a"; "c"] "text"); (true, XSearch 1); (true, XSearch 1); (true, XSearch 0)]) []
    (fun a b c _ => (match y_proc (by_sys a) with Loading _ => true | _ => false end, match y_proc (by_sys b) with Up u => match disk_get_index (u_mem u) "text" !! "a" with Some S0 => bool_decide (is_Some (S0 !! "d1")) | None => false end | _ => false end,
       bool_decide (load_doc Some (y_fs (by_sys b)) "d1" = Some (Some {["text" := x_a]})), addsb b c [Save "d2" x_ab], bool_decide (history c = [Save "d1" x_a; Save "d2" x_ab]),
       bool_decide (answer c 0 = Some (["a"], "text", {["d1" := x_a]})), bool_decide (answer c 1 = Some (["a"; "c"], "text", {["d1" := x_a; "d2" := x_ab]}))))
    (true, true, true, true, true, true, true)) as (a & b & c & _ & Ha & Hb & Hc & _ & H); [vm_compute; reflexivity|].
  repeat (apply pair_equal_spec in H as [H ?H]). destruct (y_proc (by_sys a)) as [|g|] eqn:Ea; try discriminate H. destruct (y_proc (by_sys b)) as [| |u] eqn:Eu; try discriminate H5. apply addsb_ok in H3. destruct (disk_get_index (u_mem u) "text" !! "a") as [S0|] eqn:ES; try discriminate H5. apply bool_decide_eq_true_1 in H0, H1, H2, H4, H5. apply answer_ok in H0 as (r & Hr & Hd). apply answer_ok in H1 as (r0 & Hr0 & Hd0).
  exists a, b, c, u, r, r0. split; [done|]. split. { split; [|split; [by exists g|done]]. cbn in Hb. destruct (bexec id Some 1 N 4 (XSys AOpen) a) as [b1|] eqn:Eb; [|discriminate Hb]. cbn in Hb. injection Hb as <-. eapply bexec_live; [|exact Eb]. reflexivity. }
  split; [by apply plain_case|]. split; [by exists S0|]. split; [done|]. split; [eapply brun_live; [|exact Hc]; reflexivity|]. split; [done|]. split; [apply (good_log_case _ _ H2); repeat constructor; done|]. done.
Qed.
(** Those of C64_only_saved, C64_no_panic and C64_can_return: two searches in progress,
    one of them between reading a file and putting it into the cache, and one returned. *)
Example C64_busy_case : forall N, exists (b : busy N) r q0 q2,
  busy_reachable id Some 5 N 4 b /\ good_log (y_log (by_sys b)) /\ (forall c, c ∈ history b -> plain_doc (call_doc' c)) /\ (forall terms f q, (terms, f, q) ∈ by_qs b -> f <> "docs") /\
  by_qs b = [(["a"], "text", q0); (["b"], "text", SRet r); (["a"; "b"], "text", q2)] /\ (forall r', q0 <> SRet r') /\ (forall r', q2 <> SRet r') /\ sr_docs r = {["d1" := x_ab]}.
Proof.
  intros N. destruct (brun_obs 5 N 4 (stale1 ++ bsave "d1" x_ab ++ (false, XCall ["b"] "text") :: (true, XSearch 1) :: (false, XCall ["a"; "b"] "text") :: times 12 (XSearch 2))
    (fun b => (bool_decide (history b = [Save "d1" x_a; Save "d1" x_ab]), match by_qs b with [(t0, f0, SFields _ _ _ _); (t1, f1, SRet r); (t2, f2, SIds _ _ _ _)] => Some (t0, f0, t1, f1, t2, f2, bool_decide (sr_docs r = {["d1" := x_ab]})) | _ => None end))
    (true, Some (["a"], "text", ["b"], "text", ["a"; "b"], "text", true))) as (b & Hb & H); [vm_compute; reflexivity|].
  apply pair_equal_spec in H as [H H1]. apply bool_decide_eq_true_1 in H.
  destruct (by_qs b) as [|[[t0 f0] q0] [|[[t1 f1] q1] [|[[t2 f2] q2] [|]]]] eqn:Eq; try discriminate H1; destruct q0 as [| | | | |? ? ? w0|]; try discriminate H1; destruct q1 as [| | | | | |r]; try discriminate H1; destruct q2 as [| | | |? ? ? w2| |]; try discriminate H1.
  injection H1 as -> -> -> -> -> -> Hr. apply bool_decide_eq_true_1 in Hr. exists b, r. do 2 eexists. split; [done|]. split; [apply (good_log_case _ _ H); repeat constructor; done|]. split; [rewrite H; intros c Hc; rewrite !elem_of_cons in Hc; destruct Hc as [->|[->|Hc%elem_of_nil]]; [..|done]; by apply plain_case|].
  split; [rewrite Eq; intros terms f q Hq; rewrite !elem_of_cons in Hq; destruct Hq as [Hq|[Hq|[Hq|Hq%elem_of_nil]]]; [..|done]; injection Hq as -> -> ->; done|]. split; [exact Eq|]. done.
Qed.
(** The hypotheses of C64_counts, with a SaveOrUpdate during the search: the execution of
    C64_torn_average. *)
Example C64_counts_case : forall N, exists (b c : busy N) u ev r,
  y_proc (by_sys b) = Up u /\ u_pc u = CIdle /\ busy_run id Some 5 4 b c /\ y_log (by_sys c) = y_log (by_sys b) ++ ev /\ calls_of ev = [Save "d2" x_3] /\
  searches b <= 0 /\ search_returned c 0 ["a"] "text" r /\ sr_avg r = ndiv N (of_int N (add_lengths "text" (disk_get_length (u_mem u) "text") [])) (of_int N (add_docs "text" (disk_get_size (u_mem u) "text") [Save "d2" x_3])).
Proof.
  intros N. destruct (C64_torn_average N) as (a & b & ua & ub & r & _ & Hr & _ & ((u' & Hu' & Hi) & _ & ev & E & Hev) & S1 & _ & Hu & L1 & L2 & _ & _ & _ & Hs & Ha & _). rewrite Hu in Hu'. injection Hu' as <-.
  exists a, b, ua, ev, r. split; [done|]. split; [done|]. split; [done|]. split; [done|]. split; [done|]. split; [by rewrite S1|]. split; [done|]. rewrite L1, L2. exact Ha.
Qed.
