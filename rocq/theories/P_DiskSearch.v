(** Searching over the disk storage. *)
From Verif Require Import Base M_Field M_LRU S_LRU S_Visits M_Memory M_File M_Serialize M_Disk M_Num M_FanIn M_Search M_Standard S_View M_DiskSearch P_Base P_File P_LRU S_Disk P_DiskBase P_DiskInv P_DiskMem P_DiskWriter P_DiskTerm P_DiskDocs P_DiskDocs2 P_DiskDocs3.
#[local] Opaque serialize_metrics deserialize_metrics serialize_nft deserialize_nft serialize_field_map deserialize_field_map serialize_index deserialize_index.

(** * What GetFields has collected *)
Definition pgot (docs : string -> gmap string field) (f : string) (dn : list string) (acc : gmap string field) : Prop :=
  forall id, acc !! id = if decide (id ∈ dn) then docs id !! f else None.
Lemma pgot_next docs f dn acc id (fd : gmap string field) : pgot docs f dn acc -> fd !! f = docs id !! f ->
  pgot docs f (dn ++ [id]) (match fd !! f with Some x => <[id := x]> acc | None => acc end).
Proof.
  intros H -> id'. destruct (decide (id' = id)) as [->|Hne].
  - rewrite decide_True by (apply elem_of_app; right; left). destruct (docs id !! f) as [x|] eqn:E; [by rewrite lookup_insert|]. rewrite (H id). by destruct (decide _).
  - replace (match docs id !! f with Some x => <[id:=x]> acc | None => acc end !! id') with (acc !! id') by (destruct (docs id !! f); [by rewrite lookup_insert_ne|done]).
    rewrite (H id'). destruct (decide (id' ∈ dn)) as [Hi|Hi].
    + rewrite decide_True; [done|]. apply elem_of_app. by left.
    + rewrite decide_False; [done|]. intros [?|?%elem_of_list_singleton]%elem_of_app; done.
Qed.
Lemma pgot_skip docs f dn acc id : pgot docs f dn acc -> docs id !! f = None -> pgot docs f (dn ++ [id]) acc.
Proof. intros H E. pose proof (pgot_next docs f dn acc id ∅ H) as H'. rewrite lookup_empty in H'. by apply H'. Qed.
Lemma disk_fields_spec docs ids f id : disk_fields docs ids f !! id = if decide (id ∈ ids) then docs id !! f else None.
Proof.
  enough (forall ids dn acc, pgot docs f dn acc -> pgot docs f (dn ++ ids) (fold_left (fun acc id => match docs id !! f with Some x => <[id := x]> acc | None => acc end) ids acc)) as G.
  { apply (G ids [] ∅). intros i. by rewrite lookup_empty. }
  clear ids id. induction ids as [|i ids IH]; intros dn acc H; cbn; [by rewrite app_nil_r|].
  replace (dn ++ i :: ids) with ((dn ++ [i]) ++ ids) by (by rewrite <- app_assoc). apply IH. by apply pgot_next.
Qed.
Lemma disk_view_pointwise m docs : fields_pointwise (disk_view m docs).
Proof.
  intros ids f d. cbn [disk_view v_fields]. rewrite !disk_fields_spec. destruct (decide (d ∈ ids)); [|done]. by rewrite decide_True by (by apply elem_of_list_singleton).
Qed.

(** * The readers *)
Section reads.
  Variables (compress : bytes -> bytes) (decompress : bytes -> option bytes) (cache_size : Z).
  Hypothesis pos : (0 < cache_size)%Z.
  Notation heap u := (c_heap (u_mem u)).
  Notation cache u := (c_cache (u_mem u)).
  Variables (docs : string -> gmap string field) (qs : list (list string * string)).

  (** A reader; [out id]: document [id] will not be found on disk. *)
  Definition reader (out : string -> Prop) (q : list string * string) (pc : cpc) : Prop :=
    match pc with
    | CGet ids0 f ids acc => (ids0, f) = q /\ exists dn, ids0 = dn ++ ids /\ pgot docs f dn acc
    | CGetLoad ids0 f id ids acc => (ids0, f) = q /\ (exists dn, ids0 = dn ++ id :: ids /\ pgot docs f dn acc) /\ out id
    | CGot ids0 f acc => (ids0, f) = q /\ pgot docs f ids0 acc
    | _ => False
    end.
  (** The store seen by the readers. *)
  Definition coherent (m : cmem) : Prop :=
    exists kvs, R (c_cache m) kvs /\ lr_cap (c_cache m) = cache_size /\ forall k l, (k, l) ∈ kvs -> c_heap m !! l = Some (docs k).
  Lemma read_step s (u : up) (out : string -> Prop) q pc m' pc' :
    coherent (u_mem u) ->
    (forall kvs id, R (cache u) kvs -> id ∉ kvs.*1 -> id ∈ q.1 -> out id) ->
    (forall id, id ∈ q.1 -> out id -> (load_doc decompress s id = Some None /\ docs id = ∅) \/ load_doc decompress s id = Some (Some (docs id))) ->
    reader out q pc -> (forall ids f acc, pc <> CGot ids f acc) -> c_step decompress s (u_mem u, pc) (m', pc') ->
    reader out q pc' /\ coherent m' /\
    ((exists c, m' = set_cache (u_mem u) c (heap u) /\ forall kvs kvs' p, R (cache u) kvs -> R c kvs' -> p ∈ kvs' <-> p ∈ kvs) \/
     (exists id c l, id ∈ q.1 /\ out id /\ load_doc decompress s id = Some (Some (docs id)) /\ m' = set_cache (u_mem u) c (<[l := docs id]> (heap u)))).
  Proof.
    intros (kvs & HR & Hc & HI) Hout Hload Hrd Hng Hs.
    assert (forall m, m = set_cache m (c_cache m) (c_heap m)) as Eta by (by intros []).
    inversion Hs; subst; cbn [reader] in Hrd; try done.
    - destruct Hrd as [E (dn & -> & Hg)]. subst q.
      match goal with G1 : lru_get _ _ = _, G2 : lru_deref _ _ = _ |- _ => destruct (get_hit _ _ _ _ _ _ HR G1 G2) as (kvs1 & R1 & C1 & M1 & I1) end.
      pose proof (HI _ _ I1) as Hd. split; [|split].
      + split; [done|]. exists (dn ++ [id]). split; [by rewrite <- app_assoc|]. apply pgot_next; [done|]. congruence.
      + exists kvs1. split; [done|]. cbn. split; [by rewrite C1|]. intros k l0 Hk. apply HI. by apply M1.
      + left. exists c'. split; [done|]. intros ka kb p Ra Rb. split; intros Hp.
        * apply (R_mem _ _ _ _ HR Ra). apply M1. by apply (R_mem _ _ _ _ Rb R1).
        * apply (R_mem _ _ _ _ R1 Rb). apply M1. by apply (R_mem _ _ _ _ Ra HR).
    - destruct Hrd as [E (dn & -> & Hg)]. subst q. match goal with G1 : lru_get _ _ = _ |- _ => destruct (get_miss _ _ _ _ HR G1) as [-> Hni] end.
      rewrite <- Eta. split; [|split].
      + split; [done|]. split; [by exists dn|]. apply (Hout kvs); [done|done|]. cbn. apply elem_of_app. right. left.
      + by exists kvs.
      + left. exists (cache u). split; [by rewrite <- Eta|]. intros ka kb p Ra Rb. by apply (same_kvs (cache u)).
    - destruct Hrd as (E & (dn & -> & Hg) & Ho). subst q. destruct (Hload id) as [[L1 L2]|L]; [cbn; apply elem_of_app; right; left|done| |congruence].
      split; [|split].
      + split; [done|]. exists (dn ++ [id]). split; [by rewrite <- app_assoc|]. apply pgot_skip; [done|]. by rewrite L2, lookup_empty.
      + by exists kvs.
      + left. exists (cache u). split; [by rewrite <- Eta|]. intros ka kb p Ra Rb. by apply (same_kvs (cache u)).
    - destruct Hrd as (E & (dn & -> & Hg) & Ho). subst q. assert (id ∈ dn ++ id :: ids) as Hin by (apply elem_of_app; right; left).
      destruct (Hload id) as [[L1 L2]|L]; [done|done|congruence|]. assert (fd = docs id) as -> by congruence.
      match goal with G1 : lru_put _ _ _ = _ |- _ => assert (0 < lr_cap (cache u))%Z as Hpos by (by rewrite Hc); destruct (put_R _ _ _ _ _ HR Hpos G1) as [R2 C2] end.
      split; [|split].
      + split; [done|]. exists (dn ++ [id]). split; [by rewrite <- app_assoc|]. by apply pgot_next.
      + eexists. split; [exact R2|]. cbn. split; [by rewrite C2|]. intros k l0 Hk. apply aput_in in Hk as [[= -> ->]|[_ Hk]]; [by rewrite lookup_insert|].
        rewrite lookup_insert_ne; [by apply HI|]. intros ->. apply HI in Hk. congruence.
      + right. exists id, c', l. done.
    - destruct Hrd as [E (dn & E2 & Hg)]. rewrite app_nil_r in E2. subst dn. split; [done|]. split; [by exists kvs|]. left. exists (cache u). split; [by rewrite <- Eta|]. intros ka kb p Ra Rb. by apply (same_kvs (cache u)).
    - by destruct (Hng ids0 f acc).
  Qed.
  (** A reader that has not finished can move. *)
  Lemma read_can s (u : up) (out : string -> Prop) q pc :
    coherent (u_mem u) ->
    (forall id, id ∈ q.1 -> out id -> (load_doc decompress s id = Some None /\ docs id = ∅) \/ load_doc decompress s id = Some (Some (docs id))) ->
    reader out q pc -> (exists acc, pc = CGot q.1 q.2 acc) \/ exists m' pc', (forall ids f acc, pc <> CGot ids f acc) /\ c_step decompress s (u_mem u, pc) (m', pc').
  Proof.
    intros (kvs & HR & Hc & HI) Hload Hrd. destruct pc; try done.
    - right. destruct Hrd as [E (dn & E0 & Hg)]. destruct ids as [|id ids]; [eexists _, _; split; [done|by constructor]|].
      pose proof (get_refine _ _ id HR) as G. destruct (lru_get (cache u) id) as [[c' [e|]]|] eqn:El; [| |done].
      + destruct G as (_ & _ & _ & _ & v & Hv & Hd & _). eexists _, _. split; [done|]. eapply c_get_hit; [done|done|by apply (HI id)].
      + eexists _, _. split; [done|]. by eapply c_get_miss.
    - right. destruct Hrd as (E & (dn & E0 & Hg) & Ho). destruct (Hload id) as [[L1 L2]|L]; [subst q ids0; cbn; apply elem_of_app; right; left|done| |].
      + eexists _, _. split; [done|]. by apply c_load_none.
      + set (l := S (max_list (map_to_list (heap u)).*1)). assert (heap u !! l = None) as Hl.
        { destruct (heap u !! l) eqn:E1; [|done]. apply elem_of_map_to_list in E1. apply (elem_of_list_fmap_1 fst) in E1. cbn in E1. apply max_list_elem_of_le in E1. unfold l in E1. lia. }
        destruct (put_refine (cache u) kvs id l HR) as (c' & Hp & _); [by rewrite Hc|]. eexists _, _. split; [done|]. by eapply c_load_some.
    - left. destruct Hrd as [<- _]. by eexists.
  Qed.
End reads.

(** * Runs *)
Section runs.
  Variables (compress : bytes -> bytes) (decompress : bytes -> option bytes) (cache_size : Z).
  Hypothesis pos : (0 < cache_size)%Z.
  Notation live := (live_step compress decompress cache_size).
  Notation reach := (reachable compress decompress cache_size).
  Notation heap u := (c_heap (u_mem u)).
  Notation cache u := (c_cache (u_mem u)).

  Definition tables (m : cmem) := (c_index m, c_length m, c_size m, c_nft m).
  Definition no_call (e : event) : Prop := (forall c, e <> ECall c) /\ (forall ids f, e <> EGet ids f).
  Lemma live_relog s p log s' p' ev log0 : live (mkSys s p log) (mkSys s' p' (log ++ ev)) -> live (mkSys s p log0) (mkSys s' p' (log0 ++ ev)).
  Proof.
    intros H. inversion H; subst; try match goal with E : ?l ++ _ = ?l ++ _ |- _ => apply app_inv_head in E; subst end;
      try match goal with E : ?l = ?l ++ _ |- _ => rewrite <- (app_nil_r l) in E at 1; apply app_inv_head in E; subst; rewrite app_nil_r end; by econstructor.
  Qed.
  Lemma live_nocrash y y' ev : live y y' -> y_log y' = y_log y ++ ev -> ECrash ∉ ev.
  Proof.
    intros H Hl Hc. inversion H; subst; cbn [y_log] in *; try (apply app_inv_head in Hl; subst);
      try (rewrite <- (app_nil_r log) in Hl at 1; apply app_inv_head in Hl; subst; by apply elem_of_nil in Hc).
    - by apply elem_of_list_singleton in Hc.
    - match goal with G : up_step _ _ _ _ _ |- _ => inversion G; subst end; try (by apply elem_of_nil in Hc); try (by apply elem_of_list_singleton in Hc).
      unfold nft_event in Hc. destruct (w_pc nw); try (by apply elem_of_nil in Hc); match goal with pc : ss_pc |- _ => destruct pc end; try (by apply elem_of_nil in Hc); by apply elem_of_list_singleton in Hc.
    - match goal with G : up_call _ _ _ |- _ => inversion G; subst end; by apply elem_of_list_singleton in Hc.
  Qed.
  Lemma quiet_calls ev : (forall e, e ∈ ev -> no_call e) -> calls_of ev = [].
  Proof.
    intros H. unfold calls_of. induction ev as [|e ev IH]; [done|]. cbn. destruct e as [|c| | | |]; cbn; try (apply IH; intros; apply H; by right).
    exfalso. destruct (H (ECall c)) as [H1 _]; [left|]. by apply (H1 c).
  Qed.
  Lemma background s u log y' ev : live (mkSys s (Up u) log) y' -> y_log y' = log ++ ev -> (forall e, e ∈ ev -> no_call e) -> u_pc u = CIdle ->
    exists u' s', y' = mkSys s' (Up u') (log ++ ev) /\ u_mem u' = u_mem u /\ u_pc u' = CIdle /\ ((up_step compress decompress (u, s) ev (u', s') ) \/ up_tick (u, s) (u', s') /\ ev = []).
  Proof.
    intros H Hl He Hp. inversion H; subst; cbn [y_log] in *.
    - apply app_inv_head in Hl. subst. eexists u', s'. split; [done|]. match goal with G : up_step _ _ _ _ _ |- _ => rename G into Hu end.
      assert (u_mem u' = u_mem u /\ u_pc u' = CIdle) as [E1 E2]; [|split; [done|]; split; [done|]; by left].
      inversion Hu; subst; cbn [u_pc u_mem] in *; try discriminate Hp; try done; subst.
      + match goal with G : c_step _ _ _ _ |- _ => inversion G end.
      + match goal with G : c_doc _ _ _ |- _ => inversion G end.
    - rewrite <- (app_nil_r log) in Hl at 1. apply app_inv_head in Hl. subst. eexists u', s'. split; [by rewrite app_nil_r|].
      match goal with G : up_tick _ _ |- _ => rename G into Hu end. assert (u_mem u' = u_mem u /\ u_pc u' = u_pc u) as [E1 E2] by (inversion Hu; done). rewrite E2. split; [done|]. split; [done|]. by right.
    - exfalso. apply app_inv_head in Hl. subst. match goal with G : up_call _ _ _ |- _ => inversion G; subst end.
      + destruct (He (ECall (Save d x))) as [He1 _]; [left|]. by eapply He1.
      + destruct (He (ECall (Index d x))) as [He1 _]; [left|]. by eapply He1.
      + destruct (He (EGet ids f)) as [_ He1]; [left|]. by eapply He1.
  Qed.

  Definition readers (docs : string -> gmap string field) (out : string -> Prop) (qs : list (list string * string)) (pcs : list cpc) : Prop :=
    Forall2 (reader docs out) qs pcs.
  Lemma readers_start docs out qs : readers docs out qs (read_start <$> qs).
  Proof.
    apply Forall2_fmap_r, Forall_Forall2_diag, Forall_forall. intros [ids f] _. cbn. split; [done|]. exists []. split; [done|]. intros id. by rewrite lookup_empty, decide_False by apply not_elem_of_nil.
  Qed.
  Lemma readers_set docs out qs pcs i q pc' : readers docs out qs pcs -> qs !! i = Some q -> reader docs out q pc' -> readers docs out qs (<[i := pc']> pcs).
  Proof. intros H Hq Hr. rewrite <- (list_insert_id qs i q Hq). by apply Forall2_insert. Qed.
  Lemma c_step_tables s m pc m' pc' docs out q : reader docs out q pc -> c_step decompress s (m, pc) (m', pc') -> tables m' = tables m.
  Proof. intros Hr H. inversion H; subst; try done; cbn in Hr; done. Qed.

  (** ** The cache holds every document, never restarted *)

  Definition inv_a (h : list call) (m0 : cmem) (qs : list (list string * string)) (x : sys * list cpc) : Prop :=
    exists u log0, y_proc x.1 = Up u /\ u_pc u = CIdle /\ tables (u_mem u) = tables m0 /\ reach (mkSys (y_fs x.1) (Up u) log0) /\ good_log log0 /\ small cache_size log0 /\ calls_of log0 = h /\
      readers (doc_map h) (fun id => doc_map h id = ∅) qs x.2.
  Lemma inv_a_coherent h s u log0 : reach (mkSys s (Up u) log0) -> good_log log0 -> small cache_size log0 -> calls_of log0 = h -> u_pc u = CIdle ->
    coherent cache_size (doc_map h) (u_mem u) /\ (forall kvs id, R (cache u) kvs -> id ∉ kvs.*1 -> doc_map h id = ∅) /\
    (forall id, plain_doc id -> doc_map h id = ∅ -> load_doc decompress s id = Some None).
  Proof.
    intros Hr Hg Hs Hc Hp. pose proof (e_reach compress decompress cache_size pos _ Hr Hg Hs) as E. cbn [y_proc y_fs y_log] in E. destruct E as (kvs & own & past & HD & E1 & _ & E2).
    rewrite Hp in E1. cbn in E1. rewrite app_nil_r in E1. rewrite Hc in E1. subst past. split; [|split].
    - exists kvs. split; [by eapply du_R|]. split; [by eapply du_cap|]. intros k l Hk. destruct (E2 k) as [(Hn & _)|(l' & x & Hl & Hh & _)].
      + exfalso. apply Hn, in_keys. by exists l.
      + by rewrite (nodup_key _ _ _ _ (R_nodup _ _ (du_R _ _ _ _ _ HD)) Hk Hl).
    - intros kvs' id HR Hn. destruct (E2 id) as [(_ & Hn' & _)|(l' & x & Hl & _)]; [by apply doc_map_none|]. exfalso. apply Hn, in_keys. exists l'. by apply (R_mem (cache u) kvs); [by eapply du_R|..].
    - intros id Hpl He. destruct (E2 id) as [(_ & _ & _ & Hf)|(l' & x & Hl & _ & Hx & _)].
      + unfold load_doc. specialize (Hf Hpl). unfold doc_file in Hf. by rewrite Hf.
      + exfalso. revert Hx He. clear. revert h. assert (forall h, Save id x ∈ h -> doc_map h id <> ∅) as G; [|intros h Hx He; by apply (G h)].
        induction h as [|c h IH] using rev_ind; [by intros ?%elem_of_nil|]. rewrite doc_map_app. intros [Hi|Hi%elem_of_list_singleton]%elem_of_app.
        * destruct c as [d y|]; cbn; [|by apply IH]. destruct (decide (d = id)) as [->|]; [apply insert_non_empty|by apply IH].
        * subst c. cbn. rewrite decide_True by done. apply insert_non_empty.
  Qed.
  Lemma set_same (m : cmem) : set_cache m (c_cache m) (c_heap m) = m.
  Proof. by destruct m. Qed.
  Lemma inv_a_step h m0 qs x x' : (forall q d, q ∈ qs -> d ∈ q.1 -> plain_doc d) -> inv_a h m0 qs x -> reads_step compress decompress cache_size x x' -> inv_a h m0 qs x'.
  Proof.
    intros Hpl (u & log0 & Hy & Hp & Ht & Hr & Hg & Hs & Hc & Hrd) H. destruct (inv_a_coherent h _ _ _ Hr Hg Hs Hc Hp) as (K1 & K2 & K3).
    inversion H; subst x x'; cbn [fst snd y_proc y_fs] in *.
    - injection Hy as <-. match goal with G : pcs !! i = Some pc |- _ => rename G into Hi end. match goal with G : c_step _ _ _ _ |- _ => rename G into Hst end.
      destruct (Forall2_lookup_r _ _ _ _ _ Hrd Hi) as (q & Hq & Hrq). assert (q ∈ qs) as Hqs by (by eapply elem_of_list_lookup_2).
      destruct (read_step decompress cache_size pos (doc_map h) s u0 (fun id => doc_map h id = ∅) q pc m' pc' K1) as (R1 & R2 & R3); try done.
      { intros kvs id Hk Hn _. by apply (K2 kvs). }
      { intros id Hd Ho. left. split; [|done]. apply K3; [by apply (Hpl q)|done]. }
      pose proof (c_step_tables _ _ _ _ _ _ _ _ Hrq Hst) as Htb.
      assert (exists ev, calls_of ev = [] /\ (forall d, requested ev d -> d ∈ q.1) /\ ECrash ∉ ev /\ reach (mkSys s (Up (with_mem u0 m')) (log0 ++ ev))) as (ev & V1 & V2 & V3 & V4).
      { destruct u0 as [m pc0 ich mw nw dw iw mg]. cbn [u_pc u_mem with_mem u_ich u_mw u_nw u_dw u_iw u_mg] in *. subst pc0.
        assert (m' = m -> exists ev, calls_of ev = [] /\ (forall d, requested ev d -> d ∈ q.1) /\ ECrash ∉ ev /\ reach (mkSys s (Up (mkUp m' CIdle ich mw nw dw iw mg)) (log0 ++ ev))) as Hsame.
        { intros ->. exists []. split; [done|]. split; [intros d (? & ? & ?%elem_of_nil & _); done|]. split; [by apply not_elem_of_nil|]. by rewrite app_nil_r. }
        inversion Hst; subst; cbn [reader] in Hrq; try done; try (by apply Hsame).
        - exists [EGet [id] f]. split; [done|]. split.
          { intros d (ids1 & f1 & [= -> ->]%elem_of_list_singleton & ->%elem_of_list_singleton). destruct Hrq as [<- (dn & -> & _)]. cbn. apply elem_of_app. right. left. }
          split; [by intros ?%elem_of_list_singleton|]. eapply rtc_transitive; [exact Hr|].
          eapply rtc_l; [left; apply y_call, k_get|]. eapply rtc_l; [left; eapply y_up, u_client, c_get_hit; done|]. rewrite app_nil_r.
          eapply rtc_l; [left; eapply y_up, u_client, c_get_end; done|]. rewrite app_nil_r. eapply rtc_l; [left; eapply y_up, u_client, c_got; done|]. rewrite app_nil_r. apply rtc_refl.
        - apply Hsame. match goal with G1 : lru_get _ _ = _ |- _ => destruct K1 as (kvs & HR & _); destruct (get_miss _ _ _ _ HR G1) as [-> _] end. apply set_same.
        - exfalso. destruct Hrq as (<- & (dn & -> & _) & Ho). rewrite K3 in *; [discriminate|..]; [|done]. eapply Hpl; [exact Hqs|]. cbn. apply elem_of_app. right. left. }
      exists (with_mem u0 m'), (log0 ++ ev). split; [done|]. split; [done|]. split; [by rewrite <- Ht|]. split; [done|]. split.
      { intros c. rewrite calls_app, V1, app_nil_r. apply Hg. } split.
      { destruct Hs as (S1 & S2 & S3). split; [|split].
        - intros [?|?]%elem_of_app; done.
        - by rewrite calls_app, V1, app_nil_r.
        - intros d (ids & f & Hin & Hd). apply elem_of_app in Hin as [Hin|Hin]; [apply S3; by exists ids, f|]. eapply Hpl; [exact Hqs|]. apply V2. by exists ids, f. }
      split; [by rewrite calls_app, V1, app_nil_r|]. by eapply readers_set.
    - destruct y as [s p log]. cbn in Hy. subst p. cbn [fst snd y_proc y_fs y_log] in *. match goal with G : live_step _ _ _ _ _ |- _ => rename G into Hl end. match goal with G : y_log y' = _ |- _ => rename G into Hlog end.
      match goal with G : forall e, e ∈ ev -> _ |- _ => rename G into Hq end.
      destruct (background _ _ _ _ _ Hl Hlog Hq Hp) as (u' & s' & -> & Em & Ep & _). pose proof (quiet_calls ev Hq) as V1.
      exists u', (log0 ++ ev). split; [done|]. split; [done|]. split; [by rewrite Em|]. split; [eapply rtc_r; [exact Hr|left; by eapply live_relog]|]. split.
      { intros c. rewrite calls_app, V1, app_nil_r. apply Hg. } split.
      { destruct Hs as (S1 & S2 & S3). split; [|split].
        - intros [?|Hcr]%elem_of_app; [done|]. by apply (live_nocrash _ _ _ Hl Hlog).
        - by rewrite calls_app, V1, app_nil_r.
        - intros d (ids & f & Hin & Hd). apply elem_of_app in Hin as [Hin|Hin]; [apply S3; by exists ids, f|]. exfalso. destruct (Hq _ Hin) as [_ Hx]. by eapply Hx. }
      split; [by rewrite calls_app, V1, app_nil_r|]. done.
  Qed.

  (** ** Reopened and only read: the cache may be smaller than the collection *)
  Notation file_docs := (file_docs decompress).
  Definition inv_b (s0 : fs) (m0 : cmem) (qs : list (list string * string)) (x : sys * list cpc) : Prop :=
    exists u, y_proc x.1 = Up u /\ u_pc u = CIdle /\ tables (u_mem u) = tables m0 /\ base x.1 /\ d_inv compress cache_size x.1 /\ good_log (y_log x.1) /\
      ro compress decompress cache_size s0 u (y_fs x.1) /\ readers (file_docs s0) (fun _ => True) qs x.2.
  Lemma ro_coherent s0 u s : ro compress decompress cache_size s0 u s -> coherent cache_size (file_docs s0) (u_mem u).
  Proof.
    intros (_ & _ & _ & _ & (kvs & own & HD & HI) & _). exists kvs. split; [by eapply du_R|]. split; [by eapply du_cap|].
    intros k l Hk. destruct (HI _ _ Hk) as (m & Hm & Hl). unfold file_docs. by rewrite Hl.
  Qed.
  Lemma ro_load s0 u s id : ro compress decompress cache_size s0 u s -> load_doc decompress s0 id <> None ->
    (load_doc decompress s id = Some None /\ file_docs s0 id = ∅) \/ load_doc decompress s id = Some (Some (file_docs s0 id)).
  Proof.
    intros (A1 & _) Hn. rewrite (load_same decompress s s0 id (A1 id)). unfold file_docs. destruct (load_doc decompress s0 id) as [[m|]|]; [by right|by left|done].
  Qed.
  Definition with_pc (u : up) (pc : cpc) : up := mkUp (u_mem u) pc (u_ich u) (u_mw u) (u_nw u) (u_dw u) (u_iw u) (u_mg u).
  Definition getting (pc : cpc) : Prop := match pc with CGet _ _ _ _ | CGetLoad _ _ _ _ _ | CGot _ _ _ | CIdle => True | _ => False end.
  Lemma up_wf_pc u s pc : up_wf u s -> getting pc -> up_wf (with_pc u pc) s.
  Proof. intros [W1 W2 W3 W4 W5 W6 W7] Hp. constructor; cbn; try done. by destruct pc. Qed.
  Lemma d_up_pc u kvs own pc : d_up compress cache_size u kvs own -> getting pc -> getting (u_pc u) -> d_up compress cache_size (with_pc u pc) kvs own.
  Proof.
    intros [D1 D2 D3 D4 D5 D6 D7] Hp Hp'. constructor; cbn; try done; [by destruct pc|]. revert D7. unfold d_flight. destruct (w_pc (u_dw u)); try done.
    intros (l & m & T & E1 & E2 & E3 & E4). exists l, m, T. do 3 (split; [done|]). intros _. apply E4. unfold d_stale. intros Hd. by destruct (u_pc u).
  Qed.
  Lemma ro_pc s0 u s pc : ro compress decompress cache_size s0 u s -> u_pc u = CIdle \/ getting (u_pc u) -> getting pc ->
    match pc with
    | CGet ids0 f ids acc => exists dn, ids0 = dn ++ ids /\ ro_got decompress s0 f dn acc
    | CGetLoad ids0 f id ids acc => exists dn, ids0 = dn ++ id :: ids /\ ro_got decompress s0 f dn acc
    | CGot ids0 f acc => ro_got decompress s0 f ids0 acc
    | _ => True
    end -> ro compress decompress cache_size s0 (with_pc u pc) s.
  Proof.
    intros (A1 & A2 & A3 & A4 & (kvs & own & HD & A5) & A6) Hu Hp Hm. assert (getting (u_pc u)) as Hu' by (destruct Hu as [E|?]; [by rewrite E|done]).
    unfold ro. cbn. do 3 (split; [done|]). split; [by destruct pc|]. split; [|by destruct pc]. exists kvs, own. split; [by apply d_up_pc|done].
  Qed.
  Lemma ro_pgot s0 f dn acc : pgot (file_docs s0) f dn acc -> ro_got decompress s0 f dn acc.
  Proof.
    intros H id. rewrite (H id). unfold file_docs, ro_doc. destruct (load_doc decompress s0 id) as [[m|]|]; [done|by rewrite lookup_empty..].
  Qed.
  Lemma inv_b_step s0 m0 qs x x' : (forall q d, q ∈ qs -> d ∈ q.1 -> load_doc decompress s0 d <> None) -> inv_b s0 m0 qs x -> reads_step compress decompress cache_size x x' -> inv_b s0 m0 qs x'.
  Proof.
    intros Hpl (u & Hy & Hp & Ht & HB & HI & Hg & Hro & Hrd) H. inversion H; subst x x'; cbn [fst snd y_proc y_fs y_log] in *.
    - injection Hy as <-. match goal with G : pcs !! i = Some pc |- _ => rename G into Hi end. match goal with G : c_step _ _ _ _ |- _ => rename G into Hst end.
      destruct (Forall2_lookup_r _ _ _ _ _ Hrd Hi) as (q & Hq & Hrq). assert (q ∈ qs) as Hqs by (by eapply elem_of_list_lookup_2).
      destruct (read_step decompress cache_size pos (file_docs s0) s u0 (fun _ => True) q pc m' pc' (ro_coherent _ _ _ Hro)) as (R1 & R2 & _); try done.
      { intros id Hd _. eapply ro_load; [exact Hro|]. by apply (Hpl q). }
      pose proof (c_step_tables _ _ _ _ _ _ _ _ Hrq Hst) as Htb.
      assert (getting pc) as Gp by (destruct pc; done). assert (getting pc') as Gp' by (destruct pc'; done).
      assert (ro compress decompress cache_size s0 (with_pc u0 pc) s) as Hro1.
      { apply ro_pc; [done|by left|done|]. destruct pc; try done.
        - destruct Hrq as [_ (dn & -> & Hgt)]. exists dn. split; [done|]. by apply ro_pgot.
        - destruct Hrq as (_ & (dn & -> & Hgt) & _). exists dn. split; [done|]. by apply ro_pgot.
        - destruct Hrq as [_ Hgt]. by apply ro_pgot. }
      destruct HB as [Bl [Bd Bw]]. destruct HI as [Hv _]. cbn [y_fs y_proc] in *.
      assert (up_step compress decompress (with_pc u0 pc, s) [] (with_pc (with_mem u0 m') pc', s)) as Hup by (by apply u_client).
      assert (up_wf (with_pc u0 pc) s) as Bw1 by (by apply up_wf_pc).
      pose proof (ro_step compress decompress cache_size pos s0 _ _ _ _ _ Bl Bw1 Hv Hro1 Hup) as Hro2.
      assert (ro compress decompress cache_size s0 (with_mem u0 m') s) as Hro3.
      { replace (with_mem u0 m') with (with_pc (with_pc (with_mem u0 m') pc') CIdle); [apply ro_pc; try done; by right|]. destruct u0. cbn in Hp |- *. by subst. }
      exists (with_mem u0 m'). split; [done|]. split; [done|]. split; [by rewrite <- Ht|]. split; [split; [done|]; split; [done|]; by destruct Bw|]. split.
      { split; [done|]. cbn. destruct Hro3 as (_ & _ & _ & _ & (kvs & own & HD & _) & _). by exists kvs, own. }
      split; [done|]. split; [done|]. by eapply readers_set.
    - destruct y as [s p log]. cbn in Hy. subst p. cbn [fst snd y_proc y_fs y_log] in *. match goal with G : live_step _ _ _ _ _ |- _ => rename G into Hl end. match goal with G : y_log y' = _ |- _ => rename G into Hlog end.
      match goal with G : forall e, e ∈ ev -> _ |- _ => rename G into Hq end.
      destruct (background _ _ _ _ _ Hl Hlog Hq Hp) as (u' & s' & -> & Em & Ep & Hst). pose proof (quiet_calls ev Hq) as V1.
      assert (good_log (log ++ ev)) as Hg' by (intros c; rewrite calls_app, V1, app_nil_r; apply Hg).
      exists u'. split; [done|]. split; [done|]. split; [by rewrite Em|]. split; [eapply base_step; [exact HB|by left|done]|]. split; [eapply (d_inv_step compress decompress cache_size pos); [exact HB|exact HI|by left]|].
      split; [done|]. split; [|done]. cbn [y_fs]. destruct HB as [Bl [Bd Bw]]. destruct HI as [Hv _]. cbn [y_fs y_proc] in *. destruct Hst as [Hst|[Hst ->]].
      + by eapply (ro_step compress decompress cache_size pos).
      + destruct Hro as (A1 & A2 & A3 & A4 & (kvs & own & HD & A5) & A6). destruct (d_tick _ _ _ _ _ _ _ _ HD Hst) as (D & -> & E1 & E2 & E3). unfold ro. rewrite E1, E2, Ep. split; [done|]. split; [done|].
        split; [|split; [done|]; split; [by exists kvs, own|done]]. inversion Hst; subst; cbn [u_dw] in *; try done. match goal with G : w_tick _ _ |- _ => inversion G; subst end. cbn [w_buf w_pc] in *. right. f_equal.
        match goal with G : range_order _ _ |- _ => rename G into HR end. subst buf. unfold range_order in HR. rewrite map_to_list_empty in HR. by apply Permutation_nil_r in HR.
  Qed.

  (** ** Conclusions *)
  Lemma not_fatal docs m s (pc : cpc) (out : string -> Prop) (q : list string * string) : coherent cache_size docs m -> (forall id, id ∈ q.1 -> out id -> load_doc decompress s id <> None) ->
    reader docs out q pc -> ~ c_fatal decompress s (m, pc).
  Proof.
    intros (kvs & HR & Hc & _) Hload Hrd Hf. inversion Hf; subst; cbn in Hrd; try done.
    - pose proof (get_refine _ _ id HR) as G. match goal with E : lru_get _ _ = None |- _ => by rewrite E in G end.
    - destruct Hrd as (<- & (dn & -> & _) & Ho). apply (Hload id); [cbn; apply elem_of_app; right; left|done|done].
    - destruct (put_refine (c_cache m) kvs id l HR) as (c' & Hp & _); [done|]. congruence.
  Qed.

  Definition left (pc : cpc) : nat := match pc with CGet _ _ ids _ => 2 * length ids + 1 | CGetLoad _ _ _ ids _ => 2 * length ids + 2 | _ => 0 end.
  Lemma left_step docs out q s m pc m' pc' : reader docs out q pc -> (forall ids f acc, pc <> CGot ids f acc) -> c_step decompress s (m, pc) (m', pc') -> (left pc' < left pc)%nat.
  Proof. intros Hr Hn H. inversion H; subst; cbn in Hr; try done; try (by edestruct Hn); cbn; lia. Qed.
  (** Invariants under which every reader answers [docs]. *)
  Lemma finish (docs : string -> gmap string field) (out : string -> Prop) (I : sys * list cpc -> Prop) qs :
    (forall x x', I x -> reads_step compress decompress cache_size x x' -> I x') ->
    (forall x, I x -> exists u, y_proc x.1 = Up u /\ coherent cache_size docs (u_mem u) /\ readers docs out qs x.2 /\
      forall q id, q ∈ qs -> id ∈ q.1 -> out id -> (load_doc decompress (y_fs x.1) id = Some None /\ docs id = ∅) \/ load_doc decompress (y_fs x.1) id = Some (Some (docs id))) ->
    forall x i q, I x -> qs !! i = Some q -> exists pc, x.2 !! i = Some pc /\
      (forall u, y_proc x.1 = Up u -> ~ c_fatal decompress (y_fs x.1) (u_mem u, pc)) /\
      (forall ids f acc, pc = CGot ids f acc -> (ids, f) = q /\ pgot docs f ids acc) /\
      exists x' acc, rtc (reads_step compress decompress cache_size) x x' /\ x'.2 !! i = Some (CGot q.1 q.2 acc).
  Proof.
    intros IS IC x i q HI Hq. destruct (IC x HI) as (u & Hu & Hco & Hrd & Hld). destruct (Forall2_lookup_l _ _ _ _ _ Hrd Hq) as (pc & Hi & Hr). assert (q ∈ qs) as Hqs by (by eapply elem_of_list_lookup_2).
    exists pc. split; [done|]. split; [|split].
    - intros u0 E. rewrite Hu in E. injection E as <-. eapply not_fatal; [exact Hco| |exact Hr]. intros id Hd Ho E. destruct (Hld q id Hqs Hd Ho) as [[E' _]|E']; congruence.
    - intros ids f acc ->. exact Hr.
    - clear Hrd. revert x HI u Hu Hco Hld pc Hi Hr. enough (forall n x, I x -> forall u, y_proc x.1 = Up u -> coherent cache_size docs (u_mem u) ->
        (forall q id, q ∈ qs -> id ∈ q.1 -> out id -> (load_doc decompress (y_fs x.1) id = Some None /\ docs id = ∅) \/ load_doc decompress (y_fs x.1) id = Some (Some (docs id))) ->
        forall pc, x.2 !! i = Some pc -> reader docs out q pc -> (left pc <= n)%nat -> exists x' acc, rtc (reads_step compress decompress cache_size) x x' /\ x'.2 !! i = Some (CGot q.1 q.2 acc)) as G.
      { intros x HI u Hu Hco Hld pc Hi Hr. by apply (G (left pc) x HI u Hu Hco Hld pc Hi Hr). }
      induction n as [|n IH]; intros x HI u Hu Hco Hld pc Hi Hr Hn.
      all: destruct (read_can decompress cache_size pos docs (y_fs x.1) u out q pc Hco (fun id => Hld q id Hqs) Hr) as [[acc ->]|(m' & pc' & Hng & Hst)]; [exists x, acc; split; [apply rtc_refl|done]|].
      { pose proof (left_step _ _ _ _ _ _ _ _ Hr Hng Hst). lia. }
      destruct x as [[s p log] pcs]. cbn [fst snd y_proc y_fs] in *. subst p.
      assert (reads_step compress decompress cache_size (mkSys s (Up u) log, pcs) (mkSys s (Up (with_mem u m')) log, <[i := pc']> pcs)) as Hs by (by eapply rs_read).
      pose proof (left_step _ _ _ _ _ _ _ _ Hr Hng Hst) as Hlt.
      pose proof (IS _ _ HI Hs) as HI'. destruct (IC _ HI') as (u2 & Hu2 & Hco2 & Hrd2 & Hld2). destruct (Forall2_lookup_l _ _ _ _ _ Hrd2 Hq) as (pc2 & Hi2 & Hr2).
      assert (pc2 = pc') as -> . { cbn in Hi2. rewrite list_lookup_insert in Hi2; [congruence|]. by eapply lookup_lt_Some. }
      destruct (IH _ HI' u2 Hu2 Hco2 Hld2 pc' Hi2 Hr2) as (x' & acc & Hx & Hgot); [lia|]. exists x', acc. split; [by eapply rtc_l|done].
  Qed.
End runs.

(** * Searches depend only on the answers *)
From Verif Require Import S_Visits S_Search.
Definition agree (v v' : view) : Prop :=
  (forall f t, v_docs v f t = v_docs v' f t) /\ (forall ids f, v_fields v ids f = v_fields v' ids f) /\
  (forall f, v_size v f = v_size v' f) /\ (forall f, v_length v f = v_length v' f) /\ (forall f ts, v_nft v f ts = v_nft v' f ts).
Lemma agree_sym v v' : agree v v' -> agree v' v.
Proof. intros (A1 & A2 & A3 & A4 & A5). repeat split; intros; by rewrite ?A1, ?A2, ?A3, ?A4, ?A5. Qed.
Lemma fan_step_mono {P M} (ps ps' : P -> P -> Prop) (po po' : P -> list M -> Prop) cap sem up a b :
  (forall p p', ps p p' -> ps' p p') -> (forall p ms, po p ms -> po' p ms) -> fan_step ps po cap sem up a b -> fan_step ps' po' cap sem up a b.
Proof. intros H1 H2 H. destruct H; by econstructor; auto. Qed.
Lemma search_step_agree N ncpu v v' a b : agree v v' -> search_step N ncpu v a b -> search_step N ncpu v' a b.
Proof.
  intros (A1 & A2 & A3 & A4 & A5) H. destruct H.
  - constructor. revert H. apply fan_step_mono; [done|]. intros p ms. unfold term_out. by rewrite A1.
  - by constructor.
  - constructor. revert H. apply fan_step_mono; [done|]. intros p ms. unfold batch_out. by rewrite A2.
  - replace (search_return N v terms f (fn_got s)) with (search_return N v' terms f (fn_got s)); [by constructor|]. unfold search_return. by rewrite A3, A4, A5.
Qed.
Lemma std_step_agree N ncpu v v' qs a b : agree v v' -> std_step N ncpu v qs a b -> std_step N ncpu v' qs a b.
Proof. intros A. apply fan_step_mono; [|done]. intros p p' [q s s' H]. constructor. by apply (search_step_agree _ _ v). Qed.
Lemma rtc_mono {A} (R1 R2 : A -> A -> Prop) a b : (forall x y, R1 x y -> R2 x y) -> rtc R1 a b -> rtc R2 a b.
Proof. intros H. induction 1; [apply rtc_refl|]. eapply rtc_l; eauto. Qed.
