(** The disk storage: what is in the cache after opening (C47, C54). *)
From Verif Require Import Base M_Field M_LRU S_LRU S_Visits M_Memory M_File M_Serialize M_Disk P_Base P_File P_LRU P_Serialize S_Disk P_DiskBase P_DiskInv P_DiskMem P_DiskWriter T_Serialize P_DiskDocs P_DiskDocs2.
#[local] Open Scope Z_scope.
#[local] Opaque serialize_metrics deserialize_metrics serialize_nft deserialize_nft serialize_field_map deserialize_field_map serialize_index deserialize_index.

(** Splitting a session at an event. *)
Lemma live_events compress decompress cs a b ev : live_step compress decompress cs a b -> y_log b = y_log a ++ ev -> (length ev <= 1)%nat.
Proof.
  intros H. inversion H; subst; cbn [y_log]; intros E; try (apply (f_equal length) in E; rewrite app_length in E; cbn in E; lia).
  - apply app_inv_head in E. subst. cbn. lia.
  - apply app_inv_head in E. subst. match goal with G : up_step _ _ _ _ _ |- _ => inversion G; subst end; cbn; try lia. unfold nft_event. destruct (w_pc nw) as [| | | |? ? ? []]; cbn; lia.
  - apply app_inv_head in E. subst. match goal with G : up_call _ _ _ |- _ => inversion G; subst end; cbn; lia.
Qed.
Lemma session_split compress decompress cs a ev b : session compress decompress cs a ev b -> forall e1 e e2, ev = e1 ++ e :: e2 ->
  exists a1 a2, session compress decompress cs a e1 a1 /\ live_step compress decompress cs a1 a2 /\ y_log a2 = y_log a1 ++ [e] /\ session compress decompress cs a2 e2 b.
Proof.
  induction 1 as [a|a ev b ev' c Hs IH H Hlog]; intros e1 e e2 E.
  - by destruct e1.
  - pose proof (live_events _ _ _ _ _ _ H Hlog) as Hlen. destruct ev' as [|e' [|]]; [| |cbn in Hlen; lia].
    + rewrite app_nil_r in E. destruct (IH e1 e e2 E) as (a1 & a2 & H1 & H2 & H3 & H4). exists a1, a2. split; [done|]. split; [done|]. split; [done|].
      rewrite <- (app_nil_r e2). by eapply session_step.
    + destruct e2 as [|z e2' _] using rev_ind.
      * apply app_inj_tail in E as [-> ->]. exists b, c. split; [done|]. split; [done|]. split; [done|]. constructor.
      * replace (e1 ++ e :: e2' ++ [z]) with ((e1 ++ e :: e2') ++ [z]) in E by (by rewrite <- app_assoc). apply app_inj_tail in E as [E ->].
        destruct (IH e1 e e2' E) as (a1 & a2 & H1 & H2 & H3 & H4). exists a1, a2. split; [done|]. split; [done|]. split; [done|]. by eapply session_step.
Qed.

Section docs.
  Variables (compress : bytes -> bytes) (decompress : bytes -> option bytes) (cache_size : Z).
  Hypothesis pos : 0 < cache_size.
  Notation reach := (reachable compress decompress cache_size).
  Notation heap u := (c_heap (u_mem u)).
  Notation cache u := (c_cache (u_mem u)).
  Notation dbuf u := (w_buf (u_dw u)).
  Notation d_up := (d_up compress cache_size).
  Notation d_link := (d_link compress).
  Notation d_track := (d_track compress cache_size).

  (** Which documents enter the cache. *)
  Lemma keys_step u s ev u' s' kvs own kvs' own' k : d_up u kvs own -> d_up u' kvs' own' -> up_step compress decompress (u, s) ev (u', s') ->
    k ∈ kvs'.*1 -> k ∈ kvs.*1 \/ (exists x, u_pc u = CDoc k x) \/ (exists ids0 f ids acc, u_pc u = CGetLoad ids0 f k ids acc).
  Proof.
    intros HD HD' H Hk. pose proof (du_R _ _ _ _ _ HD) as R0. pose proof (du_R _ _ _ _ _ HD') as R'. pose proof (du_cap _ _ _ _ _ HD) as Hcap.
    assert (0 < lr_cap (cache u)) as Hpos by (by rewrite Hcap).
    assert (cache u' = cache u -> k ∈ kvs.*1) as HS. { intros E. rewrite E in R'. apply in_keys in Hk as [v Hv]. apply in_keys. exists v. by apply (R_mem (cache u) kvs' kvs). }
    clear Hcap. inversion H; subst; cbn [u_mem u_pc] in *; try (left; by apply HS).
    - match goal with G : c_step _ _ _ _ |- _ => inversion G; subst end; cbn [u_mem c_cache set_index set_nft set_cache] in *; try (left; by apply HS).
      + left. apply HS. by destruct (c_index m !! f_name x).
      + match goal with G1 : lru_get _ _ = _, G2 : lru_deref _ _ = _ |- _ => destruct (get_hit _ _ _ _ _ _ R0 G1 G2) as (kvs1 & R1 & C1 & M1 & I1) end.
        left. apply in_keys in Hk as [v Hv]. apply in_keys. exists v. apply M1. by apply (R_mem c' kvs' kvs1).
      + match goal with G1 : lru_get _ _ = _ |- _ => destruct (get_miss _ _ _ _ R0 G1) as [-> Hni] end. left. by apply HS.
      + match goal with G1 : lru_put _ _ _ = _ |- _ => destruct (put_R _ _ _ _ _ R0 Hpos G1) as [R2 _] end.
        apply in_keys in Hk as [v Hv]. apply (R_mem _ _ _ _ R' R2) in Hv. apply aput_in in Hv as [[= -> ->]|[_ Hv]]; [right; right; by eauto 10|left]. apply in_keys. by exists v.
    - match goal with G : c_doc _ _ _ |- _ => inversion G; subst end; cbn [u_mem c_cache set_index set_nft set_cache] in *.
      + match goal with G1 : lru_get _ _ = _, G2 : lru_deref _ _ = _ |- _ => destruct (get_hit _ _ _ _ _ _ R0 G1 G2) as (kvs1 & R1 & C1 & M1 & I1) end.
        match goal with G1 : lru_put _ _ l = _ |- _ => rewrite <- C1 in Hpos; destruct (put_R _ _ _ _ _ R1 Hpos G1) as [R2 _] end.
        apply in_keys in Hk as [v Hv]. apply (R_mem _ _ _ _ R' R2) in Hv. apply aput_in in Hv as [[= -> ->]|[_ Hv]]; [right; left; by eauto|left]. apply in_keys. exists v. by apply M1.
      + match goal with G1 : lru_get _ _ = _ |- _ => destruct (get_miss _ _ _ _ R0 G1) as [-> Hni] end.
        match goal with G1 : lru_put _ _ _ = _ |- _ => destruct (put_R _ _ _ _ _ R0 Hpos G1) as [R2 _] end.
        apply in_keys in Hk as [v Hv]. apply (R_mem _ _ _ _ R' R2) in Hv. apply aput_in in Hv as [[= -> ->]|[_ Hv]]; [right; left; by eauto|left]. apply in_keys. by exists v.
  Qed.

  (** ** Before the document is used *)
  Definition unused (d : string) (pc : cpc) : Prop :=
    ~ busy pc d /\ match pc with CGet _ _ ids _ => d ∉ ids | CGetLoad _ _ id ids _ => id <> d /\ d ∉ ids | _ => True end.
  Lemma unused_step u s ev u' s' d : unused d (u_pc u) -> up_step compress decompress (u, s) ev (u', s') -> unused d (u_pc u').
  Proof.
    intros [Hb Hg] H. inversion H; subst; cbn [u_pc] in *; try (split; done).
    - match goal with G : c_step _ _ _ _ |- _ => inversion G; subst end; cbn in *; try (split; [exact Hb|done]).
      + destruct full; (split; [|done]); [exact Hb|]. intros [x0 Hx]. by apply elem_of_nil in Hx.
      + split; [by intros [x0 Hx%elem_of_nil]|]. by apply not_elem_of_cons in Hg as [_ ?].
      + split; [by intros [x0 Hx%elem_of_nil]|]. apply not_elem_of_cons in Hg as [? ?]. split; done.
      + split; [by intros [x0 Hx%elem_of_nil]|]. by destruct Hg.
      + split; [by intros [x0 Hx%elem_of_nil]|]. by destruct Hg.
    - match goal with G : c_doc _ _ _ |- _ => inversion G; subst end; (split; [exact Hb|done]).
    - split; [by intros [x0 Hx%elem_of_nil]|done].
  Qed.
  Definition p_unused (d : string) (u : up) : Prop := unused d (u_pc u) /\ exists kvs own, d_up u kvs own /\ d ∉ kvs.*1.
  Lemma p_unused_step u s ev u' s' d : layout s -> up_wf u s -> d_valid compress s -> p_unused d u -> up_step compress decompress (u, s) ev (u', s') -> p_unused d u'.
  Proof.
    intros Hl Hw Hv (Hu & kvs & own & HD & Hn) H. split; [by eapply unused_step|].
    destruct (d_step compress decompress cache_size pos _ _ _ _ _ _ _ Hl Hw Hv HD H) as (_ & kvs' & own' & HD' & _). exists kvs', own'. split; [done|]. intros Hk.
    destruct Hu as [Hb Hg]. destruct (keys_step _ _ _ _ _ _ _ _ _ _ HD HD' H Hk) as [?|[[x E]|(ids0 & f & ids & acc & E)]]; [done|..]; rewrite E in *.
    - apply Hb. exists x. left.
    - by destruct Hg.
  Qed.
  (** ** After it has been saved for the first time *)
  Definition p_first (d : string) (x : field) (u : up) (s : fs) : Prop :=
    (undone (u_pc u) = [Save d x] /\ exists kvs own, d_up u kvs own /\ d ∉ kvs.*1) \/ exists l, d_track d l {[f_name x := x]} u s.
  Lemma p_first_step u s ev u' s' d x : plain_doc d -> layout s -> up_wf u s -> d_valid compress s -> p_first d x u s -> up_step compress decompress (u, s) ev (u', s') -> p_first d x u' s'.
  Proof.
    intros Hd Hl Hw Hv [(Hu & kvs & own & HD & Hn)|[l Hl0]] H; [|right; exists l; by eapply d_track_step].
    destruct (d_step compress decompress cache_size pos _ _ _ _ _ _ _ Hl Hw Hv HD H) as (_ & kvs' & own' & HD' & _).
    assert (undone (u_pc u') = [Save d x] -> (forall y, u_pc u <> CDoc d y) -> p_first d x u' s') as HL.
    { intros E Hnc. left. split; [done|]. exists kvs', own'. split; [done|]. intros Hk.
      destruct (keys_step _ _ _ _ _ _ _ _ _ _ HD HD' H Hk) as [?|[[y E1]|(ids0 & f & ids & acc & E1)]]; [done|by apply (Hnc y)|]. rewrite E1 in Hu. done. }
    assert ((exists d0 y, u_pc u = CDoc d0 y) \/ forall d0 y, u_pc u <> CDoc d0 y) as [(d0 & y & Epc)|Hnc]; [destruct (u_pc u); eauto; right; done|..].
    - rewrite Epc in Hu. cbn in Hu. injection Hu as -> ->. inversion H; subst; cbn [u_pc u_mem] in *; subst; try discriminate Epc;
        try (left; split; [done|]; exists kvs', own'; split; [done|]; intros Hk; apply Hn; apply in_keys in Hk as [v Hv0]; apply in_keys; exists v; exact (R_mem _ _ _ _ (du_R _ _ _ _ _ HD') (du_R _ _ _ _ _ HD) Hv0)).
      + match goal with G : c_step _ _ _ _ |- _ => inversion G end.
      + match goal with G : c_doc _ _ _ |- _ => inversion G; subst end; cbn [u_mem c_cache set_cache] in *.
        * exfalso. match goal with G1 : lru_get _ _ = _, G2 : lru_deref _ _ = _ |- _ => destruct (get_hit _ _ _ _ _ _ (du_R _ _ _ _ _ HD) G1 G2) as (kvs1 & R1 & C1 & M1 & I1) end. apply Hn, in_keys. by exists l.
        * right. exists l. apply (d_track_start compress cache_size _ _ kvs' own' d x l); [done|done|]. cbn. by rewrite lookup_insert.
    - apply HL; [|by intros]. revert Hu. inversion H; subst; cbn [u_pc] in *; try done.
      + match goal with G : c_step _ _ _ _ |- _ => inversion G; subst end; cbn; try done. by destruct full.
      + match goal with G : c_doc _ _ _ |- _ => inversion G; subst end; exfalso; by eapply Hnc.
  Qed.
  Lemma session_good a ev b : session compress decompress cache_size a ev b -> good_log (y_log b) -> good_log (y_log a).
  Proof. induction 1 as [|a ev b ev' c Hs IH H Hlog]; [done|]. intros Hg. apply IH. rewrite Hlog in Hg. by apply good_app in Hg as [? _]. Qed.
  Lemma session_log a ev b : session compress decompress cache_size a ev b -> y_log b = y_log a ++ ev.
  Proof. induction 1 as [|a ev b ev' c Hs IH H Hlog]; [by rewrite app_nil_r|]. by rewrite Hlog, IH, app_assoc. Qed.
  Lemma session_reach a ev b : session compress decompress cache_size a ev b -> reach a -> reach b.
  Proof. induction 1 as [|a ev b ev' c Hs IH H Hlog]; [done|]. intros Hr. eapply rtc_r; [by apply IH|by left]. Qed.
  (** With the events visible. *)
  Lemma session_ind_ev (P : up -> fs -> Prop) (ok : event -> Prop) a ev b u0 :
    (forall u s ev u' s', layout s -> up_wf u s -> d_valid compress s -> P u s -> up_step compress decompress (u, s) ev (u', s') -> P u' s') ->
    (forall u s u' s', P u s -> up_tick (u, s) (u', s') -> P u' s') ->
    (forall u s ev u', P u s -> up_call u ev u' -> (forall c, c ∈ ev -> ok c) -> P u' s) ->
    reach a -> y_proc a = Up u0 -> P u0 (y_fs a) -> session compress decompress cache_size a ev b -> (forall c, c ∈ ev -> ok c) -> good_log (y_log b) ->
    exists u, y_proc b = Up u /\ P u (y_fs b).
  Proof.
    intros S1 S2 S3 Hr Ha H0. induction 1 as [a|a ev b ev' c Hs IH H Hlog].
    - intros _ _. by exists u0.
    - intros Hok Hg. assert (good_log (y_log b)) as Gb. { rewrite Hlog in Hg. by apply good_app in Hg as [? _]. }
      destruct (IH Hr Ha H0) as (u & Hb & Hp); [intros c0 Hc; apply Hok, elem_of_app; by left|done|].
      destruct (d_reach compress decompress cache_size pos _ (session_reach _ _ _ Hs Hr) Gb) as ([Bl Bp] & Hv & _).
      inversion H; subst; cbn [y_fs y_proc y_log] in *; try discriminate Hb; injection Hb as ->; eexists; (split; [reflexivity|]).
      + destruct Bp as [_ Bp]. by eapply S1.
      + by eapply S2.
      + apply app_inv_head in Hlog. subst ev'. eapply S3; [exact Hp|done|]. intros c0 Hc. apply Hok, elem_of_app. by right.
  Qed.
  (** The first save of a document in a session starts from an empty map. *)
  Lemma first_save a0 a u0 ev1 d x ev2 b : plain_doc d -> reach a0 -> (exists g, y_proc a0 = Loading g) -> live_step compress decompress cache_size a0 a -> y_proc a = Up u0 ->
    session compress decompress cache_size a (ev1 ++ ECall (Save d x) :: ev2) b -> good_log (y_log b) ->
    (forall y, Save d y ∉ calls_of ev1) -> ~ requested ev1 d -> (forall y, Save d y ∉ calls_of ev2) ->
    exists u, y_proc b = Up u /\ p_first d x u (y_fs b).
  Proof.
    intros Hd Hr0 [g Hg0] H0 Ha Hs Hg N1 N2 N3. assert (reach a) as Ra by (eapply rtc_r; [exact Hr0|by left]).
    destruct (session_split _ _ _ _ _ _ Hs _ _ _ eq_refl) as (a1 & a2 & S1 & L & El & S2).
    pose proof (session_good _ _ _ S2 Hg) as G2. assert (good_log (y_log a1)) as G1 by (rewrite El in G2; by apply good_app in G2 as [? _]).
    destruct (session_ind_ev (fun u _ => p_unused d u) (fun e => match e with ECall c => forall y, c <> Save d y | EGet ids _ => d ∉ ids | _ => True end) a ev1 a1 u0) as (u1 & Hu1 & Hp1); try done.
    - intros. by eapply p_unused_step.
    - intros u s u' s' (Hu & kvs & own & HD & Hn) H. destruct (d_tick _ _ _ _ _ _ _ _ HD H) as (D & _ & _ & _ & E3). split; [by rewrite E3|by exists kvs, own].
    - intros u s ev u' (Hu & kvs & own & HD & Hn) H Hok. destruct (d_call _ _ _ _ _ _ _ HD H) as (D & _). split; [|by exists kvs, own].
      inversion H; subst; cbn [u_pc]; (split; [|try done]).
      + intros [y Hy]. apply elem_of_list_singleton in Hy. injection Hy as <- <-. by eapply (Hok _ (elem_of_list_here _ _)).
      + intros [y Hy]. by apply elem_of_list_singleton in Hy.
      + by intros [y Hy%elem_of_nil].
      + apply (Hok _ (elem_of_list_here _ _)).
    - inversion H0; subst; cbn in *; try discriminate Hg0; try discriminate Ha. injection Ha as ->. match goal with G : opened _ _ _ _ _ |- _ => pose proof (opened_d compress decompress cache_size _ _ _ G) as HD; inversion G; subst end.
      split; [by split; [intros [y Hy%elem_of_nil]|]|]. exists [], ∅. split; [done|]. by apply not_elem_of_nil.
    - intros e He. destruct e as [|c|ids f| | |]; try done; [intros y ->; apply (N1 y)|intros Hi; apply N2; by exists ids, f].
      unfold calls_of. apply elem_of_list_omap. by eexists.
    - assert (exists u2, y_proc a2 = Up u2 /\ p_first d x u2 (y_fs a2)) as (u2 & Hu2 & Hp2).
      { destruct Hp1 as (_ & kvs & own & HD & Hn). inversion L; subst; cbn [y_proc y_log] in *; try discriminate Hu1.
        - apply app_inv_head in El. subst. exfalso. match goal with G : up_step _ _ _ _ _ |- _ => inversion G; subst end; try discriminate. unfold nft_event in *. by destruct (w_pc nw) as [| | | |? ? ? []].
        - by apply (f_equal length) in El; rewrite app_length in El; cbn in El; lia.
        - apply app_inv_head in El. subst. injection Hu1 as ->. match goal with G : up_call _ _ _ |- _ => rename G into GC end. destruct (d_call _ _ _ _ _ _ _ HD GC) as (D & _). inversion GC; subst. eexists. split; [done|]. left. split; [done|]. by exists kvs, own. }
      pose proof (session_reach _ _ _ S1 Ra) as R1. assert (reach a2) as R2 by (eapply rtc_r; [exact R1|by left]).
      apply (session_ind_ev (p_first d x) (fun e => match e with ECall c => forall y, c <> Save d y | _ => True end) a2 ev2 b u2); try done.
      + intros. by eapply p_first_step.
      + intros u s u' s' [(Hu & kvs & own & HD & Hn)|[l Ht]] H; [left|right; exists l; by eapply d_track_tick].
        destruct (d_tick _ _ _ _ _ _ _ _ HD H) as (D & _ & _ & _ & E3). split; [by rewrite E3|by exists kvs, own].
      + intros u s ev u' [(Hu & kvs & own & HD & Hn)|[l Ht]] H Hok; [|right; exists l; eapply d_track_call; [done|done|]].
        * destruct (d_call _ _ _ _ _ _ _ HD H) as (_ & _ & _ & E3 & _). by rewrite E3 in Hu.
        * intros y Hy. unfold calls_of in Hy. apply elem_of_list_omap in Hy as (e & He & Ee). specialize (Hok e He). destruct e; try discriminate Ee. injection Ee as ->. by apply (Hok y).
      + intros e He. destruct e as [|c|ids f| | |]; try done. intros y ->. apply (N3 y). unfold calls_of. apply elem_of_list_omap. by eexists.
  Qed.

  (** ** Sessions without SaveOrUpdate *)
  Definition ro_doc (s : fs) (f id : string) : option field := match load_doc decompress s id with Some (Some m) => m !! f | _ => None end.
  Definition ro_got (s : fs) (f : string) (dn : list string) (acc : gmap string field) : Prop :=
    forall id, acc !! id = if decide (id ∈ dn) then ro_doc s f id else None.
  Lemma ro_next s f dn acc id r : ro_got s f dn acc -> ro_doc s f id = r -> ro_got s f (dn ++ [id]) (match r with Some x => <[id := x]> acc | None => acc end).
  Proof.
    intros H E id'. destruct (decide (id' = id)) as [->|Hne].
    - rewrite decide_True by (apply elem_of_app; right; left). rewrite E. destruct r as [x|]; [by rewrite lookup_insert|]. rewrite (H id). by destruct (decide _).
    - replace (match r with Some x => <[id:=x]> acc | None => acc end !! id') with (acc !! id') by (destruct r; [by rewrite lookup_insert_ne|done]).
      rewrite (H id'). destruct (decide (id' ∈ dn)) as [Hi|Hi].
      + rewrite decide_True; [done|]. apply elem_of_app. by left.
      + rewrite decide_False; [done|]. intros [?|?%elem_of_list_singleton]%elem_of_app; done.
  Qed.
  Definition ro (s0 : fs) (u : up) (s : fs) : Prop :=
    (forall id, doc_file s id = doc_file s0 id) /\ dbuf u = ∅ /\ (w_pc (u_dw u) = WIdle \/ w_pc (u_dw u) = WLoop []) /\ undone (u_pc u) = [] /\
    (exists kvs own, d_up u kvs own /\ forall k l, (k, l) ∈ kvs -> exists m, heap u !! l = Some m /\ load_doc decompress s0 k = Some (Some m)) /\
    match u_pc u with
    | CGet ids0 f ids acc => exists dn, ids0 = dn ++ ids /\ ro_got s0 f dn acc
    | CGetLoad ids0 f id ids acc => exists dn, ids0 = dn ++ id :: ids /\ ro_got s0 f dn acc
    | CGot ids0 f acc => ro_got s0 f ids0 acc
    | CDocSend _ _ _ => False
    | _ => True
    end.
  Lemma load_same s s0 id : doc_file s id = doc_file s0 id -> load_doc decompress s id = load_doc decompress s0 id.
  Proof. unfold load_doc, doc_file. by intros ->. Qed.
  Lemma ro_step s0 u s ev u' s' : layout s -> up_wf u s -> d_valid compress s -> ro s0 u s -> up_step compress decompress (u, s) ev (u', s') -> ro s0 u' s'.
  Proof.
    intros Hl Hw Hv (A1 & A2 & A3 & A4 & (kvs & own & HD & A5) & A6) H.
    destruct (d_step compress decompress cache_size pos _ _ _ _ _ _ _ Hl Hw Hv HD H) as (_ & kvs' & own' & HD' & _).
    assert (u_mem u' = u_mem u -> u_dw u' = u_dw u -> u_pc u' = u_pc u -> keeps OD s s' -> ro s0 u' s') as HF.
    { intros E1 E2 E3 K. unfold ro. rewrite E2, E3. split; [|do 3 (split; [done|]); split; [|done]].
      - intros id. rewrite <- A1. unfold doc_file. by rewrite (K ["docs"; "metrics"; id]) by apply owner_d.
      - exists kvs, own. split; [by apply (d_up_eq compress cache_size u); [rewrite E1|rewrite E1| | |]|]. rewrite E1. done. }
    destruct (up_step_who _ _ _ _ _ _ _ Hl Hw H) as [[-> Hq]|[Hq|[Hq|[Hq|[Hq|Hq]]]]].
    - assert (cache u' = cache u -> heap u' = heap u -> exists kvs own, d_up u' kvs own /\ forall k l, (k, l) ∈ kvs -> exists m, heap u' !! l = Some m /\ load_doc decompress s0 k = Some (Some m)) as HK.
      { intros E1 E2. exists kvs', own'. split; [done|]. intros k l Hk. rewrite E2. apply A5. apply (R_mem (cache u) kvs' kvs); [rewrite <- E1; exact (du_R _ _ _ _ _ HD')|exact (du_R _ _ _ _ _ HD)|done]. }
      clear HF. inversion Hq; subst; cbn [u_mem u_pc u_dw] in *; try discriminate A4; try done.
      + match goal with G : c_step _ _ _ _ |- _ => inversion G; subst end; try discriminate A4; unfold ro; cbn [u_mem u_pc u_dw c_cache c_heap set_index set_nft set_cache undone] in *;
          (split; [done|]); (split; [done|]); (split; [done|]).
        * split; [done|]. split; [|done]. apply HK; by destruct (c_index m !! f_name x).
        * destruct full; [discriminate A4|]. split; [done|]. split; [by apply HK|done].
        * destruct full; [discriminate A4|]. split; [done|]. split; [by apply HK|done].
        * match goal with G1 : lru_get _ _ = _, G2 : lru_deref _ _ = _ |- _ => destruct (get_hit _ _ _ _ _ _ (du_R _ _ _ _ _ HD) G1 G2) as (kvs1 & R1 & C1 & M1 & I1) end.
          split; [done|]. split.
          -- exists kvs', own'. split; [done|]. intros k l0 Hk. apply A5. apply M1. exact (R_mem _ _ _ _ (du_R _ _ _ _ _ HD') R1 Hk).
          -- destruct A6 as (dn & -> & Hg). exists (dn ++ [id]). split; [by rewrite <- app_assoc|]. apply ro_next; [done|]. destruct (A5 _ _ I1) as (m0 & Hm0 & Hl0). unfold ro_doc. rewrite Hl0. congruence.
        * match goal with G1 : lru_get _ _ = _ |- _ => destruct (get_miss _ _ _ _ (du_R _ _ _ _ _ HD) G1) as [-> Hni] end. split; [done|]. split; [by apply HK|done].
        * split; [done|]. split; [by apply HK|]. destruct A6 as (dn & -> & Hg). exists (dn ++ [id]). split; [by rewrite <- app_assoc|].
          match goal with G : load_doc _ _ _ = _ |- _ => rewrite (load_same _ _ _ (A1 id)) in G; rename G into Hld end. apply (ro_next _ _ _ _ _ None Hg). unfold ro_doc. by rewrite Hld.
        * match goal with G : load_doc _ _ _ = _ |- _ => rewrite (load_same _ _ _ (A1 id)) in G; rename G into Hld end. match goal with G : c_heap m !! l = None |- _ => rename G into Hfr end.
          split; [done|]. split.
          -- exists kvs', own'. split; [done|]. intros k l0 Hk. match goal with G1 : lru_put _ _ _ = _ |- _ => pose proof (du_cap _ _ _ _ _ HD) as Hcap; cbn [u_mem] in Hcap; assert (0 < lr_cap (c_cache m)) as Hpos by (by rewrite Hcap); destruct (put_R _ _ _ _ _ (du_R _ _ _ _ _ HD) Hpos G1) as [R2 _] end.
             apply (R_mem _ _ _ _ (du_R _ _ _ _ _ HD') R2) in Hk. apply aput_in in Hk as [[= -> ->]|[_ Hk]]; [exists fd; by rewrite lookup_insert|].
             destruct (A5 _ _ Hk) as (m0 & Hm0 & Hl0). exists m0. split; [|done]. rewrite lookup_insert_ne; [done|]. congruence.
          -- destruct A6 as (dn & -> & Hg). exists (dn ++ [id]). split; [by rewrite <- app_assoc|]. apply ro_next; [done|]. unfold ro_doc. by rewrite Hld.
        * split; [done|]. split; [by apply HK|]. destruct A6 as (dn & -> & Hg). by rewrite app_nil_r.
        * split; [done|]. split; [by apply HK|done].
      + match goal with G : c_doc _ _ _ |- _ => inversion G; subst end; discriminate A4.
      + destruct full; [discriminate A4|]. unfold ro; cbn [u_mem u_pc u_dw] in *. do 4 (split; [done|]). split; [by apply HK|done].
      + unfold ro; cbn [u_mem u_pc u_dw] in *. do 4 (split; [done|]). split; [by apply HK|done].
      + unfold ro; cbn [u_mem u_pc u_dw] in *. do 4 (split; [done|]). split; [by apply HK|done].
    - destruct Hq as (_ & E & _ & K & _). apply HF; [by rewrite E|by rewrite E|by rewrite E|exact K].
    - destruct Hq as (_ & E & _ & K & _). apply HF; [by rewrite E|by rewrite E|by rewrite E|exact K].
    - assert (u_mem u' = u_mem u /\ u_pc u' = u_pc u) as [E1 E3] by (destruct Hq as (_ & E & _); split; rewrite E; reflexivity).
      destruct Hq as (Hq & _). assert (s' = s /\ dbuf u' = dbuf u /\ w_pc (u_dw u') = WIdle) as (-> & E4 & E5). { destruct u as [m pc ich mw nw [b p] iw mg]. destruct u' as [m' pc' ich' mw' nw' dw' iw' mg']. cbn in Hq, A3 |- *. destruct A3 as [-> | ->]; inversion Hq; done. }
      unfold ro. rewrite E3, E4, E5. split; [done|]. split; [done|]. split; [by left|]. split; [done|]. split; [|done]. exists kvs', own'. split; [done|]. intros k l Hk. rewrite E1. apply A5.
      apply (R_mem (cache u) kvs' kvs); [rewrite <- E1; exact (du_R _ _ _ _ _ HD')|exact (du_R _ _ _ _ _ HD)|done].
    - destruct Hq as (_ & E & _ & _ & K & _). apply HF; [by rewrite E|by rewrite E|by rewrite E|exact K].
    - destruct Hq as (_ & E & _ & _ & K & _). apply HF; [by rewrite E|by rewrite E|by rewrite E|exact K].
  Qed.
  Lemma ro_session a0 a u0 ev b : reach a0 -> (exists g, y_proc a0 = Loading g) -> live_step compress decompress cache_size a0 a -> y_proc a = Up u0 ->
    session compress decompress cache_size a ev b -> good_log (y_log b) -> (forall d y, Save d y ∉ calls_of ev) -> exists u, y_proc b = Up u /\ ro (y_fs a) u (y_fs b).
  Proof.
    intros Hr0 [g Hg0] H0 Ha Hs Hg N1. assert (reach a) as Ra by (eapply rtc_r; [exact Hr0|by left]).
    apply (session_ind_ev (ro (y_fs a)) (fun e => match e with ECall c => forall d y, c <> Save d y | _ => True end) a ev b u0); try done.
    - intros. by eapply ro_step.
    - intros u s u' s' (A1 & A2 & A3 & A4 & (kvs & own & HD & A5) & A6) H. destruct (d_tick _ _ _ _ _ _ _ _ HD H) as (D & -> & E1 & E2 & E3). unfold ro. rewrite E1, E2, E3. split; [done|]. split; [done|].
      split; [|split; [done|]; split; [by exists kvs, own|done]]. inversion H; subst; cbn [u_dw] in *; try done. match goal with G : w_tick _ _ |- _ => inversion G; subst end. cbn [w_buf w_pc] in *. right. f_equal.
      match goal with G : range_order _ _ |- _ => rename G into HR end. subst buf. unfold range_order in HR. rewrite map_to_list_empty in HR. by apply Permutation_nil_r in HR.
    - intros u s ev0 u' (A1 & A2 & A3 & A4 & (kvs & own & HD & A5) & A6) H Hok. destruct (d_call _ _ _ _ _ _ _ HD H) as (D & E1 & E2 & E3 & E4). unfold ro. rewrite E1, E2. do 3 (split; [done|]).
      inversion H; subst; cbn [u_pc undone].
      + exfalso. by eapply (Hok _ (elem_of_list_here _ _)).
      + split; [done|]. split; [by exists kvs, own|done].
      + split; [done|]. split; [by exists kvs, own|]. exists []. split; [done|]. intros id. by rewrite lookup_empty, decide_False by apply not_elem_of_nil.
    - inversion H0; subst; cbn in *; try discriminate Hg0; try discriminate Ha. injection Ha as ->. match goal with G : opened _ _ _ _ _ |- _ => pose proof (opened_d compress decompress cache_size _ _ _ G) as HD; inversion G; subst end.
      unfold ro. cbn. split; [done|]. split; [done|]. split; [by left|]. split; [done|]. split; [|done]. exists [], ∅. split; [done|]. by intros k l Hk%elem_of_nil.
    - intros e He. destruct e as [|c|ids f| | |]; try done. intros d y ->. apply (N1 d y). unfold calls_of. apply elem_of_list_omap. by eexists.
  Qed.
End docs.
