(** A document all of whose fields are saved one after the other (C54, C67). *)
From Verif Require Import Base M_Field M_LRU S_LRU S_Visits M_Memory M_File M_Serialize M_Disk P_Base P_File P_LRU P_Serialize S_Disk P_DiskBase P_DiskInv P_DiskMem P_DiskWriter T_Serialize P_DiskDocs P_DiskDocs2 P_DiskDocs3 S_Import.
#[local] Open Scope Z_scope.
#[local] Opaque serialize_metrics deserialize_metrics serialize_nft deserialize_nft serialize_field_map deserialize_field_map serialize_index deserialize_index.

(** Splitting a list of events by its calls. *)
Lemma calls_split ev : forall h1 h2, calls_of ev = h1 ++ h2 -> exists e1 e2, ev = e1 ++ e2 /\ calls_of e1 = h1 /\ calls_of e2 = h2.
Proof.
  induction ev as [|e ev IH]; intros h1 h2 E.
  - cbn in E. symmetry in E. apply app_eq_nil in E as [-> ->]. by exists [], [].
  - destruct e as [|c|ids f|f t n|f|]; cbn in E; try (destruct (IH h1 h2 E) as (e1 & e2 & -> & <- & <-); first [by exists (EOpened :: e1), e2|by exists (EGet ids f :: e1), e2|by exists (ENft f t n :: e1), e2|by exists (ENftSaved f :: e1), e2|by exists (ECrash :: e1), e2]).
    destruct h1 as [|c1 h1].
    + exists [], (ECall c :: ev). split; [done|]. split; [done|]. exact E.
    + injection E as -> E. destruct (IH h1 h2 E) as (e1 & e2 & -> & <- & <-). by exists (ECall c1 :: e1), e2.
Qed.

Section group.
  Variables (compress : bytes -> bytes) (decompress : bytes -> option bytes) (cache_size : Z).
  Hypothesis pos : 0 < cache_size.
  Notation reach := (reachable compress decompress cache_size).
  Notation heap u := (c_heap (u_mem u)).
  Notation cache u := (c_cache (u_mem u)).
  Notation d_up := (d_up compress cache_size).
  Notation d_track := (d_track compress cache_size).

  (** Every running store has been opened. *)
  Lemma opened_session y u : reach y -> y_proc y = Up u -> exists l1 l2 y0 g y1 u1,
    y_log y = l1 ++ EOpened :: l2 /\ EOpened ∉ l2 /\ reach y0 /\ y_proc y0 = Loading g /\ live_step compress decompress cache_size y0 y1 /\ y_proc y1 = Up u1 /\
    y_log y1 = l1 ++ [EOpened] /\ session compress decompress cache_size y1 l2 y.
  Proof.
    intros Hr. revert y Hr u. unfold reachable.
    apply (rtc_ind_r (R:=sys_step compress decompress cache_size) (fun y => forall u, y_proc y = Up u -> exists l1 l2 y0 g y1 u1,
      y_log y = l1 ++ EOpened :: l2 /\ EOpened ∉ l2 /\ reach y0 /\ y_proc y0 = Loading g /\ live_step compress decompress cache_size y0 y1 /\ y_proc y1 = Up u1 /\
      y_log y1 = l1 ++ [EOpened] /\ session compress decompress cache_size y1 l2 y) sys_init); [done|].
    intros a b Ha Hab IH u Hu. destruct Hab as [H|H]; [|inversion H; subst; discriminate Hu].
    assert (forall u0 ev, y_proc a = Up u0 -> y_log b = y_log a ++ ev -> EOpened ∉ ev -> exists l1 l2 y0 g y1 u1,
      y_log b = l1 ++ EOpened :: l2 /\ EOpened ∉ l2 /\ reach y0 /\ y_proc y0 = Loading g /\ live_step compress decompress cache_size y0 y1 /\ y_proc y1 = Up u1 /\
      y_log y1 = l1 ++ [EOpened] /\ session compress decompress cache_size y1 l2 b) as G.
    { intros u0 ev Hua Hl Hne. destruct (IH u0 Hua) as (l1 & l2 & y0 & g & y1 & u1 & E1 & E2 & E3 & E4 & E5 & E6 & E7 & E8).
      exists l1, (l2 ++ ev), y0, g, y1, u1. split; [rewrite Hl, E1, <- app_assoc; done|]. split; [intros [?|?]%elem_of_app; done|]. do 5 (split; [done|]). by eapply session_step. }
    inversion H; subst; cbn [y_proc y_log] in *; try discriminate Hu.
    - exists log, [], (mkSys s (Loading (mkM acc (MFields []))) log), (mkM acc (MFields [])), (mkSys s (Up u) (log ++ [EOpened])), u. injection Hu as ->.
      split; [done|]. split; [apply not_elem_of_nil|]. do 5 (split; [done|]). constructor.
    - eapply G; [done|done|]. match goal with G0 : up_step _ _ _ _ _ |- _ => inversion G0; subst end; try apply not_elem_of_nil.
      + intros Hx%elem_of_list_singleton. discriminate Hx.
      + unfold nft_event. destruct (w_pc nw) as [| | | |? ? ? []]; try apply not_elem_of_nil. intros Hx%elem_of_list_singleton. discriminate Hx.
    - eapply (G _ []); [done|by rewrite app_nil_r|apply not_elem_of_nil].
    - eapply G; [done|done|]. match goal with G0 : up_call _ _ _ |- _ => inversion G0; subst end; intros Hx%elem_of_list_singleton; discriminate Hx.
  Qed.

  (** ** The state of a document while its fields are being saved *)
  Lemma cache_same u s ev u' s' : up_step compress decompress (u, s) ev (u', s') ->
    (forall d x, u_pc u <> CDoc d x) -> (forall a b c d, u_pc u <> CGet a b c d) -> (forall a b c d e, u_pc u <> CGetLoad a b c d e) -> cache u' = cache u.
  Proof.
    intros H N1 N2 N3. inversion H; subst; cbn [u_mem u_pc] in *; try done.
    - match goal with G : c_step _ _ _ _ |- _ => inversion G; subst end; cbn [c_cache set_index set_nft set_cache] in *; try done; try (exfalso; by eapply N2); try (exfalso; by eapply N3).
      by destruct (c_index m !! f_name x).
    - match goal with G : c_doc _ _ _ |- _ => inversion G; subst end; exfalso; by eapply N1.
  Qed.
  Definition before_save (d : string) (m0 : gmap string field) (u : up) : Prop :=
    exists kvs own, d_up u kvs own /\ ((m0 = ∅ /\ d ∉ kvs.*1) \/ exists l, (d, l) ∈ kvs /\ heap u !! l = Some m0).
  Definition p_saving (d : string) (m : gmap string field) (u : up) : Prop :=
    exists x m0, m = <[f_name x := x]> m0 /\ undone (u_pc u) = [Save d x] /\ before_save d m0 u.
  Definition p_held (d : string) (m : gmap string field) (u : up) (s : fs) : Prop :=
    exists l, d_track d l m u s /\ (exists kvs own, d_up u kvs own /\ (d, l) ∈ kvs) /\ (u_pc u = CIdle \/ exists x, u_pc u = CDocSend d x l).
  Lemma p_saving_step u s ev u' s' d m : layout s -> up_wf u s -> d_valid compress s -> p_saving d m u -> up_step compress decompress (u, s) ev (u', s') ->
    p_saving d m u' \/ p_held d m u' s'.
  Proof.
    intros Hl Hw Hv (x & m0 & -> & Hu & kvs & own & HD & Hb) H.
    destruct (d_step compress decompress cache_size pos _ _ _ _ _ _ _ Hl Hw Hv HD H) as (_ & kvs' & own' & HD' & Hsub & Hk).
    assert (forall a b c e, u_pc u <> CGet a b c e) as N2 by (intros a b c e E; rewrite E in Hu; done).
    assert (forall a b c e g, u_pc u <> CGetLoad a b c e g) as N3 by (intros a b c e g E; rewrite E in Hu; done).
    assert (undone (u_pc u') = [Save d x] -> cache u' = cache u -> heap u' = heap u -> p_saving d (<[f_name x := x]> m0) u') as HL0.
    { intros E Ec Eh. exists x, m0. split; [done|]. split; [done|]. exists kvs', own'. split; [done|].
      pose proof (du_R _ _ _ _ _ HD') as R'. pose proof (du_R _ _ _ _ _ HD) as R0. rewrite Ec in R'. destruct Hb as [[-> Hn]|(l & Hin & Hm)]; [left|right].
      - split; [done|]. intros Hi. apply Hn. apply in_keys in Hi as [v Hi]. apply in_keys. exists v. exact (R_mem _ _ _ _ R' R0 Hi).
      - exists l. split; [exact (R_mem _ _ _ _ R0 R' Hin)|]. by rewrite Eh. }
    assert ((exists d0 y, u_pc u = CDoc d0 y) \/ forall d0 y, u_pc u <> CDoc d0 y) as [(d0 & y & Epc)|Hnc]; [destruct (u_pc u); eauto; right; done|..].
    - rewrite Epc in Hu. cbn in Hu. injection Hu as -> ->. inversion H; subst; cbn [u_pc u_mem] in *; subst; try discriminate Epc; try (left; by apply HL0).
      + match goal with G : c_step _ _ _ _ |- _ => inversion G end.
      + right. match goal with G : c_doc _ _ _ |- _ => inversion G; subst end; cbn [u_mem c_cache set_cache c_heap] in *.
        * match goal with G1 : lru_get _ _ = _, G2 : lru_deref _ _ = _ |- _ => destruct (get_hit _ _ _ _ _ _ (du_R _ _ _ _ _ HD) G1 G2) as (kvs1 & R1 & C1 & M1 & I1) end.
          destruct Hb as [[_ Hn]|(l0 & Hin & Hm)]; [exfalso; apply Hn, in_keys; by exists l|].
          assert (l0 = l) as -> by (by apply (nodup_key kvs d l0 l (R_nodup _ _ (du_R _ _ _ _ _ HD)))).
          exists l. match goal with G1 : c_heap m !! l = Some ?M |- _ => rewrite G1 in Hm; injection Hm as -> end.
          split; [apply (d_track_start compress cache_size _ _ kvs' own' d x l); [done|done|]; cbn; by rewrite lookup_insert|].
          split; [|right; by exists x]. exists kvs', own'. split; [done|]. pose proof (du_pc _ _ _ _ _ HD') as P. cbn in P. apply P.
        * destruct Hb as [[-> Hn]|(l0 & Hin & Hm)].
          2:{ exfalso. match goal with G1 : lru_get _ _ = _ |- _ => destruct (get_miss _ _ _ _ (du_R _ _ _ _ _ HD) G1) as [_ Hni] end. apply Hni, in_keys. by exists l0. }
          exists l. split; [apply (d_track_start compress cache_size _ _ kvs' own' d x l); [done|done|]; cbn; by rewrite lookup_insert|].
          split; [|right; by exists x]. exists kvs', own'. split; [done|]. pose proof (du_pc _ _ _ _ _ HD') as P. cbn in P. apply P.
    - left. assert (cache u' = cache u) as Ec by (by eapply cache_same).
      assert (undone (u_pc u') = [Save d x] /\ heap u' = heap u) as [E1 E2]; [|by apply HL0].
      clear HL0 Hk HD' Hsub Hv Hw Hl HD Hb. revert Hu. inversion H; subst; cbn [u_pc u_mem] in *; try done.
      + match goal with G : c_step _ _ _ _ |- _ => inversion G; subst end; cbn; try done; try (by destruct full); try (exfalso; by eapply N2); try (exfalso; by eapply N3). by destruct (c_index m !! f_name x0).
      + match goal with G : c_doc _ _ _ |- _ => inversion G; subst end; exfalso; by eapply Hnc.
  Qed.
  Lemma p_held_step u s ev u' s' d m : plain_doc d -> layout s -> up_wf u s -> d_valid compress s -> p_held d m u s -> up_step compress decompress (u, s) ev (u', s') -> p_held d m u' s'.
  Proof.
    intros Hd Hl Hw Hv (l & Ht & (kvs & own & HD & Hin) & Hp) H. exists l.
    split; [by eapply d_track_step|]. split.
    - destruct (d_step compress decompress cache_size pos _ _ _ _ _ _ _ Hl Hw Hv HD H) as (_ & kvs' & own' & HD' & _ & _). exists kvs', own'. split; [done|].
      pose proof (du_R _ _ _ _ _ HD') as R'. pose proof (du_R _ _ _ _ _ HD) as R0.
      rewrite (cache_same _ _ _ _ _ H) in R'; [exact (R_mem _ _ _ _ R0 R' Hin)|..]; intros; destruct Hp as [-> | [? ->]]; done.
    - inversion H; subst; cbn [u_pc] in *; try done.
      + match goal with G : c_step _ _ _ _ |- _ => inversion G; subst end; destruct Hp as [Hp|[? Hp]]; discriminate Hp.
      + match goal with G : c_doc _ _ _ |- _ => inversion G; subst end; destruct Hp as [Hp|[? Hp]]; discriminate Hp.
      + destruct Hp as [Hp|[? Hp]]; discriminate Hp.
      + destruct Hp as [Hp|[? Hp]]; discriminate Hp.
      + destruct Hp as [Hp|[? Hp]]; discriminate Hp.
      + by left.
  Qed.
  Lemma p_saving_tick u s u' s' d m : p_saving d m u -> up_tick (u, s) (u', s') -> p_saving d m u'.
  Proof.
    intros (x & m0 & -> & Hu & kvs & own & HD & Hb) H. destruct (d_tick _ _ _ _ _ _ _ _ HD H) as (D & _ & E1 & _ & E3).
    exists x, m0. split; [done|]. split; [by rewrite E3|]. exists kvs, own. split; [done|]. by rewrite E1.
  Qed.
  Lemma p_held_tick u s u' s' d m : p_held d m u s -> up_tick (u, s) (u', s') -> p_held d m u' s'.
  Proof.
    intros (l & Ht & (kvs & own & HD & Hin) & Hp) H. destruct (d_tick _ _ _ _ _ _ _ _ HD H) as (D & _ & E1 & _ & E3).
    exists l. split; [by eapply d_track_tick|]. split; [by exists kvs, own|]. by rewrite E3.
  Qed.
  Lemma saving_start u u' d x m0 : before_save d m0 u -> up_call u [ECall (Save d x)] u' -> p_saving d (<[f_name x := x]> m0) u'.
  Proof.
    intros (kvs & own & HD & Hb) H. destruct (d_call _ _ _ _ _ _ _ HD H) as (D & E1 & _). exists x, m0. split; [done|].
    split; [inversion H; subst; done|]. exists kvs, own. split; [done|]. by rewrite E1.
  Qed.
  Lemma held_before d m u s : p_held d m u s -> before_save d m u.
  Proof. intros (l & (kvs0 & own0 & _ & _ & Hm & _) & (kvs & own & HD & Hin) & _). exists kvs, own. split; [done|]. right. by exists l. Qed.
  Lemma unused_before d u : p_unused compress cache_size d u -> before_save d ∅ u.
  Proof. intros (_ & kvs & own & HD & Hn). exists kvs, own. split; [done|]. by left. Qed.

  (** With the events so far. *)
  Lemma session_ind_evs (P : list event -> up -> fs -> Prop) (ok : event -> Prop) a ev b u0 :
    (forall es u s ev u' s', layout s -> up_wf u s -> d_valid compress s -> P es u s -> up_step compress decompress (u, s) ev (u', s') -> calls_of ev = [] -> P (es ++ ev) u' s') ->
    (forall es u s u' s', P es u s -> up_tick (u, s) (u', s') -> P es u' s') ->
    (forall es u s ev u', P es u s -> up_call u ev u' -> (forall c, c ∈ ev -> ok c) -> P (es ++ ev) u' s) ->
    reach a -> y_proc a = Up u0 -> P [] u0 (y_fs a) -> session compress decompress cache_size a ev b -> (forall c, c ∈ ev -> ok c) -> good_log (y_log b) ->
    exists u, y_proc b = Up u /\ P ev u (y_fs b).
  Proof.
    intros S1 S2 S3 Hr Ha H0. induction 1 as [a|a ev b ev' c Hs IH H Hlog].
    - intros _ _. by exists u0.
    - intros Hok Hg. assert (good_log (y_log b)) as Gb. { rewrite Hlog in Hg. by apply good_app in Hg as [? _]. }
      destruct (IH Hr Ha H0) as (u & Hb & Hp); [intros c0 Hc; apply Hok, elem_of_app; by left|done|].
      destruct (d_reach compress decompress cache_size pos _ (session_reach _ _ _ _ _ _ Hs Hr) Gb) as ([Bl Bp] & Hv & _).
      inversion H; subst; cbn [y_fs y_proc y_log] in *; try discriminate Hb; injection Hb as ->; eexists; (split; [reflexivity|]).
      + destruct Bp as [_ Bp]. apply app_inv_head in Hlog. subst ev'. eapply S1; try done.
        match goal with G0 : up_step _ _ _ _ _ |- _ => inversion G0; subst end; try done. unfold nft_event. by destruct (w_pc nw) as [| | | |? ? ? []].
      + rewrite <- (app_nil_r log) in Hlog at 1. apply app_inv_head in Hlog. subst ev'. rewrite app_nil_r. by eapply S2.
      + apply app_inv_head in Hlog. subst ev'. eapply S3; [exact Hp|done|]. intros c0 Hc. apply Hok, elem_of_app. by right.
  Qed.

  (** All the fields of [d] are saved during [g]. *)
  Definition p_group (d : string) (es : list event) (u : up) (s : fs) : Prop :=
    if decide (calls_of es = []) then p_unused compress cache_size d u else p_saving d (doc_map (calls_of es) d) u \/ p_held d (doc_map (calls_of es) d) u s.
  Lemma group_session a g b u0 d : plain_doc d -> reach a -> y_proc a = Up u0 -> p_unused compress cache_size d u0 -> session compress decompress cache_size a g b ->
    only_saves d g -> good_log (y_log b) -> exists u, y_proc b = Up u /\ p_group d g u (y_fs b).
  Proof.
    intros Hd Hr Ha H0 Hs [G1 G2] Hg.
    apply (session_ind_evs (p_group d) (fun e => match e with ECall c => exists x, c = Save d x | EGet _ _ => False | _ => True end) a g b u0); try done.
    - intros es u s ev u' s' Hl Hw Hv HP H Hc. unfold p_group in *. rewrite calls_app, Hc, app_nil_r. destruct (decide (calls_of es = [])).
      + by eapply p_unused_step.
      + destruct HP as [HP|HP]; [by eapply p_saving_step|right; by eapply p_held_step].
    - intros es u s u' s' HP H. unfold p_group in *. destruct (decide (calls_of es = [])).
      + destruct HP as (Hu & kvs & own & HD & Hn). destruct (d_tick _ _ _ _ _ _ _ _ HD H) as (D & _ & _ & _ & E3). split; [by rewrite E3|by exists kvs, own].
      + destruct HP as [HP|HP]; [left; by eapply p_saving_tick|right; by eapply p_held_tick].
    - intros es u s ev u' HP H Hok. assert (exists x, ev = [ECall (Save d x)]) as [x ->].
      { inversion H; subst; specialize (Hok _ (elem_of_list_here _ _)); cbn in Hok; [destruct Hok as [y [= -> ->]]; by exists y|by destruct Hok|done]. }
      assert (before_save d (doc_map (calls_of es) d) u) as Hb.
      { unfold p_group in HP. destruct (decide (calls_of es = [])) as [->|]; [by apply unused_before|]. destruct HP as [(y & m0 & _ & Hu & _)|HP]; [|by eapply held_before].
        exfalso. inversion H; subst; done. }
      unfold p_group. rewrite calls_app. change (calls_of [ECall (Save d x)]) with [Save d x]. rewrite decide_False by (by destruct (calls_of es)).
      left. rewrite doc_map_app. cbn [doc_map_step]. unfold doc_map_step. rewrite decide_True by done. by eapply saving_start.
    - intros e He. destruct e as [|c|ids f| | |]; try done; [|by apply (G1 ids f)]. apply G2. unfold calls_of. apply elem_of_list_omap. by eexists.
  Qed.

  (** Afterwards it is not saved again. *)
  Definition p_after (d : string) (m : gmap string field) (u : up) (s : fs) : Prop := p_saving d m u \/ exists l, d_track d l m u s.
  Lemma after_session a ev b u0 d m : plain_doc d -> reach a -> y_proc a = Up u0 -> p_after d m u0 (y_fs a) -> session compress decompress cache_size a ev b ->
    (forall y, Save d y ∉ calls_of ev) -> good_log (y_log b) -> exists u, y_proc b = Up u /\ p_after d m u (y_fs b).
  Proof.
    intros Hd Hr Ha H0 Hs N3 Hg.
    apply (session_ind_ev compress decompress cache_size pos (p_after d m) (fun e => match e with ECall c => forall y, c <> Save d y | _ => True end) a ev b u0); try done.
    - intros u s ev0 u' s' Hl Hw Hv [HP|[l HP]] H; [|right; exists l; by eapply d_track_step].
      destruct (p_saving_step _ _ _ _ _ _ _ Hl Hw Hv HP H) as [?|(l & ? & _)]; [by left|right; by exists l].
    - intros u s u' s' [HP|[l HP]] H; [left; by eapply p_saving_tick|right; exists l; by eapply d_track_tick].
    - intros u s ev0 u' [HP|[l Ht]] H Hok.
      + exfalso. destruct HP as (y & m0 & _ & Hu & _). inversion H; subst; done.
      + right. exists l. eapply d_track_call; [done|done|]. intros y Hy. unfold calls_of in Hy. apply elem_of_list_omap in Hy as (e & He & Ee). specialize (Hok e He). destruct e; try discriminate Ee. injection Ee as ->. by apply (Hok y).
    - intros e He. destruct e as [|c|ids f| | |]; try done. intros y ->. apply (N3 y). unfold calls_of. apply elem_of_list_omap. by eexists.
  Qed.
  Lemma unused_session a0 a u0 ev b d : reach a0 -> (exists g, y_proc a0 = Loading g) -> live_step compress decompress cache_size a0 a -> y_proc a = Up u0 ->
    session compress decompress cache_size a ev b -> good_log (y_log b) -> (forall y, Save d y ∉ calls_of ev) -> ~ requested ev d ->
    exists u, y_proc b = Up u /\ p_unused compress cache_size d u.
  Proof.
    intros Hr0 [g Hg0] H0 Ha Hs Hg N1 N2. assert (reach a) as Ra by (eapply rtc_r; [exact Hr0|by left]).
    apply (session_ind_ev compress decompress cache_size pos (fun u _ => p_unused compress cache_size d u) (fun e => match e with ECall c => forall y, c <> Save d y | EGet ids _ => d ∉ ids | _ => True end) a ev b u0); try done.
    - intros. by eapply p_unused_step.
    - intros u s u' s' (Hu & kvs & own & HD & Hn) H. destruct (d_tick _ _ _ _ _ _ _ _ HD H) as (D & _ & _ & _ & E3). split; [by rewrite E3|by exists kvs, own].
    - intros u s ev0 u' (Hu & kvs & own & HD & Hn) H Hok. destruct (d_call _ _ _ _ _ _ _ HD H) as (D & _). split; [|by exists kvs, own].
      inversion H; subst; cbn [u_pc]; (split; [|try done]).
      + intros [y Hy]. apply elem_of_list_singleton in Hy. injection Hy as <- <-. by eapply (Hok _ (elem_of_list_here _ _)).
      + intros [y Hy]. by apply elem_of_list_singleton in Hy.
      + by intros [y Hy%elem_of_nil].
      + apply (Hok _ (elem_of_list_here _ _)).
    - inversion H0; subst; cbn in *; try discriminate Hg0; try discriminate Ha. injection Ha as ->. match goal with G : opened _ _ _ _ _ |- _ => pose proof (opened_d compress decompress cache_size _ _ _ G) as HD; inversion G; subst end.
      split; [by split; [intros [y Hy%elem_of_nil]|]|]. exists [], ∅. split; [done|]. by apply not_elem_of_nil.
    - intros e He. destruct e as [|c|ids f| | |]; try done; [intros y ->; apply (N1 y)|intros Hi; apply N2; by exists ids, f].
      unfold calls_of. apply elem_of_list_omap. by eexists.
  Qed.
  Lemma session_app a e1 : forall e2 b, session compress decompress cache_size a (e1 ++ e2) b -> exists c, session compress decompress cache_size a e1 c /\ session compress decompress cache_size c e2 b.
  Proof.
    intros e2. destruct e2 as [|e e2]; intros b Hs.
    - rewrite app_nil_r in Hs. exists b. split; [done|constructor].
    - destruct (session_split _ _ _ _ _ _ Hs _ _ _ eq_refl) as (a1 & a2 & S1 & L & El & S2). exists a1. split; [done|].
      assert (forall x e z, session compress decompress cache_size x e z -> forall w e0, live_step compress decompress cache_size w x -> y_log x = y_log w ++ e0 -> session compress decompress cache_size w (e0 ++ e) z) as Hcons.
      { clear. induction 1 as [x|x e y e' z Hs IH H Hlog]; intros w e0 Hw He.
        - rewrite app_nil_r. change e0 with ([] ++ e0). eapply session_step; [constructor|done|done].
        - rewrite app_assoc. eapply session_step; [by apply IH|done|done]. }
      exact (Hcons _ _ _ S2 _ _ L El).
  Qed.
  Lemma group_saved a0 a u0 e1 g e2 b d : plain_doc d -> reach a0 -> (exists g, y_proc a0 = Loading g) -> live_step compress decompress cache_size a0 a -> y_proc a = Up u0 ->
    session compress decompress cache_size a (e1 ++ g ++ e2) b -> good_log (y_log b) ->
    (forall y, Save d y ∉ calls_of e1) -> ~ requested e1 d -> only_saves d g -> calls_of g <> [] -> (forall y, Save d y ∉ calls_of e2) ->
    exists u, y_proc b = Up u /\ p_after d (doc_map (calls_of g) d) u (y_fs b).
  Proof.
    intros Hd Hr0 Hg0 H0 Ha Hs Hg N1 N2 Ho Hne N3. assert (reach a) as Ra by (eapply rtc_r; [exact Hr0|by left]).
    apply session_app in Hs as (b1 & S1 & Hs). apply session_app in Hs as (b2 & S2 & S3).
    pose proof (session_good _ _ _ _ _ _ S3 Hg) as G2. pose proof (session_good _ _ _ _ _ _ S2 G2) as G1.
    pose proof (session_reach _ _ _ _ _ _ S1 Ra) as R1. pose proof (session_reach _ _ _ _ _ _ S2 R1) as R2.
    destruct (unused_session a0 a u0 e1 b1 d Hr0 Hg0 H0 Ha S1 G1 N1 N2) as (u1 & Hu1 & P1).
    destruct (group_session b1 g b2 u1 d Hd R1 Hu1 P1 S2 Ho G2) as (u2 & Hu2 & P2). unfold p_group in P2. rewrite decide_False in P2 by done.
    apply (after_session b2 e2 b u2 d (doc_map (calls_of g) d) Hd R2 Hu2); try done. destruct P2 as [?|(l & ? & _)]; [by left|right; by exists l].
  Qed.
End group.
