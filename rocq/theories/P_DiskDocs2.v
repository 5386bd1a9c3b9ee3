(** The disk storage: documents while the cache can hold all of them (C47, C54). *)
From Verif Require Import Base M_Field M_LRU S_LRU S_Visits M_Memory M_File M_Serialize M_Disk P_Base P_File P_LRU P_Serialize S_Disk P_DiskBase P_DiskInv P_DiskMem P_DiskWriter T_Serialize P_DiskDocs.
#[local] Open Scope Z_scope.
#[local] Opaque serialize_metrics deserialize_metrics serialize_nft deserialize_nft serialize_field_map deserialize_field_map serialize_index deserialize_index.

Lemma R_mem {T} (c : lru T) l1 l2 p : R c l1 -> R c l2 -> p ∈ l1 -> p ∈ l2.
Proof.
  intros H1 H2 Hp. destruct p as [k v]. pose proof (get_refine c l1 k H1) as G1. pose proof (get_refine c l2 k H2) as G2.
  destruct (lru_get c k) as [[c' [e|]]|]; [|destruct G1 as [G1 _]; exfalso; apply G1, in_keys; by exists v|done].
  destruct G1 as (_ & _ & _ & _ & v1 & I1 & D1 & _). destruct G2 as (_ & _ & _ & _ & v2 & I2 & D2 & _).
  rewrite D1 in D2. injection D2 as ->. by rewrite (nodup_key l1 k v v2 (R_nodup _ _ H1) Hp I1).
Qed.

Lemma doc_map_app h c d : doc_map (h ++ [c]) d = doc_map_step d (doc_map h d) c.
Proof. unfold doc_map. by rewrite fold_left_app. Qed.
Lemma doc_map_none h d : (forall x, Save d x ∉ h) -> doc_map h d = ∅.
Proof.
  induction h as [|c h IH] using rev_ind; [done|]. intros Hn. rewrite doc_map_app, IH.
  - destruct c as [d' x|]; [|done]. cbn. destruct (decide (d' = d)) as [->|]; [|done]. exfalso. apply (Hn x). apply elem_of_app. right. left.
  - intros x Hx. apply (Hn x). apply elem_of_app. by left.
Qed.

(** The Save that has not reached UpdateFieldDocument yet. *)
Definition undone (pc : cpc) : list call :=
  match pc with
  | CSave d x | CFieldSend d x | CIndex true d x | CIndexLoop true d x _ | CIndexSend true d x _ _ | CNft d x
  | CNftLoop d x _ _ | CNftSend d x _ _ _ | CDoc d x => [Save d x]
  | _ => []
  end.
Definition got (past : list call) (f : string) (dn : list string) (acc : gmap string field) : Prop :=
  forall id, acc !! id = if decide (id ∈ dn) then doc_map past id !! f else None.
Lemma got_next past f dn acc id fd : got past f dn acc -> fd = doc_map past id ->
  got past f (dn ++ [id]) (match fd !! f with Some x => <[id := x]> acc | None => acc end).
Proof.
  intros H -> id'. destruct (decide (id' = id)) as [->|Hne].
  - rewrite decide_True by (apply elem_of_app; right; left). destruct (doc_map past id !! f) as [x|] eqn:E; [by rewrite lookup_insert|]. rewrite (H id). by destruct (decide _).
  - replace (match doc_map past id !! f with Some x => <[id:=x]> acc | None => acc end !! id') with (acc !! id') by (destruct (doc_map past id !! f); [by rewrite lookup_insert_ne|done]).
    rewrite (H id'). destruct (decide (id' ∈ dn)) as [Hi|Hi].
    + rewrite decide_True; [done|]. apply elem_of_app. by left.
    + rewrite decide_False; [done|]. intros [?|?%elem_of_list_singleton]%elem_of_app; done.
Qed.
Lemma got_skip past f dn acc id : got past f dn acc -> doc_map past id = ∅ -> got past f (dn ++ [id]) acc.
Proof. intros H E. pose proof (got_next past f dn acc id ∅ H (eq_sym E)) as H'. by rewrite lookup_empty in H'. Qed.

Section docs.
  Variables (compress : bytes -> bytes) (decompress : bytes -> option bytes) (cache_size : Z).
  Hypothesis gz : gzip_ok compress decompress.
  Hypothesis pos : 0 < cache_size.
  Notation reach := (reachable compress decompress cache_size).
  Notation heap u := (c_heap (u_mem u)).
  Notation cache u := (c_cache (u_mem u)).
  Notation dbuf u := (w_buf (u_dw u)).
  Notation d_up := (d_up compress cache_size).
  Notation d_link := (d_link compress).

  Definition e_none (u : up) (s : fs) (kvs : list (string * nat)) (past : list call) (d : string) : Prop :=
    d ∉ kvs.*1 /\ (forall x, Save d x ∉ past) /\ dbuf u !! d = None /\ (plain_doc d -> doc_file s d = None).
  Definition e_some (u : up) (s : fs) (kvs : list (string * nat)) (past : list call) (d : string) : Prop :=
    exists l x, (d, l) ∈ kvs /\ heap u !! l = Some (doc_map past d) /\ Save d x ∈ past /\ (plain_doc d -> ~ d_stale (u_pc u) d -> d_link u s d l (doc_map past d)).
  Definition e_got (u : up) (kvs : list (string * nat)) (log : list event) (past : list call) : Prop :=
    match u_pc u with
    | CGet ids0 f ids acc => EGet ids0 f ∈ log /\ exists dn, ids0 = dn ++ ids /\ got past f dn acc
    | CGetLoad ids0 f id ids acc => EGet ids0 f ∈ log /\ (exists dn, ids0 = dn ++ id :: ids /\ got past f dn acc) /\ id ∉ kvs.*1
    | CGot ids0 f acc => EGet ids0 f ∈ log /\ got past f ids0 acc
    | _ => True
    end.
  Definition e_all (u : up) (s : fs) (log : list event) : Prop :=
    exists kvs own past, d_up u kvs own /\ calls_of log = past ++ undone (u_pc u) /\ e_got u kvs log past /\ forall d, e_none u s kvs past d \/ e_some u s kvs past d.
  Definition small (log : list event) : Prop :=
    ECrash ∉ log /\ docs_saved_at_most cache_size (calls_of log) /\ forall d, requested log d -> plain_doc d.
  Lemma small_app l1 l2 : small (l1 ++ l2) -> small l1.
  Proof.
    intros (H1 & H2 & H3). split; [|split].
    - intros ?. apply H1, elem_of_app. by left.
    - intros ks Hn Hk. apply H2; [done|]. intros d Hd. destruct (Hk d Hd) as [x Hx]. exists x. rewrite calls_app. apply elem_of_app. by left.
    - intros d (ids & f & Hi & Hd). apply H3. exists ids, f. split; [|done]. apply elem_of_app. by left.
  Qed.

  (** Steps that leave cache, heap, the writer's buffer and the documents' files alone. *)
  Lemma e_frame u s u' s' kvs kvs' past d : (forall p, p ∈ kvs' <-> p ∈ kvs) -> heap u' = heap u -> dbuf u' = dbuf u -> keeps OD s s' ->
    (d_stale (u_pc u) d -> d_stale (u_pc u') d) ->
    e_none u s kvs past d \/ e_some u s kvs past d -> e_none u' s' kvs' past d \/ e_some u' s' kvs' past d.
  Proof.
    intros Hk Hh Hb Hf Hst [(A1 & A2 & A3 & A4)|(l & x & B1 & B2 & B3 & B4)].
    - left. split; [|split; [done|split]].
      + rewrite in_keys. intros [v Hv]. apply Hk in Hv. apply A1. apply in_keys. by exists v.
      + by rewrite Hb.
      + intros Hp. unfold doc_file in *. rewrite (Hf ["docs"; "metrics"; d]) by apply owner_d. auto.
    - right. exists l, x. split; [by apply Hk|]. split; [by rewrite Hh|]. split; [done|]. intros Hp Hs. apply (d_link_keeps compress s s' u u'); auto.
  Qed.
  Lemma e_past u s kvs past past' d : doc_map past' d = doc_map past d -> (forall x, Save d x ∈ past' <-> Save d x ∈ past) ->
    e_none u s kvs past d \/ e_some u s kvs past d -> e_none u s kvs past' d \/ e_some u s kvs past' d.
  Proof.
    intros E Hi [(A1 & A2 & A3 & A4)|(l & x & B1 & B2 & B3 & B4)].
    - left. split; [done|]. split; [|done]. intros x Hx. apply Hi in Hx. by apply (A2 x).
    - right. exists l, x. rewrite E. split; [done|]. split; [done|]. split; [by apply Hi|done].
  Qed.
  Lemma same_kvs (c : lru nat) kvs kvs' p : R c kvs -> R c kvs' -> p ∈ kvs' <-> p ∈ kvs.
  Proof. intros H1 H2. split; intros Hp; [by apply (R_mem c kvs' kvs)|by apply (R_mem c kvs kvs')]. Qed.
  Lemma same_keys (kvs kvs' : list (string * nat)) k : (forall p, p ∈ kvs' <-> p ∈ kvs) -> k ∉ kvs.*1 -> k ∉ kvs'.*1.
  Proof. intros H Hn. rewrite in_keys. intros [v Hv]. apply H in Hv. apply Hn, in_keys. by exists v. Qed.

  Lemma e_doc u s log m l m' pc' ich mw nw dw iw mg d x : u = mkUp m (CDoc d x) ich mw nw dw iw mg -> small log ->
    c_doc (m, CDoc d x) l (m', pc') -> (exists kvs' own', d_up (mkUp m' pc' ich mw nw dw iw mg) kvs' own') -> e_all u s log -> e_all (mkUp m' pc' ich mw nw dw iw mg) s log.
  Proof.
    intros -> (Sm1 & Sm2 & Sm3) H (kvs' & own' & HD') (kvs & own & past & HD & Hc & _ & He).
    cbn [undone u_pc] in Hc. exists kvs', own', (past ++ [Save d x]). split; [done|]. pose proof (du_R _ _ _ _ _ HD') as R'. pose proof (du_R _ _ _ _ _ HD) as R0. cbn [u_mem] in R0, R'.
    assert (forall k, k ∈ kvs.*1 -> exists y, Save k y ∈ past) as Hin.
    { intros k Hk. destruct (He k) as [(A1 & _)|(l0 & y & _ & _ & B3 & _)]; [done|by exists y]. }
    assert ((d, l) ∈ kvs' /\ (forall k v, k <> d -> (k, v) ∈ kvs' <-> (k, v) ∈ kvs) /\ c_heap m' !! l = Some (<[f_name x := x]> (doc_map past d)) /\
      (forall l0, l0 <> l -> c_heap m' !! l0 = c_heap m !! l0) /\ (forall k v, k <> d -> (k, v) ∈ kvs -> v <> l) /\ pc' = CDocSend d x l) as (F1 & F2 & F3 & F4 & F5 & F6).
    { inversion H; subst; cbn [set_cache c_cache c_heap] in *; pose proof (du_cap _ _ _ _ _ HD) as Hcap; cbn [u_mem] in Hcap.
      - match goal with G1 : lru_get _ _ = _, G2 : lru_deref _ _ = _ |- _ => destruct (get_hit _ _ _ _ _ _ R0 G1 G2) as (kvs1 & R1 & C1 & M1 & I1) end.
        match goal with G1 : lru_put _ _ l = _ |- _ => assert (0 < lr_cap c1) as P1 by (by rewrite C1, Hcap); destruct (put_R _ _ _ _ _ R1 P1 G1) as [R2 _] end. rewrite C1, Hcap in R2.
        assert (forall p, p ∈ kvs' <-> p ∈ aput cache_size kvs1 d l) as Mk by (intros p; by apply (same_kvs _ _ _ _ R2 R')).
        assert (d ∈ kvs1.*1) as Hd1 by (apply in_keys; exists l; by apply M1).
        split; [apply Mk, aput_head|]. split; [|split; [|split; [|split; [|done]]]].
        + intros k v Hne. rewrite Mk. split.
          * intros Hk. apply aput_in in Hk as [[= -> ->]|[_ Hk]]; [done|by apply M1].
          * intros Hk. apply aput_keep; [by left|done|by apply M1].
        + rewrite lookup_insert. do 2 f_equal. destruct (He d) as [(A1 & _)|(l0 & y & B1 & B2 & _)]; [exfalso; apply A1, in_keys; by exists l|].
          rewrite (nodup_key kvs d l l0 (R_nodup _ _ R0) I1 B1) in *. cbn [u_mem] in B2. congruence.
        + intros l0 Hl0. by rewrite lookup_insert_ne.
        + intros k v Hne Hk ->. apply Hne. pose proof (du_kvs _ _ _ _ _ HD _ _ Hk) as O1. pose proof (du_kvs _ _ _ _ _ HD _ _ I1) as O2. congruence.
      - match goal with G1 : lru_get _ _ = _ |- _ => destruct (get_miss _ _ _ _ R0 G1) as [-> Hni] end.
        match goal with G1 : lru_put _ _ l = _ |- _ => assert (0 < lr_cap (c_cache m)) as P1 by (by rewrite Hcap); destruct (put_R _ _ _ _ _ R0 P1 G1) as [R2 _] end. rewrite Hcap in R2.
        assert (forall p, p ∈ kvs' <-> p ∈ aput cache_size kvs d l) as Mk by (intros p; by apply (same_kvs _ _ _ _ R2 R')).
        match goal with G : c_heap m !! l = None |- _ => rename G into Hfr end.
        assert (Z.of_nat (length kvs) < cache_size) as Hlen.
        { assert (Z.of_nat (length (d :: kvs.*1)) <= cache_size) as Hl1; [|cbn in Hl1; rewrite fmap_length in Hl1; lia].
          apply Sm2; [constructor; [done|by eapply R_nodup]|]. intros k [->|Hk]%elem_of_cons; [exists x|destruct (Hin k Hk) as [y Hy]; exists y]; rewrite Hc; apply elem_of_app; [right; left|by left]. }
        split; [apply Mk, aput_head|]. split; [|split; [|split; [|split; [|done]]]].
        + intros k v Hne. rewrite Mk. split.
          * intros Hk. apply aput_in in Hk as [[= -> ->]|[_ Hk]]; done.
          * intros Hk. apply aput_keep; [by right|done|done].
        + rewrite lookup_insert. destruct (He d) as [(_ & A2 & _)|(l0 & y & B1 & _)]; [|exfalso; apply Hni, in_keys; by exists l0]. by rewrite (doc_map_none past d A2).
        + intros l0 Hl0. by rewrite lookup_insert_ne.
        + intros k v Hne Hk ->. pose proof (du_kvs _ _ _ _ _ HD _ _ Hk) as O1. assert (is_Some (heap (mkUp m (CDoc d x) ich mw nw dw iw mg) !! l)) as [? Hx] by (apply (du_own _ _ _ _ _ HD); by rewrite O1). cbn in Hx. congruence. }
    subst pc'. split; [by rewrite Hc, app_nil_r|]. split; [done|]. intros k. destruct (decide (k = d)) as [->|Hne].
    - right. exists l, x. rewrite doc_map_app. cbn [doc_map_step u_mem u_pc]. rewrite decide_True by done. split; [done|]. split; [done|]. split; [apply elem_of_app; right; left|].
      intros _ Hst. by destruct Hst.
    - assert (doc_map (past ++ [Save d x]) k = doc_map past k) as Ek. { rewrite doc_map_app. cbn. by rewrite decide_False. }
      apply (e_past _ _ _ past); [done|..].
      { intros y. rewrite elem_of_app, elem_of_list_singleton. split; [|by left]. intros [?|[= -> ->]]; done. }
      destruct (He k) as [(A1 & A2 & A3 & A4)|(l0 & y & B1 & B2 & B3 & B4)].
      + left. split; [|done]. rewrite in_keys. intros [v Hv]. apply F2 in Hv; [|done]. apply A1, in_keys. by exists v.
      + right. exists l0, y. split; [by apply F2|]. cbn [u_mem u_pc] in *. split; [rewrite F4; [done|by eapply F5]|]. split; [done|]. intros Hp _. apply B4; [done|]. by intros [].
  Qed.
  Lemma e_quick u s log ev u' : small (log ++ ev) -> quick decompress s u ev u' -> (exists kvs' own', d_up u' kvs' own') -> e_all u s log -> e_all u' s (log ++ ev).
  Proof.
    intros Hsm H HE Ha. pose proof (small_app _ _ Hsm) as Hsm0.
    assert (forall kvs own past, d_up u kvs own -> calls_of log = past ++ undone (u_pc u) -> (forall d, e_none u s kvs past d \/ e_some u s kvs past d) ->
      forall kvs', R (cache u') kvs' -> (forall p, p ∈ kvs' <-> p ∈ kvs) -> heap u' = heap u -> dbuf u' = dbuf u -> calls_of ev = [] -> undone (u_pc u') = undone (u_pc u) ->
      (forall d, ~ d_stale (u_pc u) d) -> (forall kvs2 own2, d_up u' kvs2 own2 -> (forall p, p ∈ kvs2 <-> p ∈ kvs) -> e_got u' kvs2 (log ++ ev) past) -> e_all u' s (log ++ ev)) as HF.
    { intros kvs own past HD Hc He kvs' R' Mk Hh Hb Hev Hu Hst Hg. destruct HE as (kvs2 & own2 & HD2). exists kvs2, own2, past. split; [done|].
      assert (forall p, p ∈ kvs2 <-> p ∈ kvs) as Mk2. { intros p. rewrite <- Mk. by apply (same_kvs _ _ _ _ R' (du_R _ _ _ _ _ HD2)). }
      split; [by rewrite calls_app, Hev, app_nil_r, Hu|]. split; [by eapply Hg|]. intros d. apply (e_frame u s u' s kvs); [done|done|done|apply keeps_refl| |auto]. intros Hs. by destruct (Hst d). }
    inversion H; subst; cbn [u_mem u_pc u_dw] in *.
    - destruct Ha as (kvs & own & past & HD & Hc & Hg & He). specialize (HF kvs own past HD Hc He). pose proof (du_R _ _ _ _ _ HD) as R0. cbn [u_mem] in R0.
      match goal with G : c_step _ _ _ _ |- _ => inversion G; subst end; cbn [u_mem u_pc u_dw c_cache c_heap set_index set_nft set_cache] in *;
        try (apply (HF kvs); cbn [u_mem u_pc]; auto; done).
      + apply (HF kvs); cbn [u_mem u_pc]; auto; by destruct (c_index m !! f_name x).
      + destruct full; apply (HF kvs); cbn [u_mem u_pc]; auto; done.
      + match goal with G1 : lru_get _ _ = _, G2 : lru_deref _ _ = _ |- _ => destruct (get_hit _ _ _ _ _ _ R0 G1 G2) as (kvs1 & R1 & C1 & M1 & I1) end.
        apply (HF kvs1); try done; [auto|]. intros kvs2 own2 D2 M2. cbn [e_got u_pc] in *. rewrite app_nil_r. destruct Hg as (G1 & dn & G2 & G3). split; [done|]. exists (dn ++ [id]). split; [by rewrite <- app_assoc|].
        apply got_next; [done|]. destruct (He id) as [(A1 & _)|(l0 & y & B1 & B2 & _)]; [exfalso; apply A1, in_keys; by exists l|]. cbn [u_mem] in B2.
        rewrite (nodup_key kvs id l l0 (R_nodup _ _ R0) I1 B1) in *. congruence.
      + match goal with G1 : lru_get _ _ = _ |- _ => destruct (get_miss _ _ _ _ R0 G1) as [-> Hni] end. apply (HF kvs); try done; [auto|]. intros kvs2 own2 D2 M2. cbn [e_got u_pc] in *. rewrite app_nil_r.
        destruct Hg as (G1 & dn & G2 & G3). split; [done|]. split; [by exists dn|]. by apply (same_keys kvs).
      + apply (HF kvs); try done; [auto|]. intros kvs2 own2 D2 M2. cbn [e_got u_pc] in *. rewrite app_nil_r. destruct Hg as (G1 & (dn & G2 & G3) & G4). split; [done|]. exists (dn ++ [id]). split; [by rewrite <- app_assoc|].
        apply got_skip; [done|]. destruct (He id) as [(_ & A2 & _)|(l0 & y & B1 & _)]; [by apply doc_map_none|]. exfalso. apply G4, in_keys. by exists l0.
      + exfalso. cbn [e_got u_pc] in Hg. destruct Hg as (G1 & (dn & G2 & G3) & G4). destruct (He id) as [(_ & _ & _ & A4)|(l0 & y & B1 & _)]; [|apply G4, in_keys; by exists l0].
        assert (doc_file s id = None) as Ef. { apply A4. destruct Hsm0 as (_ & _ & Hp). apply Hp. exists ids0, f. split; [done|]. rewrite G2. apply elem_of_app. right. left. }
        match goal with G : load_doc _ _ _ = _ |- _ => unfold load_doc in G; unfold doc_file in Ef; rewrite Ef in G; discriminate G end.
      + apply (HF kvs); try done; [auto|]. intros kvs2 own2 D2 M2. cbn [e_got u_pc] in *. rewrite app_nil_r. destruct Hg as (G1 & dn & G2 & G3). split; [done|]. rewrite app_nil_r in G2. by subst ids0.
    - rewrite app_nil_r. match goal with G : c_doc (_, ?pc0) _ _ |- _ => assert (exists d x, pc0 = CDoc d x) as (d & x & ->) by (inversion G; eauto) end. by eapply e_doc.
    - destruct Ha as (kvs & own & past & HD & Hc & Hg & He). apply (HF kvs own past HD Hc He kvs); auto; try done. exact (du_R _ _ _ _ _ HD).
    - destruct Ha as (kvs & own & past & HD & Hc & Hg & He). apply (HF kvs own past HD Hc He kvs); auto; try done. exact (du_R _ _ _ _ _ HD).
    - destruct Ha as (kvs & own & past & HD & Hc & Hg & He). exists kvs, own, past. rewrite app_nil_r. split; [by eapply d_up_eq; [..|exact HD]|]. split; [done|]. split; [done|]. exact He.
    - destruct Ha as (kvs & own & past & HD & Hc & Hg & He). apply (HF kvs own past HD Hc He kvs); auto; try done. exact (du_R _ _ _ _ _ HD).
    - destruct Ha as (kvs & own & past & HD & Hc & Hg & He). destruct HE as (kvs2 & own2 & HD2). exists kvs2, own2, past. split; [done|]. rewrite app_nil_r. split; [done|]. split; [done|].
      assert (forall p, p ∈ kvs2 <-> p ∈ kvs) as Mk2 by (intros p; apply (same_kvs _ _ _ _ (du_R _ _ _ _ _ HD) (du_R _ _ _ _ _ HD2))).
      pose proof (du_pc _ _ _ _ _ HD) as Hpc. cbn [u_pc] in Hpc. destruct Hpc as [Hdl _].
      intros k. destruct (He k) as [(A1 & A2 & A3 & A4)|(l0 & y & B1 & B2 & B3 & B4)].
      + left. split; [by apply (same_keys kvs)|]. split; [done|]. split; [|done]. cbn [u_dw w_buf] in *. unfold d_recv. rewrite lookup_insert_ne; [done|]. intros ->. apply A1, in_keys. by exists l.
      + right. exists l0, y. split; [by apply Mk2|]. split; [done|]. split; [done|]. intros Hp _. unfold P_DiskDocs.d_link. cbn [u_dw w_buf] in *. unfold d_recv. destruct (decide (k = d)) as [->|Hne].
        * rewrite lookup_insert. exact (nodup_key kvs d l l0 (R_nodup _ _ (du_R _ _ _ _ _ HD)) Hdl B1).
        * rewrite lookup_insert_ne by done. apply B4; [done|]. cbn. congruence.
    - destruct Ha as (kvs & own & past & HD & Hc & Hg & He). exists kvs, own, past. rewrite app_nil_r. split; [by eapply d_up_eq; [..|exact HD]|]. split; [done|]. split; [done|]. exact He.
  Qed.
  Lemma e_step u s log ev u' s' : layout s -> up_wf u s -> d_valid compress s -> small (log ++ ev) -> up_step compress decompress (u, s) ev (u', s') -> e_all u s log -> e_all u' s' (log ++ ev).
  Proof.
    intros Hl Hw Hv Hsm H Ha.
    assert (exists kvs' own', d_up u' kvs' own') as HE.
    { destruct Ha as (kvs & own & past & HD & _). destruct (d_step compress decompress cache_size pos _ _ _ _ _ _ _ Hl Hw Hv HD H) as (_ & kvs' & own' & HD' & _). eauto. }
    assert (u_mem u' = u_mem u -> u_dw u' = u_dw u -> u_pc u' = u_pc u -> keeps OD s s' -> calls_of ev = [] -> e_all u' s' (log ++ ev)) as HF.
    { intros E1 E2 E3 K Ec. destruct Ha as (kvs & own & past & HD & Hc & Hg & He). exists kvs, own, past. split; [|split; [|split]].
      - by apply (d_up_eq compress cache_size u); [rewrite E1|rewrite E1| | |].
      - by rewrite calls_app, Ec, app_nil_r, E3.
      - unfold e_got in *. rewrite E3. destruct (u_pc u); try done; rewrite elem_of_app; tauto.
      - intros d. apply (e_frame u s u' s' kvs); [done|by rewrite E1|by rewrite E2|done|by rewrite E3|auto]. }
    assert (calls_of ev = []) as Hev by (inversion H; subst; try done; unfold nft_event; destruct (w_pc nw) as [| | | |? ? ? []]; done).
    destruct (up_step_who _ _ _ _ _ _ _ Hl Hw H) as [[-> Hq]|[Hq|[Hq|[Hq|[Hq|Hq]]]]].
    - by apply (e_quick u).
    - destruct Hq as (_ & E & _ & K & _). apply HF; [by rewrite E|by rewrite E|by rewrite E|exact K|done].
    - destruct Hq as (_ & E & _ & K & _). apply HF; [by rewrite E|by rewrite E|by rewrite E|exact K|done].
    - destruct Ha as (kvs & own & past & HD & Hc & Hg & He). exists kvs, own, past. split; [by eapply d_run|].
      assert (u_mem u' = u_mem u /\ u_pc u' = u_pc u) as [E1 E3] by (destruct Hq as (_ & E & _); split; rewrite E; reflexivity).
      split; [by rewrite calls_app, Hev, app_nil_r, E3|]. split; [unfold e_got in *; rewrite E3; destruct (u_pc u); try done; rewrite elem_of_app; tauto|].
      intros d. destruct (He d) as [(A1 & A2 & A3 & A4)|(l & x & B1 & B2 & B3 & B4)].
      + left. split; [done|]. split; [done|]. split.
        * destruct Hq as (Hq & _). assert (dbuf u' !! d = dbuf u !! d \/ dbuf u' !! d = None) as [->| ->]; [|done|done]. inversion Hq; subst; cbn [w_buf]; auto.
          destruct (decide (k = d)) as [->|]; [right; apply lookup_delete|left; by rewrite lookup_delete_ne].
        * intros Hp. destruct (d_cases compress decompress _ _ _ _ _ d Hl Hw Hq Hp) as [(E & _)|[(ks & b & pc & _ & [? E] & _)|(ks & b & _ & _ & _ & [? E] & _)]]; [rewrite E; auto|congruence|congruence].
      + right. exists l, x. rewrite E1. split; [done|]. split; [done|]. split; [done|]. rewrite E3. intros Hp Hst. eapply (d_link_run compress decompress cache_size s s' u u'); try done. auto.
    - destruct Hq as (_ & E & _ & _ & K & _). apply HF; [by rewrite E|by rewrite E|by rewrite E|exact K|done].
    - destruct Hq as (_ & E & _ & _ & K & _). apply HF; [by rewrite E|by rewrite E|by rewrite E|exact K|done].
  Qed.
  Lemma e_tick u s u' s' log : up_tick (u, s) (u', s') -> e_all u s log -> e_all u' s' log.
  Proof.
    intros H (kvs & own & past & HD & Hc & Hg & He). destruct (d_tick _ _ _ _ _ _ _ _ HD H) as (D & -> & E1 & E2 & E3). exists kvs, own, past. rewrite E3. split; [done|]. split; [done|].
    split; [unfold e_got in *; by rewrite E3|]. intros d. apply (e_frame u s u' s kvs); [done|done|done|apply keeps_refl|by rewrite E3|auto].
  Qed.
  Lemma e_call u s ev u' log : up_call u ev u' -> e_all u s log -> e_all u' s (log ++ ev).
  Proof.
    intros H (kvs & own & past & HD & Hc & Hg & He). destruct (d_call _ _ _ _ _ _ _ HD H) as (D & E1 & E2 & E3 & E4).
    assert (forall d, e_none u' s kvs past d \/ e_some u' s kvs past d) as He'.
    { intros d. apply (e_frame u s u' s kvs); [done|by rewrite E1|by rewrite E2|apply keeps_refl|by rewrite E3|auto]. }
    inversion H; subst; cbn [u_pc undone] in *; rewrite app_nil_r in Hc.
    - exists kvs, own, past. split; [done|]. split; [rewrite calls_app, Hc; done|]. split; [done|done].
    - exists kvs, own, (past ++ [Index d x]). split; [done|]. split; [rewrite calls_app, Hc; cbn; by rewrite app_nil_r|]. split; [done|]. intros d0. apply (e_past _ _ _ past); [by rewrite doc_map_app| |auto].
      intros y. rewrite elem_of_app, elem_of_list_singleton. split; [by intros [?|?]|by left].
    - exists kvs, own, past. split; [done|]. split; [rewrite calls_app, Hc; done|]. split; [|done]. cbn. split; [apply elem_of_app; right; left|]. exists []. split; [done|]. intros id. by rewrite lookup_empty, decide_False by apply not_elem_of_nil.
  Qed.
  Definition e_inv (y : sys) : Prop :=
    small (y_log y) -> match y_proc y with Up u => e_all u (y_fs y) (y_log y) | _ => calls_of (y_log y) = [] /\ forall d, plain_doc d -> doc_file (y_fs y) d = None end.
  Lemma e_reach y : reach y -> good_log (y_log y) -> e_inv y.
  Proof.
    intros Hr Hg. destruct (reach_ind compress decompress cache_size (fun y => d_inv compress cache_size y /\ e_inv y)) with (y := y) as [_ [_ H]]; try done.
    - split; [|split; [done|]]; [apply (d_reach compress decompress cache_size pos); [apply rtc_refl|by intros c ?%elem_of_nil]|]. intros d _. apply (lookup_empty (M:=gmap path)).
    - intros a b Ra [Bl Bp] _ Gb [Ia Ea] Hab. split; [by eapply d_inv_step|]. destruct Ia as [Hv _]. intros Hsm.
      destruct Hab as [H|H]; inversion H; subst; cbn [y_fs y_proc y_log] in *.
      + destruct (Ea Hsm) as [E1 E2]. split; [done|]. intros d Hd. match goal with G : mkdir_all _ _ = _ |- _ => destruct (mkdir_effect _ [] _ Bl eq_refl (Nat.le_0_l 2) G) as (_ & E & _) end. unfold doc_file. rewrite E. by apply E2.
      + destruct (Ea Hsm) as [E1 E2]. split; [done|]. intros d Hd. destruct Bp as [_ Bp]. match goal with G : g_step _ _ _ _ |- _ => destruct (g_step_base _ _ _ _ _ _ Bl Bp G) as (_ & _ & _ & E) end.
        unfold doc_file. rewrite E; [by apply E2|..]; by rewrite owner_d.
      + destruct (Ea (small_app _ _ Hsm)) as [E1 E2]. cbn [y_log y_fs] in E1, E2. exists [], ∅, []. split; [by eapply opened_d|]. match goal with G : opened _ _ _ _ _ |- _ => inversion G; subst end. split; [by rewrite calls_app, E1|]. split; [done|].
        intros d. left. split; [by apply not_elem_of_nil|]. split; [intros x; by apply not_elem_of_nil|]. split; [done|auto].
      + destruct Bp as [_ Bp]. eapply e_step; try done. apply Ea. by eapply small_app.
      + by eapply e_tick; [|apply Ea].
      + eapply e_call; [done|]. apply Ea. by eapply small_app.
      + destruct Hsm as [Hn _]. exfalso. apply Hn, elem_of_app. right. left.
  Qed.
End docs.
