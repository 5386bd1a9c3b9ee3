(** The disk storage: documents, their cache and their files (C47, C54). *)
From Verif Require Import Base M_Field M_LRU S_LRU S_Visits M_Memory M_File M_Serialize M_Disk P_Base P_File P_LRU P_Serialize S_Disk P_DiskBase P_DiskInv P_DiskMem P_DiskWriter T_Serialize.
#[local] Open Scope Z_scope.
#[local] Opaque serialize_metrics deserialize_metrics serialize_nft deserialize_nft serialize_field_map deserialize_field_map serialize_index deserialize_index.

(** * The cache as a list of pairs *)
Lemma aput_in {T} cap (l : list (string * T)) k v p : p ∈ aput cap l k v -> p = (k, v) \/ (p.1 <> k /\ p ∈ l).
Proof.
  unfold aput. destruct (decide (k ∈ l.*1)) as [Hk|Hk]; intros [->|Hp]%elem_of_cons; [by left| |by left|].
  - right. apply elem_of_list_filter in Hp. done.
  - right. assert (p ∈ l) as Hl. { destruct (decide _); [|done]. by apply removelast_elem in Hp || (revert Hp; clear; induction l as [|a l IH]; [done|]; destruct l; cbn in *; [by intros ?%elem_of_nil|]; intros [->|?]%elem_of_cons; [left|right; auto]). }
    split; [|done]. intros <-. apply Hk. by apply elem_of_list_fmap_1.
Qed.
Lemma aput_head {T} cap (l : list (string * T)) k v : (k, v) ∈ aput cap l k v.
Proof. unfold aput. destruct (decide _); left. Qed.
Lemma aput_keep {T} cap (l : list (string * T)) k v p : k ∈ l.*1 \/ Z.of_nat (length l) < cap -> p.1 <> k -> p ∈ l -> p ∈ aput cap l k v.
Proof.
  unfold aput. intros H Hp Hl. destruct (decide (k ∈ l.*1)) as [Hk|Hk]; right.
  - by apply elem_of_list_filter.
  - destruct H as [?|H]; [done|]. rewrite decide_False by lia. done.
Qed.
Lemma R_nodup {T} (s : lru T) l : R s l -> NoDup l.*1.
Proof. intros [o H]. by eapply refines_NoDup. Qed.
Lemma nodup_key {T} (l : list (string * T)) k v w : NoDup l.*1 -> (k, v) ∈ l -> (k, w) ∈ l -> v = w.
Proof.
  induction l as [|[k0 v0] l IH]; cbn; [by intros _ ?%elem_of_nil|]. intros [Hn Hd]%NoDup_cons [E1|H1]%elem_of_cons [E2|H2]%elem_of_cons.
  - congruence.
  - injection E1 as -> ->. exfalso. apply Hn. apply (elem_of_list_fmap_1 fst) in H2. done.
  - injection E2 as -> ->. exfalso. apply Hn. apply (elem_of_list_fmap_1 fst) in H1. done.
  - auto.
Qed.
Lemma in_keys {T} (l : list (string * T)) k : k ∈ l.*1 <-> exists v, (k, v) ∈ l.
Proof. rewrite elem_of_list_fmap. split; [intros ([k' v] & -> & H); eauto|intros [v H]; by exists (k, v)]. Qed.

(** Get: a hit moves the key to the front; a miss changes nothing. *)
Lemma get_hit (c c' : lru nat) kvs k e l : R c kvs -> lru_get c k = Some (c', Some e) -> lru_deref c' e = Some l ->
  exists kvs', R c' kvs' /\ lr_cap c' = lr_cap c /\ (forall p, p ∈ kvs' <-> p ∈ kvs) /\ (k, l) ∈ kvs.
Proof.
  intros HR Hg Hd. pose proof (get_refine c kvs k HR) as H. rewrite Hg in H. destruct H as (_ & _ & _ & Hc & v & Hv & Hd' & HR').
  rewrite Hd in Hd'. injection Hd' as <-. eexists. split; [exact HR'|]. split; [done|]. split; [|done]. intros [k' v']. rewrite elem_of_cons, elem_of_list_filter. cbn.
  split; [intros [[= -> ->]|[_ ?]]; done|]. intros Hp. destruct (decide (k' = k)) as [->|]; [left|right; done].
  f_equal. by apply (nodup_key kvs k v' l (R_nodup _ _ HR)).
Qed.
Lemma get_miss (c c' : lru nat) kvs k : R c kvs -> lru_get c k = Some (c', None) -> c' = c /\ k ∉ kvs.*1.
Proof. intros HR Hg. pose proof (get_refine c kvs k HR) as H. rewrite Hg in H. tauto. Qed.
Lemma put_R (c c' : lru nat) kvs k l : R c kvs -> 0 < lr_cap c -> lru_put c k l = Some c' -> R c' (aput (lr_cap c) kvs k l) /\ lr_cap c' = lr_cap c.
Proof. intros HR Hc Hp. destruct (put_refine c kvs k l HR Hc) as (c2 & E & E2 & E3 & _). rewrite Hp in E. injection E as <-. done. Qed.

Section docs.
  Variables (compress : bytes -> bytes) (decompress : bytes -> option bytes) (cache_size : Z).
  Hypothesis gz : gzip_ok compress decompress.
  Hypothesis pos : 0 < cache_size.
  Notation reach := (reachable compress decompress cache_size).

  Definition d_enc (m : gmap string field) (T : bytes) : Prop := exists es, visits_fields m es /\ serialize_field_map es = Some T.
  Definition d_holds (c : option content) (m : gmap string field) : Prop := exists T, d_enc m T /\ c = Some (Whole (compress T)).
  Definition d_valid (s : fs) : Prop := forall d, plain_doc d -> is_Some (doc_file s d) -> exists m, d_holds (doc_file s d) m.
  Definition d_stale (pc : cpc) (d : string) : Prop := match pc with CDocSend d' _ _ => d' = d | _ => False end.
  Notation heap u := (c_heap (u_mem u)).
  Notation cache u := (c_cache (u_mem u)).
  Notation dbuf u := (w_buf (u_dw u)).

  Definition d_flight (w : writer nat) (h : gmap nat (gmap string field)) (pc : cpc) : Prop :=
    match w_pc w with
    | WIter k _ T => exists l m, w_buf w !! k = Some l /\ h !! l = Some m /\ d_enc m T
    | WSave k _ b _ => exists l m T, w_buf w !! k = Some l /\ d_enc m T /\ b = compress T /\ (~ d_stale pc k -> h !! l = Some m)
    | _ => True
    end.
  Record d_up (u : up) (kvs : list (string * nat)) (own : gmap nat string) : Prop := {
    du_R : R (cache u) kvs;
    du_cap : lr_cap (cache u) = cache_size;
    du_own : forall l, is_Some (heap u !! l) <-> is_Some (own !! l);
    du_kvs : forall k l, (k, l) ∈ kvs -> own !! l = Some k;
    du_buf : forall k l, dbuf u !! k = Some l -> own !! l = Some k;
    du_pc : match u_pc u with CDocSend d x l => (d, l) ∈ kvs /\ exists m, heap u !! l = Some m /\ m !! f_name x = Some x | _ => True end;
    du_flight : d_flight (u_dw u) (heap u) (u_pc u) }.

  Lemma d_holds_load s d m : d_holds (doc_file s d) m -> load_doc decompress s d = Some (Some (field32 <$> m)).
  Proof.
    intros (T & (es & Hv & Hs) & E). unfold load_doc. unfold doc_file in E. rewrite E, gz. cbn. by rewrite (C44_fields_round_trip m es T Hv Hs).
  Qed.
  Lemma d_sep k k' : anyk k -> plain_doc k' -> cur_path (d_dir k') (d_name k') <> temp_path (d_dir k) (d_name k) /\
    cur_path (d_dir k') (d_name k') <> old_path (d_dir k) (d_name k) /\ (cur_path (d_dir k') (d_name k') = cur_path (d_dir k) (d_name k) -> k' = k).
  Proof.
    intros _ Hp. destruct (Hp k) as [H1 H2]. unfold cur_path, temp_path, old_path, d_dir, d_name. cbn. split; [|split]; intros E; injection E; done.
  Qed.

  (** A step of the client that leaves cache, heap and the doc writer alone. *)
  Lemma d_up_same u u' kvs own : cache u' = cache u -> heap u' = heap u -> u_dw u' = u_dw u ->
    (match u_pc u' with CDocSend d _ l => False | _ => True end) -> (match u_pc u with CDocSend d _ l => False | _ => True end) -> d_up u kvs own -> d_up u' kvs own.
  Proof.
    intros E1 E2 E3 E4 E5 [H1 H2 H3 H4 H5 H6 H7]. constructor; rewrite ?E1, ?E2, ?E3; try done.
    - by destruct (u_pc u').
    - revert H7. unfold d_flight. destruct (w_pc (u_dw u)); try done. intros (l & m & T & ? & ? & ? & H). exists l, m, T. do 3 (split; [done|]). intros _. apply H. intros Hst. destruct (u_pc u); done.
  Qed.
  Lemma d_up_eq u u' kvs own : cache u' = cache u -> heap u' = heap u -> u_dw u' = u_dw u -> u_pc u' = u_pc u -> d_up u kvs own -> d_up u' kvs own.
  Proof. intros E1 E2 E3 E4 [H1 H2 H3 H4 H5 H6 H7]. constructor; rewrite ?E1, ?E2, ?E3, ?E4; done. Qed.

  Definition keeps_others (u u' : up) (own : gmap nat string) : Prop :=
    forall l d, own !! l = Some d -> (forall x, u_pc u <> CDoc d x) -> heap u' !! l = heap u !! l.
  Lemma d_quick s u ev u' kvs own : d_up u kvs own -> quick decompress s u ev u' ->
    exists kvs' own', d_up u' kvs' own' /\ own ⊆ own' /\ keeps_others u u' own.
  Proof.
    intros HD H. pose proof HD as [H1 H2 H3 H4 H5 H6 H7].
    assert (forall u1, cache u1 = cache u -> heap u1 = heap u -> u_dw u1 = u_dw u -> (match u_pc u1 with CDocSend d _ l => False | _ => True end) -> (match u_pc u with CDocSend d _ l => False | _ => True end) ->
      exists kvs' own', d_up u1 kvs' own' /\ own ⊆ own' /\ keeps_others u u1 own) as HS.
    { intros u1 E1 E2 E3 E4 E5. exists kvs, own. split; [by apply (d_up_same u)|]. split; [done|]. intros l d _ _. by rewrite E2. }
    assert (0 < lr_cap (cache u)) as Hpos by (by rewrite H2).
    inversion H; subst; cbn [u_pc u_mem u_dw] in *.
    - match goal with G : c_step _ _ _ _ |- _ => inversion G; subst end; try (by apply HS).
      + apply HS; try done; cbn; by destruct (c_index m !! f_name x).
      + apply HS; try done; cbn; by destruct full.
      + (* hit *) match goal with G1 : lru_get _ _ = _, G2 : lru_deref _ _ = _ |- _ => destruct (get_hit _ _ _ _ _ _ H1 G1 G2) as (kvs' & R' & C' & M' & I') end.
        exists kvs', own. split; [|split; [done|by intros l0 d0 _ _]]. constructor; cbn [u_pc u_mem u_dw set_cache c_cache c_heap] in *; try done.
        * by rewrite C'.
        * intros k l0 Hk. apply M' in Hk. auto.
      + (* miss *) match goal with G1 : lru_get _ _ = _ |- _ => destruct (get_miss _ _ _ _ H1 G1) as [-> _] end. apply HS; done.
      + (* load *) match goal with G1 : lru_put _ _ ?l0 = _, G2 : load_doc _ _ ?i = _, G3 : c_heap m !! ?l0 = None |- _ => rename G3 into Hfr; destruct (put_R _ _ _ _ _ H1 Hpos G1) as [R' C'] end. rewrite H2 in R', C'.
        assert (own !! l = None) as Hno. { apply eq_None_not_Some. rewrite <- H3, Hfr. by intros [? ?]. }
        exists (aput cache_size kvs id l), (<[l := id]> own). split; [|split].
        * constructor; cbn [u_pc u_mem u_dw set_cache c_cache c_heap] in *; try done.
          -- intros l0. rewrite !lookup_insert_is_Some. rewrite H3. done.
          -- intros k l0 Hk. apply aput_in in Hk as [[= -> ->]|[_ Hk]]; [by rewrite lookup_insert|]. apply H4 in Hk. rewrite lookup_insert_ne; [done|]. congruence.
          -- intros k l0 Hk. apply H5 in Hk. rewrite lookup_insert_ne; [done|]. congruence.
          -- revert H7. unfold d_flight. destruct (w_pc dw); try done.
             ++ intros (l0 & m0 & A1 & A2 & A3). exists l0, m0. split; [done|]. split; [|done]. rewrite lookup_insert_ne; [done|]. intros <-. congruence.
             ++ intros (l0 & m0 & T & A1 & A2 & A3 & A4). exists l0, m0, T. split; [done|]. split; [done|]. split; [done|]. intros _. rewrite lookup_insert_ne; [apply A4; cbn; tauto|]. intros <-. apply H5 in A1. congruence.
        * by apply insert_subseteq.
        * intros l0 d0 Ho _. cbn. rewrite lookup_insert_ne; [done|]. congruence.
    - match goal with G : c_doc _ _ _ |- _ => inversion G; subst end; cbn [u_pc u_mem u_dw set_cache c_cache c_heap] in *.
      + match goal with G1 : lru_get _ _ = _, G2 : lru_deref _ _ = _ |- _ => destruct (get_hit _ _ _ _ _ _ H1 G1 G2) as (kvs1 & R1 & C1 & M1 & I1) end.
        match goal with G1 : lru_put _ _ l = _ |- _ => rewrite <- C1 in Hpos; destruct (put_R _ _ _ _ _ R1 Hpos G1) as [R' C'] end. rewrite C1, H2 in R', C'.
        exists (aput cache_size kvs1 d l), own. split; [|split; [done|]].
        * constructor; cbn [u_pc u_mem u_dw set_cache c_cache c_heap] in *; try done.
          -- intros l0. rewrite lookup_insert_is_Some, H3. split; [|destruct (decide (l = l0)); auto]. intros [<-|[_ ?]]; [|done]. apply H4 in I1. by eexists.
          -- intros k l0 Hk. apply aput_in in Hk as [[= -> ->]|[_ Hk]]; [auto|]. apply M1 in Hk. auto.
          -- split; [apply aput_head|]. eexists. rewrite lookup_insert. split; [done|]. by rewrite lookup_insert.
          -- match goal with G : ~ iterating _ _ |- _ => rename G into Hit end. revert H7 Hit. unfold d_flight, iterating. destruct (w_pc dw) as [| | |k ks T|k ks b pc0]; try done.
             ++ intros (l0 & m0 & A1 & A2 & A3) Hit. exists l0, m0. split; [done|]. split; [|done]. rewrite lookup_insert_ne; [done|]. intros <-. apply Hit. exists k, ks, T. done.
             ++ intros (l0 & m0 & T & A1 & A2 & A3 & A4) _. exists l0, m0, T. split; [done|]. split; [done|]. split; [done|]. cbn [d_stale]. intros Hst.
                rewrite lookup_insert_ne; [apply A4; cbn; tauto|]. intros <-. apply Hst. apply H5 in A1. apply H4 in I1. congruence.
        * intros l0 d0 Ho Hn. cbn. rewrite lookup_insert_ne; [done|]. intros <-. apply H4 in I1. rewrite I1 in Ho. injection Ho as <-. by apply (Hn x).
      + match goal with G1 : lru_get _ _ = _ |- _ => destruct (get_miss _ _ _ _ H1 G1) as [-> Hni] end.
        match goal with G1 : lru_put _ _ l = _ |- _ => destruct (put_R _ _ _ _ _ H1 Hpos G1) as [R' C'] end. rewrite H2 in R', C'.
        match goal with G3 : c_heap m !! l = None |- _ => rename G3 into Hfr end.
        assert (own !! l = None) as Hno. { apply eq_None_not_Some. rewrite <- H3, Hfr. by intros [? ?]. }
        exists (aput cache_size kvs d l), (<[l := d]> own). split; [|split].
        * constructor; cbn [u_pc u_mem u_dw set_cache c_cache c_heap] in *; try done.
          -- intros l0. rewrite !lookup_insert_is_Some. rewrite H3. done.
          -- intros k l0 Hk. apply aput_in in Hk as [[= -> ->]|[_ Hk]]; [by rewrite lookup_insert|]. apply H4 in Hk. rewrite lookup_insert_ne; [done|]. congruence.
          -- intros k l0 Hk. apply H5 in Hk. rewrite lookup_insert_ne; [done|]. congruence.
          -- split; [apply aput_head|]. eexists. rewrite lookup_insert. split; [done|]. by rewrite lookup_singleton.
          -- revert H7. unfold d_flight. destruct (w_pc dw); try done.
             ++ intros (l0 & m0 & A1 & A2 & A3). exists l0, m0. split; [done|]. split; [|done]. rewrite lookup_insert_ne; [done|]. intros <-. congruence.
             ++ intros (l0 & m0 & T & A1 & A2 & A3 & A4). exists l0, m0, T. split; [done|]. split; [done|]. split; [done|]. intros _. rewrite lookup_insert_ne; [apply A4; cbn; tauto|]. intros <-. apply H5 in A1. congruence.
        * by apply insert_subseteq.
        * intros l0 d0 Ho _. cbn. rewrite lookup_insert_ne; [done|]. congruence.
    - by apply HS.
    - by apply HS.
    - exists kvs, own. split; [by apply (d_up_eq (mkUp m pc (p :: ich) mw nw dw (mkI ib IIdle) mg))|]. split; [done|]. by intros ? ? _ _.
    - by apply HS.
    - exists kvs, own. split; [|split; [done|by intros ? ? _ _]]. constructor; cbn [u_pc u_mem u_dw w_buf w_pc] in *; try done.
      intros k l0. unfold d_recv. intros Hk. apply lookup_insert_Some in Hk as [[<- <-]|[_ Hk]]; [|auto]. destruct H6. auto.
    - exists kvs, own. split; [by apply (d_up_eq (mkUp m pc ich mw nw dw iw (mkM acc (MFields []))))|]. split; [done|]. by intros ? ? _ _.
  Qed.
  Lemma d_run s s' u u' ev kvs own : d_up u kvs own -> runs compress decompress WhoD u s ev u' s' -> d_up u' kvs own.
  Proof.
    intros [H1 H2 H3 H4 H5 H6 H7] (Hs & Hu & _). rewrite Hu. destruct u as [m pc ich mw nw dw iw mg]. destruct u' as [m' pc' ich' mw' nw' dw' iw' mg']. cbn in Hs. clear Hu.
    constructor; cbn [u_pc u_mem u_dw] in *; try done.
    - inversion Hs; subst; cbn [w_buf] in *; try done. intros k0 l0 Hk. apply lookup_delete_Some in Hk as [_ Hk]. auto.
    - inversion Hs; subst; cbn [w_buf w_pc d_flight] in *; try done.
      + match goal with G : d_ser _ _ _ _ |- _ => destruct G as (m0 & es & A1 & A2 & A3) end. exists v, m0. split; [done|]. split; [done|]. by exists es.
      + destruct H7 as (l & m0 & A1 & A2 & A3). exists l, m0, T. auto.
  Qed.
  (** * The files *)
  Lemma d_valid_keeps s s' : keeps OD s s' -> d_valid s -> d_valid s'.
  Proof. intros K H d Hd Hs. unfold doc_file in *. rewrite (K ["docs"; "metrics"; d]) in * by apply owner_d. by apply H. Qed.
  Lemma d_cases s s' u u' ev d : layout s -> up_wf u s -> runs compress decompress WhoD u s ev u' s' -> plain_doc d ->
    (doc_file s' d = doc_file s d /\ dbuf u' !! d = dbuf u !! d) \/
    (exists ks b pc, w_pc (u_dw u) = WSave d ks b pc /\ is_Some (dbuf u !! d) /\ dbuf u' !! d = dbuf u !! d /\
       (doc_file s' d = None \/ doc_file s' d = Some (Whole b))) \/
    (exists ks b, w_pc (u_dw u) = WSave d ks b SSOk /\ s' = s /\ doc_file s d = Some (Whole b) /\ is_Some (dbuf u !! d) /\ dbuf u' !! d = None).
  Proof.
    intros Hl Hw (Hs & _) Hd. destruct (w_cases compress d_dir d_name _ OD anyk plain_doc d_dir_ok d_own d_sep _ _ _ _ d Hl (wf_dw _ _ Hw) Hs Hd) as [H|[H|(ks & b & E1 & _ & E2)]]; [by left|by right; left|].
    right. right. exists ks, b. done.
  Qed.
  Lemma d_valid_run s s' u u' ev kvs own : layout s -> up_wf u s -> d_up u kvs own -> d_valid s -> runs compress decompress WhoD u s ev u' s' -> d_valid s'.
  Proof.
    intros Hl Hw HD Hv Hr d Hd Hf. destruct (d_cases _ _ _ _ _ d Hl Hw Hr Hd) as [(E & _)|[(ks & b & pc & E1 & E2 & E3 & E4)|(ks & b & E1 & -> & _)]].
    - rewrite E in *. by apply Hv.
    - pose proof (du_flight _ _ _ HD) as H7. unfold d_flight in H7. rewrite E1 in H7. destruct H7 as (l & m & T & A1 & A2 & -> & _).
      destruct E4 as [E4|E4]; rewrite E4 in *; [by destruct Hf|]. exists m, T. done.
    - by apply Hv.
  Qed.
  Definition d_link (u : up) (s : fs) (d : string) (l : nat) (m : gmap string field) : Prop :=
    match dbuf u !! d with Some l' => l' = l | None => d_holds (doc_file s d) m end.
  Lemma d_link_run s s' u u' ev kvs own d l m : layout s -> up_wf u s -> d_up u kvs own -> runs compress decompress WhoD u s ev u' s' -> plain_doc d ->
    heap u !! l = Some m -> ~ d_stale (u_pc u) d -> d_link u s d l m -> d_link u' s' d l m.
  Proof.
    intros Hl Hw HD Hr Hd Hm Hst HL. unfold d_link in *. destruct (d_cases _ _ _ _ _ d Hl Hw Hr Hd) as [(E1 & E2)|[(ks & b & pc & E1 & [l' E2] & E3 & E4)|(ks & b & E1 & -> & E2 & [l' E3] & E4)]].
    - by rewrite E2, E1.
    - rewrite E3, E2. by rewrite E2 in HL.
    - rewrite E4. rewrite E3 in HL. subst l'. pose proof (du_flight _ _ _ HD) as H7. unfold d_flight in H7. rewrite E1 in H7. destruct H7 as (l' & m' & T & A1 & A2 & -> & A4).
      rewrite E3 in A1. injection A1 as <-. specialize (A4 Hst). rewrite Hm in A4. injection A4 as <-. exists T. done.
  Qed.
  Lemma d_link_keeps s s' u u' d l m : keeps OD s s' -> dbuf u' = dbuf u -> d_link u s d l m -> d_link u' s' d l m.
  Proof. intros K E. unfold d_link, doc_file. rewrite E. rewrite (K ["docs"; "metrics"; d]) by apply owner_d. done. Qed.

  (** * All reachable states *)
  Definition d_inv (y : sys) : Prop := d_valid (y_fs y) /\ match y_proc y with Up u => exists kvs own, d_up u kvs own | _ => True end.
  Lemma opened_d s acc u : opened decompress cache_size s acc u -> d_up u [] ∅.
  Proof.
    intros H. inversion H; subst. constructor; cbn; try done.
    - apply R_new.
    - intros l. rewrite !lookup_empty. split; by intros [? ?].
    - by intros k l ?%elem_of_nil.
  Qed.
  Lemma d_tick u s u' s' kvs own : d_up u kvs own -> up_tick (u, s) (u', s') -> d_up u' kvs own /\ s' = s /\ heap u' = heap u /\ dbuf u' = dbuf u /\ u_pc u' = u_pc u.
  Proof.
    intros HD H. pose proof HD as [H1 H2 H3 H4 H5 H6 H7]. inversion H; subst; cbn [u_pc u_mem u_dw] in *; (split; [|done || (match goal with G : w_tick _ _ |- _ => by inversion G end)]).
    - eapply d_up_eq; [..|exact HD]; done.
    - eapply d_up_eq; [..|exact HD]; done.
    - match goal with G : w_tick _ _ |- _ => inversion G; subst end. constructor; cbn [u_pc u_mem u_dw w_buf w_pc] in *; done.
    - eapply d_up_eq; [..|exact HD]; done.
    - eapply d_up_eq; [..|exact HD]; done.
  Qed.
  Lemma d_call u ev u' kvs own : d_up u kvs own -> up_call u ev u' -> d_up u' kvs own /\ u_mem u' = u_mem u /\ u_dw u' = u_dw u /\ u_pc u = CIdle /\ ~ (exists d, d_stale (u_pc u') d).
  Proof.
    intros HD H. inversion H; subst; (split; [by eapply d_up_same; [..|exact HD]|]); do 3 (split; [done|]); by intros [? ?].
  Qed.
  (** A step of the running process: the invariant, what is kept, the doc writer's part. *)
  Lemma d_step u s ev u' s' kvs own : layout s -> up_wf u s -> d_valid s -> d_up u kvs own -> up_step compress decompress (u, s) ev (u', s') ->
    d_valid s' /\ exists kvs' own', d_up u' kvs' own' /\ own ⊆ own' /\ keeps_others u u' own.
  Proof.
    intros Hl Hw Hv HD H. destruct (up_step_who _ _ _ _ _ _ _ Hl Hw H) as [[-> Hq]|[Hq|[Hq|[Hq|[Hq|Hq]]]]].
    - split; [done|]. by eapply d_quick.
    - destruct Hq as (_ & E & _ & K & _). split; [by eapply d_valid_keeps|]. exists kvs, own. split; [|split; [done|]]; [|intros ? ? _ _; by rewrite E]. apply (d_up_eq u); [by rewrite E|by rewrite E|by rewrite E|by rewrite E|done].
    - destruct Hq as (_ & E & _ & K & _). split; [by eapply d_valid_keeps|]. exists kvs, own. split; [|split; [done|]]; [|intros ? ? _ _; by rewrite E]. apply (d_up_eq u); [by rewrite E|by rewrite E|by rewrite E|by rewrite E|done].
    - split; [by eapply d_valid_run|]. exists kvs, own. split; [by eapply d_run|]. split; [done|]. destruct Hq as (_ & E & _). intros ? ? _ _. by rewrite E.
    - destruct Hq as (_ & E & _ & _ & K & _). split; [by eapply d_valid_keeps|]. exists kvs, own. split; [|split; [done|]]; [|intros ? ? _ _; by rewrite E]. apply (d_up_eq u); [by rewrite E|by rewrite E|by rewrite E|by rewrite E|done].
    - destruct Hq as (_ & E & _ & _ & K & _). split; [by eapply d_valid_keeps|]. exists kvs, own. split; [|split; [done|]]; [|intros ? ? _ _; by rewrite E]. apply (d_up_eq u); [by rewrite E|by rewrite E|by rewrite E|by rewrite E|done].
  Qed.
  Lemma d_inv_step a b : base a -> d_inv a -> sys_step compress decompress cache_size a b -> d_inv b.
  Proof.
    intros [Bl Bp] [Hv Hu] [H|H]; inversion H; subst; cbn [y_fs y_proc] in *.
    - split; [|done]. match goal with G : mkdir_all _ _ = _ |- _ => destruct (mkdir_effect _ [] _ Bl eq_refl (Nat.le_0_l 2) G) as (_ & E & _) end. refine (d_valid_keeps _ _ _ Hv). intros p _. cbn. by rewrite E.
    - split; [|done]. destruct Bp as [_ Bp]. match goal with G : g_step _ _ _ _ |- _ => destruct (g_step_base _ _ _ _ _ _ Bl Bp G) as (_ & _ & _ & E) end. refine (d_valid_keeps _ _ _ Hv). intros p Hp. cbn. apply E; by rewrite Hp.
    - split; [done|]. cbn. exists [], ∅. by eapply opened_d.
    - destruct Bp as [_ Bp]. destruct Hu as (kvs & own & Hu). match goal with G : up_step _ _ _ _ _ |- _ => destruct (d_step _ _ _ _ _ _ _ Bl Bp Hv Hu G) as (V & kvs' & own' & D & _) end. split; [done|]. cbn. eauto.
    - destruct Hu as (kvs & own & Hu). match goal with G : up_tick _ _ |- _ => destruct (d_tick _ _ _ _ _ _ Hu G) as (D & -> & _) end. split; [done|]. cbn. eauto.
    - destruct Hu as (kvs & own & Hu). match goal with G : up_call _ _ _ |- _ => destruct (d_call _ _ _ _ _ Hu G) as (D & _) end. split; [done|]. cbn. eauto.
    - split; done.
  Qed.
  Lemma d_reach y : reach y -> good_log (y_log y) -> base y /\ d_inv y.
  Proof.
    apply (reach_ind compress decompress cache_size d_inv).
    - split; [|done]. intros d _ [c Hc]. unfold doc_file in Hc. cbn in Hc. by rewrite lookup_empty in Hc.
    - intros a b _ Ba _ _ Ia Hab. by eapply d_inv_step.
  Qed.

  (** * One document during a session in which it is not saved again *)
  Definition busy (pc : cpc) (d : string) : Prop := exists x, Save d x ∈ pending pc.
  Definition d_track (d : string) (l : nat) (m : gmap string field) (u : up) (s : fs) : Prop :=
    exists kvs own, d_up u kvs own /\ own !! l = Some d /\ heap u !! l = Some m /\ ((exists x, u_pc u = CDocSend d x l) \/ (~ busy (u_pc u) d /\ d_link u s d l m)).
  Lemma busy_stale pc d : d_stale pc d -> busy pc d.
  Proof. destruct pc; try done. cbn. intros ->. exists x. left. Qed.
  Lemma track_link u s d l m : d_track d l m u s -> ~ busy (u_pc u) d -> d_link u s d l m.
  Proof. intros (kvs & own & _ & _ & _ & [[x E]|[_ H]]) Hb; [|done]. exfalso. apply Hb. rewrite E. exists x. left. Qed.
  (** What a quick step does to the document writer's buffer. *)
  Lemma quick_dbuf s u ev u' : quick decompress s u ev u' ->
    (dbuf u' = dbuf u /\ (forall d, busy (u_pc u') d -> busy (u_pc u) d) /\ ~ (exists d x l, u_pc u = CDocSend d x l /\ u_pc u' = CIdle)) \/
    (exists d x l, u_pc u = CDocSend d x l /\ u_pc u' = CIdle /\ w_pc (u_dw u) = WIdle /\ dbuf u' = <[d := l]> (dbuf u) /\ u_mem u' = u_mem u /\ w_pc (u_dw u') = WIdle).
  Proof.
    intros H. inversion H; subst; cbn [u_pc u_dw w_buf w_pc u_mem];
      try (left; split; [done|]; split; [intros d0; cbn; auto|]; intros (? & ? & ? & ? & ?); done).
    - left. split; [done|]. match goal with G : c_step _ _ _ _ |- _ => inversion G; subst end; (split; [|intros (? & ? & ? & ? & ?); done]); intros d0; unfold busy; cbn; try done. destruct full; [done|]. cbn. intros [x0 Hx]. by apply elem_of_nil in Hx.
    - left. split; [done|]. match goal with G : c_doc _ _ _ |- _ => inversion G; subst end; (split; [|intros (? & ? & ? & ? & ?); done]); intros d0; unfold busy; cbn; done.
    - left. split; [done|]. split; [auto|]. intros (? & ? & ? & E1 & E2). congruence.
    - right. exists d, x, l. done.
    - left. split; [done|]. split; [auto|]. intros (? & ? & ? & E1 & E2). congruence.
  Qed.
  Lemma d_track_step u s ev u' s' d l m : plain_doc d -> layout s -> up_wf u s -> d_valid s -> d_track d l m u s -> up_step compress decompress (u, s) ev (u', s') -> d_track d l m u' s'.
  Proof.
    intros Hd Hl Hw Hv (kvs & own & HD & Ho & Hm & Hc) H.
    destruct (d_step _ _ _ _ _ _ _ Hl Hw Hv HD H) as (Hv' & kvs' & own' & HD' & Hsub & Hk).
    assert (forall x, u_pc u <> CDoc d x) as Hnd. { intros x E. rewrite E in Hc. destruct Hc as [[? ?]|[Hb _]]; [done|]. apply Hb. exists x. left. }
    exists kvs', own'. split; [done|]. split; [by eapply lookup_weaken|]. split; [by rewrite (Hk l d Ho Hnd)|].
    assert (u_pc u' = u_pc u -> dbuf u' = dbuf u -> keeps OD s s' -> (exists x, u_pc u' = CDocSend d x l) \/ (~ busy (u_pc u') d /\ d_link u' s' d l m)) as HF.
    { intros E1 E2 E3. rewrite E1. destruct Hc as [?|[Hb HL]]; [by left|right]. split; [done|]. by apply (d_link_keeps s s' u u'). }
    destruct (up_step_who _ _ _ _ _ _ _ Hl Hw H) as [[-> Hq]|[Hq|[Hq|[Hq|[Hq|Hq]]]]].
    - destruct (quick_dbuf _ _ _ _ Hq) as [(E1 & E2 & P0)|(d0 & x0 & l0 & P1 & P2 & P3 & P4 & P5 & P6)].
      + destruct Hc as [[x E]|[Hb HL]].
        * left. exists x. inversion Hq; subst; cbn [u_pc u_dw w_buf] in *; try done; subst.
          -- match goal with G : c_step _ _ _ _ |- _ => inversion G end.
          -- match goal with G : c_doc _ _ _ |- _ => inversion G end.
          -- exfalso. apply P0. by exists d, x, l.
        * right. split; [auto|]. by apply (d_link_keeps s s u u'); [apply keeps_refl| |].
      + rewrite P2. right. split; [intros [? Hx]; by apply elem_of_nil in Hx|]. unfold d_link. rewrite P4. destruct (decide (d0 = d)) as [->|Hne].
        * rewrite lookup_insert. destruct Hc as [[x E]|[Hb HL]]; [congruence|]. exfalso. apply Hb. rewrite P1. exists x0. left.
        * rewrite lookup_insert_ne by done. destruct Hc as [[x E]|[Hb HL]]; [congruence|]. exact HL.
    - destruct Hq as (_ & E & _ & K & _). apply HF; [by rewrite E|by rewrite E|exact K].
    - destruct Hq as (_ & E & _ & K & _). apply HF; [by rewrite E|by rewrite E|exact K].
    - assert (u_pc u' = u_pc u) as E by (destruct Hq as (_ & E & _); by rewrite E). rewrite E. destruct Hc as [?|[Hb HL]]; [by left|right]. split; [done|].
      apply (d_link_run s s' u u' ev kvs own); try done. intros Hst. by apply Hb, busy_stale.
    - destruct Hq as (_ & E & _ & _ & K & _). apply HF; [by rewrite E|by rewrite E|exact K].
    - destruct Hq as (_ & E & _ & _ & K & _). apply HF; [by rewrite E|by rewrite E|exact K].
  Qed.
  Lemma d_track_tick u s u' s' d l m : d_track d l m u s -> up_tick (u, s) (u', s') -> d_track d l m u' s'.
  Proof.
    intros (kvs & own & HD & Ho & Hm & Hc) H. destruct (d_tick _ _ _ _ _ _ HD H) as (D & -> & E1 & E2 & E3). exists kvs, own. rewrite E1, E3. split; [done|]. split; [done|]. split; [done|].
    destruct Hc as [?|[? HL]]; [by left|right]. split; [done|]. unfold d_link in *. by rewrite E2.
  Qed.
  Lemma d_track_call u s ev u' d l m : d_track d l m u s -> up_call u ev u' -> (forall x, Save d x ∉ calls_of ev) -> d_track d l m u' s.
  Proof.
    intros (kvs & own & HD & Ho & Hm & Hc) H Hn. destruct (d_call _ _ _ _ _ HD H) as (D & E1 & E2 & E3 & _). exists kvs, own. rewrite E1. split; [done|]. split; [done|]. split; [done|].
    right. rewrite E3 in Hc. destruct Hc as [[x E]|[_ HL]]; [done|]. split; [|unfold d_link in *; by rewrite E2].
    intros [x Hx]. inversion H; subst; cbn in Hx; [| |by apply elem_of_nil in Hx]; apply elem_of_list_singleton in Hx; [|done]. injection Hx as <- <-. apply (Hn x). left.
  Qed.
  (** [P] holds along a session if every step of the running process preserves it. *)
  Lemma session_ind_up (P : up -> fs -> Prop) (ok : call -> Prop) a ev b u0 :
    (forall u s ev u' s', layout s -> up_wf u s -> d_valid s -> P u s -> up_step compress decompress (u, s) ev (u', s') -> P u' s') ->
    (forall u s u' s', P u s -> up_tick (u, s) (u', s') -> P u' s') ->
    (forall u s ev u', P u s -> up_call u ev u' -> (forall c, c ∈ calls_of ev -> ok c) -> P u' s) ->
    reach a -> y_proc a = Up u0 -> P u0 (y_fs a) -> session compress decompress cache_size a ev b -> (forall c, c ∈ calls_of ev -> ok c) -> good_log (y_log b) ->
    reach b /\ exists u, y_proc b = Up u /\ P u (y_fs b).
  Proof.
    intros S1 S2 S3 Hr Ha H0. induction 1 as [a|a ev b ev' c Hs IH H Hlog].
    - intros _ _. split; [done|]. by exists u0.
    - rewrite calls_app. intros Hok Hg. assert (good_log (y_log b)) as Gb. { rewrite Hlog in Hg. by apply good_app in Hg as [? _]. }
      destruct (IH Hr Ha H0) as (Rb & u & Hb & Hp); [intros c0 Hc; apply Hok, elem_of_app; by left|done|].
      assert (reach c) as Rc by (eapply rtc_r; [exact Rb|by left]). split; [done|]. destruct (d_reach _ Rb Gb) as ([Bl Bp] & Hv & _).
      inversion H; subst; cbn [y_fs y_proc y_log] in *; try discriminate Hb; injection Hb as ->; eexists; (split; [reflexivity|]).
      + destruct Bp as [_ Bp]. by eapply S1.
      + by eapply S2.
      + apply app_inv_head in Hlog. subst ev'. eapply S3; [exact Hp|done|]. intros c0 Hc. apply Hok, elem_of_app. by right.
  Qed.
  Lemma d_track_session a ev b u0 d l m : plain_doc d -> reach a -> y_proc a = Up u0 -> d_track d l m u0 (y_fs a) -> session compress decompress cache_size a ev b ->
    (forall x, Save d x ∉ calls_of ev) -> good_log (y_log b) -> reach b /\ exists u, y_proc b = Up u /\ d_track d l m u (y_fs b).
  Proof.
    intros Hd Hr Ha H0 Hs Hn Hg. apply (session_ind_up (d_track d l m) (fun c => forall x, c <> Save d x) a ev b u0); try done.
    - intros. by eapply d_track_step.
    - intros. by eapply d_track_tick.
    - intros u s ev0 u' Ht Hc Hok. eapply d_track_call; [done|done|]. intros x Hx. by apply (Hok _ Hx x).
    - intros c Hc x ->. by apply (Hn x).
  Qed.
  Lemma d_track_start u s kvs own d x l m : d_up u kvs own -> u_pc u = CDocSend d x l -> heap u !! l = Some m -> d_track d l m u s.
  Proof.
    intros HD Hp Hm. exists kvs, own. split; [done|]. pose proof (du_pc _ _ _ HD) as H6. rewrite Hp in H6. destruct H6 as [H6 _]. split; [by apply (du_kvs _ _ _ HD)|]. split; [done|]. left. by exists x.
  Qed.
  (** A document that is not in the cache when it is saved. *)
  Definition d_pre (d : string) (x : field) (u : up) (s : fs) : Prop :=
    (u_pc u = CDoc d x /\ lr_table (cache u) !! d = None /\ exists kvs own, d_up u kvs own) \/ exists l, d_track d l {[f_name x := x]} u s.
  Lemma d_pre_step u s ev u' s' d x : plain_doc d -> layout s -> up_wf u s -> d_valid s -> d_pre d x u s -> up_step compress decompress (u, s) ev (u', s') -> d_pre d x u' s'.
  Proof.
    intros Hd Hl Hw Hv [(Hp & Ht & kvs & own & HD)|[l Hl0]] H; [|right; exists l; by eapply d_track_step].
    destruct (d_step _ _ _ _ _ _ _ Hl Hw Hv HD H) as (_ & kvs' & own' & HD' & _).
    inversion H; subst; cbn [u_pc u_mem] in *; subst; try discriminate Hp; try (left; split; [done|]; split; [done|]; (by exists kvs', own')).
    - match goal with G : c_step _ _ _ _ |- _ => inversion G end.
    - match goal with G : c_doc _ _ _ |- _ => inversion G; subst end.
      + match goal with G : lru_get _ _ = _ |- _ => unfold lru_get in G; rewrite Ht in G; discriminate G end.
      + right. exists l. apply (d_track_start _ _ kvs' own' d x l); [done|done|]. cbn. by rewrite lookup_insert.
  Qed.
  Lemma d_pre_session a ev b u0 d x : plain_doc d -> reach a -> good_log (y_log b) -> y_proc a = Up u0 -> u_pc u0 = CDoc d x -> lr_table (cache u0) !! d = None ->
    session compress decompress cache_size a ev b -> (forall x, Save d x ∉ calls_of ev) -> reach b /\ exists u, y_proc b = Up u /\ d_pre d x u (y_fs b).
  Proof.
    intros Hd Hr Hg Ha Hp Ht Hs Hn. assert (good_log (y_log a)) as Ga.
    { clear - Hs Hg. induction Hs as [|a ev b ev' c Hs IH H Hlog]; [done|]. apply IH. rewrite Hlog in Hg. by apply good_app in Hg as [? _]. }
    destruct (d_reach a Hr Ga) as (_ & _ & HD). rewrite Ha in HD.
    apply (session_ind_up (d_pre d x) (fun c => forall x, c <> Save d x) a ev b u0); try done.
    - intros. by eapply d_pre_step.
    - intros u s u' s' [(A1 & A2 & kvs & own & A3)|[l A]] H.
      + destruct (d_tick _ _ _ _ _ _ A3 H) as (D & -> & _ & _ & E3). left. rewrite E3. split; [done|]. split; [|by exists kvs, own]. by inversion H; subst.
      + right. exists l. by eapply d_track_tick.
    - intros u s ev0 u' [(A1 & _)|[l A]] Hc Hok.
      + inversion Hc; subst; discriminate A1.
      + right. exists l. eapply d_track_call; [done|done|]. intros y Hy. by apply (Hok _ Hy y).
    - by left.
    - intros c Hc y ->. by apply (Hn y).
  Qed.
End docs.
