(** Searches that run on the disk storage while the client saves (C64): a saved document
    stays in the cache and is found. *)
From Verif Require Import Base M_Field M_LRU S_Visits M_Memory M_File M_Serialize M_Num M_FanIn M_Search M_SearchConc M_Disk P_Base P_LRU P_FanIn2 P_SearchConc P_DiskBase P_DiskInv P_DiskMem P_DiskWriter P_DiskDocs P_DiskBusy P_DiskBusy2 P_DiskBusy3 P_DiskBusy4 P_DiskBusy5 P_DiskBusy6 M_DiskBusy S_Disk.
#[local] Open Scope nat_scope.
#[local] Opaque serialize_metrics serialize_nft serialize_field_map serialize_index deserialize_index deserialize_nft deserialize_field_map deserialize_metrics.

Section find.
  Variables (d : string).
  (** What a goroutine that will still report the document looks like. *)
  Definition pendt (m : cmem) (f : string) (p : bterm) : Prop :=
    match p with
    | BTerm t | BField t | BSet t => listed m f t d
    | BRange _ must sent => d ∈ must /\ d ∉ sent
    | BId _ must sent id => id = d \/ (d ∈ must /\ d ∉ sent)
    | BEnd => False
    end.
  Definition has_doc (m : gmap string field) : Prop := is_Some (m !! d).
  Definition pendb (p : bbatch) : Prop :=
    match p with
    | BDocs ids acc => d ∈ ids \/ has_doc acc
    | BPtr id _ ids acc | BMap id _ ids acc => id = d \/ d ∈ ids \/ has_doc acc
    | BLoad _ ids acc | BPut _ _ ids acc => d ∈ ids \/ has_doc acc
    | BOut kxs => d ∈ kxs.*1
    end.
  Lemma pendt_step f m p p' : bterm_step f m p p' -> pendt m f p -> pendt m f p'.
  Proof.
    intros H P. inversion H; subst; cbn in *; try done.
    - unfold listed, listed_set in P. match goal with G : c_index m !! f = None |- _ => rewrite G in P end. cbn in P. rewrite lookup_empty in P. cbn in P. rewrite lookup_empty in P. by destruct P.
    - unfold listed, listed_set in P. match goal with G : _ !! t = None |- _ => rewrite G in P end. cbn in P. rewrite lookup_empty in P. by destruct P.
    - split; [|by apply not_elem_of_nil]. by apply elem_of_dom.
    - auto.
    - destruct P as [P1 P2]. apply P2. apply (elem_of_list_to_set (C := gset string)). match goal with G : must ⊆ _ |- _ => by apply G end.
  Qed.
  Lemma pendt_send m f p y p' : bterm_send p y p' -> pendt m f p -> y = d \/ pendt m f p'.
  Proof.
    intros H P. inversion H; subst. cbn in *. destruct P as [->|[P1 P2]]; [by left|]. destruct (decide (y = d)) as [->|Hn]; [by left|right]. split; [done|]. intros [?|Hin]%elem_of_app; [done|]. apply elem_of_list_singleton in Hin. done.
  Qed.
  Lemma pendt_grows m m' f p : grows m m' -> pendt m f p -> pendt m' f p.
  Proof. intros Hg. destruct p; cbn; try done; apply Hg. Qed.
  Lemma pendb_send p y p' : bbatch_send p y p' -> pendb p -> has_doc y \/ pendb p'.
  Proof.
    intros H P. inversion H; subst. cbn in *. apply elem_of_cons in P as [P|P]; [left|by right]. unfold has_doc. rewrite P, lookup_singleton. by eexists.
  Qed.
  Lemma has_add f id fd acc : has_doc acc -> has_doc (add_field f id fd acc).
  Proof. unfold has_doc, add_field. destruct (fd !! f); [|done]. intros H. apply lookup_insert_is_Some. destruct (decide (id = d)); auto. Qed.
  Definition qfind {N} (m : cmem) (f : string) (q : dsearch N) : Prop :=
    match q with
    | SIds _ _ _ w => coming (pendt m f) (fun id => id = d) w
    | SFields _ _ _ w => coming pendb has_doc w
    | SRet r => has_doc (sr_docs r)
    | _ => True
    end.
  Lemma qfind_grows {N} m m' f (q : dsearch N) : grows m m' -> qfind m f q -> qfind m' f q.
  Proof. intros Hg. destruct q; try done. cbn. apply coming_impl. intros p. by apply pendt_grows. Qed.
End find.

Section keep.
  Variables (compress : bytes -> bytes) (decompress : bytes -> option bytes) (cache_size : Z) (N : numops) (ncpu : nat).
  Hypothesis gz : gzip_ok compress decompress.
  Hypothesis pos : (0 < cache_size)%Z.
  Variables (d : string) (x : field) (D : gset string).
  Hypothesis Hroom : (Z.of_nat (size D) <= cache_size)%Z.
  Notation f := (f_name x).
  (** The field, or one saved since. *)
  Definition since (ev : list event) (y : field) : Prop := y = x \/ (Save d y ∈ calls_of ev /\ f_name y = f).
  Definition held (m : cmem) (e l : nat) (ev : list event) : Prop :=
    lr_table (c_cache m) !! d = Some e /\ lr_page (c_cache m) !! e = Some (d, l) /\ exists fd y, c_heap m !! l = Some fd /\ fd !! f = Some y /\ since ev y.
  Notation room := (fun k => k ∈ D).
  Lemma since_app ev ev' y : since ev y -> since (ev ++ ev') y.
  Proof. intros [?|[H1 H2]]; [by left|right]. split; [|done]. rewrite calls_app. apply elem_of_app. by left. Qed.
  Lemma held_app m m' e l ev ev' : c_cache m' = c_cache m -> c_heap m' = c_heap m -> held m e l ev -> held m' e l (ev ++ ev').
  Proof. intros E1 E2 (H1 & H2 & fd & y & H3 & H4 & H5). unfold held. rewrite E1, E2. split; [done|]. split; [done|]. exists fd, y. eauto using since_app. Qed.
  Lemma held_get m e l ev k c' r : lru_get (c_cache m) k = Some (c', r) -> held m e l ev -> held (set_cache m c' (c_heap m)) e l ev.
  Proof. intros Hg (H1 & H2 & H3). destruct (get_keeps _ _ _ _ Hg) as (E1 & E2 & _ & _). unfold held. cbn. by rewrite E1, E2. Qed.
  Lemma held_put m e l ev k l' c' : cache_ok cache_size room (c_cache m) -> k ∈ D -> k <> d -> lru_put (c_cache m) k l' = Some c' -> held m e l ev -> held (set_cache m c' (c_heap m)) e l ev.
  Proof.
    intros Hc Hk Hn Hp (H1 & H2 & H3). split; [|split; [|done]]; cbn.
    - by eapply cache_keep.
    - pose proof Hc as (kvs & HR & _). destruct (put_fresh _ _ _ _ _ HR Hp e _ H2) as (v' & E & [->|(E2 & _)]); [done|]. cbn in E2. congruence.
  Qed.
  Lemma held_put_doc m e l ev c' : lru_put (c_cache m) d l = Some c' -> held m e l ev -> held (set_cache m c' (c_heap m)) e l ev.
  Proof.
    intros Hp (H1 & H2 & H3). destruct (put_effect _ _ _ _ Hp) as [(e0 & k' & v' & T1 & P1 & E1 & E2)|(T1 & _)]; [|congruence]. rewrite H1 in T1. injection T1 as <-. rewrite H2 in P1. injection P1 as <- <-.
    split; [cbn; by rewrite E2|]. split; [cbn; rewrite E1; by rewrite lookup_insert|done].
  Qed.
  Lemma held_alloc m e l ev l' fd : c_heap m !! l' = None -> held m e l ev -> held (set_cache m (c_cache m) (<[l' := fd]> (c_heap m))) e l ev.
  Proof. intros Hf (H1 & H2 & fd0 & y & H3 & H4). split; [done|]. split; [done|]. exists fd0, y. split; [|done]. cbn. rewrite lookup_insert_ne; [done|congruence]. Qed.
  Lemma held_write m e l ev l' fd z : c_heap m !! l' = Some fd -> (l' = l -> Save d z ∈ calls_of ev) -> held m e l ev -> held (set_cache m (c_cache m) (<[l' := <[f_name z := z]> fd]> (c_heap m))) e l ev.
  Proof.
    intros Hf Hz (H1 & H2 & fd0 & y & H3 & H4 & H5). split; [done|]. split; [done|]. cbn. destruct (decide (l' = l)) as [->|Hn]; [|exists fd0, y; by rewrite lookup_insert_ne].
    rewrite Hf in H3. injection H3 as <-. eexists. destruct (decide (f_name z = f)) as [E|E].
    - exists z. rewrite lookup_insert. split; [done|]. rewrite E, lookup_insert. split; [done|]. right. auto.
    - exists y. rewrite lookup_insert. split; [done|]. by rewrite lookup_insert_ne.
  Qed.
  (** What a search holds of the document, whatever the values it has collected ([V]). *)
  Definition penv (e l : nat) (V : string -> field -> Prop) : benv :=
    mkEnv (fun _ => True) (fun id e' => id = d -> e' = e) (fun id l' => id = d -> l' = l) (fun id => id <> d) (fun id _ => id <> d) V.
  (** What a search that started later holds. *)
  Definition later (ev : list event) (f' : string) (id : string) (y : field) : Prop := id = d -> f' = f -> since ev y.
  Lemma penv_le e l (V V' : string -> field -> Prop) : (forall id y, V id y -> V' id y) -> env_le (penv e l V) (penv e l V').
  Proof. intros H. repeat split; cbn; try done. Qed.
  Lemma later_app ev ev' f' id y : later ev f' id y -> later (ev ++ ev') f' id y.
  Proof. intros H E1 E2. apply since_app. auto. Qed.
  Lemma batch_keeps f' s m m' e l ev (V : string -> field -> Prop) p p' : (forall fd z, c_heap m !! l = Some fd -> fd !! f' = Some z -> V d z) -> (forall id z, id <> d -> V id z) -> held m e l ev -> cache_ok cache_size room (c_cache m) -> bbatch_step decompress f' s (m, p) (m', p') -> okb (penv e l V) p ->
    (forall id l' ids acc, p = BPut id l' ids acc -> id ∈ D) -> held m' e l ev /\ okb (penv e l V) p' /\ (f' = f -> pendb d p -> pendb d p').
  Proof.
    intros HV1 HV2 Hh Hc Hb Op HD. pose proof Hh as (H1 & H2 & fd0 & y & H3 & H4 & H5).
    assert (held m' e l ev) as Hh'.
    { inversion Hb; subst; try done; try (by eapply held_get); try (by eapply held_alloc). cbn in Op. destruct Op as (O1 & _). eapply held_put; [done|by eapply HD|done|done|done]. }
    split; [done|]. split.
    - eapply okb_step; [apply env_refl| |exact Hb|exact Op]. inversion Hb; subst; cbn; try done.
      + intros c1 r _ G _ . destruct (get_keeps _ _ _ _ G) as (_ & _ & _ & ->). destruct (lr_table (c_cache m) !! id) eqn:Et; [intros ->; congruence|]. intros ->. congruence.
      + intros c1 r _ G _ . destruct (get_keeps _ _ _ _ G) as (_ & _ & _ & ->). destruct (lr_table (c_cache m) !! id) eqn:Et; [intros ->; congruence|]. intros ->. congruence.
      + intros l9 _ He Hd _ ->. rewrite (He eq_refl) in Hd. unfold lru_deref in Hd. rewrite H2 in Hd. by injection Hd.
      + intros fd1 z _ Hl Hd Hz _. destruct (decide (id = d)) as [->|Hn]; [|by apply HV2]. rewrite (Hl eq_refl) in Hd. by eapply HV1.
      + intros fd1 l1 _ Hl _ _ _. split; [done|]. intros z _. by apply HV2.
      + intros fd1 l1 _ Hl _ _ _. split; [done|]. intros z _. by apply HV2.
    - intros -> P. inversion Hb; subst; cbn [pendb okb penv e_load e_put e_map] in *.
      + destruct P as [[->|P]%elem_of_cons|P]; auto.
      + destruct P as [[->|P]%elem_of_cons|P]; auto. exfalso. match goal with G : lru_get _ _ = _ |- _ => destruct (get_keeps _ _ _ _ G) as (_ & _ & _ & E) end. congruence.
      + auto.
      + destruct P as [->|[P|P]]; [right|by left|right; by apply has_add]. destruct Op as (Ol & _). rewrite (Ol eq_refl) in *. match goal with G : c_heap _ !! l = Some ?z |- _ => rewrite H3 in G; injection G as <- end. unfold has_doc, add_field. rewrite H4, lookup_insert. by eexists.
      + done.
      + destruct P as [P|P]; [by left|right; by apply has_add].
      + done.
      + destruct P as [P|[z P]]; [by apply elem_of_nil in P|]. apply elem_of_list_fmap. exists (d, z). split; [done|]. match goal with G : _ ≡ₚ _ |- _ => rewrite G end. by apply elem_of_map_to_list.
  Qed.
  Definition anyid : string -> Prop := fun _ => True.
  Definition wanted (terms : list string) : Prop := exists t, t ∈ terms /\ is_Some (f_tf x !! t).
  Definition k_ok (m : cmem) (e l : nat) (ev : list event) (t : query N) : Prop :=
    qok t.1.1 anyid (penv e l (later ev t.1.2)) t.2 /\ (t.1.2 = f -> wanted t.1.1 -> qfind d m f t.2).
  (** A search that may have started earlier. *)
  Definition o_ok (e l : nat) (t : query N) : Prop := qok t.1.1 anyid (penv e l (fun _ _ => True)) t.2.
  Lemma k_o_ok m e l ev t : k_ok m e l ev t -> o_ok e l t.
  Proof. intros [K _]. eapply qok_le; [| |exact K]; [done|by apply penv_le]. Qed.
  Lemma k_ok_app m m' e l ev ev' t : grows m m' -> k_ok m e l ev t -> k_ok m' e l (ev ++ ev') t.
  Proof.
    intros Hg [K1 K2]. split; [eapply qok_le; [| |exact K1]; [done|apply penv_le; intros id y; apply later_app]|]. intros E W. eapply qfind_grows; [exact Hg|]. by apply K2.
  Qed.
  Lemma k_ok_same m m' e l ev t : c_index m' = c_index m -> k_ok m e l ev t -> k_ok m' e l ev t.
  Proof. intros E K. apply grows_same in E. pose proof (k_ok_app m m' e l ev [] t E K) as R. by rewrite app_nil_r in R. Qed.
  Definition all_listed (m : cmem) : Prop := forall t, is_Some (f_tf x !! t) -> listed m f t d.
  (** One step of a search. *)
  Lemma search_keeps terms f' u s e l ev (V : string -> field -> Prop) (q : dsearch N) m' q' log own : dsearch_step decompress N ncpu terms f' u s q (m', q') ->
    (forall fd z, c_heap (u_mem u) !! l = Some fd -> fd !! f' = Some z -> V d z) -> (forall id z, id <> d -> V id z) ->
    held (u_mem u) e l ev -> cache_ok cache_size room (c_cache (u_mem u)) -> all_listed (u_mem u) ->
    (forall id, found (u_mem u) f' terms id -> id ∈ D) -> q_ok N (u_mem u) log own (terms, f', q) -> qok terms anyid (penv e l V) q ->
    held m' e l ev /\ qok terms anyid (penv e l V) q' /\ (f' = f -> wanted terms -> qfind d (u_mem u) f q -> qfind d m' f q').
  Proof.
    intros H HV1 HV2 Hh Hc Ha HD Q K1. unfold q_ok in Q. cbn in Q. pose proof K1 as K1'.
    destruct (qok_step _ _ _ _ _ _ _ _ _ anyid (penv e l V) H (fun _ _ _ _ => I) (fun _ _ => I) K1) as [[-> Q']|(len & size & nft & w & w' & p & p' & -> & -> & Hb & Hin & Op & QE)].
    - split; [done|]. split; [done|]. intros -> W K2. inversion H; subst; cbn [qfind] in *; try done.
      + destruct W as (t & T1 & T2). eapply coming_init; [by apply elem_of_list_fmap_1|]. cbn. by apply Ha.
      + eapply coming_step; [| | |eassumption|exact K2]; [intros p p'; apply pendt_step|intros p y p'; apply pendt_send|]. intros p Hp. unfold bterm_stop in Hp. subst p. intros Hx. exact Hx.
      + destruct Q as [Q1 Q2]. pose proof (coming_done _ _ _ _ _ _ _ Q1 ltac:(eassumption) K2) as Hg. apply Exists_exists in Hg as (id & G1 & ->). destruct (batches_props (f2_got w)) as [_ B]. apply B in G1. apply elem_of_list_In, in_concat in G1 as (b & B1 & B2). apply elem_of_list_In in B1, B2.
        eapply (coming_init _ _ _ (BDocs b ∅)); [by apply (elem_of_list_fmap_1 (fun b => BDocs b ∅))|]. cbn. by left.
      + eapply coming_step; [| | |eassumption|exact K2]; [done|intros p y p'; apply pendb_send|]. intros p Hp. unfold bbatch_stop in Hp. subst p. cbn. by apply not_elem_of_nil.
      + (* inner step without effect on the memory *) match goal with G : fan2_inner _ _ _ _ |- _ => rename G into Gi end. destruct K1' as [_ K1'']. pose proof (fan_inner_ok _ _ _ _ _ _ Gi K1'') as Op. destruct Q as [_ Q2]. pose proof (fan_inner_ok _ _ _ _ _ _ Gi Q2) as Os.
        eapply (coming_inner bbatch_send bbatch_stop); [exact Gi| |exact K2]. match goal with G : bbatch_step _ _ _ _ _ |- _ => eapply (batch_keeps _ _ _ _ _ _ _ _ _ _ HV1 HV2 Hh Hc G Op); [|done] end. intros id l' ids acc ->. cbn in Os. destruct Os as (_ & Os & _). by apply HD.
      + destruct Q as [[tasks Q1] _]. pose proof (coming_done _ _ _ _ _ _ _ Q1 ltac:(eassumption) K2) as Hg. by apply merge_some.
    - destruct Q as [_ Q2]. pose proof (fan_inner_ok _ _ _ _ _ _ Hin Q2) as Os.
      destruct (batch_keeps _ _ _ _ _ _ _ _ _ _ HV1 HV2 Hh Hc Hb Op) as (B1 & B2 & B3). { intros id l' ids acc ->. cbn in Os. destruct Os as (_ & Os & _). by apply HD. }
      split; [done|]. split; [apply QE; [apply env_refl|done]|]. intros E W K2. eapply (coming_inner bbatch_send bbatch_stop); [exact Hin|by apply B3|]. exact K2.
  Qed.
  Lemma search_k_ok terms f' u s e l ev (q : dsearch N) m' q' log own : dsearch_step decompress N ncpu terms f' u s q (m', q') ->
    held (u_mem u) e l ev -> cache_ok cache_size room (c_cache (u_mem u)) -> all_listed (u_mem u) ->
    (forall id, found (u_mem u) f' terms id -> id ∈ D) -> q_ok N (u_mem u) log own (terms, f', q) -> k_ok (u_mem u) e l ev (terms, f', q) -> held m' e l ev /\ k_ok m' e l ev (terms, f', q').
  Proof.
    intros H Hh Hc Ha HD Q [K1 K2]. destruct (search_keeps terms f' u s e l ev (later ev f') q m' q' log own H) as (B1 & B2 & B3); try done.
    - intros fd z Hl Hz _ ->. destruct Hh as (_ & _ & fd0 & y & H3 & H4 & H5). rewrite H3 in Hl. injection Hl as <-. rewrite H4 in Hz. by injection Hz as <-.
    - intros id z Hn0 E. by destruct (Hn0 E).
    - split; [done|]. split; [done|]. cbn. intros E W. apply B3; [done|done|]. by apply K2.
  Qed.
  Lemma search_o_ok terms f' u s e l ev (q : dsearch N) m' q' log own : dsearch_step decompress N ncpu terms f' u s q (m', q') ->
    held (u_mem u) e l ev -> cache_ok cache_size room (c_cache (u_mem u)) -> all_listed (u_mem u) ->
    (forall id, found (u_mem u) f' terms id -> id ∈ D) -> q_ok N (u_mem u) log own (terms, f', q) -> o_ok e l (terms, f', q) -> held m' e l ev /\ o_ok e l (terms, f', q').
  Proof. intros H Hh Hc Ha HD Q K. destruct (search_keeps terms f' u s e l ev (fun _ _ => True) q m' q' log own H) as (B1 & B2 & B3); done. Qed.
End keep.
