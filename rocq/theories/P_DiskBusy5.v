(** Searches that run on the disk storage while the client saves (C64): the memory. *)
From Verif Require Import Base M_Field M_LRU S_Visits M_Memory M_File M_Serialize M_Num M_FanIn M_Search M_SearchConc M_Disk M_DiskBusy P_Base P_LRU P_DiskBase P_DiskInv P_DiskMem P_DiskWriter P_DiskDocs P_DiskBusy P_DiskBusy2 P_DiskBusy3 P_DiskBusy4 S_Disk.
#[local] Open Scope nat_scope.
#[local] Opaque serialize_metrics serialize_nft serialize_field_map serialize_index deserialize_index deserialize_nft deserialize_field_map deserialize_metrics.

Lemma field32_twice x : field32 (field32 x) = field32 x.
Proof.
  unfold field32. cbn. f_equal; [apply wrap32_idem|]. rewrite <- map_fmap_compose. apply map_fmap_ext. intros k v _. apply wrap32_idem.
Qed.
(** The value was saved for the document, or is such a value as it is read from a file. *)
Definition saved_as (log : list event) (d f : string) (x : field) : Prop := exists x', Save d x' ∈ calls_of log /\ f_name x' = f /\ (x = x' \/ x = field32 x').
Lemma saved_as_app log ev d f x : saved_as log d f x -> saved_as (log ++ ev) d f x.
Proof. intros (x' & H1 & H2). exists x'. split; [|done]. rewrite calls_app. apply elem_of_app. by left. Qed.
Definition src (log : list event) (d : string) (m : gmap string field) : Prop := plain_doc d -> forall f x, m !! f = Some x -> saved_as log d f x.
Lemma src_app log ev d m : src log d m -> src (log ++ ev) d m.
Proof. intros H Hp f x Hx. apply saved_as_app. by apply H. Qed.
Lemma src_empty log d : src log d ∅.
Proof. intros _ f x H. by rewrite lookup_empty in H. Qed.
Lemma src_write log d m x : Save d x ∈ calls_of log -> src log d m -> src log d (<[f_name x := x]> m).
Proof.
  intros Hc H Hp f y Hy. apply lookup_insert_Some in Hy as [[<- <-]|[_ Hy]]; [|by apply H]. exists x. auto.
Qed.
Lemma src_load log d m : src log d m -> src log d (field32 <$> m).
Proof.
  intros H Hp f y Hy. apply lookup_fmap_Some in Hy as (z & <- & Hz). destruct (H Hp _ _ Hz) as (x' & H1 & H2 & [->| ->]); exists x'; (split; [done|]; split; [done|]; right); [done|apply field32_twice].
Qed.

Section mem.
  Variables (cache_size : Z).
  Hypothesis pos : (0 < cache_size)%Z.
  (** Every map belongs to one document, and holds what was saved for it. *)
  Record mem_ok (K : string -> Prop) (log : list event) (m : cmem) (own : gmap nat string) : Prop := {
    mo_cache : cache_ok cache_size K (c_cache m);
    mo_own : forall l, is_Some (c_heap m !! l) <-> is_Some (own !! l);
    mo_page : forall e k l, lr_page (c_cache m) !! e = Some (k, l) -> own !! l = Some k;
    mo_src : forall l d fd, own !! l = Some d -> c_heap m !! l = Some fd -> src log d fd }.
  (** Pointers into the cache stay pointers to the same document. *)
  Definition ptr (m : cmem) (d : string) (e : nat) : Prop := exists l, lr_page (c_cache m) !! e = Some (d, l).
  Definition ptrs_le (m m' : cmem) : Prop := forall d e, ptr m d e -> ptr m' d e.

  Lemma mem_mono (K K' : string -> Prop) log ev m own : (forall k, K k -> K' k) -> mem_ok K log m own -> mem_ok K' (log ++ ev) m own.
  Proof. intros H [H1 H2 H3 H4]. constructor; try done; [by eapply cache_mono|]. intros l d fd A B. apply src_app. eauto. Qed.
  Lemma mem_same K log m m' own : c_cache m' = c_cache m -> c_heap m' = c_heap m -> mem_ok K log m own -> mem_ok K log m' own.
  Proof. intros E1 E2 [H1 H2 H3 H4]. constructor; rewrite ?E1, ?E2; done. Qed.
  Lemma mem_get K log m own k c' r : lru_get (c_cache m) k = Some (c', r) -> mem_ok K log m own -> mem_ok K log (set_cache m c' (c_heap m)) own /\ ptrs_le m (set_cache m c' (c_heap m)) /\ (forall e, r = Some e -> ptr (set_cache m c' (c_heap m)) k e).
  Proof.
    intros Hg [H1 H2 H3 H4]. destruct (get_keeps _ _ _ _ Hg) as (E1 & E2 & _ & ->). split; [|split].
    - constructor; cbn; rewrite ?E1; try done. by eapply cache_get.
    - intros d e [l Hl]. exists l. cbn. by rewrite E1.
    - intros e Ht. destruct (cache_page _ _ _ _ _ H1 Ht) as [l Hl]. exists l. cbn. by rewrite E1.
  Qed.
  Lemma mem_put (K : string -> Prop) log m own k l c' : lru_put (c_cache m) k l = Some c' -> own !! l = Some k -> K k -> mem_ok K log m own ->
    mem_ok K log (set_cache m c' (c_heap m)) own /\ ptrs_le m (set_cache m c' (c_heap m)).
  Proof.
    intros Hp Ho Hk [H1 H2 H3 H4]. pose proof H1 as (kvs & HR & _). split.
    - constructor; cbn; try done; [by eapply cache_put|]. intros e k0 l0 He. destruct (put_effect _ _ _ _ Hp) as [(e1 & k' & v' & T1 & P1 & E1 & _)|(T1 & e1 & t & E1 & _)]; rewrite E1 in He; apply lookup_insert_Some in He as [[<- [= <- <-]]|[_ He]]; eauto.
      destruct (cache_page _ _ _ _ _ H1 T1) as [l1 Hl1]. congruence.
    - intros d e [l0 Hl0]. destruct (put_fresh _ _ _ _ _ HR Hp e _ Hl0) as (v' & E & _). exists v'. cbn. exact E.
  Qed.
  Lemma mem_alloc K log m own l k fd : c_heap m !! l = None -> src log k fd -> mem_ok K log m own ->
    mem_ok K log (set_cache m (c_cache m) (<[l := fd]> (c_heap m))) (<[l := k]> own) /\ own !! l = None.
  Proof.
    intros Hf Hs [H1 H2 H3 H4]. assert (own !! l = None) as Hn. { apply eq_None_not_Some. rewrite <- H2, Hf. by intros [? ?]. } split; [|done]. constructor; cbn; try done.
    - intros l0. rewrite !lookup_insert_is_Some, H2. done.
    - intros e k0 l0 He. apply H3 in He. rewrite lookup_insert_ne; [done|congruence].
    - intros l0 d0 fd0 A B. destruct (decide (l = l0)) as [<-|Hne]; [rewrite lookup_insert in A; rewrite lookup_insert in B; injection A as <-; injection B as <-; exact Hs|]. rewrite lookup_insert_ne in A by done; rewrite lookup_insert_ne in B by done. eauto.
  Qed.
  Lemma mem_write K log m own l d fd x : c_heap m !! l = Some fd -> own !! l = Some d -> Save d x ∈ calls_of log -> mem_ok K log m own ->
    mem_ok K log (set_cache m (c_cache m) (<[l := <[f_name x := x]> fd]> (c_heap m))) own.
  Proof.
    intros Hf Ho Hc [H1 H2 H3 H4]. constructor; cbn; try done.
    - intros l0. rewrite lookup_insert_is_Some, H2. split; [|destruct (decide (l = l0)); auto]. intros [<-|[_ ?]]; [by eexists|done].
    - intros l0 d0 fd0 A B. destruct (decide (l = l0)) as [<-|Hne]; [|rewrite lookup_insert_ne in B by done; eauto]. rewrite lookup_insert in B. injection B as <-. rewrite Ho in A. injection A as <-. apply src_write; eauto.
  Qed.

  (** What a search that has run for a while knows. *)
  Definition found (m : cmem) (f : string) (terms : list string) (d : string) : Prop := exists t, t ∈ terms /\ listed m f t d.
  Definition known (m : cmem) (log : list event) (d : string) : Prop := (exists f t, listed m f t d) \/ exists c, c ∈ calls_of log /\ call_doc' c = d.
  Definition senv (m : cmem) (log : list event) (own : gmap nat string) (f : string) (terms : list string) : benv :=
    mkEnv (found m f terms) (ptr m) (fun d l => own !! l = Some d) (fun _ => True) (fun d l => own !! l = Some d)
      (fun d x => found m f terms d /\ (plain_doc d -> saved_as log d f x)).
  Lemma senv_le m m' log ev own own' f terms : grows m m' -> ptrs_le m m' -> own ⊆ own' -> env_le (senv m log own f terms) (senv m' (log ++ ev) own' f terms).
  Proof.
    intros Hg Hp Ho. assert (forall d, found m f terms d -> found m' f terms d) as Hf. { intros d (t & H1 & H2). exists t. split; [done|]. by apply Hg. }
    repeat split; cbn; eauto.
    - intros id l _ H. by eapply lookup_weaken.
    - intros id l _ H. by eapply lookup_weaken.
    - destruct H as [H _]. auto.
    - destruct H as [_ H]. intros Hd. apply saved_as_app. auto.
  Qed.
  Lemma known_mono m m' log ev d : grows m m' -> known m log d -> known m' (log ++ ev) d.
  Proof. intros Hg [(f & t & H)|(c & H1 & H2)]; [left; exists f, t; by apply Hg|right; exists c; split; [|done]]. rewrite calls_app. apply elem_of_app. by left. Qed.
End mem.
