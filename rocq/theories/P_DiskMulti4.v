(** Concurrent calls on the disk storage: the maps after opening exist (C66). *)
From Verif Require Import Base M_Field M_LRU S_Visits M_Memory M_File M_Serialize M_Num M_FanIn M_Search M_Concurrent M_SearchConc M_Disk M_DiskBusy M_DiskMulti P_Base.

Definition addr1 (f : string) : nat := encode_nat f.
Definition addr2 (p : string * string) : nat := encode_nat p.
#[local] Instance addr1_inj : Inj (=) (=) addr1.
Proof. apply _. Qed.
#[local] Instance addr2_inj : Inj (=) (=) addr2.
Proof. apply _. Qed.
Definition names {A} (m : gmap string A) : gmap string nat := map_imap (fun f _ => Some (addr1 f)) m.
Definition owners {A} (m : gmap string A) : gmap nat string := kmap addr1 (map_imap (fun f _ => Some f) m).
Lemma names_some {A} (m : gmap string A) f l : names m !! f = Some l <-> l = addr1 f /\ is_Some (m !! f).
Proof.
  unfold names. rewrite map_lookup_imap. destruct (m !! f) as [v|]; cbn.
  - split; [intros [= <-]|intros [-> _]]; [|done]. split; [done|by eexists].
  - split; [done|]. by intros [_ [? ?]].
Qed.
Lemma owners_some {A} (m : gmap string A) f l : owners m !! l = Some f <-> l = addr1 f /\ is_Some (m !! f).
Proof.
  unfold owners. rewrite lookup_kmap_Some by apply _. split.
  - intros (g & -> & H). rewrite map_lookup_imap in H. destruct (m !! g) eqn:E; [|done]. cbn in H. injection H as <-. split; [done|by rewrite E].
  - intros [-> [v H]]. exists f. split; [done|]. by rewrite map_lookup_imap, H.
Qed.
Lemma owners_dom {A B} (m : gmap string A) (g : string -> A -> B) l :
  is_Some ((kmap addr1 (map_imap (fun f v => Some (g f v)) m) : gmap nat B) !! l) <-> is_Some (owners m !! l).
Proof.
  split.
  - intros [v H]. apply lookup_kmap_Some in H as (f & -> & H); [|apply _]. rewrite map_lookup_imap in H. destruct (m !! f) eqn:E; [|done]. exists f. apply owners_some. split; [done|by rewrite E].
  - intros [f H]. apply owners_some in H as [-> [v H]]. exists (g f v). apply lookup_kmap_Some; [apply _|]. exists f. split; [done|]. by rewrite map_lookup_imap, H.
Qed.
Lemma at_addr {A B} (m : gmap string A) (g : string -> A -> B) f v : m !! f = Some v -> (kmap addr1 (map_imap (fun f v => Some (g f v)) m) : gmap nat B) !! addr1 f = Some (g f v).
Proof. intros H. rewrite lookup_kmap by apply _. by rewrite map_lookup_imap, H. Qed.

(** Every content of the files can be laid out in memory. *)
Lemma loaded_total m : exists s, loaded m s.
Proof.
  set (flat := gmap_uncurry (c_index m) : gmap (string * string) set_data).
  set (terms := fun (f : string) (v : gmap string set_data) => map_imap (fun t (_ : set_data) => Some (addr2 (f, t))) v).
  set (s := mkSh (c_size m) (c_length m) (names (c_index m)) (kmap addr1 (map_imap (fun f v => Some (terms f v)) (c_index m))) (kmap addr2 flat)
              (names (c_nft m)) (kmap addr1 (map_imap (fun (f : string) (v : gmap string Z) => Some v) (c_nft m))) ∅ ∅).
  assert (forall f t, flat !! (f, t) = c_index m !! f ≫= (fun v => v !! t)) as HF by (intros; apply lookup_gmap_uncurry).
  exists s. split.
  - unfold view. cbn [k_fdoc k_length k_size M_Concurrent.k_index k_nft s]. rewrite fmap_empty. f_equal.
    + apply map_eq. intros f. rewrite lookup_fmap. destruct (c_index m !! f) as [v|] eqn:E.
      * assert (names (c_index m) !! f = Some (addr1 f)) as -> by (apply names_some; split; [done|by rewrite E]). cbn. f_equal. unfold sets_at. cbn [k_maps k_sets s]. rewrite (at_addr _ terms _ _ E). cbn.
        apply map_eq. intros t. unfold terms. rewrite lookup_fmap, map_lookup_imap. destruct (v !! t) as [S|] eqn:Et; [|done]. cbn. f_equal. rewrite lookup_kmap by apply _. rewrite HF, E. cbn. by rewrite Et.
      * assert (names (c_index m) !! f = None) as ->; [|done]. apply eq_None_not_Some. intros [l H]. apply names_some in H as [_ H]. rewrite E in H. by destruct H.
    + apply map_eq. intros f. rewrite lookup_fmap. destruct (c_nft m !! f) as [v|] eqn:E.
      * assert (names (c_nft m) !! f = Some (addr1 f)) as -> by (apply names_some; split; [done|by rewrite E]). cbn. f_equal. unfold counts_at. cbn [k_nfts s]. by rewrite (at_addr _ (fun _ v => v) _ _ E).
      * assert (names (c_nft m) !! f = None) as ->; [|done]. apply eq_None_not_Some. intros [l H]. apply names_some in H as [_ H]. rewrite E in H. by destruct H.
  - exists (owners (c_index m)), (kmap addr2 (map_imap (fun p (_ : set_data) => Some p) flat)), (owners (c_nft m)). cbn [k_maps k_sets M_Concurrent.k_index k_nft k_nfts s].
    assert (forall a p, (kmap addr2 (map_imap (fun p (_ : set_data) => Some p) flat) : gmap nat (string * string)) !! a = Some p <-> a = addr2 p /\ is_Some (flat !! p)) as HO.
    { intros a p. rewrite lookup_kmap_Some by apply _. split.
      - intros (q & -> & H). rewrite map_lookup_imap in H. destruct (flat !! q) eqn:E; [|done]. cbn in H. injection H as <-. split; [done|by rewrite E].
      - intros [-> [v H]]. exists p. split; [done|]. by rewrite map_lookup_imap, H. }
    split; [intros f l; by rewrite names_some, owners_some|]. split; [intros l; apply owners_dom|]. split; [|split; [|split]].
    + intros a. split.
      * intros [S H]. apply lookup_kmap_Some in H as (p & -> & H); [|apply _]. exists p. apply HO. split; [done|by rewrite H].
      * intros [p H]. apply HO in H as [-> [S H]]. exists S. rewrite lookup_kmap by apply _. done.
    + intros f t a. rewrite HO, HF. split.
      * intros (l & v & H1 & H2 & H3). apply names_some in H1 as [-> [w Hw]]. rewrite (at_addr _ terms _ _ Hw) in H2. injection H2 as <-. unfold terms in H3. rewrite map_lookup_imap in H3. rewrite Hw. cbn.
        destruct (w !! t) eqn:E; [|done]. cbn in H3. injection H3 as <-. split; [done|by eexists].
      * intros [-> [S H]]. destruct (c_index m !! f) as [w|] eqn:E; [|done]. cbn in H. exists (addr1 f), (terms f w). split; [apply names_some; split; [done|by rewrite E]|]. split; [by apply at_addr|].
        unfold terms. by rewrite map_lookup_imap, H.
    + intros f l. by rewrite names_some, owners_some.
    + intros l. apply (owners_dom (c_nft m) (fun _ v => v)).
Qed.
