(** Searches that run on the disk storage while the client saves (C64): the client. *)
From Verif Require Import Base M_Field M_LRU S_Visits M_Memory M_File M_Serialize M_Num M_FanIn M_Search M_SearchConc M_Disk M_DiskBusy P_DiskMem P_DiskBusy P_DiskBusy2 P_DiskBusy3 S_Disk.
#[local] Open Scope nat_scope.
#[local] Opaque serialize_metrics serialize_nft serialize_field_map serialize_index deserialize_index deserialize_nft deserialize_field_map deserialize_metrics.

Definition noget (pc : cpc) : Prop := match pc with CGet _ _ _ _ | CGetLoad _ _ _ _ _ | CGot _ _ _ => False | _ => True end.
Definition grows (m m' : cmem) : Prop := forall f t d, listed m f t d -> listed m' f t d.
(** The client's memory after a step in which no search takes part. *)
Record client_ok (u u' : up) (ev : list event) : Prop := {
  co_cache : c_cache (u_mem u') = c_cache (u_mem u);
  co_heap : c_heap (u_mem u') = c_heap (u_mem u);
  co_noget : noget (u_pc u');
  co_pend : forall c, c ∈ pending (u_pc u') -> c ∈ pending (u_pc u) \/ c ∈ calls_of ev;
  co_grows : grows (u_mem u) (u_mem u');
  co_new : forall f t d, listed (u_mem u') f t d -> listed (u_mem u) f t d \/ exists c, c ∈ pending (u_pc u) /\ call_doc' c = d;
  co_send : forall d x l, u_pc u' = CDocSend d x l -> u_pc u = CDocSend d x l;
  co_doc : forall d x, u_pc u = CDoc d x -> u_pc u' = CDoc d x
}.
Lemma listed_begin m f0 f t d : c_index m !! f0 = None -> listed (set_index m (<[f0 := ∅]> (c_index m))) f t d <-> listed m f t d.
Proof.
  intros H. unfold listed, listed_set. cbn. destruct (decide (f0 = f)) as [->|Hn]; [|by rewrite lookup_insert_ne]. rewrite lookup_insert, H. cbn. done.
Qed.
Lemma listed_term m f0 idx d0 t0 f t d : c_index m !! f0 = Some idx -> listed (set_index m (<[f0 := index_term d0 idx t0]> (c_index m))) f t d <-> listed m f t d \/ (f = f0 /\ t = t0 /\ d = d0).
Proof.
  intros H. unfold listed, listed_set. cbn. destruct (decide (f0 = f)) as [->|Hn]; [|rewrite lookup_insert_ne by done; split; [by left|]; intros [?|(-> & _)]; done]. rewrite lookup_insert, H. cbn. unfold index_term.
  destruct (idx !! t0) as [S|] eqn:Es.
  - destruct (decide (t0 = t)) as [->|Ht]; [|rewrite lookup_insert_ne by done; split; [by left|]; intros [?|(_ & -> & _)]; done]. rewrite lookup_insert, Es. cbn. destruct (decide (d0 = d)) as [->|Hd]; [rewrite lookup_insert; split; [by right|eauto]|]. rewrite lookup_insert_ne by done. split; [by left|]. intros [?|(_ & _ & ->)]; done.
  - destruct (decide (t0 = t)) as [->|Ht]; [|rewrite lookup_insert_ne by done; split; [by left|]; intros [?|(_ & -> & _)]; done]. rewrite lookup_insert, Es. cbn. destruct (decide (d0 = d)) as [->|Hd]; [rewrite lookup_insert; split; [by right|eauto]|]. rewrite lookup_insert_ne by done. split; [by left|]. intros [?|(_ & _ & ->)]; done.
Qed.
Lemma client_same u u' ev : u_mem u' = u_mem u -> u_pc u' = u_pc u -> noget (u_pc u) -> client_ok u u' ev.
Proof. intros E1 E2 H. constructor; rewrite ?E1, ?E2; try done; auto. intros f t d. done. Qed.
Lemma up_step_client compress decompress u s ev u' s' : up_step compress decompress (u, s) ev (u', s') -> noget (u_pc u) ->
  (forall d x, u_pc u = CDoc d x -> u_pc u' = CDoc d x) -> client_ok u u' ev.
Proof.
  intros H Hg Hd. inversion H; subst; try (by apply client_same); cbn [u_pc u_mem] in *.
  - match goal with G : c_step _ _ _ _ |- _ => inversion G; subst end; cbn in Hg; try done; (constructor; cbn [u_pc u_mem pending set_nft c_cache c_heap]; try done; try (by intros ? ?; left); try (by left); try (by intros ? ? ?; left); try (intros ? ? ? ?; assumption)).
    + by destruct (c_index m !! f_name x).
    + by destruct (c_index m !! f_name x).
    + intros f t d0. destruct (c_index m !! f_name x) eqn:E; [done|]. by apply listed_begin.
    + intros f t d0. destruct (c_index m !! f_name x) eqn:E; [by left|]. intros K. left. by apply (listed_begin m (f_name x)).
    + intros f t0 d0 K. eapply listed_term; [eassumption|]. by left.
    + intros f t0 d0 K. eapply listed_term in K; [|eassumption]. destruct K as [K|(-> & -> & ->)]; [by left|right]. destruct full; eexists; (split; [left|done]).
    + by destruct full.
    + intros c Hc. destruct full; [by left|by apply elem_of_nil in Hc].
    + intros d0 x0 l0. by destruct full.
  - exfalso. match goal with G : c_doc _ _ _ |- _ => inversion G; subst end; by specialize (Hd _ _ eq_refl).
  - constructor; cbn; try done; auto. by intros ? ? ?.
  - constructor; cbn; try done; auto. by intros ? ? ?.
  - constructor; cbn; try done; auto. by intros ? ? ?.
  - constructor; cbn; try done; auto; try by intros ? ? ?. 
Qed.
Lemma up_tick_client u s u' s' : up_tick (u, s) (u', s') -> noget (u_pc u) -> client_ok u u' [].
Proof. intros H Hg. inversion H; subst; by apply client_same. Qed.
Lemma up_call_client u ev u' : up_call u ev u' -> noget (u_pc u') -> client_ok u u' ev.
Proof. intros H Hg. inversion H; subst; cbn in Hg; [| |done]; (constructor; cbn; try done; auto; by intros ? ? ?). Qed.
