(** Vocabulary for what the document cache keeps while several goroutines save and search
    (C68). *)
From Verif Require Import Base M_Field M_LRU S_Visits M_Memory M_File M_Serialize M_Num M_FanIn M_Search M_Concurrent M_SearchConc M_Disk M_DiskBusy M_DiskMulti S_Concurrent S_Disk S_DiskMulti S_DiskQuery.

(** No SaveOrUpdate or Index is in progress (requests may have calls still to make). *)
Definition mu_between (a : multi) : Prop := forall th, th ∈ mu_threads a -> th.1 = (TIdle, NoMsg).
(** Every search called has returned. *)
Definition mu_none_searching (a : multi) : Prop := forall q, q ∈ mu_qs a -> exists len size nft docs, mq_pc q = MqRet len size nft docs.
(** The cache holds the document, with field [x]. *)
Definition mu_cached (a : multi) (d : string) (x : field) : Prop :=
  exists u e l fd, mu_open a u /\ lr_table (c_cache (u_mem u)) !! d = Some e /\ lr_page (c_cache (u_mem u)) !! e = Some (d, l) /\
    c_heap (u_mem u) !! l = Some fd /\ fd !! f_name x = Some x.
(** The document was listed by the index when the store was opened, or was saved or indexed
    at some time in the history of the folder. *)
Definition mu_doc_known (a : multi) (d : string) : Prop :=
  (exists u f t, mu_open a u /\ has (disk_get_index (u_mem u) f) t d) \/ exists c, c ∈ calls_of (mu_log a) /\ call_doc' c = d.
(** The cache has room for every document. *)
Definition mu_room (cache_size : Z) (a : multi) : Prop :=
  exists D : gset string, (Z.of_nat (size D) <= cache_size)%Z /\ forall d, mu_doc_known a d -> d ∈ D.
(** From [a] to [b] one call is made, a SaveOrUpdate, which returns, and nothing else is in
    progress: no other call, no search. *)
Definition mu_one_save (d : string) (x : field) (a b : multi) : Prop :=
  mu_between a /\ mu_between b /\ mu_none_searching a /\ mu_searches b = mu_searches a /\ exists ev, mu_log b = mu_log a ++ ev /\ calls_of ev = [Save d x].
