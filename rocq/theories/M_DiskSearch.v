(** Model of searching over the disk storage: index/InvertedIndex.go:86-100 calls
    Disk.GetFields (storage/DiskStorage.go:118-139) from several goroutines at once,
    while the writers and the merger go on working.

    The granularity is that of M_Disk.v: a cache operation or a file read is one step.
    cache/LRU.go:30 takes only the read lock in Get, so that two Gets can in fact
    overlap and corrupt the recency list: that is C16; here Get is one step. *)
From Verif Require Import Base M_Field M_LRU M_Memory M_File M_Disk M_Search.

Section reads.
  Variables (compress : bytes -> bytes) (decompress : bytes -> option bytes) (cache_size : Z).
  (** DiskStorage.go:118-120: a goroutine calls GetFields(ids, f). *)
  Definition read_start (q : list string * string) : cpc := CGet q.1 q.2 q.1 ∅.
  Definition with_mem (u : up) (m : cmem) : up := mkUp m (u_pc u) (u_ich u) (u_mw u) (u_nw u) (u_dw u) (u_iw u) (u_mg u).
  (** The readers [pcs] share the store; nobody calls SaveOrUpdate or UpdateIndex. *)
  Inductive reads_step : sys * list cpc -> sys * list cpc -> Prop :=
  | rs_read s u log pcs i pc m' pc' : pcs !! i = Some pc -> (forall ids f acc, pc <> CGot ids f acc) ->
      c_step decompress s (u_mem u, pc) (m', pc') ->
      reads_step (mkSys s (Up u) log, pcs) (mkSys s (Up (with_mem u m')) log, <[i := pc']> pcs)
  | rs_background y y' ev pcs : live_step compress decompress cache_size y y' -> y_log y' = y_log y ++ ev ->
      (forall e, e ∈ ev -> (forall c, e <> ECall c) /\ (forall ids f, e <> EGet ids f)) ->
      reads_step (y, pcs) (y', pcs).
End reads.

(** The getters of a disk store as a Storage for Search; [docs d] are the fields of
    document [d] as GetFields sees them. *)
Definition disk_fields (docs : string -> gmap string field) (ids : list string) (f : string) : gmap string field :=
  fold_left (fun acc id => match docs id !! f with Some x => <[id := x]> acc | None => acc end) ids ∅.
Definition disk_view (m : cmem) (docs : string -> gmap string field) : view :=
  mkView (disk_get_documents m) (disk_fields docs) (disk_get_size m) (disk_get_length m) (disk_get_nft m).
(** The fields of document [d] as stored in the folder (DiskStorage.go:126-131, 160-163). *)
Definition file_docs (decompress : bytes -> option bytes) (s : fs) (d : string) : gmap string field :=
  match load_doc decompress s d with Some (Some m) => m | _ => ∅ end.
