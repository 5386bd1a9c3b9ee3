(** index/InvertedIndex.go:35-121 (Search) on the Disk storage while the client saves.

    The client, the background writers, the merger and the file system are those of
    M_Disk.v.  Any number of searches run at the same time as the client; none of them
    holds a lock except inside the cache.  Every read of a shared map, every call of the
    cache and every file read by a search is one step on the state of that moment.
    UpdateFieldDocument, one step in M_Disk.v where the client has the cache to itself,
    is split into its cache Get, the dereference, the map write and the cache Put.

    Simplifications: one client goroutine saves (concurrent savers: M_Concurrent.v); it
    does not call GetFields itself, which is what a search's goroutine does here.  A call
    of the cache is atomic (it takes the lock; that Get takes it for reading only is the
    subject of C16).  A single map access is atomic and memory is sequentially consistent
    (the Go runtime may instead stop the process: see [map_race]).  Reading a file is
    atomic, the file being replaced by renaming. *)
From Verif Require Import Base M_Field M_LRU S_Visits M_Memory M_File M_Serialize M_Num M_FanIn M_Search M_SearchConc M_Disk.

(** Where the client is inside UpdateFieldDocument, DiskStorage.go:175-182; [u_pc] is
    still [CDoc d x]. *)
Inductive doc_pc :=
| DPtr (e : nat)               (* :176, before the dereference *)
| DMap (l : nat)               (* :181, the map to write to *)
| DPut (l : nat).              (* :182 *)

(** A search's goroutine of one term, InvertedIndex.go:52-62 with DiskStorage.go:109-116
    (GetDocuments).  The maps d.index[f] and the sets are created once and never
    replaced, so they are named by field and term. *)
Inductive bterm :=
| BTerm (t : string)                                                   (* DiskStorage.go:110 *)
| BField (t : string)                                                  (* :111 *)
| BSet (t : string)                                                    (* InvertedIndex.go:57, starting *)
| BRange (t : string) (must : gset string) (sent : list string)        (* :57, next element *)
| BId (t : string) (must : gset string) (sent : list string) (id : string)   (* :58 *)
| BEnd.
Definition listed_set (m : cmem) (f t : string) : set_data := default (∅ : set_data) (default (∅ : gmap string set_data) (c_index m !! f) !! t).
Inductive bterm_step (f : string) (m : cmem) : bterm -> bterm -> Prop :=
| bt_none t : c_index m !! f = None -> bterm_step f m (BTerm t) BEnd
| bt_index t idx : c_index m !! f = Some idx -> bterm_step f m (BTerm t) (BField t)
| bt_noterm t : default (∅ : gmap string set_data) (c_index m !! f) !! t = None -> bterm_step f m (BField t) BEnd
| bt_term t S : default (∅ : gmap string set_data) (c_index m !! f) !! t = Some S -> bterm_step f m (BField t) (BSet t)
| bt_range t : bterm_step f m (BSet t) (BRange t (dom (listed_set m f t)) [])
| bt_next t must sent id : is_Some (listed_set m f t !! id) -> id ∉ sent -> bterm_step f m (BRange t must sent) (BId t must sent id)
| bt_last t (must : gset string) sent : must ⊆ list_to_set sent -> bterm_step f m (BRange t must sent) BEnd.
Inductive bterm_send : bterm -> string -> bterm -> Prop :=
| bt_send t must sent id : bterm_send (BId t must sent id) id (BRange t must (sent ++ [id])).
Definition bterm_stop (p : bterm) : Prop := p = BEnd.

(** A search's goroutine of one batch, InvertedIndex.go:89-100 with DiskStorage.go:118-139
    (GetFields).  The map read from a file is not shared before the Put. *)
Inductive bbatch :=
| BDocs (ids : list string) (acc : gmap string field)                            (* DiskStorage.go:121-122 *)
| BPtr (id : string) (e : nat) (ids : list string) (acc : gmap string field)     (* :123 *)
| BMap (id : string) (l : nat) (ids : list string) (acc : gmap string field)     (* :124 *)
| BLoad (id : string) (ids : list string) (acc : gmap string field)              (* :128-131 *)
| BPut (id : string) (l : nat) (ids : list string) (acc : gmap string field)     (* :132 *)
| BOut (kxs : list (string * field)).                                            (* InvertedIndex.go:94 *)
Definition add_field (f id : string) (fd acc : gmap string field) : gmap string field :=
  match fd !! f with Some x => <[id := x]> acc | None => acc end.
Section batch.
  Variable decompress : bytes -> option bytes.
  Inductive bbatch_step (f : string) (s : fs) : cmem * bbatch -> cmem * bbatch -> Prop :=
  | bb_hit m id ids acc c' e : lru_get (c_cache m) id = Some (c', Some e) ->
      bbatch_step f s (m, BDocs (id :: ids) acc) (set_cache m c' (c_heap m), BPtr id e ids acc)
  | bb_miss m id ids acc c' : lru_get (c_cache m) id = Some (c', None) ->
      bbatch_step f s (m, BDocs (id :: ids) acc) (set_cache m c' (c_heap m), BLoad id ids acc)
  | bb_deref m id e ids acc l : lru_deref (c_cache m) e = Some l ->
      bbatch_step f s (m, BPtr id e ids acc) (m, BMap id l ids acc)
  | bb_read m id l ids acc fd : c_heap m !! l = Some fd ->
      bbatch_step f s (m, BMap id l ids acc) (m, BDocs ids (add_field f id fd acc))
  | bb_nofile m id ids acc : load_doc decompress s id = Some None ->
      bbatch_step f s (m, BLoad id ids acc) (m, BDocs ids acc)
  | bb_load m id ids acc fd l : load_doc decompress s id = Some (Some fd) -> c_heap m !! l = None ->
      bbatch_step f s (m, BLoad id ids acc) (set_cache m (c_cache m) (<[l := fd]> (c_heap m)), BPut id l ids (add_field f id fd acc))
  | bb_put m id l ids acc c' : lru_put (c_cache m) id l = Some c' ->
      bbatch_step f s (m, BPut id l ids acc) (set_cache m c' (c_heap m), BDocs ids acc)
  | bb_range m (acc : gmap string field) kxs : kxs ≡ₚ map_to_list acc ->
      bbatch_step f s (m, BDocs [] acc) (m, BOut kxs).
  Inductive bbatch_send : bbatch -> gmap string field -> bbatch -> Prop :=
  | bb_send kx kxs : bbatch_send (BOut (kx :: kxs)) {[ kx.1 := kx.2 ]} (BOut kxs).
  Definition bbatch_stop (p : bbatch) : Prop := p = BOut [].
  (** The goroutine panics: an undecodable file or a cache without capacity. *)
  Inductive bbatch_fatal (s : fs) (m : cmem) : bbatch -> Prop :=
  | bf_get id ids acc : lru_get (c_cache m) id = None -> bbatch_fatal s m (BDocs (id :: ids) acc)
  | bf_load id ids acc : load_doc decompress s id = None -> bbatch_fatal s m (BLoad id ids acc)
  | bf_put id l ids acc : lru_put (c_cache m) id l = None -> bbatch_fatal s m (BPut id l ids acc).
End batch.
(** One of the goroutines of a fan-in takes an internal step. *)
Inductive fan2_inner {P A} (p p' : P) : fan2 P A -> fan2 P A -> Prop :=
| fan2_inner_intro m ws1 ws2 wg sem ch cl got :
    fan2_inner p p' (mkFan2 m (ws1 ++ VRun p :: ws2) wg sem ch cl got false) (mkFan2 m (ws1 ++ VRun p' :: ws2) wg sem ch cl got false).

(** DiskStorage.go:89-95 while the client may be inside UpdateNumberFieldTerm: the local
    variable fieldTerm is the map in d.numberFieldTerm if there was one when the loop
    started (M_Disk.v stores it at the end of the loop only); a new map is stored at :167. *)
Definition nft_now (u : up) (f : string) : option (gmap string Z) :=
  match u_pc u with
  | CNftLoop _ x ft _ | CNftSend _ x ft _ _ =>
      if bool_decide (f_name x = f) then (match c_nft (u_mem u) !! f with Some _ => Some ft | None => None end) else c_nft (u_mem u) !! f
  | _ => c_nft (u_mem u) !! f
  end.

(** The goroutine that calls Search. *)
Section search.
  Variables (decompress : bytes -> option bytes) (N : numops) (ncpu : nat) (terms : list string) (f : string).
  Inductive dsearch :=
  | SLength                                                                              (* :39 *)
  | SSize (len : Z)                                                                      (* :40 *)
  | SNft (len size : Z) (ts : list string) (acc : gmap string Z)                         (* :43, DiskStorage.go:91-92: d.numberFieldTerm[fieldName] *)
  | SNftTerm (len size : Z) (t : string) (some : bool) (ts : list string) (acc : gmap string Z)   (* :92: [term], of a map or of nil *)
  | SIds (len size : Z) (nft : gmap string Z) (w : fan2 bterm string)                    (* :46-82 *)
  | SFields (len size : Z) (nft : gmap string Z) (w : fan2 bbatch (gmap string field))   (* :84-114 *)
  | SRet (r : search_result N).                                                          (* :116-120 *)
  (** One step of the search; the memory afterwards. *)
  Inductive dsearch_step (u : up) (s : fs) : dsearch -> cmem * dsearch -> Prop :=
  | s_length : dsearch_step u s SLength (u_mem u, SSize (geti (c_length (u_mem u)) f))
  | s_size len : dsearch_step u s (SSize len) (u_mem u, SNft len (geti (c_size (u_mem u)) f) terms ∅)
  | s_nft len size t ts acc :
      dsearch_step u s (SNft len size (t :: ts) acc) (u_mem u, SNftTerm len size t (match nft_now u f with Some _ => true | None => false end) ts acc)
  | s_nft_term len size t (b : bool) ts acc :
      dsearch_step u s (SNftTerm len size t b ts acc)
        (u_mem u, SNft len size ts (<[t := if b then geti (default (∅ : gmap string Z) (nft_now u f)) t else 0]> acc))
  | s_start len size acc :
      dsearch_step u s (SNft len size [] acc) (u_mem u, SIds len size acc (fan2_init 0 (BTerm <$> terms)))
  | s_ids len size nft w w' :
      fan2_step (bterm_step f (u_mem u)) bterm_send bterm_stop (length terms) (ncpu * 2) w w' ->
      dsearch_step u s (SIds len size nft w) (u_mem u, SIds len size nft w')
  | s_batches len size nft w : fan2_done w ->
      dsearch_step u s (SIds len size nft w)
        (u_mem u, SFields len size nft (fan2_init (f2_sem w) ((fun b => BDocs b ∅) <$> batches_of (f2_got w))))
  | s_fields len size nft w w' :
      fan2_step (fun _ _ => False) bbatch_send bbatch_stop (length terms) (ncpu * 2) w w' ->
      dsearch_step u s (SFields len size nft w) (u_mem u, SFields len size nft w')
  | s_inner len size nft w w' p p' m' :
      bbatch_step decompress f s (u_mem u, p) (m', p') -> fan2_inner p p' w w' ->
      dsearch_step u s (SFields len size nft w) (m', SFields len size nft w')
  | s_return len size nft w : fan2_done w ->
      dsearch_step u s (SFields len size nft w)
        (u_mem u, SRet (mkResult (ndiv N (of_int N len) (of_int N size)) (merge_fields (f2_got w)) (of_int N size) nft)).
End search.
Arguments SLength {N}. Arguments SSize {N}. Arguments SNft {N}. Arguments SNftTerm {N}. Arguments SIds {N}. Arguments SFields {N}. Arguments SRet {N}.

(** The searches called since the store was opened, in order: terms, field, state. *)
Notation query N := (list string * string * dsearch N)%type.
Record busy N := mkBusy { by_sys : sys; by_doc : option doc_pc; by_qs : list (query N) }.
Arguments mkBusy {N}. Arguments by_sys {N}. Arguments by_doc {N}. Arguments by_qs {N}.
Definition with_mem (u : up) (m : cmem) (pc : cpc) : up := mkUp m pc (u_ich u) (u_mw u) (u_nw u) (u_dw u) (u_iw u) (u_mg u).

Section busy.
  Variables (compress : bytes -> bytes) (decompress : bytes -> option bytes) (cache_size : Z).
  Variables (N : numops) (ncpu : nat).
  (** The steps of M_Disk.v that are steps here: not the whole UpdateFieldDocument at
      once, and no GetFields by the client. *)
  Definition not_doc (a b : sys) : Prop :=
    forall u u', y_proc a = Up u -> y_proc b = Up u' ->
      (forall d x, u_pc u = CDoc d x -> u_pc u' = CDoc d x) /\ (forall ids0 f ids acc, u_pc u' <> CGet ids0 f ids acc).

  (** UpdateFieldDocument, DiskStorage.go:171-182 *)
  Inductive doc_step (dw : writer nat) : cmem * cpc * option doc_pc -> cmem * cpc * option doc_pc -> Prop :=
  | ds_hit m d x c' e : lru_get (c_cache m) d = Some (c', Some e) ->                         (* :175 *)
      doc_step dw (m, CDoc d x, None) (set_cache m c' (c_heap m), CDoc d x, Some (DPtr e))
  | ds_miss m d x c' l : lru_get (c_cache m) d = Some (c', None) -> c_heap m !! l = None ->   (* :175, :178 *)
      doc_step dw (m, CDoc d x, None) (set_cache m c' (<[l := ∅]> (c_heap m)), CDoc d x, Some (DMap l))
  | ds_deref m d x e l : lru_deref (c_cache m) e = Some l ->                                  (* :176 *)
      doc_step dw (m, CDoc d x, Some (DPtr e)) (m, CDoc d x, Some (DMap l))
  | ds_write m d x l fd : c_heap m !! l = Some fd -> ~ iterating dw l ->                      (* :181 *)
      doc_step dw (m, CDoc d x, Some (DMap l)) (set_cache m (c_cache m) (<[l := <[f_name x := x]> fd]> (c_heap m)), CDoc d x, Some (DPut l))
  | ds_put m d x l c' : lru_put (c_cache m) d l = Some c' ->                                  (* :182 *)
      doc_step dw (m, CDoc d x, Some (DPut l)) (set_cache m c' (c_heap m), CDocSend d x l, None).

  Inductive busy_live : busy N -> busy N -> Prop :=
  | bz_live y y' dp qs : live_step compress decompress cache_size y y' -> not_doc y y' ->
      busy_live (mkBusy y dp qs) (mkBusy y' dp qs)
  | bz_doc s u log dp m pc dp' qs : doc_step (u_dw u) (u_mem u, u_pc u, dp) (m, pc, dp') ->
      busy_live (mkBusy (mkSys s (Up u) log) dp qs) (mkBusy (mkSys s (Up (with_mem u m pc)) log) dp' qs)
  | bz_call s u log dp qs terms f :
      busy_live (mkBusy (mkSys s (Up u) log) dp qs) (mkBusy (mkSys s (Up u) log) dp (qs ++ [(terms, f, SLength)]))
  | bz_search s u log dp qs i terms f q m q' : qs !! i = Some (terms, f, q) -> dsearch_step decompress N ncpu terms f u s q (m, q') ->
      busy_live (mkBusy (mkSys s (Up u) log) dp qs) (mkBusy (mkSys s (Up (with_mem u m (u_pc u))) log) dp (<[i := (terms, f, q')]> qs)).
  Definition busy_step (a b : busy N) : Prop :=
    busy_live a b \/ exists y', crash_step (by_sys a) y' /\ b = mkBusy y' None [].
  Definition busy_init : busy N := mkBusy sys_init None [].
  Definition busy_reachable : busy N -> Prop := rtc busy_step busy_init.

  (** A goroutine of a search panics. *)
  Definition search_fatal (b : busy N) : Prop :=
    exists u terms f len size nft w p, y_proc (by_sys b) = Up u /\ (terms, f, SFields len size nft w) ∈ by_qs b /\ VRun p ∈ f2_workers w /\
      bbatch_fatal decompress (y_fs (by_sys b)) (u_mem u) p.
  (** A send on a closed channel. *)
  Definition search_panics (q : dsearch N) : Prop :=
    match q with SIds _ _ _ w => f2_panic w = true | SFields _ _ _ w => f2_panic w = true | _ => False end.
  (** The client is about to write to a document's map that a search is about to read:
      the runtime may stop the process ("concurrent map read and map write"). *)
  Definition map_race (b : busy N) : Prop :=
    exists l terms f len size nft w id ids acc, by_doc b = Some (DMap l) /\ (terms, f, SFields len size nft w) ∈ by_qs b /\ VRun (BMap id l ids acc) ∈ f2_workers w.
End busy.
