(** Model of storage/DiskStorage.go and storage/DiskIO.go: one client goroutine,
    the four background writers, the merger and the file system, interleaved at the
    granularity of Go statements and system calls.

    The root folder is the path [].  Field names and document ids are single path
    components: this is what filepath.Join does for simple names only (M_Path.v,
    C57), so the theorems assume simple names.  The client is one goroutine
    (concurrent clients are the subject of M_Concurrent.v).  A panic, log.Fatalf or
    kill of the process ends it between two steps and leaves the file system as it
    is; other goroutines may still take steps between the fatal event and the end of
    the process, as in Go.  Logging, the [mu] field (never used) and the [count]
    variable are not modelled. *)
From Verif Require Import Base M_Field M_LRU S_Visits M_Memory M_File M_Serialize.
#[local] Open Scope Z_scope.

(** DiskIO.go:309-314  IndexTransferData *)
Record posting := mkPost { po_field : string; po_term : string; po_doc : string }.

(* ------------------------------------------------------------------ *)
(** * The three writers that replace whole files

    SaveFieldSizeLengthOnDisc, SaveNumberFieldTermOnDisk and SaveDocumentFieldOnDisk
    have the same shape: a buffer (a map from keys to values), a select between a
    receive, which updates the buffer, and a tick, which runs a range loop over the
    buffer; each iteration creates the directory, serializes the value, calls
    SecureSaveFile and deletes the key. *)
Inductive wpc :=
| WIdle                                        (* at the select *)
| WLoop (ks : list string)                     (* head of the range loop, keys left *)
| WSer (k : string) (ks : list string)         (* before Serialize... *)
| WIter (k : string) (ks : list string) (T : bytes)   (* inside Serialize..., which will return T *)
| WSave (k : string) (ks : list string) (b : bytes) (pc : ss_pc).  (* in SecureSaveFile *)
Record writer (V : Type) := mkW { w_buf : gmap string V; w_pc : wpc }.
Arguments mkW {V}. Arguments w_buf {V}. Arguments w_pc {V}.

Section writer.
  Context {V : Type}.
  Variable compress : bytes -> bytes.
  (** Directory and file name of a key; [ser k v T]: serializing value [v] of key [k]
      can return [T]; [ser_fails k v]: it can panic. *)
  Variables (dirof : string -> path) (nameof : string -> string)
            (ser : string -> V -> bytes -> Prop) (ser_fails : string -> V -> Prop).

  (** DiskIO.go:204-217, 245-259, 282-302 *)
  Inductive w_tick : writer V -> writer V -> Prop :=
  | w_tick_intro buf ks : range_order buf ks -> w_tick (mkW buf WIdle) (mkW buf (WLoop ks)).
  Inductive w_step : writer V * fs -> writer V * fs -> Prop :=
  | w_end buf s : w_step (mkW buf (WLoop []), s) (mkW buf WIdle, s)
  | w_mkdir buf k ks s s' : mkdir_all s (dirof k) = Some s' ->
      w_step (mkW buf (WLoop (k :: ks)), s) (mkW buf (WSer k ks), s')
  | w_ser buf k ks v T s : buf !! k = Some v -> ser k v T ->
      w_step (mkW buf (WSer k ks), s) (mkW buf (WIter k ks T), s)
  | w_compress buf k ks T s : w_step (mkW buf (WIter k ks T), s) (mkW buf (WSave k ks (compress T) SSOpen), s)
  | w_save buf k ks b pc s pc' s' : ss_step (dirof k) (nameof k) b (pc, s) = Some (pc', s') ->
      w_step (mkW buf (WSave k ks b pc), s) (mkW buf (WSave k ks b pc'), s')
  | w_done buf k ks b s : w_step (mkW buf (WSave k ks b SSOk), s) (mkW (delete k buf) (WLoop ks), s).
  (** log.Fatalf or a panic *)
  Inductive w_fatal : writer V * fs -> Prop :=
  | w_fatal_mkdir buf k ks s : mkdir_all s (dirof k) = None -> w_fatal (mkW buf (WLoop (k :: ks)), s)
  | w_fatal_ser buf k ks v s : buf !! k = Some v -> ser_fails k v -> w_fatal (mkW buf (WSer k ks), s)
  | w_fatal_save buf k ks b s : w_fatal (mkW buf (WSave k ks b SSErr), s).
End writer.

(** DiskIO.go:279-280: the two maps Length and Size always have the same keys; here
    one map to (size, length) pairs. *)
Definition m_recv (buf : gmap string (Z * Z)) (f : string) (size len : Z) : gmap string (Z * Z) := <[f := (size, len)]> buf.
(** DiskIO.go:288-294 *)
Definition m_dir (f : string) : path := [f].
Definition m_name (f : string) : string := "metrics".
Definition m_ser (f : string) (v : Z * Z) (T : bytes) : Prop := serialize_metrics f (wrap32 v.1) (wrap32 v.2) = Some T.
Definition m_ser_fails (f : string) (v : Z * Z) : Prop := serialize_metrics f (wrap32 v.1) (wrap32 v.2) = None.

(** DiskIO.go:236-242 *)
Definition n_recv (buf : gmap string (gmap string Z)) (f t : string) (n : Z) : gmap string (gmap string Z) :=
  match buf !! f with Some m => <[f := <[t := n]> m]> buf | None => <[f := {[t := n]}]> buf end.
(** DiskIO.go:249-253 *)
Definition n_dir (f : string) : path := [f].
Definition n_name (f : string) : string := "nfterm".
Definition n_ser (f : string) (m : gmap string Z) (T : bytes) : Prop := exists l, visits m l /\ serialize_nft l = Some T.
Definition n_ser_fails (f : string) (m : gmap string Z) : Prop := exists l, visits m l /\ serialize_nft l = None.

(** DiskIO.go:202: the buffer holds references to the field maps; a reference is an
    address in the client's heap. *)
Definition d_recv (buf : gmap string nat) (doc : string) (l : nat) : gmap string nat := <[doc := l]> buf.
(** DiskIO.go:207-211 *)
Definition d_dir (doc : string) : path := ["docs"; "metrics"].
Definition d_name (doc : string) : string := doc.
Definition d_ser (heap : gmap nat (gmap string field)) (doc : string) (l : nat) (T : bytes) : Prop :=
  exists m es, heap !! l = Some m /\ visits_fields m es /\ serialize_field_map es = Some T.
Definition d_ser_fails (heap : gmap nat (gmap string field)) (doc : string) (l : nat) : Prop :=
  exists m es, heap !! l = Some m /\ visits_fields m es /\ serialize_field_map es = None.

(* ------------------------------------------------------------------ *)
(** * The index writer, DiskIO.go:321-371 *)
Inductive ipc :=
| IIdle
| ILoop (ks : list string)                                  (* :353 *)
| IMkdir (k : string) (ks : list string) (b : bytes)        (* :356, b = the bytes to write *)
| IOpen (k : string) (ks : list string) (b : bytes)         (* :358-360 uuid, os.WriteFile: open *)
| IWrite (k : string) (ks : list string) (b : bytes) (u : string).  (* :360 write, close *)
Notation index_buffer := (gmap string (gmap string (gmap string bool))).
Record iwriter := mkI { i_buf : index_buffer; i_pc : ipc }.

(** DiskIO.go:335-348 *)
Definition i_recv (buf : index_buffer) (p : posting) : index_buffer :=
  let fi := default ∅ (buf !! po_field p) in
  let ts := default ∅ (fi !! po_term p) in
  <[po_field p := <[po_term p := <[po_doc p := true]> ts]> fi]> buf.

(** Serialize.go:167-212 on a term -> documents map, whatever the visiting orders. *)
Definition idx_ser (m : gmap string (gmap string bool)) (T : bytes) : Prop := exists es, visits_index m es /\ serialize_index es = Some T.
Definition idx_ser_fails (m : gmap string (gmap string bool)) : Prop := exists es, visits_index m es /\ serialize_index es = None.

Section index_writer.
  Variable compress : bytes -> bytes.
  Inductive i_tick : iwriter -> iwriter -> Prop :=
  | i_tick_intro buf ks : range_order buf ks -> i_tick (mkI buf IIdle) (mkI buf (ILoop ks)).
  (** uuid.New() is assumed not to collide with an existing file. *)
  Inductive i_step : iwriter * fs -> iwriter * fs -> Prop :=
  | i_end buf s : i_step (mkI buf (ILoop []), s) (mkI ∅ IIdle, s)
  | i_ser buf k ks m T s : buf !! k = Some m -> idx_ser m T ->
      i_step (mkI buf (ILoop (k :: ks)), s) (mkI buf (IMkdir k ks (compress T)), s)
  | i_mkdir buf k ks b s s' : mkdir_all s [k; "temp"] = Some s' ->
      i_step (mkI buf (IMkdir k ks b), s) (mkI buf (IOpen k ks b), s')
  | i_open buf k ks b u s s' : fs_files s !! [k; "temp"; u] = None -> open_trunc s [k; "temp"; u] = Some s' ->
      i_step (mkI buf (IOpen k ks b), s) (mkI buf (IWrite k ks b u), s')
  | i_write buf k ks b u s :
      i_step (mkI buf (IWrite k ks b u), s) (mkI buf (ILoop ks), write_all s [k; "temp"; u] b).
  Inductive i_fatal : iwriter * fs -> Prop :=
  | i_fatal_ser buf k ks m s : buf !! k = Some m -> idx_ser_fails m -> i_fatal (mkI buf (ILoop (k :: ks)), s)
  | i_fatal_mkdir buf k ks b s : mkdir_all s [k; "temp"] = None -> i_fatal (mkI buf (IMkdir k ks b), s)
  | i_fatal_open buf k ks b u s : open_trunc s [k; "temp"; u] = None -> i_fatal (mkI buf (IOpen k ks b), s).
End index_writer.

(* ------------------------------------------------------------------ *)
(** * LoadIndexOnHD, DiskIO.go:92-151: run once by NewDiskStore and then again and
    again by the merger. *)
Inductive mpc :=
| MIdle                                                     (* DiskStorage.go:77 sleeping *)
| MFields (fs : list string)                                (* :96 loop head, fields left *)
| MList (f : string) (fs : list string)                     (* :99 *)
| MIndex (f : string) (fs files : list string)              (* :101 *)
| MFrag (f : string) (fs files todo : list string) (td : gmap string set_data)    (* :106 loop head *)
| MMkdir (f : string) (fs files : list string) (td : gmap string set_data) (b : bytes)   (* :134 *)
| MSave (f : string) (fs files : list string) (td : gmap string set_data) (b : bytes) (pc : ss_pc)  (* :136 *)
| MDel (f : string) (fs todo : list string) (td : gmap string set_data)           (* :142 loop head *)
| MErr.                                                     (* an error was returned *)
(** [m_acc] is the map [index] under construction. *)
Record merger := mkM { m_acc : gmap string (gmap string set_data); m_pc : mpc }.

Definition add_all (s : set_data) (docs : list string) : set_data := fold_left (fun s d => set_step s (SAdd d)) docs s.
(** DiskIO.go:82-88: terms read from the index file; always a new set. *)
Definition td_index (td : gmap string set_data) (e : string * list string) : gmap string set_data :=
  <[e.1 := add_all set_new e.2]> td.
(** DiskIO.go:113-123: terms read from a fragment. *)
Definition td_fragment (td : gmap string set_data) (e : string * list string) : gmap string set_data :=
  <[e.1 := add_all (default set_new (td !! e.1)) e.2]> td.

Section merge.
  Variables (compress : bytes -> bytes) (decompress : bytes -> option bytes).

  (** ReadFileOnDisk, DecompressData and DeserializeIndex; [None] for an unreadable
      file.  A partially written file does not decompress. *)
  Definition read_index (c : option content) : option (gmap string (gmap string bool)) :=
    match c with Some (Whole b) => T ← decompress b; deserialize_index T | _ => None end.

  (** :93 *)
  Inductive g_start (s : fs) : merger -> Prop :=
  | g_start_intro ns : lists_dirs s [] ns -> g_start s (mkM ∅ (MFields ns)).
  Inductive g_step : merger * fs -> merger * fs -> Prop :=
  | g_temp acc f fs s s' : mkdir_all s [f; "temp"] = Some s' ->                       (* :97-98 *)
      g_step (mkM acc (MFields (f :: fs)), s) (mkM acc (MList f fs), s')
  | g_list acc f fs files s : lists_files s [f; "temp"] files ->                      (* :99 *)
      g_step (mkM acc (MList f fs), s) (mkM acc (MIndex f fs files), s)
  | g_no_index acc f fs files s : exists_path s [f; "index"] = false ->               (* :74-76 *)
      g_step (mkM acc (MIndex f fs files), s) (mkM acc (MFrag f fs files files ∅), s)
  | g_index acc f fs files m es s : read_index (fs_files s !! [f; "index"]) = Some m -> visits_index m es ->   (* :78-88 *)
      g_step (mkM acc (MIndex f fs files), s) (mkM acc (MFrag f fs files files (fold_left td_index es ∅)), s)
  | g_frag acc f fs files u todo td m es s :                                          (* :107-123 *)
      read_index (fs_files s !! [f; "temp"; u]) = Some m -> visits_index m es ->
      g_step (mkM acc (MFrag f fs files (u :: todo) td), s) (mkM acc (MFrag f fs files todo (fold_left td_fragment es td)), s)
  | g_ser acc f fs files td T s : idx_ser td T ->                                     (* :127-132 *)
      g_step (mkM acc (MFrag f fs files [] td), s) (mkM acc (MMkdir f fs files td (compress T)), s)
  | g_mkdir acc f fs files td b s s' : mkdir_all s [f] = Some s' ->                   (* :134 *)
      g_step (mkM acc (MMkdir f fs files td b), s) (mkM acc (MSave f fs files td b SSOpen), s')
  | g_save acc f fs files td b pc s pc' s' : ss_step [f] "index" b (pc, s) = Some (pc', s') ->    (* :136 *)
      g_step (mkM acc (MSave f fs files td b pc), s) (mkM acc (MSave f fs files td b pc'), s')
  | g_saved acc f fs files td b s :
      g_step (mkM acc (MSave f fs files td b SSOk), s) (mkM acc (MDel f fs files td), s)
  | g_del acc f fs u todo td s s' : remove s [f; "temp"; u] = Some s' ->              (* :143-144 *)
      g_step (mkM acc (MDel f fs (u :: todo) td), s) (mkM acc (MDel f fs todo td), s')
  | g_next acc f fs td s :                                                            (* :125, next field *)
      g_step (mkM acc (MDel f fs [] td), s) (mkM (<[f := td]> acc) (MFields fs), s)
  | g_index_err acc f fs files s : exists_path s [f; "index"] = true -> fs_files s !! [f; "index"] = None ->   (* :79 fails *)
      g_step (mkM acc (MIndex f fs files), s) (mkM acc MErr, s)
  | g_frag_err acc f fs files u todo td s : fs_files s !! [f; "temp"; u] = None ->    (* :109 *)
      g_step (mkM acc (MFrag f fs files (u :: todo) td), s) (mkM acc MErr, s)
  | g_save_err acc f fs files td b s :                                                (* :137 *)
      g_step (mkM acc (MSave f fs files td b SSErr), s) (mkM acc MErr, s)
  | g_del_err acc f fs u todo td s : remove s [f; "temp"; u] = None ->                (* :145 *)
      g_step (mkM acc (MDel f fs (u :: todo) td), s) (mkM acc MErr, s).
  (** CreteDirIfNotExist fails, or a file that cannot be decompressed or decoded. *)
  Inductive g_fatal : merger * fs -> Prop :=
  | g_fatal_temp acc f fs s : mkdir_all s [f; "temp"] = None -> g_fatal (mkM acc (MFields (f :: fs)), s)
  | g_fatal_index acc f fs files s : is_Some (fs_files s !! [f; "index"]) -> read_index (fs_files s !! [f; "index"]) = None ->
      g_fatal (mkM acc (MIndex f fs files), s)
  | g_fatal_frag acc f fs files u todo td s :
      is_Some (fs_files s !! [f; "temp"; u]) -> read_index (fs_files s !! [f; "temp"; u]) = None ->
      g_fatal (mkM acc (MFrag f fs files (u :: todo) td), s)
  | g_fatal_ser acc f fs files td s : idx_ser_fails td -> g_fatal (mkM acc (MFrag f fs files [] td), s)
  | g_fatal_mkdir acc f fs files td b s : mkdir_all s [f] = None -> g_fatal (mkM acc (MMkdir f fs files td b), s).

  (** DiskIO.go:40-60, the loop body on one directory; [None] is a panic or an error. *)
  Definition load_metric (s : fs) (acc : option (gmap string Z * gmap string Z)) (f : string) : option (gmap string Z * gmap string Z) :=
    match acc with
    | None => None
    | Some (size, len) =>
        if exists_path s [f; "metrics"] then
          match fs_files s !! [f; "metrics"] with
          | Some (Whole b) =>
              T ← decompress b;
              r ← deserialize_metrics T;
              Some (<[r.1.1 := r.1.2]> size, <[r.1.1 := r.2]> len)
          | _ => None
          end
        else Some (size, len)
    end.
  Definition load_metrics (s : fs) (ns : list string) : option (gmap string Z * gmap string Z) :=
    fold_left (load_metric s) ns (Some (∅, ∅)).
  (** DiskIO.go:23-38 *)
  Definition load_nft1 (s : fs) (acc : option (gmap string (gmap string Z))) (f : string) : option (gmap string (gmap string Z)) :=
    match acc with
    | None => None
    | Some nft =>
        if exists_path s [f; "nfterm"] then
          match fs_files s !! [f; "nfterm"] with
          | Some (Whole b) =>
              T ← decompress b;
              m ← deserialize_nft T;
              Some (<[f := m]> nft)
          | _ => None
          end
        else Some nft
    end.
  Definition load_nft (s : fs) (ns : list string) : option (gmap string (gmap string Z)) :=
    fold_left (load_nft1 s) ns (Some ∅).
  (** DiskIO.go:62-69; [Some None] is the result [nil, false]; [None] a panic. *)
  Definition load_doc (s : fs) (id : string) : option (option (gmap string field)) :=
    match fs_files s !! ["docs"; "metrics"; id] with
    | None => Some None
    | Some Torn => None
    | Some (Whole b) => T ← decompress b; m ← deserialize_field_map T; Some (Some m)
    end.
End merge.

(* ------------------------------------------------------------------ *)
(** * The client's side, DiskStorage.go *)

(** DiskStorage.go:11-23.  A map[string]model.Field is a reference: the cache stores
    addresses in [c_heap]. *)
Record cmem := mkC {
  c_index : gmap string (gmap string set_data);
  c_length : gmap string Z;
  c_size : gmap string Z;
  c_nft : gmap string (gmap string Z);
  c_cache : lru nat;
  c_heap : gmap nat (gmap string field)
}.
Definition set_index (m : cmem) x := mkC x (c_length m) (c_size m) (c_nft m) (c_cache m) (c_heap m).
Definition set_nft (m : cmem) x := mkC (c_index m) (c_length m) (c_size m) x (c_cache m) (c_heap m).
Definition set_cache (m : cmem) x h := mkC (c_index m) (c_length m) (c_size m) (c_nft m) x h.

(** Getters, DiskStorage.go:89-116 *)
Definition disk_get_nft (m : cmem) (f : string) (terms : list string) : gmap string Z :=
  fold_left (fun tmp t => <[t := geti (default ∅ (c_nft m !! f)) t]> tmp) terms ∅.
Definition disk_get_length (m : cmem) (f : string) : Z := geti (c_length m) f.
Definition disk_get_size (m : cmem) (f : string) : Z := geti (c_size m) f.
Definition disk_get_index (m : cmem) (f : string) : gmap string set_data := default ∅ (c_index m !! f).
Definition disk_get_documents (m : cmem) (f t : string) : option set_data :=
  match c_index m !! f with
  | Some idx => match idx !! t with Some s => Some s | None => None end
  | None => None
  end.

(** Where the client goroutine is.  The arguments doc, fld are those of the call in
    progress; [full] tells SaveOrUpdate from a bare UpdateIndex. *)
Inductive cpc :=
| CIdle
| CSave (d : string) (x : field)                                       (* :224, :142-143 *)
| CFieldSend (d : string) (x : field)                                  (* :145 *)
| CIndex (full : bool) (d : string) (x : field)                        (* :193-199 *)
| CIndexLoop (full : bool) (d : string) (x : field) (ks : list string) (* :199 loop head *)
| CIndexSend (full : bool) (d : string) (x : field) (t : string) (ks : list string)   (* :205, :212 *)
| CNft (d : string) (x : field)                                        (* :153-158 *)
| CNftLoop (d : string) (x : field) (ft : gmap string Z) (ks : list string)           (* :158 loop head *)
| CNftSend (d : string) (x : field) (ft : gmap string Z) (t : string) (ks : list string)  (* :160 *)
| CDoc (d : string) (x : field)                                        (* :175-182 *)
| CDocSend (d : string) (x : field) (l : nat)                          (* :184 *)
| CGet (ids0 : list string) (f : string) (ids : list string) (acc : gmap string field)      (* :121 loop head *)
| CGetLoad (ids0 : list string) (f : string) (id : string) (ids : list string) (acc : gmap string field)  (* :128 *)
| CGot (ids0 : list string) (f : string) (acc : gmap string field).    (* :137, the result *)

Section client.
  Variable decompress : bytes -> option bytes.

  (** Steps that involve neither a channel nor the file maps shared with the document
      writer.  In UpdateNumberFieldTerm the local variable [fieldTerm] may be the map
      stored in d.numberFieldTerm; with one client that is not observable, so the
      result is stored at the end only. *)
  Inductive c_step (s : fs) : cmem * cpc -> cmem * cpc -> Prop :=
  | c_save m d x :                                                     (* :142-143 *)
      c_step s (m, CSave d x)
        (mkC (c_index m) (addi (c_length m) (f_name x) (f_length x)) (addi (c_size m) (f_name x) 1) (c_nft m) (c_cache m) (c_heap m),
         CFieldSend d x)
  | c_index_begin m full d x ks : range_order (f_tf x) ks ->           (* :193-197 *)
      c_step s (m, CIndex full d x)
        ((match c_index m !! f_name x with Some _ => m | None => set_index m (<[f_name x := ∅]> (c_index m)) end),
         CIndexLoop full d x ks)
  | c_index_term m full d x t ks idx : c_index m !! f_name x = Some idx ->     (* :200-204, 211 *)
      c_step s (m, CIndexLoop full d x (t :: ks))
        (set_index m (<[f_name x := index_term d idx t]> (c_index m)), CIndexSend full d x t ks)
  | c_index_end m full d x :
      c_step s (m, CIndexLoop full d x []) (m, if full then CNft d x else CIdle)
  | c_nft_begin m d x ks : range_order (f_tf x) ks ->                  (* :153-156 *)
      c_step s (m, CNft d x) (m, CNftLoop d x (default ∅ (c_nft m !! f_name x)) ks)
  | c_nft_term m d x ft t ks :                                         (* :159 *)
      c_step s (m, CNftLoop d x ft (t :: ks)) (m, CNftSend d x (addi ft t 1) t ks)
  | c_nft_end m d x ft :                                               (* :167 *)
      c_step s (m, CNftLoop d x ft []) (set_nft m (<[f_name x := ft]> (c_nft m)), CDoc d x)
  | c_get_hit m ids0 f id ids acc c' e l fd :                          (* :122-126 *)
      lru_get (c_cache m) id = Some (c', Some e) -> lru_deref c' e = Some l -> c_heap m !! l = Some fd ->
      c_step s (m, CGet ids0 f (id :: ids) acc)
        (set_cache m c' (c_heap m), CGet ids0 f ids (match fd !! f with Some x => <[id := x]> acc | None => acc end))
  | c_get_miss m ids0 f id ids acc c' :
      lru_get (c_cache m) id = Some (c', None) ->
      c_step s (m, CGet ids0 f (id :: ids) acc) (set_cache m c' (c_heap m), CGetLoad ids0 f id ids acc)
  | c_load_none m ids0 f id ids acc : load_doc decompress s id = Some None ->   (* :128 not ok *)
      c_step s (m, CGetLoad ids0 f id ids acc) (m, CGet ids0 f ids acc)
  | c_load_some m ids0 f id ids acc fd l c' :                          (* :128-133 *)
      load_doc decompress s id = Some (Some fd) -> c_heap m !! l = None -> lru_put (c_cache m) id l = Some c' ->
      c_step s (m, CGetLoad ids0 f id ids acc)
        (set_cache m c' (<[l := fd]> (c_heap m)), CGet ids0 f ids (match fd !! f with Some x => <[id := x]> acc | None => acc end))
  | c_get_end m ids0 f acc : c_step s (m, CGet ids0 f [] acc) (m, CGot ids0 f acc)
  | c_got m ids0 f acc : c_step s (m, CGot ids0 f acc) (m, CIdle).

  (** :175-182 UpdateFieldDocument up to the send; [l] is the map written to. *)
  Inductive c_doc : cmem * cpc -> nat -> cmem * cpc -> Prop :=
  | c_doc_hit m d x c1 e l fd c2 :
      lru_get (c_cache m) d = Some (c1, Some e) -> lru_deref c1 e = Some l -> c_heap m !! l = Some fd ->
      lru_put c1 d l = Some c2 ->
      c_doc (m, CDoc d x) l (set_cache m c2 (<[l := <[f_name x := x]> fd]> (c_heap m)), CDocSend d x l)
  | c_doc_miss m d x c1 l c2 :
      lru_get (c_cache m) d = Some (c1, None) -> c_heap m !! l = None -> lru_put c1 d l = Some c2 ->
      c_doc (m, CDoc d x) l (set_cache m c2 (<[l := {[f_name x := x]}]> (c_heap m)), CDocSend d x l).

  (** Panics in the client: the cache (capacity 0) or an undecodable document file. *)
  Inductive c_fatal (s : fs) : cmem * cpc -> Prop :=
  | c_fatal_get m ids0 f id ids acc : lru_get (c_cache m) id = None -> c_fatal s (m, CGet ids0 f (id :: ids) acc)
  | c_fatal_load m ids0 f id ids acc : load_doc decompress s id = None -> c_fatal s (m, CGetLoad ids0 f id ids acc)
  | c_fatal_load_put m ids0 f id ids acc fd l : load_doc decompress s id = Some (Some fd) -> lru_put (c_cache m) id l = None ->
      c_fatal s (m, CGetLoad ids0 f id ids acc)
  | c_fatal_doc_get m d x : lru_get (c_cache m) d = None -> c_fatal s (m, CDoc d x)
  | c_fatal_doc_put m d x c1 r l : lru_get (c_cache m) d = Some (c1, r) -> lru_put c1 d l = None -> c_fatal s (m, CDoc d x).
End client.

(* ------------------------------------------------------------------ *)
(** * The whole system *)
Record up := mkUp {
  u_mem : cmem; u_pc : cpc;
  u_ich : list posting;                 (* the channel indexCh, oldest first *)
  u_mw : writer (Z * Z); u_nw : writer (gmap string Z); u_dw : writer nat;
  u_iw : iwriter; u_mg : merger
}.
(** The process: not running, inside NewDiskStore, or running. *)
Inductive proc := Down | Loading (g : merger) | Up (u : up).

(** Ghost history: what happened, oldest first.  It never influences a step. *)
Inductive event :=
| EOpened                                      (* NewDiskStore returned a store *)
| ECall (c : call)                             (* the client called SaveOrUpdate or UpdateIndex *)
| EGet (ids : list string) (f : string)        (* the client called GetFields *)
| ENft (f t : string) (n : Z)                  (* the nfterm writer received count n for term t of f *)
| ENftSaved (f : string)                       (* the nfterm writer has replaced the file of f *)
| ECrash.                                      (* the process ended *)
Record sys := mkSys { y_fs : fs; y_proc : proc; y_log : list event }.

Section system.
  Variables (compress : bytes -> bytes) (decompress : bytes -> option bytes) (cache_size : Z).

  Notation mw_step := (w_step compress m_dir m_name m_ser).
  Notation nw_step := (w_step compress n_dir n_name n_ser).
  Notation dw_step h := (w_step compress d_dir d_name (d_ser h)).

  (** The document writer is iterating over the map at [l]: a write to it now is a
      data race, which the Go runtime reports as a fatal error. *)
  Definition iterating (dw : writer nat) (l : nat) : Prop :=
    exists k ks T, w_pc dw = WIter k ks T /\ w_buf dw !! k = Some l.

  (** The nfterm writer's file-replaced event. *)
  Definition nft_event (w : writer (gmap string Z)) : list event :=
    match w_pc w with WSave k _ _ SSOk => [ENftSaved k] | _ => [] end.

  (** Steps of the running process other than ticks and calls. *)
  Inductive up_step : up * fs -> list event -> up * fs -> Prop :=
  | u_client m pc m' pc' ich mw nw dw iw mg s :
      c_step decompress s (m, pc) (m', pc') ->
      up_step (mkUp m pc ich mw nw dw iw mg, s) [] (mkUp m' pc' ich mw nw dw iw mg, s)
  | u_doc m pc l m' pc' ich mw nw dw iw mg s :
      c_doc (m, pc) l (m', pc') -> ~ iterating dw l ->
      up_step (mkUp m pc ich mw nw dw iw mg, s) [] (mkUp m' pc' ich mw nw dw iw mg, s)
  (* DiskStorage.go:145 with DiskIO.go:277-281: rendezvous on the unbuffered fieldCh *)
  | u_send_field m d x ich mb nw dw iw mg s :
      up_step (mkUp m (CFieldSend d x) ich (mkW mb WIdle) nw dw iw mg, s) []
        (mkUp m (CIndex true d x) ich
           (mkW (m_recv mb (f_name x) (geti (c_size m) (f_name x)) (geti (c_length m) (f_name x))) WIdle) nw dw iw mg, s)
  (* DiskStorage.go:205, 212: indexCh has capacity 100 *)
  | u_send_index m full d x t ks ich mw nw dw iw mg s : (length ich < 100)%nat ->
      up_step (mkUp m (CIndexSend full d x t ks) ich mw nw dw iw mg, s) []
        (mkUp m (CIndexLoop full d x ks) (ich ++ [mkPost (f_name x) t d]) mw nw dw iw mg, s)
  (* DiskIO.go:332-349 *)
  | u_recv_index m pc p ich mw nw dw ib mg s :
      up_step (mkUp m pc (p :: ich) mw nw dw (mkI ib IIdle) mg, s) []
        (mkUp m pc ich mw nw dw (mkI (i_recv ib p) IIdle) mg, s)
  (* DiskStorage.go:160 with DiskIO.go:233-244 *)
  | u_send_nft m d x ft t ks ich mw nb dw iw mg s :
      up_step (mkUp m (CNftSend d x ft t ks) ich mw (mkW nb WIdle) dw iw mg, s) [ENft (f_name x) t (geti ft t)]
        (mkUp m (CNftLoop d x ft ks) ich mw (mkW (n_recv nb (f_name x) t (geti ft t)) WIdle) dw iw mg, s)
  (* DiskStorage.go:184 with DiskIO.go:200-203; SaveOrUpdate returns *)
  | u_send_doc m d x l ich mw nw db iw mg s :
      up_step (mkUp m (CDocSend d x l) ich mw nw (mkW db WIdle) iw mg, s) []
        (mkUp m CIdle ich mw nw (mkW (d_recv db d l) WIdle) iw mg, s)
  | u_metrics m pc ich mw mw' nw dw iw mg s s' : mw_step (mw, s) (mw', s') ->
      up_step (mkUp m pc ich mw nw dw iw mg, s) [] (mkUp m pc ich mw' nw dw iw mg, s')
  | u_nft m pc ich mw nw nw' dw iw mg s s' : nw_step (nw, s) (nw', s') ->
      up_step (mkUp m pc ich mw nw dw iw mg, s) (nft_event nw) (mkUp m pc ich mw nw' dw iw mg, s')
  | u_docs m pc ich mw nw dw dw' iw mg s s' : dw_step (c_heap m) (dw, s) (dw', s') ->
      up_step (mkUp m pc ich mw nw dw iw mg, s) [] (mkUp m pc ich mw nw dw' iw mg, s')
  | u_index m pc ich mw nw dw iw iw' mg s s' : i_step compress (iw, s) (iw', s') ->
      up_step (mkUp m pc ich mw nw dw iw mg, s) [] (mkUp m pc ich mw nw dw iw' mg, s')
  | u_merge m pc ich mw nw dw iw mg mg' s s' : g_step compress decompress (mg, s) (mg', s') ->
      up_step (mkUp m pc ich mw nw dw iw mg, s) [] (mkUp m pc ich mw nw dw iw mg', s')
  | u_merge_end m pc ich mw nw dw iw acc s :                      (* DiskStorage.go:82, next round *)
      up_step (mkUp m pc ich mw nw dw iw (mkM acc (MFields [])), s) [] (mkUp m pc ich mw nw dw iw (mkM ∅ MIdle), s).

  (** The tickers fire, the merger wakes up. *)
  Inductive up_tick : up * fs -> up * fs -> Prop :=
  | t_metrics m pc ich mw mw' nw dw iw mg s : w_tick mw mw' ->
      up_tick (mkUp m pc ich mw nw dw iw mg, s) (mkUp m pc ich mw' nw dw iw mg, s)
  | t_nft m pc ich mw nw nw' dw iw mg s : w_tick nw nw' ->
      up_tick (mkUp m pc ich mw nw dw iw mg, s) (mkUp m pc ich mw nw' dw iw mg, s)
  | t_docs m pc ich mw nw dw dw' iw mg s : w_tick dw dw' ->
      up_tick (mkUp m pc ich mw nw dw iw mg, s) (mkUp m pc ich mw nw dw' iw mg, s)
  | t_index m pc ich mw nw dw iw iw' mg s : i_tick iw iw' ->
      up_tick (mkUp m pc ich mw nw dw iw mg, s) (mkUp m pc ich mw nw dw iw' mg, s)
  | t_merge m pc ich mw nw dw iw acc mg' s : g_start s mg' ->
      up_tick (mkUp m pc ich mw nw dw iw (mkM acc MIdle), s) (mkUp m pc ich mw nw dw iw mg', s).

  (** The client makes a call. *)
  Inductive up_call : up -> list event -> up -> Prop :=
  | k_save m d x ich mw nw dw iw mg :
      up_call (mkUp m CIdle ich mw nw dw iw mg) [ECall (Save d x)] (mkUp m (CSave d x) ich mw nw dw iw mg)
  | k_index m d x ich mw nw dw iw mg :
      up_call (mkUp m CIdle ich mw nw dw iw mg) [ECall (Index d x)] (mkUp m (CIndex false d x) ich mw nw dw iw mg)
  | k_get m ids f ich mw nw dw iw mg :
      up_call (mkUp m CIdle ich mw nw dw iw mg) [EGet ids f] (mkUp m (CGet ids f ids ∅) ich mw nw dw iw mg).

  (** A goroutine panics or calls log.Fatalf. *)
  Inductive up_fatal : up * fs -> Prop :=
  | f_client m pc ich mw nw dw iw mg s : c_fatal decompress s (m, pc) -> up_fatal (mkUp m pc ich mw nw dw iw mg, s)
  | f_race m pc l m' pc' ich mw nw dw iw mg s : c_doc (m, pc) l (m', pc') -> iterating dw l ->
      up_fatal (mkUp m pc ich mw nw dw iw mg, s)
  | f_metrics m pc ich mw nw dw iw mg s : w_fatal m_dir m_ser_fails (mw, s) -> up_fatal (mkUp m pc ich mw nw dw iw mg, s)
  | f_nft m pc ich mw nw dw iw mg s : w_fatal n_dir n_ser_fails (nw, s) -> up_fatal (mkUp m pc ich mw nw dw iw mg, s)
  | f_docs m pc ich mw nw dw iw mg s : w_fatal d_dir (d_ser_fails (c_heap m)) (dw, s) -> up_fatal (mkUp m pc ich mw nw dw iw mg, s)
  | f_index m pc ich mw nw dw iw mg s : i_fatal (iw, s) -> up_fatal (mkUp m pc ich mw nw dw iw mg, s)
  | f_merge m pc ich mw nw dw iw mg s : g_fatal decompress (mg, s) -> up_fatal (mkUp m pc ich mw nw dw iw mg, s).

  (** DiskStorage.go:41-67: after LoadIndexOnHD, the metrics and the nfterm files are
      read (nothing else runs, so this is one step) and the store is built. *)
  Inductive opened (s : fs) (index : gmap string (gmap string set_data)) : up -> Prop :=
  | opened_intro ns1 ns2 size len nft :
      lists_dirs s [] ns1 -> load_metrics decompress s ns1 = Some (size, len) ->
      lists_dirs s [] ns2 -> load_nft decompress s ns2 = Some nft ->
      opened s index (mkUp (mkC index len size nft (lru_new cache_size) ∅) CIdle []
                        (mkW ∅ WIdle) (mkW ∅ WIdle) (mkW ∅ WIdle) (mkI ∅ IIdle) (mkM ∅ MIdle)).

  (** All steps of the system except crashes. *)
  Inductive live_step : sys -> sys -> Prop :=
  | y_start s s' g log : mkdir_all s [] = Some s' -> g_start s' g ->          (* :32 NewDiskIO, :35 *)
      live_step (mkSys s Down log) (mkSys s' (Loading g) log)
  | y_load s g s' g' log : g_step compress decompress (g, s) (g', s') ->
      live_step (mkSys s (Loading g) log) (mkSys s' (Loading g') log)
  | y_opened s acc u log : opened s acc u ->
      live_step (mkSys s (Loading (mkM acc (MFields []))) log) (mkSys s (Up u) (log ++ [EOpened]))
  | y_up u s ev u' s' log : up_step (u, s) ev (u', s') ->
      live_step (mkSys s (Up u) log) (mkSys s' (Up u') (log ++ ev))
  | y_tick u s u' s' log : up_tick (u, s) (u', s') ->
      live_step (mkSys s (Up u) log) (mkSys s' (Up u') log)
  | y_call u ev u' s log : up_call u ev u' ->
      live_step (mkSys s (Up u) log) (mkSys s (Up u') (log ++ ev)).
  (** The process can be killed at any moment; it ends by itself when a goroutine
      panics, when NewDiskStore fails or on log.Fatalf.  Only the files survive. *)
  Inductive crash_step : sys -> sys -> Prop :=
  | y_crash s p log : p <> Down -> crash_step (mkSys s p log) (mkSys s Down (log ++ [ECrash])).
  Definition sys_step (a b : sys) : Prop := live_step a b \/ crash_step a b.

  (** The root folder does not exist yet and nothing runs. *)
  Definition sys_init : sys := mkSys (mkFs ∅ ∅) Down [].
  Definition reachable : sys -> Prop := rtc sys_step sys_init.
End system.
