(** Specification vocabulary for the disk storage. *)
From Verif Require Import Base M_Field M_LRU S_Visits M_Memory M_File M_Serialize M_Disk.
#[local] Open Scope Z_scope.

(** A name that filepath.Join keeps as one path component. *)
Fixpoint no_slash (s : string) : bool :=
  match s with EmptyString => true | String c s' => negb (Ascii.eqb c "/") && no_slash s' end.
Definition simple_name (s : string) : Prop := s <> "" /\ s <> "." /\ s <> ".." /\ no_slash s = true.

(** The calls covered: simple names, and the field is not called docs. *)
Definition call_doc' (c : call) : string := match c with Save d _ => d | Index d _ => d end.
Definition call_field' (c : call) : field := match c with Save _ x => x | Index _ x => x end.
Definition good_call (c : call) : Prop :=
  simple_name (call_doc' c) /\ simple_name (f_name (call_field' c)) /\ f_name (call_field' c) <> "docs".

(** The calls of the whole history; the calls since the store was last opened. *)
Definition calls_of (log : list event) : list call := omap (fun e => match e with ECall c => Some c | _ => None end) log.
Fixpoint since_open (log : list event) : option (list event) :=
  match log with
  | [] => None
  | e :: log' => match since_open log' with
                 | Some l => Some l
                 | None => match e with EOpened => Some log' | _ => None end
                 end
  end.
Definition good_log (log : list event) : Prop := forall c, c ∈ calls_of log -> good_call c.

(** Two stores answer alike: every getter except GetFields. *)
Definition same_answers (u : cmem) (m : memory) : Prop :=
  (forall f t, disk_get_documents u f t = mem_get_documents m f t) /\
  (forall f, disk_get_index u f = mem_get_index m f) /\
  (forall f terms, disk_get_nft u f terms = mem_get_nft m f terms) /\
  (forall f, disk_get_size u f = mem_get_size m f) /\
  (forall f, disk_get_length u f = mem_get_length m f).
Definition saves (h : list call) : list call := List.filter (fun c => match c with Save _ _ => true | Index _ _ => false end) h.
(** A memory store with the content of a disk store (stored fields apart). *)
Definition contents (u : cmem) : memory := mkMem (c_index u) ∅ (c_length u) (c_size u) (c_nft u).

(** NewDiskStore run to completion on a folder.  [loads]: some point inside it. *)
Section reopen.
  Variables (compress : bytes -> bytes) (decompress : bytes -> option bytes) (cache_size : Z).
  Definition loads (s : fs) (g : merger) (s' : fs) : Prop :=
    exists s0 g0, mkdir_all s [] = Some s0 /\ g_start s0 g0 /\ rtc (g_step compress decompress) (g0, s0) (g, s').
  (** The folder [s] is opened successfully: the store is [u], the folder is now [s']. *)
  Definition reopen (s : fs) (u : up) (s' : fs) : Prop :=
    exists acc, loads s (mkM acc (MFields [])) s' /\ opened decompress cache_size s' acc u.
End reopen.
(** Between two states of the same session (no crash, no reopening in between);
    the list holds the events that happened. *)
Inductive session (compress : bytes -> bytes) (decompress : bytes -> option bytes) (cache_size : Z) : sys -> list event -> sys -> Prop :=
| session_refl a : session compress decompress cache_size a [] a
| session_step a ev b ev' c : session compress decompress cache_size a ev b -> live_step compress decompress cache_size b c ->
    y_log c = y_log b ++ ev' -> session compress decompress cache_size a (ev ++ ev') c.
(** What is assumed of compress/gzip: reading back what was written. *)
Definition gzip_ok (compress : bytes -> bytes) (decompress : bytes -> option bytes) : Prop := forall b, decompress (compress b) = Some b.

(** Document frequencies: what the writer of field [f] has received since it last
    replaced the file (or since the store was opened), and the last count it received
    for a term in this session. *)
Definition nft_since_ev (f : string) (m : gmap string Z) (e : event) : gmap string Z :=
  match e with
  | EOpened => ∅
  | ENft g t n => if decide (g = f) then <[t := n]> m else m
  | ENftSaved g => if decide (g = f) then ∅ else m
  | _ => m
  end.
Definition nft_since (f : string) (log : list event) : gmap string Z := fold_left (nft_since_ev f) log ∅.
Definition nft_last_ev (f t : string) (r : option Z) (e : event) : option Z :=
  match e with
  | EOpened => None
  | ENft g t' n => if decide (g = f /\ t' = t) then Some n else r
  | _ => r
  end.
Definition nft_last (f t : string) (log : list event) : option Z := fold_left (nft_last_ev f t) log None.
(** The writer is replacing the file of [f]. *)
Definition saving {V} (w : writer V) (f : string) : Prop := exists ks b pc, w_pc w = WSave f ks b pc.

(** * The index *)
(** Document [d] is in the set of term [t]. *)
Definition has (m : gmap string set_data) (t d : string) : Prop := exists s, m !! t = Some s /\ is_Some (s !! d).
(** A saved posting: some call of the history put document [d] under term [t] of field [f]. *)
Definition saved_posting (log : list event) (f t d : string) : Prop :=
  exists c, c ∈ calls_of log /\ call_doc' c = d /\ f_name (call_field' c) = f /\ is_Some (f_tf (call_field' c) !! t).
Section index_files.
  Variable decompress : bytes -> option bytes.
  (** In a file that can be read as an index. *)
  Definition in_file (c : option content) (t d : string) : Prop := exists m, read_index decompress c = Some m /\ has m t d.
  Definition in_index_file (s : fs) (f t d : string) : Prop := in_file (fs_files s !! [f; "index"]) t d.
  Definition in_fragment (s : fs) (f t d : string) : Prop := exists u, in_file (fs_files s !! [f; "temp"; u]) t d.
  Definition on_disk (s : fs) (f t d : string) : Prop := in_index_file s f t d \/ in_fragment s f t d.
  (** The merger is between the two renames that replace the index file of [f]. *)
  Definition in_gap (g : merger) (f : string) : Prop := exists fs files td b, m_pc g = MSave f fs files td b SSRenameCur.
  (** On disk, or only in index_temp because the merger is between the two renames. *)
  Definition safe (s : fs) (g : merger) (f t d : string) : Prop :=
    on_disk s f t d \/ (in_gap g f /\ in_file (fs_files s !! [f; "index_temp"]) t d).
End index_files.
(** On its way to the disk: about to be sent, in the channel, or in the writer's buffer. *)
Definition in_flight (u : up) (f t d : string) : Prop :=
  (exists full x ks, u_pc u = CIndexSend full d x t ks /\ f_name x = f) \/ mkPost f t d ∈ u_ich u \/ has (default ∅ (i_buf (u_iw u) !! f)) t d.
(** The process is between the two renames that replace the index file of [f]. *)
Definition gap (y : sys) (f : string) : Prop :=
  match y_proc y with Down => False | Loading g => in_gap g f | Up u => in_gap (u_mg u) f end.
(** The posting is on disk (in the gap: possibly only in index_temp). *)
Definition kept (decompress : bytes -> option bytes) (y : sys) (f t d : string) : Prop :=
  on_disk decompress (y_fs y) f t d \/ (gap y f /\ in_file decompress (fs_files (y_fs y) !! [f; "index_temp"]) t d).
(** The process does not end between the two renames that replace the index file of [f]. *)
Definition no_gap_crash (f : string) (a b : sys) : Prop := crash_step a b -> ~ gap a f.
(** Nothing is on its way to the index files: no call in progress, empty channel and buffer. *)
Definition index_quiet (u : up) : Prop := u_pc u = CIdle /\ u_ich u = [] /\ i_buf (u_iw u) = ∅.
(** A partially written fragment. *)
Definition torn_fragment (s : fs) (f u : string) : Prop := fs_files s !! [f; "temp"; u] = Some Torn.

(** * Documents *)
(** The id is not the name of another document's temporary file. *)
Definition plain_doc (d : string) : Prop := forall k, d <> (k ++ "_temp")%string /\ d <> (k ++ "_old")%string.
(** The latest field saved for document [d] under each field name. *)
Definition doc_map_step (d : string) (m : gmap string field) (c : call) : gmap string field :=
  match c with Save d' x => if decide (d' = d) then <[f_name x := x]> m else m | Index _ _ => m end.
Definition doc_map (h : list call) (d : string) : gmap string field := fold_left (doc_map_step d) h ∅.
(** At most [n] distinct documents have been saved. *)
Definition docs_saved_at_most (n : Z) (h : list call) : Prop :=
  forall ks, NoDup ks -> (forall d, d ∈ ks -> exists x, Save d x ∈ h) -> Z.of_nat (length ks) <= n.
(** Document [d] was asked for. *)
Definition requested (log : list event) (d : string) : Prop := exists ids f, EGet ids f ∈ log /\ d ∈ ids.
(** The file of a document. *)
Definition doc_file (s : fs) (d : string) : option content := fs_files s !! ["docs"; "metrics"; d].
