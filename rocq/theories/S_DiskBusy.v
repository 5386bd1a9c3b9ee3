(** Vocabulary for searches on the disk storage while the client saves (C64). *)
From Verif Require Import Base M_Field M_LRU S_Visits M_Memory M_File M_Serialize M_Num M_FanIn M_Search M_SearchConc M_Disk M_DiskBusy S_Disk.

Section busy.
  Context {N : numops}.
  (** The store is open and no SaveOrUpdate or Index is in progress. *)
  Definition client_idle (b : busy N) : Prop := exists u, y_proc (by_sys b) = Up u /\ u_pc u = CIdle.
  (** The search number [i], counted from the opening of the store, has returned. *)
  Definition search_returned (b : busy N) (i : nat) (terms : list string) (f : string) (r : search_result N) : Prop :=
    by_qs b !! i = Some (terms, f, SRet r).
  Definition nobody_searching (b : busy N) : Prop :=
    forall i terms f q, by_qs b !! i = Some (terms, f, q) -> exists r, search_returned b i terms f r.
  (** How many searches have been called. *)
  Definition searches (b : busy N) : nat := length (by_qs b).
  (** The calls made in the history of the folder. *)
  Definition history (b : busy N) : list call := calls_of (y_log (by_sys b)).
  (** The document was saved or indexed at some time, or is listed by the index. *)
  Definition doc_known (b : busy N) (d : string) : Prop :=
    (exists u f t, y_proc (by_sys b) = Up u /\ has (disk_get_index (u_mem u) f) t d) \/ exists c, c ∈ history b /\ call_doc' c = d.
  (** The cache has room for every document. *)
  Definition room (cache_size : Z) (b : busy N) : Prop :=
    exists D : gset string, (Z.of_nat (size D) <= cache_size)%Z /\ forall d, doc_known b d -> d ∈ D.
  Section runs.
    Variables (compress : bytes -> bytes) (decompress : bytes -> option bytes) (cache_size : Z) (ncpu : nat).
    (** A run without a crash. *)
    Definition busy_run : busy N -> busy N -> Prop := rtc (busy_live compress decompress cache_size N ncpu).
    (** The same, and no search is in progress at any moment of it. *)
    Definition quiet_run : busy N -> busy N -> Prop := rtc (fun a b => busy_live compress decompress cache_size N ncpu a b /\ nobody_searching b).
    (** [P] held at some moment between [a] and [b]. *)
    Definition some_moment (a b : busy N) (P : up -> Prop) : Prop :=
      exists m u, busy_run a m /\ busy_run m b /\ y_proc (by_sys m) = Up u /\ P u.
    (** The client makes one call, a SaveOrUpdate, which returns. *)
    Definition one_save (d : string) (x : field) (a b : busy N) : Prop :=
      client_idle a /\ client_idle b /\ exists ev, y_log (by_sys b) = y_log (by_sys a) ++ ev /\ calls_of ev = [Save d x].
    (** New returns: the store has just been opened. *)
    Definition opens (a b : busy N) (u : up) : Prop :=
      busy_live compress decompress cache_size N ncpu a b /\ (exists g, y_proc (by_sys a) = Loading g) /\ y_proc (by_sys b) = Up u.
    (** A step taken by the search number [i], by nobody else. *)
    Definition step_of_search (i : nat) (a b : busy N) : Prop :=
      busy_live compress decompress cache_size N ncpu a b /\ y_fs (by_sys b) = y_fs (by_sys a) /\ y_log (by_sys b) = y_log (by_sys a) /\
      by_doc b = by_doc a /\ length (by_qs b) = length (by_qs a) /\ (forall j, j <> i -> by_qs b !! j = by_qs a !! j) /\
      exists u u', y_proc (by_sys a) = Up u /\ y_proc (by_sys b) = Up u' /\ u_pc u' = u_pc u.
  End runs.
End busy.

(** The statistics of field [f] after some calls, from those before: the total length, the
    number of documents and the number of documents with a term (64-bit numbers). *)
Definition add_lengths (f : string) (n : Z) (h : list call) : Z :=
  fold_left (fun n c => match c with Save _ x => if bool_decide (f_name x = f) then wrap64 (n + f_length x) else n | Index _ _ => n end) h n.
Definition add_docs (f : string) (n : Z) (h : list call) : Z :=
  fold_left (fun n c => match c with Save _ x => if bool_decide (f_name x = f) then wrap64 (n + 1) else n | Index _ _ => n end) h n.
Definition add_term (f t : string) (n : Z) (h : list call) : Z :=
  fold_left (fun n c => match c with Save _ x => if bool_decide (f_name x = f /\ is_Some (f_tf x !! t)) then wrap64 (n + 1) else n | Index _ _ => n end) h n.
