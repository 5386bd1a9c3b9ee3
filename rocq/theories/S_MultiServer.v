(** Vocabulary for the HTTP service on the disk storage with any number of requests at the
    same time (C69). *)
From Verif Require Import Base M_Text M_Language M_Field M_LRU S_Visits M_Memory M_File M_Serialize M_Num M_FanIn M_Search M_Concurrent M_SearchConc M_Disk M_DiskBusy M_DiskMulti M_Standard M_Server M_BusyServer M_MultiServer S_Server S_Concurrent S_Disk S_DiskMulti S_DiskQuery.

Section server.
  Context {N : numops}.
  (** The call number [k] of Standard.Search since the store was opened, for [queries], has
      returned [rs]. *)
  Definition ms_returned (x : mserver N) (k : nat) (queries : list (query N)) (rs : list (doc_score N)) : Prop :=
    exists w, ms_gets x !! k = Some (queries, w) /\ job_returns N w rs.
  (** How many calls of Standard.Search have been made. *)
  Definition ms_count (x : mserver N) : nat := length (ms_gets x).
  (** The history of the folder. *)
  Definition ms_log (x : mserver N) : list event := mu_log (ms_store x).
  (** What a query adds to the score of document [d], from what its Index.Search read: the
      total length, the number of documents, the counts of the terms, the documents. *)
  Definition ms_result : Type := (Z * Z) * (gmap string Z * gmap string field).
  Definition ms_adds (d : string) (qr : query N * ms_result) : option (num N) :=
    let '(q, ((len, size), (nft, docs))) := qr in
    match docs !! d with Some fld => Some (doc_bm25 N q (M_DiskMulti.answer N len size nft docs) fld) | None => None end.
  (** Index.Search number [i] has returned this. *)
  Definition ms_search (x : mserver N) (i : nat) (qr : query N * ms_result) : Prop :=
    let '(q, ((len, size), (nft, docs))) := qr in mu_returned (ms_store x) i (q_terms q) (q_field q) len size nft docs.
  (** A posted document that shares a term with the text, in its title or its text. *)
  Definition posted_text (bind : string -> option document) (terms : string -> list string) (x : mserver N) (text d : string) : Prop :=
    d <> "" /\ exists body doc t, body ∈ ms_past x ++ ms_now x /\ bind body = Some doc /\ d_id doc = d /\ t ∈ terms text /\ (t ∈ terms (d_title doc) \/ t ∈ terms (d_text doc)).
  (** Every posted id is a simple name, and not the name of another document's temporary
      file. *)
  Definition plain_ids (bind : string -> option document) (x : mserver N) : Prop :=
    forall body doc, body ∈ ms_past x ++ ms_now x -> bind body = Some doc -> d_id doc <> "" -> simple_name (d_id doc) /\ plain_doc (d_id doc).
  (** The document has not been posted since the store was opened. *)
  Definition not_posted (bind : string -> option document) (x : mserver N) (d : string) : Prop :=
    forall body doc, body ∈ ms_now x -> bind body = Some doc -> d_id doc <> d.
  Section runs.
    Variables (compress : bytes -> bytes) (decompress : bytes -> option bytes) (cache_size : Z).
    Variables (bind : string -> option document) (is_letter is_number : Z -> bool) (to_lower stem fold : string -> string) (ncpu : nat).
    Notation live := (mserver_live compress decompress cache_size bind is_letter is_number to_lower stem fold N ncpu).
    (** A run during which the process stays up. *)
    Definition ms_session : mserver N -> mserver N -> Prop := rtc (fun x y => live x y /\ exists u, mu_open (ms_store x) u).
    (** A run in which the process ends and is started again, and the store is opened: [u]
        is the store then. *)
    Definition ms_restarts (x y : mserver N) (u : up) : Prop :=
      exists x1 x2, mserver_step compress decompress cache_size bind is_letter is_number to_lower stem fold N ncpu x x1 /\ y_proc (mu_sys (ms_store x1)) = Down /\
        rtc live x1 x2 /\ (exists g, y_proc (mu_sys (ms_store x2)) = Loading g) /\ live x2 y /\ mu_open (ms_store y) u.
    (** A step of anybody but the handlers of POST requests and the background goroutines. *)
    Definition step_of_ms_gets (x y : mserver N) : Prop :=
      live x y /\ y_fs (mu_sys (ms_store y)) = y_fs (mu_sys (ms_store x)) /\ ms_log y = ms_log x /\ mu_sh (ms_store y) = mu_sh (ms_store x) /\ mu_threads (ms_store y) = mu_threads (ms_store x) /\
      ms_now y = ms_now x /\ ms_past y = ms_past x /\
      exists u u', mu_open (ms_store x) u /\ mu_open (ms_store y) u' /\ u_pc u' = u_pc u /\ u_ich u' = u_ich u /\ u_mw u' = u_mw u /\ u_nw u' = u_nw u /\ u_dw u' = u_dw u /\ u_iw u' = u_iw u /\ u_mg u' = u_mg u.
    (** A step of the handlers of POST requests and the background goroutines; no request
        arrives. *)
    Definition step_of_ms_posts (x y : mserver N) : Prop :=
      live x y /\ works compress decompress (ms_store x) (ms_store y) /\ ms_gets y = ms_gets x /\ ms_now y = ms_now x /\ ms_past y = ms_past x.
  End runs.
End server.
