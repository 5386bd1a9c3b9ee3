(** Vocabulary for searches on the disk storage while several goroutines save (C68). *)
From Verif Require Import Base M_Field M_LRU S_Visits M_Memory M_File M_Serialize M_Num M_FanIn M_Search M_Concurrent M_SearchConc M_Disk M_DiskBusy M_DiskMulti S_Concurrent S_Disk S_DiskMulti.

(** How many searches have been called since the store was opened. *)
Definition mu_searches (a : multi) : nat := length (mu_qs a).
(** The search number [i] has returned: the total length, the number of documents and the
    counts of the terms that it read, and the documents. *)
Definition mu_returned (a : multi) (i : nat) (terms : list string) (f : string) (len size : Z) (nft : gmap string Z) (docs : gmap string field) : Prop :=
  exists ncpu, mu_qs a !! i = Some (mkMQ ncpu terms f (MqRet len size nft docs)).
(** A send on a closed channel. *)
Definition msearch_panics (q : msearch) : Prop :=
  match q with MqIds _ _ _ w => f2_panic w = true | MqFields _ _ _ w => f2_panic w = true | _ => False end.
Section runs.
  Variables (compress : bytes -> bytes) (decompress : bytes -> option bytes) (cache_size : Z).
  (** A goroutine of a search is about to stop the process: an unreadable file, a failing
      cache. *)
  Definition mu_search_fatal (a : multi) : Prop :=
    exists u ncpu terms f len size nft w p, mu_open a u /\ mkMQ ncpu terms f (MqFields len size nft w) ∈ mu_qs a /\ VRun p ∈ f2_workers w /\
      bbatch_fatal decompress (y_fs (mu_sys a)) (u_mem u) p.
  (** A run without a crash. *)
  Definition mu_run : multi -> multi -> Prop := rtc (multi_live compress decompress cache_size).
  (** The process stays up at every moment of it, from [a] to [b]: the store is not closed
      and opened anew. *)
  Definition mu_session : multi -> multi -> Prop := rtc (fun a b => multi_live compress decompress cache_size a b /\ exists u, mu_open a u).
  (** The store is opened: the maps of [u] were loaded from the files. *)
  Definition mu_opens (a b : multi) (u : up) : Prop :=
    multi_live compress decompress cache_size a b /\ (exists g, y_proc (mu_sys a) = Loading g) /\ mu_open b u.
  (** [P] held of the maps at some moment between [a] and [b]. *)
  Definition mu_moment (a b : multi) (P : shared -> Prop) : Prop :=
    exists m u, mu_session a m /\ mu_session m b /\ mu_open m u /\ P (mu_sh m).
  (** A step taken by the search number [i], by nobody else: files, history, maps of the
      index and all other goroutines stay as they are. *)
  Definition mu_step_of (i : nat) (a b : multi) : Prop :=
    multi_live compress decompress cache_size a b /\ y_fs (mu_sys b) = y_fs (mu_sys a) /\ mu_log b = mu_log a /\ mu_sh b = mu_sh a /\ mu_threads b = mu_threads a /\
    mu_searches b = mu_searches a /\ (forall j, j <> i -> mu_qs b !! j = mu_qs a !! j) /\
    exists u u', mu_open a u /\ mu_open b u' /\ u_pc u' = u_pc u /\ u_ich u' = u_ich u /\ u_mw u' = u_mw u /\ u_nw u' = u_nw u /\ u_dw u' = u_dw u /\ u_iw u' = u_iw u /\ u_mg u' = u_mg u.
End runs.
