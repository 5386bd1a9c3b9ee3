(** Several goroutines calling SaveOrUpdate and UpdateIndex on one storage without a
    lock (main.go:118-155: every HTTP request is served by its own goroutine and calls
    InvertedIndex.IndexDocument, which calls SaveOrUpdate once per field).

    Every read of a map and every write to a map is one step; steps of different
    goroutines interleave freely.  The maps and sets stored inside other maps are
    references: addresses in the heaps below.  Simplifications: a single map access is
    atomic (the Go runtime may instead stop the process with "concurrent map writes":
    see [collide]); memory is sequentially consistent.
    With [disk = false] this is storage/Memory.go.  With [disk = true] it is the part
    of storage/DiskStorage.go:141-216 that works on the in-memory maps: the same
    statements in another order, without the channel sends (which change none of the
    maps) and without the document cache. *)
From Verif Require Import Base M_Field M_Memory.
#[local] Open Scope Z_scope.

(** storage/Memory.go:7-13 with references made explicit *)
Record shared := mkSh {
  k_size : gmap string Z; k_length : gmap string Z;
  k_index : gmap string nat;                       (* field -> its index map *)
  k_maps : gmap nat (gmap string nat);             (* index maps: term -> its set *)
  k_sets : gmap nat set_data;
  k_nft : gmap string nat; k_nfts : gmap nat (gmap string Z);
  k_fdoc : gmap string nat; k_fdocs : gmap nat (gmap string field)
}.
(** storage/Memory.go:38-46  NewMemory *)
Definition sh_new : shared := mkSh ∅ ∅ ∅ ∅ ∅ ∅ ∅ ∅ ∅.
Definition set_ksize (s : shared) v := mkSh v (k_length s) (k_index s) (k_maps s) (k_sets s) (k_nft s) (k_nfts s) (k_fdoc s) (k_fdocs s).
Definition set_klength (s : shared) v := mkSh (k_size s) v (k_index s) (k_maps s) (k_sets s) (k_nft s) (k_nfts s) (k_fdoc s) (k_fdocs s).
Definition set_kindex (s : shared) i m st := mkSh (k_size s) (k_length s) i m st (k_nft s) (k_nfts s) (k_fdoc s) (k_fdocs s).
Definition set_knft (s : shared) n m := mkSh (k_size s) (k_length s) (k_index s) (k_maps s) (k_sets s) n m (k_fdoc s) (k_fdocs s).
Definition set_kfdoc (s : shared) d m := mkSh (k_size s) (k_length s) (k_index s) (k_maps s) (k_sets s) (k_nft s) (k_nfts s) d m.

(** What the getters of the Storage interface read. *)
Definition sets_at (s : shared) (l : nat) : gmap string set_data := (fun a : nat => default (∅ : set_data) (k_sets s !! a)) <$> default (∅ : gmap string nat) (k_maps s !! l).
Definition fields_at (s : shared) (l : nat) : gmap string field := default ∅ (k_fdocs s !! l).
Definition counts_at (s : shared) (l : nat) : gmap string Z := default ∅ (k_nfts s !! l).
Definition view (s : shared) : memory :=
  mkMem (sets_at s <$> k_index s) (fields_at s <$> k_fdoc s) (k_length s) (k_size s) (counts_at s <$> k_nft s).

(** Where a goroutine is.  [full]: inside SaveOrUpdate, not UpdateIndex. *)
Inductive tpc :=
| TIdle                                                         (* between two calls *)
| TDoc (d : string) (x : field)                                 (* Memory.go:115 read *)
| TDocW (d : string) (x : field) (o : option nat)               (* :116, :118 write *)
| TSize (full : bool) (d : string) (x : field)                  (* :16 read *)
| TSizeW (full : bool) (d : string) (x : field) (v : Z)         (* :16 write *)
| TLen (full : bool) (d : string) (x : field)                   (* :17 read *)
| TLenW (full : bool) (d : string) (x : field) (v : Z)          (* :17 write *)
| TIdx (full : bool) (d : string) (x : field)                   (* :19 read *)
| TIdxNew (full : bool) (d : string) (x : field)                (* :22-23 *)
| TLoop (full : bool) (d : string) (x : field) (l : nat) (ks : list string)   (* :26-27 read *)
| TSet (full : bool) (d : string) (x : field) (l : nat) (t : string) (ks : list string) (o : option nat)  (* :28-34 *)
| TNft (d : string) (x : field)                                 (* :102-105 *)
| TNftLoop (d : string) (x : field) (l : nat) (ks : list string)              (* :107-108 read *)
| TNftW (d : string) (x : field) (l : nat) (t : string) (ks : list string) (v : Z).   (* :108 write *)

Section conc.
  Variable disk : bool.
  (** The first statement of a call: Memory.go:96-97 and :15-16; DiskStorage.go:222-227
      (UpdateFieldSizeLength, UpdateIndex, UpdateNumberFieldTerm) and :191-193. *)
  Definition t_enter (c : call) : tpc :=
    match c with
    | Save d x => if disk then TSize true d x else TDoc d x
    | Index d x => if disk then TIdx false d x else TSize false d x
    end.
  Inductive t_step : shared * tpc -> shared * tpc -> Prop :=
  | t_doc s d x : t_step (s, TDoc d x) (s, TDocW d x (k_fdoc s !! d))                                     (* Memory.go:115 *)
  | t_doc_old s d x l : t_step (s, TDocW d x (Some l))                                                     (* :116 *)
      (set_kfdoc s (k_fdoc s) (<[l := <[f_name x := x]> (default ∅ (k_fdocs s !! l))]> (k_fdocs s)), TSize true d x)
  | t_doc_new s d x l : k_fdocs s !! l = None -> t_step (s, TDocW d x None)                                (* :118 *)
      (set_kfdoc s (<[d := l]> (k_fdoc s)) (<[l := {[f_name x := x]}]> (k_fdocs s)), TSize true d x)
  | t_size s full d x : t_step (s, TSize full d x) (s, TSizeW full d x (geti (k_size s) (f_name x)))       (* :16, DiskStorage.go:142 *)
  | t_size_w s full d x v : t_step (s, TSizeW full d x v) (set_ksize s (<[f_name x := wrap64 (v + 1)]> (k_size s)), TLen full d x)
  | t_len s full d x : t_step (s, TLen full d x) (s, TLenW full d x (geti (k_length s) (f_name x)))        (* :17, DiskStorage.go:143 *)
  | t_len_w s full d x v : t_step (s, TLenW full d x v) (set_klength s (<[f_name x := wrap64 (v + f_length x)]> (k_length s)), TIdx full d x)
  | t_idx_old s full d x l ks : k_index s !! f_name x = Some l -> range_order (f_tf x) ks ->               (* :19, DiskStorage.go:193 *)
      t_step (s, TIdx full d x) (s, TLoop full d x l ks)
  | t_idx_none s full d x : k_index s !! f_name x = None -> t_step (s, TIdx full d x) (s, TIdxNew full d x)
  | t_idx_new s full d x l ks : k_maps s !! l = None -> range_order (f_tf x) ks ->                         (* :22-23, DiskStorage.go:195-196 *)
      t_step (s, TIdxNew full d x) (set_kindex s (<[f_name x := l]> (k_index s)) (<[l := ∅]> (k_maps s)) (k_sets s), TLoop full d x l ks)
  | t_loop s full d x l t ks :                                                                             (* :27, DiskStorage.go:200 *)
      t_step (s, TLoop full d x l (t :: ks)) (s, TSet full d x l t ks (default ∅ (k_maps s !! l) !! t))
  | t_loop_end s full d x l : t_step (s, TLoop full d x l []) (s, if full then TNft d x else TIdle)
  | t_set_new s full d x l t ks a : k_sets s !! a = None ->                                                (* :29-31, DiskStorage.go:202-204 *)
      t_step (s, TSet full d x l t ks None)
        (set_kindex s (k_index s) (<[l := <[t := a]> (default ∅ (k_maps s !! l))]> (k_maps s)) (<[a := set_step set_new (SAdd d)]> (k_sets s)), TLoop full d x l ks)
  | t_set_old s full d x l t ks a :                                                                        (* :33, DiskStorage.go:211 *)
      t_step (s, TSet full d x l t ks (Some a))
        (set_kindex s (k_index s) (k_maps s) (<[a := set_step (default set_new (k_sets s !! a)) (SAdd d)]> (k_sets s)), TLoop full d x l ks)
  | t_nft_old s d x l ks : k_nft s !! f_name x = Some l -> range_order (f_tf x) ks ->                      (* :102, DiskStorage.go:153 *)
      t_step (s, TNft d x) (s, TNftLoop d x l ks)
  | t_nft_new s d x l ks : k_nft s !! f_name x = None -> k_nfts s !! l = None -> range_order (f_tf x) ks -> (* :102-105; not yet shared *)
      t_step (s, TNft d x) (set_knft s (k_nft s) (<[l := ∅]> (k_nfts s)), TNftLoop d x l ks)
  | t_nft_term s d x l t ks :                                                                              (* :108 read, DiskStorage.go:159 *)
      t_step (s, TNftLoop d x l (t :: ks)) (s, TNftW d x l t ks (geti (default ∅ (k_nfts s !! l)) t))
  | t_nft_w s d x l t ks v :                                                                               (* :108 write *)
      t_step (s, TNftW d x l t ks v) (set_knft s (k_nft s) (<[l := <[t := wrap64 (v + 1)]> (default ∅ (k_nfts s !! l))]> (k_nfts s)), TNftLoop d x l ks)
  | t_nft_end s d x l :                                                                                    (* :110, DiskStorage.go:167 *)
      t_step (s, TNftLoop d x l []) (set_knft s (<[f_name x := l]> (k_nft s)) (k_nfts s), TIdle).

  (** All goroutines; [cs_log] is a ghost record of the calls made so far. *)
  Record conc := mkConc { cs_sh : shared; cs_threads : list (tpc * list call); cs_log : list call }.
  Inductive conc_step : conc -> conc -> Prop :=
  | cs_call s ths log i c cs : ths !! i = Some (TIdle, c :: cs) ->
      conc_step (mkConc s ths log) (mkConc s (<[i := (t_enter c, cs)]> ths) (log ++ [c]))
  | cs_step s ths log i pc cs s' pc' : ths !! i = Some (pc, cs) -> t_step (s, pc) (s', pc') ->
      conc_step (mkConc s ths log) (mkConc s' (<[i := (pc', cs)]> ths) log).
  (** Goroutine number i is to make the calls [progs !! i]. *)
  Definition conc_start (s : shared) (progs : list (list call)) : conc := mkConc s (map (fun cs => (TIdle, cs)) progs) [].
  Definition all_done (y : conc) : Prop := forall th, th ∈ cs_threads y -> th = (TIdle, []).
  (** An execution that ends when all calls have returned. *)
  Definition conc_run (s : shared) (progs : list (list call)) (s' : shared) : Prop :=
    exists y, rtc conc_step (conc_start s progs) y /\ all_done y /\ cs_sh y = s'.
  (** The map a goroutine is about to write to. *)
  Inductive the_map := MFieldDocument | MDoc (l : nat) | MFieldSize | MFieldLength | MIndex | MIndexField (l : nat) | MSet (a : nat) | MNumberFieldTerm | MFieldTerm (l : nat).
  Definition writes_to (pc : tpc) : option the_map :=
    match pc with
    | TDocW _ _ (Some l) => Some (MDoc l) | TDocW _ _ None => Some MFieldDocument
    | TSizeW _ _ _ _ => Some MFieldSize | TLenW _ _ _ _ => Some MFieldLength
    | TIdxNew _ _ _ => Some MIndex
    | TSet _ _ _ l _ _ None => Some (MIndexField l) | TSet _ _ _ _ _ _ (Some a) => Some (MSet a)
    | TNftW _ _ l _ _ _ => Some (MFieldTerm l) | TNftLoop _ _ _ [] => Some MNumberFieldTerm
    | _ => None
    end.
  (** Two goroutines about to write to the same map: if they do so at the same time the
      runtime may stop the process. *)
  Definition collide (y : conc) : Prop :=
    exists i j p q m, i <> j /\ fst <$> cs_threads y !! i = Some p /\ fst <$> cs_threads y !! j = Some q /\ writes_to p = Some m /\ writes_to q = Some m.
End conc.
