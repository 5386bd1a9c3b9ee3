(** index/InvertedIndex.go:35-121 (Search) on the Memory storage while other goroutines
    call SaveOrUpdate and UpdateIndex on the same storage without a lock.

    The writers are those of M_Concurrent.v.  Every read of a map by the search is one
    step that reads the shared state of that moment; steps of the search's goroutines and
    of the writers interleave freely.  A search writes to no shared map, so other searches
    running at the same time change nothing and are left out.  Simplifications: a single
    map access is atomic (the Go runtime may instead stop the process: see [reads_map]);
    memory is sequentially consistent. *)
From Verif Require Import Base M_Field M_Memory M_Concurrent M_Num M_FanIn M_Search.

(** The fan-in of M_FanIn.v for workers that send while they compute:
      for _, p := range tasks { wg.Add(1); go func() { defer wg.Done()
          sem <- struct{}{}; ... ch <- x ...; <-sem }() }
      go func() { wg.Wait(); close(ch) }()
      for x := range ch { ... }
    A worker's own computation is a state [p : P]: it takes internal steps [pstep], sends
    [x] and goes on as [p'] when [psend p x p'], and is at its end when [pstop p]. *)
Section fan2.
  Context {P A : Type}.
  Variables (pstep : P -> P -> Prop) (psend : P -> A -> P -> Prop) (pstop : P -> Prop).
  Variables (ccap scap : nat).
  Inductive worker2 := VAcquire (p : P) | VRun (p : P) | VFinish.
  Record fan2 := mkFan2 {
    f2_main : main_pc P; f2_workers : list worker2;
    f2_wg : nat;                  (* WaitGroup counter *)
    f2_sem : nat;                 (* tokens in the semaphore channel *)
    f2_chan : list A;             (* buffered messages, oldest first *)
    f2_closer : closer_pc;
    f2_got : list A;              (* messages received so far, in order *)
    f2_panic : bool               (* send on a closed channel *)
  }.
  Definition fan2_init (sem0 : nat) (tasks : list P) : fan2 := mkFan2 (MSpawn tasks) [] 0 sem0 [] CNone [] false.
  (** InvertedIndex.go:49-82, 86-114.  A panicked program takes no further step. *)
  Inductive fan2_step : fan2 -> fan2 -> Prop :=
  | f2_spawn p todo ws wg sem ch cl got :                                              (* :51-52, :88-89 *)
      fan2_step (mkFan2 (MSpawn (p :: todo)) ws wg sem ch cl got false)
                (mkFan2 (MSpawn todo) (ws ++ [VAcquire p]) (S wg) sem ch cl got false)
  | f2_closer_go ws wg sem ch got :                                                    (* :65, :103 *)
      fan2_step (mkFan2 (MSpawn []) ws wg sem ch CNone got false)
                (mkFan2 MCollect ws wg sem ch CWait got false)
  | f2_acquire m ws1 ws2 p wg sem ch cl got : (sem < scap)%nat ->                      (* :55, :92 *)
      fan2_step (mkFan2 m (ws1 ++ VAcquire p :: ws2) wg sem ch cl got false)
                (mkFan2 m (ws1 ++ VRun p :: ws2) wg (S sem) ch cl got false)
  | f2_inner m ws1 ws2 p p' wg sem ch cl got : pstep p p' ->
      fan2_step (mkFan2 m (ws1 ++ VRun p :: ws2) wg sem ch cl got false)
                (mkFan2 m (ws1 ++ VRun p' :: ws2) wg sem ch cl got false)
  | f2_send m ws1 ws2 p x p' wg sem ch cl got : psend p x p' -> (length ch < ccap)%nat -> cl <> CClosed ->   (* :58, :95 *)
      fan2_step (mkFan2 m (ws1 ++ VRun p :: ws2) wg sem ch cl got false)
                (mkFan2 m (ws1 ++ VRun p' :: ws2) wg sem (ch ++ [x]) cl got false)
  | f2_handoff ws1 ws2 p x p' wg sem cl got : psend p x p' -> cl <> CClosed ->         (* :58 with :74, :95 with :109 *)
      fan2_step (mkFan2 MCollect (ws1 ++ VRun p :: ws2) wg sem [] cl got false)
                (mkFan2 MCollect (ws1 ++ VRun p' :: ws2) wg sem [] cl (got ++ [x]) false)
  | f2_send_closed m ws1 ws2 p x p' wg sem ch got : psend p x p' ->
      fan2_step (mkFan2 m (ws1 ++ VRun p :: ws2) wg sem ch CClosed got false)
                (mkFan2 m (ws1 ++ VRun p :: ws2) wg sem ch CClosed got true)
  | f2_release m ws1 ws2 p wg sem ch cl got : pstop p ->                               (* :61, :99 *)
      fan2_step (mkFan2 m (ws1 ++ VRun p :: ws2) wg (S sem) ch cl got false)
                (mkFan2 m (ws1 ++ VFinish :: ws2) wg sem ch cl got false)
  | f2_done m ws1 ws2 wg sem ch cl got :                                               (* :53, :90 *)
      fan2_step (mkFan2 m (ws1 ++ VFinish :: ws2) (S wg) sem ch cl got false)
                (mkFan2 m (ws1 ++ ws2) wg sem ch cl got false)
  | f2_close m ws sem ch got :                                                         (* :66-67, :104-105 *)
      fan2_step (mkFan2 m ws 0 sem ch CWait got false) (mkFan2 m ws 0 sem ch CClosed got false)
  | f2_recv ws wg sem x ch cl got :                                                    (* :74, :109 *)
      fan2_step (mkFan2 MCollect ws wg sem (x :: ch) cl got false) (mkFan2 MCollect ws wg sem ch cl (got ++ [x]) false)
  | f2_end ws wg sem got :
      fan2_step (mkFan2 MCollect ws wg sem [] CClosed got false) (mkFan2 MDone ws wg sem [] CClosed got false).
  Definition fan2_done (s : fan2) : Prop := f2_main s = MDone.
End fan2.
Arguments worker2 : clear implicits.
Arguments fan2 : clear implicits.

(** The goroutine of one term, InvertedIndex.go:52-62 with Memory.go:72-79 (GetDocuments).
    [RRange a must sent]: iterating over the set at [a]; [must] are the ids it held when
    the iteration began, [sent] those produced so far.  Go produces every entry present
    throughout once, and each entry added meanwhile once or not at all. *)
Inductive rd1 :=
| RTerm (t : string)                                                     (* Memory.go:73 *)
| RMap (t : string) (l : nat)                                            (* :74 *)
| RSet (a : nat)                                                         (* InvertedIndex.go:57, starting *)
| RRange (a : nat) (must : gset string) (sent : list string)             (* :57, next element *)
| RId (a : nat) (must : gset string) (sent : list string) (id : string)  (* :58 *)
| REnd.
Definition set_at (s : shared) (a : nat) : set_data := default (∅ : set_data) (k_sets s !! a).
Inductive rd1_step (f : string) (s : shared) : rd1 -> rd1 -> Prop :=
| r1_none t : k_index s !! f = None -> rd1_step f s (RTerm t) REnd
| r1_index t l : k_index s !! f = Some l -> rd1_step f s (RTerm t) (RMap t l)
| r1_noterm t l : default (∅ : gmap string nat) (k_maps s !! l) !! t = None -> rd1_step f s (RMap t l) REnd
| r1_term t l a : default (∅ : gmap string nat) (k_maps s !! l) !! t = Some a -> rd1_step f s (RMap t l) (RSet a)
| r1_range a : rd1_step f s (RSet a) (RRange a (dom (set_at s a)) [])
| r1_next a must sent id : is_Some (set_at s a !! id) -> id ∉ sent -> rd1_step f s (RRange a must sent) (RId a must sent id)
| r1_last a (must : gset string) sent : must ⊆ list_to_set sent -> rd1_step f s (RRange a must sent) REnd.
Inductive rd1_send : rd1 -> string -> rd1 -> Prop :=
| r1_send a must sent id : rd1_send (RId a must sent id) id (RRange a must (sent ++ [id])).
Definition rd1_stop (p : rd1) : Prop := p = REnd.

(** The goroutine of one batch, InvertedIndex.go:89-100 with Memory.go:81-94 (GetFields).
    The result map is the goroutine's own. *)
Inductive rd2 :=
| RDocs (ids : list string) (acc : gmap string field)                            (* Memory.go:84-85 *)
| RDoc (id : string) (l : nat) (ids : list string) (acc : gmap string field)     (* :86-87 *)
| ROut (kxs : list (string * field)).                                            (* InvertedIndex.go:94 *)
Inductive rd2_step (f : string) (s : shared) : rd2 -> rd2 -> Prop :=
| r2_none id ids acc : k_fdoc s !! id = None -> rd2_step f s (RDocs (id :: ids) acc) (RDocs ids acc)
| r2_doc id l ids acc : k_fdoc s !! id = Some l -> rd2_step f s (RDocs (id :: ids) acc) (RDoc id l ids acc)
| r2_nofield id l ids acc : fields_at s l !! f = None -> rd2_step f s (RDoc id l ids acc) (RDocs ids acc)
| r2_field id l ids acc x : fields_at s l !! f = Some x -> rd2_step f s (RDoc id l ids acc) (RDocs ids (<[id := x]> acc))
| r2_range (acc : gmap string field) kxs : kxs ≡ₚ map_to_list acc -> rd2_step f s (RDocs [] acc) (ROut kxs).
Inductive rd2_send : rd2 -> gmap string field -> rd2 -> Prop :=
| r2_send kx kxs : rd2_send (ROut (kx :: kxs)) {[ kx.1 := kx.2 ]} (ROut kxs).
Definition rd2_stop (p : rd2) : Prop := p = ROut [].

(** The calling goroutine. *)
Section search.
  Variables (N : numops) (ncpu : nat) (terms : list string) (f : string).
  Inductive search_pc :=
  | QLength                                                                              (* :39 *)
  | QSize (len : Z)                                                                      (* :40 *)
  | QNft (len size : Z) (ts : list string) (acc : gmap string Z)                         (* :43, Memory.go:50-51: NumberFieldTerm[fieldName] *)
  | QNftTerm (len size : Z) (t : string) (l : option nat) (ts : list string) (acc : gmap string Z)   (* Memory.go:51: [term] *)
  | QIds (len size : Z) (nft : gmap string Z) (w : fan2 rd1 string)                      (* :46-82 *)
  | QFields (len size : Z) (nft : gmap string Z) (w : fan2 rd2 (gmap string field))      (* :84-114 *)
  | QRet (r : search_result N).                                                          (* :116-120 *)
  (** One step of the search, the storage being [s]. *)
  Inductive search2_step (s : shared) : search_pc -> search_pc -> Prop :=
  | q_length : search2_step s QLength (QSize (geti (k_length s) f))
  | q_size len : search2_step s (QSize len) (QNft len (geti (k_size s) f) terms ∅)
  | q_nft len size t ts acc : search2_step s (QNft len size (t :: ts) acc) (QNftTerm len size t (k_nft s !! f) ts acc)
  | q_nft_term len size t l ts acc :
      search2_step s (QNftTerm len size t l ts acc)
        (QNft len size ts (<[t := match l with Some l => geti (counts_at s l) t | None => 0 end]> acc))
  | q_start len size acc : search2_step s (QNft len size [] acc) (QIds len size acc (fan2_init 0 (RTerm <$> terms)))
  | q_ids len size nft w w' :
      fan2_step (rd1_step f s) rd1_send rd1_stop (length terms) (ncpu * 2) w w' ->
      search2_step s (QIds len size nft w) (QIds len size nft w')
  | q_batches len size nft w : fan2_done w ->
      search2_step s (QIds len size nft w)
        (QFields len size nft (fan2_init (f2_sem w) ((fun b => RDocs b ∅) <$> batches_of (f2_got w))))
  | q_fields len size nft w w' :
      fan2_step (rd2_step f s) rd2_send rd2_stop (length terms) (ncpu * 2) w w' ->
      search2_step s (QFields len size nft w) (QFields len size nft w')
  | q_return len size nft w : fan2_done w ->
      search2_step s (QFields len size nft w)
        (QRet (mkResult (ndiv N (of_int N len) (of_int N size)) (merge_fields (f2_got w)) (of_int N size) nft)).
  (** The search and the writers. *)
  Inductive busy_step : conc * search_pc -> conc * search_pc -> Prop :=
  | b_write y y' q : conc_step false y y' -> busy_step (y, q) (y', q)
  | b_search y q q' : search2_step (cs_sh y) q q' -> busy_step (y, q) (y, q').
  Definition panics2 (q : search_pc) : Prop :=
    match q with QIds _ _ _ w => f2_panic w = true | QFields _ _ _ w => f2_panic w = true | _ => False end.
  (** The shared map a goroutine of the search is about to read, or is iterating over:
      where a writer is about to write to it too (M_Concurrent.writes_to), the runtime may
      stop the process ("concurrent map read and map write", "concurrent map iteration
      and map write"). *)
  Definition rd1_reads (p : rd1) : option the_map :=
    match p with
    | RTerm _ => Some MIndex | RMap _ l => Some (MIndexField l)
    | RSet a | RRange a _ _ | RId a _ _ _ => Some (MSet a) | REnd => None
    end.
  Definition rd2_reads (p : rd2) : option the_map :=
    match p with RDocs (_ :: _) _ => Some MFieldDocument | RDoc _ l _ _ => Some (MDoc l) | _ => None end.
  Inductive reads_map : search_pc -> the_map -> Prop :=
  | rm_length : reads_map QLength MFieldLength
  | rm_size len : reads_map (QSize len) MFieldSize
  | rm_nft len size t ts acc : reads_map (QNft len size (t :: ts) acc) MNumberFieldTerm
  | rm_nft_term len size t l ts acc : reads_map (QNftTerm len size t (Some l) ts acc) (MFieldTerm l)
  | rm_ids len size nft w p m : VRun p ∈ f2_workers w -> rd1_reads p = Some m -> reads_map (QIds len size nft w) m
  | rm_fields len size nft w p m : VRun p ∈ f2_workers w -> rd2_reads p = Some m -> reads_map (QFields len size nft w) m.
End search.
Arguments QLength {N}. Arguments QSize {N}. Arguments QNft {N}. Arguments QNftTerm {N}. Arguments QIds {N}. Arguments QFields {N}. Arguments QRet {N}.
Arguments panics2 {N}. Arguments reads_map {N}.
