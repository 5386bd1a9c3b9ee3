(** storage/DiskStorage.go:141-227 called by several goroutines at once (main.go:118-155:
    gin serves every POST request in a goroutine of its own, which calls
    InvertedIndex.IndexDocument and so SaveOrUpdate once per field; there is no lock).

    The background goroutines, the channels, the files, opening and crashes are those of
    M_Disk.v, with no call of its own in progress: its [u_pc] stays [CIdle].  The accesses
    of the callers to d.index, d.fieldSize, d.fieldLength and d.numberFieldTerm are those
    of M_Concurrent.v (with [disk = true]), on the maps [mu_sh]; of the memory in M_Disk.v
    only the document cache and its maps are used while the store is open.
    UpdateFieldDocument is that of M_DiskBusy.v.

    Any number of calls of InvertedIndex.Search (index/InvertedIndex.go:35-121; every GET
    request makes one per field of the query, each in a goroutine of its own) run at the
    same time.  Their reads of d.index, d.fieldSize, d.fieldLength and d.numberFieldTerm are
    those of M_SearchConc.v (DiskStorage.go:89-116 reads the same maps in the same order as
    Memory.go:48-79), on [mu_sh]; GetFields, which uses the document cache and the files, is
    that of M_DiskBusy.v.

    Every map access, call of the cache, file read and channel operation is one step; steps
    of all goroutines interleave freely.  Simplifications as in those files: a single map
    access is atomic and memory is sequentially consistent. *)
From Verif Require Import Base M_Field M_LRU S_Visits M_Memory M_File M_Serialize M_Num M_FanIn M_Search M_Concurrent M_SearchConc M_Disk M_DiskBusy.

(** What a goroutine has to do before the next access of M_Concurrent.v. *)
Inductive msg :=
| NoMsg
| FLen (x : field)                                       (* DiskStorage.go:147, reading d.fieldLength *)
| FSize (x : field) (len : Z)                            (* :148, reading d.fieldSize *)
| FSend (x : field) (len size : Z)                       (* :145 *)
| ISend (p : posting)                                    (* :205, :212 *)
| NCount (f t : string) (l : nat)                        (* :163, reading fieldTerm *)
| NSend (f t : string) (n : Z)                           (* :160 *)
| DDoc (d : string) (x : field) (dp : option doc_pc)     (* :175-182 *)
| DSend (d : string) (x : field) (l : nat).              (* :184 *)
(** What follows a statement on the maps: after :143 the send to fieldCh, after :204 and
    :211 the send to indexCh, after :159 the send to numberFieldTermCh, after :167
    UpdateFieldDocument (:226). *)
Definition after (pc : tpc) : msg :=
  match pc with
  | TLenW _ _ x _ => FLen x
  | TSet _ d x _ t _ _ => ISend (mkPost (f_name x) t d)
  | TNftW _ x l t _ _ => NCount (f_name x) t l
  | TNftLoop d x _ [] => DDoc d x None
  | _ => NoMsg
  end.

(** The maps of [m] as NewDiskStore builds them (DiskIO.go:23-60, 92-151): every field has
    a map of its own and every term of a field a set of its own; [ol], [oa] and [on] say
    whose the map or set at an address is. *)
Definition loaded (m : cmem) (s : shared) : Prop :=
  view s = mkMem (c_index m) ∅ (c_length m) (c_size m) (c_nft m) /\
  exists (ol : gmap nat string) (oa : gmap nat (string * string)) (on : gmap nat string),
    (forall f l, M_Concurrent.k_index s !! f = Some l <-> ol !! l = Some f) /\ (forall l, is_Some (k_maps s !! l) <-> is_Some (ol !! l)) /\
    (forall a, is_Some (k_sets s !! a) <-> is_Some (oa !! a)) /\
    (forall f t a, (exists l m, M_Concurrent.k_index s !! f = Some l /\ k_maps s !! l = Some m /\ m !! t = Some a) <-> oa !! a = Some (f, t)) /\
    (forall f l, k_nft s !! f = Some l <-> on !! l = Some f) /\ (forall l, is_Some (k_nfts s !! l) <-> is_Some (on !! l)).

(** A search, index/InvertedIndex.go:35-121; [MqRet] holds what :116-120 computes the answer
    from (the division of :116 is that of M_Search.v and reads nothing shared). *)
Inductive msearch :=
| MqLength                                                                              (* :39 *)
| MqSize (len : Z)                                                                      (* :40 *)
| MqNft (len size : Z) (ts : list string) (acc : gmap string Z)                         (* :43, DiskStorage.go:91-92: d.numberFieldTerm[fieldName] *)
| MqNftTerm (len size : Z) (t : string) (l : option nat) (ts : list string) (acc : gmap string Z)   (* DiskStorage.go:92: [term] *)
| MqIds (len size : Z) (nft : gmap string Z) (w : fan2 rd1 string)                      (* :46-82 *)
| MqFields (len size : Z) (nft : gmap string Z) (w : fan2 bbatch (gmap string field))   (* :84-114 *)
| MqRet (len size : Z) (nft : gmap string Z) (docs : gmap string field).                (* :116-120 *)
Section msearch.
  Variables (decompress : bytes -> option bytes) (ncpu : nat) (terms : list string) (f : string).
  (** One step of the search on the maps [sh], the memory [m] and the files [s]; the memory
      afterwards. *)
  Inductive msearch_step (sh : shared) (m : cmem) (s : fs) : msearch -> cmem * msearch -> Prop :=
  | ms_length : msearch_step sh m s MqLength (m, MqSize (geti (k_length sh) f))
  | ms_size len : msearch_step sh m s (MqSize len) (m, MqNft len (geti (k_size sh) f) terms ∅)
  | ms_nft len size t ts acc : msearch_step sh m s (MqNft len size (t :: ts) acc) (m, MqNftTerm len size t (k_nft sh !! f) ts acc)
  | ms_nft_term len size t l ts acc :
      msearch_step sh m s (MqNftTerm len size t l ts acc)
        (m, MqNft len size ts (<[t := match l with Some l => geti (counts_at sh l) t | None => 0 end]> acc))
  | ms_start len size acc : msearch_step sh m s (MqNft len size [] acc) (m, MqIds len size acc (fan2_init 0 (RTerm <$> terms)))
  | ms_ids len size nft w w' :
      fan2_step (rd1_step f sh) rd1_send rd1_stop (length terms) (ncpu * 2) w w' ->
      msearch_step sh m s (MqIds len size nft w) (m, MqIds len size nft w')
  | ms_batches len size nft w : fan2_done w ->
      msearch_step sh m s (MqIds len size nft w)
        (m, MqFields len size nft (fan2_init (f2_sem w) ((fun b => BDocs b ∅) <$> batches_of (f2_got w))))
  | ms_fields len size nft w w' :
      fan2_step (fun _ _ => False) bbatch_send bbatch_stop (length terms) (ncpu * 2) w w' ->
      msearch_step sh m s (MqFields len size nft w) (m, MqFields len size nft w')
  | ms_inner len size nft w w' p p' m' :
      bbatch_step decompress f s (m, p) (m', p') -> fan2_inner p p' w w' ->
      msearch_step sh m s (MqFields len size nft w) (m', MqFields len size nft w')
  | ms_return len size nft w : fan2_done w ->
      msearch_step sh m s (MqFields len size nft w) (m, MqRet len size nft (merge_fields (f2_got w))).
End msearch.
(** The answer of Search, :116-120 (for a search that has returned). *)
Definition answer (N : numops) (len size : Z) (nft : gmap string Z) (docs : gmap string field) : search_result N :=
  mkResult (ndiv N (of_int N len) (of_int N size)) docs (of_int N size) nft.
(** A call of Search.  [mq_cpus] is runtime.NumCPU(), here any number. *)
Record mquery := mkMQ { mq_cpus : nat; mq_terms : list string; mq_field : string; mq_pc : msearch }.

(** [mu_threads]: the goroutines of the POST requests received since the store was opened;
    the last component is the calls still to be made.  [mu_qs]: the searches called since
    the store was opened. *)
Record multi := mkMulti { mu_sys : sys; mu_sh : shared; mu_threads : list (tpc * msg * list call); mu_qs : list mquery }.
Definition with_ich (u : up) ich : up := mkUp (u_mem u) (u_pc u) ich (u_mw u) (u_nw u) (u_dw u) (u_iw u) (u_mg u).
Definition with_mw (u : up) w : up := mkUp (u_mem u) (u_pc u) (u_ich u) w (u_nw u) (u_dw u) (u_iw u) (u_mg u).
Definition with_nw (u : up) w : up := mkUp (u_mem u) (u_pc u) (u_ich u) (u_mw u) w (u_dw u) (u_iw u) (u_mg u).
Definition with_dw (u : up) w : up := mkUp (u_mem u) (u_pc u) (u_ich u) (u_mw u) (u_nw u) w (u_iw u) (u_mg u).

Section multi.
  Variables (compress : bytes -> bytes) (decompress : bytes -> option bytes) (cache_size : Z).
  (** One step of a goroutine inside a call. *)
  Inductive client_step : shared * up * (tpc * msg) -> list event -> shared * up * (tpc * msg) -> Prop :=
  | m_map sh u pc sh' pc' : t_step (sh, pc) (sh', pc') ->
      client_step (sh, u, (pc, NoMsg)) [] (sh', u, (pc', after pc))
  | m_length sh u pc x :                                                               (* DiskStorage.go:147 *)
      client_step (sh, u, (pc, FLen x)) [] (sh, u, (pc, FSize x (geti (k_length sh) (f_name x))))
  | m_size sh u pc x len :                                                             (* :148 *)
      client_step (sh, u, (pc, FSize x len)) [] (sh, u, (pc, FSend x len (geti (k_size sh) (f_name x))))
  | m_send_field sh u pc x len size mb : u_mw u = mkW mb WIdle ->                      (* :145 with DiskIO.go:277-281 *)
      client_step (sh, u, (pc, FSend x len size)) [] (sh, with_mw u (mkW (m_recv mb (f_name x) size len) WIdle), (pc, NoMsg))
  | m_send_index sh u pc p : (length (u_ich u) < 100)%nat ->                           (* :205, :212 *)
      client_step (sh, u, (pc, ISend p)) [] (sh, with_ich u (u_ich u ++ [p]), (pc, NoMsg))
  | m_count sh u pc f t l :                                                            (* :163 *)
      client_step (sh, u, (pc, NCount f t l)) [] (sh, u, (pc, NSend f t (geti (counts_at sh l) t)))
  | m_send_nft sh u pc f t n nb : u_nw u = mkW nb WIdle ->                             (* :160 with DiskIO.go:233-244 *)
      client_step (sh, u, (pc, NSend f t n)) [ENft f t n] (sh, with_nw u (mkW (n_recv nb f t n) WIdle), (pc, NoMsg))
  | m_doc sh u pc d x dp m dp' : doc_step (u_dw u) (u_mem u, CDoc d x, dp) (m, CDoc d x, dp') ->   (* :175-181 *)
      client_step (sh, u, (pc, DDoc d x dp)) [] (sh, with_mem u m (u_pc u), (pc, DDoc d x dp'))
  | m_doc_put sh u pc d x dp m l : doc_step (u_dw u) (u_mem u, CDoc d x, dp) (m, CDocSend d x l, None) ->   (* :182 *)
      client_step (sh, u, (pc, DDoc d x dp)) [] (sh, with_mem u m (u_pc u), (pc, DSend d x l))
  | m_send_doc sh u pc d x l db : u_dw u = mkW db WIdle ->                             (* :184 with DiskIO.go:200-203 *)
      client_step (sh, u, (pc, DSend d x l)) [] (sh, with_dw u (mkW (d_recv db d l) WIdle), (pc, NoMsg)).

  Inductive multi_live : multi -> multi -> Prop :=
  | mz_closed y y' sh ths qs : live_step compress decompress cache_size y y' -> (forall u, y_proc y' <> Up u) ->
      multi_live (mkMulti y sh ths qs) (mkMulti y' sh ths qs)
  | mz_opened y y' sh ths qs g u sh' : live_step compress decompress cache_size y y' -> y_proc y = Loading g -> y_proc y' = Up u -> loaded (u_mem u) sh' ->
      multi_live (mkMulti y sh ths qs) (mkMulti y' sh' [] [])
  | mz_background y y' sh ths qs u u' : live_step compress decompress cache_size y y' -> y_proc y = Up u -> y_proc y' = Up u' -> u_pc u' = CIdle ->
      multi_live (mkMulti y sh ths qs) (mkMulti y' sh ths qs)
  | mz_request s u log sh ths qs cs :                                                     (* a request arrives *)
      multi_live (mkMulti (mkSys s (Up u) log) sh ths qs) (mkMulti (mkSys s (Up u) log) sh (ths ++ [(TIdle, NoMsg, cs)]) qs)
  | mz_call s u log sh ths qs i c cs : ths !! i = Some (TIdle, NoMsg, c :: cs) ->
      multi_live (mkMulti (mkSys s (Up u) log) sh ths qs) (mkMulti (mkSys s (Up u) (log ++ [ECall c])) sh (<[i := (t_enter true c, NoMsg, cs)]> ths) qs)
  | mz_client s u log sh ths qs i th cs ev sh' u' th' : ths !! i = Some (th, cs) -> client_step (sh, u, th) ev (sh', u', th') ->
      multi_live (mkMulti (mkSys s (Up u) log) sh ths qs) (mkMulti (mkSys s (Up u') (log ++ ev)) sh' (<[i := (th', cs)]> ths) qs)
  | mz_query s u log sh ths qs ncpu terms f : (0 < ncpu)%nat ->                        (* a search is called *)
      multi_live (mkMulti (mkSys s (Up u) log) sh ths qs) (mkMulti (mkSys s (Up u) log) sh ths (qs ++ [mkMQ ncpu terms f MqLength]))
  | mz_search s u log sh ths qs i ncpu terms f q m q' : qs !! i = Some (mkMQ ncpu terms f q) -> msearch_step decompress ncpu terms f sh (u_mem u) s q (m, q') ->
      multi_live (mkMulti (mkSys s (Up u) log) sh ths qs) (mkMulti (mkSys s (Up (with_mem u m (u_pc u))) log) sh ths (<[i := mkMQ ncpu terms f q']> qs)).
  Definition multi_step (a b : multi) : Prop :=
    multi_live a b \/ exists y', crash_step (mu_sys a) y' /\ b = mkMulti y' sh_new [] [].
  Definition multi_init : multi := mkMulti sys_init sh_new [] [].
  Definition multi_reachable : multi -> Prop := rtc multi_step multi_init.
  (** Every POST request received has been served. *)
  Definition served (a : multi) : Prop := forall th, th ∈ mu_threads a -> th = (TIdle, NoMsg, []).
End multi.
