(** Model of index/InvertedIndex.go (Search, IndexDocument) over any storage that
    is not being written during the search. *)
From Verif Require Import Base M_Field M_Memory M_Num M_FanIn.

(** storage/Storage.go:7-16: the answers of the query methods of a Storage.
    [v_docs f t] is GetDocuments ([None] = not found). *)
Record view := mkView {
  v_docs : string -> string -> option set_data;
  v_fields : list string -> string -> gmap string field;
  v_size : string -> Z;
  v_length : string -> Z;
  v_nft : string -> list string -> gmap string Z
}.

(** The answers of the memory storage in state [m]. *)
Definition mem_view (m : memory) : view :=
  mkView (mem_get_documents m) (mem_get_fields m) (mem_get_size m) (mem_get_length m) (mem_get_nft m).

(** model/SearchResult.go:3-8 *)
Record search_result (N : numops) := mkResult {
  sr_avg : num N;
  sr_docs : gmap string field;
  sr_total : num N;
  sr_nft : gmap string Z
}.
Arguments mkResult {N}. Arguments sr_avg {N}. Arguments sr_docs {N}. Arguments sr_total {N}. Arguments sr_nft {N}.

(** index/InvertedIndex.go:70-83: the loop collecting document ids.  State:
    hasDocument, batches, ixx. *)
Definition collect_state : Type := (gmap string bool * list (list string) * nat)%type.
Definition collect_step (st : collect_state) (id : string) : collect_state :=
  match st with (has, batches, ixx) =>
    match has !! id with
    | Some _ => (has, batches, ixx)
    | None => (<[id := true]> has, alter (fun b => b ++ [id]) (ixx `mod` 5)%nat batches, S ixx)
    end
  end.
Definition batches_of (ids : list string) : list (list string) :=
  (fold_left collect_step ids (∅, [[]; []; []; []; []], 0%nat)).1.2.

(** index/InvertedIndex.go:107-113: merging the received maps (each message is a
    one-entry map, so the inner range has only one order). *)
Definition merge_fields (ms : list (gmap string field)) : gmap string field :=
  fold_left (fun acc (m : gmap string field) =>
    fold_left (fun (acc : gmap string field) (kx : string * field) => <[kx.1 := kx.2]> acc) (map_to_list m) acc) ms ∅.

Section search.
  Variables (N : numops) (ncpu : nat) (v : view).

  (** index/InvertedIndex.go:53-57: what the goroutine of one term sends. *)
  Definition term_out (f : string) (term : string) (ms : list string) : Prop :=
    match v_docs v f term with
    | Some s => range_order s ms
    | None => ms = []
    end.
  (** index/InvertedIndex.go:92-97: what the goroutine of one batch sends. *)
  Definition batch_out (f : string) (batch : list string) (ms : list (gmap string field)) : Prop :=
    exists kxs, kxs ≡ₚ map_to_list (v_fields v batch f) /\
      ms = map (fun kx => {[ kx.1 := kx.2 ]}) kxs.

  Inductive phase :=
  | Ph1 (s : fan string string)
  | Ph2 (s : fan (list string) (gmap string field))
  | Ret (r : search_result N).
  Record sstate := mkS { ss_terms : list string; ss_field : string; ss_phase : phase }.

  (** [fan_step] for the two phases: channel capacity len(terms), one semaphore of
      capacity 2*NumCPU shared by both phases, wg.Add before each spawn. *)
  Definition step1 (terms : list string) (f : string) : fan string string -> fan string string -> Prop :=
    fan_step (fun _ _ => False) (term_out f) (length terms) (Some (ncpu * 2)%nat) false.
  Definition step2 (terms : list string) (f : string)
      : fan (list string) (gmap string field) -> fan (list string) (gmap string field) -> Prop :=
    fan_step (fun _ _ => False) (batch_out f) (length terms) (Some (ncpu * 2)%nat) false.

  (** index/InvertedIndex.go:113-117.  The statistics are read from the storage
      at the start of the call (lines 38-43); since the storage is not written
      during the call we read them here. *)
  Definition search_return (terms : list string) (f : string) (ms : list (gmap string field)) : search_result N :=
    mkResult (ndiv N (of_int N (v_length v f)) (of_int N (v_size v f)))
             (merge_fields ms) (of_int N (v_size v f)) (v_nft v f terms).

  Definition search_init (terms : list string) (f : string) : sstate :=
    mkS terms f (Ph1 (fan_init false 0 terms)).

  Inductive search_step : sstate -> sstate -> Prop :=
  | ss_phase1 terms f s s' : step1 terms f s s' -> search_step (mkS terms f (Ph1 s)) (mkS terms f (Ph1 s'))
  | ss_batches terms f s : fan_done s ->
      search_step (mkS terms f (Ph1 s)) (mkS terms f (Ph2 (fan_init false (fn_sem s) (batches_of (fn_got s)))))
  | ss_phase2 terms f s s' : step2 terms f s s' -> search_step (mkS terms f (Ph2 s)) (mkS terms f (Ph2 s'))
  | ss_return terms f s : fan_done s ->
      search_step (mkS terms f (Ph2 s)) (mkS terms f (Ret (search_return terms f (fn_got s)))).

  Definition search_returns (s : sstate) (r : search_result N) : Prop := ss_phase s = Ret r.
  Definition search_panics (s : sstate) : Prop :=
    match ss_phase s with Ph1 s => fn_panic s = true | Ph2 s => fn_panic s = true | Ret _ => False end.
End search.
Arguments Ph1 {N}. Arguments Ph2 {N}. Arguments Ret {N}.
Arguments mkS {N}. Arguments ss_terms {N}. Arguments ss_field {N}. Arguments ss_phase {N}.
Arguments search_returns {N}. Arguments search_panics {N}. Arguments search_init {N}.

(** index/InvertedIndex.go:120-125  IndexDocument: one SaveOrUpdate per field. *)
Definition index_document (doc : string) (fields : list field) : list call := map (Save doc) fields.
