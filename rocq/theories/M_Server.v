(** Model of the HTTP handlers of main.go:110-218.  Requests are handled one after
    the other here (concurrent requests are the subject of C56).  The store is any
    storage; [M_Server] produces the calls made to it and consumes its answers. *)
From Verif Require Import Base M_Text M_Language M_Field M_Memory M_Num M_FanIn M_Search M_Standard.

(** main.go:24-28 *)
Record document := mkDocument { d_id : string; d_title : string; d_text : string }.

(** main.go:43-48 *)
Definition is_not_document_complete (d : document) : bool :=
  if String.eqb (d_id d) "" then true else false.

Section server.
  (** External functions: gin's ShouldBindJSON ([None] = error), the Unicode tables,
      strings.ToLower, porter2.Stem and the ASCII transform. *)
  Variable bind : string -> option document.
  Variables (is_letter is_number : Z -> bool) (to_lower stem fold : string -> string).

  (** main.go:220-226 with the English stop words, on the slices of an arbitrary
      heap. *)
  Definition preprocess (text : string) (r : list string) : Prop :=
    exists h, preprocessing is_letter is_number to_lower stem fold stop_words_english h text r.

  (** main.go:141-158: one entry of the Fields literal. *)
  Definition posted_field (name : string) (terms : list string) : field :=
    mkField name (Z.of_nat (length terms)) (term_frequency terms).

  (** main.go:124-163  POST /nir: body, status code, calls made to the storage. *)
  Inductive post : string -> Z -> list call -> Prop :=
  | post_malformed body : bind body = None -> post body 400 []
  | post_incomplete body d : bind body = Some d -> is_not_document_complete d = true -> post body 400 []
  | post_created body d pid ptitle ptext :
      bind body = Some d -> is_not_document_complete d = false ->
      preprocess (d_id d) pid -> preprocess (d_title d) ptitle -> preprocess (d_text d) ptext ->
      post body 201 (index_document (d_id d)
        [posted_field "id" pid; posted_field "title" ptitle; posted_field "text" ptext]).

  Variables (N : numops) (ncpu : nat) (v : view).

  (** main.go:30-41.  Duration, Algorithm and SemanticSearch are not modelled. *)
  Record result := mkRes { r_total : Z; r_results : list (string * num N) }.
  (** A handler may panic: the connection is closed without a response. *)
  Inductive answer := Answer (status : Z) (body : result) | Panic.

  (** main.go:168-180: the queries of GET /nir. *)
  Definition get_queries (terms : list string) : list (query N) :=
    [mkQuery "title" (of_int N 1) terms; mkQuery "text" (of_int N 1) terms].

  (** main.go:184-216: the response built from the result of the search.
      make([]QueryResult, len(rs)) has capacity len(rs), so the slice expression
      queryResults[0:10] panics when len(rs) < 10. *)
  Definition get_answer (rs : list (doc_score N)) : answer :=
    if (length rs =? 0)%nat then Answer 200 (mkRes (Z.of_nat (length rs)) [])
    else
      let query_results := map (fun s : doc_score N => (s.1, s.2)) rs in
      if (length query_results <? 10)%nat then Panic
      else Answer 200 (mkRes 10 (take 10 query_results)).

  (** main.go:164-217  GET /nir?query=text: possible answers. *)
  Definition get (text : string) (a : answer) : Prop :=
    exists terms s rs, preprocess text terms /\
      rtc (std_step N ncpu v (get_queries terms)) (std_init N (get_queries terms)) s /\
      std_returns N s rs /\ a = get_answer rs.
End server.
Arguments Answer {N}. Arguments Panic {N}. Arguments mkRes {N}. Arguments r_total {N}. Arguments r_results {N}.

(** A sequence of POST requests to a server whose storage is the memory storage. *)
Inductive mem_server (P : string -> Z -> list call -> Prop) : memory -> list string -> list Z -> memory -> Prop :=
| mem_server_nil m : mem_server P m [] [] m
| mem_server_post m body st calls m1 bodies sts m2 :
    P body st calls -> mem_run m calls m1 -> mem_server P m1 bodies sts m2 ->
    mem_server P m (body :: bodies) (st :: sts) m2.
