(** Property theorems C08-C11: Flatten, GetID, Set. *)
From Verif Require Import Base M_Text M_Field S_Text S_Field P_Base P_Text P_Field P_FieldExtra.

(** C08.  [wf_object]: no duplicate keys (it is a Go map at every level).
    The hypothesis on paths: no '.' in any key, top-level keys non-empty. *)
Theorem C08_flatten_exact :
  forall (num : Type) (kvs : list (string * json num)), wf_object kvs ->
  (forall p v, leaf_at kvs p v -> Forall no_dot p /\ head p <> Some ""%string) ->
  forall key v, flatten kvs !! key = Some v <-> exists p, leaf_at kvs p v /\ dotted p = key.
Proof. exact @flatten_exact. Qed.
Print Assumptions C08_flatten_exact.

(** ... and the path of each entry is unique: exactly one entry per leaf. *)
Theorem C08_one_entry_per_leaf :
  forall (num : Type) (kvs : list (string * json num)), wf_object kvs ->
  (forall p v, leaf_at kvs p v -> Forall no_dot p /\ head p <> Some ""%string) ->
  forall p q v w, leaf_at kvs p v -> leaf_at kvs q w -> dotted p = dotted q -> p = q /\ v = w.
Proof. exact @one_entry_per_leaf. Qed.
Print Assumptions C08_one_entry_per_leaf.

Theorem C08_flatten_order_independent :
  forall (num : Type) (a b : list (string * json num)), wf_object a -> same_object a b ->
  (forall p v, leaf_at a p v -> Forall no_dot p /\ head p <> Some ""%string) ->
  flatten a = flatten b.
Proof. exact @flatten_order_independent. Qed.
Print Assumptions C08_flatten_order_independent.

Definition ex_doc : list (string * json Z) :=
  [("Id", JString "7"); ("a", JObject [("b", JNull); ("c", JObject []); ("", JNumber 3)]);
   ("t", JArray [JString "x"])]%string.
Definition ex_doc' : list (string * json Z) :=
  [("t", JArray [JString "x"]); ("a", JObject [("", JNumber 3); ("c", JObject []); ("b", JNull)]);
   ("Id", JString "7")]%string.
Example C08_example :
  wf_object ex_doc /\ same_object ex_doc ex_doc' /\
  (forall p v, leaf_at ex_doc p v -> Forall no_dot p /\ head p <> Some ""%string) /\
  flatten ex_doc !! "a."%string = Some (JNumber 3) /\ flatten ex_doc !! "a.c"%string = None.
Proof. exact ex_doc_ok. Qed.

(** C09.  No hypothesis on keys; [strip_empty] says leading empty keys leave
    no trace in the joined path. *)
Theorem C09_flatten_some_leaf :
  forall (num : Type) (kvs : list (string * json num)),
  (forall key v, flatten kvs !! key = Some v ->
     exists p, leaf_at kvs p v /\ dotted (strip_empty p) = key) /\
  (forall p v, leaf_at kvs p v -> exists w, flatten kvs !! dotted (strip_empty p) = Some w).
Proof. exact @flatten_some_leaf. Qed.
Print Assumptions C09_flatten_some_leaf.

(** Colliding paths: the surviving value depends on the iteration order; both
    through a dot in a key and through an empty top-level key. *)
Theorem C09_order_independence_refuted :
  (exists (a b : list (string * json Z)) key, wf_object a /\ same_object a b /\
     (forall k v, (k, v) ∈ a -> k <> ""%string) /\ flatten a !! key <> flatten b !! key) /\
  (exists (a b : list (string * json Z)) key, wf_object a /\ same_object a b /\
     (forall p v, leaf_at a p v -> Forall no_dot p) /\ flatten a !! key <> flatten b !! key).
Proof. exact flatten_collision. Qed.
Print Assumptions C09_order_independence_refuted.

(** C10 *)
Theorem C10_get_id :
  forall (num : Type) (fmt_num : num -> string) (kvs : list (string * json num)), NoDup kvs.*1 ->
  (forall s, ("Id"%string, JString s) ∈ kvs -> get_id fmt_num kvs = s) /\
  ("Id"%string ∉ kvs.*1 -> get_id fmt_num kvs = ""%string) /\
  (forall kvs', kvs ≡ₚ kvs' -> get_id fmt_num kvs' = get_id fmt_num kvs).
Proof. exact @get_id_spec. Qed.
Print Assumptions C10_get_id.

(** A null, boolean or numeric Id gives a diagnostic, never the value itself. *)
Theorem C10_get_id_non_string :
  forall (num : Type) (fmt_num : num -> string) (kvs : list (string * json num)) v, NoDup kvs.*1 ->
  ("Id"%string, v) ∈ kvs ->
  (forall s, v <> JString s) -> (forall l, v <> JArray l) -> is_object v = false ->
  String.prefix "%!s(" (get_id fmt_num kvs) = true.
Proof. exact @get_id_non_string. Qed.
Print Assumptions C10_get_id_non_string.

(** Indexing a number through %s indexes the words "s" and "float64" in front of
    the number's own tokens. *)
Theorem C10_number_terms :
  forall (num : Type) (fmt_num : num -> string) is_letter is_number n,
  (forall r, (97 <= r <= 122) -> is_letter r = true) ->
  (forall r, (48 <= r <= 57) -> is_number r = true) ->
  (forall r, r ∈ [33; 37; 40; 41; 61] -> is_letter r = false /\ is_number r = false) ->
  tokenize is_letter is_number (sprint fmt_num (JNumber n))
  = ["s"; "float64"]%string ++ tokenize is_letter is_number (fmt_num n).
Proof. exact @number_terms. Qed.
Print Assumptions C10_number_terms.

Example C10_example :
  get_id (fun _ : Z => "1.5"%string) [("a", JNull); ("Id", JNumber 3)]%string = "%!s(float64=1.5)"%string.
Proof. reflexivity. Qed.

(** C11 *)
Theorem C11_set_contains :
  forall ops x,
  set_contains (fold_left set_step ops set_new) x = true <-> last_op_adds x ops.
Proof. exact set_contains_spec. Qed.
Print Assumptions C11_set_contains.

Theorem C11_set_size :
  forall ops xs, NoDup xs -> (forall x, x ∈ xs <-> last_op_adds x ops) ->
  set_size (fold_left set_step ops set_new) = length xs.
Proof. exact set_size_spec. Qed.
Print Assumptions C11_set_size.

Example C11_example :
  let ops := [SAdd "a"; SAdd "b"; SRemove "a"; SAdd "c"; SAdd "b"]%string in
  set_contains (fold_left set_step ops set_new) "b" = true /\
  set_contains (fold_left set_step ops set_new) "a" = false /\
  set_size (fold_left set_step ops set_new) = 2%nat.
Proof. vm_compute. done. Qed.
