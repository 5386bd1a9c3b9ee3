From Verif Require Import Base M_Text M_Field S_Text S_Field P_Base P_Text P_Field.

Lemma one_entry_per_leaf (num : Type) (kvs : list (string * json num)) : wf_object kvs ->
  (forall p v, leaf_at kvs p v -> Forall no_dot p /\ head p <> Some ""%string) ->
  forall p q v w, leaf_at kvs p v -> leaf_at kvs q w -> dotted p = dotted q -> p = q /\ v = w.
Proof.
  intros Hwf Hok p q v w Hp Hq E.
  assert (p = q) as ->.
  { eapply dotted_inj; [by eapply leaf_path_ne|by eapply leaf_path_ne| | |done].
    - by eapply Hok. - by eapply Hok. }
  split; [done|]. by eapply leaf_at_fun.
Qed.

(** Decision procedures for examples. *)
Fixpoint all_leaves {num} (v : json num) : list (list string * json num) :=
  match v with
  | JObject kvs =>
    (fix go kvs := match kvs with
       | [] => []
       | (k, w) :: r =>
         match w with
         | JObject _ => map (fun pv => (k :: pv.1, pv.2)) (all_leaves w)
         | _ => [([k], w)]
         end ++ go r
       end) kvs
  | _ => []
  end.
Lemma all_leaves_spec {num} (kvs : list (string * json num)) p v :
  leaf_at kvs p v -> (p, v) ∈ all_leaves (JObject kvs).
Proof.
  induction 1 as [kvs k v Hin Hv|kvs k o p v Hin Hl IH]; cbn [all_leaves].
  - induction kvs as [|[k' w] r IHr]; [inversion Hin|].
    apply elem_of_cons in Hin as [Hin|Hin].
    + injection Hin as <- <-. apply elem_of_app. left. destruct v; try discriminate; by left.
    + apply elem_of_app. right. by apply IHr.
  - induction kvs as [|[k' w] r IHr]; [inversion Hin|].
    apply elem_of_cons in Hin as [Hin|Hin].
    + injection Hin as <- <-. apply elem_of_app. left.
      apply elem_of_list_fmap. exists (p, v). split; [done|]. apply IH.
    + apply elem_of_app. right. by apply IHr.
Qed.

Ltac solve_nodup := repeat (apply NoDup_cons; split; [set_solver|]); try apply NoDup_nil_2.
Ltac solve_wf := constructor; [cbn; solve_nodup|
  let k := fresh "k" in let o := fresh "o" in let Hin := fresh "Hin" in
  intros k o Hin; repeat (apply elem_of_cons in Hin as [Hin|Hin];
    [first [discriminate Hin | injection Hin as -> ->; solve_wf]|]); inversion Hin].

Lemma perm_rev3 {A} (a b c : A) : [a; b; c] ≡ₚ [c; b; a].
Proof. apply (Permutation_rev [a; b; c]). Qed.
Lemma perm_2 {A} (a b : A) : [a; b] ≡ₚ [b; a].
Proof. apply (Permutation_rev [a; b]). Qed.

Lemma ex_doc_ok :
  let a : list (string * json Z) := [("Id", JString "7"); ("a", JObject [("b", JNull); ("c", JObject []); ("", JNumber 3)]);
   ("t", JArray [JString "x"])]%string in
  let b : list (string * json Z) := [("t", JArray [JString "x"]); ("a", JObject [("", JNumber 3); ("c", JObject []); ("b", JNull)]);
   ("Id", JString "7")]%string in
  wf_object a /\ same_object a b /\
  (forall p v, leaf_at a p v -> Forall no_dot p /\ head p <> Some ""%string) /\
  flatten a !! "a."%string = Some (JNumber 3) /\ flatten a !! "a.c"%string = None.
Proof.
  cbv zeta. split; [|split; [|split; [|split]]].
  - solve_wf.
  - eapply same_perm; [|apply perm_rev3].
    apply same_leaf; [done|]. apply same_obj.
    { eapply same_perm; [|apply perm_rev3].
      apply same_leaf; [done|]. apply same_obj; [|apply same_leaf; [done|apply same_nil]].
      eapply same_perm; [apply same_nil|done]. }
    apply same_leaf; [done|]. apply same_nil.
  - intros p v Hl. apply all_leaves_spec in Hl. cbn in Hl.
    repeat (apply elem_of_cons in Hl as [Hl|Hl];
      [injection Hl as -> ->; split; [repeat constructor|done]|]). inversion Hl.
  - reflexivity.
  - reflexivity.
Qed.

Lemma flatten_some_leaf (num : Type) (kvs : list (string * json num)) :
  (forall key v, flatten kvs !! key = Some v ->
     exists p, leaf_at kvs p v /\ dotted (strip_empty p) = key) /\
  (forall p v, leaf_at kvs p v -> exists w, flatten kvs !! dotted (strip_empty p) = Some w).
Proof.
  split.
  - intros key v H. destruct (flatten_sound _ _ _ H) as (p & Hp & <-). exists p. split; [done|].
    symmetry. apply path_key_empty. by eapply leaf_path_ne.
  - intros p v Hp. rewrite <- path_key_empty by (by eapply leaf_path_ne). by eapply flatten_complete.
Qed.

Lemma flatten_collision :
  (exists (a b : list (string * json Z)) key, wf_object a /\ same_object a b /\
     (forall k v, (k, v) ∈ a -> k <> ""%string) /\ flatten a !! key <> flatten b !! key) /\
  (exists (a b : list (string * json Z)) key, wf_object a /\ same_object a b /\
     (forall p v, leaf_at a p v -> Forall no_dot p) /\ flatten a !! key <> flatten b !! key).
Proof.
  split.
  - exists [("a.b", JNumber 1); ("a", JObject [("b", JNumber 2)])]%string,
      [("a", JObject [("b", JNumber 2)]); ("a.b", JNumber 1)]%string, "a.b"%string.
    split; [solve_wf|]. split; [|split].
    + eapply same_perm; [|apply perm_2]. apply same_leaf; [done|]. apply same_obj; [|apply same_nil].
      eapply same_perm; [apply same_leaf; [done|apply same_nil]|done].
    + intros k v H. repeat (apply elem_of_cons in H as [H|H]; [injection H as -> ->; done|]). inversion H.
    + vm_compute. discriminate.
  - exists [("a", JNumber 1); ("", JObject [("a", JNumber 2)])]%string,
      [("", JObject [("a", JNumber 2)]); ("a", JNumber 1)]%string, "a"%string.
    split; [solve_wf|]. split; [|split].
    + eapply same_perm; [|apply perm_2]. apply same_leaf; [done|]. apply same_obj; [|apply same_nil].
      eapply same_perm; [apply same_leaf; [done|apply same_nil]|done].
    + intros p v Hl. apply all_leaves_spec in Hl. cbn in Hl.
      repeat (apply elem_of_cons in Hl as [Hl|Hl];
        [injection Hl as -> ->; repeat constructor|]). inversion Hl.
    + vm_compute. discriminate.
Qed.

Lemma get_id_spec (num : Type) (fmt_num : num -> string) (kvs : list (string * json num)) : NoDup kvs.*1 ->
  (forall s, ("Id"%string, JString s) ∈ kvs -> get_id fmt_num kvs = s) /\
  ("Id"%string ∉ kvs.*1 -> get_id fmt_num kvs = ""%string) /\
  (forall kvs', kvs ≡ₚ kvs' -> get_id fmt_num kvs' = get_id fmt_num kvs).
Proof.
  intros Hnd. split; [|split].
  - intros s Hs. by rewrite (get_id_present fmt_num kvs (JString s)).
  - apply get_id_absent.
  - intros kvs' Hp. destruct (decide ("Id"%string ∈ kvs.*1)) as [Hin|Hn].
    + apply elem_of_list_fmap in Hin as ([k v] & E & Hin). cbn [fst] in E. subst k.
      rewrite (get_id_present fmt_num kvs v), (get_id_present fmt_num kvs' v); try done.
      * by rewrite <- Hp. * by rewrite <- Hp.
    + rewrite (get_id_absent fmt_num kvs) by done. apply get_id_absent. by rewrite <- Hp.
Qed.

Lemma get_id_non_string (num : Type) (fmt_num : num -> string) (kvs : list (string * json num)) v : NoDup kvs.*1 ->
  ("Id"%string, v) ∈ kvs ->
  (forall s, v <> JString s) -> (forall l, v <> JArray l) -> is_object v = false ->
  String.prefix "%!s(" (get_id fmt_num kvs) = true.
Proof.
  intros Hnd Hin H1 H2 H3. rewrite (get_id_present fmt_num kvs v) by done.
  by apply sprint_scalar_diag.
Qed.

Lemma tokenize_empty il inu : tokenize il inu "" = [].
Proof. reflexivity. Qed.
Lemma number_terms (num : Type) (fmt_num : num -> string) is_letter is_number n :
  (forall r, (97 <= r <= 122) -> is_letter r = true) ->
  (forall r, (48 <= r <= 57) -> is_number r = true) ->
  (forall r, r ∈ [33; 37; 40; 41; 61] -> is_letter r = false /\ is_number r = false) ->
  tokenize is_letter is_number (sprint fmt_num (JNumber n))
  = ["s"; "float64"]%string ++ tokenize is_letter is_number (fmt_num n).
Proof.
  intros Hl Hn Hs.
  assert (forall r, r ∈ [33; 37; 40; 41; 61] -> word_rune is_letter is_number r = false) as Hw.
  { intros r Hr. destruct (Hs r Hr) as [A B]. unfold word_rune. rewrite A, B.
    destruct (Z.eqb_spec r 39) as [->|]; [|done].
    exfalso. revert Hr. clear. intros Hr.
    repeat (apply elem_of_cons in Hr as [Hr|Hr]; [discriminate|]). inversion Hr. }
  assert (forall r, (97 <= r <= 122) -> word_rune is_letter is_number r = true) as Hwl.
  { intros r Hr. unfold word_rune. by rewrite Hl. }
  assert (forall r, (48 <= r <= 57) -> word_rune is_letter is_number r = true) as Hwn.
  { intros r Hr. unfold word_rune. rewrite Hn by done. by rewrite orb_true_r. }
  change (sprint fmt_num (JNumber n)) with
    ("" +:+ "%" +:+ ("" +:+ "!" +:+ ("s" +:+ "(" +:+ ("float64" +:+ "=" +:+ (fmt_num n +:+ ")" +:+ "")))))%string.
  rewrite (tokenize_app_sep _ _ _ _ 37) by (try done; apply Hw; set_solver).
  rewrite (tokenize_app_sep _ _ _ _ 33) by (try done; apply Hw; set_solver).
  rewrite (tokenize_app_sep _ _ _ _ 40) by (try done; apply Hw; set_solver).
  rewrite (tokenize_app_sep _ _ _ _ 61) by (try done; apply Hw; set_solver).
  rewrite (tokenize_app_sep _ _ _ _ 41) by (try done; apply Hw; set_solver).
  rewrite !tokenize_empty, app_nil_r.
  assert (forall s cs, rune_seq s cs -> cs <> [] -> Forall (fun c => word_rune is_letter is_number c.1 = true) cs ->
     tokenize is_letter is_number s = [s]) as Hone.
  { intros s cs H1 H2 H3. rewrite (tokenize_runs_fn _ _ _ _ H1).
    rewrite <- (app_nil_r cs), runs_fn_words by done. cbn [runs_fn opt_list from_option id].
    rewrite str_app_nil_l. f_equal. clear -H1. induction H1; [done| |].
    - change (text_of ((r, b) :: cs)) with (b +:+ text_of cs). by rewrite IHrune_seq.
    - change (text_of ((replacement, String a EmptyString) :: cs))
        with (String a EmptyString +:+ text_of cs). by rewrite IHrune_seq. }
  rewrite (Hone "s"%string [(115, "s"%string)]);
    [|apply (rune_seq_valid 115 "s"%string ""%string []); [done|constructor]|done
     |repeat constructor; apply Hwl; cbn; lia].
  rewrite (Hone "float64"%string [(102, "f"); (108, "l"); (111, "o"); (97, "a"); (116, "t"); (54, "6"); (52, "4")]%string).
  - done.
  - apply (rune_seq_valid 102 "f" "loat64"); [done|].
    apply (rune_seq_valid 108 "l" "oat64"); [done|].
    apply (rune_seq_valid 111 "o" "at64"); [done|].
    apply (rune_seq_valid 97 "a" "t64"); [done|].
    apply (rune_seq_valid 116 "t" "64"); [done|].
    apply (rune_seq_valid 54 "6" "4"); [done|].
    apply (rune_seq_valid 52 "4" ""); [done|]. constructor.
  - done.
  - repeat (apply Forall_cons; split; [first [apply Hwl; cbn; lia|apply Hwn; cbn; lia]|]). constructor.
Qed.
