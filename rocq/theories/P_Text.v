(** Proofs about tokenizer, filters, stemmer, TermFrequency, Preprocessing. *)
From Verif Require Import Base M_Text S_Text P_Base P_Utf8.
#[local] Open Scope Z_scope.

Definition opt_list {A} (o : option A) : list A :=
  match o with Some x => [x] | None => [] end.

(** ** Tokenizer *)
Fixpoint runs_fn (word : Z -> bool) (cur : option string) (cs : list (Z * string)) : list string :=
  match cs with
  | [] => opt_list cur
  | (r, b) :: cs' =>
    if word r then runs_fn word (Some (default EmptyString cur +:+ b)) cs'
    else opt_list cur ++ runs_fn word None cs'
  end.

Definition sub_of (s : string) (be : nat * nat) : string :=
  String.substring be.1 (be.2 - be.1) s.

Definition finish (s : string) (x : option nat * list (nat * nat)) : list string :=
  map (sub_of s) (match x.1 with Some b => x.2 ++ [(b, String.length s)] | None => x.2 end).

Lemma loop_runs_fn f cs : forall i start spans s pre,
  s = pre +:+ text_of cs -> String.length pre = i ->
  forall cur,
  match start, cur with
  | None, None => True
  | Some b, Some c => exists p, pre = p +:+ c /\ String.length p = b
  | _, _ => False
  end ->
  finish s (fields_func_loop f (with_index i cs) start spans)
  = map (sub_of s) spans ++ runs_fn (fun r => negb (f r)) cur cs.
Proof.
  induction cs as [|[r b] cs IH]; intros i start spans s pre Hs Hi cur Hcur.
  - cbn [with_index fields_func_loop runs_fn]. unfold finish. cbn [fst snd].
    destruct start as [b0|], cur as [c|]; try done.
    + destruct Hcur as (p & -> & Hp). rewrite map_app. f_equal. cbn [map opt_list].
      f_equal. unfold sub_of. cbn [fst snd]. subst b0. cbn [text_of fold_right] in Hs.
      rewrite str_app_nil_r in Hs. subst s. apply substring_skip.
    + by rewrite app_nil_r.
  - cbn [with_index fields_func_loop runs_fn].
    assert (s = (pre +:+ b) +:+ text_of cs) as Hs' by (rewrite Hs, str_app_assoc; done).
    assert (String.length (pre +:+ b) = (i + String.length b)%nat) as Hl
      by (rewrite str_app_length; lia).
    destruct (f r); cbn [negb].
    + destruct start as [b0|], cur as [c|]; try done.
      * destruct Hcur as (p & -> & Hp).
        rewrite (IH _ None (spans ++ [(b0, i)]) s _ Hs' Hl None) by done.
        rewrite map_app. rewrite <- app_assoc. f_equal. cbn [map opt_list app]. f_equal.
        unfold sub_of. cbn [fst snd].
        assert (i - b0 = String.length c)%nat as ->.
        { rewrite str_app_length in Hi. lia. }
        rewrite <- Hp, Hs, str_app_assoc. apply substring_app.
      * by rewrite (IH _ None spans s _ Hs' Hl None).
    + destruct start as [b0|], cur as [c|]; try done.
      * destruct Hcur as (p & -> & Hp).
        apply (IH _ (Some b0) spans s _ Hs' Hl (Some (c +:+ b))).
        exists p. by rewrite str_app_assoc.
      * apply (IH _ (Some i) spans s _ Hs' Hl (Some b)). by exists pre.
Qed.

Lemma not_alnum_word il inu r : negb (is_not_alnum il inu r) = word_rune il inu r.
Proof. unfold is_not_alnum, word_rune. destruct (il r), (inu r), (r =? 39); done. Qed.

Lemma runs_fn_ext w1 w2 cur cs : (forall r, w1 r = w2 r) -> runs_fn w1 cur cs = runs_fn w2 cur cs.
Proof.
  intros E. revert cur. induction cs as [|[r b] cs IH]; intros cur; cbn [runs_fn]; [done|].
  rewrite E, !IH. done.
Qed.

Lemma tokenize_runs_fn il inu text cs :
  rune_seq text cs -> tokenize il inu text = runs_fn (word_rune il inu) None cs.
Proof.
  intros Hcs. unfold tokenize, fields_func.
  destruct (range_string_spec (String.length text) 0 text ltac:(done)) as (cs' & H1 & H2 & _).
  rewrite (rune_seq_det _ _ _ Hcs H1). rewrite H2.
  destruct (fields_func_loop (is_not_alnum il inu) (with_index 0 cs') None []) as [start spans] eqn:E.
  assert (map (fun '(b, e) => String.substring b (e - b) text)
    match start with Some b => spans ++ [(b, String.length text)] | None => spans end
    = finish text (start, spans)) as ->.
  { unfold finish. cbn [fst snd]. apply map_ext. intros [b e]. done. }
  rewrite <- E. rewrite (loop_runs_fn _ cs' 0%nat None [] text EmptyString) with (cur := None);
    [|by apply rune_seq_text|done..].
  cbn [map app]. apply runs_fn_ext. intros r. apply not_alnum_word.
Qed.

Definition run_ok (word : Z -> bool) (rs : list (Z * string) * list (Z * string)) : Prop :=
  rs.1 <> [] /\ Forall (fun c => word c.1 = true) rs.1 /\ Forall (fun c => word c.1 = false) rs.2.

Lemma text_of_app a b : text_of (a ++ b) = text_of a +:+ text_of b.
Proof.
  induction a as [|c a IH]; [done|].
  change (text_of ((c :: a) ++ b)) with (c.2 +:+ text_of (a ++ b)).
  change (text_of (c :: a)) with (c.2 +:+ text_of a).
  by rewrite IH, str_app_assoc.
Qed.

Lemma runs_fn_words word cur r cs :
  Forall (fun c => word c.1 = true) r -> r <> [] ->
  runs_fn word cur (r ++ cs) = runs_fn word (Some (default EmptyString cur +:+ text_of r)) cs.
Proof.
  intros Hr. revert cur. induction Hr as [|[r0 b] r Hw Hr IH]; intros cur Hne; [done|].
  cbn [app runs_fn fst] in *. rewrite Hw. destruct r as [|c r].
  - cbn [app text_of fold_right snd]. by rewrite str_app_nil_r.
  - rewrite IH by done. cbn [from_option id].
    change (text_of ((r0, b) :: c :: r)) with (b +:+ text_of (c :: r)).
    by rewrite str_app_assoc.
Qed.
Lemma runs_fn_seps word sep cs :
  Forall (fun c => word c.1 = false) sep -> runs_fn word None (sep ++ cs) = runs_fn word None cs.
Proof.
  intros Hs. induction Hs as [|[r b] sep Hw Hs IH]; [done|]. cbn [app runs_fn fst] in *.
  rewrite Hw. done.
Qed.
Lemma runs_fn_seps_ne word cur sep cs :
  Forall (fun c => word c.1 = false) sep -> sep <> [] ->
  runs_fn word cur (sep ++ cs) = opt_list cur ++ runs_fn word None cs.
Proof.
  intros Hs Hne. destruct Hs as [|[r b] sep Hw Hs]; [done|]. cbn [app runs_fn fst] in *.
  rewrite Hw. by rewrite runs_fn_seps.
Qed.

Lemma maximal_runs_fn word cs toks : maximal_runs word cs toks -> toks = runs_fn word None cs.
Proof.
  intros (sep0 & runs & -> & Hsep0 & Hruns & Hsep & ->).
  rewrite runs_fn_seps by done. clear Hsep0 sep0.
  induction Hruns as [|[r sep] runs (Hne & Hw & Hs) Hruns IH]; [done|].
  cbn [map concat fst snd] in *. rewrite <- app_assoc, runs_fn_words by done. cbn [from_option id].
  destruct runs as [|rs2 runs].
  - cbn [map concat]. destruct sep as [|c sep]; [done|].
    rewrite runs_fn_seps_ne by done. cbn [opt_list runs_fn]. done.
  - change (removelast ((r, sep) :: rs2 :: runs)) with ((r, sep) :: removelast (rs2 :: runs)) in Hsep.
    inversion Hsep as [|? ? Hsne Hsep']; subst. cbn [snd] in Hsne.
    rewrite runs_fn_seps_ne by done. cbn [opt_list app]. f_equal.
    by apply IH.
Qed.

Lemma runs_fn_maximal_aux word cs :
  (exists sep0 runs,
    cs = sep0 ++ concat (map (fun rs => rs.1 ++ rs.2) runs) /\
    Forall (fun c => word c.1 = false) sep0 /\ Forall (run_ok word) runs /\
    Forall (fun rs => rs.2 <> []) (removelast runs) /\
    runs_fn word None cs = map (fun rs => text_of rs.1) runs) /\
  (forall cur, exists r sep runs,
    cs = r ++ sep ++ concat (map (fun rs => rs.1 ++ rs.2) runs) /\
    Forall (fun c => word c.1 = true) r /\
    Forall (fun c => word c.1 = false) sep /\ Forall (run_ok word) runs /\
    (sep = [] -> runs = []) /\
    Forall (fun rs => rs.2 <> []) (removelast runs) /\
    runs_fn word (Some cur) cs = (cur +:+ text_of r) :: map (fun rs => text_of rs.1) runs).
Proof.
  induction cs as [|[r b] cs [IH1 IH2]].
  - split.
    + exists [], []. repeat split; constructor.
    + intros cur. exists [], [], []. repeat split; try constructor.
      cbn [runs_fn opt_list text_of fold_right map]. by rewrite str_app_nil_r.
  - split.
    + destruct (word r) eqn:Hw.
      * destruct (IH2 b) as (r' & sep & runs & -> & H1 & H2 & H3 & H4 & H5 & H6).
        exists [], (((r, b) :: r', sep) :: runs). split; [|split; [|split; [|split]]].
        -- cbn [app map concat fst snd]. by rewrite <- app_assoc.
        -- constructor.
        -- constructor; [|done]. split; [done|]. split; [|done]. by constructor.
        -- destruct runs as [|rs runs]; [constructor|].
           change (removelast (((r, b) :: r', sep) :: rs :: runs))
             with (((r, b) :: r', sep) :: removelast (rs :: runs)).
           constructor; [|done]. cbn [snd]. intros E. by discriminate (H4 E).
        -- cbn [runs_fn]. rewrite Hw. cbn [from_option id]. rewrite str_app_nil_l, H6. done.
      * destruct IH1 as (sep0 & runs & -> & H1 & H2 & H3 & H4).
        exists ((r, b) :: sep0), runs. repeat split; try done; [by constructor|].
        cbn [runs_fn]. rewrite Hw. exact H4.
    + intros cur. destruct (word r) eqn:Hw.
      * destruct (IH2 (cur +:+ b)) as (r' & sep & runs & -> & H1 & H2 & H3 & H4 & H5 & H6).
        exists ((r, b) :: r'), sep, runs. repeat split; try done; [by constructor|].
        cbn [runs_fn]. rewrite Hw. cbn [from_option id]. rewrite H6.
        change (text_of ((r, b) :: r')) with (b +:+ text_of r').
        by rewrite str_app_assoc.
      * destruct IH1 as (sep0 & runs & -> & H1 & H2 & H3 & H4).
        exists [], ((r, b) :: sep0), runs. repeat split; try done; [by constructor|].
        cbn [runs_fn]. rewrite Hw, H4. cbn [opt_list text_of fold_right app].
        by rewrite str_app_nil_r.
Qed.

Lemma runs_fn_maximal word cs : maximal_runs word cs (runs_fn word None cs).
Proof.
  destruct (runs_fn_maximal_aux word cs) as [(sep0 & runs & H1 & H2 & H3 & H4 & H5) _].
  exists sep0, runs. done.
Qed.

Lemma tokenize_maximal_runs il inu text :
  exists cs, rune_seq text cs /\ maximal_runs (word_rune il inu) cs (tokenize il inu text).
Proof.
  destruct (rune_seq_exists text) as [cs Hcs]. exists cs. split; [done|].
  rewrite (tokenize_runs_fn _ _ _ _ Hcs). apply runs_fn_maximal.
Qed.

Lemma maximal_runs_unique word cs t1 t2 :
  maximal_runs word cs t1 -> maximal_runs word cs t2 -> t1 = t2.
Proof. intros H1 H2. by rewrite (maximal_runs_fn _ _ _ H1), (maximal_runs_fn _ _ _ H2). Qed.

Lemma runs_fn_concat word cs : forall cur,
  concat_strings (runs_fn word cur cs)
  = default EmptyString cur +:+ text_of (filter (fun c => word c.1 = true) cs).
Proof.
  induction cs as [|[r b] cs IH]; intros cur.
  - cbn [runs_fn]. destruct cur; cbn [opt_list concat_strings from_option id]; done.
  - cbn [runs_fn]. destruct (word r) eqn:Hw.
    + rewrite IH. cbn [from_option id]. rewrite filter_cons_True by done.
      change (text_of ((r, b) :: filter (fun c => word c.1 = true) cs))
        with (b +:+ text_of (filter (fun c => word c.1 = true) cs)).
      by rewrite str_app_assoc.
    + rewrite filter_cons_False by (cbn [fst]; congruence).
      destruct cur as [c|]; cbn [opt_list app concat_strings from_option id]; rewrite IH; done.
Qed.

Lemma runs_fn_app_sep word r b ca cb cur :
  word r = false ->
  runs_fn word cur (ca ++ (r, b) :: cb) = runs_fn word cur ca ++ runs_fn word None cb.
Proof.
  intros Hr. revert cur. induction ca as [|[r' b'] ca IH]; intros cur.
  - cbn [app runs_fn]. by rewrite Hr.
  - cbn [app runs_fn]. destruct (word r'); [apply IH|]. rewrite IH. by rewrite app_assoc.
Qed.

Lemma tokenize_app_sep il inu a b r sep :
  utf8_encode r = Some sep -> word_rune il inu r = false ->
  tokenize il inu (a +:+ sep +:+ b) = tokenize il inu a ++ tokenize il inu b.
Proof.
  intros He Hr.
  destruct (rune_seq_exists a) as [ca Ha], (rune_seq_exists b) as [cb Hb].
  assert (rune_seq (a +:+ sep +:+ b) (ca ++ (r, sep) :: cb)) as Hab.
  { eapply rune_seq_app; [done|by constructor|done|done]. }
  rewrite (tokenize_runs_fn _ _ _ _ Hab), (tokenize_runs_fn _ _ _ _ Ha), (tokenize_runs_fn _ _ _ _ Hb).
  by apply runs_fn_app_sep.
Qed.

(** Rune sequences restrict to contiguous parts. *)
Lemma rune_seq_app_inv s cs : rune_seq s cs -> forall c1 c2, cs = c1 ++ c2 ->
  rune_seq (text_of c1) c1 /\ rune_seq (text_of c2) c2.
Proof.
  induction 1 as [|r b rest cs He Hr IH|a rest cs Hno Hr IH]; intros c1 c2 E.
  - destruct c1, c2; try discriminate. split; constructor.
  - destruct c1 as [|c c1]; cbn [app] in E; [subst c2|].
    + split; [constructor|]. change (text_of ((r, b) :: cs)) with (b +:+ text_of cs).
      constructor; [done|]. rewrite <- (rune_seq_text _ _ Hr). done.
    + injection E as <- ->. destruct (IH c1 c2 eq_refl) as [H1 H2]. split; [|done].
      change (text_of ((r, b) :: c1)) with (b +:+ text_of c1). by constructor.
  - destruct c1 as [|c c1]; cbn [app] in E; [subst c2|].
    + split; [constructor|].
      change (text_of ((replacement, String a EmptyString) :: cs)) with (String a (text_of cs)).
      rewrite <- (rune_seq_text _ _ Hr). by constructor.
    + injection E as <- ->. destruct (IH c1 c2 eq_refl) as [H1 H2]. split; [|done].
      change (text_of ((replacement, String a EmptyString) :: c1)) with (String a (text_of c1)).
      constructor; [|done]. intros r b rest' He Heq.
      eapply (Hno r b (rest' +:+ text_of c2)); [done|].
      rewrite (rune_seq_text _ _ Hr), text_of_app.
      change (String a (text_of c1) +:+ text_of c2 = b +:+ rest' +:+ text_of c2).
      by rewrite Heq, str_app_assoc.
Qed.

Lemma tokens_words il inu text :
  Forall (fun t => exists c, rune_seq t c /\ c <> [] /\ Forall (fun x => word_rune il inu x.1 = true) c)
         (tokenize il inu text).
Proof.
  destruct (tokenize_maximal_runs il inu text) as (cs & Hcs & sep0 & runs & Ecs & _ & Hruns & _ & ->).
  apply Forall_map. apply Forall_forall. intros rs Hin.
  rewrite Forall_forall in Hruns. destruct (Hruns rs Hin) as (Hne & Hw & _).
  exists rs.1. split; [|done].
  apply elem_of_list_split in Hin as (l1 & l2 & ->).
  rewrite map_app, concat_app in Ecs. cbn [map concat] in Ecs.
  rewrite <- (app_assoc rs.1), app_assoc in Ecs.
  destruct (rune_seq_app_inv _ _ Hcs _ _ Ecs) as [_ H2].
  destruct (rune_seq_app_inv _ _ H2 _ _ eq_refl) as [H3 _]. done.
Qed.

Lemma tokenize_rejoin il inu text r sep :
  utf8_encode r = Some sep -> word_rune il inu r = false ->
  tokenize il inu (join_strings sep (tokenize il inu text)) = tokenize il inu text.
Proof.
  intros He Hr. pose proof (tokens_words il inu text) as Hw.
  set (toks := tokenize il inu text) in *. clearbody toks. clear text.
  assert (tokenize il inu EmptyString = []) as Hnil.
  { by rewrite (tokenize_runs_fn _ _ _ [] rune_seq_nil). }
  assert (forall t, (exists c, rune_seq t c /\ c <> [] /\ Forall (fun x => word_rune il inu x.1 = true) c) ->
    tokenize il inu t = [t]) as Hone.
  { intros t (c & Hc & Hne & Hall). rewrite (tokenize_runs_fn _ _ _ _ Hc).
    rewrite <- (app_nil_r c), runs_fn_words by done. cbn [from_option id runs_fn opt_list].
    rewrite str_app_nil_l. by rewrite <- (rune_seq_text _ _ Hc). }
  induction Hw as [|t toks Ht Hw IH]; [exact Hnil|].
  destruct toks as [|t2 toks].
  - cbn [join_strings]. by apply Hone.
  - change (join_strings sep (t :: t2 :: toks)) with (t +:+ sep +:+ join_strings sep (t2 :: toks)).
    rewrite (tokenize_app_sep _ _ _ _ _ _ He Hr), IH, (Hone t Ht). done.
Qed.

Lemma tokenize_concat il inu text cs :
  rune_seq text cs ->
  concat_strings (tokenize il inu text)
  = text_of (filter (fun c => word_rune il inu c.1 = true) cs).
Proof. intros H. rewrite (tokenize_runs_fn _ _ _ _ H), runs_fn_concat. done. Qed.

(** ** Filters *)
Lemma lowercase_loop_spec lower n : forall i text,
  (i + n = length text)%nat ->
  lowercase_loop lower n i text = take i text ++ map lower (drop i text).
Proof.
  induction n as [|n IH]; intros i text Hl; cbn [lowercase_loop].
  - rewrite take_ge, drop_ge by lia. by rewrite app_nil_r.
  - destruct (lookup_lt_is_Some_2 text i ltac:(lia)) as [t Ht]. rewrite Ht.
    rewrite IH by (rewrite insert_length; lia).
    rewrite (drop_S _ _ _ Ht). cbn [map].
    rewrite (take_S_r _ _ (lower t)) by (apply list_lookup_insert; lia).
    rewrite take_insert by lia. rewrite drop_insert_gt by lia.
    by rewrite <- app_assoc.
Qed.

Lemma slice_get_insert h p l : slice_get (<[p := l]> h) p = l.
Proof. unfold slice_get. by rewrite lookup_insert. Qed.
Lemma slice_get_insert_ne h p q l : p <> q -> slice_get (<[p := l]> h) q = slice_get h q.
Proof. intros. unfold slice_get. by rewrite lookup_insert_ne. Qed.

Lemma slice_alloc_spec h l h' p :
  slice_alloc h l = (h', p) ->
  slice_get h' p = l /\ h !! p = None /\ forall q, is_Some (h !! q) -> h' !! q = h !! q.
Proof.
  unfold slice_alloc. intros E. injection E as <- <-.
  assert (h !! fresh (dom h) = None) as Hf.
  { apply not_elem_of_dom. apply is_fresh. }
  split; [apply slice_get_insert|]. split; [done|].
  intros q [x Hq]. rewrite lookup_insert_ne; [done|]. intros <-. congruence.
Qed.

Lemma lowercase_process_spec lower h p :
  lowercase_process lower h p = (<[p := map lower (slice_get h p)]> h, p).
Proof.
  unfold lowercase_process. rewrite lowercase_loop_spec by done. done.
Qed.

Lemma stopwords_loop_spec words text :
  stopwords_loop words text = filter (fun w => words !! w <> Some true) text.
Proof.
  unfold stopwords_loop.
  assert (forall acc, fold_left (fun temp element =>
    if default false (words !! element) then temp else temp ++ [element]) text acc
    = acc ++ filter (fun w => words !! w <> Some true) text) as H; [|apply H].
  induction text as [|w text IH]; intros acc; cbn [fold_left].
  - by rewrite app_nil_r.
  - destruct (words !! w) as [[]|] eqn:E; cbn [from_option id].
    + rewrite filter_cons_False; [apply IH|]. congruence.
    + rewrite filter_cons_True by congruence. rewrite IH, <- app_assoc. done.
    + rewrite filter_cons_True by congruence. rewrite IH, <- app_assoc. done.
Qed.

Lemma ascii_loop_spec fold text : forall i temp,
  (length temp = i + length text)%nat ->
  ascii_loop fold i text temp = take i temp ++ map fold text.
Proof.
  induction text as [|w text IH]; intros i temp Hl; cbn [ascii_loop map length] in *.
  - rewrite take_ge by lia. by rewrite app_nil_r.
  - rewrite IH by (rewrite insert_length; lia).
    rewrite (take_S_r _ _ (fold w)) by (apply list_lookup_insert; lia).
    rewrite take_insert by lia. by rewrite <- app_assoc.
Qed.

Lemma ascii_process_spec fold h p :
  ascii_process fold h p = slice_alloc h (map fold (slice_get h p)).
Proof.
  unfold ascii_process. rewrite ascii_loop_spec by (by rewrite replicate_length).
  by rewrite take_0.
Qed.

(** ** Stemmer *)
Definition stem_inv (stem : string -> string) (text : list string) (s : stem_state) : Prop :=
  (st_next s <= length text)%nat /\
  st_todo s = drop (st_next s) text /\
  length (st_temp s) = length text /\
  st_wg s = (length (st_todo s) + length (st_threads s))%nat /\
  (forall i w, SWrite i w ∈ st_threads s -> text !! i = Some w) /\
  (forall i w, text !! i = Some w -> (i < st_next s)%nat ->
     SWrite i w ∈ st_threads s \/ st_temp s !! i = Some (stem w)) /\
  (st_ret s = true -> st_wg s = 0%nat).

Lemma stem_inv_init stem text : stem_inv stem text (stem_init text).
Proof.
  unfold stem_inv, stem_init. cbn. split; [lia|]. split; [done|].
  split; [apply replicate_length|]. split; [lia|]. split; [by intros i w H; inversion H|].
  split; [lia|done].
Qed.

Lemma stem_inv_step stem text s s' :
  stem_inv stem text s -> stem_step stem s s' -> stem_inv stem text s'.
Proof.
  intros (H1 & H2 & H3 & H4 & H5 & H6 & H7) Hstep.
  destruct Hstep; cbn [st_next st_todo st_temp st_wg st_threads st_ret] in *; unfold stem_inv;
    cbn [st_next st_todo st_temp st_wg st_threads st_ret].
  - (* spawn *)
    assert (text !! i = Some w) as Hw.
    { rewrite <- (Nat.add_0_r i), <- lookup_drop, <- H2. done. }
    pose proof (lookup_lt_Some _ _ _ Hw).
    split; [lia|]. split; [|split; [done|]].
    { rewrite (drop_S _ _ _ Hw) in H2. congruence. }
    split; [rewrite app_length; cbn [length] in *; lia|].
    split; [|split; [|done]].
    + intros j v [Hj|Hj]%elem_of_app; [by apply H5|].
      apply elem_of_list_singleton in Hj. by injection Hj as -> ->.
    + intros j v Hv Hlt. destruct (decide (j = i)) as [->|Hne].
      * left. assert (v = w) as -> by congruence. set_solver.
      * destruct (H6 j v Hv ltac:(lia)) as [?|?]; [left; set_solver|by right].
  - (* write *)
    assert (text !! i = Some w) as Hw by (apply H5; set_solver).
    pose proof (lookup_lt_Some _ _ _ Hw).
    split; [done|]. split; [done|]. split; [by rewrite insert_length|].
    split; [rewrite app_length in *; cbn [length] in *; lia|].
    split; [|split; [|done]].
    + intros j v Hj. apply H5. set_solver.
    + intros j v Hv Hlt. destruct (decide (j = i)) as [->|Hne].
      * right. rewrite list_lookup_insert by lia. congruence.
      * rewrite list_lookup_insert_ne by done.
        destruct (H6 j v Hv Hlt) as [Hin|?]; [left|by right].
        apply elem_of_app in Hin as [Hin|Hin]; [set_solver|].
        apply elem_of_cons in Hin as [Hin|Hin]; [congruence|set_solver].
  - (* done *)
    split; [done|]. split; [done|]. split; [done|].
    split; [rewrite app_length in *; cbn [length] in *; lia|].
    split; [|split].
    + intros j v Hj. apply H5. set_solver.
    + intros j v Hv Hlt. destruct (H6 j v Hv Hlt) as [Hin|?]; [left|by right].
      apply elem_of_app in Hin as [Hin|Hin]; [set_solver|].
      apply elem_of_cons in Hin as [Hin|Hin]; [congruence|set_solver].
    + done.
  - (* wait *)
    repeat (split; [done|]). done.
Qed.

Lemma stem_inv_reach stem text s :
  rtc (stem_step stem) (stem_init text) s -> stem_inv stem text s.
Proof.
  intros H. assert (stem_inv stem text (stem_init text)) as Hi by apply stem_inv_init.
  revert Hi. generalize (stem_init text) H. clear H.
  intros s0 H. induction H as [s|s1 s2 s3 H12 H23 IH]; [done|].
  intros Hi. apply IH. by eapply stem_inv_step.
Qed.

Lemma stem_result stem text s :
  rtc (stem_step stem) (stem_init text) s -> st_ret s = true -> st_temp s = map stem text.
Proof.
  intros H Hr. destruct (stem_inv_reach _ _ _ H) as (H1 & H2 & H3 & H4 & H5 & H6 & H7).
  specialize (H7 Hr). rewrite H7 in H4.
  assert (st_todo s = []) as Htodo by (destruct (st_todo s); [done|cbn [length] in H4; lia]).
  assert (st_threads s = []) as Hth by (destruct (st_threads s); [done|cbn [length] in H4; lia]).
  assert (length text <= st_next s)%nat as Hn.
  { rewrite Htodo in H2. destruct (decide (length text <= st_next s)%nat) as [|Hgt]; [done|].
    destruct (lookup_lt_is_Some_2 text (st_next s) ltac:(lia)) as [w Hw].
    rewrite (drop_S _ _ _ Hw) in H2. done. }
  apply list_eq. intros i. rewrite list_lookup_fmap.
  destruct (text !! i) as [w|] eqn:Hw; cbn [fmap option_fmap option_map].
  - pose proof (lookup_lt_Some _ _ _ Hw).
    destruct (H6 i w Hw ltac:(lia)) as [Hin|Hin]; [|done].
    rewrite Hth in Hin. inversion Hin.
  - apply lookup_ge_None. rewrite H3. by apply lookup_ge_None.
Qed.

Lemma stem_progress stem text s :
  rtc (stem_step stem) (stem_init text) s -> st_ret s = false -> exists s', stem_step stem s s'.
Proof.
  intros H Hr. destruct (stem_inv_reach _ _ _ H) as (H1 & H2 & H3 & H4 & H5 & H6 & H7).
  destruct s as [todo n ts wg temp ret]. cbn in *. subst ret.
  destruct todo as [|w todo]; [|eexists; apply stem_spawn].
  destruct ts as [|t ts].
  - cbn in H4. subst wg. eexists. apply stem_wait.
  - destruct t as [i w|].
    + eexists. apply (stem_write stem [] n [] ts).
    + cbn in H4. subst wg. eexists. apply (stem_done stem [] n [] ts).
Qed.

Definition stem_measure (s : stem_state) : nat :=
  (3 * length (st_todo s)
   + sum_list (map (fun t => match t with SWrite _ _ => 2 | SDone => 1 end) (st_threads s))
   + if st_ret s then 0 else 1)%nat.

Lemma sum_list_app' l k : sum_list (l ++ k) = (sum_list l + sum_list k)%nat.
Proof. induction l as [|x l IH]; cbn [app sum_list_with]; [done|]. rewrite IH. lia. Qed.

Lemma stem_measure_step stem s s' : stem_step stem s s' -> (stem_measure s' < stem_measure s)%nat.
Proof.
  intros H; destruct H; unfold stem_measure;
    cbn [st_next st_todo st_temp st_wg st_threads st_ret length];
    rewrite ?map_app, ?sum_list_app'; cbn [map sum_list_with]; unfold id; lia.
Qed.

Lemma sn_of_measure {A} (R : A -> A -> Prop) (f : A -> nat) :
  (forall x y, R x y -> (f y < f x)%nat) -> forall x, sn R x.
Proof.
  intros H x. remember (f x) as n eqn:E. revert x E.
  induction n as [n IH] using lt_wf_ind. intros x ->.
  constructor. intros y Hxy. unfold flip in Hxy. eapply IH; [by apply H|done].
Qed.

Lemma stem_terminates stem s : sn (stem_step stem) s.
Proof. apply (sn_of_measure _ stem_measure), stem_measure_step. Qed.

(** From progress and termination: some complete schedule exists. *)
Lemma stem_completes stem text :
  exists s, rtc (stem_step stem) (stem_init text) s /\ st_ret s = true.
Proof.
  assert (forall s, sn (stem_step stem) s -> rtc (stem_step stem) (stem_init text) s ->
     exists s', rtc (stem_step stem) s s' /\ st_ret s' = true) as Haux.
  { intros s Hs. induction Hs as [s _ IH]. intros Hreach.
    destruct (st_ret s) eqn:Hr; [by exists s|].
    destruct (stem_progress _ _ _ Hreach Hr) as [s1 H1].
    destruct (IH s1 H1) as (s' & H2 & H3); [by eapply rtc_r|].
    exists s'. split; [by eapply rtc_l|done]. }
  apply Haux; [apply stem_terminates|done].
Qed.

(** ** Preprocessing *)
Lemma preprocessing_spec il inu lower stem fold words h text r :
  preprocessing il inu lower stem fold words h text r <->
  r = pipeline lower stem fold (fun w => words !! w = Some true) (tokenize il inu text).
Proof.
  unfold preprocessing. set (toks := tokenize il inu text).
  destruct (slice_alloc h toks) as [h1 p1] eqn:E1.
  apply slice_alloc_spec in E1 as (G1 & _ & _).
  rewrite lowercase_process_spec. rewrite G1.
  unfold stopwords_process. rewrite slice_get_insert, stopwords_loop_spec.
  set (kept := filter _ _).
  destruct (slice_alloc (<[p1:=map lower toks]> h1) kept) as [h3 p3] eqn:E3.
  apply slice_alloc_spec in E3 as (G3 & _ & _). rewrite G3.
  change (stemmer_process snowball kept) with (Some (stem_init kept)).
  assert (pipeline lower stem fold (fun w => words !! w = Some true) toks
          = map fold (map stem kept)) as ->.
  { unfold pipeline. done. }
  split.
  - intros (st0 & s & H0 & H1 & H2 & H3). injection H0 as <-.
    destruct (slice_alloc h3 (st_temp s)) as [h4 p4] eqn:E4.
    apply slice_alloc_spec in E4 as (G4 & _ & _).
    rewrite ascii_process_spec, G4 in H3.
    destruct (slice_alloc h4 (map fold (st_temp s))) as [h5 p5] eqn:E5.
    apply slice_alloc_spec in E5 as (G5 & _ & _). rewrite G5 in H3. subst r.
    by rewrite (stem_result _ _ _ H1 H2).
  - intros ->. destruct (stem_completes stem kept) as (s & H1 & H2).
    exists (stem_init kept), s. split; [done|]. split; [done|]. split; [done|].
    destruct (slice_alloc h3 (st_temp s)) as [h4 p4] eqn:E4.
    apply slice_alloc_spec in E4 as (G4 & _ & _).
    rewrite ascii_process_spec, G4.
    destruct (slice_alloc h4 (map fold (st_temp s))) as [h5 p5] eqn:E5.
    apply slice_alloc_spec in E5 as (G5 & _ & _). rewrite G5.
    by rewrite (stem_result _ _ _ H1 H2).
Qed.

Lemma pipeline_length lower stem fold (stop : string -> Prop) `{forall w, Decision (stop w)} toks :
  (length (pipeline lower stem fold stop toks) <= length toks)%nat.
Proof.
  unfold pipeline. rewrite !map_length.
  etransitivity; [apply filter_length|]. by rewrite map_length.
Qed.

(** ** TermFrequency *)
Lemma occurrences_cons t x l :
  occurrences t (x :: l) = (if decide (x = t) then 1 else 0) + occurrences t l.
Proof.
  unfold occurrences. destruct (decide (x = t)) as [->|Hne].
  - rewrite filter_cons_True by done. cbn [length]. lia.
  - rewrite filter_cons_False by done. lia.
Qed.
Lemma occurrences_nonneg t l : 0 <= occurrences t l.
Proof. unfold occurrences. lia. Qed.
Lemma occurrences_pos t l : 0 < occurrences t l <-> t ∈ l.
Proof.
  unfold occurrences. split.
  - intros H. destruct (filter (fun x => x = t) l) as [|y k] eqn:E; [cbn [length] in H; lia|].
    assert (y ∈ filter (fun x => x = t) l) as Hy by (rewrite E; left).
    apply elem_of_list_filter in Hy as [-> Hy]. done.
  - intros H. assert (t ∈ filter (fun x => x = t) l) as Ht by (by apply elem_of_list_filter).
    destruct (filter (fun x => x = t) l); [inversion Ht|]. cbn [length]. lia.
Qed.
Lemma occurrences_perm t l k : l ≡ₚ k -> occurrences t l = occurrences t k.
Proof. unfold occurrences. intros ->. done. Qed.

Lemma tf_fold l : forall m t,
  geti (fold_left (fun m term => addi m term 1) l m) t = wrap64 (geti m t + occurrences t l)
  \/ geti (fold_left (fun m term => addi m term 1) l m) t = geti m t /\ occurrences t l = 0.
Proof.
  induction l as [|x l IH]; intros m t; cbn [fold_left].
  - right. done.
  - rewrite occurrences_cons. destruct (IH (addi m x 1) t) as [->|[-> ->]].
    + destruct (decide (x = t)) as [->|Hne].
      * left. rewrite geti_addi, wrap64_add_l. f_equal. lia.
      * left. rewrite geti_addi_ne by done. f_equal.
    + destruct (decide (x = t)) as [->|Hne].
      * left. rewrite geti_addi. f_equal; lia.
      * right. rewrite geti_addi_ne by done. split; done.
Qed.

Lemma tf_dom l : forall (m : gmap string Z) t,
  is_Some (fold_left (fun m term => addi m term 1) l m !! t) <-> is_Some (m !! t) \/ t ∈ l.
Proof.
  induction l as [|x l IH]; intros m t; cbn [fold_left].
  - split; [by left|]. intros [H|H]; [done|inversion H].
  - rewrite IH. unfold addi. rewrite lookup_insert_is_Some, elem_of_cons.
    split.
    + intros [[->|[? ?]]|?]; auto.
    + intros [?|[->|?]]; auto. destruct (decide (x = t)); auto.
Qed.

Lemma occurrences_le t l : occurrences t l <= Z.of_nat (length l).
Proof. unfold occurrences. pose proof (filter_length (fun x => x = t) l). lia. Qed.

Lemma term_frequency_lookup l t :
  Z.of_nat (length l) < 2 ^ 63 ->
  term_frequency l !! t = if decide (t ∈ l) then Some (occurrences t l) else None.
Proof.
  intros Hl. pose proof (tf_dom l ∅ t) as Hd. pose proof (tf_fold l ∅ t) as Hf.
  pose proof (occurrences_le t l). pose proof (occurrences_nonneg t l).
  fold (term_frequency l) in *. rewrite geti_empty in Hf.
  assert (geti (term_frequency l) t = occurrences t l) as Hg.
  { destruct Hf as [->|[-> ->]]; [|done]. apply wrap64_id. unfold int64_range. lia. }
  destruct (decide (t ∈ l)) as [Hin|Hnin].
  - destruct Hd as [_ Hd]. destruct (Hd (or_intror Hin)) as [v Hv].
    unfold geti in Hg. rewrite Hv in Hg. cbn in Hg. congruence.
  - destruct (term_frequency l !! t) as [v|] eqn:E; [|done].
    destruct Hd as [[Hd|Hd] _]; [eauto|rewrite lookup_empty in Hd; by destruct Hd|done].
Qed.

(** The entries of the map sum to the length of the list. *)
Lemma tf_total_aux l : forall ks, NoDup ks -> (forall t, t ∈ l -> t ∈ ks) ->
  foldr Z.add 0 (map (fun k => occurrences k l) ks) = Z.of_nat (length l).
Proof.
  induction l as [|x l IH]; intros ks Hnd Hin.
  - cbn [length]. induction ks as [|k ks IHk]; [done|]. cbn [map foldr].
    inversion Hnd; subst. rewrite IHk; [done|done|intros t Ht; inversion Ht].
  - assert (foldr Z.add 0 (map (fun k => occurrences k (x :: l)) ks)
      = foldr Z.add 0 (map (fun k => if decide (x = k) then 1 else 0) ks)
        + foldr Z.add 0 (map (fun k => occurrences k l) ks)) as ->.
    { clear. induction ks as [|k ks IH]; [done|]. cbn [map foldr].
      rewrite occurrences_cons, IH. lia. }
    rewrite IH by (auto; intros t Ht; apply Hin; by right).
    assert (foldr Z.add 0 (map (fun k => if decide (x = k) then 1 else 0) ks) = 1) as ->.
    { assert (x ∈ ks) as Hx by (apply Hin; left). clear -Hnd Hx.
      induction ks as [|k ks IH]; [inversion Hx|]. inversion Hnd; subst. cbn [map foldr].
      apply elem_of_cons in Hx as [->|Hx].
      - rewrite decide_True by done.
        assert (foldr Z.add 0 (map (fun k0 => if decide (k = k0) then 1 else 0) ks) = 0) as ->; [|done].
        assert (k ∉ ks) as Hk by done. clear -Hk. induction ks as [|k0 ks IH]; [done|].
        cbn [map foldr]. rewrite decide_False by set_solver. rewrite IH by set_solver. done.
      - rewrite decide_False by set_solver. rewrite IH by done. done. }
    cbn [length]. lia.
Qed.
Lemma term_frequency_total l ks :
  Z.of_nat (length l) < 2 ^ 63 -> range_order (term_frequency l) ks ->
  foldr Z.add 0 (map (geti (term_frequency l)) ks) = Z.of_nat (length l).
Proof.
  intros Hl Hks. rewrite <- (tf_total_aux l ks).
  - f_equal. apply map_ext_in. intros k Hk. unfold geti.
    rewrite term_frequency_lookup by done. destruct (decide (k ∈ l)) as [|Hn]; [done|].
    cbn. destruct (Z.eq_dec (occurrences k l) 0) as [->|]; [done|].
    exfalso. apply Hn, occurrences_pos. pose proof (occurrences_nonneg k l). lia.
  - by eapply range_order_NoDup.
  - intros t Ht. eapply range_order_elem; [done|].
    rewrite term_frequency_lookup by done. rewrite decide_True by done. eauto.
Qed.
Lemma term_frequency_perm l k :
  Z.of_nat (length l) < 2 ^ 63 -> l ≡ₚ k -> term_frequency l = term_frequency k.
Proof.
  intros Hl Hp. apply map_eq. intros t.
  rewrite !term_frequency_lookup; [|by rewrite <- Hp|done].
  rewrite (occurrences_perm t l k Hp).
  destruct (decide (t ∈ l)) as [H|H], (decide (t ∈ k)) as [H'|H']; try done.
  - exfalso. apply H'. by rewrite <- Hp.
  - exfalso. apply H. by rewrite Hp.
Qed.
