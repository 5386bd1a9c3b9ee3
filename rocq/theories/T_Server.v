(** Property theorems C37-C38: the HTTP service.  [bind] is gin's JSON binding;
    is_letter ... fold are the external text functions. *)
From Verif Require Import Base M_Text M_Language M_Field M_Memory M_Num M_NumR M_FanIn M_Search M_Standard M_Server
  S_Memory S_View S_Search S_BM25 S_Server P_Memory2 P_Search P_Standard P_Server P_FloatWitness.

(** C37: over any storage, in any arithmetic, for every schedule of the search. *)
Theorem C37_get_answers : forall is_letter is_number to_lower stem fold N ncpu v text a, fields_pointwise v ->
  get is_letter is_number to_lower stem fold N ncpu v text a ->
  exists ds, all_matching v (terms_of is_letter is_number to_lower stem fold text) ds /\
  (length ds = 0%nat -> a = Answer 200 (mkRes 0 [])) /\
  ((1 <= length ds <= 9)%nat -> a = Panic) /\
  ((10 <= length ds)%nat -> exists rs, a = Answer 200 (mkRes 10 rs) /\ length rs = 10%nat /\ NoDup rs.*1 /\
     forall d, d ∈ rs.*1 -> d ∈ ds).
Proof. exact get_full. Qed.
Print Assumptions C37_get_answers.
Theorem C37_ten_best : forall is_letter is_number to_lower stem fold ncpu v text rs, fields_pointwise v ->
  get is_letter is_number to_lower stem fold real_ops ncpu v text (Answer 200 (mkRes 10 rs)) ->
  let terms := terms_of is_letter is_number to_lower stem fold text in
  let score := fun d => rsum (contributions real_ops v (get_queries real_ops terms) d) in
  length rs = 10%nat /\ NoDup rs.*1 /\
  (forall d x, (d, x) ∈ rs -> in_title_or_text v terms d /\ x = score d) /\
  (forall i j a b, (i < j)%nat -> rs !! i = Some a -> rs !! j = Some b -> (a.2 >= b.2)%R) /\
  (forall d x e, (d, x) ∈ rs -> in_title_or_text v terms e -> e ∉ rs.*1 -> (x >= score e)%R).
Proof. exact get_ten_best. Qed.
Print Assumptions C37_ten_best.
Theorem C37_get_finishes : forall is_letter is_number to_lower stem fold N ncpu v text, (0 < ncpu)%nat -> fields_pointwise v ->
  exists a, get is_letter is_number to_lower stem fold N ncpu v text a.
Proof. exact get_exists. Qed.
Print Assumptions C37_get_finishes.

(** C38 *)
Theorem C38_found_exactly : forall bind is_letter is_number to_lower stem fold N ncpu bodies sts m text s rs d,
  let terms := terms_of is_letter is_number to_lower stem fold in
  mem_server (post bind is_letter is_number to_lower stem fold) mem_new bodies sts m ->
  rtc (std_step N ncpu (mem_view m) (get_queries N (terms text))) (std_init N (get_queries N (terms text))) s ->
  std_returns N s rs ->
  d ∈ rs.*1 <->
  d <> "" /\ exists body doc t, body ∈ bodies /\ bind body = Some doc /\ d_id doc = d /\ t ∈ terms text /\
    (t ∈ terms (d_title doc) \/ t ∈ terms (d_text doc)).
Proof. intros. eapply search_after_posts; eassumption. Qed.
Print Assumptions C38_found_exactly.
Theorem C38_status : forall bind is_letter is_number to_lower stem fold m bodies sts m',
  mem_server (post bind is_letter is_number to_lower stem fold) m bodies sts m' ->
  length sts = length bodies /\ forall i body st, bodies !! i = Some body -> sts !! i = Some st ->
    st = match bind body with Some doc => if String.eqb (d_id doc) "" then 400 else 201 | None => 400 end.
Proof. intros. eapply posts_status; eassumption. Qed.
Print Assumptions C38_status.
Theorem C38_rejected_changes_nothing : forall bind is_letter is_number to_lower stem fold m body st calls m',
  post bind is_letter is_number to_lower stem fold body st calls -> mem_run m calls m' -> st <> 201 -> m' = m.
Proof. intros. eapply rejected_changes_nothing; eassumption. Qed.
Print Assumptions C38_rejected_changes_nothing.

(** What the service has stored after any sequence of POST requests: for each of the
    three fields, the collection statistics count every accepted request, and the
    stored field of a document is that of the latest accepted request with its id
    (C07 says what TermFrequency is). *)
Theorem C38_statistics : forall bind is_letter is_number to_lower stem fold bodies sts m f,
  mem_server (post bind is_letter is_number to_lower stem fold) mem_new bodies sts m -> f ∈ ["id"; "title"; "text"] ->
  let ds := accepted bind bodies in
  let terms := fun d => match part f d with Some x => terms_of is_letter is_number to_lower stem fold x | None => [] end in
  mem_get_size m f = wrap64 (Z.of_nat (length ds)) /\
  mem_get_length m f = wrap64 (foldr Z.add 0 (map (fun d => Z.of_nat (length (terms d))) ds)) /\
  (forall t, mem_get_nft m f [t] !! t = Some (wrap64 (Z.of_nat (length (List.filter (fun d => bool_decide (t ∈ terms d)) ds))))) /\
  (forall d ids, d ∈ ids -> mem_get_fields m ids f !! d =
     match latest d ds with Some e => Some (mkField f (Z.of_nat (length (terms e))) (term_frequency (terms e))) | None => None end).
Proof. exact (fun bind il inum tl st fo bodies sts m f => posts_statistics il inum tl st fo bind bodies sts m f). Qed.
Print Assumptions C38_statistics.

(** A server with an ASCII text pipeline and a JSON binding that takes the body as
    id, title and text: after two posts and one rejected post, a query for one of
    the words is answered, the answer is a panic (one match), and a query for an unknown
    word is answered with an empty result. *)
Definition same (s : string) : string := s.
Definition ex_bind (body : string) : option document :=
  if String.eqb body "?" then None else Some (mkDocument body body body).
Example C37_C38_witness :
  let letter := fun r => (97 <=? r) && (r <=? 122) in
  let num := fun _ => false in
  exists m sts, mem_server (post ex_bind letter num same same same) mem_new ["galaxy star"; ""; "?"; "planet"] sts m /\
    sts = [201; 400; 400; 201] /\
    (exists a, get letter num same same same real_ops 4 (mem_view m) "star" a /\ a = Panic) /\
    (exists a, get letter num same same same real_ops 4 (mem_view m) "comet" a /\ a = Answer 200 (mkRes 0 [])).
Proof.
  intros letter num.
  assert (forall bodies m, exists m' sts, mem_server (post ex_bind letter num same same same) m bodies sts m') as Hex.
  { induction bodies as [|b l IH]; intros m; [do 2 eexists; constructor|].
    destruct (post_exists letter num same same same ex_bind b) as [st Hst].
    destruct (IH (fold_left mem_exec1 (calls_of letter num same same same ex_bind b) m)) as (m' & sts & H).
    exists m', (st :: sts). econstructor; [exact Hst| |exact H].
    generalize (calls_of letter num same same same ex_bind b) as cs. clear. intros cs. revert m.
    induction cs as [|c cs IH]; intros m; cbn; [constructor|]. econstructor; [|apply IH].
    destruct c; [apply mem_step_save|apply mem_step_index]; unfold range_order, keys; reflexivity. }
  destruct (Hex ["galaxy star"; ""; "?"; "planet"] mem_new) as (m & sts & H). exists m, sts. split; [done|].
  destruct (C38_status _ _ _ _ _ _ _ _ _ _ H) as [Hl Hs]. split.
  { destruct sts as [|s1 [|s2 [|s3 [|s4 [|]]]]]; try discriminate Hl.
    rewrite (Hs 0%nat _ _ eq_refl eq_refl), (Hs 1%nat _ _ eq_refl eq_refl), (Hs 2%nat _ _ eq_refl eq_refl), (Hs 3%nat _ _ eq_refl eq_refl).
    reflexivity. }
  assert (forall d w, in_title_or_text (mem_view m) (terms_of letter num same same same w) d <-> d <> "" /\ exists body doc t, body ∈ ["galaxy star"; ""; "?"; "planet"] /\ ex_bind body = Some doc /\ d_id doc = d /\ t ∈ terms_of letter num same same same w /\
    (t ∈ terms_of letter num same same same (d_title doc) \/ t ∈ terms_of letter num same same same (d_text doc))) as Hin.
  { intros d w. destruct (std_completes real_ops 4 (mem_view m) ltac:(lia) (mem_view_pointwise m) (get_queries real_ops (terms_of letter num same same same w))) as (s & rs & Hs1 & Hr).
    rewrite <- (C38_found_exactly _ _ _ _ _ _ _ _ _ _ _ _ _ _ d H Hs1 Hr).
    destruct (get_ids real_ops _ _ _ _ _ (mem_view_pointwise m) Hs1 Hr) as [_ E]. by rewrite E. }
  split.
  - destruct (C37_get_finishes letter num same same same real_ops 4 (mem_view m) "star") as [a Ha]; [lia|apply mem_view_pointwise|].
    exists a. split; [done|]. eapply get_cases; [apply mem_view_pointwise|exact Ha| |].
    2: { instantiate (1 := ["galaxy star"]). cbn. lia. }
    split; [apply NoDup_singleton|]. intros d. rewrite Hin, elem_of_list_singleton. split.
    + intros ->. split; [done|]. exists "galaxy star", (mkDocument "galaxy star" "galaxy star" "galaxy star"), "star".
      split; [left|]. split; [done|]. split; [done|]. split; [vm_compute; left|]. left. vm_compute. right. left.
    + intros (Hne & body & doc & t & Hb & Hbind & Hid & Ht & Hor).
      assert (t = "star") as ->. { vm_compute in Ht. by apply elem_of_list_singleton in Ht. }
      rewrite !elem_of_cons, elem_of_nil in Hb. destruct Hb as [->|[->|[->|[->|[]]]]]; try discriminate Hbind;
        injection Hbind as <-; cbn in Hid; subst d; [done|done|].
      exfalso. assert ("star" ∉ terms_of letter num same same same "planet") as Hno.
      { intros HH. vm_compute in HH. by apply elem_of_list_singleton in HH. }
      by destruct Hor.
  - destruct (C37_get_finishes letter num same same same real_ops 4 (mem_view m) "comet") as [a Ha]; [lia|apply mem_view_pointwise|].
    exists a. split; [done|]. eapply get_cases; [apply mem_view_pointwise|exact Ha| |].
    2: { instantiate (1 := []). done. }
    split; [apply NoDup_nil_2|]. intros d. rewrite Hin, elem_of_nil. split; [done|].
    intros (Hne & body & doc & t & Hb & Hbind & Hid & Ht & Hor).
    assert (t = "comet") as ->. { vm_compute in Ht. by apply elem_of_list_singleton in Ht. }
    assert (forall w, w ∈ ["galaxy star"; ""; "?"; "planet"] -> "comet" ∉ terms_of letter num same same same w) as Hno.
    { intros w Hw HH. rewrite !elem_of_cons, elem_of_nil in Hw. destruct Hw as [->|[->|[->|[->|[]]]]]; vm_compute in HH;
        repeat first [apply elem_of_nil in HH as []|apply elem_of_cons in HH as [HH|HH]; [discriminate HH|]]. }
    unfold ex_bind in Hbind. destruct (String.eqb body "?"); [discriminate|]. injection Hbind as <-. cbn in Hor. 
    destruct Hor as [Ho|Ho]; exact (Hno body Hb Ho).
Qed.
