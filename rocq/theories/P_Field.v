From Verif Require Import Base M_Field S_Text S_Field P_Base.

(** Size of a json value, for nested induction. *)
Section flat.
  Context {num : Type}.
  Implicit Types (v w : json num) (kvs o : list (string * json num)).

  Fixpoint jsize v : nat :=
    match v with
    | JObject kvs => S ((fix go kvs := match kvs with [] => 0 | (_, w) :: r => S (jsize w) + go r end) kvs)
    | _ => 1
    end%nat.
  Fixpoint osize kvs : nat := match kvs with [] => 0 | (_, w) :: r => S (jsize w) + osize r end%nat.
  Lemma jsize_obj kvs : jsize (JObject kvs) = S (osize kvs).
  Proof. reflexivity. Qed.
  Lemma osize_elem k w kvs : (k, w) ∈ kvs -> (jsize w < osize kvs)%nat.
  Proof.
    induction kvs as [|[k' w'] r IH]; intros H; [inversion H|].
    apply elem_of_cons in H as [[= -> ->]|H]; cbn [osize]; [lia|]. specialize (IH H). lia.
  Qed.

  Definition child_key (prefix k : string) : string :=
    if String.eqb prefix "" then k else (prefix +:+ "." +:+ k)%string.

  Fixpoint loop_flatten kvs (out : gmap string (json num)) prefix : gmap string (json num) :=
    match kvs with
    | [] => out
    | (k, w) :: r =>
      loop_flatten r (match w with
                      | JObject _ => rec_flatten w out (child_key prefix k)
                      | _ => <[child_key prefix k := w]> out
                      end) prefix
    end.
  Lemma rec_flatten_loop kvs out prefix : rec_flatten (JObject kvs) out prefix = loop_flatten kvs out prefix.
  Proof.
    cbn [rec_flatten]. revert out. induction kvs as [|[k w] r IH]; intros out; [done|].
    cbn [loop_flatten]. rewrite IH. unfold child_key. done.
  Qed.

  (** Key assigned to the leaf at path [p] below [prefix]. *)
  Fixpoint path_key (prefix : string) (p : list string) : string :=
    match p with [] => prefix | k :: p' => path_key (child_key prefix k) p' end.

  (** Every entry of the result is an old entry or a leaf; every leaf has an
      entry; old entries survive unless some leaf has their key. *)
  Lemma loop_flatten_spec n : forall kvs out prefix, (osize kvs < n)%nat ->
    (forall key v, loop_flatten kvs out prefix !! key = Some v ->
       out !! key = Some v \/ exists p, leaf_at kvs p v /\ path_key prefix p = key) /\
    (forall p v, leaf_at kvs p v -> is_Some (loop_flatten kvs out prefix !! path_key prefix p)) /\
    (forall key, is_Some (out !! key) -> is_Some (loop_flatten kvs out prefix !! key)) /\
    (forall key v, out !! key = Some v -> (forall p w, leaf_at kvs p w -> path_key prefix p <> key) ->
       loop_flatten kvs out prefix !! key = Some v).
  Proof.
    induction n as [|n IHn]; intros kvs out prefix Hn; [lia|].
    revert out Hn. induction kvs as [|[k w] r IHr]; intros out Hn.
    { cbn [loop_flatten]. split; [by left|]. split; [|split; [done|done]].
      intros p v Hl. inversion Hl as [? ? ? Hin|? ? ? ? ? Hin]; subst; inversion Hin. }
    cbn [loop_flatten osize] in *.
    set (out' := match w with JObject _ => rec_flatten w out (child_key prefix k)
                         | _ => <[child_key prefix k := w]> out end).
    destruct (IHr out' ltac:(lia)) as (R1 & R2 & R3 & R4).
    (* facts about this entry *)
    assert (
      (forall key v, out' !! key = Some v -> out !! key = Some v \/
         exists p, leaf_at ((k, w) :: r) p v /\ path_key prefix p = key) /\
      (forall p v, leaf_at [(k, w)] p v -> is_Some (out' !! path_key prefix p)) /\
      (forall key, is_Some (out !! key) -> is_Some (out' !! key)) /\
      (forall key v, out !! key = Some v ->
         (forall p u, leaf_at ((k, w) :: r) p u -> path_key prefix p <> key) -> out' !! key = Some v))
      as (E1 & E2 & E3 & E4).
    { destruct (is_object w) eqn:Ho.
      - destruct w as [| | | | |o]; try discriminate. unfold out'. rewrite rec_flatten_loop.
        rewrite jsize_obj in Hn.
        destruct (IHn o out (child_key prefix k) ltac:(lia)) as (O1 & O2 & O3 & O4).
        split; [|split; [|split]].
        + intros key v H. destruct (O1 key v H) as [?|(p & Hp & <-)]; [by left|].
          right. exists (k :: p). split; [|done]. eapply leaf_deep; [left|done].
        + intros p v Hl. inversion Hl as [? k' v' Hin Hv|? k' o' p' v' Hin Hl']; subst.
          * apply elem_of_list_singleton in Hin. injection Hin as -> ->. discriminate.
          * apply elem_of_list_singleton in Hin. injection Hin as -> ->. cbn [path_key]. eauto.
        + exact O3.
        + intros key v H Hno. apply O4; [done|]. intros p u Hp E.
          apply (Hno (k :: p) u); [|done]. eapply leaf_deep; [left|done].
      - assert (out' = <[child_key prefix k := w]> out) as Eo by (unfold out'; by destruct w).
        rewrite Eo. split; [|split; [|split]].
        + intros key v H. destruct (decide (child_key prefix k = key)) as [<-|Hne].
          * rewrite lookup_insert in H. injection H as <-. right. exists [k]. split; [|done].
            apply leaf_here; [left|done].
          * rewrite lookup_insert_ne in H by done. by left.
        + intros p v Hl. inversion Hl as [? k' v' Hin Hv|? k' o' p' v' Hin Hl']; subst.
          * apply elem_of_list_singleton in Hin. injection Hin as -> ->. cbn [path_key].
            rewrite lookup_insert. eauto.
          * apply elem_of_list_singleton in Hin. injection Hin as -> <-. discriminate.
        + intros key H. by rewrite lookup_insert_is_Some'; right.
        + intros key v H Hno. rewrite lookup_insert_ne; [done|].
          apply (Hno [k] w). apply leaf_here; [left|done]. }
    assert (forall p v, leaf_at r p v -> leaf_at ((k, w) :: r) p v) as Hmono.
    { intros p v Hl. inversion Hl as [? k' v' Hin Hv|? k' o' p' v' Hin Hl']; subst.
      - apply leaf_here; [by right|done].
      - eapply leaf_deep; [by right|done]. }
    split; [|split; [|split]].
    - intros key v H. destruct (R1 key v H) as [H1|(p & Hp & <-)]; [by apply E1|].
      right. exists p. split; [by apply Hmono|done].
    - intros p v Hl. assert (leaf_at [(k, w)] p v \/ leaf_at r p v) as [H|H].
      { inversion Hl as [? k' v' Hin Hv|? k' o' p' v' Hin Hl']; subst;
          apply elem_of_cons in Hin as [Hin|Hin].
        - injection Hin as -> ->. left. apply leaf_here; [left|done].
        - right. by apply leaf_here.
        - injection Hin as -> <-. left. eapply leaf_deep; [left|done].
        - right. by eapply leaf_deep. }
      + apply R3. by eapply E2.
      + by eapply R2.
    - intros key H. apply R3, E3, H.
    - intros key v H Hno. apply R4; [by apply E4|].
      intros p u Hp. eapply Hno. by apply Hmono.
  Qed.

  Lemma flatten_sound kvs key v : flatten kvs !! key = Some v ->
    exists p, leaf_at kvs p v /\ path_key "" p = key.
  Proof.
    unfold flatten. rewrite rec_flatten_loop. intros H.
    destruct (loop_flatten_spec (S (osize kvs)) kvs ∅ "" ltac:(lia)) as (R1 & _).
    destruct (R1 key v H) as [H'|?]; [by rewrite lookup_empty in H'|done].
  Qed.
  Lemma flatten_complete kvs p v : leaf_at kvs p v -> is_Some (flatten kvs !! path_key "" p).
  Proof.
    unfold flatten. rewrite rec_flatten_loop.
    destruct (loop_flatten_spec (S (osize kvs)) kvs ∅ "" ltac:(lia)) as (_ & R2 & _). apply R2.
  Qed.

  (** *** path keys and dotted paths *)
  Lemma app_not_empty a b : a <> ""%string -> (a +:+ b)%string <> ""%string.
  Proof. destruct a; done. Qed.
  Lemma path_key_ne prefix p : prefix <> ""%string ->
    path_key prefix p = match p with [] => prefix | _ => (prefix +:+ "." +:+ dotted p)%string end.
  Proof.
    revert prefix. induction p as [|k p IH]; intros prefix Hp; [done|].
    cbn [path_key]. unfold child_key.
    destruct (String.eqb_spec prefix "") as [?|_]; [done|].
    rewrite IH by (by apply app_not_empty). destruct p as [|k' p]; [done|].
    change (dotted (k :: k' :: p)) with (k +:+ "." +:+ dotted (k' :: p))%string.
    by rewrite !str_app_assoc.
  Qed.
  Lemma path_key_empty p : p <> [] -> path_key "" p = dotted (strip_empty p).
  Proof.
    induction p as [|k p IH]; intros Hne; [done|]. cbn [path_key].
    change (child_key "" k) with k.
    destruct (decide (k = ""%string)) as [->|Hk].
    - destruct p as [|k' p]; [done|]. rewrite IH by done. done.
    - rewrite path_key_ne by done. destruct p as [|k' p].
      + destruct k; done.
      + destruct k as [|c k]; [done|]. done.
  Qed.
  Lemma leaf_path_ne kvs p v : leaf_at kvs p v -> p <> [].
  Proof. by inversion 1. Qed.
  Lemma strip_empty_id k p : k <> ""%string -> strip_empty (k :: p) = k :: p.
  Proof. intros Hk. destruct k as [|c k]; [done|]. destruct p; done. Qed.

  (** *** injectivity of dotted on dot-free keys *)
  Lemma dot_split a b r s :
    no_dot a -> no_dot b -> (a +:+ String "." r)%string = (b +:+ String "." s)%string -> a = b /\ r = s.
  Proof.
    unfold no_dot. revert b. induction a as [|x a IH]; intros [|y b] Ha Hb E; cbn [has_char] in *; simpl in E.
    - injection E as ->. done.
    - injection E as <- E. rewrite Ascii.eqb_refl in Hb. discriminate.
    - injection E as -> E. rewrite Ascii.eqb_refl in Ha. discriminate.
    - injection E as -> E. apply orb_false_elim in Ha as [_ Ha], Hb as [_ Hb].
      destruct (IH b Ha Hb E) as [-> ->]. done.
  Qed.
  Lemma has_char_app c a b : has_char c (a +:+ b) = has_char c a || has_char c b.
  Proof. induction a as [|x a IH]; [done|]. simpl. by rewrite IH, orb_assoc. Qed.
  Lemma no_dot_app_false a r : ¬ no_dot (a +:+ String "." r)%string.
  Proof. unfold no_dot. rewrite has_char_app. cbn [has_char]. rewrite Ascii.eqb_refl.
    rewrite orb_true_r. discriminate. Qed.
  Lemma dotted_inj p q :
    p <> [] -> q <> [] -> Forall no_dot p -> Forall no_dot q -> dotted p = dotted q -> p = q.
  Proof.
    revert q. induction p as [|a p IH]; intros [|b q] Hp Hq Fp Fq E; try done.
    apply Forall_cons in Fp as [Fa Fp], Fq as [Fb Fq].
    destruct p as [|a' p], q as [|b' q].
    - cbn in E. by subst.
    - change (dotted (b :: b' :: q)) with (b +:+ String "." (dotted (b' :: q)))%string in E.
      cbn in E. subst a. exfalso. by eapply no_dot_app_false.
    - change (dotted (a :: a' :: p)) with (a +:+ String "." (dotted (a' :: p)))%string in E.
      cbn in E. subst b. exfalso. by eapply no_dot_app_false.
    - change (dotted (b :: b' :: q)) with (b +:+ String "." (dotted (b' :: q)))%string in E.
      change (dotted (a :: a' :: p)) with (a +:+ String "." (dotted (a' :: p)))%string in E.
      apply dot_split in E as [-> E]; [|done|done]. f_equal. by apply IH.
  Qed.

  (** *** leaves are unique *)
  Lemma elem_NoDup_fst k v w kvs : NoDup kvs.*1 -> (k, v) ∈ kvs -> (k, w) ∈ kvs -> v = w.
  Proof.
    induction kvs as [|[k' u] r IH]; intros Hnd H1 H2; [inversion H1|].
    rewrite fmap_cons in Hnd. apply NoDup_cons in Hnd as [Hn Hnd].
    apply elem_of_cons in H1 as [H1|H1], H2 as [H2|H2].
    - congruence.
    - injection H1 as -> ->. exfalso. apply Hn. by apply (elem_of_list_fmap_1 fst r (k', w)).
    - injection H2 as -> ->. exfalso. apply Hn. by apply (elem_of_list_fmap_1 fst r (k', v)).
    - by apply IH.
  Qed.
  Lemma leaf_at_fun kvs p v w : wf_object kvs -> leaf_at kvs p v -> leaf_at kvs p w -> v = w.
  Proof.
    intros Hwf H. revert Hwf w. induction H as [kvs k v Hin Hv|kvs k o p v Hin Hl IH];
      intros Hwf w Hw; destruct Hwf as [kvs Hnd Hsub].
    - inversion Hw as [? ? ? Hin' Hv'|? ? ? ? ? Hin' Hl']; subst.
      + by eapply elem_NoDup_fst.
      + inversion Hl'.
    - inversion Hw as [? ? ? Hin' Hv'|? k' o' p' v' Hin' Hl']; subst.
      + inversion Hl.
      + assert (JObject o = JObject o') as E by (by eapply elem_NoDup_fst).
        injection E as <-. apply IH; [by eapply Hsub|done].
  Qed.

  Definition keys_ok kvs : Prop :=
    forall p v, leaf_at kvs p v -> Forall no_dot p /\ head p <> Some ""%string.

  Lemma flatten_exact kvs : wf_object kvs ->
    (forall p v, leaf_at kvs p v -> Forall no_dot p /\ head p <> Some ""%string) ->
    forall key v, flatten kvs !! key = Some v <-> exists p, leaf_at kvs p v /\ dotted p = key.
  Proof.
    intros Hwf Hok key v.
    assert (forall p u, leaf_at kvs p u -> path_key "" p = dotted p) as Hk.
    { intros p u Hl. rewrite path_key_empty by (by eapply leaf_path_ne).
      destruct (Hok p u Hl) as [_ Hh]. destruct p as [|k p]; [done|].
      rewrite strip_empty_id; [done|]. intros ->. done. }
    split.
    - intros H. destruct (flatten_sound _ _ _ H) as (p & Hp & <-). exists p. split; [done|].
      symmetry. by eapply Hk.
    - intros (p & Hp & <-). destruct (flatten_complete _ _ _ Hp) as [u Hu].
      rewrite (Hk p v Hp) in Hu. rewrite Hu. f_equal.
      destruct (flatten_sound _ _ _ Hu) as (q & Hq & E). rewrite (Hk q u Hq) in E.
      assert (q = p) as ->.
      { eapply dotted_inj; [by eapply leaf_path_ne|by eapply leaf_path_ne| | |done].
        - by eapply Hok. - by eapply Hok. }
      by eapply leaf_at_fun.
  Qed.

  (** *** iteration order *)
  Scheme same_object_ind2 := Minimality for same_object Sort Prop
    with same_entries_ind2 := Minimality for same_entries Sort Prop.
  Lemma leaf_at_perm kvs kvs' p v : kvs ≡ₚ kvs' -> leaf_at kvs p v -> leaf_at kvs' p v.
  Proof.
    intros Hp Hl. inversion Hl as [? k' v' Hin Hv|? k' o' p' v' Hin Hl']; subst.
    - apply leaf_here; [by rewrite <- Hp|done].
    - eapply leaf_deep; [by rewrite <- Hp|done].
  Qed.
  Lemma leaf_at_cons k w r p v :
    leaf_at ((k, w) :: r) p v <-> leaf_at [(k, w)] p v \/ leaf_at r p v.
  Proof.
    split.
    - intros Hl. inversion Hl as [? k' v' Hin Hv|? k' o' p' v' Hin Hl']; subst;
          apply elem_of_cons in Hin as [Hin|Hin].
        + injection Hin as -> ->. left. apply leaf_here; [left|done].
        + right. by apply leaf_here.
        + injection Hin as -> <-. left. eapply leaf_deep; [left|done].
        + right. by eapply leaf_deep.
    - intros [Hl|Hl]; inversion Hl as [? k' v' Hin Hv|? k' o' p' v' Hin Hl']; subst.
      + apply elem_of_list_singleton in Hin. injection Hin as -> ->. apply leaf_here; [left|done].
      + apply elem_of_list_singleton in Hin. injection Hin as -> <-. eapply leaf_deep; [left|done].
      + apply leaf_here; [by right|done].
      + eapply leaf_deep; [by right|done].
  Qed.
  Lemma same_object_leaf (a b : list (string * json num)) : same_object a b -> forall p v, leaf_at a p v <-> leaf_at b p v.
  Proof.
    intros H. induction H as [a b c He IH Hp| |k v a b Hv He IH|k o o' a b Ho IHo He IHe]
      using same_object_ind2 with (P0 := fun a b => forall p v, leaf_at a p v <-> leaf_at b p v).
    - intros p v. rewrite IH. split; apply leaf_at_perm; [done|by symmetry].
    - done.
    - intros p u. rewrite (leaf_at_cons k v a), (leaf_at_cons k v b). by rewrite IH.
    - intros p u. rewrite (leaf_at_cons k _ a), (leaf_at_cons k _ b), IHe. apply or_iff_compat_r.
      split; intros Hl; inversion Hl as [? k' v' Hin Hv|? k' q p' v' Hin Hl']; subst;
        apply elem_of_list_singleton in Hin; injection Hin as ?; subst; try discriminate.
      + eapply leaf_deep; [left|]. by apply IHo.
      + eapply leaf_deep; [left|]. by apply IHo.
  Qed.
  Lemma same_object_wf (a b : list (string * json num)) : same_object a b -> wf_object a -> wf_object b.
  Proof.
    intros H. induction H as [a b c He IH Hp| |k v a b Hv He IH|k o o' a b Ho IHo He IHe]
      using same_object_ind2 with (P0 := fun (a b : list (string * json num)) => a.*1 = b.*1 /\ (wf_object a -> wf_object b)).
    - intros Hwf. destruct IH as [_ IH]. specialize (IH Hwf). destruct IH as [b Hnd Hs].
      constructor; [by rewrite <- Hp|]. intros k o Hin. apply (Hs k o). by rewrite Hp.
    - done.
    - destruct IH as [E IH]. rewrite !fmap_cons, E. split; [done|].
      intros Hwf. inversion Hwf as [? Hnd Hs]; subst.
      assert (wf_object b) as Hb.
      { apply IH. rewrite fmap_cons in Hnd. apply NoDup_cons in Hnd as [_ Hnd].
        constructor; [done|]. intros k' o Hin. apply (Hs k' o). by right. }
      destruct Hb as [b Hndb Hsb]. constructor.
      + rewrite fmap_cons in *. rewrite <- E. done.
      + intros k' o Hin. apply elem_of_cons in Hin as [Hin|Hin]; [|by eapply Hsb].
        injection Hin as -> <-. discriminate.
    - destruct IHe as [E IH]. rewrite !fmap_cons, E. split; [done|].
      intros Hwf. inversion Hwf as [? Hnd Hs]; subst.
      assert (wf_object b) as Hb.
      { apply IH. rewrite fmap_cons in Hnd. apply NoDup_cons in Hnd as [_ Hnd].
        constructor; [done|]. intros k' u Hin. apply (Hs k' u). by right. }
      destruct Hb as [b Hndb Hsb]. constructor.
      + rewrite fmap_cons in *. rewrite <- E. done.
      + intros k' u Hin. apply elem_of_cons in Hin as [Hin|Hin]; [|by eapply Hsb].
        injection Hin as -> <-. apply IHo. apply (Hs k o). left.
  Qed.
  Lemma flatten_order_independent (a b : list (string * json num)) : wf_object a -> same_object a b ->
    (forall p v, leaf_at a p v -> Forall no_dot p /\ head p <> Some ""%string) ->
    flatten a = flatten b.
  Proof.
    intros Hwf Hs Hok. apply map_eq. intros key.
    assert (forall v, flatten a !! key = Some v <-> flatten b !! key = Some v) as H.
    { intros v. rewrite (flatten_exact a) by done. rewrite (flatten_exact b).
      - split; intros (p & Hp & <-); exists p; split; auto; by apply (same_object_leaf a b Hs).
      - by eapply same_object_wf.
      - intros p u Hp. apply (Hok p u). by apply (same_object_leaf a b Hs). }
    destruct (flatten a !! key) as [v|] eqn:Ea.
    - symmetry. by apply H.
    - destruct (flatten b !! key) as [v|] eqn:Eb; [|done].
      specialize (H v). destruct H as [_ H]. specialize (H eq_refl). discriminate.
  Qed.

  (** *** GetID *)
  Context (fmt_num : num -> string).
  Lemma get_id_absent kvs : "Id"%string ∉ kvs.*1 -> get_id fmt_num kvs = ""%string.
  Proof.
    induction kvs as [|[k v] r IH]; intros H; [done|]. cbn [get_id].
    rewrite fmap_cons, not_elem_of_cons in H. destruct H as [H1 H2]. cbn [fst] in H1.
    destruct (String.eqb_spec k "Id") as [->|]; [done|]. by apply IH.
  Qed.
  Lemma get_id_present kvs v : NoDup kvs.*1 -> ("Id"%string, v) ∈ kvs -> get_id fmt_num kvs = sprint fmt_num v.
  Proof.
    induction kvs as [|[k w] r IH]; intros Hnd H; [inversion H|]. cbn [get_id].
    rewrite fmap_cons in Hnd. apply NoDup_cons in Hnd as [Hn Hnd].
    apply elem_of_cons in H as [H|H].
    - injection H as <- <-. done.
    - destruct (String.eqb_spec k "Id") as [->|]; [|by apply IH].
      exfalso. apply Hn. by apply (elem_of_list_fmap_1 fst r ("Id"%string, v)).
  Qed.
  Lemma sprint_scalar_diag v :
    (forall s, v <> JString s) -> (forall l, v <> JArray l) -> is_object v = false ->
    String.prefix "%!s(" (sprint fmt_num v) = true.
  Proof.
    intros H1 H2 H3. destruct v; try reflexivity.
    - by destruct (H1 s). - by destruct (H2 l). - discriminate.
  Qed.
End flat.

(** *** Set *)
#[global] Instance set_op_eq_dec : EqDecision set_op.
Proof. solve_decision. Defined.
Lemma set_fold_snoc s ops o :
  fold_left set_step (ops ++ [o]) s = set_step (fold_left set_step ops s) o.
Proof. by rewrite fold_left_app. Qed.
Lemma last_op_snoc x ops o :
  last_op_adds x (ops ++ [o]) <-> o = SAdd x \/ (o <> SRemove x /\ last_op_adds x ops).
Proof.
  unfold last_op_adds. split.
  - intros (l1 & l2 & E & H). destruct l2 as [|y l2 _] using rev_ind.
    + apply app_inj_tail in E as [_ ->]. by left.
    + rewrite app_comm_cons, app_assoc in E. apply app_inj_tail in E as [-> ->].
      apply Forall_app in H as [H1 H2]. apply Forall_singleton in H2 as [H2 H3].
      right. split; [done|]. eauto.
  - intros [->|[Hr (l1 & l2 & -> & H)]].
    + exists ops, []. done.
    + destruct (decide (o = SAdd x)) as [->|Ha].
      * exists (l1 ++ SAdd x :: l2), []. done.
      * exists l1, (l2 ++ [o]). rewrite app_comm_cons, app_assoc. split; [done|].
        apply Forall_app. split; [done|]. by apply Forall_singleton.
Qed.
Lemma set_contains_spec ops x :
  set_contains (fold_left set_step ops set_new) x = true <-> last_op_adds x ops.
Proof.
  unfold set_contains. induction ops as [|o ops IH] using rev_ind.
  - cbn [fold_left]. unfold set_new. rewrite lookup_empty. split; [discriminate|].
    intros (l1 & l2 & E & _). destruct l1; discriminate.
  - rewrite set_fold_snoc, last_op_snoc, <- IH. destruct o as [y|y]; cbn [set_step].
    + destruct (decide (y = x)) as [->|Hne].
      * rewrite lookup_insert. split; [by left|done].
      * rewrite lookup_insert_ne by done. split; [by right|]. intros [E|[_ ?]]; [congruence|done].
    + destruct (decide (y = x)) as [->|Hne].
      * rewrite lookup_delete. split; [done|]. intros [?|[? _]]; done.
      * rewrite lookup_delete_ne by done. split; [intros ?; right; split; [congruence|done]|].
        intros [?|[_ ?]]; [discriminate|done].
Qed.
Lemma set_size_spec ops xs :
  NoDup xs -> (forall x, x ∈ xs <-> last_op_adds x ops) ->
  set_size (fold_left set_step ops set_new) = length xs.
Proof.
  intros Hnd Hx. unfold set_size. set (m := fold_left set_step ops set_new).
  change (size m) with (length (map_to_list m)). rewrite <- (fmap_length fst). apply Permutation_length.
  apply NoDup_Permutation; [apply NoDup_fst_map_to_list|done|].
  intros x. rewrite Hx, <- set_contains_spec. fold m. unfold set_contains.
  rewrite elem_of_list_fmap. split.
  - intros ([k b] & -> & H). apply elem_of_map_to_list in H. cbn [fst]. by rewrite H.
  - destruct (m !! x) as [b|] eqn:E; [|discriminate]. intros _. exists (x, b).
    split; [done|]. by apply elem_of_map_to_list.
Qed.
