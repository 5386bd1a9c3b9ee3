(** filepath.Clean computes the target of a path (C57). *)
From Verif Require Import Base M_Path S_Path.
From Coq Require Import Ascii.
#[local] Open Scope nat_scope.

Notation str := string_of_list_ascii.
Notation chs := list_ascii_of_string.
Lemma str_chs s : str (chs s) = s. Proof. apply string_of_list_ascii_of_string. Qed.
Lemma chs_str s : chs (str s) = s. Proof. apply list_ascii_of_string_of_list_ascii. Qed.
Lemma str_inj a b : str a = str b -> a = b. Proof. intros H. by rewrite <- (chs_str a), H, chs_str. Qed.
Lemma chs_inj a b : chs a = chs b -> a = b. Proof. intros H. by rewrite <- (str_chs a), H, str_chs. Qed.
Lemma chs_app a b : chs (a ++ b)%string = chs a ++ chs b. Proof. induction a as [|c a IH]; [done|]. cbn. by rewrite <- IH. Qed.
Lemma str_app a b : str (a ++ b) = (str a ++ str b)%string. Proof. apply chs_inj. by rewrite chs_app, !chs_str. Qed.

(** * Walking on lists of bytes *)
Definition up2 : chars := [dot; dot].
Definition walk1c (abs : bool) (cs : list chars) (s : chars) : list chars :=
  if decide (s = [] \/ s = [dot]) then cs
  else if decide (s = up2) then match cs with c :: cs' => if decide (c = up2) then s :: cs else cs' | [] => if abs then [] else [s] end
  else s :: cs.
Definition walkc (abs : bool) (cs ss : list chars) : list chars := fold_left (walk1c abs) ss cs.
Lemma walk1_str abs cs s : walk1 abs (map str cs) (str s) = map str (walk1c abs cs s).
Proof.
  unfold walk1, walk1c. assert (forall u : chars, str s = str u <-> s = u) as K by (intros u; split; [apply str_inj|by intros ->]).
  assert (str s = "" \/ str s = "." <-> s = [] \/ s = [dot])%string as K1 by (by rewrite (K []), (K [dot])). assert (str s = ".."%string <-> s = up2) as K2 by apply (K up2).
  destruct (decide (s = [] \/ s = [dot])) as [H|H]; [by rewrite decide_True by by apply K1|]. rewrite decide_False by by rewrite K1.
  destruct (decide (s = up2)) as [->|Hn]; [|by rewrite decide_False by by rewrite K2]. rewrite decide_True by by apply K2. destruct cs as [|c cs]; [by destruct abs|]. cbn [map].
  assert (str c = ".."%string <-> c = up2) as K3 by (split; [apply (str_inj c up2)|by intros ->]). destruct (decide (c = up2)) as [Hc|Hc]; [by rewrite decide_True by by apply K3|by rewrite decide_False by by rewrite K3].
Qed.
Lemma walk_str abs ss : forall cs, walk abs (map str cs) (map str ss) = map str (walkc abs cs ss).
Proof. induction ss as [|s ss IH]; intros cs; [done|]. cbn. rewrite walk1_str. apply IH. Qed.

(** * Pieces *)
Lemma pieces_ne p : pieces_chars p <> [].
Proof. induction p as [|c p IH]; [done|]. cbn. destruct (decide _); [done|]. by destruct (pieces_chars p). Qed.
Lemma pieces_noslash s r : slash ∉ s -> pieces_chars (s ++ r) = match pieces_chars r with h :: t => (s ++ h) :: t | [] => [] end.
Proof.
  intros H. induction s as [|c s IH]; cbn; [destruct (pieces_chars r) eqn:E; [by apply pieces_ne in E|done]|].
  rewrite decide_False by (intros ->; apply H; left). rewrite IH by (intros ?; apply H; by right). by destruct (pieces_chars r) eqn:E; [apply pieces_ne in E|].
Qed.
Lemma walk_piece abs cs s r : slash ∉ s -> ends_here r = true -> walkc abs cs (pieces_chars (s ++ r)) = walkc abs (walk1c abs cs s) (pieces_chars r).
Proof.
  intros H He. rewrite pieces_noslash by done. destruct r as [|c r]; cbn in *; [by rewrite app_nil_r|]. apply bool_decide_eq_true in He. subst c. rewrite decide_True by done. cbn. by rewrite app_nil_r.
Qed.
Lemma walk_slash abs cs r : walkc abs cs (pieces_chars (slash :: r)) = walkc abs cs (pieces_chars r).
Proof. done. Qed.
Lemma segment_spec r s r' : segment r = (s, r') -> r = s ++ r' /\ slash ∉ s /\ ends_here r' = true.
Proof.
  revert s r'. induction r as [|c r IH]; intros s r'; cbn; [intros [= <- <-]; split; [done|]; split; [apply not_elem_of_nil|done]|].
  destruct (decide (c = slash)) as [->|Hc]; [intros [= <- <-]; split; [done|]; split; [apply not_elem_of_nil|done]|]. destruct (segment r) as [s1 r1]. intros [= <- <-]. destruct (IH s1 r1 eq_refl) as (-> & H2 & H3).
  split; [done|]. split; [|done]. intros [Hn|Hn]%elem_of_cons; [by apply Hc|done].
Qed.

(** * The output of the loop *)
Fixpoint rend (abs : bool) (cs : list chars) : chars :=
  match cs with
  | [] => if abs then [slash] else []
  | c :: cs' => rev c ++ match cs' with [] => if abs then [slash] else [] | _ => slash :: rend abs cs' end
  end.
Lemma rend_cons abs c cs : rend abs (c :: cs) = rev c ++ (if decide (cs = []) then rend abs [] else slash :: rend abs cs).
Proof. destruct cs; done. Qed.
(** Names, then (only if relative) steps up; last first. *)
Definition ok_stack (abs : bool) (ns us : list chars) : Prop :=
  Forall (fun c => c <> [] /\ slash ∉ c /\ c <> up2 /\ c <> [dot]) ns /\ Forall (fun c => c = up2) us /\ (abs = true -> us = []).
Lemma ok_names abs ns us : ok_stack abs ns us -> Forall (fun c => c <> [] /\ slash ∉ c) (ns ++ us).
Proof.
  intros (H1 & H2 & _). apply Forall_app. split; [eapply Forall_impl; [exact H1|cbn; by intros c (? & ? & _)]|]. eapply Forall_impl; [exact H2|]. cbn. intros c ->. split; [done|]. intros H. apply elem_of_list_In in H. cbn in H. by destruct H as [?|[?|[]]].
Qed.
Lemma rend_len abs c cs : c <> [] -> length (rend abs (c :: cs)) > length (rend abs cs).
Proof. intros H. rewrite rend_cons, app_length, rev_length. destruct c; [done|]. cbn [length]. destruct (decide (cs = [])) as [->|Hn]; cbn [length]; lia. Qed.
Lemma rend_len_us abs ns us : Forall (fun c => c <> []) ns -> length (rend abs (ns ++ us)) >= length (rend abs us).
Proof. induction 1 as [|c ns Hc _ IH]; [cbn; lia|]. pose proof (rend_len abs c (ns ++ us) Hc). cbn [app]. lia. Qed.
Lemma backtrack_app s t k : slash ∉ s -> k <= length t -> backtrack (s ++ t) k = backtrack t k.
Proof.
  intros H Hk. induction s as [|c s IH]; [done|]. cbn [app backtrack]. rewrite decide_False by (cbn [length]; rewrite app_length; lia). rewrite decide_False by (intros ->; apply H; left). apply IH. intros ?. apply H. by right.
Qed.
Lemma backtrack_short t k : length t <= k -> backtrack t k = t.
Proof. intros H. destruct t as [|c t]; [done|]. cbn [backtrack]. by rewrite decide_True. Qed.
Lemma elem_rev (c : ascii) s : c ∈ rev s <-> c ∈ s.
Proof. rewrite !elem_of_list_In. symmetry. apply in_rev. Qed.
Lemma backtrack_rend abs n ns us : ok_stack abs (n :: ns) us -> backtrack (rend abs (n :: ns ++ us)) (length (rend abs us)) = rend abs (ns ++ us).
Proof.
  intros (H1 & H2 & H3). apply Forall_cons in H1 as [(Hn & Hs & _) H1]. assert (Forall (fun c : chars => c <> []) ns) as H1' by (eapply Forall_impl; [exact H1|cbn; by intros c (? & _)]).
  pose proof (rend_len_us abs ns us H1') as L. rewrite rend_cons. destruct (decide (ns ++ us = [])) as [E|E].
  - apply app_eq_nil in E as [-> ->]. rewrite backtrack_app; [|by rewrite elem_rev|cbn; lia]. by apply backtrack_short.
  - rewrite backtrack_app; [|by rewrite elem_rev|cbn [length]; lia]. cbn [backtrack]. rewrite decide_False by (cbn [length]; lia). by rewrite decide_True.
Qed.
Lemma loop_spec abs fuel : forall rest ns us, length rest <= fuel -> ok_stack abs ns us ->
  exists ns' us', clean_loop abs fuel rest (rend abs (ns ++ us)) (length (rend abs us)) = rend abs (ns' ++ us') /\ ok_stack abs ns' us' /\ walkc abs (ns ++ us) (pieces_chars rest) = ns' ++ us'.
Proof.
  induction fuel as [|fuel IH]; intros rest ns us Hl Ok.
  { destruct rest; [|cbn in Hl; lia]. exists ns, us. done. }
  destruct rest as [|c r]; [exists ns, us; done|]. cbn [clean_loop length] in *. unfold next_element.
  destruct (decide (c = slash)) as [->|Hc]; [rewrite walk_slash; apply IH; [lia|done]|].
  destruct (decide (c = dot /\ ends_here r = true)) as [[-> He]|Hd].
  { assert (walkc abs (ns ++ us) (pieces_chars ([dot] ++ r)) = walkc abs (ns ++ us) (pieces_chars r)) as E. { rewrite walk_piece; [done| |done]. intros [?|?%elem_of_nil]%elem_of_cons; done. } cbn [app] in E. rewrite E. apply IH; [lia|done]. }
  assert (forall s r', segment (c :: r) = (s, r') -> s <> up2 ->
    exists ns' us', clean_loop abs fuel r' (rev s ++ (if decide (length (rend abs (ns ++ us)) = if abs then 1 else 0) then rend abs (ns ++ us) else slash :: rend abs (ns ++ us))) (length (rend abs us)) = rend abs (ns' ++ us') /\ ok_stack abs ns' us' /\ walkc abs (ns ++ us) (pieces_chars (c :: r)) = ns' ++ us') as K.
  { intros s r' Hs Hu. destruct (segment_spec _ _ _ Hs) as (E & Hns & He). assert (s <> []) as Hne. { intros ->. cbn in Hs. rewrite decide_False in Hs by done. by destruct (segment r). }
    assert (length r' <= fuel) as Hl'. { apply (f_equal length) in E. rewrite app_length in E. cbn in E. destruct s; [done|]. cbn in E. lia. }
    assert (s <> [dot]) as Hdot. { intros ->. cbn in E. injection E as -> ->. by apply Hd. }
    assert (ok_stack abs (s :: ns) us) as Ok'. { destruct Ok as (O1 & O2 & O3). split; [|done]. by constructor. }
    destruct (IH r' (s :: ns) us Hl' Ok') as (ns' & us' & E1 & E2 & E3). exists ns', us'. split; [|split; [done|]].
    - rewrite <- E1. f_equal. rewrite <- app_comm_cons, rend_cons. f_equal. destruct (decide (ns ++ us = [])) as [E0|E0].
      + rewrite E0. rewrite decide_True; [done|]. by destruct abs.
      + rewrite decide_False; [done|]. pose proof (ok_names _ _ _ Ok) as Na. destruct (ns ++ us) as [|x l]; [done|]. apply Forall_cons in Na as [[Nx _] _]. pose proof (rend_len abs x l Nx) as L.
        destruct abs; [|lia]. assert (1 <= length (rend true l)); [|lia]. destruct l as [|x' l]; [cbn; lia|]. rewrite rend_cons, app_length. destruct (decide _); cbn; lia.
    - rewrite E, walk_piece by done. assert (walk1c abs (ns ++ us) s = (s :: ns) ++ us) as ->; [|done]. unfold walk1c. rewrite decide_False by (intros [?|?]; done). by rewrite decide_False. }
  destruct r as [|c2 r2].
  { destruct (segment [c]) as [s r'] eqn:Es. apply K; [done|]. intros ->. cbn in Es. rewrite decide_False in Es by done. discriminate Es. }
  destruct (decide (c = dot /\ c2 = dot /\ ends_here r2 = true)) as [(-> & -> & He)|Hdd].
  2: { destruct (segment (c :: c2 :: r2)) as [s r'] eqn:Es. apply K; [done|]. intros ->. destruct (segment_spec _ _ _ Es) as (E & _ & He). cbn in E. injection E as -> -> ->. by apply Hdd. }
  clear K. assert (walkc abs (ns ++ us) (pieces_chars (up2 ++ r2)) = walkc abs (walk1c abs (ns ++ us) up2) (pieces_chars r2)) as E. { apply walk_piece; [|done]. intros H. apply elem_of_list_In in H. cbn in H. by destruct H as [?|[?|[]]]. } cbn [up2 app] in E. rewrite E. clear E. cbn [length] in Hl.
  destruct Ok as (O1 & O2 & O3). destruct ns as [|n ns].
  - cbn [app]. rewrite decide_False by lia. destruct abs.
    + rewrite (O3 eq_refl) in *. apply (IH r2 [] []); [lia|done].
    + assert (walk1c false us up2 = up2 :: us) as ->. { unfold walk1c. rewrite decide_False by (intros [?|?]; done). rewrite decide_True by done. destruct us as [|u us]; [done|]. apply Forall_cons in O2 as [-> _]. by rewrite decide_True. }
      destruct (IH r2 [] (up2 :: us)) as (ns' & us' & E1 & E2 & E3); [lia|split; [done|split; [by constructor|done]]|]. exists ns', us'. split; [|done]. rewrite <- E1. cbn [app].
      assert (rend false (up2 :: us) = dot :: dot :: (if decide (0 < length (rend false us)) then slash :: rend false us else rend false us)) as ->; [|done].
      rewrite rend_cons. cbn [rev app up2]. destruct us as [|u us]; [done|]. rewrite (decide_False (P := u :: us = [])) by done. rewrite decide_True; [done|]. apply Forall_cons in O2 as [-> _]. pose proof (rend_len false up2 us). cbn [up2] in *. specialize (H ltac:(done)). lia.
  - cbn [app]. assert (Hn := O1). apply Forall_cons in Hn as [(N1 & N2 & N3 & _) Hn]. assert (Forall (fun c : chars => c <> []) ns) as H1' by (eapply Forall_impl; [exact Hn|cbn; by intros x (? & _)]).
    pose proof (rend_len_us abs ns us H1') as L1. pose proof (rend_len abs n (ns ++ us) N1) as L2. rewrite decide_True by lia. rewrite (backtrack_rend abs n ns us) by done.
    assert (walk1c abs (n :: ns ++ us) up2 = ns ++ us) as ->. { unfold walk1c. rewrite decide_False by (intros [?|?]; done). rewrite decide_True by done. by rewrite decide_False. }
    apply IH; [lia|done].
Qed.

(** * Paths as strings *)
Lemma with_slashes_snoc cs c : with_slashes (cs ++ [c]) = if decide (cs = []) then c else (with_slashes cs ++ "/" ++ c)%string.
Proof.
  induction cs as [|x cs IH]; [done|]. rewrite (decide_False (P := x :: cs = [])) by done. destruct cs as [|y cs]; [done|].
  change (with_slashes ((x :: y :: cs) ++ [c])) with (x ++ "/" ++ with_slashes ((y :: cs) ++ [c]))%string. rewrite IH. rewrite decide_False by done. change (with_slashes (x :: y :: cs)) with (x ++ "/" ++ with_slashes (y :: cs))%string.
  apply chs_inj. rewrite !chs_app. by rewrite <- !app_assoc.
Qed.
Lemma rend_slashes abs cs : rev (rend abs cs) = (if abs then [slash] else []) ++ chs (with_slashes (rev (map str cs))).
Proof.
  induction cs as [|c cs IH]; [by destruct abs|]. rewrite rend_cons. cbn [map rev]. rewrite with_slashes_snoc, rev_app_distr, rev_involutive. destruct cs as [|x cs].
  - rewrite decide_True by done. rewrite decide_True by done. rewrite chs_str. by destruct abs.
  - rewrite decide_False by done. rewrite decide_False by (intros E%(f_equal length); rewrite rev_length in E; done).
    cbn [rev]. rewrite IH. rewrite !chs_app, chs_str. by rewrite <- !app_assoc.
Qed.
Lemma clean_spec p : clean p = path_to (absolute p) (target p) /\ exists ns us, ok_stack (absolute p) ns us /\ target p = rev (map str (ns ++ us)).
Proof.
  unfold clean, target, pieces. destruct p as [|c r]; [split; [done|]; exists [], []; done|]. cbn [list_ascii_of_string absolute clean_chars].
  assert (exists abs ns us, bool_decide (c = slash) = abs /\ ok_stack abs ns us /\ walkc abs [] (pieces_chars (c :: chs r)) = ns ++ us /\
    (if decide (c = slash) then clean_loop true (length (c :: chs r)) (chs r) [slash] 1 else clean_loop false (length (c :: chs r)) (c :: chs r) [] 0) = rend abs (ns ++ us)) as (abs & ns & us & Ea & Ok & Ew & El).
  { destruct (decide (c = slash)) as [->|Hc].
    - destruct (loop_spec true (length (slash :: chs r)) (chs r) [] []) as (ns & us & E1 & E2 & E3); [cbn; lia|done|]. exists true, ns, us. split; [done|]. split; [done|]. split; [exact E3|exact E1].
    - destruct (loop_spec false (length (c :: chs r)) (c :: chs r) [] []) as (ns & us & E1 & E2 & E3); [lia|done|]. exists false, ns, us. split; [by apply bool_decide_eq_false|]. split; [done|]. split; [exact E3|exact E1]. }
  cbv zeta. rewrite El, Ea. change (@nil string) with (map str []). rewrite walk_str, Ew. split; [|by exists ns, us].
  unfold path_to. assert (forall l, match l with [] => [dot] | _ => rev l end = match l with [] => [dot] | _ :: _ => rev l end) as _ by done.
  pose proof (rend_slashes abs (ns ++ us)) as E. destruct abs.
  - destruct (rend true (ns ++ us)) as [|x l] eqn:Er; [by apply (f_equal length) in E|]. rewrite E. apply chs_inj. by rewrite chs_str, chs_app.
  - destruct (ns ++ us) as [|x l] eqn:El2; [done|]. destruct (rend false (x :: l)) as [|y l'] eqn:Er.
    + exfalso. pose proof (ok_names _ _ _ Ok) as Na. rewrite El2 in Na. apply Forall_cons in Na as [[Nx _] _]. pose proof (rend_len false x l Nx) as L. rewrite Er in L. cbn in L. lia.
    + rewrite E. cbn [app]. rewrite str_chs. destruct (rev (map str (x :: l))) eqn:Es; [|done]. apply (f_equal length) in Es. rewrite rev_length in Es. done.
Qed.
(** The pieces of a path put together from pieces. *)
Lemma pieces_app a b : pieces_chars (a ++ slash :: b) = pieces_chars a ++ pieces_chars b.
Proof.
  induction a as [|c a IH]; [done|]. cbn. destruct (decide (c = slash)); [by rewrite IH|]. rewrite IH. destruct (pieces_chars a) as [|s ss] eqn:E; [by apply pieces_ne in E|]. done.
Qed.
Lemma pieces_cat a b : pieces (a ++ "/" ++ b) = pieces a ++ pieces b.
Proof. unfold pieces. rewrite !chs_app. cbn [list_ascii_of_string app]. change (Ascii.Ascii true true true true false true false false) with slash. by rewrite pieces_app, map_app. Qed.
Lemma pieces_simple s : no_slash s -> pieces s = [s].
Proof. intros H. unfold pieces. rewrite <- (app_nil_r (chs s)), pieces_noslash by done. cbn. by rewrite app_nil_r, str_chs. Qed.
Lemma pieces_slashes cs : cs <> [] -> Forall no_slash cs -> pieces (with_slashes cs) = cs.
Proof.
  intros Hn H. induction H as [|c cs Hc Hcs IH]; [done|]. destruct cs as [|x cs]; [by apply pieces_simple|]. change (with_slashes (c :: x :: cs)) with (c ++ "/" ++ with_slashes (x :: cs))%string. rewrite pieces_cat, IH by done. by rewrite pieces_simple.
Qed.
Lemma walk_app abs cs a b : walk abs cs (a ++ b) = walk abs (walk abs cs a) b.
Proof. apply fold_left_app. Qed.
Lemma walk_simple abs ss : forall cs, Forall simple ss -> walk abs cs ss = rev ss ++ cs.
Proof.
  induction ss as [|s ss IH]; intros cs H; [done|]. apply Forall_cons in H as [(H1 & H2 & H3 & _) H]. change (walk abs cs (s :: ss)) with (walk abs (walk1 abs cs s) ss). cbn [rev]. assert (walk1 abs cs s = s :: cs) as ->. { unfold walk1. rewrite decide_False by (intros [?|?]; done). by rewrite decide_False. }
  rewrite IH by done. by rewrite <- app_assoc.
Qed.
Lemma walk_ups us : forall cs, Forall (fun c => c = ".."%string) us -> Forall (fun c => c = ".."%string) cs -> walk false cs us = rev us ++ cs.
Proof.
  induction us as [|u us IH]; intros cs H Hc; [done|]. apply Forall_cons in H as [-> H]. change (walk false cs (".."%string :: us)) with (walk false (walk1 false cs "..") us). cbn [rev]. assert (walk1 false cs ".." = ".."%string :: cs) as ->. { unfold walk1. rewrite decide_False by (intros [?|?]; done). rewrite decide_True by done. destruct cs as [|c cs]; [done|]. apply Forall_cons in Hc as [-> _]. by rewrite decide_True. }
  rewrite IH; [by rewrite <- app_assoc|done|by constructor].
Qed.
(** Components a path can lead to: steps up (only if relative), then names. *)
Definition ok_target (abs : bool) (cs : list string) : Prop := exists us ns, cs = us ++ ns /\ Forall (fun c => c = ".."%string) us /\ (abs = true -> us = []) /\ Forall simple ns.

Lemma target_ok p : ok_target (absolute p) (target p).
Proof.
  destruct (clean_spec p) as (_ & ns & us & (O1 & O2 & O3) & ->). rewrite map_app, rev_app_distr. exists (rev (map str us)), (rev (map str ns)). split; [done|]. split; [|split].
  - apply Forall_rev. apply Forall_map. eapply Forall_impl; [exact O2|]. intros c ->. done.
  - intros E. by rewrite (O3 E).
  - apply Forall_rev, Forall_map. eapply Forall_impl; [exact O1|]. cbn. intros c (H1 & H2 & H3 & H4). unfold simple, no_slash. rewrite chs_str. split; [by intros E%(str_inj c [])|]. split; [by intros E%(str_inj c [dot])|]. split; [by intros E%(str_inj c up2)|done].
Qed.
Lemma simple_noslash cs : Forall simple cs -> Forall no_slash cs.
Proof. intros H. eapply Forall_impl; [exact H|]. by intros c (_ & _ & _ & ?). Qed.
Lemma ok_noslash abs cs : ok_target abs cs -> Forall no_slash cs.
Proof.
  intros (us & ns & -> & H1 & _ & H2). apply Forall_app. split; [|by apply simple_noslash]. eapply Forall_impl; [exact H1|]. cbn. intros c ->. unfold no_slash. intros H. apply elem_of_list_In in H. cbn in H. by destruct H as [?|[?|[]]].
Qed.
Lemma ok_walk abs cs : ok_target abs cs -> walk abs [] cs = rev cs.
Proof.
  intros (us & ns & -> & H1 & H2 & H3). rewrite walk_app, walk_simple by done. destruct abs; [by rewrite (H2 eq_refl), app_nil_r|]. rewrite walk_ups by done. by rewrite app_nil_r, rev_app_distr.
Qed.
Lemma absolute_slashes cs : Forall no_slash cs -> Forall (fun c => c <> ""%string) cs -> absolute (with_slashes cs) = false.
Proof.
  intros H1 H2. destruct cs as [|c cs]; [done|]. apply Forall_cons in H1 as [H1 _]. apply Forall_cons in H2 as [H2 _]. destruct c as [|x c]; [done|]. assert (absolute (with_slashes (String x c :: cs)) = absolute (String x c)) as -> by (destruct cs; done).
  cbn. apply bool_decide_eq_false. intros ->. apply H1. left.
Qed.
Lemma path_to_target abs cs : ok_target abs cs -> absolute (path_to abs cs) = abs /\ target (path_to abs cs) = cs.
Proof.
  intros H. pose proof (ok_noslash _ _ H) as Ns. assert (absolute (path_to abs cs) = abs) as Ea.
  { destruct abs; [done|]. unfold path_to. destruct cs as [|c cs]; [done|]. apply absolute_slashes; [done|]. destruct H as (us & ns & -> & H1 & _ & H2). apply Forall_app. split; (eapply Forall_impl; [eassumption|]); cbn; [by intros ? ->|by intros ? (? & _)]. }
  split; [done|]. unfold target. rewrite Ea. destruct abs; unfold path_to.
  - pose proof (pieces_cat "" (with_slashes cs)) as E. cbn [append] in E. change (String _ (with_slashes cs)) with ("/" ++ with_slashes cs)%string in E. rewrite E. rewrite walk_app. change (walk true [] (pieces "")) with (@nil string).
    destruct cs as [|c cs]; [done|]. rewrite pieces_slashes by done. rewrite ok_walk by done. by rewrite rev_involutive.
  - destruct cs as [|c cs]; [done|]. rewrite pieces_slashes by done. rewrite ok_walk by done. by rewrite rev_involutive.
Qed.
