(** Searches that run while other goroutines save (C61). *)
From Verif Require Import Base M_Field M_Memory M_Concurrent M_Num M_FanIn M_Search M_SearchConc S_Memory S_Concurrent P_Base P_Memory P_FanIn P_Search P_FanIn2 P_Concurrent P_Concurrent2 P_Concurrent5 P_DiskSearch.
#[local] Open Scope nat_scope.

(** * What a worker can send, the storage passing through the states [Q] *)
Section workers.
  Variables (f : string) (Q : shared -> Prop).
  Definition any1 (p p' : rd1) : Prop := exists s, Q s /\ rd1_step f s p p'.
  Definition any2 (p p' : rd2) : Prop := exists s, Q s /\ rd2_step f s p p'.
  Notation trace1 := (trace any1 rd1_send rd1_stop).
  Notation trace2 := (trace any2 rd2_send rd2_stop).
  (** The id was seen in a set that was seen as the set of the term. *)
  Definition seen_set (t : string) (a : nat) : Prop :=
    exists s1 s2 l, Q s1 /\ Q s2 /\ k_index s1 !! f = Some l /\ default (∅ : gmap string nat) (k_maps s2 !! l) !! t = Some a.
  Definition seen_id (t id : string) : Prop := exists a s, seen_set t a /\ Q s /\ is_Some (set_at s a !! id).
  Definition ok1 (t : string) (p : rd1) : Prop :=
    match p with
    | RTerm t' => t' = t
    | RMap t' l => t' = t /\ exists s, Q s /\ k_index s !! f = Some l
    | RSet a | RRange a _ _ => seen_set t a
    | RId a _ _ id => seen_set t a /\ seen_id t id
    | REnd => True
    end.
  Lemma ok1_step t p p' : any1 p p' -> ok1 t p -> ok1 t p'.
  Proof.
    intros (s & Hs & H) O. inversion H; subst; cbn in *; try done.
    - split; [done|]. by exists s.
    - destruct O as (-> & s1 & H1 & H2). by exists s1, s, l.
    - split; [done|]. by exists a, s.
  Qed.
  Lemma trace1_sound t p ms : trace1 p ms -> ok1 t p -> forall id, id ∈ ms -> seen_id t id.
  Proof.
    induction 1 as [p Hp|p p' ms H _ IH|p x p' ms H _ IH]; intros O id Hid; [by apply elem_of_nil in Hid|apply IH; [by eapply ok1_step|done]|].
    inversion H; subst. apply elem_of_cons in Hid as [->|Hid]; [by destruct O|]. apply IH; [by destruct O|done].
  Qed.
  (** An id that is in the term's set all the time is sent. *)
  Lemma trace1_complete t l a d : (forall s, Q s -> k_index s !! f = Some l /\ default (∅ : gmap string nat) (k_maps s !! l) !! t = Some a /\ is_Some (set_at s a !! d)) ->
    forall p ms, trace1 p ms ->
    match p with
    | RTerm t' => t' = t -> d ∈ ms
    | RMap t' l' => t' = t -> l' = l -> d ∈ ms
    | RSet a' => a' = a -> d ∈ ms
    | RRange a' must sent => d ∈ must -> d ∈ sent ++ ms
    | RId a' must sent id => d ∈ must -> d ∈ sent ++ ms
    | REnd => True
    end.
  Proof.
    intros K p ms H. induction H as [p Hp|p p' ms (s & Hs & H) _ IH|p x p' ms H _ IH]; [unfold rd1_stop in Hp; by subst| |].
    - destruct (K s Hs) as (K1 & K2 & K3). inversion H; subst; cbn in *.
      + intros ->. congruence.
      + intros ->. apply IH; [done|congruence].
      + intros -> ->. congruence.
      + intros -> ->. apply IH. congruence.
      + intros ->. cbn in IH. apply IH. by apply elem_of_dom.
      + done.
      + intros Hd. apply elem_of_app. left. apply (H0 d) in Hd. by apply elem_of_list_to_set in Hd.
    - inversion H; subst. intros Hd. specialize (IH Hd). by rewrite <- app_assoc in IH.
  Qed.

  Definition seen_field (d : string) (x : field) : Prop :=
    exists s1 s2 l, Q s1 /\ Q s2 /\ k_fdoc s1 !! d = Some l /\ fields_at s2 l !! f = Some x.
  Definition singles (kxs : list (string * field)) : list (gmap string field) := map (fun kx => {[ kx.1 := kx.2 ]}) kxs.
  Definition ids_of (p : rd2) : list string := match p with RDocs ids _ => ids | RDoc id _ ids _ => id :: ids | ROut _ => [] end.
  Definition acc_of (p : rd2) : gmap string field := match p with RDocs _ acc | RDoc _ _ _ acc => acc | ROut kxs => list_to_map kxs end.
  Definition ok2 (p : rd2) : Prop :=
    match p with RDoc id l _ _ => exists s, Q s /\ k_fdoc s !! id = Some l | ROut kxs => NoDup kxs.*1 | _ => True end.
  Lemma trace2_sound p ms : trace2 p ms -> ok2 p -> exists kxs, ms = singles kxs /\ NoDup kxs.*1 /\
    forall d x, (d, x) ∈ kxs -> acc_of p !! d = Some x \/ (d ∈ ids_of p /\ seen_field d x).
  Proof.
    induction 1 as [p Hp|p p' ms (s & Hs & H) Ht IH|p x p' ms H _ IH]; intros O.
    - unfold rd2_stop in Hp. subst p. exists []. split; [done|]. split; [constructor|]. by intros d x ?%elem_of_nil.
    - inversion H; subst; cbn [ok2 acc_of ids_of] in *.
      + destruct (IH I) as (kxs & -> & H1 & H2). exists kxs. split; [done|]. split; [done|]. intros d x Hx. destruct (H2 d x Hx) as [?|[? ?]]; [by left|right; split; [by right|done]].
      + destruct IH as (kxs & -> & H1 & H2); [by exists s|]. exists kxs. done.
      + destruct (IH I) as (kxs & -> & H1 & H2). exists kxs. split; [done|]. split; [done|]. intros d x Hx. destruct (H2 d x Hx) as [?|[? ?]]; [by left|right; split; [by right|done]].
      + destruct (IH I) as (kxs & -> & H1 & H2). exists kxs. split; [done|]. split; [done|]. intros d y Hy. destruct (H2 d y Hy) as [E|[? ?]]; [|right; split; [by right|done]].
        destruct (decide (id = d)) as [->|Hn]; [|rewrite lookup_insert_ne in E by done; by left]. rewrite lookup_insert in E. injection E as ->. right. split; [left|]. destruct O as (s1 & O1 & O2). by exists s1, s, l.
      + assert (NoDup kxs.*1) as Hn by (rewrite H0; apply NoDup_fst_map_to_list). destruct (IH Hn) as (kxs' & -> & H1 & H2). exists kxs'. split; [done|]. split; [done|]. intros d x Hx. destruct (H2 d x Hx) as [E|[E _]]; [|by apply elem_of_nil in E]. left.
        apply elem_of_list_to_map_2 in E. rewrite H0 in E. by apply elem_of_map_to_list in E.
    - inversion H; subst. cbn in O. apply NoDup_cons in O as [O1 O2]. destruct (IH O2) as (kxs' & -> & H1 & H2). exists (kx :: kxs'). destruct kx as [d x]. split; [done|].
      assert (forall d x, (d, x) ∈ kxs' -> (d, x) ∈ kxs) as H3. { intros d' x' Hx. destruct (H2 d' x' Hx) as [E|[E _]]; [|by apply elem_of_nil in E]. by apply elem_of_list_to_map_2 in E. }
      split.
      + cbn. apply NoDup_cons. split; [|done]. intros Hd. apply elem_of_list_fmap in Hd as ([d' x'] & E & Hx). cbn in E. subst d'. apply O1. apply elem_of_list_fmap. exists (d, x'). split; [done|by apply H3].
      + intros d' x' Hx. left. cbn [acc_of]. apply elem_of_list_to_map_1; [cbn; by apply NoDup_cons|]. apply elem_of_cons in Hx as [E|Hx]; [rewrite E; left|right; by apply H3].
  Qed.
  Lemma trace2_complete d l : (forall s, Q s -> k_fdoc s !! d = Some l /\ is_Some (fields_at s l !! f)) ->
    forall p ms, trace2 p ms -> ok2 p -> (d ∈ ids_of p \/ is_Some (acc_of p !! d)) -> (match p with RDoc id l' _ _ => id = d -> l' = l | _ => True end) ->
    exists x, ({[ d := x ]} : gmap string field) ∈ ms.
  Proof.
    intros K p ms H. induction H as [p Hp|p p' ms (s & Hs & H) Ht IH|p x p' ms H _ IH]; intros O Hd Hl.
    - unfold rd2_stop in Hp. subst p. cbn in Hd. destruct Hd as [Hd|[y Hd]]; [by apply elem_of_nil in Hd|by rewrite lookup_empty in Hd].
    - destruct (K s Hs) as (K1 & K2). inversion H; subst; cbn [ok2 ids_of acc_of] in *.
      + apply IH; [done| |done]. destruct Hd as [Hd|Hd]; [|by right]. apply elem_of_cons in Hd as [->|Hd]; [congruence|by left].
      + apply IH; [by exists s|done|]. intros ->. congruence.
      + apply IH; [done| |done]. destruct Hd as [Hd|Hd]; [|by right]. apply elem_of_cons in Hd as [->|Hd]; [|by left]. rewrite (Hl eq_refl) in H0. destruct K2 as [? K2]. congruence.
      + apply IH; [done| |done]. destruct (decide (id = d)) as [->|Hn]; [right; by rewrite lookup_insert|]. rewrite lookup_insert_ne by done. destruct Hd as [Hd|Hd]; [|by right]. apply elem_of_cons in Hd as [->|Hd]; [done|by left].
      + apply IH; [rewrite H0; apply NoDup_fst_map_to_list| |done]. right. destruct Hd as [Hd|[x Hd]]; [by apply elem_of_nil in Hd|]. exists x. apply elem_of_list_to_map_1; [rewrite H0; apply NoDup_fst_map_to_list|]. rewrite H0. by apply elem_of_map_to_list.
    - inversion H; subst. destruct kx as [k y]. cbn [acc_of ids_of ok2] in *. destruct Hd as [Hd|[x Hd]]; [by apply elem_of_nil in Hd|]. cbn in Hd, O. apply NoDup_cons in O as [_ O]. destruct (decide (k = d)) as [->|Hn]; [exists y; left|].
      rewrite lookup_insert_ne in Hd by done. destruct IH as (x' & Hx); [done|right; by exists x|done|]. exists x'. by right.
  Qed.
End workers.

(** * The whole search *)
Section whole.
  Variables (N : numops) (ncpu : nat) (terms : list string) (f : string).
  Notation sstep := (search2_step N ncpu terms f).
  Section fixed.
    Variable Q : shared -> Prop.
    Definition qstep (q q' : search_pc N) : Prop := exists s, Q s /\ sstep s q q'.
    Notation tr1 := (trace (any1 f Q) rd1_send rd1_stop).
    Notation tr2 := (trace (any2 f Q) rd2_send rd2_stop).
    Definition ids_result (got : list string) : Prop := exists outs, Forall2 tr1 (RTerm <$> terms) outs /\ got ≡ₚ concat outs.
    Definition fields_result (ids : list string) (got : list (gmap string field)) : Prop :=
      exists outs, Forall2 tr2 ((fun b => RDocs b ∅) <$> batches_of ids) outs /\ got ≡ₚ concat outs.
    Definition nft_val (l : option nat) (s : shared) (t : string) : Z := match l with Some l => geti (counts_at s l) t | None => 0%Z end.
    Definition nft_seen (t : string) (v : Z) : Prop := exists s1 s2, Q s1 /\ Q s2 /\ v = nft_val (k_nft s1 !! f) s2 t.
    Definition seen_len (len : Z) : Prop := exists s, Q s /\ len = geti (k_length s) f.
    Definition seen_size (n : Z) : Prop := exists s, Q s /\ n = geti (k_size s) f.
    Definition acc_ok (ts : list string) (acc : gmap string Z) : Prop :=
      (forall t, is_Some (acc !! t) \/ t ∈ ts <-> t ∈ terms) /\ forall t v, acc !! t = Some v -> nft_seen t v.
    Definition qinv (q : search_pc N) : Prop :=
      match q with
      | QLength => True
      | QSize len => seen_len len
      | QNft len n ts acc => seen_len len /\ seen_size n /\ acc_ok ts acc
      | QNftTerm len n t l ts acc => seen_len len /\ seen_size n /\ acc_ok (t :: ts) acc /\ exists s, Q s /\ l = k_nft s !! f
      | QIds len n acc w => (seen_len len /\ seen_size n /\ acc_ok [] acc) /\ inv2 (any1 f Q) rd1_send rd1_stop (RTerm <$> terms) w
      | QFields len n acc w => (seen_len len /\ seen_size n /\ acc_ok [] acc) /\
          exists ids, ids_result ids /\ inv2 (any2 f Q) rd2_send rd2_stop ((fun b => RDocs b ∅) <$> batches_of ids) w
      | QRet r => exists len n acc ids got, (seen_len len /\ seen_size n /\ acc_ok [] acc) /\ ids_result ids /\ fields_result ids got /\
          r = mkResult (ndiv N (of_int N len) (of_int N n)) (merge_fields got) (of_int N n) acc
      end.
    Lemma qinv_step q q' : qstep q q' -> qinv q -> qinv q'.
    Proof.
      intros (s & Hs & H) I. inversion H; subst; cbn [qinv] in *.
      - by exists s.
      - split; [done|]. split; [by exists s|]. split; [intros t; rewrite lookup_empty; split; [by intros [[? ?]|?]|by right]|intros t v Hv; by rewrite lookup_empty in Hv].
      - destruct I as (I1 & I2 & I3). do 3 (split; [done|]). by exists s.
      - destruct I as (I1 & I2 & [I3 I4] & (s0 & Hs0 & ->)). do 2 (split; [done|]). split.
        + intros t'. rewrite <- I3, elem_of_cons. destruct (decide (t = t')) as [->|Hn]; [rewrite lookup_insert; split; [by right; left|by left]|]. rewrite lookup_insert_ne by done. split; [intros [?|?]; [by left|by right; right]|intros [?|[?|?]]; [by left|done|by right]].
        + intros t' v Hv. destruct (decide (t = t')) as [->|Hn]; [|rewrite lookup_insert_ne in Hv by done; by apply I4]. rewrite lookup_insert in Hv. injection Hv as <-. by exists s0, s.
      - split; [done|]. apply inv2_init.
      - destruct I as [I1 I2]. split; [done|]. eapply inv2_step; [exact I2|]. eapply fan2_step_mono; [| | |exact H0]; [|done..]. intros p p' Hp. by exists s.
      - destruct I as [I1 I2]. split; [done|]. destruct (inv2_done _ _ _ _ _ I2 H0) as [R E]. exists (f2_got w). split; [done|]. rewrite E. apply inv2_init.
      - destruct I as (I1 & ids & I2 & I3). split; [done|]. exists ids. split; [done|]. eapply inv2_step; [exact I3|]. eapply fan2_step_mono; [| | |exact H0]; [|done..]. intros p p' Hp. by exists s.
      - destruct I as (I1 & ids & I2 & I3). destruct (inv2_done _ _ _ _ _ I3 H0) as [R E]. do 4 eexists. exists (f2_got w). done.
    Qed.
    Lemma qinv_run q : rtc qstep QLength q -> qinv q.
    Proof. intros H. assert (qinv QLength) as I by done. revert I. generalize (@QLength N) H. clear H. intros q0 H. induction H as [|a b c Hs _ IH]; [done|]. intros I. apply IH. by eapply qinv_step. Qed.
    (** The documents of the result. *)
    Lemma ids_sound ids id : ids_result ids -> id ∈ ids -> exists t, t ∈ terms /\ seen_id f Q t id.
    Proof.
      intros (outs & H & Hp) Hid. rewrite Hp in Hid. clear Hp ids. remember (RTerm <$> terms) as ps eqn:E. revert E. generalize terms at 1 2. induction H as [|p ms ps outs H1 _ IH]; intros ts E; [by apply elem_of_nil in Hid|].
      destruct ts as [|t ts]; [done|]. injection E as -> ->. cbn in Hid. apply elem_of_app in Hid as [Hid|Hid].
      - exists t. split; [left|]. by eapply trace1_sound.
      - destruct (IH Hid ts eq_refl) as (t' & Ht & Hs). exists t'. split; [by right|done].
    Qed.
    Lemma ids_complete ids t l a d : ids_result ids -> t ∈ terms ->
      (forall s, Q s -> k_index s !! f = Some l /\ default (∅ : gmap string nat) (k_maps s !! l) !! t = Some a /\ is_Some (set_at s a !! d)) -> d ∈ ids.
    Proof.
      intros (outs & H & Hp) Ht K. rewrite Hp. assert (RTerm t ∈ RTerm <$> terms) as Hin by (apply elem_of_list_fmap; by exists t). clear Hp ids Ht. induction H as [|p ms ps outs H1 _ IH]; [by apply elem_of_nil in Hin|].
      cbn. apply elem_of_app. apply elem_of_cons in Hin as [<-|Hin]; [left|right; by apply IH]. pose proof (trace1_complete f Q t l a d K _ _ H1) as E. by apply E.
    Qed.
    Lemma fields_lists bs outs : Forall2 tr2 ((fun b => RDocs b ∅) <$> bs) outs -> NoDup (concat bs) ->
      exists kxs, concat outs = singles kxs /\ NoDup kxs.*1 /\ forall d x, (d, x) ∈ kxs -> d ∈ concat bs /\ seen_field f Q d x.
    Proof.
      intros H. remember ((fun b => RDocs b ∅) <$> bs) as ps eqn:E. revert bs E. induction H as [|p ms ps outs H1 _ IH]; intros bs E Hn.
      - exists []. split; [done|]. split; [constructor|]. by intros d x ?%elem_of_nil.
      - destruct bs as [|b bs]; [done|]. injection E as -> ->. cbn in Hn. apply NoDup_app in Hn as (N1 & N2 & N3). destruct (IH bs eq_refl N3) as (kxs & E & K1 & K2).
        destruct (trace2_sound f Q _ _ H1 I) as (kxs1 & -> & J1 & J2). assert (forall d x, (d, x) ∈ kxs1 -> d ∈ b /\ seen_field f Q d x) as J3. { intros d x Hx. destruct (J2 d x Hx) as [E1|?]; [|done]. cbn in E1. by rewrite lookup_empty in E1. }
        exists (kxs1 ++ kxs). split; [cbn; rewrite E; unfold singles; by rewrite map_app|]. split.
        + rewrite fmap_app. apply NoDup_app. split; [done|]. split; [|done]. intros d Hd Hd2. apply elem_of_list_fmap in Hd as ([d1 x1] & -> & Hx1). apply elem_of_list_fmap in Hd2 as ([d2 x2] & E2 & Hx2). cbn in E2. subst d2. apply (N2 d1); [by apply (J3 d1 x1)|by apply (K2 d1 x2)].
        + intros d x Hx. cbn. rewrite elem_of_app. apply elem_of_app in Hx as [Hx|Hx]; [destruct (J3 d x Hx); auto|destruct (K2 d x Hx); auto].
    Qed.
    Lemma merge_singles kxs d : NoDup kxs.*1 -> merge_fields (singles kxs) !! d = (list_to_map kxs : gmap string field) !! d.
    Proof. intros H. unfold merge_fields, singles. rewrite merge_entries by done. rewrite lookup_empty. by destruct (_ !! d). Qed.
    Lemma batches_props ids : NoDup (concat (batches_of ids)) /\ forall d, d ∈ concat (batches_of ids) <-> d ∈ ids.
    Proof. pose proof (collect_inv_fold ids) as [_ C2 _ C4 _ _]. by split. Qed.
    Lemma fields_got ids got : fields_result ids got -> exists kxs, got = singles kxs /\ NoDup kxs.*1 /\ forall d x, (d, x) ∈ kxs -> d ∈ ids /\ seen_field f Q d x.
    Proof.
      intros (outs & H & Hp). destruct (batches_props ids) as [B1 B2]. destruct (fields_lists _ _ H B1) as (kxs & E & K1 & K2). rewrite E in Hp. apply Permutation_map_inv in Hp as (kxs' & -> & Hp).
      exists kxs'. split; [done|]. split; [by rewrite <- Hp|]. intros d x Hx. rewrite <- Hp in Hx. destruct (K2 d x Hx) as [K3 K4]. split; [by apply B2|done].
    Qed.
    Lemma fields_sound ids got d x : fields_result ids got -> merge_fields got !! d = Some x -> d ∈ ids /\ seen_field f Q d x.
    Proof.
      intros (kxs & -> & H1 & H2)%fields_got. rewrite merge_singles by done. intros E%elem_of_list_to_map_2. by apply H2.
    Qed.
    Lemma fields_complete ids got d l : fields_result ids got -> d ∈ ids -> (forall s, Q s -> k_fdoc s !! d = Some l /\ is_Some (fields_at s l !! f)) -> is_Some (merge_fields got !! d).
    Proof.
      intros Hf Hd K. destruct (fields_got _ _ Hf) as (kxs & -> & H1 & H2). destruct Hf as (outs & H & Hp). assert (exists x, ({[ d := x ]} : gmap string field) ∈ singles kxs) as (x & Hx).
      { destruct (batches_props ids) as [_ B2]. apply B2 in Hd. assert (exists x, ({[ d := x ]} : gmap string field) ∈ concat outs) as (x & Hx); [|exists x; by rewrite Hp]. clear Hp B2 H2. generalize dependent (batches_of ids). intros bs. revert outs. induction bs as [|b bs IH]; intros outs Ho Hb; [by apply elem_of_nil in Hb|].
        cbn in Ho. inversion Ho as [|? ms ? outs' H3 H4]; subst. cbn in Hb |- *. apply elem_of_app in Hb as [Hb|Hb]; [|destruct (IH _ H4 Hb) as (x & Hx); exists x; apply elem_of_app; by right].
        destruct (trace2_complete f Q d l K _ _ H3 I) as (x & Hx); [by left|done|]. exists x. apply elem_of_app. by left. }
      unfold singles in Hx. apply elem_of_list_fmap in Hx as ([d' x'] & E & Hx). cbn in E. assert (d = d') as <-. { assert (({[d := x]} : gmap string field) !! d = ({[d' := x']} : gmap string field) !! d) as E' by (by rewrite E). rewrite lookup_singleton in E'. destruct (decide (d' = d)) as [->|Hn]; [done|]. by rewrite lookup_singleton_ne in E'. }
      rewrite merge_singles by done. exists x'. by apply elem_of_list_to_map_1.
    Qed.
  End fixed.

  (** * Executions with ghost state *)
  Section ghost.
    Context {G : Type} (le : G -> G -> Prop) (I : G -> conc -> Prop).
    Hypothesis le_refl : forall g, le g g.
    Hypothesis le_trans : forall a b c, le a b -> le b c -> le a c.
    Hypothesis I_step : forall g y y', conc_step false y y' -> I g y -> exists g', le g g' /\ I g' y'.
    Definition visited (y z : conc) (g gz : G) (s : shared) : Prop :=
      exists y1 g1, I g1 y1 /\ le g g1 /\ le g1 gz /\ rtc (conc_step false) y y1 /\ rtc (conc_step false) y1 z /\ s = cs_sh y1.
    Lemma visited_l y y' z g g' gz s : conc_step false y y' -> le g g' -> visited y' z g' gz s -> visited y z g gz s.
    Proof. intros H L (y1 & g1 & H1 & H2 & H3 & H4 & H5 & ->). exists y1, g1. split; [done|]. split; [by eapply le_trans|]. split; [done|]. split; [by eapply rtc_l|done]. Qed.
    Lemma project y q z q' g : rtc (busy_step N ncpu terms f) (y, q) (z, q') -> I g y ->
      exists gz, I gz z /\ le g gz /\ rtc (conc_step false) y z /\ rtc (qstep (visited y z g gz)) q q'.
    Proof.
      intros H. remember (y, q) as a eqn:Ea. remember (z, q') as b eqn:Eb. revert y q g Ea. induction H as [a|a [y1 q1] b Hs Hr IH]; intros y q g Ea Hi.
      - rewrite Eb in Ea. injection Ea as -> ->. exists g. split; [done|]. split; [done|]. split; apply rtc_refl.
      - subst a. inversion Hs as [? ? ? Hc|? ? ? Hq]; subst.
        + destruct (I_step _ _ _ Hc Hi) as (g' & L & Hi'). destruct (IH eq_refl _ _ g' eq_refl Hi') as (gz & Z1 & Z2 & Z3 & Z4). exists gz. split; [done|]. split; [by eapply le_trans|]. split; [by eapply rtc_l|].
          eapply rtc_mono; [|exact Z4]. intros a b (s & V & S). exists s. split; [by eapply visited_l|done].
        + destruct (IH eq_refl _ _ g eq_refl Hi) as (gz & Z1 & Z2 & Z3 & Z4). exists gz. split; [done|]. split; [done|]. split; [done|]. eapply rtc_l; [|exact Z4]. exists (cs_sh y1). split; [|done]. exists y1, g. repeat (split; [done|]). done.
    Qed.
  End ghost.
End whole.
