(** C61: InvertedIndex.Search on the Memory storage while other goroutines save. *)
From Verif Require Import Base M_Field M_Memory M_Concurrent M_Num M_FanIn M_Search M_SearchConc S_Memory S_Concurrent S_SearchConc P_Base P_Memory P_FanIn P_Search P_FanIn2 P_Concurrent P_Concurrent2 P_Concurrent5 P_DiskSearch P_SearchConc P_SearchConc2 P_SearchConc3 P_Concurrent4 P_SearchConc4 P_SearchConc5 P_SearchConc6 T_Memory T_Concurrent.
Import M_Concurrent.
#[local] Open Scope nat_scope.

Lemma calling_pc pc : calling pc = pc_call pc.
Proof. done. Qed.
Lemma shown_addr s f t d : shown s f t d -> exists l m a S, k_index s !! f = Some l /\ k_maps s !! l = Some m /\ m !! t = Some a /\ k_sets s !! a = Some S /\ is_Some (S !! d).
Proof.
  intros (S & HS & Hd). assert (mm_index (view s) !! f ≫= (.!! t) = Some S) as HS'. { unfold mem_get_documents in HS. destruct (mm_index (view s) !! f) as [idx|]; [|done]. cbn. by destruct (idx !! t). }
  destruct (view_posting _ _ _ _ d HS' Hd) as (l & m & a & E1 & E2 & E3 & E4). by exists l, m, a, S.
Qed.
Lemma stored_addr s d f x : mem_get_fields (view s) [d] f !! d = Some x -> exists l, k_fdoc s !! d = Some l /\ fields_at s l !! f = Some x.
Proof.
  rewrite mem_get_fields_lookup. rewrite decide_True by left. unfold fdoc_of. cbn. rewrite lookup_fmap. destruct (k_fdoc s !! d) as [l|]; [|done]. cbn. intros E. by exists l.
Qed.
(** The three invariants together. *)
Definition found_inv (f t d : string) (x0 : field) (l a ld n : nat) (g : ghost) (y : conc) : Prop :=
  owned g y /\ kept_inv f t l a n y /\ (exists S, k_sets (cs_sh y) !! a = Some S /\ is_Some (S !! d)) /\ keep_inv d f x0 ld n y.
Lemma found_step f t d x0 l a ld n g y y' : conc_step false y y' -> found_inv f t d x0 l a ld n g y -> exists g', gle g g' /\ found_inv f t d x0 l a ld n g' y'.
Proof.
  intros H (O & K & (S & E1 & E2) & D). destruct (owned_step _ _ _ H O) as (g' & L & O'). exists g'. split; [done|]. split; [done|]. pose proof (owned_own _ _ O) as O1. split; [eapply kept_step; [|exact H|done|done]; by destruct D|]. split; [by eapply kept_sets|]. by eapply keep_step.
Qed.
Lemma found_run f t d x0 l a ld n y z : rtc (conc_step false) y z -> forall g, found_inv f t d x0 l a ld n g y -> exists g', found_inv f t d x0 l a ld n g' z.
Proof. induction 1 as [y|y1 y2 y3 Hs _ IH]; intros g F; [by exists g|]. destruct (found_step _ _ _ _ _ _ _ _ _ _ _ Hs F) as (g' & _ & F'). by apply (IH g'). Qed.

(** A document that is stored and listed under a term before the search, at a moment when
    no call concerning it or the field is in progress, is in the result - whatever the
    other goroutines do before and during the search - with the field it had or with one
    that was saved for it since. *)
Theorem C61_finds_stored N ncpu progs y0 y z terms f t d x0 r :
  rtc (conc_step false) (conc_start sh_new progs) y0 -> undisturbed y0 f d ->
  t ∈ terms -> shown (cs_sh y0) f t d -> mem_get_fields (view (cs_sh y0)) [d] f !! d = Some x0 ->
  rtc (conc_step false) y0 y -> rtc (busy_step N ncpu terms f) (y, QLength) (z, QRet r) ->
  exists x later, sr_docs r !! d = Some x /\ cs_log z = cs_log y0 ++ later /\ (x = x0 \/ (f_name x = f /\ Save d x ∈ later)).
Proof.
  intros R0 U Ht Hs Hf R1 R2. destruct (owned_run _ _ _ R0 (owned_start progs)) as (g0 & _ & O0).
  destruct (shown_addr _ _ _ _ Hs) as (l & m & a & S & E1 & E2 & E3 & E4 & E5). destruct (stored_addr _ _ _ _ Hf) as (ld & F1 & F2). set (n := length (cs_log y0)).
  assert (found_inv f t d x0 l a ld n g0 y0) as I0.
  { split; [done|]. split; [|split; [by exists S|]].
    - split; [exists m; rewrite E4; eauto|]. split.
      + intros th Hth. specialize (U th). rewrite calling_pc in U. destruct th as [[] ?]; try done; cbn in *; destruct (U _ Hth eq_refl) as [_ U2]; destruct full; cbn in U2; try done; try (split; intros; done); intros; done.
      + intros c d' Hc. subst n. rewrite drop_all in Hc. by apply elem_of_nil in Hc.
    - split; [done|]. split; [done|]. split; [exists x0; split; [done|by left]|]. intros th Hth. specialize (U th). rewrite calling_pc in U. destruct th as [[] ?]; try done; cbn in *; destruct (U _ Hth eq_refl) as [U1 _]; cbn in U1; intros E; by destruct U1. }
  destruct (found_run _ _ _ _ _ _ _ _ _ _ R1 _ I0) as (g1 & I1).
  destruct (project N ncpu terms f gle (found_inv f t d x0 l a ld n) gle_refl gle_trans (found_step f t d x0 l a ld n) _ _ _ _ g1 R2 I1) as (gz & _ & _ & R3 & R4).
  pose proof (qinv_run _ _ _ _ _ _ R4) as I. cbn in I. destruct I as (len & nn & acc & ids & got & _ & I2 & I3 & ->).
  assert (d ∈ ids) as Hd. { eapply (ids_complete terms f _ ids t l a d I2 Ht). intros s (y1 & g' & (_ & ((m' & K1 & K2 & K3 & _) & _) & (S' & K4 & K5) & _) & _ & _ & _ & _ & ->). split; [done|]. unfold set_at. rewrite K2, K4. done. }
  assert (forall s, visited gle (found_inv f t d x0 l a ld n) y z g1 gz s -> k_fdoc s !! d = Some ld /\ exists x, fields_at s ld !! f = Some x /\ (x = x0 \/ (f_name x = f /\ Save d x ∈ drop n (cs_log z)))) as K.
  { intros s (y1 & g' & (_ & _ & _ & (K0 & K1 & (x & K2 & K3) & _)) & _ & _ & _ & Rz & ->). split; [done|]. exists x. split; [done|]. destruct K3 as [?|[? K3]]; [by left|]. right. split; [done|]. destruct (log_grows _ _ _ Rz) as (h & Eh). rewrite Eh, drop_app_le by done. apply elem_of_app. by left. }
  destruct (fields_complete f _ ids got d ld I3 Hd) as [x Hx]; [intros s V; destruct (K s V) as (K1 & x & K2 & _); split; [done|by exists x]|].
  destruct (fields_sound f _ ids got d x I3 Hx) as (_ & s1 & s2 & l' & V1 & V2 & G1 & G2). destruct (K s1 V1) as (K1 & _). rewrite K1 in G1. injection G1 as <-. destruct (K s2 V2) as (_ & x' & K2 & K3). rewrite K2 in G2. injection G2 as ->.
  destruct (log_grows _ _ _ (rtc_transitive _ _ _ R1 R3)) as (later & El). exists x, later. split; [done|]. split; [done|]. subst n. rewrite El, drop_app in K3. exact K3.
Qed.

(** No search returns a document or a field that was not saved: every entry of the result
    is the field of some save of that document, and some call listed the document under
    one of the terms. *)
Theorem C61_only_saved N ncpu progs y z terms f r d x :
  rtc (conc_step false) (conc_start sh_new progs) y -> rtc (busy_step N ncpu terms f) (y, QLength) (z, QRet r) -> sr_docs r !! d = Some x ->
  f_name x = f /\ Save d x ∈ cs_log z /\ exists t c, t ∈ terms /\ c ∈ cs_log z /\ posts f t d c.
Proof.
  intros R0 R2 Hx. destruct (owned_run _ _ _ R0 (owned_start progs)) as (g0 & _ & O0).
  destruct (project N ncpu terms f gle owned gle_refl gle_trans owned_step _ _ _ _ g0 R2 O0) as (gz & _ & _ & R3 & R4).
  pose proof (qinv_run _ _ _ _ _ _ R4) as I. cbn in I. destruct I as (len & nn & acc & ids & got & _ & I2 & I3 & ->). cbn in Hx.
  assert (forall y1 c, rtc (conc_step false) y1 z -> c ∈ cs_log y1 -> c ∈ cs_log z) as Lg. { intros y1 c H Hc. destruct (log_grows _ _ _ H) as (h & ->). apply elem_of_app. by left. }
  destruct (fields_sound f _ ids got d x I3 Hx) as (Hd & s1 & s2 & l & V1 & V2 & G1 & G2).
  destruct V1 as (y1 & g1 & (_ & _ & _ & Wd1 & _ & _) & _ & (_ & _ & L1) & _ & _ & ->). destruct V2 as (y2 & g2 & (_ & _ & _ & Wd2 & _ & Sd2) & _ & (_ & _ & L2) & _ & Z2 & ->).
  apply (od_doc _ _ Wd1) in G1. assert (gh_d g2 !! l = Some d) as G3.
  { assert (is_Some (gh_d g2 !! l)) as [d' E]. { apply (od_dom _ _ Wd2). unfold fields_at in G2. destruct (k_fdocs (cs_sh y2) !! l); [by eexists|]. cbn in G2. by rewrite lookup_empty in G2. }
    rewrite E. pose proof (lookup_weaken _ _ _ _ G1 L1). pose proof (lookup_weaken _ _ _ _ E L2). congruence. }
  destruct (Sd2 l d f x G3 G2) as [N1 N2]. split; [done|]. split; [by eapply Lg|].
  destruct (ids_sound terms f _ ids d I2 Hd) as (t & Ht & a & s3 & (s4 & s5 & li & V4 & V5 & E4 & E5) & V3 & E3). exists t.
  destruct V3 as (y3 & g3 & (W3 & Sr3 & _) & _ & (_ & L3 & _) & _ & Z3 & ->). destruct V4 as (y4 & g4 & (W4 & _) & _ & (L4 & _) & _ & _ & ->). destruct V5 as (y5 & g5 & (W5 & _) & _ & (L5 & L5a & _) & _ & _ & ->).
  apply (o_idx _ _ _ W4) in E4. destruct (k_maps (cs_sh y5) !! li) as [mp|] eqn:Em; [|by destruct (lookup_empty_Some (M := gmap string) _ _ E5)]. destruct (o_set _ _ _ W5 _ _ _ _ Em E5) as (f' & K1 & K2).
  assert (f' = f) as ->. { pose proof (lookup_weaken _ _ _ _ E4 L4). pose proof (lookup_weaken _ _ _ _ K1 L5). congruence. }
  unfold set_at in E3. destruct (k_sets (cs_sh y3) !! a) as [S|] eqn:ES; [|destruct E3 as [? E3]; by destruct (lookup_empty_Some (M := gmap string) _ _ E3)].
  assert (gh_a g3 !! a = Some (f, t)) as K3. { assert (is_Some (gh_a g3 !! a)) as [ft E] by (apply (o_dom _ _ _ W3); by eexists). rewrite E. pose proof (lookup_weaken _ _ _ _ K2 L5a). pose proof (lookup_weaken _ _ _ _ E L3). congruence. }
  destruct (Sr3 _ _ _ _ _ ES K3 E3) as (c & Hc & Hp). exists c. split; [done|]. split; [by eapply Lg|done].
Qed.

(** The number of documents and their total length that a search uses are those of some
    moments during the search - not necessarily of the same moment -, and it counts each
    of its terms. *)
Theorem C61_statistics N ncpu y z terms f r :
  rtc (busy_step N ncpu terms f) (y, QLength) (z, QRet r) ->
  exists ml ms, moment y z ml /\ moment y z ms /\
    sr_total r = of_int N (mem_get_size (view (cs_sh ms)) f) /\
    sr_avg r = ndiv N (of_int N (mem_get_length (view (cs_sh ml)) f)) (of_int N (mem_get_size (view (cs_sh ms)) f)) /\
    forall t, is_Some (sr_nft r !! t) <-> t ∈ terms.
Proof.
  intros R. destruct (project N ncpu terms f (fun _ _ : unit => True) (fun _ _ => True) (fun _ => I) (fun _ _ _ _ _ => I) (fun _ _ _ _ _ => ex_intro _ tt (conj I I)) _ _ _ _ tt R I) as (gz & _ & _ & R3 & R4).
  pose proof (qinv_run _ _ _ _ _ _ R4) as J. cbn in J. destruct J as (len & nn & acc & ids & got & ((sl & (ml & _ & _ & _ & _ & A1 & A2 & ->) & ->) & (ss & (ms & _ & _ & _ & _ & B1 & B2 & ->) & ->) & [Hd _]) & _ & _ & ->).
  exists ml, ms. split; [by split|]. split; [by split|]. split; [done|]. split; [done|]. intros t. rewrite <- Hd. split; [by left|]. intros [?|Hn]; [done|by apply elem_of_nil in Hn].
Qed.

(** A search never sends on a closed channel ... *)
Theorem C61_never_panics N ncpu y z terms f q : rtc (busy_step N ncpu terms f) (y, QLength) (z, q) -> ~ panics2 q.
Proof.
  intros R. pose proof (binv_run N ncpu terms f _ _ _ _ R (binv_start N terms f y)) as [I _]. intros Hp. destruct q; cbn in *; try done.
  - destruct I as [_ I]. by rewrite (j_panic _ _ _ _ _ I) in Hp.
  - destruct I as (_ & ids & _ & I). by rewrite (j_panic _ _ _ _ _ I) in Hp.
Qed.
(** ... and never gets stuck: whatever the other goroutines have done, it can finish
    without any further step of theirs. *)
Theorem C61_can_return N ncpu y z terms f q : 0 < ncpu -> rtc (busy_step N ncpu terms f) (y, QLength) (z, q) ->
  exists r, rtc (busy_step N ncpu terms f) (z, q) (z, QRet r).
Proof.
  intros Hc R. pose proof (binv_run N ncpu terms f _ _ _ _ R (binv_start N terms f y)) as I. destruct (finish_search N ncpu terms f Hc z q I) as (r & Rr). exists r. clear -Rr. induction Rr as [|a b c Hs _ IH]; [apply rtc_refl|]. eapply rtc_l; [|exact IH]. by constructor.
Qed.

Lemma sub_refl (g : gmap nat string) : g ⊆ g.
Proof. done. Qed.
Lemma sub_trans (a b c : gmap nat string) : a ⊆ b -> b ⊆ c -> a ⊆ c.
Proof. intros H1 H2. by etrans. Qed.
(** The document frequency of a term that a search uses is at least the one at any earlier
    moment at which no call on the field was in progress, and at most the number of saves
    that count the term made so far. *)
Theorem C61_counts N ncpu progs y0 y z terms f t v0 v r :
  rtc (conc_step false) (conc_start sh_new progs) y0 -> (forall th c, th ∈ cs_threads y0 -> calling th.1 = Some c -> f_name (call_field c) <> f) ->
  rtc (conc_step false) y0 y -> rtc (busy_step N ncpu terms f) (y, QLength) (z, QRet r) ->
  (term_saves f t (cs_log z) < 2 ^ 63)%Z ->
  mem_get_nft (view (cs_sh y0)) f [t] !! t = Some v0 -> sr_nft r !! t = Some v -> (v0 <= v <= term_saves f t (cs_log z))%Z.
Proof.
  intros R0 U R1 R2 Hb H0 Hv. destruct (guarded_run false f t None 0 _ _ (Z.le_refl 0) R0 ∅ (guarded_start false f t progs)) as (on0 & _ & G0).
  pose proof (guarded_restart false f t on0 y0 U G0) as G1. rewrite mem_get_nft_lookup, decide_True in H0 by left. injection H0 as H0.
  set (l0 := k_nft (cs_sh y0) !! f) in *. set (w0 := match l0 with Some l => geti (counts_at (cs_sh y0) l) t | None => 0%Z end) in *.
  assert (v0 = w0) as ->. { rewrite <- H0. unfold nft_of, w0, l0. cbn. rewrite lookup_fmap. by destruct (k_nft (cs_sh y0) !! f). }
  assert (forall y', rtc (conc_step false) y' z -> (term_saves f t (cs_log y') <= term_saves f t (cs_log z))%Z) as Hle. { intros y' Ry. destruct (log_grows _ _ _ Ry) as (h & ->). apply saves_le. }
  assert (0 <= w0)%Z as Hw.
  { unfold w0. destruct l0 as [l|] eqn:E; [|done]. eapply (guarded_zero false f t on0 y0 l G0); [|exact E].
    destruct (project N ncpu terms f (fun _ _ : unit => True) (fun _ _ => True) (fun _ => I) (fun _ _ _ _ _ => I) (fun _ _ _ _ _ => ex_intro _ tt (conj I I)) _ _ _ _ tt R2 I) as (_ & _ & _ & R3 & _).
    pose proof (Hle y0 (rtc_transitive _ _ _ R1 R3)). lia. }
  destruct (guarded_run false f t l0 w0 _ _ Hw R1 _ G1) as (on1 & _ & G2).
  destruct (project N ncpu terms f (⊆) (guarded false f t l0 w0) sub_refl sub_trans (fun g a b H => guarded_step false f t l0 w0 g a b Hw H) _ _ _ _ on1 R2 G2) as (onz & _ & _ & R3 & R4).
  pose proof (qinv_run _ _ _ _ _ _ R4) as J. cbn in J. destruct J as (len & nn & acc & ids & got & (_ & _ & [_ Ha]) & _ & _ & ->). cbn in Hv. destruct (Ha t v Hv) as (s1 & s2 & V1 & V2 & ->).
  destruct V1 as (y1 & g1 & K1 & _ & Lg1 & _ & Z1 & ->). destruct V2 as (y2 & g2 & K2 & _ & Lg2 & _ & Z2 & ->). pose proof (Hle _ Z1) as B1. pose proof (Hle _ Z2) as B2.
  destruct (K1 ltac:(lia)) as (I1 & W1 & _). destruct (K2 ltac:(lia)) as (I2 & W2 & _). assert (0 <= npre_cnt f t (cs_threads y2))%Z as P2 by (unfold npre_cnt; lia). assert (0 <= term_saves f t (cs_log z))%Z as Pz by (unfold term_saves; lia).
  unfold nft_val. destruct (k_nft (cs_sh y1) !! f) as [l|] eqn:El.
  - apply (n_idx _ _ _ _ _ _ _ W1) in El as Eo. destruct (decide (is_Some (k_nfts (cs_sh y2) !! l))) as [Hs|Hs].
    + apply (n_dom _ _ _ _ _ _ _ W2) in Hs as [f' Ef]. assert (f' = f) as ->. { pose proof (lookup_weaken _ _ _ _ Eo Lg1). pose proof (lookup_weaken _ _ _ _ Ef Lg2). congruence. }
      pose proof (n_val _ _ _ _ _ _ _ W2 l Ef) as Hr. unfold lo in Hr. destruct l0 as [l1|] eqn:E0.
      * pose proof (n_low _ _ _ _ _ _ _ W1 l1 eq_refl) as E1. rewrite El in E1. injection E1 as ->. rewrite bool_decide_eq_true_2 in Hr by done. lia.
      * unfold w0. rewrite bool_decide_eq_false_2 in Hr by done. lia.
    + assert (counts_at (cs_sh y2) l = ∅) as Ez by (unfold counts_at; apply eq_None_not_Some in Hs; by rewrite Hs). rewrite Ez. change (geti ∅ t) with 0%Z. split; [|lia]. destruct l0 as [l1|] eqn:E0; [|done]. exfalso. apply Hs.
      pose proof (n_low _ _ _ _ _ _ _ W1 l1 eq_refl) as E1. rewrite El in E1. injection E1 as ->. apply (n_dom _ _ _ _ _ _ _ W2). exists f. apply (n_idx _ _ _ _ _ _ _ W2). by apply (n_low _ _ _ _ _ _ _ W2).
  - split; [|lia]. unfold w0. destruct l0 as [l1|] eqn:E0; [|done]. pose proof (n_low _ _ _ _ _ _ _ W1 l1 eq_refl) as E1. congruence.
Qed.

(** A writer affects a search only through a map that the search is accessing: where no
    goroutine of the search reads, or iterates over, a map that a writer is about to write
    to, the next step of any writer leaves exactly the same next steps to the search. *)
Theorem C61_no_race N ncpu progs y z z' terms f q :
  rtc (conc_step false) (conc_start sh_new progs) y -> rtc (busy_step N ncpu terms f) (y, QLength) (z, q) -> conc_step false z z' -> (forall m, reads_map q m -> ~ writing z m) ->
  forall q', search2_step N ncpu terms f (cs_sh z) q q' <-> search2_step N ncpu terms f (cs_sh z') q q'.
Proof.
  intros R H W K q'. pose proof (alloc_start _ _ _ R) as A. destruct (qheld_run N ncpu terms f y QLength z q H A I) as (Az & Q).
  assert (forall m, reads_map q m -> same_map (cs_sh z) (cs_sh z') m) as E.
  { intros m Hm. inversion W; subst; cbn in *; [by destruct m|]. eapply t_same; [eassumption|by eapply reads_live|]. intros Ew. apply (K m Hm). eexists. split; [by eapply elem_of_list_lookup_2|done]. }
  split; intros Hs; (eapply step_same; [exact Hs|]); intros m Hm; specialize (E m Hm); [done|]. destruct m; cbn in *; by symmetry.
Qed.
(** Searching while another goroutine is about to save can stop the process: from any
    state in which some goroutine is still to make a call, on any field, the two can come
    to access one map at the same time, the goroutine writing to it. *)
Theorem C61_read_race N ncpu terms f y c cs : (TIdle, c :: cs) ∈ cs_threads y ->
  exists z q m, rtc (busy_step N ncpu terms f) (y, QLength) (z, q) /\ reads_map q m /\ writing z m.
Proof.
  intros Hin. destruct y as [s ths log]. cbn in Hin. apply elem_of_list_split in Hin as (A & B & ->).
  destruct (reach_sizew false s (f_name (call_field c)) c) as (s' & full & d & x & R & _); [destruct c; cbn; by apply bool_decide_eq_true|].
  do 2 eexists. exists MFieldSize. split.
  - eapply rtc_l; [apply b_write, (solo_call false)|]. etransitivity; [apply busy_writes, (solo false _ _ _ _ A cs B _ R)|]. eapply rtc_l; [apply b_search, q_length|]. apply rtc_refl.
  - split; [constructor|]. eexists. cbn. split; [apply elem_of_app; right; left|done].
Qed.
(** In particular while the search iterates over the documents of one of its terms and
    the goroutine adds a document to that term. *)
Theorem C61_iteration_race N ncpu terms f t d d' y c cs : 0 < ncpu -> (TIdle, c :: cs) ∈ cs_threads y -> t ∈ terms -> shown (cs_sh y) f t d -> posts f t d' c ->
  exists z len n nft w a must sent, rtc (busy_step N ncpu terms f) (y, QLength) (z, QIds len n nft w) /\ VRun (RRange a must sent) ∈ f2_workers w /\ d ∈ must /\ writing z (MSet a).
Proof.
  intros Hn Hin Ht Hs Hp. destruct (shown_addr _ _ _ _ Hs) as (l & m & a & S & E1 & E2 & E3 & E4 & E5). destruct y as [s ths log]. cbn in Hin, E1, E2, E4. apply elem_of_list_split in Hin as (A & B & ->).
  destruct (reach_set s c f t d' l m a Hp E1 E2 E3) as (s' & pc & R & W & F1 & F2 & F3). set (z := mkConc s' (A ++ (pc, cs) :: B) (log ++ [c])).
  destruct (alone_range N ncpu terms f z t l m a Hn Ht) as (len & n & acc & w & R2 & Hw); [cbn; by rewrite F1|cbn; by rewrite F2|done|].
  exists z, len, n, acc, w, a, (dom (set_at s' a)), []. split.
  - eapply rtc_l; [apply b_write, (solo_call false)|]. etransitivity; [apply busy_writes, (solo false _ _ _ _ A cs B _ R)|exact R2].
  - split; [exact Hw|]. split; [apply elem_of_dom; unfold set_at; by rewrite F3, E4|]. exists (pc, cs). split; [cbn; apply elem_of_app; right; left|done].
Qed.

(** A search is not a snapshot: while one goroutine makes two or more calls for the field,
    a search can compute the average length from the total length before all of them and
    the number of documents after all of them, a combination that exists at no moment. *)
Theorem C61_torn N ncpu terms f y h : 0 < ncpu -> cs_threads y = [(TIdle, h)] -> 1 < length h ->
  Forall (fun c => f_name (call_field c) = f /\ (0 < f_length (call_field c))%Z) h ->
  let size := mem_get_size (view (cs_sh y)) f in let len := mem_get_length (view (cs_sh y)) f in let n := Z.of_nat (length h) in
  (0 <= size /\ size + n < 2 ^ 63)%Z -> (0 <= len /\ len + zsum (map (fun c => f_length (call_field c)) h) < 2 ^ 63)%Z ->
  exists z r, rtc (busy_step N ncpu terms f) (y, QLength) (z, QRet r) /\ all_done z /\ sr_total r = of_int N (size + n) /\ sr_avg r = ndiv N (of_int N len) (of_int N (size + n)) /\ forall m, moment y z m -> ~ (mem_get_size (view (cs_sh m)) f = (size + n)%Z /\ mem_get_length (view (cs_sh m)) f = len).
Proof.
  intros Hc Et Hh Hf size len n HS HL. destruct y as [s ths log]. cbn in Et. subst ths. destruct (finish_thread false h s TIdle [] [] log) as (s' & log' & R). cbn [app] in R. set (z := mkConc s' [(TIdle, [])] log') in *.
  assert (ser_inv f size len h log (mkConc s [(TIdle, h)] log)) as I0.
  { exists TIdle, h, []. cbn. split; [done|]. split; [by rewrite app_nil_r|]. split; [done|]. split; [done|]. split; [done|]. unfold size, len, mem_get_size, mem_get_length, lens_of. cbn. split; lia. }
  assert (rtc (busy_step N ncpu terms f) (mkConc s [(TIdle, h)] log, QLength) (z, QSize len)) as R1.
  { eapply rtc_l; [apply b_search, q_length|]. apply busy_writes, R. }
  pose proof (ser_run f size len h Hf HL HS log _ _ R I0) as (pc & cs & lg & E1 & _ & E2 & _ & _ & EL & ES). cbn in E1. injection E1 as <- <-. rewrite app_nil_r in E2. subst lg. cbn in EL, ES.
  assert (rtc (busy_step N ncpu terms f) (mkConc s [(TIdle, h)] log, QLength) (z, QNft len (size + n)%Z terms ∅)) as R2.
  { eapply rtc_r; [exact R1|]. replace (size + n)%Z with (geti (k_size (cs_sh z)) f) by (cbn; lia). apply b_search, q_size. }
  pose proof (binv_run N ncpu terms f _ _ _ _ R2 (binv_start N terms f _)) as B. destruct (finish_search N ncpu terms f Hc z _ B) as (r & Rr).
  assert (rtc (busy_step N ncpu terms f) (z, QNft len (size + n)%Z terms ∅) (z, QRet r)) as R3. { clear -Rr. induction Rr as [|a b c Hs _ IH]; [apply rtc_refl|]. eapply rtc_l; [by constructor|exact IH]. }
  exists z, r. split; [by etransitivity|]. split; [intros th Hth; cbn in Hth; by apply elem_of_list_singleton in Hth|].
  assert (forall q, rtc (search2_step N ncpu terms f (cs_sh z)) (QNft len (size + n)%Z terms ∅) q ->
    match q with QLength | QSize _ => False | QNft a b _ _ | QNftTerm a b _ _ _ _ | QIds a b _ _ | QFields a b _ _ => a = len /\ b = (size + n)%Z | QRet r => sr_total r = of_int N (size + n) /\ sr_avg r = ndiv N (of_int N len) (of_int N (size + n)) end) as K.
  { clear -size. intros q H. remember (QNft len (size + n)%Z terms ∅) as q0 eqn:E0. assert (match q0 with QLength | QSize _ => False | QNft a b _ _ | QNftTerm a b _ _ _ _ | QIds a b _ _ | QFields a b _ _ => a = len /\ b = (size + n)%Z | QRet r => sr_total r = of_int N (size + n) /\ sr_avg r = ndiv N (of_int N len) (of_int N (size + n)) end) as J by (by rewrite E0). clear E0. revert J.
    induction H as [|a b c Hs _ IH]; [done|]. intros J. apply IH. inversion Hs; subst; try done. destruct J as [-> ->]. done. }
  destruct (K _ Rr) as [K1 K2]. split; [exact K1|]. split; [exact K2|].
  intros m [Rm _] [M1 M2]. destruct (ser_run f size len h Hf HL HS log _ _ Rm I0) as (pc & cs & lg & F1 & _ & F2 & _ & F3 & FL & FS). unfold mem_get_size, mem_get_length in M1, M2. cbn in M1, M2. rewrite M2 in FL. rewrite M1 in FS.
  assert (lens_of lg = pre_len pc) as El by lia. assert (cs = [] /\ lg = h) as [-> ->].
  { assert (length h = (length lg + length cs)%nat) as Eh by (rewrite <- F2; apply app_length). assert (0 <= pre_size pc <= 1)%Z by (destruct pc; cbn; lia). destruct cs; [rewrite app_nil_r in F2; done|]. cbn in Eh. unfold n in FS. lia. }
  destruct h as [|c1 [|c2 h]]; [cbn in Hh; lia|cbn in Hh; lia|]. apply Forall_cons in Hf as [[_ P1] Hf']. apply Forall_cons in Hf' as [[_ P2] Hf'']. assert (0 <= lens_of h)%Z as P3 by (eapply lens_nonneg; exact Hf''). rewrite !lens_cons in El.
  destruct (calling pc) as [c|] eqn:Ec.
  - assert (pre_len pc = 0 \/ pre_len pc = f_length (call_field c))%Z as [E|E]; [destruct pc; cbn in Ec |- *; (discriminate Ec || injection Ec as <-); try (destruct full; auto); auto|lia|].
    rewrite E in El. specialize (F3 c eq_refl). apply elem_of_cons in F3 as [->|F3]; [lia|]. apply elem_of_cons in F3 as [->|F3]; [lia|]. assert (f_length (call_field c) <= lens_of h)%Z by (eapply lens_in; [exact Hf''|exact F3]). lia.
  - assert (pre_len pc = 0%Z) by (by destruct pc). lia.
Qed.

(** * Concrete cases *)
(** One document is stored; a second goroutine is still to save two others. *)
Lemma one_saved : exists s1, (forall rest, rtc (conc_step false) (conc_start sh_new [[save1]; rest]) (mkConc s1 [(TIdle, []); (TIdle, rest)] [save1])) /\
  shown s1 "title" "go" "d1" /\ mem_get_fields (view s1) ["d1"%string] "title" !! "d1"%string = Some (call_field save1) /\
  mem_get_nft (view s1) "title" ["go"%string] !! "go"%string = Some 1%Z /\ mem_get_size (view s1) "title" = 1%Z /\ mem_get_length (view s1) "title" = 3%Z.
Proof.
  destruct (finish_any sh_new (t_enter false save1)) as (s1 & R1). exists s1. split; [|].
  { intros rest. eapply rtc_l; [apply (solo_call false sh_new save1 [] [] [(TIdle, rest)])|]. apply (solo false _ _ _ _ [] [] [(TIdle, rest)] _ R1). }
  assert (conc_run false sh_new [[save1]] s1) as C1.
  { exists (mkConc s1 [(TIdle, [])] [save1]). split; [|split; [|done]]; [eapply rtc_l; [apply (solo_call false sh_new save1 [] [] [])|apply (solo false _ _ _ _ [] [] [] _ R1)]|]. intros th [->|Hn%elem_of_nil]%elem_of_cons; done. }
  apply C56_one_goroutine_memory in C1. split.
  - destruct (C22_memory_postings_exact _ _ "title" "go" C1) as [[_ H1] H2]. destruct H1 as [S0 HS]; [by exists save1; split; [left|]|].
    destruct (proj1 (H2 S0 HS "d1"%string)) as [_ H3]. assert (set_contains S0 "d1" = true) as H4 by (apply H3; by exists save1; split; [left|]). exists S0. split; [done|]. unfold set_contains in H4. destruct (S0 !! "d1"%string); [eauto|done].
  - split; [rewrite (C23_memory_get_fields _ _ _ _ _ C1); vm_compute; reflexivity|].
    split; [rewrite (C25_memory_number_field_term _ _ _ _ _ C1); vm_compute; reflexivity|].
    split; [rewrite (C24_memory_size_counts_calls _ _ _ C1); vm_compute; reflexivity|rewrite (C24_memory_length_sums_calls _ _ _ C1); vm_compute; reflexivity].
Qed.
(** The hypotheses of [C61_no_race] are met while a goroutine stores a new count: the search
    is reading the lengths. *)
Example C61_case_no_race N : exists progs y z',
  rtc (conc_step false) (conc_start sh_new progs) y /\ conc_step false y z' /\ (forall m, reads_map (@QLength N) m -> ~ writing y m) /\
  writing y MFieldSize /\ mem_get_size (view (cs_sh y)) "title" = 1%Z /\ mem_get_size (view (cs_sh z')) "title" = 2%Z.
Proof.
  destruct one_saved as (s1 & R1 & _ & _ & _ & H1 & _). specialize (R1 [save2]).
  assert (exists s2, rtc t_step (s1, t_enter false save2) (s2, TSize true "d2" (call_field save2)) /\ k_size s2 = k_size s1) as (s2 & R2 & E2).
  { destruct (k_fdoc s1 !! "d2"%string) as [l|] eqn:El.
    - eexists. split; [eapply rtc_l; [apply t_doc|]; rewrite El; eapply rtc_l; [apply t_doc_old|]; apply rtc_refl|done].
    - eexists. split; [eapply rtc_l; [apply t_doc|]; rewrite El; eapply rtc_l; [apply (t_doc_new _ _ _ (fresh (dom (k_fdocs s1)))), not_elem_of_dom, is_fresh|]; apply rtc_refl|done]. }
  assert (geti (k_size s2) "title" = 1%Z) as V by (rewrite E2; exact H1).
  set (y := mkConc s2 [(TIdle, []); (TSizeW true "d2" (call_field save2) 1, [])] [save1; save2]).
  eexists _, y, _. split; [|split; [|split; [|split; [|split]]]].
  - etransitivity; [exact R1|]. eapply rtc_l; [apply (solo_call false s1 save2 [] [(TIdle, [])] [])|].
    apply (solo false s1 _ _ _ [(TIdle, [])] [] [] _). eapply rtc_r; [exact R2|]. rewrite <- V. apply t_size.
  - eapply (cs_step false s2 (cs_threads y) _ 1 (TSizeW true "d2" (call_field save2) 1) [] _ _ eq_refl). apply t_size_w.
  - intros m Hm. inversion Hm; subst. intros (th & [->|[->|Hn%elem_of_nil]%elem_of_cons]%elem_of_cons & E); done.
  - eexists. split; [right; left|]. done.
  - exact V.
  - change (geti (<["title"%string := wrap64 (1 + 1)]> (k_size s2)) "title" = 2%Z). unfold geti. rewrite lookup_insert. vm_compute. reflexivity.
Qed.
Definition save3 := Save "d1" (cf "title" 4 [("go"%string, 1%Z)]).
(** The hypotheses of the theorems are met: "d1" is stored, nothing is in progress, the
    second goroutine has started to save "d2" and "d1" again when the search starts, and
    the search returns. *)
Example C61_case N : exists y0 y z r,
  rtc (conc_step false) (conc_start sh_new [[save1]; [save2; save3]]) y0 /\ undisturbed y0 "title" "d1" /\ shown (cs_sh y0) "title" "go" "d1" /\
  mem_get_fields (view (cs_sh y0)) ["d1"%string] "title" !! "d1"%string = Some (call_field save1) /\ mem_get_nft (view (cs_sh y0)) "title" ["go"%string] !! "go"%string = Some 1%Z /\
  rtc (conc_step false) y0 y /\ cs_log y = [save1; save2] /\ rtc (busy_step N 2 ["go"%string] "title") (y, QLength) (z, QRet r) /\ cs_log z = [save1; save2; save3] /\
  (1 <= default 0 (sr_nft r !! "go"%string) <= 3)%Z /\ (sr_docs r !! "d1"%string = Some (call_field save1) \/ sr_docs r !! "d1"%string = Some (call_field save3)).
Proof.
  destruct one_saved as (s1 & R1 & H1 & H2 & H3 & _). specialize (R1 [save2; save3]). set (y0 := mkConc s1 [(TIdle, []); (TIdle, [save2; save3])] [save1]) in *.
  set (y := mkConc s1 [(TIdle, []); (t_enter false save2, [save3])] [save1; save2]).
  assert (rtc (conc_step false) y0 y) as Ry. { eapply rtc_l; [apply (solo_call false s1 save2 [save3] [(TIdle, [])] [])|]. apply rtc_refl. }
  destruct (finish_any s1 (t_enter false save2)) as (s2 & R2). set (z := mkConc s2 [(TIdle, []); (t_enter false save3, [])] [save1; save2; save3]).
  assert (rtc (conc_step false) y z) as Rz. { eapply rtc_r; [apply (solo false _ _ _ _ [(TIdle, [])] [save3] [] _ R2)|]. apply (solo_call false s2 save3 [] [(TIdle, [])] []). }
  assert (rtc (busy_step N 2 ["go"%string] "title") (y, QLength) (z, QSize (geti (k_length (cs_sh y)) "title"))) as Rb. { eapply rtc_l; [apply b_search, q_length|]. by apply busy_writes. }
  destruct (C61_can_return N 2 y z ["go"%string] "title" _ ltac:(lia) Rb) as (r & Rr). exists y0, y, z, r.
  assert (undisturbed y0 "title" "d1") as U by (intros th c [->|[->|Hn%elem_of_nil]%elem_of_cons]%elem_of_cons; done). assert (rtc (busy_step N 2 ["go"%string] "title") (y, QLength) (z, QRet r)) as Rt by (etransitivity; [exact Rb|exact Rr]).
  do 9 (split; [done|]). split.
  - destruct (C61_statistics _ _ _ _ _ _ _ Rt) as (_ & _ & _ & _ & _ & _ & Hd). destruct (proj2 (Hd "go"%string) ltac:(left)) as [v Hv]. rewrite Hv. cbn [default from_option Datatypes.id].
    assert (term_saves "title" "go" (cs_log z) = 3%Z) as E3 by (vm_compute; reflexivity). rewrite <- E3. apply (C61_counts N 2 _ y0 y z ["go"%string] "title" "go" 1%Z v r R1); try done. intros th c Hth Hc. by apply (U th c Hth Hc).
  - destruct (C61_finds_stored N 2 _ y0 y z ["go"%string] "title" "go" "d1" _ r R1 U ltac:(left) H1 H2 Ry Rt) as (x & later & Hx & El & Hs). rewrite Hx. destruct Hs as [->|[_ Hs]]; [by left|right]. cbn in El. injection El as <-.
    apply elem_of_cons in Hs as [Hs|Hs]; [discriminate Hs|]. apply elem_of_list_singleton in Hs. injection Hs as ->. done.
Qed.
(** The hypotheses of the last three theorems. *)
Example C61_case_races N : exists y, (exists progs, rtc (conc_step false) (conc_start sh_new progs) y) /\ (TIdle, [save2]) ∈ cs_threads y /\ shown (cs_sh y) "title" "go" "d1" /\ posts "title" "go" "d2" save2 /\
  exists z len n nft w a must sent, rtc (busy_step N 1 ["go"%string] "title") (y, QLength) (z, QIds len n nft w) /\ VRun (RRange a must sent) ∈ f2_workers w /\ "d1"%string ∈ must /\ writing z (MSet a).
Proof.
  destruct one_saved as (s1 & R1 & H1 & _). eexists. split; [eexists; apply (R1 [save2])|]. split; [cbn; right; left|]. split; [done|]. assert (posts "title" "go" "d2" save2) as Hp by (split; [done|]; split; [done|]; by eexists). split; [done|].
  apply (C61_iteration_race N 1 ["go"%string] "title" "go" "d1" "d2" _ save2 []); [lia|cbn; right; left|left|done|done].
Qed.
(** A store with one document of length 3; two more of length 3 are saved during the
    search, which uses 3/3 = 1 as the average length. *)
Definition save4 := Save "d2" (cf "title" 3 [("go"%string, 3%Z)]).
Definition save5 := Save "d3" (cf "title" 3 [("go"%string, 3%Z)]).
Example C61_case_torn N : exists y z r, mem_get_size (view (cs_sh y)) "title" = 1%Z /\ mem_get_length (view (cs_sh y)) "title" = 3%Z /\
  rtc (busy_step N 1 ["go"%string] "title") (y, QLength) (z, QRet r) /\ sr_total r = of_int N 3 /\ sr_avg r = ndiv N (of_int N 3) (of_int N 3) /\
  forall m, moment y z m -> ~ (mem_get_size (view (cs_sh m)) "title" = 3%Z /\ mem_get_length (view (cs_sh m)) "title" = 3%Z).
Proof.
  destruct one_saved as (s1 & _ & _ & _ & _ & H1 & H2). set (y := mkConc s1 [(TIdle, [save4; save5])] [save1]).
  destruct (C61_torn N 1 ["go"%string] "title" y [save4; save5]) as (z & r & R & _ & E1 & E2 & K); [lia|done|cbn; lia|repeat constructor|cbn [cs_sh y]; rewrite H1; cbn; lia|cbn [cs_sh y]; rewrite H2; cbn; lia|].
  exists y, z, r. cbn [cs_sh y] in *. rewrite H1 in E1, E2, K. rewrite H2 in E2, K. done.
Qed.
Print Assumptions C61_finds_stored.
Print Assumptions C61_only_saved.
Print Assumptions C61_statistics.
Print Assumptions C61_never_panics.
Print Assumptions C61_can_return.
Print Assumptions C61_counts.
Print Assumptions C61_no_race.
Print Assumptions C61_read_race.
Print Assumptions C61_iteration_race.
Print Assumptions C61_torn.
