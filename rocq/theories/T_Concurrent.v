(** C56: concurrent calls on one storage, with no lock. *)
From Verif Require Import Base M_Field M_Memory M_Concurrent S_Memory S_Concurrent P_Base P_Concurrent P_Concurrent2 P_Concurrent3 P_Concurrent4 P_Memory P_Concurrent5 T_Memory.
#[local] Open Scope Z_scope.

Lemma counted_nonneg disk f h : 0 <= Z.of_nat (length (counted_calls disk f h)).
Proof. lia. Qed.

(** However the calls interleave, the number of documents of a field that is read when all
    calls have returned exceeds its start value by at most the number of counted calls, and
    by at least one if there was one. *)
Theorem C56_size_bounds disk s progs s' f :
  conc_run disk s progs s' -> 0 <= mem_get_size (view s) f ->
  let n := Z.of_nat (length (counted_calls disk f (concat progs))) in
  mem_get_size (view s) f + n < 2 ^ 63 ->
  mem_get_size (view s) f + Z.min 1 n <= mem_get_size (view s') f <= mem_get_size (view s) f + n.
Proof.
  intros (y & R & D & <-) H0 n Hb. set (c0 := mem_get_size (view s) f) in *.
  assert (n = Z.of_nat (length (counted_calls disk f (cs_log y)))) as En. { subst n. by rewrite (counted_perm disk f _ _ (log_done disk s progs y R D)). }
  assert (size_inv disk f c0 (conc_start s progs)) as I.
  { unfold size_inv. cbn. unfold conc_start. cbn. rewrite npre_start. cbn. change (geti (k_size s) f) with c0. split; [lia|]. split; [lia|]. split; [lia|]. intros th full d x v Hth E. apply elem_of_list_fmap in Hth as (cs & -> & _). done. }
  assert (forall z, rtc (conc_step disk) z y -> size_inv disk f c0 z -> size_inv disk f c0 y) as K.
  { clear -Hb En H0. intros z H. induction H as [z|a b y Hs Hr IH]; [done|]. intros I. apply IH; [done|]. apply (size_step disk f c0 a b); [lia|done| |done]. destruct (log_grows disk _ _ Hr) as (h & E). rewrite E in En. unfold counted_calls in *. rewrite List.filter_app, app_length in En. lia. }
  destruct (K _ R I) as (I1 & I2 & I3 & _). destruct (pend_done f y D) as [_ E]. rewrite E in *. rewrite <- En in *. unfold mem_get_size. cbn [mm_size view]. lia.
Qed.
(** Both ends are reached, and everything between: for each [k] from 1 to the number of
    calls there is an interleaving that leaves the counter at [k]. *)
Theorem C56_size_attained disk f calls k :
  Forall (fun c => counted disk f c = true) calls -> 1 <= k <= Z.of_nat (length calls) -> Z.of_nat (length calls) < 2 ^ 63 ->
  exists s', conc_run disk sh_new (map (fun c => [c]) calls) s' /\ mem_get_size (view s') f = k.
Proof.
  intros H Hk Hb. set (j := Z.to_nat (Z.of_nat (length calls) - k + 1)). rewrite <- (take_drop j calls) in H. apply Forall_app in H as [Ha Hd].
  assert (length (take j calls) = j) as Lt by (rewrite take_length; lia). assert (Z.of_nat (length (drop j calls)) = k - 1) as Ld by (rewrite drop_length; lia).
  destruct (phase_read disk f (take j calls) sh_new [] (map idle1 (drop j calls)) [] Ha) as (s1 & ws & log1 & R1 & E1 & E2 & E3).
  destruct (phase_write disk f _ ws s1 [] (map idle1 (drop j calls)) log1 E2) as (s2 & R2 & _ & E4).
  assert (geti (k_size s2) f = 1) as E5. { rewrite E4; [done|]. destruct ws; [cbn in E3; lia|done]. }
  destruct (phase_serial disk f (drop j calls) s2 (replicate (length ws) (TIdle, [])) [] log1 Hd) as (s3 & log3 & R3 & E6); [lia|lia|].
  exists s3. split; [|unfold mem_get_size; cbn; lia]. exists (mkConc s3 (replicate (length ws) (TIdle, []) ++ replicate (length (drop j calls)) (TIdle, []) ++ []) log3). split; [|split; [|done]].
  - assert (conc_start sh_new (map (fun c => [c]) calls) = mkConc sh_new ([] ++ map idle1 (take j calls) ++ map idle1 (drop j calls)) []) as ->.
    { unfold conc_start. f_equal. rewrite map_map. cbn. rewrite <- map_app, take_drop. done. }
    etransitivity; [exact R1|]. etransitivity; [exact R2|]. rewrite app_nil_r in R3. cbn [app]. rewrite app_nil_r in R3 |- *. exact R3.
  - intros th Hth. cbn in Hth. rewrite app_nil_r in Hth. apply elem_of_app in Hth as [Hth|Hth]; by apply elem_of_replicate in Hth as [-> _].
Qed.

(** The total length: the start value plus the sum of the lengths of some of the counted
    calls, at least one of them if there was one (modulo the wrap-around of Go's int). *)
Theorem C56_length disk s progs s' f :
  conc_run disk s progs s' -> int64_range (mem_get_length (view s) f) ->
  let lengths := map (fun c => f_length (call_field c)) (counted_calls disk f (concat progs)) in
  exists kept, kept ⊆+ lengths /\ (lengths <> [] -> kept <> []) /\ mem_get_length (view s') f = wrap64 (mem_get_length (view s) f + zsum kept).
Proof.
  intros (y & R & D & <-) H0 lengths. set (c0 := mem_get_length (view s) f) in *.
  assert (len_inv disk f c0 (conc_start s progs)) as I.
  { exists []. unfold conc_start. cbn [cs_threads cs_log cs_sh]. rewrite pend_start. split; [done|]. split; [|intros th full d x v Hth E; apply elem_of_list_fmap in Hth as (cs & -> & _); done].
    exists []. split; [done|]. split; [done|]. cbn. rewrite Z.add_0_r. symmetry. by apply wrap64_id. }
  assert (forall z, rtc (conc_step disk) z y -> len_inv disk f c0 z -> len_inv disk f c0 y) as K.
  { clear. intros z H. induction H as [z|a b y Hs Hr IH]; [done|]. intros I'. apply IH. by eapply len_step. }
  destruct (K _ R I) as (stored & E1 & (sub & S1 & S2 & S3) & _). destruct (pend_done f y D) as [E _]. rewrite E, app_nil_r in E1.
  assert (lens disk f (cs_log y) ≡ₚ lengths) as E2. { unfold lens, lengths. rewrite (counted_perm disk f _ _ (log_done disk s progs y R D)). apply reflexive_eq. apply map_ext. intros [|]; done. }
  exists sub. rewrite E2 in E1. split; [by rewrite <- E1|]. split; [|exact S3]. intros Hn. apply S2. intros ->. apply Hn. by apply Permutation_nil in E1.
Qed.

(** No interleaving makes a document appear under a term that no call stored it under. *)
Theorem C56_no_phantom_posting disk progs s' f t d :
  conc_run disk sh_new progs s' -> shown s' f t d -> exists c, c ∈ concat progs /\ posts f t d c.
Proof.
  intros (y & R & D & <-) (S & HS & Hd). destruct (no_phantom disk progs y f t S d R) as (c & Hc & Hp); [|done|].
  - unfold mem_get_documents in HS. destruct (mm_index (view (cs_sh y)) !! f) as [idx|]; [|done]. cbn. by destruct (idx !! t).
  - exists c. split; [|done]. by rewrite <- (log_done disk _ _ _ R D).
Qed.

(** Once a term of a field is listed and no call is in progress, later calls - however they
    interleave - lose no document of that term, neither the earlier ones nor their own. *)
Theorem C56_posting_kept disk progs y z later f t S0 :
  rtc (conc_step disk) (conc_start sh_new progs) y -> quiet y -> mem_get_documents (view (cs_sh y)) f t = Some S0 -> S0 <> ∅ ->
  rtc (conc_step disk) y z -> quiet z -> cs_log z = cs_log y ++ later ->
  (forall d, shown (cs_sh y) f t d -> shown (cs_sh z) f t d) /\
  forall c d, c ∈ later -> posts f t d c -> shown (cs_sh z) f t d.
Proof.
  intros R Q HS Hne R2 Q2 Hl. pose proof (own_reach disk _ _ R) as O.
  assert (mm_index (view (cs_sh y)) !! f ≫= (.!! t) = Some S0) as HS'. { unfold mem_get_documents in HS. destruct (mm_index (view (cs_sh y)) !! f) as [idx|]; [|done]. cbn. by destruct (idx !! t). }
  apply map_choose in Hne as (d0 & v0 & Hd0). destruct (view_posting _ _ _ _ d0 HS') as (l & m & a & E1 & E2 & E3 & E4); [by rewrite Hd0|].
  set (n := length (cs_log y)).
  assert (kept_inv f t l a n y) as I.
  { split; [exists m; rewrite E4; eauto|]. split; [intros th Hth; by rewrite (Q th Hth)|]. intros c d Hc. subst n. rewrite drop_all in Hc. by apply elem_of_nil in Hc. }
  assert (forall x, rtc (conc_step disk) x z -> own x -> (n <= length (cs_log x))%nat -> kept_inv f t l a n x -> (forall d S, k_sets (cs_sh x) !! a = Some S -> is_Some (S !! d) -> exists S', k_sets (cs_sh z) !! a = Some S' /\ is_Some (S' !! d)) /\ kept_inv f t l a n z) as K.
  { clear -disk. intros x H. induction H as [x|x1 x2 x3 Hs Hr IH]; intros O Hn I; [split; [eauto|done]|].
    destruct (IH (own_step disk _ _ Hs O)) as [K1 K2]; [inversion Hs; subst; cbn in *; rewrite ?app_length; lia|by eapply kept_step|]. split; [|done]. intros d S HS Hd.
    destruct (kept_sets disk _ _ _ _ _ _ _ Hs O I d S HS Hd) as (S' & H1 & H2). by eapply K1. }
  destruct (K y R2 O (le_n _) I) as [K1 ((m' & F1 & F2 & F3 & F4) & _ & K2)]. clear K.
  assert (forall d, (exists S, k_sets (cs_sh z) !! a = Some S /\ is_Some (S !! d)) -> shown (cs_sh z) f t d) as Sh.
  { intros d (S & HS1 & HS2). exists S. split; [|done]. unfold mem_get_documents. cbn. rewrite lookup_fmap, F1. cbn. unfold sets_at. rewrite lookup_fmap, F2. cbn. rewrite F3. cbn. by rewrite HS1. }
  split.
  - intros d (S & HS1 & HS2). rewrite HS in HS1. injection HS1 as <-. apply Sh. by eapply K1.
  - intros c d Hc Hp. apply Sh. destruct (K2 c d) as [K3|(th & Hth & E & _)]; [subst n; by rewrite Hl, drop_app|done|done|]. rewrite (Q2 th Hth) in E. discriminate E.
Qed.
(** Without those conditions postings are lost: two calls that are the first for a field
    can leave its index without any trace of one of them. *)
Theorem C56_posting_lost disk c1 c2 :
  f_name (call_field c1) = f_name (call_field c2) -> call_doc c1 <> call_doc c2 ->
  exists s', conc_run disk sh_new [[c1]; [c2]] s' /\ forall t, ~ shown s' (f_name (call_field c1)) t (call_doc c1).
Proof. apply lost_posting. Qed.
(** Any two counted calls, even on different fields, can come to write to the same map at
    the same time, where the Go runtime may end the process. *)
Theorem C56_collide disk s c1 c2 :
  (exists f, counted disk f c1 = true) -> (exists f, counted disk f c2 = true) ->
  exists y, rtc (conc_step disk) (conc_start s [[c1]; [c2]]) y /\ collide y.
Proof.
  intros [f1 H1] [f2 H2]. destruct (reach_sizew disk s f1 c1 H1) as (s1 & b1 & d1 & x1 & R1 & _). destruct (reach_sizew disk s1 f2 c2 H2) as (s2 & b2 & d2 & x2 & R2 & _).
  eexists. split.
  - unfold conc_start. cbn [map]. eapply rtc_l; [apply (solo_call disk s c1 [] [] [(TIdle, [c2])])|]. etransitivity; [apply (solo disk _ _ _ _ [] [] [(TIdle, [c2])] _ R1)|].
    eapply rtc_l; [apply (solo_call disk s1 c2 [] [(_, [])] [])|]. apply (solo disk _ _ _ _ [(_, [])] [] [] _ R2).
  - exists 0%nat, 1%nat. do 2 eexists. exists MFieldSize. split; [done|]. split; [reflexivity|]. split; [reflexivity|]. split; reflexivity.
Qed.

(** No interleaving gets stuck: every execution can be continued until all calls have
    returned. *)
Theorem C56_completes disk s progs y :
  rtc (conc_step disk) (conc_start s progs) y -> exists z, rtc (conc_step disk) y z /\ all_done z /\ conc_run disk s progs (cs_sh z).
Proof.
  intros R. destruct y as [s1 ths log]. destruct (finish_all disk ths s1 [] log) as (s' & log' & R').
  assert (all_done (mkConc s' ([] ++ replicate (length ths) (TIdle, [])) log')) as D by (intros th Hth; by apply elem_of_replicate in Hth as [-> _]).
  eexists. split; [exact R'|]. split; [done|]. eexists. split; [|split; [exact D|done]]. etransitivity; [exact R|exact R'].
Qed.

(** The Memory storage loses no document that only one goroutine saves: whatever the other
    goroutines do, GetFields returns the field of that goroutine's latest save. *)
Theorem C56_documents_kept progs i prog s' ids d f :
  conc_run false sh_new progs s' -> progs !! i = Some prog ->
  (forall j p c, j <> i -> progs !! j = Some p -> c ∈ p -> is_save c = true -> call_doc c <> d) ->
  mem_get_fields (view s') ids f !! d = if decide (d ∈ ids) then last_saved d f prog else None.
Proof.
  intros (y & R & D & <-) Hi Ho. pose proof (docs_start d i prog progs Hi Ho) as I.
  assert (docs_inv d i prog y) as (od & _ & _ & _ & pc & cs & E1 & _ & E2 & E3). { clear -R I. induction R as [x|a b c Hs _ IH]; [done|]. apply IH. by eapply docs_step. }
  assert ((pc, cs) = (TIdle, [])) as E by (apply D; by eapply elem_of_list_lookup_2). injection E as -> ->.
  rewrite mem_get_fields_lookup. destruct (decide (d ∈ ids)); [|done]. change (saves_of d []) with (@nil call) in E2. rewrite app_nil_r in E2.
  rewrite <- (last_saved_saves d f prog), <- E2, last_saved_saves, E3. cbn. unfold stored, fdoc_of. cbn. rewrite lookup_fmap. by destruct (k_fdoc (cs_sh y) !! d).
Qed.
(** ... but two goroutines that save different fields of one new document can lose one. *)
Theorem C56_document_lost d x1 x2 ids : f_name x1 <> f_name x2 ->
  exists s', conc_run false sh_new [[Save d x1]; [Save d x2]] s' /\ mem_get_fields (view s') ids (f_name x1) !! d = None.
Proof.
  intros Hn. destruct (lost_document d x1 x2 Hn) as (s' & R & E). exists s'. split; [done|]. rewrite mem_get_fields_lookup. destruct (decide _); [|done]. unfold fdoc_of. cbn. rewrite lookup_fmap. unfold stored in E. by destruct (k_fdoc s' !! d).
Qed.

(** Calls that do not overlap take effect one after the other, in the order they were made. *)
Theorem C56_serialised disk progs y :
  rtc (serial_step disk) (conc_start sh_new progs) y -> quiet y -> seq_run disk mem_new (cs_log y) (view (cs_sh y)).
Proof.
  intros R Q. assert (forall x, rtc (serial_step disk) x y -> own x -> one_at_a_time x -> serial_inv disk x -> serial_inv disk y) as K.
  { intros x H. induction H as [x|a b y Hs Hr IH]; [done|]. intros O1 O2 I. apply (IH R Q); [eapply own_step; [by destruct Hs|done]|by destruct Hs|by eapply serial_ok]. }
  assert (forall i p, fst <$> cs_threads (conc_start sh_new progs) !! i = Some p -> p = TIdle) as Hi.
  { intros i p Hp. unfold conc_start in Hp. cbn in Hp. rewrite list_lookup_fmap in Hp. destruct (progs !! i); [by injection Hp|done]. }
  destruct (K _ R) as [_ I].
  - apply (own_reach disk progs). done.
  - intros i j p q Hp Hq Np Nq. by apply Hi in Hp.
  - split; [constructor; cbn; intros *; rewrite ?lookup_empty; done|]. left. split; [|cbn [cs_log cs_sh conc_start]; assert (view sh_new = mem_new) as -> by (unfold view, mem_new; cbn; by rewrite !fmap_empty); constructor]. intros th Hth. apply elem_of_list_lookup in Hth as (i & Hth). apply (Hi i). by rewrite Hth.
  - destruct I as [[_ I]|(i & pc & cs & h & m & c & Hi' & Hn & _)]; [done|]. exfalso. apply Hn. apply (Q (pc, cs)). by eapply elem_of_list_lookup_2.
Qed.
(** In particular a single goroutine sees exactly the sequential storage. *)
Lemma one_thread disk a b h : conc_step disk a b -> (exists pc cs, cs_threads a = [(pc, cs)] /\ cs_log a ++ cs = h) -> exists pc cs, cs_threads b = [(pc, cs)] /\ cs_log b ++ cs = h.
Proof.
  intros H (pc0 & cs0 & E & L). inversion H as [s ths log i c cs Hi|s ths log i pc cs s' pc' Hi G]; subst; cbn [cs_threads cs_log] in *; subst ths; (destruct i as [|i]; [|discriminate Hi]); injection Hi as -> ->; cbn; do 2 eexists; (split; [done|]); [by rewrite <- app_assoc|done].
Qed.
Theorem C56_one_goroutine disk h s' : conc_run disk sh_new [h] s' -> seq_run disk mem_new h (view s').
Proof.
  intros (y & R & D & <-).
  assert (forall x, rtc (conc_step disk) x y -> (exists pc cs, cs_threads x = [(pc, cs)] /\ cs_log x ++ cs = h) -> rtc (serial_step disk) x y /\ exists pc cs, cs_threads y = [(pc, cs)] /\ cs_log y ++ cs = h) as K.
  { intros x H. induction H as [x|a b y Hs Hr IH]; intros E; [done|]. pose proof (one_thread _ _ _ _ Hs E) as E'. destruct (IH R D E') as [K1 K2]. split; [|done]. eapply rtc_l; [|exact K1]. split; [done|].
    destruct E' as (pc & cs & E' & _). intros [|i] [|j] p q; rewrite E'; done. }
  destruct (K _ R) as (R' & pc & cs & E1 & E2); [by exists TIdle, h|].
  assert ((pc, cs) = (TIdle, [])) as E3 by (apply D; rewrite E1; left). injection E3 as -> ->. rewrite app_nil_r in E2. rewrite <- E2.
  apply (C56_serialised disk [h]); [done|]. intros th Hth. by rewrite (D th Hth).
Qed.
Theorem C56_one_goroutine_memory h s' : conc_run false sh_new [h] s' -> mem_run mem_new h (view s').
Proof. intros H%C56_one_goroutine. induction H as [|m c m1 h m2 Hs _ IH]; econstructor; [exact Hs|exact IH]. Qed.

(** * Concrete cases *)
Definition cf (n : string) (l : Z) (tf : list (string * Z)) : field := mkField n l (list_to_map tf).
Definition save1 := Save "d1" (cf "title" 3 [("go"%string, 2); ("map"%string, 1)]).
Definition save2 := Save "d2" (cf "title" 2 [("go"%string, 2)]).
(** Two saves of different documents: both are counted, their outcome can be 1 or 2. *)
Example C56_case disk : (exists s', conc_run disk sh_new [[save1]; [save2]] s' /\ mem_get_size (view s') "title" = 1) /\ (exists s', conc_run disk sh_new [[save1]; [save2]] s' /\ mem_get_size (view s') "title" = 2).
Proof.
  split.
  - apply (C56_size_attained disk "title" [save1; save2] 1); [|cbn; lia|cbn; lia]. repeat constructor.
  - apply (C56_size_attained disk "title" [save1; save2] 2); [|cbn; lia|cbn; lia]. repeat constructor.
Qed.
(** ... and the first document can vanish from the index although it was stored under
    the term "go". *)
Example C56_case_lost disk : posts "title" "go" "d1" save1 /\ exists s', conc_run disk sh_new [[save1]; [save2]] s' /\ ~ shown s' "title" "go" "d1".
Proof.
  split; [split; [done|]; split; [done|]; by eexists|]. destruct (C56_posting_lost disk save1 save2 eq_refl) as (s' & R & H); [done|]. exists s'. split; [done|]. apply (H "go"%string).
Qed.
(** The hypotheses of [C56_posting_kept] and [C56_serialised]: the first save has returned,
    "go" is listed, the second save follows and both documents stay listed. *)
Example C56_case_kept : exists y z S0,
  rtc (conc_step false) (conc_start sh_new [[save1]; [save2]]) y /\ quiet y /\ mem_get_documents (view (cs_sh y)) "title" "go" = Some S0 /\ S0 <> ∅ /\
  rtc (conc_step false) y z /\ quiet z /\ cs_log z = cs_log y ++ [save2] /\ shown (cs_sh z) "title" "go" "d1" /\ shown (cs_sh z) "title" "go" "d2".
Proof.
  destruct (finish_any sh_new (t_enter false save1)) as (s1 & R1). destruct (finish_any s1 (t_enter false save2)) as (s2 & R2).
  assert (conc_run false sh_new [[save1]] s1) as C1.
  { exists (mkConc s1 [(TIdle, [])] [save1]). split; [|split; [|done]]; [eapply rtc_l; [apply (solo_call false sh_new save1 [] [] [])|apply (solo false _ _ _ _ [] [] [] _ R1)]|]. intros th [->|Hn%elem_of_nil]%elem_of_cons; done. }
  apply C56_one_goroutine_memory in C1. destruct (C22_memory_postings_exact _ _ "title" "go" C1) as [[_ H1] H2]. destruct H1 as [S0 HS]; [by exists save1; split; [left|]|].
  destruct (proj1 (H2 S0 HS "d1"%string)) as [_ H3]. assert (set_contains S0 "d1" = true) as H4 by (apply H3; by exists save1; split; [left|]). 
  assert (is_Some (S0 !! "d1"%string)) as [v Hv]. { unfold set_contains in H4. destruct (S0 !! "d1"%string); [eauto|done]. }
  set (y := mkConc s1 [(TIdle, []); (TIdle, [save2])] [save1]). set (z := mkConc s2 [(TIdle, []); (TIdle, [])] [save1; save2]).
  assert (rtc (conc_step false) (conc_start sh_new [[save1]; [save2]]) y) as Ry. { eapply rtc_l; [apply (solo_call false sh_new save1 [] [] [(TIdle, [save2])])|]. apply (solo false _ _ _ _ [] [] [(TIdle, [save2])] _ R1). }
  assert (rtc (conc_step false) y z) as Rz. { eapply rtc_l; [apply (solo_call false s1 save2 [] [(TIdle, [])] [])|]. apply (solo false _ _ _ _ [(TIdle, [])] [] [] _ R2). }
  assert (quiet y) as Qy by (intros th [->|[->|Hn%elem_of_nil]%elem_of_cons]%elem_of_cons; done). assert (quiet z) as Qz by (intros th [->|[->|Hn%elem_of_nil]%elem_of_cons]%elem_of_cons; done).
  assert (S0 <> ∅) as Hne by (intros ->; by rewrite lookup_empty in Hv).
  destruct (C56_posting_kept false _ y z [save2] "title" "go" S0 Ry Qy HS Hne Rz Qz eq_refl) as [K1 K2].
  exists y, z, S0. do 7 (split; [done|]). split; [apply K1; exists S0; rewrite Hv; eauto|]. apply (K2 save2); [left|]. split; [done|]. split; [done|]. by eexists.
Qed.
Print Assumptions C56_size_bounds.
Print Assumptions C56_size_attained.
Print Assumptions C56_length.
Print Assumptions C56_no_phantom_posting.
Print Assumptions C56_posting_kept.
Print Assumptions C56_posting_lost.
Print Assumptions C56_collide.
Print Assumptions C56_completes.
Print Assumptions C56_documents_kept.
Print Assumptions C56_document_lost.
Print Assumptions C56_serialised.
Print Assumptions C56_one_goroutine.
Print Assumptions C56_one_goroutine_memory.
