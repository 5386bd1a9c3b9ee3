From Verif Require Import Base M_Field M_Memory S_Memory M_MemHeap P_Base P_Memory.
#[local] Open Scope Z_scope.

Definition posting (h : hmem) (f t : string) : option set_data :=
  match hm_get_documents h f t with Some sl => hm_sets h !! sl | None => None end.

Record hwf (h : hmem) : Prop := {
  w_index : forall f il, hm_index h !! f = Some il -> is_Some (hm_imaps h !! il);
  w_inj : forall f f' il, hm_index h !! f = Some il -> hm_index h !! f' = Some il -> f = f';
  w_sets : forall il im t sl, hm_imaps h !! il = Some im -> im !! t = Some sl -> is_Some (hm_sets h !! sl);
  w_slots : forall il im t il' im' t' sl, hm_imaps h !! il = Some im -> im !! t = Some sl ->
    hm_imaps h !! il' = Some im' -> im' !! t' = Some sl -> il = il' /\ t = t';
  w_fresh1 : forall l, is_Some (hm_imaps h !! l) -> (l < hm_next h)%nat;
  w_fresh2 : forall l, is_Some (hm_sets h !! l) -> (l < hm_next h)%nat;
  w_fresh3 : forall l, is_Some (hm_tfs h !! l) -> (l < hm_next h)%nat;
  w_fields : forall d fd f fl, hm_fdoc h !! d = Some fd -> fd !! f = Some fl -> is_Some (hm_tfs h !! hf_tf fl)
}.
Lemma hwf_new : hwf hm_new.
Proof. split; intros *; cbn; rewrite ?lookup_empty; try done; by intros [? ?]. Qed.

(** What a step may not touch. *)
Lemma index_term_static doc il h key :
  let h' := hm_index_term doc il h key in
  hm_index h' = hm_index h /\ hm_fdoc h' = hm_fdoc h /\ hm_tfs h' = hm_tfs h /\ hm_length h' = hm_length h /\
  hm_size h' = hm_size h /\ hm_nft h' = hm_nft h /\ (hm_next h <= hm_next h')%nat.
Proof. cbn. unfold hm_index_term. destruct (_ !! key); cbn; repeat split; lia. Qed.

Lemma index_term_eff doc il f h key : hwf h -> hm_index h !! f = Some il ->
  let h' := hm_index_term doc il h key in
  hwf h' /\
  (forall f' t' sl, hm_get_documents h f' t' = Some sl -> hm_get_documents h' f' t' = Some sl) /\
  (forall f' t', posting h' f' t' =
     if decide (f' = f /\ t' = key) then Some (<[doc := true]> (default ∅ (posting h f' t'))) else posting h f' t').
Proof.
  intros Hwf Hf. destruct (w_index h Hwf _ _ Hf) as [im Him].
  unfold hm_index_term. rewrite Him. cbn [from_option id]. destruct (im !! key) as [sl|] eqn:Ek; cbn zeta.
  - destruct (w_sets h Hwf _ _ _ _ Him Ek) as [s Hs]. rewrite Hs. cbn [from_option id]. split; [|split].
    + destruct Hwf. split; cbn; try done.
      * intros. rewrite lookup_insert_is_Some'. right. eauto.
      * intros l. rewrite lookup_insert_is_Some'. intros [<-|Hl]; [|eauto]. apply w_fresh5. eauto.
    + done.
    + intros f' t'. unfold posting, hm_get_documents. cbn.
      destruct (decide (f' = f /\ t' = key)) as [[-> ->]|Hne].
      * rewrite Hf, Him. cbn [from_option id]. rewrite Ek, lookup_insert, Hs. done.
      * destruct (hm_index h !! f') as [il'|] eqn:Ef'; [|done].
        destruct (hm_imaps h !! il') as [im'|] eqn:Eim'; cbn [from_option id]; [|by rewrite lookup_empty].
        destruct (im' !! t') as [sl'|] eqn:Et'; [|done].
        rewrite lookup_insert_ne; [done|]. intros <-. apply Hne.
        destruct (w_slots h Hwf _ _ _ _ _ _ _ Him Ek Eim' Et') as [<- <-].
        split; [|done]. by eapply w_inj.
  - assert (hm_sets h !! hm_next h = None) as Hfr2.
    { destruct (hm_sets h !! hm_next h) eqn:E; [|done]. exfalso.
      assert (hm_next h < hm_next h)%nat; [|lia]. apply (w_fresh2 h Hwf). eauto. }
    assert (forall il im t, hm_imaps h !! il = Some im -> im !! t = Some (hm_next h) -> False) as Hns.
    { intros il0 im0 t0 H1 H2. destruct (w_sets h Hwf _ _ _ _ H1 H2) as [s Hs]. congruence. }
    split; [|split].
    + destruct Hwf as [A1 A2 A3 A4 A5 A6 A7 A8]. split; cbn; try done.
      * intros. rewrite lookup_insert_is_Some'. right. eauto.
      * intros il0 im0 t0 sl0 Hl Ht. rewrite lookup_insert_is_Some'.
        destruct (decide (il0 = il)) as [->|Hne].
        -- rewrite lookup_insert in Hl. injection Hl as <-. destruct (decide (t0 = key)) as [->|Hk].
           ++ rewrite lookup_insert in Ht. injection Ht as <-. by left.
           ++ rewrite lookup_insert_ne in Ht by done. right. eauto.
        -- rewrite lookup_insert_ne in Hl by done. right. eauto.
      * intros il1 im1 t1 il2 im2 t2 sl0 H1 G1 H2 G2.
        assert (forall il0 im0 t0, <[il:=<[key:=hm_next h]> im]> (hm_imaps h) !! il0 = Some im0 -> im0 !! t0 = Some sl0 ->
          (il0 = il /\ t0 = key /\ sl0 = hm_next h) \/ (exists im0', hm_imaps h !! il0 = Some im0' /\ im0' !! t0 = Some sl0)) as Hc.
        { intros il0 im0 t0 H G. destruct (decide (il0 = il)) as [->|Hne].
          - rewrite lookup_insert in H. injection H as <-. destruct (decide (t0 = key)) as [->|Hk].
            + rewrite lookup_insert in G. injection G as <-. by left.
            + rewrite lookup_insert_ne in G by done. right. eauto.
          - rewrite lookup_insert_ne in H by done. right. eauto. }
        destruct (Hc _ _ _ H1 G1) as [(-> & -> & ->)|(im1' & H1' & G1')], (Hc _ _ _ H2 G2) as [(-> & -> & E)|(im2' & H2' & G2')].
        -- done.
        -- exfalso. by eapply Hns.
        -- subst sl0. exfalso. by eapply Hns.
        -- by eapply A4.
      * intros l. rewrite lookup_insert_is_Some'. intros [<-|Hl]; [|specialize (A5 _ Hl); lia].
        assert (il < hm_next h)%nat by (apply A5; eauto). lia.
      * intros l. rewrite lookup_insert_is_Some'. intros [<-|Hl]; [lia|specialize (A6 _ Hl); lia].
      * intros l Hl. specialize (A7 _ Hl). lia.
    + intros f' t' sl'. unfold hm_get_documents. cbn. destruct (hm_index h !! f') as [il'|] eqn:Ef'; [|done].
      destruct (decide (il' = il)) as [->|Hne].
      * rewrite lookup_insert, Him. cbn [from_option id]. intros Ht. rewrite lookup_insert_ne; [done|]. congruence.
      * by rewrite lookup_insert_ne.
    + intros f' t'. unfold posting, hm_get_documents. cbn.
      destruct (decide (f' = f /\ t' = key)) as [[-> ->]|Hne].
      * rewrite Hf, Him. cbn [from_option id]. rewrite lookup_insert. cbn [from_option id]. rewrite !lookup_insert, Ek. done.
      * destruct (hm_index h !! f') as [il'|] eqn:Ef'; [|done].
        destruct (decide (il' = il)) as [->|Hil].
        -- assert (f' = f) as -> by (by eapply (w_inj h Hwf)). rewrite lookup_insert, Him. cbn [from_option id].
           rewrite lookup_insert_ne by (intros <-; by apply Hne).
           destruct (im !! t') as [sl'|] eqn:Et'; [|done]. rewrite lookup_insert_ne; [done|].
           intros <-. by eapply Hns.
        -- rewrite (lookup_insert_ne _ il il') by done.
           destruct (hm_imaps h !! il') as [im'|] eqn:Eim'; cbn [from_option id]; [|by rewrite lookup_empty].
           destruct (im' !! t') as [sl'|] eqn:Et'; [|done]. rewrite lookup_insert_ne; [done|].
           intros <-. by eapply Hns.
Qed.

Lemma index_loop_eff doc il f ks : forall h, hwf h -> hm_index h !! f = Some il -> NoDup ks ->
  let h' := fold_left (hm_index_term doc il) ks h in
  hwf h' /\ (hm_index h' = hm_index h /\ hm_fdoc h' = hm_fdoc h /\ hm_tfs h' = hm_tfs h /\ hm_length h' = hm_length h /\
    hm_size h' = hm_size h /\ hm_nft h' = hm_nft h) /\
  (forall f' t' sl, hm_get_documents h f' t' = Some sl -> hm_get_documents h' f' t' = Some sl) /\
  (forall f' t', posting h' f' t' =
     if decide (f' = f /\ t' ∈ ks) then Some (<[doc := true]> (default ∅ (posting h f' t'))) else posting h f' t').
Proof.
  induction ks as [|k ks IH]; intros h Hwf Hf Hnd; cbn [fold_left].
  - cbn. split; [done|]. split; [done|]. split; [done|]. intros. rewrite decide_False; [done|]. set_solver.
  - apply NoDup_cons in Hnd as [Hk Hnd].
    destruct (index_term_eff doc il f h k Hwf Hf) as (W1 & P1 & Q1).
    destruct (index_term_static doc il h k) as (S1 & S2 & S3 & S4 & S5 & S6 & _).
    destruct (IH (hm_index_term doc il h k) W1) as (W2 & (R1 & R2 & R3 & R4 & R5 & R6) & P2 & Q2); [by rewrite S1|done|].
    cbn zeta in *. split; [done|]. split; [repeat split; congruence|]. split; [auto|].
    intros f' t'. rewrite Q2, Q1.
    destruct (decide (f' = f /\ t' ∈ ks)) as [[-> H1]|H1].
    + rewrite (decide_False (P := f = f /\ t' = k)) by (intros [_ ->]; done).
      by rewrite decide_True by (split; [done|by right]).
    + destruct (decide (f' = f /\ t' = k)) as [[-> ->]|H2].
      * rewrite decide_True by (split; [done|left]). done.
      * rewrite decide_False; [done|]. intros [-> Hin]. apply elem_of_cons in Hin as [->|Hin]; tauto.
Qed.

Lemma index_field_eff f h : hwf h ->
  let '(h', il) := hm_index_field h f in
  hwf h' /\ hm_index h' !! f = Some il /\
  (hm_fdoc h' = hm_fdoc h /\ hm_tfs h' = hm_tfs h /\ hm_length h' = hm_length h /\
    hm_size h' = hm_size h /\ hm_nft h' = hm_nft h) /\
  (forall f' l, hm_index h !! f' = Some l -> hm_index h' !! f' = Some l) /\
  (forall f' t', hm_get_documents h' f' t' = hm_get_documents h f' t') /\ hm_sets h' = hm_sets h.
Proof.
  intros Hwf. unfold hm_index_field. destruct (hm_index h !! f) as [il|] eqn:E; [split; [exact Hwf|]; repeat split; auto|].
  assert (hm_imaps h !! hm_next h = None) as Hfr.
  { destruct (hm_imaps h !! hm_next h) eqn:E'; [|done]. exfalso.
    assert (hm_next h < hm_next h)%nat; [|lia]. apply (w_fresh1 h Hwf). eauto. }
  assert (forall f, hm_index h !! f <> Some (hm_next h)) as Hni.
  { intros f' H. destruct (w_index h Hwf _ _ H) as [im Him]. congruence. }
  cbn. split; [|split; [by rewrite lookup_insert|split; [done|split; [|split; [|done]]]]].
  - destruct Hwf as [A1 A2 A3 A4 A5 A6 A7 A8]. split; cbn; try done.
    + intros f' il'. rewrite lookup_insert_is_Some'. destruct (decide (f' = f)) as [->|Hne].
      * rewrite lookup_insert. intros [= <-]. by left.
      * rewrite lookup_insert_ne by done. intros H. right. eauto.
    + intros f1 f2 il'. destruct (decide (f1 = f)) as [->|H1], (decide (f2 = f)) as [->|H2]; rewrite ?lookup_insert, ?lookup_insert_ne by done.
      * done.
      * intros [= <-] H. by apply Hni in H.
      * intros H [= <-]. by apply Hni in H.
      * apply A2.
    + intros il' im t sl. destruct (decide (il' = hm_next h)) as [->|Hne].
      * rewrite lookup_insert. intros [= <-]. by rewrite lookup_empty.
      * rewrite lookup_insert_ne by done. apply A3.
    + intros il1 im1 t1 il2 im2 t2 sl. destruct (decide (il1 = hm_next h)) as [->|H1].
      * rewrite lookup_insert. intros [= <-]. by rewrite lookup_empty.
      * destruct (decide (il2 = hm_next h)) as [->|H2].
        -- rewrite lookup_insert. intros _ _ [= <-]. by rewrite lookup_empty.
        -- rewrite !lookup_insert_ne by done. apply A4.
    + intros l. rewrite lookup_insert_is_Some'. intros [<-|Hl]; [lia|specialize (A5 _ Hl); lia].
    + intros l Hl. specialize (A6 _ Hl). lia.
    + intros l Hl. specialize (A7 _ Hl). lia.
  - intros f' l Hl. rewrite lookup_insert_ne; [done|]. congruence.
  - intros f' t'. unfold hm_get_documents. cbn. destruct (decide (f' = f)) as [->|Hne].
    + rewrite lookup_insert, E. rewrite lookup_insert. cbn [from_option id]. by rewrite lookup_empty.
    + rewrite lookup_insert_ne by done. destruct (hm_index h !! f') as [il'|] eqn:E'; [|done].
      rewrite lookup_insert_ne; [done|]. intros <-. by apply Hni in E'.
Qed.

Lemma update_index_eff h doc fld ks : hwf h -> NoDup ks ->
  let h' := hm_update_index h doc fld ks in
  hwf h' /\
  hm_fdoc h' = hm_fdoc h /\ hm_tfs h' = hm_tfs h /\ hm_nft h' = hm_nft h /\
  hm_length h' = addi (hm_length h) (hf_name fld) (hf_length fld) /\
  hm_size h' = addi (hm_size h) (hf_name fld) 1 /\
  (forall f' l, hm_index h !! f' = Some l -> hm_index h' !! f' = Some l) /\
  (forall f' t' sl, hm_get_documents h f' t' = Some sl -> hm_get_documents h' f' t' = Some sl) /\
  (forall f' t', posting h' f' t' =
     if decide (f' = hf_name fld /\ t' ∈ ks) then Some (<[doc := true]> (default ∅ (posting h f' t'))) else posting h f' t').
Proof.
  intros Hwf Hnd. unfold hm_update_index. cbn zeta.
  set (h1 := mkHMem _ _ _ _ _ _ _ _ _).
  assert (hwf h1) as W1 by (destruct Hwf; by split).
  pose proof (index_field_eff (hf_name fld) h1 W1) as He.
  destruct (hm_index_field h1 (hf_name fld)) as [h2 il].
  destruct He as (W2 & Hf & (E1 & E2 & E3 & E4 & E5) & Hi & Hg & Hs).
  destruct (index_loop_eff doc il (hf_name fld) ks h2 W2 Hf Hnd) as (W3 & (R1 & R2 & R3 & R4 & R5 & R6) & P & Q).
  cbn zeta in *. set (h3 := fold_left _ ks h2) in *.
  split; [done|]. split; [by rewrite R2, E1|]. split; [by rewrite R3, E2|]. split; [by rewrite R6, E5|].
  split; [by rewrite R4, E3|]. split; [by rewrite R5, E4|]. split; [|split].
  - intros f' l Hl. rewrite R1. apply Hi. exact Hl.
  - intros f' t' sl Hl. apply P. rewrite Hg. exact Hl.
  - intros f' t'. rewrite Q.
    assert (posting h2 f' t' = posting h f' t') as ->; [|done].
    unfold posting. rewrite Hg, Hs. done.
Qed.

Lemma save_eff h doc fld ks1 ks2 : hwf h -> NoDup ks1 -> is_Some (hm_tfs h !! hf_tf fld) ->
  let h' := hm_save h doc fld ks1 ks2 in
  hwf h' /\ hm_tfs h' = hm_tfs h /\
  (forall d f, hm_get_field h' d f = if decide (d = doc /\ f = hf_name fld) then Some fld else hm_get_field h d f) /\
  hm_nft h' = <[hf_name fld := fold_left (fun ft t => addi ft t 1) ks2 (default ∅ (hm_nft h !! hf_name fld))]> (hm_nft h) /\
  hm_length h' = addi (hm_length h) (hf_name fld) (hf_length fld) /\
  hm_size h' = addi (hm_size h) (hf_name fld) 1 /\
  (forall f' l, hm_index h !! f' = Some l -> hm_index h' !! f' = Some l) /\
  (forall f' t' sl, hm_get_documents h f' t' = Some sl -> hm_get_documents h' f' t' = Some sl) /\
  (forall f' t', posting h' f' t' =
     if decide (f' = hf_name fld /\ t' ∈ ks1) then Some (<[doc := true]> (default ∅ (posting h f' t'))) else posting h f' t').
Proof.
  intros Hwf Hnd Htf. unfold hm_save. cbn zeta.
  set (h1 := mkHMem (hm_index h) (hm_imaps h) (hm_sets h)
     (<[doc := match hm_fdoc h !! doc with Some fi => <[hf_name fld := fld]> fi | None => {[ hf_name fld := fld ]} end]> (hm_fdoc h))
     (hm_tfs h) (hm_length h) (hm_size h) (hm_nft h) (hm_next h)).
  assert (hwf h1) as W1.
  { destruct Hwf as [A1 A2 A3 A4 A5 A6 A7 A8]. split; cbn; try done.
    intros d fd f fl. destruct (decide (d = doc)) as [->|Hne].
    - rewrite lookup_insert. intros [= <-]. destruct (decide (f = hf_name fld)) as [->|Hf].
      + destruct (hm_fdoc h !! doc); rewrite ?lookup_insert, ?lookup_singleton; intros [= <-]; done.
      + destruct (hm_fdoc h !! doc) as [fd|] eqn:E; [rewrite lookup_insert_ne by done; eauto|by rewrite lookup_singleton_ne].
    - rewrite lookup_insert_ne by done. eauto. }
  destruct (update_index_eff h1 doc fld ks1 W1 Hnd) as (W2 & E1 & E2 & E3 & E4 & E5 & Hi & Hg & Q).
  cbn zeta in *. set (h2 := hm_update_index h1 doc fld ks1) in *.
  split; [destruct W2; by split|]. cbn. split; [by rewrite E2|]. split.
  { intros d f. unfold hm_get_field. cbn. rewrite E1. cbn. destruct (decide (d = doc)) as [->|Hd].
    - rewrite lookup_insert. destruct (decide (f = hf_name fld)) as [->|Hf].
      + rewrite decide_True by done. destruct (hm_fdoc h !! doc); [by rewrite lookup_insert|by rewrite lookup_singleton].
      + rewrite decide_False by tauto. destruct (hm_fdoc h !! doc); [by rewrite lookup_insert_ne|by rewrite lookup_singleton_ne].
    - rewrite lookup_insert_ne by done. by rewrite decide_False by tauto. }
  split; [by rewrite E3|]. split; [by rewrite E4|]. split; [by rewrite E5|]. split; [exact Hi|]. split; [exact Hg|].
  intros f' t'. change (posting _ f' t') with (posting h2 f' t') at 1. rewrite Q. done.
Qed.

(** ** every step *)
Lemma hm_step_wf h e h' : hwf h -> hm_step h e h' -> hwf h'.
Proof.
  intros W [tf|doc fld ks1 ks2 Ht H1 H2|doc fld ks Ht H1|l x s Hs|l x s Hs|l t im Him|l k v tf Htf|l k tf Htf].
  - destruct W as [A1 A2 A3 A4 A5 A6 A7 A8]. split; cbn; try done.
    + intros l Hl. specialize (A5 _ Hl). lia.
    + intros l Hl. specialize (A6 _ Hl). lia.
    + intros l. rewrite lookup_insert_is_Some'. intros [<-|Hl]; [lia|specialize (A7 _ Hl); lia].
    + intros. rewrite lookup_insert_is_Some'. right. eauto.
  - apply save_eff; [done|by eapply range_order_NoDup|done].
  - apply update_index_eff; [done|by eapply range_order_NoDup].
  - destruct W as [A1 A2 A3 A4 A5 A6 A7 A8]. split; cbn; try done.
    + intros. rewrite lookup_insert_is_Some'. right. eauto.
    + intros l'. rewrite lookup_insert_is_Some'. intros [<-|Hl]; eauto.
  - destruct W as [A1 A2 A3 A4 A5 A6 A7 A8]. split; cbn; try done.
    + intros. rewrite lookup_insert_is_Some'. right. eauto.
    + intros l'. rewrite lookup_insert_is_Some'. intros [<-|Hl]; eauto.
  - destruct W as [A1 A2 A3 A4 A5 A6 A7 A8].
    assert (forall il im0 t0 sl, <[l:=delete t im]> (hm_imaps h) !! il = Some im0 -> im0 !! t0 = Some sl ->
      exists im1, hm_imaps h !! il = Some im1 /\ im1 !! t0 = Some sl) as Hc.
    { intros il im0 t0 sl. destruct (decide (il = l)) as [->|Hne].
      - rewrite lookup_insert. intros [= <-] H. exists im. split; [done|]. by apply lookup_delete_Some in H as [_ ?].
      - rewrite lookup_insert_ne by done. eauto. }
    split; cbn; try done.
    + intros. rewrite lookup_insert_is_Some'. right. eauto.
    + intros il im0 t0 sl H G. destruct (Hc _ _ _ _ H G) as (im1 & ? & ?). eauto.
    + intros il1 im1 t1 il2 im2 t2 sl H1 G1 H2 G2.
      destruct (Hc _ _ _ _ H1 G1) as (im1' & ? & ?), (Hc _ _ _ _ H2 G2) as (im2' & ? & ?). eauto.
    + intros l'. rewrite lookup_insert_is_Some'. intros [<-|Hl]; eauto.
  - destruct W as [A1 A2 A3 A4 A5 A6 A7 A8]. split; cbn; try done.
    + intros l'. rewrite lookup_insert_is_Some'. intros [<-|Hl]; eauto.
    + intros. rewrite lookup_insert_is_Some'. right. eauto.
  - destruct W as [A1 A2 A3 A4 A5 A6 A7 A8]. split; cbn; try done.
    + intros l'. rewrite lookup_insert_is_Some'. intros [<-|Hl]; eauto.
    + intros. rewrite lookup_insert_is_Some'. right. eauto.
Qed.
Lemma hm_run_wf h es h' : hwf h -> hm_run h es h' -> hwf h'.
Proof. intros W H. induction H as [|h e h1 es h2 Hs Hr IH]; [done|]. by apply IH, (hm_step_wf _ _ _ W Hs). Qed.

(** References stay attached. *)
Lemma hm_step_index_ref h e h' f l : hwf h -> hm_step h e h' -> hm_get_index h f = Some l -> hm_get_index h' f = Some l.
Proof.
  intros W [tf|doc fld ks1 ks2 Ht H1 H2|doc fld ks Ht H1|l' x s Hs|l' x s Hs|l' t im Him|l' k v tf Htf|l' k tf Htf] Hl; try exact Hl.
  - destruct (save_eff h doc fld ks1 ks2 W) as (_ & _ & _ & _ & _ & _ & Hi & _); [by eapply range_order_NoDup|done|]. by apply Hi.
  - destruct (update_index_eff h doc fld ks W) as (_ & _ & _ & _ & _ & _ & Hi & _); [by eapply range_order_NoDup|]. by apply Hi.
Qed.
Lemma hm_step_docs_ref h e h' f t l : hwf h -> hm_step h e h' -> hm_get_documents h f t = Some l ->
  hm_get_documents h' f t = Some l \/ (exists il, e = HIndexDelete il t /\ hm_get_index h f = Some il).
Proof.
  intros W [tf|doc fld ks1 ks2 Ht H1 H2|doc fld ks Ht H1|l' x s Hs|l' x s Hs|l' t' im Him|l' k v tf Htf|l' k tf Htf] Hl; try (left; exact Hl).
  - left. destruct (save_eff h doc fld ks1 ks2 W) as (_ & _ & _ & _ & _ & _ & _ & Hi & _); [by eapply range_order_NoDup|done|]. by apply Hi.
  - left. destruct (update_index_eff h doc fld ks W) as (_ & _ & _ & _ & _ & _ & _ & Hi & _); [by eapply range_order_NoDup|]. by apply Hi.
  - unfold hm_get_documents, hm_get_index in *. cbn. destruct (hm_index h !! f) as [il|] eqn:E; [|done].
    destruct (decide (l' = il)) as [->|Hne].
    + destruct (decide (t' = t)) as [->|Ht].
      * right. exists il. done.
      * left. rewrite lookup_insert. cbn [from_option id]. rewrite lookup_delete_ne by done. by rewrite Him in Hl.
    + left. by rewrite lookup_insert_ne.
Qed.

(** ** value semantics without client mutation *)
Definition hcall (h : hmem) (e : hevent) : list call :=
  match e with
  | HSave d fl => [Save d (mkField (hf_name fl) (hf_length fl) (tf_of h (hf_tf fl)))]
  | HIndex d fl => [Index d (mkField (hf_name fl) (hf_length fl) (tf_of h (hf_tf fl)))]
  | _ => []
  end.
Definition hvalue (h : hmem) (fl : hfield) : field := mkField (hf_name fl) (hf_length fl) (tf_of h (hf_tf fl)).
Record hsim (h : hmem) (m : memory) : Prop := {
  hs_docs : forall f t, posting h f t = mem_get_documents m f t;
  hs_fields : forall d f, hvalue h <$> hm_get_field h d f = fdoc_of m d f;
  hs_len : hm_length h = mm_length m;
  hs_siz : hm_size h = mm_size m;
  hs_nf : hm_nft h = mm_nft m
}.
Definition pure_event (e : hevent) : Prop :=
  match e with HNewTF _ | HSave _ _ | HIndex _ _ => True | _ => False end.

Lemma hsim_step h m e h' : hwf h -> hsim h m -> pure_event e -> hm_step h e h' ->
  exists m', mem_run m (hcall h e) m' /\ hsim h' m'.
Proof.
  intros W S Hp Hs.
  destruct Hs as [tf|doc fld ks1 ks2 Ht H1 H2|doc fld ks Ht H1|l' x s Hs|l' x s Hs|l' t' im Him|l' k v tf Htf|l' k tf Htf];
    cbn in Hp; try done.
  - exists m. split; [constructor|]. destruct S as [S1 S2 S3 S4 S5]. split; try done.
    intros d f. rewrite <- S2. change (hm_get_field (mkHMem _ _ _ _ _ _ _ _ _) d f) with (hm_get_field h d f).
    destruct (hm_get_field h d f) as [fl|] eqn:E; [|done]. cbn. f_equal. unfold hvalue. f_equal.
    unfold tf_of. cbn. rewrite lookup_insert_ne; [done|]. intros Hn.
    assert (is_Some (hm_tfs h !! hf_tf fl)) as Hk.
    { unfold hm_get_field in E. destruct (hm_fdoc h !! d) as [fd|] eqn:E2; [|done]. by eapply (w_fields h W). }
    rewrite <- Hn in Hk. apply (w_fresh3 h W) in Hk. lia.
  - pose proof (save_eff h doc fld ks1 ks2 W (range_order_NoDup _ _ H1) Ht) as (W' & E1 & E2 & E3 & E4 & E5 & _ & _ & Q).
    set (vf := hvalue h fld). assert (mem_step m (Save doc vf) (mem_save m doc vf ks1 ks2)) as Hm.
    { by constructor. }
    exists (mem_save m doc vf ks1 ks2). split; [econstructor; [exact Hm|constructor]|].
    destruct S as [S1 S2 S3 S4 S5]. split.
    + intros f t. rewrite Q. rewrite (mem_docs_step _ _ _ f t Hm), S1.
      cbn [call_doc]. unfold for_field, has_term, upd_docs. cbn [call_field vf hvalue f_name f_tf].
      pose proof (range_order_elem _ _ t H1) as Hin.
      destruct (String.eqb_spec (hf_name fld) f) as [->|Hne]; cbn [andb].
      * destruct (tf_of h (hf_tf fld) !! t) eqn:E.
        -- rewrite decide_True; [done|]. split; [done|]. apply Hin. eauto.
        -- rewrite decide_False; [done|]. intros [_ Hk]. apply Hin in Hk as [? ?]. done.
      * rewrite decide_False; [done|]. intros [? _]. congruence.
    + intros d f. rewrite E2. rewrite (mem_fdoc_step _ _ _ d f Hm). cbn [is_save andb call_doc]. unfold for_field. cbn [call_field].
      change (f_name vf) with (hf_name fld).
      destruct (String.eqb_spec doc d) as [->|Hd]; cbn [andb].
      * destruct (String.eqb_spec (hf_name fld) f) as [->|Hf].
        -- rewrite decide_True by done. cbn. unfold vf, hvalue, tf_of. by rewrite E1.
        -- rewrite decide_False by (intros [_ ?]; congruence). rewrite <- S2. unfold hvalue, tf_of. by rewrite E1.
      * rewrite decide_False by (intros [? _]; congruence). rewrite <- S2. unfold hvalue, tf_of. by rewrite E1.
    + rewrite E4, S3. done.
    + rewrite E5, S4. done.
    + rewrite E3, S5. done.
  - pose proof (update_index_eff h doc fld ks W (range_order_NoDup _ _ H1)) as (W' & E1 & E2 & E3 & E4 & E5 & _ & _ & Q).
    set (vf := hvalue h fld). assert (mem_step m (Index doc vf) (mem_update_index m doc vf ks)) as Hm.
    { by constructor. }
    exists (mem_update_index m doc vf ks). split; [econstructor; [exact Hm|constructor]|].
    destruct S as [S1 S2 S3 S4 S5]. split.
    + intros f t. rewrite Q. rewrite (mem_docs_step _ _ _ f t Hm), S1.
      cbn [call_doc]. unfold for_field, has_term, upd_docs. cbn [call_field vf hvalue f_name f_tf].
      pose proof (range_order_elem _ _ t H1) as Hin.
      destruct (String.eqb_spec (hf_name fld) f) as [->|Hne]; cbn [andb].
      * destruct (tf_of h (hf_tf fld) !! t) eqn:E.
        -- rewrite decide_True; [done|]. split; [done|]. apply Hin. eauto.
        -- rewrite decide_False; [done|]. intros [_ Hk]. apply Hin in Hk as [? ?]. done.
      * rewrite decide_False; [done|]. intros [? _]. congruence.
    + intros d f. rewrite (mem_fdoc_step _ _ _ d f Hm). cbn [is_save andb]. rewrite <- S2.
      unfold hm_get_field, hvalue, tf_of. by rewrite E1, E2.
    + rewrite E4, S3. done.
    + rewrite E5, S4. done.
    + rewrite E3, S5. done.
Qed.

(** The calls of an execution, with the TF contents at call time. *)
Inductive hm_calls : hmem -> list hevent -> list call -> hmem -> Prop :=
| hc_nil h : hm_calls h [] [] h
| hc_cons h e h1 es cs h2 : hm_step h e h1 -> hm_calls h1 es cs h2 -> hm_calls h (e :: es) (hcall h e ++ cs) h2.
Lemma hm_run_calls h es h' : hm_run h es h' -> exists cs, hm_calls h es cs h'.
Proof.
  induction 1 as [h|h e h1 es h2 Hs Hr (cs & IH)]; [eexists; constructor|]. eexists. econstructor; eassumption.
Qed.
Lemma hsim_run h m es cs h' : hwf h -> hsim h m -> Forall pure_event es -> hm_calls h es cs h' ->
  exists m', mem_run m cs m' /\ hsim h' m'.
Proof.
  intros W S F H. revert m W S F. induction H as [h|h e h1 es cs h2 Hs Hr IH]; intros m W S F.
  - exists m. split; [constructor|done].
  - apply Forall_cons in F as [Fe F]. destruct (hsim_step _ _ _ _ W S Fe Hs) as (m1 & R1 & S1).
    destruct (IH m1) as (m2 & R2 & S2); [by eapply hm_step_wf|done|done|].
    exists m2. split; [|done]. apply mem_run_app. eauto.
Qed.
Lemma hsim_new : hsim hm_new mem_new.
Proof. split; try done. Qed.
