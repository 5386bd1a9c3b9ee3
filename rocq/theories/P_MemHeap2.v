From Verif Require Import Base M_Field M_Memory S_Memory M_MemHeap P_Base P_Memory P_Memory2 P_MemHeap.
#[local] Open Scope Z_scope.

Lemma heap_value_semantics es cs h : hm_calls hm_new es cs h -> Forall pure_event es ->
  exists m, mem_run mem_new cs m /\
  (forall f t, posting h f t = mem_get_documents m f t) /\
  (forall ids d f, mem_get_fields m ids f !! d = if decide (d ∈ ids) then hvalue h <$> hm_get_field h d f else None) /\
  hm_length h = mm_length m /\ hm_size h = mm_size m /\ hm_nft h = mm_nft m.
Proof.
  intros H F. destruct (hsim_run _ _ _ _ _ hwf_new hsim_new F H) as (m & R & [S1 S2 S3 S4 S5]).
  exists m. split; [done|]. split; [done|]. split; [|done].
  intros ids d f. rewrite mem_get_fields_lookup. by rewrite S2.
Qed.

Definition keeps_term (t : string) (e : hevent) : Prop := match e with HIndexDelete _ t' => t' <> t | _ => True end.
Lemma heap_docs_live es1 h1 es2 h2 f t l : hm_run hm_new es1 h1 -> hm_get_documents h1 f t = Some l ->
  hm_run h1 es2 h2 -> Forall (keeps_term t) es2 ->
  hm_get_documents h2 f t = Some l /\ posting h2 f t = hm_sets h2 !! l /\ is_Some (hm_sets h2 !! l).
Proof.
  intros H1 Hl H2 F. pose proof (hm_run_wf _ _ _ hwf_new H1) as W1.
  assert (hm_get_documents h2 f t = Some l /\ hwf h2) as [E W2].
  { clear H1. revert W1 Hl F. induction H2 as [h|h e h1 es h2 Hs Hr IH]; intros W Hl F; [done|].
    apply Forall_cons in F as [Fe F]. apply IH; [by eapply hm_step_wf| |done].
    destruct (hm_step_docs_ref _ _ _ _ _ _ W Hs Hl) as [?|(il & -> & _)]; [done|]. by cbn in Fe. }
  split; [done|]. unfold posting. rewrite E. split; [done|].
  unfold hm_get_documents in E. destruct (hm_index h2 !! f) as [il|] eqn:Ei; [|done].
  destruct (w_index _ W2 _ _ Ei) as [im Him]. rewrite Him in E. by eapply (w_sets _ W2).
Qed.
Lemma heap_index_live es1 h1 es2 h2 f l : hm_run hm_new es1 h1 -> hm_get_index h1 f = Some l ->
  hm_run h1 es2 h2 -> hm_get_index h2 f = Some l.
Proof.
  intros H1 Hl H2. pose proof (hm_run_wf _ _ _ hwf_new H1) as W1. clear H1. revert W1 Hl.
  induction H2 as [h|h e h1 es h2 Hs Hr IH]; intros W Hl; [done|].
  apply IH; [by eapply hm_step_wf|]. by eapply hm_step_index_ref.
Qed.

Lemma heap_set_mutation es h f t l x h' s : hm_run hm_new es h -> hm_get_documents h f t = Some l ->
  hm_sets h !! l = Some s ->
  (hm_step h (HSetAdd l x) h' -> posting h' f t = Some (<[x := true]> s)) /\
  (hm_step h (HSetRemove l x) h' -> posting h' f t = Some (delete x s)) /\
  (hm_step h (HSetAdd l x) h' \/ hm_step h (HSetRemove l x) h' ->
     (forall f' t', (f', t') <> (f, t) -> posting h' f' t' = posting h f' t') /\
     (forall d g, hvalue h' <$> hm_get_field h' d g = hvalue h <$> hm_get_field h d g) /\
     hm_length h' = hm_length h /\ hm_size h' = hm_size h /\ hm_nft h' = hm_nft h).
Proof.
  intros Hr Hl Hs. pose proof (hm_run_wf _ _ _ hwf_new Hr) as W.
  assert (forall v f' t', (f', t') <> (f, t) ->
     match hm_get_documents h f' t' with Some sl => <[l := v]> (hm_sets h) !! sl | None => None end = posting h f' t') as Hfr.
  { intros v f' t' Hne. unfold posting. destruct (hm_get_documents h f' t') as [sl|] eqn:E; [|done].
    rewrite lookup_insert_ne; [done|]. intros <-. apply Hne.
    unfold hm_get_documents in *. destruct (hm_index h !! f) as [il|] eqn:Ei; [|done].
    destruct (hm_index h !! f') as [il'|] eqn:Ei'; [|done].
    destruct (w_index _ W _ _ Ei) as [im Him], (w_index _ W _ _ Ei') as [im' Him']. rewrite Him in Hl. rewrite Him' in E.
    destruct (w_slots _ W _ _ _ _ _ _ _ Him Hl Him' E) as [<- <-]. f_equal. by eapply (w_inj _ W). }
  split; [|split].
  - intros H. inversion H as [| | |? ? s' Hs'| | | |]; subst. rewrite Hs in Hs'. injection Hs' as <-.
    unfold posting. change (hm_get_documents (mkHMem _ _ _ _ _ _ _ _ _) f t) with (hm_get_documents h f t). rewrite Hl. cbn.
    by rewrite lookup_insert.
  - intros H. inversion H as [| | | |? ? s' Hs'| | |]; subst. rewrite Hs in Hs'. injection Hs' as <-.
    unfold posting. change (hm_get_documents (mkHMem _ _ _ _ _ _ _ _ _) f t) with (hm_get_documents h f t). rewrite Hl. cbn.
    by rewrite lookup_insert.
  - intros [H|H].
    + inversion H as [| | |? ? s' Hs'| | | |]; subst. split; [|done]. intros f' t' Hne. by apply (Hfr (<[x:=true]> s')).
    + inversion H as [| | | |? ? s' Hs'| | |]; subst. split; [|done]. intros f' t' Hne. by apply (Hfr (delete x s')).
Qed.

Lemma heap_tf_mutation h e h' : hm_step h e h' -> (exists l k v, e = HTFPut l k v) \/ (exists l k, e = HTFDelete l k) ->
  (forall f t, posting h' f t = posting h f t) /\
  (forall d f, hm_get_field h' d f = hm_get_field h d f) /\
  hm_length h' = hm_length h /\ hm_size h' = hm_size h /\ hm_nft h' = hm_nft h /\
  (forall fl, (forall l k v, e = HTFPut l k v -> hf_tf fl = l -> hvalue h' fl = mkField (hf_name fl) (hf_length fl) (<[k := v]> (tf_of h l)))) /\
  (forall fl, (forall l k, e = HTFDelete l k -> hf_tf fl = l -> hvalue h' fl = mkField (hf_name fl) (hf_length fl) (delete k (tf_of h l)))).
Proof.
  intros H He. destruct He as [(l & k & v & ->)|(l & k & ->)].
  - inversion H as [| | | | | |? ? ? tf Htf|]; subst. repeat split; try done.
    intros fl l' k' v' [= <- <- <-] E. unfold hvalue, tf_of. cbn. rewrite E, lookup_insert, Htf. done.
  - inversion H as [| | | | | | |? ? tf Htf]; subst. repeat split; try done.
    intros fl l' k' [= <- <-] E. unfold hvalue, tf_of. cbn. rewrite E, lookup_insert, Htf. done.
Qed.
