From Verif Require Import Base M_LRU S_LRU P_Base P_Ring P_LRU P_LRUHist.
#[local] Open Scope Z_scope.

Lemma list_refines (T : Type) cap os (s : lru T) l : list_run (lru_new cap) os s l ->
  (forall n, (length l <= n)%nat ->
     forward n (lr_ring s) = l /\ backward n (lr_ring s) = rev l /\
     NoDup l /\ lr_len s = Z.of_nat (length l)) /\
  (forall o, exists s', list_exec s o = Some s').
Proof.
  intros H. split.
  - by eapply list_run_traversals.
  - intros o. by eapply list_run_progress.
Qed.

Lemma run_put' {T} cap h h' (s : lru T) k v s' :
  lru_run cap h s -> lru_put s k v = Some s' -> h' = h ++ [EPut k v] -> lru_run cap h' s'.
Proof. intros ? ? ->. by eapply run_put. Qed.
Lemma run_hit' {T} cap h h' (s : lru T) k v s' e :
  lru_run cap h s -> lru_get s k = Some (s', Some e) -> lru_deref s' e = Some v ->
  h' = h ++ [EHit k v] -> lru_run cap h' s'.
Proof. intros ? ? ? ->. by eapply run_hit. Qed.
Lemma run_miss' {T} cap h h' (s : lru T) k s' :
  lru_run cap h s -> lru_get s k = Some (s', None) -> h' = h ++ [EMiss k] -> lru_run cap h' s'.
Proof. intros ? ? ->. by eapply run_miss. Qed.

Lemma lru_example :
  exists s, lru_run 2 [EPut "a" 1; EPut "b" 2; EHit "a" 1; EPut "c" 3; EMiss "b"]%string s /\
  recently_used 2 [EPut "a" 1; EPut "b" 2; EHit "a" 1; EPut "c" 3; EMiss "b"]%string "a"%string.
Proof.
  eexists. split.
  - eapply (run_miss' 2 [EPut "a" 1; EPut "b" 2; EHit "a" 1; EPut "c" 3]%string _ _ "b").
    1: eapply (run_put' 2 [EPut "a" 1; EPut "b" 2; EHit "a" 1]%string _ _ "c" 3).
    1: eapply (run_hit' 2 [EPut "a" 1; EPut "b" 2]%string _ _ "a" 1).
    1: eapply (run_put' 2 [EPut "a" 1]%string _ _ "b" 2).
    1: eapply (run_put' 2 [] _ _ "a" 1).
    1: apply run_nil.
    all: vm_compute; reflexivity.
  - apply recently_used_recency; [lia|]. vm_compute. right. left.
Qed.

Lemma list_run_snoc' {T} (s0 : lru T) os os' o s l s' l' :
  list_run s0 os s l -> list_exec s o = Some s' -> os' = os ++ [o] -> l' = list_spec l (lr_next s) o ->
  list_run s0 os' s' l'.
Proof. intros ? ? -> ->. by apply list_run_snoc. Qed.
Lemma list_example : exists s : lru Z,
  list_run (lru_new 5) [LPush "a" 1; LPush "b" 2; LPush "c" 3; LFront 1; LRemove 2]%string s [1; 3]%nat.
Proof.
  eexists.
  eapply (list_run_snoc' _ [LPush "a" 1; LPush "b" 2; LPush "c" 3; LFront 1]%string _ (LRemove 2) _ [1; 3; 2]%nat).
  1: eapply (list_run_snoc' _ [LPush "a" 1; LPush "b" 2; LPush "c" 3]%string _ (LFront 1) _ [3; 2; 1]%nat).
  1: eapply (list_run_snoc' _ [LPush "a" 1; LPush "b" 2]%string _ (LPush "c" 3) _ [2; 1]%nat).
  1: eapply (list_run_snoc' _ [LPush "a" 1]%string _ (LPush "b" 2) _ [1]%nat).
  1: eapply (list_run_snoc' _ [] _ (LPush "a" 1) _ []).
  1: apply list_run_nil.
  all: vm_compute; reflexivity.
Qed.

(** One step by the first, resp. second, of two goroutines. *)
Lemma step_a {T} (s : lru T) r' e f l t :
  f (lr_ring s) = Some r' -> par_step (s, [TMove e (f :: l); t]) (with_ring s r', [TMove e l; t]).
Proof. apply (par_run s r' e f l [] [t]). Qed.
Lemma step_b {T} (s : lru T) r' e f l t :
  f (lr_ring s) = Some r' -> par_step (s, [t; TMove e (f :: l)]) (with_ring s r', [t; TMove e l]).
Proof. apply (par_run s r' e f l [t] []). Qed.
Lemma start_a {T} (s : lru T) k e t :
  lr_table s !! k = Some e -> e ∈ lr_owned s -> nx (lr_ring s) !! root <> Some e ->
  par_step (s, [TGet k; t]) (s, [TMove e (move_stmts e root); t]).
Proof.
  intros H1 H2 H3. pose proof (par_start s k e [] [t] H1) as H.
  rewrite (bool_decide_false (e ∉ _)) in H by auto. rewrite (bool_decide_false (_ = Some e)) in H by done.
  exact H.
Qed.
Lemma start_b {T} (s : lru T) k e t :
  lr_table s !! k = Some e -> e ∈ lr_owned s -> nx (lr_ring s) !! root <> Some e ->
  par_step (s, [t; TGet k]) (s, [t; TMove e (move_stmts e root)]).
Proof.
  intros H1 H2 H3. pose proof (par_start s k e [t] [] H1) as H.
  rewrite (bool_decide_false (e ∉ _)) in H by auto. rewrite (bool_decide_false (_ = Some e)) in H by done.
  exact H.
Qed.

Lemma concurrent_gets_corrupt :
  exists (h : list (lru_event Z)) s s' k v e,
    lru_run 2 h s /\
    rtc par_step (s, [TGet k; TGet k]) (s', [TMove e []; TMove e []]) /\
    forward 10 (lr_ring s') <> rev (backward 10 (lr_ring s')) /\
    lru_put s' v 3 = None.
Proof.
  eexists [EPut "a" 1; EPut "b" 2]%string, _, _, "a"%string, "c"%string, 1%nat. split; [|split].
  - eapply (run_put' 2 [EPut "a" 1]%string _ _ "b" 2).
    1: eapply (run_put' 2 [] _ _ "a" 1).
    1: apply run_nil.
    all: vm_compute; reflexivity.
  - eapply rtc_l; [apply (start_a _ "a"%string 1%nat);
      [vm_compute; reflexivity|eapply (bool_decide_eq_true_1 _); vm_compute; reflexivity|vm_compute; discriminate]|].
    eapply rtc_l; [apply (start_b _ "a"%string 1%nat);
      [vm_compute; reflexivity|eapply (bool_decide_eq_true_1 _); vm_compute; reflexivity|vm_compute; discriminate]|].
    unfold move_stmts.
    (* schedule a a b a b a b b a a b b *)
    eapply rtc_l; [eapply step_a; vm_compute; reflexivity|].
    eapply rtc_l; [eapply step_a; vm_compute; reflexivity|].
    eapply rtc_l; [eapply step_b; vm_compute; reflexivity|].
    eapply rtc_l; [eapply step_a; vm_compute; reflexivity|].
    eapply rtc_l; [eapply step_b; vm_compute; reflexivity|].
    eapply rtc_l; [eapply step_a; vm_compute; reflexivity|].
    eapply rtc_l; [eapply step_b; vm_compute; reflexivity|].
    eapply rtc_l; [eapply step_b; vm_compute; reflexivity|].
    eapply rtc_l; [eapply step_a; vm_compute; reflexivity|].
    eapply rtc_l; [eapply step_a; vm_compute; reflexivity|].
    eapply rtc_l; [eapply step_b; vm_compute; reflexivity|].
    eapply rtc_l; [eapply step_b; vm_compute; reflexivity|].
    apply rtc_refl.
  - split.
    + vm_compute. discriminate.
    + vm_compute. reflexivity.
Qed.

Lemma single_inv {T} (s : lru T) t s' ts' : par_step (s, [t]) (s', ts') ->
  (exists k e, t = TGet k /\ lr_table s !! k = Some e /\ s' = s /\
     ts' = [TMove e (if bool_decide (e ∉ lr_owned s) || bool_decide (nx (lr_ring s) !! root = Some e)
                     then [] else move_stmts e root)]) \/
  (exists e f l r', t = TMove e (f :: l) /\ f (lr_ring s) = Some r' /\ s' = with_ring s r' /\ ts' = [TMove e l]).
Proof.
  intros H. remember (s, [t]) as x eqn:E1. remember (s', ts') as y eqn:E2.
  destruct H as [s0 key e ts1 ts2 Ht|s0 r' e f l ts1 ts2 Hf].
  - destruct ts1 as [|t1 ts1]; cbn [app] in *; [|destruct ts1; discriminate].
    injection E1 as -> <- ->. injection E2 as <- <-. left. exists key, e. done.
  - destruct ts1 as [|t1 ts1]; cbn [app] in *; [|destruct ts1; discriminate].
    injection E1 as -> <- ->. injection E2 as <- <-. right. exists e, f, l, r'. done.
Qed.
Lemma single_run {T} (s s' : lru T) e l e' : rtc par_step (s, [TMove e l]) (s', [TMove e' []]) ->
  e' = e /\ exists r', run_stmts l (lr_ring s) = Some r' /\ s' = with_ring s r'.
Proof.
  revert s. induction l as [|f l IH]; intros s H.
  - apply rtc_inv in H as [E|(y & H1 & _)].
    + injection E as <- <-. split; [done|]. exists (lr_ring s). split; [done|]. by destruct s.
    + destruct y as [s1 ts1]. apply single_inv in H1 as [(?&?&?&_)|(?&?&?&?&?&_)]; discriminate.
  - apply rtc_inv in H as [E|(y & H1 & H2)]; [discriminate|].
    destruct y as [s1 ts1]. apply single_inv in H1 as [(?&?&?&_)|(e0&f0&l0&r0&E&Hf&->&->)]; [discriminate|].
    injection E as <- <- <-. apply IH in H2 as [-> (r' & Hr & ->)]. split; [done|].
    exists r'. cbn [run_stmts]. rewrite Hf. split; [exact Hr|]. done.
Qed.
Lemma sequential_get_safe (T : Type) cap (h : list (lru_event T)) s k s' e : 0 < cap -> lru_run cap h s ->
  rtc par_step (s, [TGet k]) (s', [TMove e []]) -> lru_get s k = Some (s', Some e).
Proof.
  intros Hcap Hrun H. apply rtc_inv in H as [E|(y & H1 & H2)]; [discriminate|].
  destruct y as [s1 ts1]. apply single_inv in H1 as [(k0&e0&E&Ht&->&->)|(?&?&?&?&?&_)]; [|discriminate].
  injection E as <-. unfold lru_get. rewrite Ht. unfold move_to_front.
  apply single_run in H2 as [-> (r' & Hr & ->)].
  destruct (bool_decide (e0 ∉ lr_owned s) || bool_decide (nx (lr_ring s) !! root = Some e0)).
  - injection Hr as <-. by destruct s.
  - by rewrite Hr.
Qed.
