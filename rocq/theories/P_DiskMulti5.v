(** Concurrent calls on the disk storage: the maps behave as in M_Concurrent (C66). *)
From Verif Require Import Base M_Field M_LRU S_Visits M_Memory M_File M_Serialize M_Num M_FanIn M_Search M_Concurrent M_SearchConc M_Disk M_DiskBusy M_DiskMulti P_Base P_File S_Concurrent S_Disk P_DiskInv P_DiskIndex3 S_DiskMulti.

Definition thread_of (th : tpc * msg * list call) : tpc * list call := (th.1.1, th.2).
(** The goroutines, and the requests still to come. *)
Definition conc_of (a : multi) (rest : list (list call)) (log : list call) : conc :=
  mkConc (mu_sh a) (map thread_of (mu_threads a) ++ map (fun cs => (TIdle, cs)) rest) log.
Lemma map_list_insert {A B} (f : A -> B) l i x : map f (<[i := x]> l) = <[i := f x]> (map f l).
Proof. exact (list_fmap_insert f l i x). Qed.
Lemma map_lookup {A B} (f : A -> B) l i : map f l !! i = f <$> l !! i.
Proof. exact (list_lookup_fmap f l i). Qed.

Section proj.
  Variables (compress : bytes -> bytes) (decompress : bytes -> option bytes) (cache_size : Z).
  Notation live := (multi_live compress decompress cache_size).

  Lemma proj_step a b u rest : live a b -> mu_open a u ->
    (exists u', mu_open b u') /\
    exists rest' h, (forall log, rtc (conc_step true) (conc_of a rest' log) (conc_of b rest (log ++ h))) /\ calls_of (mu_log b) = calls_of (mu_log a) ++ h.
  Proof.
    unfold mu_open, mu_log. intros H Hu. inversion H; subst; cbn [mu_sys y_proc y_log] in *.
    - match goal with K : live_step _ _ _ _ _, K2 : forall u, _ <> Up u |- _ => inversion K; subst; cbn in *; try congruence; by edestruct K2 end.
    - congruence.
    - split; [by eexists|]. exists rest, []. split; [intros log; by rewrite app_nil_r|]. rewrite app_nil_r.
      match goal with K : live_step _ _ _ _ _ |- _ => inversion K; subst; cbn [y_proc y_log] in *; try congruence end.
      + rewrite calls_app. match goal with K : up_step _ _ _ _ _ |- _ => destruct (up_ev _ _ _ _ _ _ _ K) as [-> _] end. by rewrite app_nil_r.
      + match goal with K : Up _ = Up _, K1 : up_call _ _ _ |- _ => injection K as ->; inversion K1; subst end; cbn in *; try congruence.
        all: match goal with K1 : Up _ = Up ?v, K2 : u_pc ?v = _ |- _ => injection K1 as <-; done end.
    - split; [by eexists|]. exists (cs :: rest), []. split; [|by rewrite app_nil_r]. intros log0. rewrite app_nil_r. unfold conc_of. cbn [mu_sh mu_threads]. rewrite map_app, <- app_assoc. done.
    - split; [by eexists|]. exists rest, [c]. split; [|by rewrite calls_app]. intros log0. apply rtc_once. unfold conc_of. cbn [mu_sh mu_threads].
      match goal with K : ths !! i = _ |- _ => rename K into Ti end. rewrite map_list_insert, <- insert_app_l by (rewrite map_length; by eapply lookup_lt_Some).
      apply cs_call. rewrite lookup_app_l by (rewrite map_length; by eapply lookup_lt_Some). rewrite map_lookup, Ti. done.
    - split; [by eexists|]. match goal with K : ths !! i = _ |- _ => rename K into Ti end. match goal with K : client_step _ _ _ |- _ => rename K into St end.
      assert (calls_of ev = []) as Ev by (inversion St; subst; done). exists rest, []. split; [|by rewrite calls_app, Ev]. intros log0. rewrite app_nil_r. unfold conc_of. cbn [mu_sh mu_threads].
      destruct th as [pc m], th' as [pc' m'].
      assert (map thread_of ths !! i = Some (pc, cs)) as Ti' by (rewrite map_lookup, Ti; done).
      rewrite map_list_insert. cbn [thread_of fst snd].
      assert ((sh' = sh /\ pc' = pc) \/ t_step (sh, pc) (sh', pc')) as [[-> ->]|Ts].
      { inversion St; subst; auto. }
      + rewrite list_insert_id by done. apply rtc_refl.
      + apply rtc_once. rewrite <- insert_app_l by (by eapply lookup_lt_Some). eapply cs_step; [|exact Ts]. by apply lookup_app_l_Some.
    - split; [by eexists|]. exists rest, []. split; [intros log0; by rewrite app_nil_r|by rewrite app_nil_r].
    - split; [by eexists|]. exists rest, []. split; [intros log0; by rewrite app_nil_r|by rewrite app_nil_r].
  Qed.
  Lemma proj_run a b u rest : rtc live a b -> mu_open a u ->
    (exists u', mu_open b u') /\
    exists rest' h, (forall log, rtc (conc_step true) (conc_of a rest' log) (conc_of b rest (log ++ h))) /\ calls_of (mu_log b) = calls_of (mu_log a) ++ h.
  Proof.
    intros H. revert u. induction H as [a|a b c Hab _ IH]; intros u Hu.
    - split; [by eexists|]. exists rest, []. split; [intros log; by rewrite app_nil_r|by rewrite app_nil_r].
    - destruct (proj_step a b u [] Hab Hu) as [[u' Hu'] _]. destruct (IH u' Hu') as (Hc & rest1 & h1 & R1 & E1). split; [done|].
      destruct (proj_step a b u rest1 Hab Hu) as (_ & rest2 & h2 & R2 & E2). exists rest2, (h2 ++ h1). split; [|by rewrite E1, E2, app_assoc].
      intros log. etransitivity; [apply R2|]. rewrite app_assoc. apply R1.
  Qed.
  (** A session: from the moment the store is open and no request has arrived. *)
  Lemma session_conc a b u : rtc live a b -> mu_open a u -> mu_threads a = [] ->
    (exists u', mu_open b u') /\ exists progs h y, rtc (conc_step true) (conc_start (mu_sh a) progs) y /\ cs_sh y = mu_sh b /\ cs_threads y = map thread_of (mu_threads b) /\
      cs_log y = h /\ calls_of (mu_log b) = calls_of (mu_log a) ++ h.
  Proof.
    intros H Hu Ht. destruct (proj_run a b u [] H Hu) as (Ho & rest & h & R & E). split; [done|]. exists rest, h, (conc_of b [] h).
    specialize (R []). unfold conc_of in R at 1. rewrite Ht in R. cbn in R. split; [exact R|]. unfold conc_of. cbn. by rewrite app_nil_r.
  Qed.
End proj.
