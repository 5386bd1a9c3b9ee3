(** A request handled while nothing else is in progress (C69): its calls are made one after
    the other. *)
From Verif Require Import Base M_Text M_Language M_Field M_LRU S_Visits M_Memory M_File M_Serialize M_Num M_FanIn M_Search M_Concurrent M_SearchConc M_Disk P_Base P_DiskBase P_DiskInv P_DiskMem P_DiskIndex P_DiskIndex2 P_DiskBusy5 P_DiskMulti M_DiskBusy M_DiskMulti M_Standard M_Server M_BusyServer M_MultiServer S_Search S_Server S_Concurrent S_Disk S_DiskMulti S_DiskQuery S_DiskQuery2 S_MultiServer P_DiskFrozen P_DiskKept P_DiskKept2.
#[local] Open Scope nat_scope.

Section alone.
  Variables (compress : bytes -> bytes) (decompress : bytes -> option bytes) (cache_size : Z).
  Notation live := (multi_live compress decompress cache_size).
  Notation session := (mu_session compress decompress cache_size).
  (** What a step does to the history and to the goroutines. *)
  Lemma live_cases a b u : live a b -> mu_open a u ->
    (exists e, mu_log b = mu_log a ++ e /\ S_Disk.calls_of e = [] /\ mu_threads b = mu_threads a) \/
    (exists cs, mu_log b = mu_log a /\ mu_threads b = mu_threads a ++ [(TIdle, NoMsg, cs)]) \/
    (exists i c cs, mu_threads a !! i = Some (TIdle, NoMsg, c :: cs) /\ mu_log b = mu_log a ++ [ECall c] /\ mu_threads b = <[i := (t_enter true c, NoMsg, cs)]> (mu_threads a)) \/
    (exists i th th' cs e, mu_threads a !! i = Some (th, cs) /\ th <> (TIdle, NoMsg) /\ mu_threads b = <[i := (th', cs)]> (mu_threads a) /\ mu_log b = mu_log a ++ e /\ S_Disk.calls_of e = []).
  Proof.
    intros H Hu. unfold mu_open in Hu. inversion H; subst; unfold mu_log; cbn [mu_sys mu_threads y_proc y_log] in *.
    - exfalso. match goal with K : live_step _ _ _ _ _, K2 : forall u, _ <> Up u |- _ => inversion K; subst; cbn [y_proc] in *; try congruence; by eapply K2 end.
    - congruence.
    - left. match goal with K : live_step _ _ _ _ _ |- _ => rename K into St end. inversion St; subst; cbn [y_proc y_log] in *; try congruence.
      + eexists. split; [done|]. split; [|done]. match goal with K : up_step _ _ _ _ _ |- _ => clear -K; inversion K; subst; try done end. unfold nft_event. by destruct (w_pc nw) as [| | | |? ? ? []].
      + exists []. by rewrite app_nil_r.
      + eexists. split; [done|]. split; [|done]. match goal with K : up_call _ _ _ |- _ => inversion K; subst; try done end; cbn in *; match goal with K : Up _ = Up _ |- _ => injection K as <- end; done.
    - right. left. by eexists.
    - right. right. left. by eexists _, _, _.
    - right. right. right. match goal with K : client_step _ _ _ |- _ => rename K into St end. exists i, th, th', cs, ev. split; [done|]. split; [intros ->; by eapply idle_stuck|]. split; [done|]. split; [done|]. by inversion St; subst.
    - left. exists []. by rewrite app_nil_r.
    - left. exists []. by rewrite app_nil_r.
  Qed.
  Variable j : nat.
  (** Only the goroutine number [j] has work to do. *)
  Definition only (a : multi) : Prop := (forall i th, mu_threads a !! i = Some th -> i <> j -> th = (TIdle, NoMsg, [])) /\ j <= length (mu_threads a).
  Lemma live_threads a b u : live a b -> mu_open a u -> length (mu_threads a) <= length (mu_threads b).
  Proof.
    intros H Hu. destruct (live_cases a b u H Hu) as [(e & _ & _ & ->)|[(cs & _ & ->)|[(i & c & cs & _ & _ & ->)|(i & th & th' & cs & e & _ & _ & -> & _)]]]; rewrite ?insert_length, ?app_length; lia.
  Qed.
  Lemma session_threads a b : session a b -> length (mu_threads a) <= length (mu_threads b).
  Proof. intros H. induction H as [|a b c [Hab [u Ho]] _ IH]; [done|]. pose proof (live_threads _ _ _ Hab Ho). lia. Qed.
  Lemma only_step a b u : live a b -> mu_open a u -> only a -> length (mu_threads b) <= S j -> only b.
  Proof.
    intros H Hu [O1 O2] Hl. pose proof (live_threads _ _ _ H Hu) as Hm. split; [|lia]. destruct (live_cases a b u H Hu) as [(e & _ & _ & E)|[(cs & _ & E)|[(i & c & cs & Hi & _ & E)|(i & th & th' & cs & e & Hi & Hn & E & _)]]]; rewrite E in *.
    - done.
    - rewrite app_length in Hl. cbn in Hl. intros i0 th0 [Hi0|[Hle Hi0]]%lookup_app_Some Hne; [by eapply O1|]. apply lookup_lt_Some in Hi0. cbn in Hi0. lia.
    - intros i0 th0 Hi0 Hne. destruct (decide (i = j)) as [->|Hij]; [|by pose proof (O1 _ _ Hi Hij)]. rewrite list_lookup_insert_ne in Hi0 by done. by eapply O1.
    - intros i0 th0 Hi0 Hne. destruct (decide (i = j)) as [->|Hij]; [|pose proof (O1 _ _ Hi Hij) as K; by injection K as -> ->]. rewrite list_lookup_insert_ne in Hi0 by done. by eapply O1.
  Qed.
  Lemma between_call a i c cs : only a -> mu_threads a !! i = Some (TIdle, NoMsg, c :: cs) -> mu_between a.
  Proof.
    intros [O1 _] Hi th (k & Hk)%elem_of_list_lookup. destruct (decide (i = j)) as [->|Hij]; [|by pose proof (O1 _ _ Hi Hij)]. destruct (decide (k = j)) as [->|Hkj]; [rewrite Hi in Hk; by injection Hk as <-|]. by rewrite (O1 _ _ Hk Hkj).
  Qed.
  (** The moment before the next call. *)
  Lemma to_between a b : session a b -> only a -> length (mu_threads b) <= S j -> forall ev, mu_log b = mu_log a ++ ev -> (S_Disk.calls_of ev = [] -> mu_between b) ->
    exists m ev1 ev2, session a m /\ session m b /\ only m /\ mu_between m /\ mu_log m = mu_log a ++ ev1 /\ S_Disk.calls_of ev1 = [] /\ mu_log b = mu_log m ++ ev2 /\ S_Disk.calls_of ev2 = S_Disk.calls_of ev.
  Proof.
    intros H. induction H as [a|a b c [Hab [u Hu]] Hbc IH]; intros O Hl ev E Hb.
    - exists a, [], []. assert (ev = []) as -> by (apply (app_inv_head (mu_log a)); by rewrite app_nil_r). rewrite app_nil_r. split_and!; try done. by apply Hb.
    - pose proof (session_threads _ _ Hbc) as Hm. assert (only b) as Ob by (eapply only_step; eauto; lia).
      assert (forall e, mu_log b = mu_log a ++ e -> S_Disk.calls_of e = [] -> exists m ev1 ev2, session a m /\ session m c /\ only m /\ mu_between m /\ mu_log m = mu_log a ++ ev1 /\ S_Disk.calls_of ev1 = [] /\ mu_log c = mu_log m ++ ev2 /\ S_Disk.calls_of ev2 = S_Disk.calls_of ev) as Q.
      { intros e E1 E2. destruct (session_log compress decompress cache_size _ _ Hbc) as [ev2 E3]. assert (ev = e ++ ev2) as -> by (apply (app_inv_head (mu_log a)); by rewrite app_assoc, <- E1, <- E3).
        rewrite calls_app, E2 in Hb |- *. cbn in *. destruct (IH Ob Hl ev2 E3 Hb) as (m & f1 & f2 & M1 & M2 & M3 & M4 & M5 & M6 & M7 & M8). exists m, (e ++ f1), f2. split; [eapply rtc_l; [split; [exact Hab|by exists u]|exact M1]|].
        split_and!; try done; [by rewrite M5, E1, app_assoc|by rewrite calls_app, E2, M6]. }
      destruct (live_cases a b u Hab Hu) as [(e & E1 & E2 & _)|[(cs & E1 & _)|[(i & c0 & cs & Hi & E1 & _)|(i & th & th' & cs & e & _ & _ & _ & E1 & E2)]]].
      + by apply (Q e).
      + apply (Q []); [by rewrite app_nil_r|done].
      + exists a, [], ev. rewrite app_nil_r. split_and!; try done; [|by eapply between_call]. eapply rtc_l; [split; [exact Hab|by exists u]|exact Hbc].
      + by apply (Q e).
  Qed.
  Lemma one_by_one a b : session a b -> only a -> length (mu_threads b) <= S j -> mu_between b -> forall ev c rest, mu_log b = mu_log a ++ ev -> S_Disk.calls_of ev = c :: rest ->
    exists m ev1 ev2, session a m /\ session m b /\ only m /\ mu_between m /\ mu_log m = mu_log a ++ ev1 /\ S_Disk.calls_of ev1 = [c] /\ mu_log b = mu_log m ++ ev2 /\ S_Disk.calls_of ev2 = rest.
  Proof.
    intros H. induction H as [a|a b c [Hab [u Hu]] Hbc IH]; intros O Hl Hb ev c0 rest E Ec.
    - exfalso. assert (ev = []) as -> by (apply (app_inv_head (mu_log a)); by rewrite app_nil_r). discriminate Ec.
    - pose proof (session_threads _ _ Hbc) as Hm. assert (only b) as Ob by (eapply only_step; eauto; lia). destruct (session_log compress decompress cache_size _ _ Hbc) as [ev2 E3].
      assert (forall e, mu_log b = mu_log a ++ e -> S_Disk.calls_of e = [] -> exists m ev1 ev2, session a m /\ session m c /\ only m /\ mu_between m /\ mu_log m = mu_log a ++ ev1 /\ S_Disk.calls_of ev1 = [c0] /\ mu_log c = mu_log m ++ ev2 /\ S_Disk.calls_of ev2 = rest) as Q.
      { intros e E1 E2. assert (ev = e ++ ev2) as -> by (apply (app_inv_head (mu_log a)); by rewrite app_assoc, <- E1, <- E3).
        rewrite calls_app, E2 in Ec. cbn in Ec. destruct (IH Ob Hl Hb ev2 c0 rest E3 Ec) as (m & f1 & f2 & M1 & M2 & M3 & M4 & M5 & M6 & M7 & M8). exists m, (e ++ f1), f2. split; [eapply rtc_l; [split; [exact Hab|by exists u]|exact M1]|].
        split_and!; try done; [by rewrite M5, E1, app_assoc|by rewrite calls_app, E2, M6]. }
      destruct (live_cases a b u Hab Hu) as [(e & E1 & E2 & _)|[(cs & E1 & _)|[(i & c1 & cs & Hi & E1 & _)|(i & th & th' & cs & e & _ & _ & _ & E1 & E2)]]].
      + by apply (Q e).
      + apply (Q []); [by rewrite app_nil_r|done].
      + assert (ev = [ECall c1] ++ ev2) as -> by (apply (app_inv_head (mu_log a)); by rewrite app_assoc, <- E1, <- E3). rewrite calls_app in Ec. cbn in Ec. injection Ec as -> Ec.
        destruct (to_between b c Hbc Ob Hl ev2 E3 ltac:(done)) as (m & f1 & f2 & M1 & M2 & M3 & M4 & M5 & M6 & M7 & M8). exists m, ([ECall c0] ++ f1), f2. split; [eapply rtc_l; [split; [exact Hab|by exists u]|exact M1]|].
        split_and!; try done; [by rewrite M5, E1, app_assoc|by rewrite calls_app, M6|by rewrite M8].
      + by apply (Q e).
  Qed.
End alone.

Section posted.
  Variables (compress : bytes -> bytes) (decompress : bytes -> option bytes) (cs : Z).
  Variables (bind : string -> option document) (is_letter is_number : Z -> bool) (to_lower stem fold : string -> string).
  Variables (N : numops) (ncpu : nat).
  Notation server := (mserver N).
  Notation live := (mserver_live compress decompress cs bind is_letter is_number to_lower stem fold N ncpu).
  Notation session := (ms_session compress decompress cs bind is_letter is_number to_lower stem fold ncpu).
  Notation pst := (post bind is_letter is_number to_lower stem fold).
  Variables (j : nat) (log0 : list event) (now0 : list string) (body : string).
  Definition alone_inv (x : server) : Prop :=
    only j (ms_store x) /\ exists ev, ms_log x = log0 ++ ev /\
      ((length (mu_threads (ms_store x)) = j /\ ms_now x = now0 /\ S_Disk.calls_of ev = []) \/
       (length (mu_threads (ms_store x)) = S j /\ ms_now x = now0 ++ [body] /\
         exists th rest status calls, mu_threads (ms_store x) !! j = Some (th, rest) /\ pst body status calls /\ S_Disk.calls_of ev ++ rest = calls)).
  Lemma alone_step (x y : server) : (exists u, mu_open (ms_store x) u) -> live x y -> (exists r, now0 ++ [body] = ms_now y ++ r) -> alone_inv x -> alone_inv y.
  Proof.
    intros [u Hu] H [r Hr] (O & ev & E & A). unfold alone_inv, ms_log in *. inversion H; subst; cbn [ms_store ms_now ms_gets] in *.
    - match goal with K : multi_live _ _ _ _ _ |- _ => rename K into HL end. match goal with K : no_arrival _ _ |- _ => destruct K as [Na _] end.
      assert (length (mu_threads b') <= S j) as Hlj by (destruct A as [(A & _)|(A & _)]; lia). split; [by eapply only_step|].
      destruct (live_cases _ _ _ b b' u HL Hu) as [(e & E1 & E2 & E3)|[(cs0 & _ & E3)|[(i & c & cs0 & Hi & E1 & E3)|(i & th & th' & cs0 & e & Hi & Hn & E3 & E1 & E2)]]].
      + exists (ev ++ e). split; [by rewrite E1, E, app_assoc|]. rewrite E3, calls_app, E2, app_nil_r. exact A.
      + exfalso. rewrite E3, app_length in Na. cbn in Na. lia.
      + assert (i = j) as ->. { destruct (decide (i = j)) as [|Hne]; [done|]. destruct O as [O _]. by pose proof (O _ _ Hi Hne). }
        exists (ev ++ [ECall c]). split; [by rewrite E1, E, app_assoc|]. pose proof (lookup_lt_Some _ _ _ Hi) as Hlt. destruct A as [(A & _)|(A1 & A2 & th & rest & status & calls & A3 & A4 & A5)]; [lia|]. right.
        rewrite E3, insert_length. split; [done|]. split; [done|]. rewrite Hi in A3. injection A3 as <- <-. eexists _, cs0, status, calls. rewrite list_lookup_insert by done. split; [done|]. split; [done|]. rewrite calls_app, <- app_assoc. exact A5.
      + assert (i = j) as ->. { destruct (decide (i = j)) as [|Hne]; [done|]. destruct O as [O _]. pose proof (O _ _ Hi Hne) as K. injection K as -> ->. done. }
        exists (ev ++ e). split; [by rewrite E1, E, app_assoc|]. pose proof (lookup_lt_Some _ _ _ Hi) as Hlt. destruct A as [(A & _)|(A1 & A2 & th0 & rest & status & calls & A3 & A4 & A5)]; [lia|]. right.
        rewrite E3, insert_length. split; [done|]. split; [done|]. rewrite Hi in A3. injection A3 as <- <-. eexists _, cs0, status, calls. rewrite list_lookup_insert by done. split; [done|]. split; [done|]. by rewrite calls_app, E2, app_nil_r.
    - destruct A as [(A1 & A2 & A3)|(A1 & A2 & _)].
      2:{ exfalso. rewrite A2 in Hr. apply (f_equal length) in Hr. rewrite !app_length in Hr. cbn in Hr. lia. }
      rewrite A2, <- app_assoc in Hr. apply app_inv_head in Hr. injection Hr as <- _. split.
      + split; cbn [mu_threads] in *; [|rewrite app_length; lia]. intros i th [Hi|[Hle Hi]]%lookup_app_Some Hne; [destruct O as [O _]; by eapply O|]. apply lookup_lt_Some in Hi. cbn in Hi. lia.
      + exists ev. split; [exact E|]. right. cbn [mu_threads] in *. rewrite app_length, A1, A2. cbn. split; [lia|]. split; [done|]. exists (TIdle, NoMsg), calls, status, calls. split; [|by rewrite A3]. rewrite lookup_app_r by lia. by rewrite A1, Nat.sub_diag.
    - split; [done|]. by exists ev.
    - split; [done|]. by exists ev.
    - split; [done|]. by exists ev.
  Qed.
  Lemma session_now (x y : server) : session x y -> exists r, ms_now y = ms_now x ++ r.
  Proof.
    unfold ms_session. induction 1 as [x|x y z [Hs _] _ [r IH]]; [exists []; by rewrite app_nil_r|]. rewrite IH. inversion Hs; subst; cbn [ms_now]; first [by exists r|rewrite <- app_assoc; by eexists].
  Qed.
  Lemma alone_run (x y : server) : session x y -> alone_inv x -> (exists r, now0 ++ [body] = ms_now y ++ r) -> alone_inv y.
  Proof.
    unfold ms_session. induction 1 as [x|x y z [Hs Ho] Hyz IH]; [done|]. intros A [r Hr]. apply IH; [|by exists r]. eapply alone_step; [exact Ho|exact Hs| |exact A].
    destruct (session_now y z Hyz) as [r2 E2]. exists (r2 ++ r). by rewrite Hr, E2, app_assoc.
  Qed.
  (** The calls made are those of the request, in order. *)
  Lemma alone_calls (x y : server) ev : session x y -> served (ms_store x) -> served (ms_store y) -> log0 = ms_log x -> now0 = ms_now x -> j = length (mu_threads (ms_store x)) -> ms_now y = now0 ++ [body] -> ms_log y = log0 ++ ev ->
    only j (ms_store x) /\ length (mu_threads (ms_store y)) <= S j /\ exists status, pst body status (S_Disk.calls_of ev).
  Proof.
    intros Hxy Sx Sy E1 E2 Ej E3 E4. assert (only j (ms_store x)) as O. { split; [|lia]. intros i th Hi _. apply Sx. by eapply elem_of_list_lookup_2. }
    split; [exact O|]. assert (alone_inv y) as (_ & ev' & E5 & A).
    { eapply alone_run; [exact Hxy| |exists []; by rewrite app_nil_r]. split; [exact O|]. exists []. rewrite app_nil_r. split; [done|]. left. done. }
    rewrite E4 in E5. apply app_inv_head in E5 as <-. destruct A as [(_ & A & _)|(A1 & A2 & th & rest & status & calls & A3 & A4 & A5)].
    - exfalso. rewrite E3 in A. apply (f_equal length) in A. rewrite app_length in A. cbn in A. lia.
    - split; [lia|]. exists status. pose proof (Sy _ (elem_of_list_lookup_2 _ _ _ A3)) as K. injection K as -> ->. rewrite app_nil_r in A5. by subst calls.
  Qed.
End posted.
