(** C69: every request is answered, in whatever order the goroutines take their steps. *)
From Verif Require Import Base M_Text M_Language M_Field M_LRU S_Visits M_Memory M_File M_Serialize M_Num M_FanIn M_Search M_Concurrent M_SearchConc M_Disk M_DiskBusy M_DiskMulti M_Standard M_Server M_BusyServer M_MultiServer S_Search S_Server S_Concurrent S_DiskMulti S_DiskQuery S_BusyServer S_MultiServer P_Base P_Server P_DiskIndex3 P_MultiServer P_MultiServer2 P_MultiServer3 X_DiskExec X_DiskMulti X_DiskQuery T_Server T_BusyServer T_BusyServer2 T_DiskNft T_DiskIndex T_DiskDocs T_DiskMulti T_DiskMulti2 T_DiskQuery T_MultiServer X_MultiServer P_FanIn P_Standard P_BusyServer P_DiskInv P_DiskMulti P_DiskMulti2 P_DiskMulti3 P_DiskMulti5 P_DiskMulti7 P_DiskFrozen P_BusyServer2 P_MultiServer5 S_MultiServer3 T_MultiServer2 S_Disk.
#[local] Open Scope nat_scope.
#[local] Opaque serialize_metrics serialize_nft serialize_field_map serialize_index deserialize_index deserialize_nft deserialize_field_map deserialize_metrics.

(** In whatever order the goroutines of the requests, of the searches and of the storage
    take their steps: if no request arrives, they come to rest after finitely many steps;
    and then every GET request in progress has its results, and every POST request is
    served, unless the process is about to end with an error. *)
Theorem C69_comes_to_rest : forall compress decompress cs, gzip_ok compress decompress -> (0 < cs)%Z ->
  forall bind is_letter is_number to_lower stem fold N ncpu, 0 < ncpu -> forall (x : mserver N) u,
  mserver_reachable compress decompress cs bind is_letter is_number to_lower stem fold N ncpu x -> plain_ids bind x -> mu_open (ms_store x) u ->
  (forall r : nat -> mserver N, r 0 = x -> ~ (forall i, ms_works compress decompress ncpu (r i) (r (S i)))) /\
  (forall y, rtc (ms_works compress decompress ncpu) x y -> (forall z, ~ ms_works compress decompress ncpu y z) ->
    (~ stopping decompress (ms_store y) -> served (ms_store y)) /\
    length (ms_gets y) = length (ms_gets x) /\
    forall k queries w, ms_gets y !! k = Some (queries, w) -> (forall q, q ∈ queries -> q_field q <> "docs") -> exists rs, ms_returned y k queries rs).
Proof.
  intros compress decompress cs gz pos bind il inum tl st fo N ncpu Hc x u Hx Hp Hu.
  pose proof (conj Hx (conj Hp (ex_intro _ u Hu)) : steady compress decompress cs bind il inum tl st fo N ncpu x) as S0.
  split; [by eapply no_endless|]. intros y Hxy Hend.
  assert (steady compress decompress cs bind il inum tl st fo N ncpu y /\ length (ms_gets y) = length (ms_gets x)) as [Sy Hl].
  { clear Hend Hx Hp Hu. induction Hxy as [x|x z y H1 _ IH]; [done|]. destruct IH as [I1 I2]; [by eapply steady_step|]. split; [done|]. rewrite I2. destruct H1 as [|x z G]; [done|]. destruct G; cbn; by rewrite ?insert_length. }
  split; [|split; [done|]].
  - intros Hst. destruct (steady_good compress decompress cs bind il inum tl st fo N ncpu gz y Sy) as (Rb & Hgb & _). destruct Sy as (_ & _ & v & Hv).
    destruct (served_or (mu_threads (ms_store y))) as [?|(i & th & E1 & E2)]; [done|]. exfalso.
    assert (~ served (ms_store y)) as Hn by (intros X; apply E2, X; by eapply elem_of_list_lookup_2).
    destruct (no_deadlock compress decompress cs gz pos _ v Rb Hgb Hv Hn) as [c Hc']; [intros K; apply Hst; by exists v|].
    destruct y as [b gs now past]. cbn [ms_store] in *. eapply Hend. by apply msw_post.
  - intros k queries w Hk Hq. assert (fan_done w) as Hd by (eapply rest_answered; eauto).
    destruct (sort_slice_exists (score_less N) (map_to_list (temp_scores N (fn_got w)))) as [rs Hs]. exists rs, w. split; [done|]. split; [done|]. by exists (map_to_list (temp_scores N (fn_got w))).
Qed.
Print Assumptions C69_comes_to_rest.

(** Tickers at any pace, for ever: in a run in which no request arrives, the goroutines of
    the requests take only finitely many steps; and if the goroutines of the GET requests
    take another step at some time as long as not all GET requests are answered, at some
    moment all are answered - whatever the handlers of POST requests and the writers do or
    do not do. *)
Theorem C69_finite_work : forall compress decompress cs, gzip_ok compress decompress -> (0 < cs)%Z ->
  forall bind is_letter is_number to_lower stem fold N ncpu, 0 < ncpu -> forall (x : mserver N) u (r : nat -> mserver N),
  mserver_reachable compress decompress cs bind is_letter is_number to_lower stem fold N ncpu x -> plain_ids bind x -> mu_open (ms_store x) u ->
  r 0 = x -> ms_run compress decompress cs bind is_letter is_number to_lower stem fold ncpu r ->
  ~ (forall i, exists j, i <= j /\ (ms_gets_work decompress ncpu (r j) (r (S j)) \/ ms_posts_work compress decompress (r j) (r (S j)))).
Proof.
  intros compress decompress cs gz pos bind il inum tl st fo N ncpu Hc x u r Hx Hp Hu <- Hr Hf.
  pose proof (conj Hx (conj Hp (ex_intro _ u Hu)) : steady compress decompress cs bind il inum tl st fo N ncpu (r 0)) as S0.
  destruct (fair_run compress decompress cs bind il inum tl st fo N ncpu gz pos Hc r (fun _ => False) S0 Hr) as [i []].
  intros i. right. destruct (Hf i) as (j & Hij & [H|H]); exists j; (split; [done|]); right; [|by eapply posts_rank_step].
  apply (gets_rank_step compress decompress cs bind il inum tl st fo N ncpu gz pos Hc); [|exact H].
  by destruct (run_rank compress decompress cs bind il inum tl st fo N ncpu gz pos Hc r S0 Hr j 0).
Qed.
Print Assumptions C69_finite_work.
Theorem C69_gets_answered : forall compress decompress cs, gzip_ok compress decompress -> (0 < cs)%Z ->
  forall bind is_letter is_number to_lower stem fold N ncpu, 0 < ncpu -> forall (x : mserver N) u (r : nat -> mserver N),
  mserver_reachable compress decompress cs bind is_letter is_number to_lower stem fold N ncpu x -> plain_ids bind x -> mu_open (ms_store x) u ->
  r 0 = x -> ms_run compress decompress cs bind is_letter is_number to_lower stem fold ncpu r ->
  (forall i, ms_all_answered (r i) \/ exists j, i <= j /\ (ms_all_answered (r j) \/ ms_gets_work decompress ncpu (r j) (r (S j)))) ->
  exists i, ms_all_answered (r i).
Proof.
  intros compress decompress cs gz pos bind il inum tl st fo N ncpu Hc x u r Hx Hp Hu <- Hr Hf.
  pose proof (conj Hx (conj Hp (ex_intro _ u Hu)) : steady compress decompress cs bind il inum tl st fo N ncpu (r 0)) as S0.
  apply (fair_run compress decompress cs bind il inum tl st fo N ncpu gz pos Hc r ms_all_answered S0 Hr).
  intros i. destruct (Hf i) as [?|(j & Hij & [H|H])]; [by left|right; exists j; by auto|right; exists j; split; [done|right]].
  apply (gets_rank_step compress decompress cs bind il inum tl st fo N ncpu gz pos Hc); [|exact H].
  by destruct (run_rank compress decompress cs bind il inum tl st fo N ncpu gz pos Hc r S0 Hr j 0).
Qed.
Print Assumptions C69_gets_answered.
(** As long as a GET request is not answered, the goroutines of the GET requests can take a
    step. *)
Theorem C69_gets_not_stuck : forall compress decompress cs, gzip_ok compress decompress -> (0 < cs)%Z ->
  forall bind is_letter is_number to_lower stem fold N ncpu, 0 < ncpu -> forall (x : mserver N) k queries w,
  mserver_reachable compress decompress cs bind is_letter is_number to_lower stem fold N ncpu x -> plain_ids bind x ->
  ms_gets x !! k = Some (queries, w) -> (forall q, q ∈ queries -> q_field q <> "docs") -> (~ exists rs, ms_returned x k queries rs) ->
  exists y, ms_gets_work decompress ncpu x y.
Proof.
  intros compress decompress cs gz pos bind il inum tl st fo N ncpu Hc x k queries w Hx Hp Hk Hq Hn.
  assert (exists u, mu_open (ms_store x) u) as [u Hu] by (eapply gets_open; [exact Hx|exact Hk]).
  apply (get_progress compress decompress cs bind il inum tl st fo N ncpu gz pos x k queries w (conj Hx (conj Hp (ex_intro _ u Hu))) Hk Hq).
  intros Hd. apply Hn. destruct (sort_slice_exists (score_less N) (map_to_list (temp_scores N (fn_got w)))) as [rs Hs]. exists rs, w. split; [done|]. split; [done|]. by exists (map_to_list (temp_scores N (fn_got w))).
Qed.
Print Assumptions C69_gets_not_stuck.

(** A state that meets the hypotheses: two documents are posted at the same time, neither
    POST request is served, and a GET request is in progress.  It comes to rest: as long as
    it is not at rest it can take a step. *)
Example C69_case_rest : forall N, exists (x : mserver N) u w,
  mserver_reachable id Some 1 mb_bind bs_letter bs_number same same same N 4 x /\ plain_ids mb_bind x /\ mu_open (ms_store x) u /\ ~ served (ms_store x) /\
  ms_gets x !! 0 = Some (get_queries N (bs_terms "red moon"), w) /\ (forall q, q ∈ get_queries N (bs_terms "red moon") -> q_field q <> "docs") /\
  (forall r : nat -> mserver N, r 0 = x -> ~ (forall i, ms_works id Some 4 (r i) (r (S i)))).
Proof.
  intros N. destruct (C69_case N) as (a & x & y & u & w & rs & _ & _ & _ & Hx & Hp & Hu & Hs & Hg & Hq & _).
  exists x, u, w. do 6 (split; [done|]). by apply (C69_comes_to_rest id Some 1 ltac:(by intros ?) ltac:(done) mb_bind bs_letter bs_number same same same N 4 ltac:(lia) x u Hx Hp Hu).
Qed.

(** From the same state there is a run of the kind of C69_gets_answered, with POST requests
    that are never served. *)
Example C69_case_run : forall N, exists (x : mserver N) u r,
  mserver_reachable id Some 1 mb_bind bs_letter bs_number same same same N 4 x /\ plain_ids mb_bind x /\ mu_open (ms_store x) u /\ r 0 = x /\
  (exists w, ms_gets x !! 0 = Some (get_queries N (bs_terms "red moon"), w)) /\
  ms_run id Some 1 mb_bind bs_letter bs_number same same same 4 r /\ (exists i, ms_all_answered (r i)) /\
  (forall i, ms_all_answered (r i) \/ exists j, i <= j /\ (ms_all_answered (r j) \/ ms_gets_work Some 4 (r j) (r (S j)))).
Proof.
  intros N. destruct (C69_case N) as (a & x & y & u & w & rs & _ & _ & _ & Hx & Hp & Hu & Hs & Hg & Hq & _ & _ & _ & _ & H1 & _).
  pose proof (conj Hx (conj Hp (ex_intro _ u Hu)) : steady id Some 1 mb_bind bs_letter bs_number same same same N 4 x) as S0.
  assert (no_docs N x) as Hn.
  { intros queries w' q Hin. apply elem_of_list_lookup in Hin as [[|i] Hi]; [rewrite Hg in Hi; injection Hi as <- <-; apply Hq|]. apply lookup_lt_Some in Hi. unfold ms_count in H1. lia. }
  destruct (answering_run id Some 1 mb_bind bs_letter bs_number same same same N 4 ltac:(by intros ?) ltac:(done) ltac:(lia) x S0 Hn) as (r & n & E0 & E1 & E2 & E3).
  assert (ms_all_answered (r n)) as Ha.
  { intros k queries w' Hk. assert (fan_done w') as Hd by (by eapply E3). destruct (sort_slice_exists (score_less N) (map_to_list (temp_scores N (fn_got w')))) as [rs' Hs']. exists rs', w'. split; [done|]. split; [done|]. by exists (map_to_list (temp_scores N (fn_got w'))). }
  assert (forall i, i <= n -> steady id Some 1 mb_bind bs_letter bs_number same same same N 4 (r i)) as HS.
  { intros i. induction i as [|i IH]; intros Hi; [by rewrite E0|]. assert (steady id Some 1 mb_bind bs_letter bs_number same same same N 4 (r i)) as IH2 by (apply IH; lia). assert (ms_works id Some 4 (r i) (r (S i))) as W by (apply msw_gets, E1; lia). revert W. by apply (steady_step id Some 1 mb_bind bs_letter bs_number same same same N 4 ltac:(by intros ?) ltac:(lia)). }
  exists x, u, r. do 4 (split; [done|]). split; [by exists w|]. split; [|split; [by exists n|]].
  - intros i. destruct (decide (i < n)) as [Hi|Hi]; [right|left; rewrite (E2 i), (E2 (S i)) by lia; done].
    apply (gets_quiet id Some 1 mb_bind bs_letter bs_number same same same N 4 ltac:(by intros ?) ltac:(lia)); [apply HS; lia|by apply E1].
  - intros i. right. exists (i `max` n). split; [lia|]. left. rewrite (E2 (i `max` n)) by lia. done.
Qed.
