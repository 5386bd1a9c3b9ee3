(** C69: the goroutines of all requests come to rest. *)
From Verif Require Import Base M_Text M_Language M_Field M_LRU S_Visits M_Memory M_File M_Serialize M_Num M_FanIn M_Search M_Concurrent M_SearchConc M_Disk M_DiskBusy M_DiskMulti M_Standard M_Server M_BusyServer M_MultiServer S_Search S_Server S_Concurrent S_DiskMulti S_DiskQuery S_BusyServer S_MultiServer P_FanIn P_FanIn2 P_SearchConc3 P_Standard P_BusyServer P_DiskBase P_DiskInv P_DiskTerm P_DiskIndex3 P_DiskBusy3 P_DiskBusy12 P_DiskFair P_DiskFair2 P_DiskMulti P_DiskMulti2 P_DiskMulti3 P_DiskMulti5 P_DiskMulti6 P_DiskMulti7 P_DiskQuery P_DiskQuery2 P_BusyServer2 T_BusyServer T_DiskQuery P_MultiServer P_MultiServer2 P_DiskFrozen P_MultiServer3 S_MultiServer3 S_Disk.
#[local] Open Scope nat_scope.
#[local] Opaque serialize_metrics serialize_nft serialize_field_map serialize_index deserialize_index deserialize_nft deserialize_field_map deserialize_metrics.

(** * Orders *)
Definition lexp {A B} (R : A -> A -> Prop) (S : B -> B -> Prop) (x y : A * B) : Prop := R x.1 y.1 \/ (x.1 = y.1 /\ S x.2 y.2).
Lemma lexp_wf {A B} (R : A -> A -> Prop) (S : B -> B -> Prop) : well_founded R -> well_founded S -> well_founded (lexp R S).
Proof.
  intros HR HS [a b]. revert b. induction (HR a) as [a _ IHa]. intros b. induction (HS b) as [b _ IHb]. constructor. intros [a' b'] [H|[H1 H2]]; cbn in *; [by apply IHa|subst a'; by apply IHb].
Qed.
Lemma sum_insert_le {A} (f : A -> nat) l i x y : l !! i = Some x -> f y = f x -> sum_list_with f (<[i := y]> l) = sum_list_with f l.
Proof. revert i. induction l as [|z l IH]; intros [|i] H E; cbn in *; try done; [injection H as ->; lia|]. f_equal. by apply (IH i). Qed.

(** * Ranks *)
Definition s_phase (q : msearch) : nat := match q with MqLength => 5 | MqSize _ => 4 | MqNft _ _ _ _ | MqNftTerm _ _ _ _ _ _ => 3 | MqIds _ _ _ _ => 2 | MqFields _ _ _ _ => 1 | MqRet _ _ _ _ => 0 end.
Definition s_rest (sh : shared) (f : string) (q : msearch) : nat :=
  match q with MqNft _ _ ts _ => 2 * length ts | MqNftTerm _ _ _ _ ts _ => S (2 * length ts) | MqIds _ _ _ w => measure2 (pm1 f sh) w | MqFields _ _ _ w => measure2 pmb w | _ => 0 end.
Definition store_rank (b : multi) : nat * (nat * (nat * (nat * nat))) :=
  (total_rank b, match y_proc (mu_sys b) with Up u => (bg_rank u, g_rank (u_mg u)) | _ => (0, (0, (0, 0))) end).
Definition searches_rank (b : multi) : nat * nat := (sum_list_with (fun q => s_phase (mq_pc q)) (mu_qs b), sum_list_with (fun q => s_rest (mu_sh b) (mq_field q) (mq_pc q)) (mu_qs b)).
Definition store_lt := lexp lt (lexp lt lex3).
Definition searches_lt := lexp lt lt.
Definition server_lt := lexp store_lt (lexp lt searches_lt).
Definition gets_rank {N} (gs : list (list (query N) * fan (qjob N) (list (doc_score N)))) : nat := sum_list_with (fun g => measure (pmj N) g.2) gs.
Definition server_rank {N} (x : mserver N) := (store_rank (ms_store x), (gets_rank (ms_gets x), searches_rank (ms_store x))).
Lemma server_lt_wf : well_founded server_lt.
Proof. apply lexp_wf; [apply lexp_wf; [apply lt_wf|apply lexp_wf; [apply lt_wf|apply lex3_wf]]|]. apply lexp_wf; [apply lt_wf|]. apply lexp_wf; apply lt_wf. Qed.

Section rest.
  Variables (compress : bytes -> bytes) (decompress : bytes -> option bytes) (cs : Z).
  Variables (bind : string -> option document) (is_letter is_number : Z -> bool) (to_lower stem fold : string -> string).
  Variables (N : numops) (ncpu : nat).
  Hypothesis gz : gzip_ok compress decompress.
  Hypothesis pos : (0 < cs)%Z.
  Hypothesis cpus : 0 < ncpu.
  Notation server := (mserver N).
  Notation live := (mserver_live compress decompress cs bind is_letter is_number to_lower stem fold N ncpu).
  Notation reach := (mserver_reachable compress decompress cs bind is_letter is_number to_lower stem fold N ncpu).
  Notation runs_on := (ms_works compress decompress ncpu).
  Lemma works_rank b b' : works compress decompress b b' -> quiet_up b -> quiet_up b' -> store_lt (store_rank b') (store_rank b).
  Proof.
    intros Hab Hq Hqb. unfold store_lt, store_rank, lexp. inversion Hab; subst; cbn [mu_sys y_proc].
    - match goal with G : up_step _ _ _ _ _ |- _ => rename G into St end. right. split; [done|]. cbn [snd fst].
      destruct (bg_rank_step _ _ _ _ _ _ _ St (Hq u eq_refl) (Hqb u' eq_refl)) as [Hlt|[E Hlt]]; [by left|by right].
    - left. unfold total_rank. cbn [mu_threads fst]. eapply sum_insert; [eassumption|]. unfold th_rank. cbn. lia.
    - left. unfold total_rank. cbn [mu_threads fst]. eapply sum_insert; [eassumption|]. unfold th_rank. cbn.
      destruct th as [pc m0], th' as [pc' m0']. match goal with G : client_step _ _ _ |- _ => apply c_rank_client in G end. cbn. lia.
  Qed.
  Lemma search_rank c terms f sh u s q m q' log own ol oa : 0 < c -> mq_ok (u_mem u) log sh own ol oa (mkMQ c terms f q) -> msearch_step decompress c terms f sh (u_mem u) s q (m, q') ->
    searches_lt (s_phase q', s_rest sh f q') (s_phase q, s_rest sh f q).
  Proof.
    intros Hc Q H. unfold searches_lt, lexp. cbn [fst snd]. inversion H; subst; cbn [s_phase s_rest length]; try (left; lia); right; (split; [done|]); try lia.
    - destruct Q as [HI [HA _]]. cbn in HI, HA. match goal with G : fan2_step _ _ _ _ _ _ _ |- _ => rename G into Hw end.
      exact (measure2_step _ _ _ _ _ _ _ _ (pm1_dec c f Hc sh) (inv2_base _ _ _ _ _ HI) Hw).
    - destruct Q as [[tasks HI] HA]. cbn in HA. match goal with G : fan2_step _ _ _ _ _ _ _ |- _ => rename G into Hw end.
      assert (fan2_step (fun p p' => exists m', bbatch_step decompress f s (u_mem u, p) (m', p')) bbatch_send bbatch_stop (length terms) (c * 2) w w') as Hw2 by (clear -Hw; inversion Hw; subst; try done; by econstructor).
      exact (measure2_step _ _ _ _ _ _ _ _ (pmb_dec decompress f s (u_mem u)) (inv2_base _ _ _ _ _ HI) Hw2).
    - destruct Q as [[tasks HI] HA]. cbn in HA. match goal with G : fan2_inner _ _ _ _ |- _ => rename G into Hw end. match goal with G : bbatch_step _ _ _ _ _ |- _ => rename G into Hb end.
      assert (fan2_step (fun p p' => exists m', bbatch_step decompress f s (u_mem u, p) (m', p')) bbatch_send bbatch_stop (length terms) (c * 2) w w') as Hw2 by (clear -Hw Hb; inversion Hw; subst; econstructor; by exists m).
      exact (measure2_step _ _ _ _ _ _ _ _ (pmb_dec decompress f s (u_mem u)) (inv2_base _ _ _ _ _ HI) Hw2).
  Qed.
  Lemma runs_live (x y : server) : runs_on x y -> (forall u, mu_open (ms_store x) u -> u_pc u = CIdle) -> live x y.
  Proof.
    intros H Hq. destruct H as [b b' gs now past W|x y G]; [|destruct G].
    - apply mv_step; [by apply works_live|]. clear -W. inversion W; subst; unfold no_arrival; cbn; rewrite ?insert_length; lia.
    - apply mv_step; [by econstructor|]. unfold no_arrival. cbn. rewrite insert_length. lia.
    - by eapply mv_call.
    - by eapply mv_fan.
  Qed.
  Definition steady (x : server) : Prop := reach x /\ plain_ids bind x /\ exists u, mu_open (ms_store x) u.
  Lemma steady_good x : steady x -> multi_reachable compress decompress cs (ms_store x) /\ good_log (mu_log (ms_store x)) /\ quiet_up (ms_store x).
  Proof.
    intros (R & P & u & Hu). destruct (plain_good compress decompress cs bind is_letter is_number to_lower stem fold N ncpu x R P) as [Hg _]. pose proof (ms_store_reach _ _ _ _ _ _ _ _ _ _ _ _ R) as Rs. split; [done|]. split; [done|].
    destruct (m_up compress decompress cs gz (ms_store x) u Rs Hg Hu) as (_ & _ & G & L & ol & oa & I). pose proof (mi_pc _ _ _ _ _ _ _ _ _ _ I) as Ip. intros v Hv. unfold mu_open in Hu. rewrite Hu in Hv. by injection Hv as <-.
  Qed.
  Lemma steady_step x y : steady x -> runs_on x y -> steady y.
  Proof.
    intros S H. destruct (steady_good x S) as (_ & _ & Hq). destruct S as (R & P & u & Hu).
    pose proof (runs_live x y H Hq) as HL. split; [unfold mserver_reachable in *; eapply rtc_r; [exact R|by left]|].
    split; [intros body doc; assert (ms_past y = ms_past x /\ ms_now y = ms_now x) as [-> ->] by (destruct H as [|x y G]; [done|by destruct G]); apply P|].
    destruct H as [b b' gs now past W|x y G]; [|destruct G; cbn [ms_store] in *; [by eexists|by eexists|by exists u]]. inversion W; subst; by eexists.
  Qed.
  Lemma runs_rank x y : steady x -> runs_on x y -> server_lt (server_rank y) (server_rank x).
  Proof.
    intros S H. destruct (steady_good x S) as (Rs & Hg & Hq). destruct (steady_good y (steady_step x y S H)) as (_ & _ & Hqy). destruct S as (R & P & u0 & Hu0). unfold server_lt, server_rank, lexp.
    destruct H as [b b' gs now past W|x y H]; [|inversion H; subst]; cbn [ms_store ms_gets fst snd] in *.
    - left. by apply works_rank.
    - right. match goal with K : qs !! i = Some _ |- _ => rename K into Hi end. match goal with K : msearch_step _ _ _ _ _ _ _ _ _ |- _ => rename K into St end.
      split; [done|]. right. split; [done|]. destruct (query_ok compress decompress cs gz pos _ i _ Rs Hg Hi) as (Hc & u1 & own & ol & oa & Hu1 & _ & _ & Q). unfold mu_open in Hu1. cbn in Hu1, Hc. injection Hu1 as <-.
      pose proof (search_rank _ _ _ _ _ _ _ _ _ _ _ _ _ Hc Q St) as HR. unfold searches_lt, lexp, searches_rank in *. cbn [fst snd mu_qs mu_sh] in *. destruct HR as [HR|[E HR]].
      + left. by eapply sum_insert; [exact Hi|].
      + right. split; [by eapply sum_insert_le; [exact Hi|]|]. by eapply sum_insert; [exact Hi|].
    - right. split; [done|]. left. unfold gets_rank. match goal with K : gs !! k = Some _ |- _ => rename K into Hk end. eapply sum_insert; [exact Hk|]. cbn [snd].
      destruct (mjobs_reach compress decompress cs bind is_letter is_number to_lower stem fold N ncpu _ R) as (_ & _ & J). specialize (J _ _ _ Hk). pose proof (mabstract _ _ _ _ _ _ J) as HA.
      assert (fan_step (astep N) (aout N) (length queries) None true w w') as Hw2 by (match goal with K : fan_inner _ _ _ _ |- _ => inversion K; subst end; apply fs_inner; by exists q, (length qs)).
      exact (measure_step _ _ _ _ _ (pmj N) _ _ _ (adec N queries) (inv_reach _ _ _ _ _ _ _ HA) Hw2).
    - right. split; [done|]. left. unfold gets_rank. match goal with K : gs !! k = Some _ |- _ => rename K into Hk end. eapply sum_insert; [exact Hk|]. cbn [snd].
      destruct (mjobs_reach compress decompress cs bind is_letter is_number to_lower stem fold N ncpu _ R) as (_ & _ & J). specialize (J _ _ _ Hk). pose proof (mabstract _ _ _ _ _ _ J) as HA.
      assert (fan_step (astep N) (aout N) (length queries) None true w w') as Hw2.
      { eapply fan_mono; [| |eassumption]; [done|]. intros p ms (q & i & c & len & size & nft & docs & kxs & -> & _ & _ & ->). eexists q, i, _. done. }
      exact (measure_step _ _ _ _ _ (pmj N) _ _ _ (adec N queries) (inv_reach _ _ _ _ _ _ _ HA) Hw2).
  Qed.
  Lemma no_endless x : steady x -> forall r : nat -> server, r 0 = x -> ~ (forall i, runs_on (r i) (r (S i))).
  Proof.
    intros S. remember (server_rank x) as k eqn:Ek. revert x Ek S. induction (server_lt_wf k) as [k _ IH]. intros x -> S r <- Hr.
    eapply (IH (server_rank (r 1)) (runs_rank _ _ S (Hr 0)) (r 1) eq_refl (steady_step _ _ S (Hr 0)) (fun i => r (Datatypes.S i)) eq_refl). intros i. apply Hr.
  Qed.
  (** A GET request that is not answered can go on. *)
  Lemma get_progress x k queries w : steady x -> ms_gets x !! k = Some (queries, w) -> (forall q, q ∈ queries -> q_field q <> "docs") -> ~ fan_done w -> exists z, ms_gets_work decompress ncpu x z.
  Proof.
    intros S Hk Hq Hd. destruct (steady_good x S) as (Rs & Hg & _). destruct S as (R & P & u & Hu).
    destruct (mjobs_reach compress decompress cs bind is_letter is_number to_lower stem fold N ncpu _ R) as (_ & _ & J). specialize (J _ _ _ Hk). pose proof (mabstract _ _ _ _ _ _ J) as HA.
    destruct (fan_progress (astep N) (aout N) (length queries) None true (JCall <$> queries) w I) as (w' & Hw'); [intros p0 p _ _; destruct p as [q|q i]; [left; by exists (JWait q 0), q, 0|right; by exists [[]], q, i, []]|exact HA|exact Hd|].
    destruct x as [b gs now past]. cbn [ms_store ms_gets] in *.
    assert (forall w1, fan_step (fun _ _ => False) (mjob_out N b) (length queries) None true w w1 -> exists z, ms_gets_work decompress ncpu (mkMServer b gs now past) z) as YesFan by (intros w1 Hw1; eexists; by eapply msg_fan).
    inversion Hw'; subst; try (eapply YesFan; by econstructor).
    - destruct H as (q & i & -> & ->). destruct b as [[s pr log] sh ths qs]. unfold mu_open in Hu. cbn in Hu. subst pr. eexists. eapply msg_call; [exact Hk|constructor].
    - destruct H as (q & i & l & -> & ->). destruct (mwaiting _ _ _ _ _ q i J) as (Hqq & c & s & Hi); [cbn; apply elem_of_app; right; left|].
      destruct (plain_good compress decompress cs bind is_letter is_number to_lower stem fold N ncpu _ R P) as [_ Hpl].
      assert (mready compress decompress cs i c (q_terms q) (q_field q) (mu_sh b) b s) as Hr.
      { split; [done|]. split; [done|]. split; [done|]. split; [done|]. exists u. split; [done|]. intros id Hid. destruct (fnd_saved compress decompress cs gz b u (q_field q) (q_terms q) id Rs Hg Hu (Hq q Hqq) Hid) as (t & _ & c0 & H1 & <- & _). by apply Hpl. }
      destruct (mfinish_any compress decompress cs gz pos i c (q_terms q) (q_field q) (mu_sh b) b s Hr) as (b1 & len & size & nft & docs & R1 & R2). inversion R1 as [|? b2 ? St _]; subst.
      + destruct R2 as (_ & _ & _ & R2 & _). eapply YesFan. apply fs_output. exists q, i, c, len, size, nft, docs, (map_to_list docs). done.
      + destruct St as (s0' & u0' & log' & sh' & ths' & qs' & c0' & t0' & f0' & q0' & m0' & q1' & -> & Hi0 & HS & ->). eexists. eapply msg_search; [exact Hi0|exact HS].
  Qed.
  Lemma done_dec (w : fan (qjob N) (list (doc_score N))) : fan_done w \/ ~ fan_done w.
  Proof. unfold fan_done; destruct (fn_main w); (by left) || (by right). Qed.
  (** At rest every GET request has been answered. *)
  Lemma rest_answered x k queries w : steady x -> (forall z, ~ runs_on x z) -> ms_gets x !! k = Some (queries, w) -> (forall q, q ∈ queries -> q_field q <> "docs") -> fan_done w.
  Proof.
    intros S Hno Hk Hq. destruct (done_dec w) as [Hd|Hd]; [done|exfalso]. destruct (get_progress x k queries w S Hk Hq Hd) as [z Hz]. eapply Hno. by apply msw_gets.
  Qed.

  (** * With tickers *)
  Definition req_rank (x : server) : nat * (nat * (nat * nat)) := (total_rank (ms_store x), (gets_rank (ms_gets x), searches_rank (ms_store x))).
  Definition req_lt := lexp lt (lexp lt searches_lt).
  Lemma req_lt_wf : well_founded req_lt.
  Proof. apply lexp_wf; [apply lt_wf|]. apply lexp_wf; [apply lt_wf|]. apply lexp_wf; apply lt_wf. Qed.
  Lemma req_trans a b c : req_lt a b -> req_lt b c -> req_lt a c.
  Proof. destruct a as [a1 [a2 [a3 a4]]], b as [b1 [b2 [b3 b4]]], c as [c1 [c2 [c3 c4]]]. unfold req_lt, searches_lt, lexp. cbn. lia. Qed.
  Lemma gets_rank_step x y : steady x -> ms_gets_work decompress ncpu x y -> req_lt (req_rank y) (req_rank x).
  Proof.
    intros S H. destruct (runs_rank x y S (msw_gets _ _ _ _ _ H)) as [HL|[_ HR]]; [|right].
    - exfalso. unfold server_rank, store_rank, store_lt, lexp in HL. destruct H; cbn in HL; cbn [ms_store mu_sys y_proc] in *; unfold bg_rank, lex3 in HL; cbn in HL; try lia.
    - split; [by destruct H|]. exact HR.
  Qed.
  Definition quiet_step (x y : server) : Prop := live x y /\ ms_now y = ms_now x /\ length (ms_gets y) = length (ms_gets x).
  Lemma thread_rank (ths : list (tpc * msg * list call)) i th th' : ths !! i = Some th -> th_rank th' < th_rank th -> sum_list_with th_rank (<[i := th']> ths) < sum_list_with th_rank ths.
  Proof. apply sum_insert. Qed.
  Lemma call_rank c (cl : list call) : th_rank (t_enter true c, NoMsg, cl) < th_rank (TIdle, NoMsg, c :: cl).
  Proof. unfold th_rank. cbn. lia. Qed.
  Lemma client_rank sh u (th : tpc * msg) (cl : list call) ev sh' u' th' : client_step (sh, u, th) ev (sh', u', th') -> th_rank (th', cl) < th_rank (th, cl).
  Proof. intros G. destruct th as [pc m0], th' as [pc' m0']. apply c_rank_client in G. unfold th_rank. cbn. lia. Qed.
  Lemma quiet_rank x y : steady x -> quiet_step x y -> steady y /\ (req_rank y = req_rank x \/ req_lt (req_rank y) (req_rank x)).
  Proof.
    intros S (HL & Hn & Hc). split.
    - destruct S as (R & P & u & Hu). split; [unfold mserver_reachable in *; eapply rtc_r; [exact R|by left]|]. split.
      + intros body doc. assert (ms_past y = ms_past x) as Hp by (by destruct HL). rewrite Hn, Hp. apply P.
      + destruct HL; cbn [ms_store] in *; [|by eexists|by exists u|by eexists|by eexists]. match goal with K : multi_live _ _ _ _ _ |- _ => destruct K end; unfold mu_open in *; cbn [mu_sys y_proc] in *; try (by eexists).
        match goal with K : live_step _ _ _ _ _ |- _ => inversion K; subst end; cbn in *; try congruence; exfalso; by eapply (H0 _ eq_refl).
    - inversion HL; subst; cbn [ms_now ms_gets ms_store] in *.
      + destruct S as (R & P & u & Hu). unfold mu_open in Hu. cbn [ms_store] in *. destruct H as [y y' sh ths qs K1 K2|y y' sh ths qs g v sh' K1 K2 K3 K4|y y' sh ths qs v v' K1 K2 K3 K4| | | | |]; cbn [mu_sys] in *.
        * exfalso. inversion K1; subst; cbn in *; try congruence; by eapply (K2 _ eq_refl).
        * congruence.
        * left. done.
        * exfalso. destruct H0 as [H0 _]. cbn in H0. rewrite app_length in H0. cbn in H0. lia.
        * right. left. unfold req_rank, total_rank. cbn. eapply thread_rank; [done|apply call_rank].
        * right. left. unfold req_rank, total_rank. cbn. eapply thread_rank; [done|by eapply client_rank].
        * exfalso. destruct H0 as [_ H0]. cbn in H0. rewrite app_length in H0. cbn in H0. lia.
        * right. apply gets_rank_step; [split; [exact R|split; [exact P|by eexists]]|]. by eapply msg_search.
      + exfalso. apply (f_equal length) in Hn. rewrite app_length in Hn. cbn in Hn. lia.
      + exfalso. rewrite app_length in Hc. cbn in Hc. lia.
      + right. apply gets_rank_step; [done|]. by eapply msg_call.
      + right. apply gets_rank_step; [done|]. by eapply msg_fan.
  Qed.
  Lemma posts_rank_step x y : ms_posts_work compress decompress x y -> req_lt (req_rank y) (req_rank x).
  Proof.
    intros [H Ht]. left. unfold req_rank, total_rank. cbn. inversion H as [s u log sh ths qs ev u' s' ? ? E1 E2|s u log sh ths qs i c cl Hi E1 E2|s u log sh ths qs i th cl ev sh' u' th' Hi HC E1 E2].
    - exfalso. apply Ht. by rewrite <- E1, <- E2.
    - cbn. eapply thread_rank; [done|apply call_rank].
    - cbn. eapply thread_rank; [done|by eapply client_rank].
  Qed.
  Definition stutter (x y : server) : Prop := y = x \/ quiet_step x y.
  Lemma run_rank (r : nat -> server) : steady (r 0) -> (forall i, stutter (r i) (r (S i))) -> forall i d, steady (r i) /\ (req_rank (r (i + d)) = req_rank (r i) \/ req_lt (req_rank (r (i + d))) (req_rank (r i))).
  Proof.
    intros S0 Hr. assert (forall i, steady (r i)) as HS. { induction i as [|i IH]; [done|]. destruct (Hr i) as [-> |K]; [done|]. by apply (quiet_rank _ _ IH K). }
    intros i d. split; [done|]. induction d as [|d IH]; [left; by rewrite Nat.add_0_r|]. rewrite Nat.add_succ_r. destruct (Hr (i + d)) as [-> |K]; [done|].
    destruct (quiet_rank _ _ (HS _) K) as [_ [-> |L]]; [done|]. right. destruct IH as [<- |IH]; [done|]. by eapply req_trans.
  Qed.
  Lemma fair_run (r : nat -> server) (Done : server -> Prop) : steady (r 0) -> (forall i, stutter (r i) (r (S i))) ->
    (forall i, Done (r i) \/ exists j, i <= j /\ (Done (r j) \/ req_lt (req_rank (r (S j))) (req_rank (r j)))) -> exists i, Done (r i).
  Proof.
    intros S0 Hr Hf. assert (forall k i, req_rank (r i) = k -> exists j, Done (r j)) as K; [|by eapply (K _ 0)].
    intros k. induction (req_lt_wf k) as [k _ IH]. intros i Ek. destruct (Hf i) as [?|(j & Hij & [?|HL])]; [by exists i|by exists j|].
    eapply (IH (req_rank (r (S j)))); [|done]. subst k. destruct (run_rank r S0 Hr i (j - i)) as [_ E]. replace (i + (j - i)) with j in E by lia.
    destruct E as [<- |E]; [done|by eapply req_trans].
  Qed.
  (** From every state in which the store is open there is a run that is fair to the GET
      requests. *)
  Lemma all_done_dec (x : server) : (forall k queries w, ms_gets x !! k = Some (queries, w) -> fan_done w) \/ exists k queries w, ms_gets x !! k = Some (queries, w) /\ ~ fan_done w.
  Proof.
    destruct x as [b gs now past]. cbn. induction gs as [|[q w] gs [IH|(k & q1 & w1 & H1 & H2)]]; [by left| |right; by exists (S k), q1, w1].
    destruct (done_dec w) as [Hd|Hd]; [left|right; by exists 0, q, w]. intros [|k] q1 w1 Hk; cbn in Hk; [by injection Hk as <- <-|by eapply IH].
  Qed.
  Definition no_docs (x : server) : Prop := forall queries w q, (queries, w) ∈ ms_gets x -> q ∈ queries -> q_field q <> "docs".
  Lemma no_docs_step x y : no_docs x -> ms_gets_work decompress ncpu x y -> no_docs y.
  Proof.
    intros H G q w qu Hin Hq. destruct G as [| |]; cbn in *; [by eapply H| |].
    all: apply elem_of_list_lookup in Hin as [i Hi]; apply list_lookup_insert_Some in Hi as [(-> & E & _)|(_ & Hi)]; [injection E as -> ->; eapply (H _ w0); [by eapply elem_of_list_lookup_2|done]|eapply (H _ w); [by eapply elem_of_list_lookup_2|done]].
  Qed.
  Lemma answering_run x : steady x -> no_docs x -> exists (r : nat -> server) n, r 0 = x /\ (forall i, i < n -> ms_gets_work decompress ncpu (r i) (r (S i))) /\ (forall i, n <= i -> r i = r n) /\
    forall k queries w, ms_gets (r n) !! k = Some (queries, w) -> fan_done w.
  Proof.
    remember (req_rank x) as k eqn:Ek. revert x Ek. induction (req_lt_wf k) as [k _ IH]. intros x -> S Hq.
    destruct (all_done_dec x) as [Hd|(k & queries & w & Hk & Hn)]; [exists (fun _ => x), 0; split; [done|]; split; [intros i Hi; lia|]; split; [done|exact Hd]|].
    destruct (get_progress x k queries w S Hk) as [z Hz]; [intros q; apply (Hq queries w); by eapply elem_of_list_lookup_2|done|].
    destruct (IH _ (gets_rank_step _ _ S Hz) z eq_refl) as (r & n & H0 & H1 & H2 & H3); [eapply steady_step; [exact S|by apply msw_gets]|by eapply no_docs_step|].
    exists (fun i => match i with 0 => x | Datatypes.S j => r j end), (Datatypes.S n). split; [done|]. split; [intros [|i] Hi; [by rewrite H0|apply H1; lia]|]. split; [intros [|i] Hi; [lia|apply H2; lia]|done].
  Qed.
  Lemma gets_quiet x y : steady x -> ms_gets_work decompress ncpu x y -> quiet_step x y.
  Proof.
    intros S H. split; [|split; [by destruct H|destruct H; cbn; by rewrite ?insert_length]]. apply runs_live; [by apply msw_gets|]. by apply steady_good.
  Qed.
End rest.
