(** C69, continued: a document posted while nothing else was in progress is found by every
    later GET request of the session, while the cache has room. *)
From Verif Require Import Base M_Text M_Language M_Field M_LRU S_Visits M_Memory M_File M_Serialize M_Num M_FanIn M_Search M_Concurrent M_SearchConc M_Disk M_DiskBusy M_DiskMulti M_Standard M_Server M_BusyServer M_MultiServer S_Search S_Server S_Concurrent S_DiskMulti S_DiskQuery S_BusyServer S_MultiServer P_FanIn P_Standard P_Server P_BusyServer P_DiskInv P_DiskIndex3 P_DiskIndex4 P_DiskMulti P_DiskMulti2 P_DiskMulti3 P_DiskMulti5 P_DiskMulti7 P_DiskFrozen P_BusyServer2 T_BusyServer T_DiskMulti T_DiskMulti4 T_DiskQuery P_MultiServer P_MultiServer2 P_MultiServer3 S_Disk.
From Verif Require Import P_DiskFrozen P_DiskKept P_DiskKept2 P_DiskIndex P_MultiServer4 T_DiskQuery2 T_MultiServer S_DiskQuery2 S_MultiServer2 X_DiskExec X_DiskMulti X_DiskQuery T_Server T_BusyServer2 T_DiskMulti2 X_MultiServer T_MultiServer2 S_Disk.
#[local] Open Scope nat_scope.
#[local] Opaque serialize_metrics serialize_nft serialize_field_map serialize_index deserialize_index deserialize_nft deserialize_field_map deserialize_metrics.

Lemma session_open compress decompress cs a b : mu_session compress decompress cs a b -> (exists u, mu_open b u) -> exists u, mu_open a u.
Proof. intros H Ho. inversion H as [|? ? ? [_ Hu] _]; subst; done. Qed.
(** Saves made one after the other: each has its moments. *)
Lemma store_chain compress decompress cs j c : gzip_ok compress decompress -> (0 < cs)%Z -> forall l a b ev,
  multi_reachable compress decompress cs a -> mu_session compress decompress cs a b -> mu_session compress decompress cs b c -> mu_between a -> mu_between b -> mu_none_searching a -> mu_searches b = mu_searches a ->
  only j a -> length (mu_threads b) <= S j -> mu_log b = mu_log a ++ ev -> calls_of ev = l -> (forall c0, c0 ∈ l -> exists d x, c0 = Save d x) -> good_log (mu_log c) -> (exists u, mu_open c u) ->
  forall d x, Save d x ∈ l -> exists m1 m2 u, multi_reachable compress decompress cs m1 /\ mu_open m1 u /\ mu_session compress decompress cs m1 m2 /\ mu_one_save d x m1 m2 /\ mu_session compress decompress cs m2 c /\ mu_searches m2 = mu_searches b.
Proof.
  intros gz pos. induction l as [|c0 l IH]; intros a b ev R Hab Hbc Ba Bb Hq Hn O Hl E Ec HS Hg Hoc d x Hin; [by apply elem_of_nil in Hin|].
  destruct (one_by_one _ _ _ j a b Hab O Hl Bb ev c0 l E Ec) as (m & ev1 & ev2 & M1 & M2 & M3 & M4 & M5 & M6 & M7 & M8).
  assert (exists u, mu_open b u) as Hob by (by eapply session_open). assert (exists u, mu_open m u) as Hom by (by eapply session_open). destruct (session_open _ _ _ _ _ M1 Hom) as [u Hu].
  destruct (HS c0 ltac:(left)) as (d0 & x0 & ->). assert (mu_searches m = mu_searches a) as Hnm. { pose proof (session_searches _ _ _ _ _ M1). pose proof (session_searches _ _ _ _ _ M2). unfold mu_searches in *. lia. }
  assert (good_log (mu_log m)) as Hgm. { destruct (session_log _ _ _ _ _ Hbc) as [e3 E3]. intros c1 Hc1. apply Hg. rewrite E3, M7, !calls_app, !elem_of_app. by left; left. }
  destruct (lone_saved _ _ _ d0 x0 a m u gz pos R Hu Ba Hq M1 ltac:(by exists ev1) Hnm M4 Hom Hgm) as (Q1 & _).
  apply elem_of_cons in Hin as [[= -> ->]|Hin].
  - exists a, m, u. split; [done|]. split; [done|]. split; [done|]. split; [|split; [unfold mu_session in *; by etransitivity|congruence]]. split; [done|]. split; [done|]. split; [done|]. split; [done|]. by exists ev1.
  - eapply (IH m b ev2); try done; [eapply session_reach; [exact R|exact M1]|congruence|]. intros c1 Hc1. apply HS. by right.
Qed.
(** A document posted while no other POST request and no search was in progress is found by
    every GET request that arrives later in the session and shares a term with its title
    (its text), whatever is handled at the same time, as long as the cache has room for
    every document. *)
Theorem C69_finds_posted : forall compress decompress cs, gzip_ok compress decompress -> (0 < cs)%Z ->
  forall bind is_letter is_number to_lower stem fold N ncpu,
  let terms := terms_of is_letter is_number to_lower stem fold in
  forall (a b c : mserver N) u body doc f t k text rs,
  mserver_reachable compress decompress cs bind is_letter is_number to_lower stem fold N ncpu a -> mu_open (ms_store a) u ->
  ms_session compress decompress cs bind is_letter is_number to_lower stem fold ncpu a b -> ms_posted_alone body a b ->
  bind body = Some doc -> is_not_document_complete doc = false -> f = "title" \/ f = "text" ->
  ms_session compress decompress cs bind is_letter is_number to_lower stem fold ncpu b c -> plain_ids bind c -> mu_room cs (ms_store c) ->
  ms_count b <= k -> ms_returned c k (get_queries N (terms text)) rs ->
  t ∈ terms text -> t ∈ terms (if String.eqb f "title" then d_title doc else d_text doc) ->
  d_id doc ∈ rs.*1.
Proof.
  intros compress decompress cs gz pos bind il inum tl st fo N ncpu tm a b c u body doc f t k text rs Ha Hu Hab (Sa & Sb & Hq & Hn & Hnow) Hbd Hcp Hf Hbc Hp Hroom Hk Hret Ht Htd.
  pose proof (ms_session_reach _ _ _ _ _ _ _ _ _ _ _ _ _ Ha Hab) as Hb. pose proof (ms_session_reach _ _ _ _ _ _ _ _ _ _ _ _ _ Hb Hbc) as Hc.
  destruct (plain_good compress decompress cs bind il inum tl st fo N ncpu c Hc Hp) as [Hg _].
  pose proof (ms_store_session _ _ _ _ _ _ _ _ _ _ _ _ _ Hab) as Sab. pose proof (ms_store_session _ _ _ _ _ _ _ _ _ _ _ _ _ Hbc) as Sbc.
  destruct (session_log _ _ _ _ _ Sab) as [ev E].
  destruct (alone_calls compress decompress cs bind il inum tl st fo N ncpu (length (mu_threads (ms_store a))) (ms_log a) (ms_now a) body a b ev Hab Sa Sb eq_refl eq_refl eq_refl Hnow E) as (O & Hl & status & Hpost).
  assert (status = 201%Z) as ->. { inversion Hpost; subst; congruence. }
  destruct (post_saves _ _ _ _ _ _ _ _ Hpost) as (doc' & Hbd' & _ & Hcalls). rewrite Hbd in Hbd'. injection Hbd' as <-.
  assert (exists u', mu_open (ms_store c) u') as Hoc. { destruct Hret as (w & Hw & _). by eapply gets_open. }
  set (x := posted_field f (tm (if String.eqb f "title" then d_title doc else d_text doc))).
  assert (Save (d_id doc) x ∈ calls_of ev) as Hin. { rewrite Hcalls. unfold x. destruct Hf as [-> | ->]; cbn; [right; left|right; right; left]. }
  destruct (store_chain compress decompress cs (length (mu_threads (ms_store a))) (ms_store c) gz pos (calls_of ev) (ms_store a) (ms_store b) ev) with (d := d_id doc) (x := x) as (m1 & m2 & u1 & M1 & M2 & M3 & M4 & M5 & M6); try done.
  { by eapply ms_store_reach. } { by apply served_between. } { by apply served_between. } { intros c0 Hc0. rewrite Hcalls in Hc0. rewrite !elem_of_cons, elem_of_nil in Hc0. destruct Hc0 as [->|[->|[->|[]]]]; eauto. }
  destruct (C69_ranking _ _ _ _ _ _ _ _ _ _ _ b c k _ rs Hb Hbc Hk Hret) as (qrs & H1 & H2 & _ & H4 & _).
  destruct (ms_query_in qrs _ _ H1 (query_get (tm text) f Hf)) as (len & size & nft & docs & Hqr). destruct (H2 _ Hqr) as (i & Hi & Hs). cbn in Hs.
  destruct (C68_finds_saved compress decompress cs gz pos m1 u1 m2 (ms_store c) (d_id doc) x t i (tm text) len size nft docs) as (y & ev' & Hy & _); try done.
  - unfold x. cbn [posted_field f_tf]. by rewrite term_frequency_key.
  - by rewrite M6.
  - by eapply ms_found_in.
Qed.
Print Assumptions C69_finds_posted.

(** The hypotheses: a new store with a cache for two documents; the first document is posted
    and served alone; then a GET request arrives while the second is being posted. *)
Definition run_p2 : list (bool * vact) := [(false, VPost "one")] ++ vq (serve 0 ++ serve 0 ++ serve 0).
Definition run_p3 : list (bool * vact) := [(false, VPost "two")] ++ vq ((false, MCall 1) :: msteps 3 1) ++ [(false, VGet "red moon")] ++ vq (msteps 1 1).
Lemma own_index {N} compress decompress cs bind il inum tl st fo ncpu (gz : gzip_ok compress decompress) (pos : (0 < cs)%Z) (x y : mserver N) : rtc (step_of_ms_gets compress decompress cs bind il inum tl st fo ncpu) x y ->
  mserver_reachable compress decompress cs bind il inum tl st fo N ncpu x -> good_log (ms_log x) -> forall u u', mu_open (ms_store x) u -> mu_open (ms_store y) u' -> c_index (u_mem u') = c_index (u_mem u) /\ ms_log y = ms_log x.
Proof.
  induction 1 as [x|x y z H _ IH]; intros R Hg u u' Hu Hu'; [unfold mu_open in *; rewrite Hu in Hu'; by injection Hu' as <-|].
  destruct H as (HL & _ & El & _ & _ & _ & _ & u1 & u2 & Hu1 & Hu2 & _). unfold mu_open in Hu, Hu1. rewrite Hu in Hu1. injection Hu1 as <-.
  assert (mserver_reachable compress decompress cs bind il inum tl st fo N ncpu y) as Ry by (unfold mserver_reachable in *; eapply rtc_r; [exact R|by left]).
  destruct (IH Ry ltac:(by rewrite El) _ _ Hu2 Hu') as [-> ->]. split; [|done].
  destruct (ms_store_live _ _ _ _ _ _ _ _ _ _ _ _ _ HL) as [E|HM]; [unfold mu_open in *; first [rewrite E, Hu in Hu2|rewrite <- E, Hu in Hu2|rewrite E in Hu; rewrite Hu in Hu2]; by injection Hu2 as <-|].
  eapply (live_index compress decompress cs gz (ms_store x) (ms_store y)); [by eapply ms_store_reach|exact Hg|exact HM|exact Hu|exact Hu2].
Qed.

Example C69_case_posted : forall N, exists (a b c : mserver N) u rs,
  mserver_reachable id Some 2 mb_bind bs_letter bs_number same same same N 4 a /\ mu_open (ms_store a) u /\
  ms_session id Some 2 mb_bind bs_letter bs_number same same same 4 a b /\ ms_posted_alone "one" a b /\
  ms_session id Some 2 mb_bind bs_letter bs_number same same same 4 b c /\ plain_ids mb_bind c /\ mu_room 2 (ms_store c) /\
  ms_count b <= 0 /\ ms_returned c 0 (get_queries N (bs_terms "red moon")) rs /\ ms_now c = ["one"; "two"] /\ ~ served (ms_store c) /\
  "red" ∈ bs_terms "red moon" /\ "red" ∈ bs_terms "red sun" /\ "d1" ∈ rs.*1.
Proof.
  intros N.
  assert (match vplay 2 v_any run_v1 (mserver_init N) with
    | Some a => match vplay 2 v_up run_p2 a with
      | Some b => match vplay 2 v_up run_p3 b with
        | Some c => (v_up a && servedb (ms_store a) && servedb (ms_store b) && (length (mu_qs (ms_store a)) =? 0) && (length (mu_qs (ms_store b)) =? 0) && bool_decide (ms_now a = []) && bool_decide (ms_now b = ["one"]) && bool_decide (ms_now c = ["one"; "two"]) && (length (ms_gets b) =? 0)) &&
            ((length (ms_gets c) =? 1) && negb (servedb (ms_store c)) && bool_decide (map call_doc' (calls_of (ms_log c)) = ["d1"; "d1"; "d1"; "d2"]) && match y_proc (mu_sys (ms_store c)) with Up u => bool_decide (c_index (u_mem u) = ∅) | _ => false end)
        | None => false end | None => false end | None => false end = true) as H by (vm_compute; reflexivity).
  assert (match vplay 2 v_any run_v1 (mserver_init N) with Some a => match vplay 2 v_up run_p2 a with Some b => match vplay 2 v_up run_p3 b with Some c => (ms_gets c).*1 | None => [] end | None => [] end | None => [] end = [get_queries N (bs_terms "red moon")]) as HG by (vm_compute; reflexivity).
  destruct (vplay 2 v_any run_v1 (mserver_init N)) as [a|] eqn:Ea; [|discriminate H]. destruct (vplay 2 v_up run_p2 a) as [b|] eqn:Eb; [|discriminate H]. destruct (vplay 2 v_up run_p3 b) as [c|] eqn:Ec; [|discriminate H].
  pose proof (vplay_step 2 4 _ _ _ _ Ea) as Ra. pose proof (vplay_session 2 4 _ _ _ Eb) as Rb. pose proof (vplay_session 2 4 _ _ _ Ec) as Rc. clear Ea Eb Ec.
  rewrite !andb_true_iff in H. destruct H as [((((((((H0 & H1) & H2) & H3) & H4) & H5) & H6) & H7) & H8) (((K1 & K2) & K3) & K4)]. apply bool_decide_eq_true_1 in H5, H6, H7, K3. apply Nat.eqb_eq in H3, H4, H8, K1. apply servedb_ok in H1, H2.
  unfold v_up in H0. destruct (y_proc (mu_sys (ms_store a))) as [| |u] eqn:Eu; try discriminate H0. destruct (y_proc (mu_sys (ms_store c))) as [| |uc] eqn:Euc; try discriminate K4. apply bool_decide_eq_true_1 in K4.
  destruct (ms_gets c) as [|[queries w] [|]] eqn:Eg; try discriminate K1. cbn in HG. injection HG as HG.
  assert (ms_gets c !! 0 = Some (get_queries N (bs_terms "red moon"), w)) as Eg0 by (rewrite Eg; cbn; by rewrite HG).
  assert (mserver_reachable id Some 2 mb_bind bs_letter bs_number same same same N 4 c) as Hc by (eapply ms_session_reach; [eapply ms_session_reach; [exact Ra|exact Rb]|exact Rc]).
  destruct (C69_can_answer id Some 2 ltac:(by intros ?) ltac:(done) mb_bind bs_letter bs_number same same same N 4 ltac:(lia) c 0 _ w Hc (mb_plain c) (get_not_docs _) Eg0) as (y & rs & Hy & Hrs).
  destruct (mown_same _ _ _ _ _ _ _ _ _ _ _ _ _ Hy) as (El & En & _).
  assert (ms_session id Some 2 mb_bind bs_letter bs_number same same same 4 b y) as Sy by (unfold ms_session in *; etransitivity; [exact Rc|]; by apply mown_session).
  assert (ms_posted_alone "one" a b) as HP.
  { split; [exact H1|]. split; [exact H2|]. split; [|split; [unfold mu_searches; by rewrite H3, H4|by rewrite H5, H6]]. intros q Hq. apply length_zero_iff_nil in H3. rewrite H3 in Hq. by apply elem_of_nil in Hq. }
  assert (mu_room 2 (ms_store y)) as HR.
  { exists {["d1"; "d2"]}. split; [by vm_compute|]. intros d [(u1 & f & t & Hu1 & S & HS & _)|(c0 & Hc0 & <-)].
    - exfalso. destruct (plain_good id Some 2 mb_bind bs_letter bs_number same same same N 4 c Hc (mb_plain c)) as [Hg _].
      destruct (own_index _ _ _ _ _ _ _ _ _ _ ltac:(by intros ?) (eq_refl : (0 < 2)%Z) _ _ Hy Hc Hg uc u1 Euc Hu1) as [E _]. unfold disk_get_index in HS. rewrite E, K4, lookup_empty in HS. cbn in HS. discriminate HS.
    - change (mu_log (ms_store y)) with (ms_log y) in Hc0. rewrite El in Hc0. assert (call_doc' c0 ∈ map call_doc' (calls_of (ms_log c))) as Hin by (by apply elem_of_list_fmap_1). rewrite K3 in Hin. rewrite !elem_of_cons in Hin. set_solver. }
  assert ("red" ∈ bs_terms "red moon") as T1 by (vm_compute; left). assert ("red" ∈ bs_terms "red sun") as T2 by (vm_compute; left).
  assert (ms_count b <= 0) as HC by (unfold ms_count; by rewrite H8).
  exists a, b, y, u, rs. split; [exact Ra|]. split; [exact Eu|]. split; [exact Rb|]. split; [exact HP|]. split; [exact Sy|]. split; [apply mb_plain|]. split; [exact HR|]. split; [exact HC|]. split; [exact Hrs|]. split; [by rewrite En|]. split.
  { intros Hs. assert (servedb (ms_store c) = true) as X; [|rewrite X in K2; discriminate K2]. unfold servedb. apply forallb_forall. intros th Hth. apply elem_of_list_In in Hth. rewrite (Hs th); [done|]. by rewrite (mown_threads _ _ _ _ _ _ _ _ _ _ _ _ Hy). }
  split; [exact T1|]. split; [exact T2|].
  exact (C69_finds_posted id Some 2 ltac:(by intros ?) ltac:(done) mb_bind bs_letter bs_number same same same N 4 a b y u "one" (mkDocument "d1" "star" "red sun") "text" "red" 0 "red moon" rs
    Ra Eu Rb HP eq_refl eq_refl (or_intror eq_refl) Sy (mb_plain y) HR HC Hrs T1 T2).
Qed.
