(** C68, continued: a document that is in the cache and in the index is found by every
    search, while the cache has room. *)
From Verif Require Import T_DiskDocs.
From Verif Require Import Base M_Field M_LRU S_Visits M_Memory M_File M_Serialize M_Num M_FanIn M_Search M_Concurrent M_SearchConc M_Disk P_Base P_File P_LRU P_FanIn2 P_SearchConc P_SearchConc3 S_Concurrent P_Concurrent P_Concurrent2 P_DiskBase P_DiskInv P_DiskMem P_DiskWriter P_DiskDocs P_DiskBusy P_DiskBusy3 P_DiskBusy4 P_DiskBusy5 P_DiskBusy11 P_DiskBusy12 M_DiskBusy M_DiskMulti P_DiskIndex3 P_DiskIndex4 S_Disk S_DiskMulti S_DiskQuery S_DiskQuery2 P_DiskMulti P_DiskMulti2 P_DiskMulti3 P_DiskMulti5 P_DiskQuery P_DiskMulti6 P_DiskQuery2 P_DiskFrozen P_DiskKept P_DiskKept2 T_DiskIndex T_DiskNft T_DiskMulti T_DiskMulti2 X_DiskExec X_DiskBusy X_DiskMulti X_DiskQuery  T_DiskQuery.
#[local] Open Scope nat_scope.
#[local] Opaque serialize_metrics serialize_nft serialize_field_map serialize_index deserialize_index deserialize_nft deserialize_field_map deserialize_metrics.

(** If at a moment [b] nothing is in progress, the index lists document d under term t and
    the cache holds d with field x, then every search of that field that starts later in
    the session and asks for t returns d, with x or with a field saved since - whoever
    saves or searches what at the same time - as long as the cache has room for every
    document. *)
Theorem C68_finds_cached : forall compress decompress cache_size, gzip_ok compress decompress -> (0 < cache_size)%Z ->
  forall b c d x t i terms len size nft docs,
  multi_reachable compress decompress cache_size b -> mu_between b -> mu_none_searching b -> shown (mu_sh b) (f_name x) t d -> mu_cached b d x ->
  mu_session compress decompress cache_size b c -> good_log (mu_log c) -> mu_room cache_size c ->
  mu_returned c i terms (f_name x) len size nft docs -> mu_searches b <= i -> t ∈ terms ->
  exists y ev, docs !! d = Some y /\ mu_log c = mu_log b ++ ev /\ (y = x \/ (Save d y ∈ calls_of ev /\ f_name y = f_name x)).
Proof.
  intros compress decompress cs gz pos b c d x t i terms len size nft docs R Hs Hq Hsh (u & e & l & fd & Hu & H1 & H2 & H3 & H4) Hbc Hg (D & HD & HK) Hret Hi Ht.
  destruct (mkept_start d x t b u e l fd Hu Hs Hq Hsh H1 H2 H3 H4) as (l0 & a0 & K).
  assert (multi_reachable compress decompress cs c) as Rc by (eapply session_reach; [exact R|exact Hbc]).
  assert (exists uc, mu_open c uc) as [uc Huc].
  { destruct (s_reach compress decompress cs gz c Rc Hg) as [_ S]. destruct Hret as [n Hret]. unfold mu_open. destruct (y_proc (mu_sys c)) as [| |uc]; [..|by exists uc]; rewrite S in Hret; discriminate Hret. }
  assert (fits D c) as F. { exists uc. split; [done|]. intros k Hk. apply HK. destruct Hk as [(f1 & t1 & Hk)|Hk]; [left|by right]. exists uc, f1, t1. split; [done|]. by apply listed_has. }
  pose proof (mkept_run compress decompress cs gz pos d x D t l0 a0 HD _ _ b c Hbc R Hg F K) as Kc.
  eapply mkept_found in Kc as (ev & y & E1 & E2 & E3); try (by eauto).
Qed.
Print Assumptions C68_finds_cached.

(** So a document saved while nothing else is in progress is found by every search of that
    field for one of its terms that starts later in the session, with that field or with
    one saved since, whatever is saved and searched meanwhile. *)
Theorem C68_finds_saved : forall compress decompress cache_size, gzip_ok compress decompress -> (0 < cache_size)%Z ->
  forall a u b c d x t i terms len size nft docs,
  multi_reachable compress decompress cache_size a -> mu_open a u -> mu_session compress decompress cache_size a b -> mu_one_save d x a b -> is_Some (f_tf x !! t) ->
  mu_session compress decompress cache_size b c -> good_log (mu_log c) -> mu_room cache_size c ->
  mu_returned c i terms (f_name x) len size nft docs -> mu_searches b <= i -> t ∈ terms ->
  exists y ev, docs !! d = Some y /\ mu_log c = mu_log b ++ ev /\ (y = x \/ (Save d y ∈ calls_of ev /\ f_name y = f_name x)).
Proof.
  intros compress decompress cs gz pos a u b c d x t i terms len size nft docs R Hu Hab (Hsa & Hsb & Hqa & Hn & Hev) Hx Hbc Hg Hroom Hret Hi Ht.
  assert (multi_reachable compress decompress cs b) as Rb by (eapply session_reach; [exact R|exact Hab]).
  assert (multi_reachable compress decompress cs c) as Rc by (eapply session_reach; [exact Rb|exact Hbc]).
  assert (exists uc, mu_open c uc) as Hoc.
  { destruct (s_reach compress decompress cs gz c Rc Hg) as [_ S]. destruct Hret as [n Hret]. unfold mu_open. destruct (y_proc (mu_sys c)) as [| |uc]; [..|by exists uc]; rewrite S in Hret; discriminate Hret. }
  assert (exists ub, mu_open b ub) as Hob by (inversion Hbc as [|? b' ? [_ Hob] _]; subst; done).
  assert (good_log (mu_log b)) as Hgb. { destruct (session_log compress decompress cs _ _ Hbc) as [ev2 E2]. intros c0 Hc0. apply Hg. rewrite E2, calls_app. apply elem_of_app. by left. }
  destruct (lone_saved _ _ _ d x a b u gz pos R Hu Hsa Hqa Hab Hev Hn Hsb Hob Hgb) as (Q1 & Q2 & Q3). eapply C68_finds_cached; eauto.
Qed.
Print Assumptions C68_finds_saved.

(** * The hypotheses are met *)
Definition run_k1 : list (bool * qact) := qm (mopen ++ [(false, MReq [Save "d1" x_a]); (false, MCall 0); (true, MStep 0)]).
(** Another document is being saved when the search for "a" and "b" starts, and its
    document part comes between the steps of the search. *)
Definition run_k2 : list (bool * qact) := qm [(false, MReq [Save "d2" x_b]); (false, MCall 1)] ++ qm (msteps 20 1) ++ (false, QCall 4 ["a"; "b"] "text") :: repeat (false, QSearch 0) 20 ++ qm [(true, MStep 1)] ++ [(true, QSearch 0)].
Lemma served_between a : served a -> mu_between a.
Proof. intros H th Hin. by rewrite (H th Hin). Qed.
Definition cachedb (u : up) (d : string) (x : field) : bool :=
  match lr_table (c_cache (u_mem u)) !! d with
  | Some e => match lr_page (c_cache (u_mem u)) !! e with
              | Some (d', l) => bool_decide (d' = d) && bool_decide ((c_heap (u_mem u) !! l) ≫= (.!! f_name x) = Some x)
              | None => false end
  | None => false end.
Lemma cachedb_ok b u d x : mu_open b u -> cachedb u d x = true -> mu_cached b d x.
Proof.
  intros Hu H. unfold cachedb in H. destruct (lr_table _ !! d) as [e|] eqn:E1; [|done]. destruct (lr_page _ !! e) as [[d' l]|] eqn:E2; [|done]. apply andb_true_iff in H as [H1 H2]. apply bool_decide_eq_true_1 in H1, H2. subst d'.
  destruct (c_heap (u_mem u) !! l) as [fd|] eqn:E3; [|discriminate H2]. exists u, e, l, fd. done.
Qed.
Definition obs_k (b c : multi) :=
  match y_proc (mu_sys b), y_proc (mu_sys c), mu_qs c with
  | Up u, Up u', [mkMQ n0 t0 f0 (MqRet len n nft docs)] =>
      Some (t0, f0, len, n, bool_decide (nft = {["a" := 1%Z; "b" := 1%Z]}), bool_decide (docs = {["d1" := x_a; "d2" := x_b]}), bool_decide (calls_of (mu_log b) = [Save "d1" x_a]), bool_decide (calls_of (mu_log c) = [Save "d1" x_a; Save "d2" x_b]),
        (servedb b, showb (mu_sh b) "text" "a" "d1", cachedb u "d1" x_a, length (mu_qs b), bool_decide (c_index (u_mem u') = ∅)))
  | _, _, _ => None
  end.
Example C68_case_cached : exists b c docs, multi_reachable id Some 2 b /\ mu_between b /\ mu_none_searching b /\ shown (mu_sh b) (f_name x_a) "a" "d1" /\ mu_cached b "d1" x_a /\
  mu_session id Some 2 b c /\ good_log (mu_log c) /\ mu_room 2 c /\ mu_returned c 0 ["a"; "b"] (f_name x_a) 3 2 {["a" := 1%Z; "b" := 1%Z]} docs /\ mu_searches b <= 0 /\ "a" ∈ ["a"; "b"] /\
  docs = {["d1" := x_a; "d2" := x_b]} /\ calls_of (mu_log c) = [Save "d1" x_a; Save "d2" x_b].
Proof.
  destruct (qplay_obs2 2 run_k1 run_k2 obs_k (Some (["a"; "b"], "text", 3%Z, 2%Z, true, true, true, true, (true, true, true, 0, true))) ltac:(reflexivity) ltac:(vm_compute; reflexivity)) as (b & c & u & Rb & Eu & Rs & Rc & H).
  unfold obs_k in H. unfold mu_open in Eu. rewrite Eu in H. destruct (y_proc (mu_sys c)) as [| |u'] eqn:Eu'; try discriminate H. destruct (mu_qs c) as [|[n0 t0 f0 q0] [|]] eqn:Eq; try discriminate H; destruct q0; try discriminate H.
  injection H as -> -> -> -> H1 H2 H3 H4 H5 H6 H7 H8 H9. apply bool_decide_eq_true_1 in H1, H2, H3, H4, H9. rewrite H1 in Eq. apply servedb_ok, served_between in H5. apply showb_ok in H6.
  exists b, c. eexists. split; [exact Rb|]. split; [exact H5|]. split; [|split; [exact H6|split; [by eapply cachedb_ok|split; [exact Rs|split; [apply (good_log_case _ _ H4); repeat constructor; done|split; [|split; [by exists n0; rewrite Eq|]]]]]]].
  - intros q Hq. apply length_zero_iff_nil in H8. rewrite H8 in Hq. by apply elem_of_nil in Hq.
  - exists {["d1"; "d2"]}. split; [by vm_compute|]. intros d [(u1 & f & t & Hu1 & S & HS & _)|(c0 & Hc & <-)].
    + unfold mu_open in Hu1. rewrite Eu' in Hu1. injection Hu1 as <-. exfalso. clear -H9 HS. unfold disk_get_index in HS. rewrite H9 in HS. rewrite lookup_empty in HS. cbn in HS. discriminate HS.
    + rewrite H4 in Hc. rewrite !elem_of_cons in Hc. destruct Hc as [->|[->|Hc%elem_of_nil]]; cbn; set_solver.
  - split; [unfold mu_searches; by rewrite H8|]. split; [left|]. by split.
Qed.

(** Those of C68_finds_saved: the store is new, the save is the first. *)
Lemma qplay_obs3 {A} (cs : Z) l1 l2 l3 (obs : multi -> multi -> multi -> A) (v : A) : forallb (fun p => q_insession p.2) l2 = true -> forallb (fun p => q_insession p.2) l3 = true ->
  match qplay id Some cs l1 multi_init with
  | Some a => match y_proc (mu_sys a), qplay id Some cs l2 a with
              | Up _, Some b => match y_proc (mu_sys b), qplay id Some cs l3 b with Up _, Some c => Some (obs a b c) | _, _ => None end
              | _, _ => None end
  | None => None end = Some v ->
  exists a u b c, multi_reachable id Some cs a /\ mu_open a u /\ mu_session id Some cs a b /\ mu_session id Some cs b c /\ obs a b c = v.
Proof.
  intros H2 H3 H. destruct (qplay id Some cs l1 multi_init) as [a|] eqn:E1; [|done]. destruct (y_proc (mu_sys a)) as [| |u] eqn:Eu; try done. destruct (qplay id Some cs l2 a) as [b|] eqn:E2; [|done].
  destruct (y_proc (mu_sys b)) as [| |u2] eqn:Eu2; try done. destruct (qplay id Some cs l3 b) as [c|] eqn:E3; [|done]. injection H as <-. exists a, u, b, c. split; [by eapply qplay_ok|]. split; [done|]. split; [eapply qplay_session; [exact H2|exact Eu|exact E2]|]. split; [eapply qplay_session; [exact H3|exact Eu2|exact E3]|done].
Qed.
Definition run_s1 : list (bool * qact) := qm mopen.
Definition run_s2 : list (bool * qact) := qm [(false, MReq [Save "d1" x_a]); (false, MCall 0); (true, MStep 0)].
Definition obs_s (a b c : multi) :=
  match y_proc (mu_sys c), mu_qs c with
  | Up u', [mkMQ n0 t0 f0 (MqRet len n nft docs)] =>
      Some (t0, f0, len, n, bool_decide (nft = {["a" := 1%Z; "b" := 1%Z]}), bool_decide (docs = {["d1" := x_a; "d2" := x_b]}), bool_decide (calls_of (mu_log a) = []), bool_decide (calls_of (mu_log b) = [Save "d1" x_a]), bool_decide (calls_of (mu_log c) = [Save "d1" x_a; Save "d2" x_b]),
        (servedb a, servedb b, length (mu_qs a), length (mu_qs b), bool_decide (c_index (u_mem u') = ∅)))
  | _, _ => None
  end.
Example C68_case_saved : exists a u b c docs, multi_reachable id Some 2 a /\ mu_open a u /\ mu_session id Some 2 a b /\ mu_one_save "d1" x_a a b /\ is_Some (f_tf x_a !! "a") /\
  mu_session id Some 2 b c /\ good_log (mu_log c) /\ mu_room 2 c /\ mu_returned c 0 ["a"; "b"] (f_name x_a) 3 2 {["a" := 1%Z; "b" := 1%Z]} docs /\ mu_searches b <= 0 /\ "a" ∈ ["a"; "b"] /\
  docs = {["d1" := x_a; "d2" := x_b]} /\ calls_of (mu_log c) = [Save "d1" x_a; Save "d2" x_b].
Proof.
  destruct (qplay_obs3 2 run_s1 run_s2 run_k2 obs_s (Some (["a"; "b"], "text", 3%Z, 2%Z, true, true, true, true, true, (true, true, 0, 0, true))) ltac:(reflexivity) ltac:(reflexivity) ltac:(vm_compute; reflexivity)) as (a & u & b & c & Ra & Eu & Rs & Rc & H).
  unfold obs_s in H. destruct (y_proc (mu_sys c)) as [| |u'] eqn:Eu'; try discriminate H. destruct (mu_qs c) as [|[n0 t0 f0 q0] [|]] eqn:Eq; try discriminate H; destruct q0; try discriminate H.
  injection H as -> -> -> -> H1 H2 H0 H3 H4 H5 H6 H7 H8 H9. apply bool_decide_eq_true_1 in H0, H1, H2, H3, H4, H9. rewrite H1 in Eq. apply servedb_ok, served_between in H5, H6.
  destruct (session_log id Some 2 a b Rs) as [ev E].
  exists a, u, b, c. eexists. split; [exact Ra|]. split; [exact Eu|]. split; [exact Rs|]. split; [|split; [by eexists|split; [exact Rc|split; [apply (good_log_case _ _ H4); repeat constructor; done|split; [|split; [by exists n0; rewrite Eq|]]]]]].
  - split; [exact H5|]. split; [exact H6|]. split; [|split; [unfold mu_searches; by rewrite H7, H8|exists ev; split; [exact E|]]].
    + intros q Hq. apply length_zero_iff_nil in H7. rewrite H7 in Hq. by apply elem_of_nil in Hq.
    + rewrite E, calls_app, H0 in H3. exact H3.
  - exists {["d1"; "d2"]}. split; [by vm_compute|]. intros d [(u1 & f & t & Hu1 & S & HS & _)|(c0 & Hc & <-)].
    + unfold mu_open in Hu1. rewrite Eu' in Hu1. injection Hu1 as <-. exfalso. clear -H9 HS. unfold disk_get_index in HS. rewrite H9 in HS. rewrite lookup_empty in HS. cbn in HS. discriminate HS.
    + rewrite H4 in Hc. rewrite !elem_of_cons in Hc. destruct Hc as [->|[->|Hc%elem_of_nil]]; cbn; set_solver.
  - split; [unfold mu_searches; by rewrite H8|]. split; [left|]. by split.
Qed.
