(** Searches on the disk storage while several goroutines save (C68): a document that is
    cached and listed stays so while the cache has room, and is found. *)
From Verif Require Import Base M_Field M_LRU S_Visits M_Memory M_File M_Serialize M_Num M_FanIn M_Search M_Concurrent M_SearchConc M_Disk P_Base P_File P_LRU P_FanIn2 P_SearchConc P_SearchConc3 S_Concurrent P_Concurrent P_Concurrent2 P_DiskBase P_DiskInv P_DiskMem P_DiskWriter P_DiskDocs P_DiskBusy P_DiskBusy2 P_DiskBusy3 P_DiskBusy4 P_DiskBusy5 P_DiskBusy6 P_DiskBusy7 P_DiskBusy8 P_DiskBusy9 P_DiskBusy10 P_DiskBusy11 P_DiskBusy12 P_DiskBusy13 M_DiskBusy M_DiskMulti P_DiskIndex3 P_DiskIndex4 S_Disk S_DiskMulti S_DiskQuery S_DiskQuery2 P_DiskMulti P_DiskMulti2 P_DiskMulti3 P_DiskMulti5 P_DiskQuery P_DiskMulti6 P_DiskQuery2 P_DiskFrozen.
#[local] Open Scope nat_scope.
#[local] Opaque serialize_metrics serialize_nft serialize_field_map serialize_index deserialize_index deserialize_nft deserialize_field_map deserialize_metrics.

Section kept.
  Variables (compress : bytes -> bytes) (decompress : bytes -> option bytes) (cache_size : Z).
  Hypothesis gz : gzip_ok compress decompress.
  Hypothesis pos : (0 < cache_size)%Z.
  Notation reach := (multi_reachable compress decompress cache_size).
  Notation live := (multi_live compress decompress cache_size).
  Variables (d : string) (x : field) (D : gset string) (t0 : string) (l0 a0 : nat).
  Hypothesis Hroom : (Z.of_nat (size D) <= cache_size)%Z.
  Notation f := (f_name x).
  Notation held := (held d x).
  Notation env := (fun e l ev f' => penv d e l (later d x ev f')).
  Definition qkept (q : msearch) : Prop :=
    match q with
    | MqIds _ _ _ w => coming (pendr d t0 l0 a0) (fun id => id = d) w
    | MqFields _ _ _ w => coming (pendb d) (has_doc d) w
    | MqRet _ _ _ docs => has_doc d docs
    | _ => True
    end.
  Definition mk_ok (e l : nat) (ev : list event) (q : mquery) : Prop :=
    mfok (env e l ev (mq_field q)) (mq_pc q) /\ (mq_field q = f -> t0 ∈ mq_terms q -> qkept (mq_pc q)).
  Lemma mk_app e l ev ev' q : mk_ok e l ev q -> mk_ok e l (ev ++ ev') q.
  Proof. intros [K1 K2]. split; [|done]. eapply mfok_le; [|exact K1]. apply penv_le. intros id y. apply later_app. Qed.
  (** One step of a search. *)
  Lemma msearch_kept ncpu terms f' sh u s q m' q' log own ol oa e l ev : msearch_step decompress ncpu terms f' sh (u_mem u) s q (m', q') ->
    held (u_mem u) e l ev -> cache_ok cache_size (fun k => k ∈ D) (c_cache (u_mem u)) -> at_addr sh f t0 d l0 a0 ->
    (forall id, fnd (u_mem u) log f' terms id -> id ∈ D) ->
    mq_ok (u_mem u) log sh own ol oa (mkMQ ncpu terms f' q) -> mk_ok e l ev (mkMQ ncpu terms f' q) ->
    held m' e l ev /\ mk_ok e l ev (mkMQ ncpu terms f' q').
  Proof.
    intros H Hh Hc Ha HD Q [K1 K2]. unfold mq_ok, mk_ok in *. cbn [mq_terms mq_field mq_pc] in *.
    inversion H; subst; try (split; [done|]; split; [done|]; cbn; done).
    - split; [done|]. split; [done|]. intros -> W. cbn. eapply coming_init; [apply elem_of_list_fmap_1; exact W|]. cbn. done.
    - split; [done|]. split; [done|]. intros -> W. cbn in *. eapply coming_step; [| | |eassumption|by apply K2]; [intros p p'; by apply pendr_step|intros p y p'; apply pendr_send|]. intros p Hp. unfold rd1_stop in Hp. subst p. by intros Hz.
    - split; [done|]. match goal with K : fan2_done w |- _ => rename K into Dw end. split.
      + cbn. apply fan_all_init. apply Forall_fmap. apply Forall_forall. intros b Hb. cbn. split; [|apply vals_empty]. by apply Forall_forall.
      + intros -> W. cbn in Q. destruct Q as [Q1 _]. pose proof (coming_done _ _ _ _ _ _ _ Q1 Dw (K2 eq_refl W)) as Hg. apply Exists_exists in Hg as (id & G1 & ->). destruct (batches_props (f2_got w)) as [_ B]. apply B in G1. apply elem_of_list_In, in_concat in G1 as (b & B1 & B2). apply elem_of_list_In in B1, B2.
        cbn. eapply (coming_init _ _ _ (BDocs b ∅)); [by apply (elem_of_list_fmap_1 (fun b => BDocs b ∅))|]. cbn. by left.
    - split; [done|]. match goal with K : fan2_step _ _ _ _ _ _ _ |- _ => rename K into Gw end. split.
      + cbn in *. eapply fan_all_step; [| |exact Gw|exact K1]; [done|intros p y p'; apply okb_send].
      + intros -> W. cbn in *. eapply coming_step; [| | |exact Gw|by apply K2]; [done|intros p y p'; apply pendb_send|]. intros p Hp. unfold bbatch_stop in Hp. subst p. cbn. by apply not_elem_of_nil.
    - match goal with G : fan2_inner _ _ _ _ |- _ => rename G into Gi end. match goal with G : bbatch_step _ _ _ _ _ |- _ => rename G into Gb end. cbn in K1. pose proof (fan_inner_ok _ _ _ _ _ _ Gi K1) as Op.
      destruct Q as [_ Q2]. pose proof (fan_inner_ok _ _ _ _ _ _ Gi Q2) as Os.
      assert (forall fd z, c_heap (u_mem u) !! l = Some fd -> fd !! f' = Some z -> later d x ev f' d z) as HV1.
      { intros fd z E1 E2 _ ->. destruct Hh as (_ & _ & fd1 & y & E3 & E4 & E5). rewrite E1 in E3. injection E3 as <-. rewrite E2 in E4. injection E4 as <-. done. }
      destruct (batch_keeps decompress cache_size d x D Hroom f' s _ _ e l ev (later d x ev f') _ _ HV1 ltac:(by intros id z Hn ->) Hh Hc Gb Op) as (B1 & B2 & B3).
      { intros id l' ids acc ->. cbn in Os. destruct Os as (_ & Os & _). by apply HD. }
      split; [done|]. split.
      + cbn. eapply fan_all_inner; [exact Gi|done|exact K1].
      + intros -> W. cbn. eapply (coming_inner bbatch_send bbatch_stop); [exact Gi|by apply B3|by apply K2].
    - split; [done|]. match goal with K : fan2_done w |- _ => rename K into Dw end. split.
      + cbn in *. destruct K1 as (_ & _ & Hg). intros k y Hy. destruct (merge_in _ _ _ Hy) as (m0 & G1 & G2). rewrite Forall_forall in Hg. by apply (Hg m0 G1).
      + intros -> W. cbn in *. destruct Q as [[tasks Q1] _]. pose proof (coming_done _ _ _ _ _ _ _ Q1 Dw (K2 eq_refl W)) as Hg. by apply merge_some.
  Qed.
  (** A goroutine that saves: what it saves of the document was saved since; what it holds
      of the cache is the document's entry. *)
  Definition tkept (e l : nat) (ev : list event) (pc : tpc) (m : msg) : Prop :=
    (forall z, pc_call pc = Some (Save d z) -> Save d z ∈ calls_of ev) /\
    match m with
    | DDoc d' z dp => d' = d -> Save d z ∈ calls_of ev /\ match dp with None => True | Some (DPtr e') => e' = e | Some (DMap l') | Some (DPut l') => l' = l end
    | _ => True
    end.
  Lemma tkept_app e l ev ev' pc m : tkept e l ev pc m -> tkept e l (ev ++ ev') pc m.
  Proof.
    intros [K1 K2]. split.
    - intros z Hz. rewrite calls_app. apply elem_of_app. left. auto.
    - destruct m; try done. intros E. destruct (K2 E) as [K3 K4]. split; [|done]. rewrite calls_app. apply elem_of_app. by left.
  Qed.
  Definition mkept (log0 : list event) (n : nat) (b : multi) : Prop :=
    exists u e l ev, mu_open b u /\ mu_log b = log0 ++ ev /\ held (u_mem u) e l ev /\ at_addr (mu_sh b) f t0 d l0 a0 /\
      (forall th, th ∈ mu_threads b -> safe_pc f t0 l0 a0 th.1.1 /\ tkept e l ev th.1.1 th.1.2) /\ n <= length (mu_qs b) /\
      forall i q, mu_qs b !! i = Some q -> (i < n /\ exists len size nft docs, mq_pc q = MqRet len size nft docs) \/ (n <= i /\ mk_ok e l ev q).
  Definition fits (b : multi) : Prop := exists u, mu_open b u /\ forall k, known (u_mem u) (mu_log b) k -> k ∈ D.
  Lemma mkept_step log0 n a b : reach a -> mkept log0 n a -> live a b -> good_log (mu_log b) -> fits a -> (exists u, mu_open b u) -> mkept log0 n b.
  Proof.
    intros R (u & e & l & ev & Hu & Hlog & Hh & Ha & Hth & Hn & Hq) H Hg (uu & Huu & HK) Hob. unfold mu_open in *. rewrite Hu in Huu. injection Huu as <-.
    assert (good_log (mu_log a)) as Hga by (eapply (m_good_mono compress decompress cache_size); [by left|exact Hg]).
    destruct (m_reach compress decompress cache_size gz a R Hga) as [Ba Bi]. destruct (d_reach_multi compress decompress cache_size gz pos a R Hga) as [Hf Hs]. rewrite Hu in Hs, Bi. destruct Hs as (own & HU & HD & (ol & oa & Z1 & Z2 & Z3 & Z4)). destruct Bi as (G & L & ol0 & oa0 & I). pose proof (mi_pc _ _ _ _ _ _ _ _ _ _ I) as Ip. clear I.
    pose proof (uo_mem _ _ _ _ _ _ HU) as Hk. assert (cache_ok cache_size (fun k => k ∈ D) (c_cache (u_mem u))) as Hc by (eapply cache_mono; [exact HK|exact (mo_cache _ _ _ _ _ Hk)]).
    assert (own !! l = Some d) as Hol. { destruct Hh as (_ & Hpg & _). by apply (mo_page _ _ _ _ _ Hk e). }
    inversion H; subst; unfold mkept, mu_open, mu_log in *; cbn [mu_sys mu_sh mu_threads mu_qs y_proc y_fs y_log] in *.
    - match goal with K2 : forall u, _ <> Up u |- _ => destruct Hob as [u' Hob]; by destruct (K2 u') end.
    - congruence.
    - match goal with K : y_proc y = Up _ |- _ => rewrite Hu in K; injection K as <- end. match goal with K : y_proc y' = Up _ |- _ => rename K into Eu'  end.
      match goal with K : live_step _ _ _ _ _ |- _ => rename K into St end.
      assert (exists ev', y_log y' = (log0 ++ ev) ++ ev') as [ev' El]. { rewrite <- Hlog. clear -St. inversion St; subst; cbn; first [by eexists|exists []; by rewrite app_nil_r]. }
      assert (u_mem u' = u_mem u) as Em.
      { inversion St; subst; cbn [y_proc] in *; try congruence; injection Eu' as ->; injection Hu as ->.
        - match goal with K : up_step _ _ _ _ _ |- _ => by destruct (bg_step compress decompress _ _ _ _ _ ∅ K Ip ltac:(done)) as [_ Em] end.
        - match goal with K : up_tick _ _ |- _ => by destruct (bg_tick _ _ _ _ ∅ K) as (_ & Em & _) end.
        - match goal with K : up_call _ _ _ |- _ => inversion K; subst; done end. }
      exists u', e, l, (ev ++ ev'). split; [done|]. split; [by rewrite El, app_assoc|]. split; [by eapply held_app; [..|exact Hh]; rewrite Em|]. split; [done|]. split; [intros th Hin; destruct (Hth th Hin); split; [done|by apply tkept_app]|]. split; [done|].
      intros i q Hi. destruct (Hq i q Hi) as [?|[? ?]]; [by left|right; split; [done|by apply mk_app]].
    - injection Hu as ->. exists u, e, l, ev. do 4 (split; [done|]). split; [|done]. intros th Hin. apply elem_of_app in Hin as [Hin|Hin]; [by apply Hth|]. apply elem_of_list_singleton in Hin. subst th. done.
    - injection Hu as ->. subst log. exists u, e, l, (ev ++ [ECall c]). split; [done|]. split; [by rewrite app_assoc|]. split; [by eapply held_app; [..|exact Hh]|]. split; [done|]. split.
      { intros th Hin. apply elem_of_insert in Hin as [->|Hin]; [|destruct (Hth th Hin); split; [done|by apply tkept_app]]. cbn. split; [by destruct c|]. split; [|done]. intros z Hz. rewrite calls_app. apply elem_of_app. right. destruct c; cbn in *; [|done]. injection Hz as -> ->. left. }
      split; [done|]. intros j q Hi. destruct (Hq j q Hi) as [?|[? ?]]; [by left|right; split; [done|by apply mk_app]].
    - injection Hu as ->. subst log. match goal with K : ths !! i = _ |- _ => rename K into Ti end. match goal with K : client_step _ _ _ |- _ => rename K into St end.
      destruct (Hth _ (elem_of_list_lookup_2 _ _ _ Ti)) as [S0 [A1 A2]]. pose proof (Z2 _ (elem_of_list_lookup_2 _ _ _ Ti)) as Op. pose proof (HD _ (elem_of_list_lookup_2 _ _ _ Ti)) as T0. cbn [fst snd] in *.
      assert (forall pc' m' sh1 u1 ev1, held (u_mem u1) e l ev -> at_addr sh1 f t0 d l0 a0 -> safe_pc f t0 l0 a0 pc' -> tkept e l ev pc' m' ->
        exists u2 e2 l2 ev2, Up u1 = Up u2 /\ (log0 ++ ev) ++ ev1 = log0 ++ ev2 /\ held (u_mem u2) e2 l2 ev2 /\ at_addr sh1 f t0 d l0 a0 /\ (forall th, th ∈ <[i := (pc', m', cs)]> ths -> safe_pc f t0 l0 a0 th.1.1 /\ tkept e2 l2 ev2 th.1.1 th.1.2) /\ n <= length qs /\
          forall i0 q, qs !! i0 = Some q -> (i0 < n /\ exists len size nft docs, mq_pc q = MqRet len size nft docs) \/ (n <= i0 /\ mk_ok e2 l2 ev2 q)) as Q.
      { intros pc' m' sh1 u1 ev1 E1 E2 E3 E4. exists u1, e, l, (ev ++ ev1). split; [done|]. split; [by rewrite app_assoc|]. split; [by eapply held_app; [..|exact E1]|]. split; [done|]. split.
        { intros th1 Hin. apply elem_of_insert in Hin as [->|Hin]; [split; [done|by apply tkept_app]|destruct (Hth th1 Hin); split; [done|by apply tkept_app]]. }
        split; [done|]. intros j q Hi. destruct (Hq j q Hi) as [?|[? ?]]; [by left|right; split; [done|by apply mk_app]]. }
      inversion St; subst; cbn [fst snd] in *.
      + match goal with K : t_step _ _ |- _ => rename K into Ht end. destruct Ha as (mm & H1 & H2 & H3 & SS & H4 & H5). destruct (kept_t _ _ _ _ _ _ _ _ _ _ _ Ht Z1 Op S0 H1 H2 H3 ltac:(by eexists)) as ((mm' & K1 & K2 & K3 & _) & K5 & K6 & _).
        apply Q; [done| |done|]. { exists mm'. split; [done|]. split; [done|]. split; [done|]. by eapply K6. }
        split; [intros z Hz; by apply A1, (pc_call_t _ _ _ _ Ht)|]. pose proof (after_call pc) as A. destruct (after pc) as [| | | | | | |d' z dp|]; try done. destruct A as [-> A]. intros ->. split; [by apply A1|done].
      + apply Q; try done.
      + apply Q; try done.
      + apply Q; try done.
      + apply Q; try done.
      + apply Q; try done.
      + apply Q; try done.
      + match goal with K : doc_step _ _ _ |- _ => rename K into Dd end. cbn in T0. destruct T0 as [T1 T2]. inversion Dd; subst.
        * match goal with K : lru_get _ _ = _ |- _ => rename K into Gg end. apply Q; try done; [by eapply held_get|]. split; [done|]. cbn. intros ->. destruct (A2 eq_refl) as [A3 _]. split; [done|]. destruct Hh as (W1 & _). destruct (get_keeps _ _ _ _ Gg) as (_ & _ & _ & E). congruence.
        * match goal with K : lru_get _ _ = _ |- _ => rename K into Gg end. destruct (get_keeps _ _ _ _ Gg) as (_ & _ & _ & E). apply Q; try done.
          -- apply (held_alloc d x (set_cache (u_mem u) c' (c_heap (u_mem u))) e l ev l1 ∅); [done|]. by eapply held_get.
          -- split; [done|]. cbn. intros ->. destruct Hh as (W1 & _). congruence.
        * apply Q; try done. split; [done|]. cbn in *. intros ->. destruct (A2 eq_refl) as [A3 ->]. split; [done|]. destruct Hh as (_ & W2 & _). match goal with K : lru_deref _ _ = _ |- _ => unfold lru_deref in K; rewrite W2 in K; by injection K end.
        * apply Q; try done. apply held_write; [done| |done]. intros ->. rewrite Hol in T2. injection T2 as <-. by destruct (A2 eq_refl).
      + match goal with K : doc_step _ _ _ |- _ => rename K into Dd end. cbn in T0. destruct T0 as [T1 T2]. inversion Dd; subst. apply Q; try done.
        destruct (decide (d0 = d)) as [->|Hne].
        * destruct (A2 eq_refl) as [_ ->]. by apply held_put_doc.
        * eapply held_put; [exact Hroom|exact Hc| |exact Hne|eassumption|done]. apply HK. right. by eexists.
      + apply Q; try done.
    - injection Hu as ->. exists u, e, l, ev. do 5 (split; [done|]). split; [rewrite app_length; lia|]. intros i q Hi. apply lookup_app_Some in Hi as [Hi|[Hle Hi]]; [by apply Hq|]. right. apply list_lookup_singleton_Some in Hi as [Hi <-]. split; [lia|]. split; cbn; done.
    - injection Hu as ->. match goal with K : qs !! i = _ |- _ => rename K into Qi end. match goal with K : msearch_step _ _ _ _ _ _ _ _ _ |- _ => rename K into HS end.
      destruct (Hq _ _ Qi) as [(_ & ? & ? & ? & ? & Er)|[Hi Hm]]; [cbn in Er; subst; inversion HS|].
      match type of HS with msearch_step _ _ _ ?f1 _ _ _ _ _ => assert (forall id, fnd (u_mem u) log f1 terms id -> id ∈ D) as HF by (intros id (t & _ & T2); apply HK; by eapply known_posted) end.
      destruct (msearch_kept _ _ _ _ _ _ _ _ _ _ _ _ _ _ _ _ HS Hh Hc Ha HF (Forall_lookup_1 _ _ _ _ Z4 Qi) Hm) as [G1 G2].
      eexists _, e, l, ev. split; [done|]. split; [done|]. split; [done|]. split; [done|]. split; [done|]. split; [by rewrite insert_length|].
      intros j qj Hj. destruct (decide (i = j)) as [<-|Hij].
      + rewrite list_lookup_insert in Hj by (by eapply lookup_lt_Some). injection Hj as <-. by right.
      + rewrite list_lookup_insert_ne in Hj by done. by apply Hq.
  Qed.
  (** What is known at one moment of a session is known at the next. *)
  Lemma live_index a b u u' : reach a -> good_log (mu_log a) -> live a b -> mu_open a u -> mu_open b u' -> c_index (u_mem u') = c_index (u_mem u).
  Proof.
    intros R Hga H Hu Hu'. unfold mu_open in *.
    destruct (m_reach compress decompress cache_size gz a R Hga) as [Ba Bi]. rewrite Hu in Bi. destruct Bi as (G & L & ol0 & oa0 & I). pose proof (mi_pc _ _ _ _ _ _ _ _ _ _ I) as Ip. clear I.
    inversion H; subst; cbn [mu_sys y_proc y_fs] in *; try congruence.
    - match goal with K : y_proc y = Up _ |- _ => rewrite Hu in K; injection K as <- end. match goal with K : y_proc y' = Up _ |- _ => rewrite Hu' in K; injection K as <- end.
      match goal with K : live_step _ _ _ _ _ |- _ => rename K into St end.
      inversion St; subst; cbn [y_proc] in *; try congruence; injection Hu' as ->; injection Hu as ->.
      + match goal with K : up_step _ _ _ _ _ |- _ => destruct (bg_step compress decompress _ _ _ _ _ ∅ K Ip ltac:(done)) as [_ Em] end. by rewrite Em.
      + match goal with K : up_tick _ _ |- _ => destruct (bg_tick _ _ _ _ ∅ K) as (_ & Em & _) end. by rewrite Em.
      + match goal with K : up_call _ _ _ |- _ => inversion K; subst; done end.
    - injection Hu as ->; injection Hu' as <-. by eapply client_index.
    - injection Hu as ->; injection Hu' as <-. cbn. match goal with K : msearch_step _ _ _ _ _ _ _ _ _ |- _ => apply search_mem in K; by rewrite K end.
  Qed.
  Notation session := (mu_session compress decompress cache_size).
  Lemma fits_back a b : reach a -> good_log (mu_log a) -> live a b -> (exists u, mu_open a u) -> fits b -> fits a.
  Proof.
    intros R Hga H [u Hu] (u' & Hu' & HK). exists u. split; [done|]. intros k Hk. apply HK. pose proof (live_index _ _ _ _ R Hga H Hu Hu') as E.
    destruct (m_live_log compress decompress cache_size _ _ H) as [ev El]. rewrite El. destruct Hk as [(f1 & t1 & Hk)|(c & K1 & K2)].
    - left. exists f1, t1. unfold listed, listed_set in *. by rewrite E.
    - right. exists c. split; [|done]. rewrite calls_app. apply elem_of_app. by left.
  Qed.
  Lemma fits_session a b : session a b -> reach a -> good_log (mu_log b) -> fits b -> fits a.
  Proof.
    intros H. induction H as [a|a b c [Hab Hoa] Hbc IH]; [done|]. intros R Hg F. destruct (session_log compress decompress cache_size _ _ Hbc) as [ev2 E2].
    assert (good_log (mu_log b)) as Hgb. { intros c0 Hc0. apply Hg. rewrite E2, calls_app. apply elem_of_app. by left. }
    assert (reach b) as Rb by (unfold multi_reachable in *; eapply rtc_r; [exact R|by left]).
    assert (good_log (mu_log a)) as Hga by (eapply (m_good_mono compress decompress cache_size); [left; exact Hab|exact Hgb]). by eapply fits_back; [| | | |apply IH].
  Qed.
  Lemma mkept_run log0 n a b : session a b -> reach a -> good_log (mu_log b) -> fits b -> mkept log0 n a -> mkept log0 n b.
  Proof.
    intros H. induction H as [a|a b c [Hab Hoa] Hbc IH]; [done|]. intros R Hg F K. destruct (session_log compress decompress cache_size _ _ Hbc) as [ev2 E2].
    assert (good_log (mu_log b)) as Hgb. { intros c0 Hc0. apply Hg. rewrite E2, calls_app. apply elem_of_app. by left. }
    assert (reach b) as Rb by (unfold multi_reachable in *; eapply rtc_r; [exact R|by left]).
    assert (fits b) as Fb by (by eapply fits_session). apply IH; [done|done|done|]. eapply mkept_step; [exact R|exact K|exact Hab|exact Hgb| |].
    - eapply fits_back; [exact R| |exact Hab|exact Hoa|exact Fb]. eapply (m_good_mono compress decompress cache_size); [left; exact Hab|exact Hgb].
    - destruct Fb as (u & Hu & _). by exists u.
  Qed.
  Lemma mkept_found log0 n b i terms len size nft docs : mkept log0 n b -> n <= i -> mu_returned b i terms f len size nft docs -> t0 ∈ terms ->
    exists ev y, mu_log b = log0 ++ ev /\ docs !! d = Some y /\ (y = x \/ (Save d y ∈ calls_of ev /\ f_name y = f)).
  Proof.
    intros (u & e & l & ev & _ & Hlog & _ & _ & _ & _ & Hq) Hni [ncpu Hi] Ht. destruct (Hq i _ Hi) as [[? _]|[_ [K1 K2]]]; [lia|].
    cbn in K1, K2. destruct (K2 eq_refl Ht) as [y Hy]. exists ev, y. split; [done|]. split; [done|]. by apply (K1 d y Hy eq_refl eq_refl).
  Qed.
End kept.
(** A moment when nothing is in progress. *)
Lemma at_addr_shown sh f t d : shown sh f t d -> exists l a, at_addr sh f t d l a.
Proof.
  intros (S0 & E & Hd). unfold mem_get_documents in E. destruct (view_posting sh f t S0 d) as (l & mm & a & E1 & E2 & E3 & E4).
  - destruct (mm_index (view sh) !! f) as [idx|]; [|done]. cbn in E |- *. by destruct (idx !! t).
  - done.
  - exists l, a, mm. split; [done|]. split; [done|]. split; [done|]. by exists S0.
Qed.
Lemma mkept_start d x t b u e l fd : mu_open b u -> mu_between b -> (forall q, q ∈ mu_qs b -> exists len size nft docs, mq_pc q = MqRet len size nft docs) ->
  shown (mu_sh b) (f_name x) t d -> lr_table (c_cache (u_mem u)) !! d = Some e -> lr_page (c_cache (u_mem u)) !! e = Some (d, l) -> c_heap (u_mem u) !! l = Some fd -> fd !! f_name x = Some x ->
  exists l0 a0, mkept d x t l0 a0 (mu_log b) (length (mu_qs b)) b.
Proof.
  intros Hu Hs Hq Hsh H1 H2 H3 H4. destruct (at_addr_shown _ _ _ _ Hsh) as (l0 & a0 & Ha). exists l0, a0, u, e, l, []. split; [done|]. split; [by rewrite app_nil_r|].
  split. { split; [done|]. split; [done|]. exists fd, x. split; [done|]. split; [done|]. by left. } split; [done|]. split. { intros [th0 cs0] Hin. pose proof (Hs _ Hin) as E. cbn in E. subst th0. done. } split; [done|].
  intros i q Hi. left. split; [by eapply lookup_lt_Some|]. apply Hq. by eapply elem_of_list_lookup_2.
Qed.
