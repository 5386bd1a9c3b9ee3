(** A document saved while nothing else is in progress is listed and cached when the call
    has returned (C68). *)
From Verif Require Import Base M_Field M_LRU S_Visits M_Memory M_File M_Serialize M_Num M_FanIn M_Search M_Concurrent M_SearchConc M_Disk P_Base P_File P_LRU P_FanIn2 P_SearchConc P_SearchConc3 S_Concurrent P_Concurrent P_Concurrent2 P_DiskBase P_DiskInv P_DiskMem P_DiskWriter P_DiskDocs P_DiskBusy P_DiskBusy2 P_DiskBusy3 P_DiskBusy4 P_DiskBusy5 P_DiskBusy6 P_DiskBusy7 P_DiskBusy8 P_DiskBusy9 P_DiskBusy10 P_DiskBusy11 P_DiskBusy12 P_DiskBusy13 M_DiskBusy M_DiskMulti P_DiskIndex3 P_DiskIndex4 S_Disk S_DiskMulti S_DiskQuery S_DiskQuery2 P_DiskMulti P_DiskMulti2 P_DiskMulti3 P_DiskMulti5 P_DiskQuery P_DiskMulti6 P_DiskQuery2 P_DiskFrozen P_DiskKept.
#[local] Open Scope nat_scope.
#[local] Opaque serialize_metrics serialize_nft serialize_field_map serialize_index deserialize_index deserialize_nft deserialize_field_map deserialize_metrics.

Section lone.
  Variables (d : string) (x : field).
  Notation f := (f_name x).
  Definition posted_at (sh : shared) (l : nat) (t : string) : Prop := exists a, at_addr sh f t d l a.
  Definition all_posted (sh : shared) : Prop := forall t, is_Some (f_tf x !! t) -> exists l, posted_at sh l t.
  Definition idx_at (sh : shared) (l : nat) : Prop := M_Concurrent.k_index sh !! f = Some l /\ is_Some (k_maps sh !! l).
  (** The part of the call on the maps of the index. *)
  Definition pc_prog (sh : shared) (pc : tpc) : Prop :=
    pc_call pc = Some (Save d x) /\
    match pc with
    | TLoop _ _ _ l ks => idx_at sh l /\ forall t, is_Some (f_tf x !! t) -> t ∈ ks \/ posted_at sh l t
    | TSet _ _ _ l t ks o => idx_at sh l /\ o = default ∅ (k_maps sh !! l) !! t /\ forall t', is_Some (f_tf x !! t') -> t' ∈ t :: ks \/ posted_at sh l t'
    | TNft _ _ | TNftLoop _ _ _ _ | TNftW _ _ _ _ _ _ => all_posted sh
    | _ => True
    end.
  Definition in_cache (m : cmem) : Prop :=
    exists e l fd, lr_table (c_cache m) !! d = Some e /\ lr_page (c_cache m) !! e = Some (d, l) /\ c_heap m !! l = Some fd /\ fd !! f = Some x.
  (** And on the cache. *)
  Definition prog (sh : shared) (m : cmem) (pc : tpc) (mg : msg) : Prop :=
    match mg with
    | DDoc d' x' dp => d' = d /\ x' = x /\ pc = TIdle /\ all_posted sh /\
        match dp with
        | None => True
        | Some (DPtr e) => lr_table (c_cache m) !! d = Some e
        | Some (DMap l) => True
        | Some (DPut l) => exists fd, c_heap m !! l = Some fd /\ fd !! f = Some x
        end
    | DSend _ _ _ => pc = TIdle /\ all_posted sh /\ in_cache m
    | NoMsg => match pc with TIdle => all_posted sh /\ in_cache m | _ => pc_prog sh pc end
    | _ => pc_prog sh pc
    end.
  (** One access to the maps. *)
  Lemma pc_prog_t s pc s' pc' ol oa : t_step (s, pc) (s', pc') -> own_sh s ol oa -> own_pc ol oa pc -> pc_prog s pc ->
    match pc' with TIdle => all_posted s' /\ after pc = DDoc d x None | _ => pc_prog s' pc' end.
  Proof.
    intros G W Op [P1 P2].
    assert (forall l t a, safe_pc f t l a pc -> at_addr s f t d l a -> at_addr s' f t d l a) as Keep.
    { intros l t a S0 (mm & H1 & H2 & H3 & SS & H4 & H5). destruct (kept_t _ _ _ _ _ _ _ _ _ _ _ G W Op S0 H1 H2 H3 ltac:(by eexists)) as ((mm' & K1 & K2 & K3 & _) & K5 & K6 & _).
      exists mm'. split; [done|]. split; [done|]. split; [done|]. by eapply K6. }
    assert ((forall l t a, safe_pc f t l a pc) -> all_posted s -> all_posted s') as KeepA.
    { intros S0 HA t Ht. destruct (HA t Ht) as (l & a & Ha). exists l, a. by apply Keep. }
    inversion G; subst; cbn [pc_call] in P1; try (destruct full; [|discriminate P1]); injection P1 as -> ->; cbn [pc_call] in *; try (split; [done|]; done).
    - (* the map is found *) split; [done|]. split; [split; [done|]; apply (o_map _ _ _ W); exists f; by apply (o_idx _ _ _ W)|]. intros t [v Hv]. left.
      match goal with K : range_order _ _ |- _ => unfold range_order in K; rewrite K end. apply elem_of_list_fmap. exists (t, v). split; [done|]. by apply elem_of_map_to_list.
    - (* a new map *) split; [done|]. split; [split; cbn; [by rewrite lookup_insert|rewrite lookup_insert; by eexists]|]. intros t [v Hv]. left.
      match goal with K : range_order _ _ |- _ => unfold range_order in K; rewrite K end. apply elem_of_list_fmap. exists (t, v). split; [done|]. by apply elem_of_map_to_list.
    - (* a set is read *) destruct P2 as [P2 P3]. split; [done|]. split; [done|]. split; [done|]. done.
    - (* the end of the loop *) destruct P2 as [P2 P3]. split; [done|]. intros t Ht. destruct (P3 t Ht) as [?%elem_of_nil|?]; [done|]. by exists l.
    - (* a new set *) destruct P2 as [[P2 [mm P2']] [P3 P4]]. split; [done|]. split; [split; cbn; [done|rewrite lookup_insert; by eexists]|].
      intros t' Ht. destruct (decide (t' = t)) as [->|Hne].
      + right. exists a. rewrite P2'. eexists. split; [exact P2|]. cbn. rewrite lookup_insert. split; [done|]. rewrite lookup_insert. split; [done|]. eexists. rewrite lookup_insert. split; [done|]. cbn. rewrite lookup_insert. by eexists.
      + destruct (P4 t' Ht) as [[->|?]%elem_of_cons|[a' Ha]]; [done|by left|]. right. exists a'. apply Keep; [|done]. cbn. split; [|by intros _ ->]. intros _. destruct Ha as (m0 & E & _). congruence.
    - (* an old one *) destruct P2 as [[P2 [mm P2']] [P3 P4]]. split; [done|]. split; [split; cbn; [done|by eexists]|].
      intros t' Ht. destruct (decide (t' = t)) as [->|Hne].
      + right. exists a. exists mm. split; [exact P2|]. cbn. split; [done|]. rewrite P2' in P3. split; [done|]. eexists. rewrite lookup_insert. split; [done|]. cbn. rewrite lookup_insert. by eexists.
      + destruct (P4 t' Ht) as [[->|?]%elem_of_cons|[a' Ha]]; [done|by left|]. right. exists a'. apply Keep; [|done]. cbn. split; [|by intros _ ->]. intros _. destruct Ha as (m0 & E & _). congruence.
  Qed.
  Lemma pc_prog_any sh m pc : pc <> TIdle -> pc_prog sh pc -> prog sh m pc NoMsg.
  Proof. intros Hn H. unfold prog. by destruct pc. Qed.
  Lemma pc_prog_idle sh : ~ pc_prog sh TIdle.
  Proof. intros [H _]. discriminate H. Qed.
  Definition idle (th : tpc * msg * list call) : Prop := th.1 = (TIdle, NoMsg).
  Lemma idle_stuck sh u ev y : ~ client_step (sh, u, (TIdle, NoMsg)) ev y.
  Proof. intros H. inversion H; subst. match goal with K : t_step _ _ |- _ => inversion K end. Qed.
  (** One step of the goroutine that saves. *)
  Lemma prog_step sh u pc mg ev sh' u' pc' mg' cs ol oa K : client_step (sh, u, (pc, mg)) ev (sh', u', (pc', mg')) -> own_sh sh ol oa -> own_pc ol oa pc ->
    cache_ok cs K (c_cache (u_mem u)) -> prog sh (u_mem u) pc mg -> prog sh' (u_mem u') pc' mg' /\ calls_of ev = [].
  Proof.
    intros H W Op Hc P. inversion H; subst; (split; [|done]).
    - match goal with G : t_step _ _ |- _ => rename G into Ht end. assert (pc_prog sh pc) as P1. { unfold prog in P. destruct pc; try done. inversion Ht. }
      pose proof (pc_prog_t _ _ _ _ _ _ Ht W Op P1) as P2. destruct P1 as [P1 P1'].
      assert (pc' = TIdle \/ pc' <> TIdle) as [->|Hn] by (destruct pc'; first [by left|by right]).
      + destruct P2 as [P2 ->]. unfold prog. done.
      + assert (pc_prog sh' pc') as P3 by (by destruct pc'). assert (forall mg, match mg with DDoc _ _ _ | DSend _ _ _ => False | _ => True end -> prog sh' (u_mem u') pc' mg) as Q.
        { intros mg Hmg. unfold prog. destruct mg; try done. by destruct pc'. }
        destruct pc; cbn [after]; try (by apply Q). destruct ks; [|by apply Q]. inversion Ht; subst. done.
    - exact P.
    - exact P.
    - cbn. apply pc_prog_any; [|exact P]. intros ->. by apply pc_prog_idle in P.
    - cbn. apply pc_prog_any; [|exact P]. intros ->. by apply pc_prog_idle in P.
    - exact P.
    - cbn. apply pc_prog_any; [|exact P]. intros ->. by apply pc_prog_idle in P.
    - match goal with G : doc_step _ _ _ |- _ => rename G into Dd end. cbn [prog] in P. destruct P as (-> & -> & -> & P1 & P2). inversion Dd; subst; cbn [prog with_mem u_mem set_cache c_cache c_heap].
      + match goal with G : lru_get _ _ = _ |- _ => destruct (get_keeps _ _ _ _ G) as (_ & E1 & _ & E2) end. rewrite E1. done.
      + done.
      + done.
      + do 4 (split; [done|]). eexists. rewrite lookup_insert. split; [done|]. by rewrite lookup_insert.
    - match goal with G : doc_step _ _ _ |- _ => rename G into Dd end. cbn [prog] in P. destruct P as (-> & -> & -> & P1 & P2). inversion Dd; subst; cbn [prog with_mem u_mem set_cache c_cache c_heap]. destruct P2 as (fd & P2 & P3).
      split; [done|]. split; [done|]. unfold in_cache. cbn [set_cache c_cache c_heap]. match goal with G : lru_put _ _ _ = _ |- _ => destruct (put_effect _ _ _ _ G) as [(e & k' & v' & T1 & Q1 & E1 & E2)|(T1 & e & t & E1 & E2 & _)] end.
      + destruct (cache_page _ _ _ _ _ Hc T1) as [l0 E3]. rewrite E3 in Q1. injection Q1 as <- <-. exists e, l, fd. rewrite E1, E2, lookup_insert. done.
      + exists e, l, fd. rewrite E1, E2, !lookup_insert. done.
    - cbn in P. destruct P as (-> & P1 & P2). done.
  Qed.
End lone.

Section run.
  Variables (compress : bytes -> bytes) (decompress : bytes -> option bytes) (cache_size : Z).
  Hypothesis gz : gzip_ok compress decompress.
  Hypothesis pos : (0 < cache_size)%Z.
  Notation reach := (multi_reachable compress decompress cache_size).
  Notation live := (multi_live compress decompress cache_size).
  Notation session := (mu_session compress decompress cache_size).
  Variables (d : string) (x : field) (log0 : list event) (nq : nat).
  Definition lone (b : multi) : Prop :=
    exists u ev, mu_open b u /\ mu_log b = log0 ++ ev /\ length (mu_qs b) = nq /\ mu_none_searching b /\
      ((calls_of ev = [] /\ forall th, th ∈ mu_threads b -> idle th) \/
       (calls_of ev = [Save d x] /\ exists j pc mg cs, mu_threads b !! j = Some (pc, mg, cs) /\ prog d x (mu_sh b) (u_mem u) pc mg /\
         forall i th, mu_threads b !! i = Some th -> i <> j -> idle th)).
  Lemma lone_step a b : reach a -> lone a -> live a b -> good_log (mu_log b) -> (exists u, mu_open b u) -> length (mu_qs b) <= nq ->
    (forall ev', mu_log b = log0 ++ ev' -> exists r, calls_of ev' ++ r = [Save d x]) -> lone b.
  Proof.
    intros R (u & ev & Hu & Hlog & Hn & Hq & Hth) H Hg Hob Hnq Hpre. unfold mu_open in *.
    assert (good_log (mu_log a)) as Hga by (eapply (m_good_mono compress decompress cache_size); [by left|exact Hg]).
    destruct (m_reach compress decompress cache_size gz a R Hga) as [Ba Bi]. destruct (d_reach_multi compress decompress cache_size gz pos a R Hga) as [Hf Hs]. rewrite Hu in Hs, Bi. destruct Hs as (own & HU & HD & (ol & oa & Z1 & Z2 & Z3 & Z4)). destruct Bi as (G & L & ol0 & oa0 & I). pose proof (mi_pc _ _ _ _ _ _ _ _ _ _ I) as Ip. clear I.
    pose proof (mo_cache _ _ _ _ _ (uo_mem _ _ _ _ _ _ HU)) as Hc.
    inversion H; subst; unfold lone, mu_open, mu_log, mu_none_searching in *; cbn [mu_sys mu_sh mu_threads mu_qs y_proc y_fs y_log] in *.
    - match goal with K2 : forall u, _ <> Up u |- _ => destruct Hob as [u' Hob]; by destruct (K2 u') end.
    - congruence.
    - match goal with K : y_proc y = Up _ |- _ => rewrite Hu in K; injection K as <- end. match goal with K : y_proc y' = Up _ |- _ => rename K into Eu'  end.
      match goal with K : live_step _ _ _ _ _ |- _ => rename K into St end.
      assert (u_mem u' = u_mem u /\ exists ev', y_log y' = y_log y ++ ev' /\ calls_of ev' = []) as (Em & ev' & El & Ec).
      { inversion St; subst; cbn [y_proc y_log] in *; try congruence; injection Eu' as ->; injection Hu as ->.
        - match goal with K : up_step _ _ _ _ _ |- _ => rename K into Us end. destruct (bg_step compress decompress _ _ _ _ _ ∅ Us Ip ltac:(done)) as (_ & Em). split; [done|]. eexists. split; [done|].
          clear -Us. inversion Us; subst; try done. unfold nft_event. by destruct (w_pc nw) as [| | | |? ? ? []].
        - match goal with K : up_tick _ _ |- _ => destruct (bg_tick _ _ _ _ ∅ K) as (_ & Em & _) end. split; [done|]. exists []. by rewrite app_nil_r.
        - match goal with K : up_call _ _ _ |- _ => inversion K; subst; cbn in *; congruence end. }
      exists u', (ev ++ ev'). split; [done|]. split; [by rewrite El, Hlog, app_assoc|]. split; [done|]. split; [done|]. rewrite calls_app, Ec, app_nil_r, Em. exact Hth.
    - injection Hu as ->. exists u, ev. do 4 (split; [done|]). destruct Hth as [[H1 H2]|(H1 & j & pc & mg & cs0 & H2 & H3 & H4)]; [left|right]; (split; [done|]).
      + intros th Hin. apply elem_of_app in Hin as [Hin|Hin]; [by apply H2|]. apply elem_of_list_singleton in Hin. by subst th.
      + exists j, pc, mg, cs0. split; [by apply lookup_app_l_Some|]. split; [done|]. intros i th Hi Hne. apply lookup_app_Some in Hi as [Hi|[_ Hi]]; [by eapply H4|]. apply list_lookup_singleton_Some in Hi as [_ <-]. done.
    - injection Hu as ->. subst log. destruct (Hpre (ev ++ [ECall c])) as [r Hr]; [by rewrite app_assoc|]. rewrite calls_app in Hr.
      exists u, (ev ++ [ECall c]). split; [done|]. split; [by rewrite app_assoc|]. split; [done|]. split; [done|]. rewrite calls_app. destruct Hth as [[H1 H2]|(H1 & _)]; [|rewrite H1 in Hr; discriminate Hr].
      rewrite H1 in *. cbn in Hr. injection Hr as -> _. right. split; [done|]. exists i, (TSize true d x), NoMsg, cs. split; [apply list_lookup_insert; by eapply lookup_lt_Some|]. split; [done|].
      intros i0 th Hi0 Hne. rewrite list_lookup_insert_ne in Hi0 by done. apply H2. by eapply elem_of_list_lookup_2.
    - injection Hu as ->. subst log. match goal with K : ths !! i = _ |- _ => rename K into Ti end. match goal with K : client_step _ _ _ |- _ => rename K into St end.
      destruct Hth as [[H1 H2]|(H1 & j & pc & mg & cs0 & H2 & H3 & H4)].
      { exfalso. pose proof (H2 _ (elem_of_list_lookup_2 _ _ _ Ti)) as E. unfold idle in E. cbn in E. subst th. by eapply idle_stuck. }
      destruct (decide (i = j)) as [->|Hne].
      2:{ exfalso. pose proof (H4 _ _ Ti Hne) as E. unfold idle in E. cbn in E. subst th. by eapply idle_stuck. }
      rewrite H2 in Ti. injection Ti as <- <-. pose proof (Z2 _ (elem_of_list_lookup_2 _ _ _ H2)) as Op. cbn in Op. destruct th' as [pc' mg']. destruct (prog_step _ _ _ _ _ _ _ _ _ _ _ _ _ _ _ St Z1 Op Hc H3) as [P1 P2].
      exists u', (ev ++ ev0). split; [done|]. split; [by rewrite app_assoc|]. split; [done|]. split; [done|]. right. rewrite calls_app, P2, app_nil_r. split; [done|]. exists j, pc', mg', cs0. split; [apply list_lookup_insert; by eapply lookup_lt_Some|]. split; [done|].
      intros i0 th Hi0 Hne. rewrite list_lookup_insert_ne in Hi0 by done. by eapply H4.
    - rewrite app_length in Hnq. cbn in Hnq. lia.
    - exfalso. match goal with K : qs !! i = _ |- _ => apply elem_of_list_lookup_2 in K; destruct (Hq _ K) as (? & ? & ? & ? & E) end. cbn in E. subst q. match goal with K : msearch_step _ _ _ _ _ _ _ _ _ |- _ => inversion K end.
  Qed.
  Lemma live_searches a b : live a b -> (exists u, mu_open a u) -> length (mu_qs a) <= length (mu_qs b).
  Proof.
    intros H [u Hu]. unfold mu_open in Hu. inversion H; subst; cbn [mu_sys mu_qs y_proc] in *; try lia; [congruence|rewrite app_length; lia|by rewrite insert_length].
  Qed.
  Lemma session_searches a b : session a b -> length (mu_qs a) <= length (mu_qs b).
  Proof. intros H. induction H as [|a b c [Hab Ho] _ IH]; [done|]. pose proof (live_searches _ _ Hab Ho). lia. Qed.
  Lemma lone_run a b : session a b -> reach a -> lone a -> good_log (mu_log b) -> (exists u, mu_open b u) -> length (mu_qs b) <= nq ->
    (forall ev', mu_log b = log0 ++ ev' -> exists r, calls_of ev' ++ r = [Save d x]) -> lone b.
  Proof.
    intros H. induction H as [a|a b c [Hab Hoa] Hbc IH]; [done|]. intros R L Hg Ho Hn Hpre. destruct (session_log compress decompress cache_size _ _ Hbc) as [ev2 E2].
    assert (good_log (mu_log b)) as Hgb. { intros c0 Hc0. apply Hg. rewrite E2, calls_app. apply elem_of_app. by left. }
    assert (reach b) as Rb by (unfold multi_reachable in *; eapply rtc_r; [exact R|by left]).
    apply IH; [done| |done..]. eapply lone_step; [exact R|exact L|exact Hab|done| | |].
    - inversion Hbc as [|? b' ? [_ Hob] _]; subst; done.
    - pose proof (session_searches _ _ Hbc). lia.
    - intros ev' E. destruct (Hpre (ev' ++ ev2)) as [r Hr]; [by rewrite E2, E, app_assoc|]. rewrite calls_app, <- app_assoc in Hr. by eexists.
  Qed.
End run.
Lemma lone_saved compress decompress cs d x a b u : gzip_ok compress decompress -> (0 < cs)%Z -> multi_reachable compress decompress cs a -> mu_open a u -> mu_between a -> mu_none_searching a ->
  mu_session compress decompress cs a b -> (exists ev, mu_log b = mu_log a ++ ev /\ calls_of ev = [Save d x]) -> mu_searches b = mu_searches a -> mu_between b -> (exists u', mu_open b u') -> good_log (mu_log b) ->
  mu_none_searching b /\ mu_cached b d x /\ forall t, is_Some (f_tf x !! t) -> shown (mu_sh b) (f_name x) t d.
Proof.
  intros gz pos R Hu Hs Hq Hab (ev & E & Hev) Hn Hsb Hob Hg. unfold mu_searches in Hn.
  assert (lone d x (mu_log a) (length (mu_qs a)) a) as L. { exists u, []. rewrite app_nil_r. do 4 (split; [done|]). left. split; [done|]. exact Hs. }
  eapply lone_run in L as (u' & ev' & Hu' & E' & _ & Hq' & Hth); [|exact gz|exact pos|exact Hab|exact R|exact Hg|exact Hob|by rewrite Hn|].
  2:{ intros ev' E'. rewrite E in E'. apply app_inv_head in E' as <-. exists []. by rewrite app_nil_r. }
  rewrite E in E'. apply app_inv_head in E' as <-. destruct Hth as [[Hth _]|(_ & j & pc & mg & cs0 & H1 & H2 & _)]; [rewrite Hev in Hth; discriminate Hth|].
  pose proof (Hsb _ (elem_of_list_lookup_2 _ _ _ H1)) as Ed. cbn in Ed. injection Ed as -> ->. destruct H2 as [HA (e & l & fd & C1 & C2 & C3 & C4)]. split; [done|]. split; [by exists u', e, l, fd|].
  intros t Ht. destruct (HA t Ht) as (l1 & a1 & mm & A1 & A2 & A3 & S0 & A4 & A5). exists S0. split; [|done]. unfold mem_get_documents. cbn. rewrite lookup_fmap, A1. cbn. unfold sets_at. rewrite lookup_fmap, A2. cbn. rewrite A3. cbn. by rewrite A4.
Qed.
