(** The disk storage: everything saved reaches the disk under fair scheduling (C59). *)
From Verif Require Import Base M_Field M_LRU S_LRU S_Visits M_Memory M_File M_Serialize M_Disk P_Base P_File P_LRU S_Disk P_DiskBase P_DiskInv P_DiskMem P_DiskWriter P_DiskTerm P_DiskIndex P_DiskIndex2 P_DiskIndex3 P_DiskIndex4 P_DiskDocs P_DiskDocs2 P_DiskDocs3 X_DiskExec S_DiskFair P_DiskFair P_DiskFair2 S_DiskDurable T_DiskMetrics T_DiskNft T_DiskIndex.
#[local] Open Scope nat_scope.
#[local] Opaque serialize_metrics deserialize_metrics serialize_nft deserialize_nft serialize_field_map deserialize_field_map serialize_index deserialize_index.

Section durable.
  Variables (compress : bytes -> bytes) (decompress : bytes -> option bytes) (cache_size : Z).
  Hypothesis gz : gzip_ok compress decompress.
  Hypothesis pos : (0 < cache_size)%Z.
  Variable r : nat -> sys.
  Hypothesis ex : execution compress decompress cache_size r.
  Hypothesis fa : fair compress decompress r.
  Hypothesis ti : ticking r.
  Hypothesis re : reachable compress decompress cache_size (r 0).
  Hypothesis go : forall i, good_log (y_log (r i)).
  Notation r_reach := (r_reach compress decompress cache_size r ex re).
  Notation r_up := (r_up compress decompress cache_size pos r ex re go).
  Notation r_step := (r_step compress decompress cache_size r ex).

  Lemma up_at i : exists u, y_proc (r i) = Up u.
  Proof. destruct (r_up i) as (u & _ & _ & Hu & _). by exists u. Qed.
  Lemma x_at i u : y_proc (r i) = Up u -> x_up decompress u (y_fs (r i)) (y_log (r i)).
  Proof. intros Hu. destruct (x_reach _ _ cache_size gz (r i) (r_reach i) (go i)) as (_ & _ & _ & Hx). by rewrite Hu in Hx. Qed.
  Lemma step_at i : r (S i) = r i \/ (sys_step compress decompress cache_size (r i) (r (S i)) /\ ~ crash_step (r i) (r (S i))).
  Proof.
    destruct (ex i) as [[E|H] _]; [by left|]. right. split; [by left|]. intros C. destruct (up_at (S i)) as [u' Hu']. inversion C as [? ? ? ? E1 E2]. rewrite <- E2 in Hu'. done.
  Qed.

  (** What is on disk stays. *)
  Lemma kept_later i k f t d : f <> "docs" -> i <= k -> kept decompress (r i) f t d -> kept decompress (r k) f t d.
  Proof.
    intros Hf Hk H. apply (C50_persistent compress decompress cache_size gz f (r i) (r k) t d Hf (r_reach i) (go k)); [|done].
    induction Hk as [|k Hk IH]; [apply rtc_refl|]. destruct (step_at k) as [->|[E C]]; [exact IH|]. eapply rtc_r; [exact IH|]. split; [exact E|]. intros F. by destruct C.
  Qed.
  Lemma kept_at i u f t d : y_proc (r i) = Up u -> kept decompress (r i) f t d <-> safe decompress (y_fs (r i)) (u_mg u) f t d.
  Proof. intros Hu. rewrite kept_safe. unfold y_safe. by rewrite Hu. Qed.

  (** * In the index writer's buffer *)
  Notation inbuf i f t d := (exists u, y_proc (r i) = Up u /\ has (default ∅ (i_buf (u_iw u) !! f)) t d).
  Lemma iw_step i u u' : y_proc (r i) = Up u -> y_proc (r (S i)) = Up u' ->
    u_iw u' = u_iw u \/ i_tick (u_iw u) (u_iw u') \/ (exists p, i_pc (u_iw u) = IIdle /\ i_pc (u_iw u') = IIdle /\ i_buf (u_iw u') = i_recv (i_buf (u_iw u)) p /\ exists ich, u_ich u = p :: ich /\ u_ich u' = ich) \/
    (i_pc (u_iw u) = ILoop [] /\ u_iw u' = mkI ∅ IIdle) \/ (i_pc (u_iw u) <> IIdle /\ i_pc (u_iw u') <> IIdle /\ i_buf (u_iw u') = i_buf (u_iw u)).
  Proof.
    intros Hu Hu'. destruct (r_step i u u' Hu Hu') as [[-> _]|[H|[[ev H]|(_ & _ & ev & H)]]]; [by left| | |left; inversion H; by subst].
    - inversion H; subst; cbn [u_iw]; auto.
    - inversion H; subst; cbn [u_iw u_ich]; try (by left).
      + right. right. left. eauto 10.
      + match goal with G : i_step _ _ _ |- _ => inversion G; subst; cbn [i_pc i_buf] end; [by (do 3 right; left)|..]; by (do 4 right).
  Qed.
  Lemma buf_step i f t d : f <> "docs" -> inbuf i f t d -> inbuf (S i) f t d \/ kept decompress (r i) f t d.
  Proof.
    intros Hf (u & Hu & Hb). destruct (up_at (S i)) as [u' Hu']. destruct (iw_step i u u' Hu Hu') as [E|[E|[(p & _ & _ & E & _)|[[E1 E2]|(_ & _ & E)]]]].
    - left. exists u'. by rewrite E.
    - left. exists u'. split; [done|]. inversion E as [b ks Hr E1 E2]. rewrite <- E1 in Hb. exact Hb.
    - left. exists u'. split; [done|]. rewrite E. apply i_recv_has. by right.
    - right. apply (kept_at i u _ _ _ Hu). pose proof (xu_i _ _ _ _ (x_at i u Hu)) as [_ Hi]. rewrite E1 in Hi. apply (Hi f t d); [exact Hf|apply not_elem_of_nil|done].
    - left. exists u'. by rewrite E.
  Qed.
  Lemma buf_upto i k f t d : f <> "docs" -> i <= k -> inbuf i f t d -> inbuf k f t d \/ exists j, i <= j <= k /\ kept decompress (r j) f t d.
  Proof.
    intros Hf Hk H. induction Hk as [|k Hk [IH|(j & Hj & IH)]]; [by left| |right; exists j; split; [lia|done]].
    destruct (buf_step k f t d Hf IH) as [?|?]; [by left|right; exists k; split; [lia|done]].
  Qed.
  Lemma buf_kept i f t d : f <> "docs" -> inbuf i f t d -> exists j, i <= j /\ kept decompress (r j) f t d.
  Proof.
    intros Hf H. destruct (ti IndexTicker i) as (k & Hk & u & u' & Hu & Hu' & Ht).
    destruct (buf_upto i k f t d Hf Hk H) as [Hb|(j & Hj & ?)]; [|exists j; split; [lia|done]].
    destruct (buf_step k f t d Hf Hb) as [Hb'|?]; [|exists k; split; [lia|done]].
    assert (exists v, y_proc (r (S k)) = Up v /\ i_pc (u_iw v) <> IIdle) as H0. { exists u'. split; [done|]. by inversion Ht. }
    destruct (iw_often compress decompress cache_size pos r ex fa re go (S k)) as (j & Hj & v & Hv & Ev).
    assert (forall m, S k <= m -> (exists j, i <= j /\ kept decompress (r j) f t d) \/ (inbuf m f t d /\ exists v, y_proc (r m) = Up v /\ i_pc (u_iw v) <> IIdle)) as Hm.
    { intros m Hm. induction Hm as [|m Hm [IH|[IH1 (w & Hw & Ew)]]]; [by right|by left|].
      destruct (buf_step m f t d Hf IH1) as [IH2|?]; [|left; exists m; split; [lia|done]]. destruct (up_at (S m)) as [w' Hw'].
      destruct (iw_step m w w' Hw Hw') as [E|[E|[(p & E & _)|[[E1 E2]|(_ & E & _)]]]].
      - right. split; [done|]. exists w'. by rewrite E.
      - inversion E as [b ks Hr E1 E2]. by rewrite <- E1 in Ew.
      - done.
      - exfalso. destruct IH2 as (w2 & Hw2 & Hb2). rewrite Hw' in Hw2. injection Hw2 as <-. rewrite E2 in Hb2. cbn in Hb2. rewrite lookup_empty in Hb2. by apply has_empty in Hb2.
      - right. split; [done|]. by exists w'. }
    destruct (Hm j Hj) as [?|[_ (w & Hw & Ew)]]; [done|]. rewrite Hv in Hw. injection Hw as <-. done.
  Qed.

  (** * In the channel *)
  Notation inch i p n := (exists u l1 l2, y_proc (r i) = Up u /\ u_ich u = l1 ++ p :: l2 /\ length l1 = n).
  Lemma ch_step i f t d n : inch i (mkPost f t d) n -> (inbuf (S i) f t d) \/ (exists n', n' <= n /\ inch (S i) (mkPost f t d) n' /\ (moves compress decompress IndexReceive (r i) (r (S i)) -> n' < n)).
  Proof.
    intros (u & l1 & l2 & Hu & E & En). destruct (up_at (S i)) as [u' Hu'].
    assert (u_ich u' = u_ich u -> inbuf (S i) f t d \/ (exists n', n' <= n /\ inch (S i) (mkPost f t d) n' /\ (moves compress decompress IndexReceive (r i) (r (S i)) -> n' < n))) as Same.
    { intros E2. right. exists n. split; [done|]. split; [exists u', l1, l2; split; [done|]; split; [congruence|done]|].
      intros Hm. exfalso. destruct Hm as (v & ev & v' & Hv & Hv' & _ & _ & _ & G). rewrite Hu in Hv. rewrite Hu' in Hv'. injection Hv as <-. injection Hv' as <-. done. }
    destruct (r_step i u u' Hu Hu') as [[-> _]|[H|[[ev H]|(_ & _ & ev & H)]]].
    - by apply Same.
    - apply Same. apply (tick_same _ _ _ _ H).
    - inversion H; subst u u'; cbn [u_ich u_iw] in *; try (by apply Same).
      + (* send *) right. exists n. split; [done|]. split.
        * eexists _, l1, (l2 ++ [_]). split; [exact Hu'|]. split; [cbn; rewrite E; by rewrite <- app_assoc|done].
        * intros Hm. exfalso. destruct Hm as (v & ev' & v' & Hv & Hv' & _ & _ & G & _). rewrite Hu in Hv. rewrite Hu' in Hv'. injection Hv as <-. injection Hv' as <-. done.
      + (* receive *) destruct l1 as [|p0 l1]; cbn in E; injection E as -> ->.
        * left. eexists. split; [exact Hu'|]. cbn [u_iw i_buf]. apply i_recv_has. by left.
        * right. exists (length l1). cbn in En. split; [lia|]. split; [|intros _; lia]. eexists _, l1, l2. split; [exact Hu'|]. done.
    - apply Same. apply (call_parts _ _ _ H).
  Qed.
  Lemma ch_upto i k f t d n : i <= k -> inch i (mkPost f t d) n -> (exists j, i <= j /\ inbuf j f t d) \/ (exists n', n' <= n /\ inch k (mkPost f t d) n').
  Proof.
    intros Hk H. induction Hk as [|k Hk [IH|(n1 & Hn1 & IH)]]; [right; by exists n|by left|].
    destruct (ch_step k f t d n1 IH) as [?|(n2 & Hn2 & ? & _)]; [left; exists (S k); split; [lia|done]|right; exists n2; split; [lia|done]].
  Qed.
  Lemma ch_buf f t d : forall n i, inch i (mkPost f t d) n -> exists j, i <= j /\ inbuf j f t d.
  Proof.
    induction n as [n IH] using lt_wf_ind. intros i H.
    assert ((exists j, i <= j /\ inbuf j f t d) \/ exists k, i <= k /\ moves compress decompress IndexReceive (r k) (r (S k))) as [?|(k & Hk & Hm)]; [|done|].
    { destruct (fa IndexReceive i) as [?|(k & Hk & Hs)]; [by right|]. left.
      destruct (iw_often compress decompress cache_size pos r ex fa re go k) as (j & Hj & v & Hv & Ev).
      destruct (ch_upto i j f t d n ltac:(lia) H) as [?|(n' & _ & w & l1 & l2 & Hw & E & _)]; [done|]. exfalso. rewrite Hv in Hw. injection Hw as <-. apply (Hs j Hj).
      apply (can compress decompress r _ _ v Hv). apply recv_ready; [|done]. rewrite E. by destruct l1. }
    destruct (ch_upto i k f t d n Hk H) as [?|(n1 & Hn1 & Hc)]; [done|].
    destruct (ch_step k f t d n1 Hc) as [?|(n2 & _ & Hc2 & Hlt)]; [exists (S k); split; [lia|done]|]. specialize (Hlt Hm).
    destruct (IH n2 ltac:(lia) (S k) Hc2) as (j & Hj & ?). exists j. split; [lia|done].
  Qed.

  (** * About to be sent *)
  Lemma send_step i u full d x t ks : y_proc (r i) = Up u -> u_pc u = CIndexSend full d x t ks ->
    (exists u', y_proc (r (S i)) = Up u' /\ u_pc u' = CIndexSend full d x t ks) \/ exists n, inch (S i) (mkPost (f_name x) t d) n.
  Proof.
    intros Hu E. destruct (up_at (S i)) as [u' Hu']. destruct (r_step i u u' Hu Hu') as [[-> _]|[H|[[ev H]|(H & _)]]].
    - left. by exists u.
    - left. exists u'. split; [done|]. destruct (tick_same _ _ _ _ H) as (-> & _). done.
    - inversion H; subst u u'; cbn [u_pc u_ich] in *; subst; try discriminate; try (left; eexists; split; [exact Hu'|done]).
      + match goal with G : c_step _ _ _ _ |- _ => inversion G end.
      + match goal with G : c_doc _ _ _ |- _ => inversion G end.
      + right. injection E as -> -> -> -> ->. exists (length ich). eexists _, ich, []. split; [exact Hu'|]. done.
    - congruence.
  Qed.
  Lemma send_ch i u full d x t ks : y_proc (r i) = Up u -> u_pc u = CIndexSend full d x t ks -> exists j n, i <= j /\ inch j (mkPost (f_name x) t d) n.
  Proof.
    intros Hu E. destruct (caller_idle compress decompress cache_size pos r ex fa re go i) as (j & Hj & v & Hv & Ev).
    assert (forall m, i <= m -> (exists j n, i <= j /\ inch j (mkPost (f_name x) t d) n) \/ exists w, y_proc (r m) = Up w /\ u_pc w = CIndexSend full d x t ks) as Hm.
    { intros m Hm. induction Hm as [|m Hm [IH|(w & Hw & Ew)]]; [right; by exists u|by left|]. destruct (send_step m w full d x t ks Hw Ew) as [?|(n & ?)]; [by right|]. left. exists (S m), n. split; [lia|done]. }
    destruct (Hm j Hj) as [?|(w & Hw & Ew)]; [done|]. rewrite Hv in Hw. injection Hw as <-. congruence.
  Qed.

  Lemma posting_kept i u f t d : y_proc (r i) = Up u -> f <> "docs" -> has (disk_get_index (u_mem u) f) t d ->
    exists j, i <= j /\ forall k, j <= k -> kept decompress (r k) f t d.
  Proof.
    intros Hu Hf H. cut (exists j, i <= j /\ kept decompress (r j) f t d). { intros (j & Hj & Hk). exists j. split; [done|]. intros k Hjk. by apply (kept_later j k). }
    apply (xu_cons _ _ _ _ (x_at i u Hu) f t d Hf) in H as [[(full & x & ks & E & <-)|[Hin|Hb]]|Hs].
    - destruct (send_ch i u _ _ _ _ _ Hu E) as (j & n & Hj & Hc). destruct (ch_buf _ _ _ n j Hc) as (j2 & Hj2 & Hb). destruct (buf_kept j2 _ _ _ Hf Hb) as (j3 & Hj3 & Hk). exists j3. split; [lia|done].
    - apply elem_of_list_split in Hin as (l1 & l2 & E). destruct (ch_buf f t d (length l1) i) as (j2 & Hj2 & Hb); [by exists u, l1, l2|]. destruct (buf_kept j2 _ _ _ Hf Hb) as (j3 & Hj3 & Hk). exists j3. split; [lia|done].
    - apply buf_kept; [done|]. by exists u.
    - exists i. split; [done|]. by apply (kept_at i u).
  Qed.

  (** * After the last save *)
  Variable i0 : nat.
  Hypothesis ns : no_saves_after r i0.
  Lemma not_saving_dec pc : {not_saving pc} + {~ not_saving pc}.
  Proof. destruct pc; cbn; tauto. Qed.
  Lemma rest_step i u u' : i0 <= i -> y_proc (r i) = Up u -> y_proc (r (S i)) = Up u' -> not_saving (u_pc u) -> not_saving (u_pc u').
  Proof.
    intros Hi Hu Hu' Hn. destruct (ex i) as [[E|H] _]; [rewrite E, Hu in Hu'; by injection Hu' as <-|]. pose proof (fun c => ns i c Hi) as N. revert H Hu Hu' N. generalize (r i), (r (S i)). intros a b H Hu Hu' N.
    inversion H as [| | |? ? ? ? ? ? G|? ? ? ? ? G|? ? ? ? ? G]; subst; cbn [y_proc y_log] in *; try discriminate; injection Hu as ->; injection Hu' as ->.
    - inversion G; subst; cbn [u_pc] in *; try done; match goal with G1 : c_step _ _ _ _ |- _ => inversion G1; subst; done | G1 : c_doc _ _ _ |- _ => inversion G1; subst; done end.
    - by destruct (tick_same _ _ _ _ G) as (-> & _).
    - inversion G; subst; cbn [u_pc]; try done; exfalso; by eapply N.
  Qed.
  Lemma rests : exists j, i0 <= j /\ forall k u, j <= k -> y_proc (r k) = Up u -> not_saving (u_pc u).
  Proof.
    destruct (caller_idle compress decompress cache_size pos r ex fa re go i0) as (j & Hj & v & Hv & Ev). exists j. split; [done|]. intros k u Hk. revert u. induction Hk as [|k Hk IH]; intros u Hu.
    - rewrite Hv in Hu. injection Hu as <-. by rewrite Ev.
    - destruct (up_at k) as [w Hw]. eapply rest_step; [|exact Hw|exact Hu|by apply IH]. lia.
  Qed.
  (** While the caller rests the channel and the buffers only lose elements. *)
  Definition calm {V} (w w' : writer V) (c : (string -> path)) (n : string -> string) (ser : string -> V -> bytes -> Prop) : Prop :=
    w' = w \/ w_tick w w' \/ exists s s', w_step compress c n ser (w, s) (w', s').
  Lemma calm_step i u u' : y_proc (r i) = Up u -> y_proc (r (S i)) = Up u' -> not_saving (u_pc u) ->
    calm (u_mw u) (u_mw u') m_dir m_name m_ser /\ calm (u_nw u) (u_nw u') n_dir n_name n_ser /\ (exists h, calm (u_dw u) (u_dw u') d_dir d_name (d_ser h)) /\
    (u_ich u' = u_ich u \/ exists p, u_ich u = p :: u_ich u').
  Proof.
    intros Hu Hu' Hn. unfold calm. destruct (r_step i u u' Hu Hu') as [[-> _]|[H|[[ev H]|(_ & _ & ev & H)]]].
    - do 2 (split; [by left|]). split; [exists ∅; by left|by left].
    - inversion H; subst; cbn [u_mw u_nw u_dw u_ich]; (split; [by auto|]); (split; [by auto|]); (split; [|by left]); exists ∅; by auto.
    - inversion H; subst; cbn [u_mw u_nw u_dw u_ich u_pc] in *; try done; try (by (do 2 (split; [by left|]); split; [exists ∅; by left|by left])).
      + do 2 (split; [by left|]). split; [exists ∅; by left|]. right. by eexists.
      + split; [right; right; by eauto|]. split; [by left|]. split; [exists ∅; by left|by left].
      + split; [by left|]. split; [right; right; by eauto|]. split; [exists ∅; by left|by left].
      + do 2 (split; [by left|]). split; [|by left]. eexists. right. right. by eauto.
    - inversion H; subst; cbn [u_mw u_nw u_dw u_ich]; (do 2 (split; [by left|]); split; [exists ∅; by left|by left]).
  Qed.
  Lemma calm_empty {V} (w w' : writer V) c n ser : calm w w' c n ser -> w_buf w = ∅ -> w_buf w' = ∅.
  Proof.
    intros [->|[H|(s & s' & H)]] E; [done|inversion H; by subst|]. inversion H; subst; cbn [w_buf] in *; try done. subst. apply delete_empty.
  Qed.
  Lemma calm_busy {V} (w w' : writer V) c n ser : calm w w' c n ser -> w_full w -> w_pc w <> WIdle -> w_pc w' <> WIdle \/ w_buf w' = ∅.
  Proof.
    intros [->|[H|(s & s' & H)]] F E; [by left|inversion H; by subst|]. inversion H; subst; cbn [w_buf w_pc] in *; try (by left). right.
    apply map_empty. intros k. apply eq_None_not_Some. intros Hs. unfold w_full in F. cbn in F. apply F in Hs. by apply elem_of_nil in Hs.
  Qed.
  Lemma writer_settles {V} (get : up -> writer V) T j0 :
    (forall k u u', j0 <= k -> y_proc (r k) = Up u -> y_proc (r (S k)) = Up u' -> exists c n ser, calm (get u) (get u') c n ser) ->
    (forall k u, y_proc (r k) = Up u -> w_full (get u)) ->
    (forall i, exists j, i <= j /\ idle_w r get j) ->
    (forall a b, fires T a b -> exists u u', y_proc a = Up u /\ y_proc b = Up u' /\ w_tick (get u) (get u')) ->
    exists j, j0 <= j /\ forall k u, j <= k -> y_proc (r k) = Up u -> w_buf (get u) = ∅.
  Proof.
    intros Hc Hf Ho HT. cut (exists j u, j0 <= j /\ y_proc (r j) = Up u /\ w_buf (get u) = ∅).
    { intros (j & u & Hj & Hu & E). exists j. split; [done|]. intros k v Hk. revert v. induction Hk as [|k Hk IH]; intros v Hv; [congruence|].
      destruct (up_at k) as [w Hw]. destruct (Hc k w v) as (c & n & ser & C); [lia|done..|]. eapply calm_empty; [exact C|by apply IH]. }
    destruct (ti T j0) as (k & Hk & F). destruct (HT _ _ F) as (u & u' & Hu & Hu' & Ht). destruct (Ho (S k)) as (j & Hj & v & Hv & Ev).
    assert (forall m, S k <= m -> (exists j u, j0 <= j /\ y_proc (r j) = Up u /\ w_buf (get u) = ∅) \/ exists w, y_proc (r m) = Up w /\ w_pc (get w) <> WIdle) as Hm.
    { intros m Hm. induction Hm as [|m Hm [IH|(w & Hw & Ew)]]; [right; exists u'; split; [done|]; by inversion Ht|by left|]. destruct (up_at (S m)) as [w' Hw'].
      destruct (Hc m w w') as (c & n & ser & C); [lia|done..|]. destruct (calm_busy _ _ _ _ _ C (Hf m w Hw) Ew) as [?|?]; [right; by exists w'|]. left. exists (S m), w'. split; [lia|done]. }
    destruct (Hm j Hj) as [?|(w & Hw & Ew)]; [done|]. congruence.
  Qed.
  Lemma channel_settles j0 : (forall k u, j0 <= k -> y_proc (r k) = Up u -> not_saving (u_pc u)) ->
    exists j, j0 <= j /\ forall k u, j <= k -> y_proc (r k) = Up u -> u_ich u = [].
  Proof.
    intros Hn. cut (exists j u, j0 <= j /\ y_proc (r j) = Up u /\ u_ich u = []).
    { intros (j & u & Hj & Hu & E). exists j. split; [done|]. intros k v Hk. revert v. induction Hk as [|k Hk IH]; intros v Hv; [congruence|].
      destruct (up_at k) as [w Hw]. destruct (calm_step k w v Hw Hv) as (_ & _ & _ & [E2|[p E2]]); [by apply Hn with k; [lia|]|by rewrite E2, IH|]. rewrite (IH w Hw) in E2. done. }
    destruct (progress (fun i => i < j0 \/ exists u, y_proc (r i) = Up u /\ u_ich u = []) (fun i => moves compress decompress IndexReceive (r i) (r (S i))) (fun i => match y_proc (r i) with Up u => length (u_ich u) | _ => 0 end)) with (i := j0)
      as (j & Hj & [G|(v & Hv & G)]).
    - intros m. destruct (decide (m < j0)) as [|Hm]; [by left; left|]. right. destruct (up_at m) as [v Hv]. destruct (up_at (S m)) as [v' Hv']. rewrite Hv, Hv'.
      destruct (calm_step m v v' Hv Hv') as (_ & _ & _ & [->|[p ->]]); [by apply Hn with m; [lia|]|done|cbn; lia].
    - intros m Hm. destruct (decide (m < j0)) as [|Hmk]; [by left; left|]. right. destruct (up_at m) as [v Hv]. destruct (up_at (S m)) as [v' Hv']. rewrite Hv, Hv'.
      destruct (did compress decompress r _ m v v' Hv Hv' Hm) as (ev & H & _ & Ga). destruct (calm_step m v v' Hv Hv') as (_ & _ & _ & [E|[p E]]); [by apply Hn with m; [lia|]|done|rewrite E; cbn; lia].
    - intros m. destruct (fa IndexReceive m) as [(k2 & Hk2 & Hm)|(k2 & Hk2 & Hm)]; [eauto|]. destruct (iw_often compress decompress cache_size pos r ex fa re go (j0 `max` k2)) as (j & Hj & v & Hv & E). exists j. split; [lia|]. left.
      destruct (u_ich v) as [|p l] eqn:E2; [right; by exists v|]. exfalso. apply (Hm j); [lia|]. apply (can compress decompress r _ _ v Hv). apply recv_ready; [by rewrite E2|done].
    - lia.
    - exists j, v. done.
  Qed.
  Lemma ibuf_settles j0 : (forall k u, j0 <= k -> y_proc (r k) = Up u -> u_ich u = []) ->
    exists j, j0 <= j /\ forall k u, j <= k -> y_proc (r k) = Up u -> i_buf (u_iw u) = ∅.
  Proof.
    intros Hc. assert (forall k u u', j0 <= k -> y_proc (r k) = Up u -> y_proc (r (S k)) = Up u' ->
      u_iw u' = u_iw u \/ i_tick (u_iw u) (u_iw u') \/ (i_pc (u_iw u) = ILoop [] /\ u_iw u' = mkI ∅ IIdle) \/ (i_pc (u_iw u) <> IIdle /\ i_pc (u_iw u') <> IIdle /\ i_buf (u_iw u') = i_buf (u_iw u))) as Hs.
    { intros k u u' Hk Hu Hu'. destruct (iw_step k u u' Hu Hu') as [E|[E|[(p & _ & _ & _ & ich & E & _)|[E|E]]]]; [by auto|by auto| |by auto|by auto]. rewrite (Hc k u Hk Hu) in E. discriminate E. }
    cut (exists j u, j0 <= j /\ y_proc (r j) = Up u /\ i_buf (u_iw u) = ∅).
    { intros (j & u & Hj & Hu & E). exists j. split; [done|]. intros k v Hk. revert v. induction Hk as [|k Hk IH]; intros v Hv; [congruence|].
      destruct (up_at k) as [w Hw]. destruct (Hs k w v) as [->|[G|[[_ ->]|(_ & _ & ->)]]]; [lia|done..|by apply IH| |done|by apply IH]. specialize (IH w Hw). inversion G as [b ks Hr E1 E2]. rewrite <- E1 in IH. exact IH. }
    destruct (ti IndexTicker j0) as (k & Hk & u & u' & Hu & Hu' & Ht). destruct (iw_often compress decompress cache_size pos r ex fa re go (S k)) as (j & Hj & v & Hv & Ev).
    assert (forall m, S k <= m -> (exists j u, j0 <= j /\ y_proc (r j) = Up u /\ i_buf (u_iw u) = ∅) \/ exists w, y_proc (r m) = Up w /\ i_pc (u_iw w) <> IIdle) as Hm.
    { intros m Hm. induction Hm as [|m Hm [IH|(w & Hw & Ew)]]; [right; exists u'; split; [done|]; by inversion Ht|by left|]. destruct (up_at (S m)) as [w' Hw'].
      destruct (Hs m w w') as [E|[G|[[_ E]|(_ & E & _)]]]; [lia|done..| | | |].
      - right. exists w'. by rewrite E.
      - inversion G as [b ks Hr E1 E2]. by rewrite <- E1 in Ew.
      - left. exists (S m), w'. split; [lia|]. by rewrite E.
      - right. by exists w'. }
    destruct (Hm j Hj) as [?|(w & Hw & Ew)]; [done|]. congruence.
  Qed.
  Lemma all_settles : exists j, i0 <= j /\ forall k, j <= k -> exists u, y_proc (r k) = Up u /\ flushed u.
  Proof.
    destruct rests as (j0 & Hj0 & H0). destruct (channel_settles j0 H0) as (j1 & Hj1 & H1). destruct (ibuf_settles j1 H1) as (j2 & Hj2 & H2).
    assert (forall k u, y_proc (r k) = Up u -> w_full (u_mw u) /\ w_full (u_nw u) /\ w_full (u_dw u)) as Hf. { intros k u Hu. pose proof (full_reach _ _ _ _ (r_reach k)) as G. unfold full_inv in G. by rewrite Hu in G. }
    destruct (writer_settles u_mw MetricsTicker j0) as (j3 & Hj3 & H3).
    { intros k u u' Hk Hu Hu'. destruct (calm_step k u u' Hu Hu' (H0 k u Hk Hu)) as (C & _). eauto. }
    { intros k u Hu. by apply (Hf k u Hu). }
    { apply (mw_often compress decompress cache_size pos r ex fa re go). }
    { intros a b (u & u' & ? & ? & ?). eauto. }
    destruct (writer_settles u_nw NftTicker j0) as (j4 & Hj4 & H4).
    { intros k u u' Hk Hu Hu'. destruct (calm_step k u u' Hu Hu' (H0 k u Hk Hu)) as (_ & C & _). eauto. }
    { intros k u Hu. by apply (Hf k u Hu). }
    { apply (nw_often compress decompress cache_size pos r ex fa re go). }
    { intros a b (u & u' & ? & ? & ?). eauto. }
    destruct (writer_settles u_dw DocsTicker j0) as (j5 & Hj5 & H5).
    { intros k u u' Hk Hu Hu'. destruct (calm_step k u u' Hu Hu' (H0 k u Hk Hu)) as (_ & _ & [h C] & _). eauto. }
    { intros k u Hu. by apply (Hf k u Hu). }
    { apply (dw_often compress decompress cache_size pos r ex fa re go). }
    { intros a b (u & u' & ? & ? & ?). eauto. }
    exists (j2 `max` j3 `max` j4 `max` j5). split; [lia|]. intros k Hk. destruct (up_at k) as [u Hu]. exists u. split; [done|]. unfold flushed.
    rewrite (H1 k u), (H2 k u), (H3 k u), (H4 k u), (H5 k u) by (done || lia). split; [apply (H0 k u); [lia|done]|done].
  Qed.
End durable.
