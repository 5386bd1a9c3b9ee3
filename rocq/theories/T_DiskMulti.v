(** C66: concurrent saves on the disk storage: what reaches the disk. *)
From Verif Require Import Base M_Field M_LRU S_Visits M_Memory M_File M_Serialize M_Num M_FanIn M_Search M_Concurrent M_SearchConc M_Disk M_DiskBusy M_DiskMulti P_Base P_File S_Concurrent P_Concurrent P_Concurrent2 S_Disk P_DiskBase P_DiskInv P_DiskMem P_DiskWriter P_DiskIndex P_DiskIndex2 P_DiskIndex3 P_DiskIndex4 S_DiskMulti P_DiskMulti P_DiskMulti2 P_DiskMulti3.
#[local] Open Scope Z_scope.
#[local] Opaque serialize_metrics deserialize_metrics serialize_nft deserialize_nft serialize_field_map deserialize_field_map serialize_index deserialize_index.

Lemma sent_where decompress a u G L ol oa f t d : mi decompress (y_fs (mu_sys a)) u (mu_log a) (mu_sh a) (mu_threads a) G L ol oa -> nd f ->
  (sent G f t d \/ pend (mu_threads a) (mkPost f t d)) <-> (multi_flight a u f t d \/ safe decompress (y_fs (mu_sys a)) (u_mg u) f t d).
Proof.
  intros I Hf. pose proof (xu_cons _ _ _ _ (mi_x _ _ _ _ _ _ _ _ _ _ I) f t d Hf) as X. unfold disk_get_index in X. cbn in X. unfold sent. rewrite X, in_flight_parts. cbn [ghost u_pc u_ich u_iw u_mg].
  unfold multi_flight, pend. assert (~ flight_pc CIdle f t d) as N by (intros (? & ? & ? & ? & _); done). tauto.
Qed.
Lemma session_eq (l1 l2 k1 k2 : list event) : l1 ++ EOpened :: l2 = k1 ++ EOpened :: k2 -> EOpened ∉ l2 -> EOpened ∉ k2 -> k2 = l2.
Proof.
  revert k1. induction l1 as [|e l1 IH]; intros [|e' k1] E Hn Hn2; cbn in E.
  - by injection E as ->.
  - injection E as <- E. subst l2. exfalso. apply Hn. apply elem_of_app. right. left.
  - injection E as -> E. subst k2. exfalso. apply Hn2. apply elem_of_app. right. left.
  - injection E as <- E. by apply (IH k1).
Qed.

(** * No posting is lost on the way to the disk *)
(** Whatever the interleaving of the calls with each other and with the store's own
    goroutines: every posting of every call made since the store was opened is still the
    business of that call, or on its way to the disk, or on disk. *)
Theorem C66_saved_not_lost : forall compress decompress cache_size, gzip_ok compress decompress ->
  forall a u l1 l2 c t, multi_reachable compress decompress cache_size a -> good_log (mu_log a) -> mu_open a u ->
  mu_log a = l1 ++ EOpened :: l2 -> EOpened ∉ l2 -> c ∈ calls_of l2 -> is_Some (f_tf (call_field' c) !! t) -> ~ in_progress a c ->
  multi_flight a u (f_name (call_field' c)) t (call_doc' c) \/ safe decompress (y_fs (mu_sys a)) (u_mg u) (f_name (call_field' c)) t (call_doc' c).
Proof.
  intros compress decompress cs gz a u l1 l2 c t R Hg Hu El Hn Hc Ht Hp. destruct (m_up compress decompress cs gz a u R Hg Hu) as (_ & _ & G & L & ol & oa & I).
  assert (nd (f_name (call_field' c))) as Hf. { apply (Hg c). rewrite El, calls_app. apply elem_of_app. by right. }
  apply (sent_where _ _ _ _ _ _ _ _ _ _ I Hf). destruct (mi_calls _ _ _ _ _ _ _ _ _ _ I) as (k1 & k2 & Ek & Hn2 & H).
  rewrite El in Ek. rewrite (session_eq _ _ _ _ Ek Hn Hn2) in H. destruct (H c t Hc Ht) as [?|[?|(th & Hth & W & _)]]; [by left|by right|].
  destruct Hp. exists th. split; [done|]. destruct th as [[pc m] cs']. unfold executing. cbn in W |- *. by destruct pc.
Qed.
Print Assumptions C66_saved_not_lost.

(** Every posting that a search finds in memory is on its way to the disk or on disk. *)
Theorem C66_memory_on_disk : forall compress decompress cache_size, gzip_ok compress decompress ->
  forall a u f t d, multi_reachable compress decompress cache_size a -> good_log (mu_log a) -> mu_open a u -> f <> "docs" ->
  shown (mu_sh a) f t d -> multi_flight a u f t d \/ safe decompress (y_fs (mu_sys a)) (u_mg u) f t d.
Proof.
  intros compress decompress cs gz a u f t d R Hg Hu Hf (S & HS & HD). destruct (m_up compress decompress cs gz a u R Hg Hu) as (_ & _ & G & L & ol & oa & I).
  apply (sent_where _ _ _ _ _ _ _ _ _ _ I Hf). pose proof (mi_own _ _ _ _ _ _ _ _ _ _ I) as W.
  unfold mem_get_documents, view in HS. cbn in HS. rewrite lookup_fmap in HS. destruct (M_Concurrent.k_index (mu_sh a) !! f) as [l|] eqn:El; cbn in HS; [|done].
  unfold sets_at in HS. rewrite lookup_fmap in HS. destruct (k_maps (mu_sh a) !! l) as [m|] eqn:Em; cbn in HS; [|by rewrite lookup_empty in HS].
  destruct (m !! t) as [x|] eqn:Ex; [|done]. cbn in HS. injection HS as <-. destruct (k_sets (mu_sh a) !! x) as [S|] eqn:ES; [|destruct HD as [? HD]; by destruct (lookup_empty_Some (M := gmap string) _ _ HD)].
  destruct (o_set _ _ _ W _ _ _ _ Em Ex) as (f' & E1 & E2). rewrite (o_idx _ _ _ W _ _ El) in E1. injection E1 as <-.
  by apply (mi_sets _ _ _ _ _ _ _ _ _ _ I x S).
Qed.
Print Assumptions C66_memory_on_disk.

(** Nothing else is: every posting in memory, on its way to the disk or on disk was put
    there by a call. *)
Theorem C66_only_saved : forall compress decompress cache_size, gzip_ok compress decompress ->
  forall a u f t d, multi_reachable compress decompress cache_size a -> good_log (mu_log a) -> mu_open a u -> f <> "docs" ->
  shown (mu_sh a) f t d \/ multi_flight a u f t d \/ safe decompress (y_fs (mu_sys a)) (u_mg u) f t d -> saved_posting (mu_log a) f t d.
Proof.
  intros compress decompress cs gz a u f t d R Hg Hu Hf H. destruct (m_up compress decompress cs gz a u R Hg Hu) as (_ & _ & G & L & ol & oa & I).
  assert (multi_flight a u f t d \/ safe decompress (y_fs (mu_sys a)) (u_mg u) f t d) as H'.
  { destruct H as [H|H]; [|done]. by apply (C66_memory_on_disk compress decompress cs gz a u f t d). }
  apply (sent_where _ _ _ _ _ _ _ _ _ _ I Hf) in H' as [Hs|(th & Hth & E)].
  - apply (mi_sound _ _ _ _ _ _ _ _ _ _ I); [done|]. by apply (xu_sound _ _ _ _ (mi_x _ _ _ _ _ _ _ _ _ _ I)).
  - destruct (mi_th _ _ _ _ _ _ _ _ _ _ I th Hth) as (_ & _ & M). rewrite E in M. by destruct M as [_ M].
Qed.
Print Assumptions C66_only_saved.

(** * Crash and reopening *)
(** Whatever the state: the reopened index is exactly what is on disk, and only holds
    postings that were really saved. *)
Theorem C66_reopened_index : forall compress decompress cache_size, gzip_ok compress decompress ->
  forall a, multi_reachable compress decompress cache_size a -> good_log (mu_log a) ->
  forall cache_size' u' s', reopen compress decompress cache_size' (y_fs (mu_sys a)) u' s' -> forall f t d, f <> "docs" ->
    (has (disk_get_index (u_mem u') f) t d <-> on_disk decompress (y_fs (mu_sys a)) f t d) /\
    (has (disk_get_index (u_mem u') f) t d -> saved_posting (mu_log a) f t d).
Proof.
  intros compress decompress cs gz a R Hg cs' u' s' Ho f t d Hf. destruct (m_reach compress decompress cs gz a R Hg) as [[Bl _] Hi].
  assert (x_valid decompress (y_fs (mu_sys a)) /\ (on_disk decompress (y_fs (mu_sys a)) f t d -> saved_posting (mu_log a) f t d)) as [Hv Hs].
  { destruct (y_proc (mu_sys a)) as [|g|u] eqn:E.
    - destruct Hi as (V & Sd & _). split; [done|]. intros Hd. apply Sd; [done|]. apply kept_safe. by left.
    - destruct Hi as (V & Sd & _). split; [done|]. intros Hd. apply Sd; [done|]. apply kept_safe. by left.
    - destruct Hi as (G & L & ol & oa & I). split; [by apply (mi_xv _ _ _ _ _ _ _ _ _ _ I)|]. intros Hd. apply (C66_only_saved compress decompress cs gz a u); try done. right. right. by left. }
  destruct (reopen_inv compress decompress cs' gz _ _ _ Bl Hv Ho) as (_ & _ & HR). destruct (HR f Hf) as (_ & _ & HH). split; [apply HH|].
  intros Hh. apply Hs. by apply (proj1 (HH t d)).
Qed.
Print Assumptions C66_reopened_index.

(** When every request has been served and nothing is on its way to the disk (and the
    merger is not between its two renames), reopening yields every posting of every call
    of the session and every posting in memory, also those that concurrent calls have
    removed from memory. *)
Theorem C66_quiet_reopen : forall compress decompress cache_size, gzip_ok compress decompress ->
  forall a u f, multi_reachable compress decompress cache_size a -> good_log (mu_log a) -> mu_open a u -> f <> "docs" ->
  multi_quiet a u -> ~ in_gap (u_mg u) f ->
  forall cache_size' u' s', reopen compress decompress cache_size' (y_fs (mu_sys a)) u' s' -> forall t d,
    (forall l1 l2, mu_log a = l1 ++ EOpened :: l2 -> EOpened ∉ l2 -> saved_posting l2 f t d -> has (disk_get_index (u_mem u') f) t d) /\
    (shown (mu_sh a) f t d -> has (disk_get_index (u_mem u') f) t d) /\
    (has (disk_get_index (u_mem u') f) t d -> saved_posting (mu_log a) f t d).
Proof.
  intros compress decompress cs gz a u f R Hg Hu Hf (Q1 & Q2 & Q3) Hgap cs' u' s' Ho t d.
  destruct (C66_reopened_index compress decompress cs gz a R Hg cs' u' s' Ho f t d Hf) as [R1 R2].
  assert (multi_flight a u f t d \/ safe decompress (y_fs (mu_sys a)) (u_mg u) f t d -> has (disk_get_index (u_mem u') f) t d) as K.
  { rewrite safe_no_gap by done. intros [[(th & Hth & E)|[Hin|Hb]]|?].
    - by rewrite (Q1 th Hth) in E.
    - rewrite Q2 in Hin. by apply elem_of_nil in Hin.
    - rewrite Q3, lookup_empty in Hb. by apply has_empty in Hb.
    - by apply R1. }
  split; [|split; [|done]].
  - intros l1 l2 El Hn (c & Hc & <- & <- & Ht). apply K. apply (C66_saved_not_lost compress decompress cs gz a u l1 l2 c t); try done.
    intros (th & Hth & E). by rewrite (Q1 th Hth) in E.
  - intros Hs. apply K. by apply (C66_memory_on_disk compress decompress cs gz a u f t d).
Qed.
Print Assumptions C66_quiet_reopen.

(** What is on disk stays there, over any number of steps, crashes and reopenings, as
    long as the process never ends between the two renames of this field's index file. *)
Theorem C66_persistent : forall compress decompress cache_size, gzip_ok compress decompress ->
  forall f a b t d, f <> "docs" -> multi_reachable compress decompress cache_size a -> good_log (mu_log b) ->
  rtc (fun a b => multi_step compress decompress cache_size a b /\ no_gap_crash f (mu_sys a) (mu_sys b)) a b ->
  kept decompress (mu_sys a) f t d -> kept decompress (mu_sys b) f t d.
Proof.
  intros compress decompress cs gz f a b t d Hf Hr Hg H. revert Hr Hg.
  induction H as [a|a b c [Hab Hc] Hbc IH]; intros Hr Hg Hk; [done|].
  assert (good_log (mu_log b)) as Gb.
  { clear - Hbc Hg. induction Hbc as [|a b c [Hab _] _ IH]; [done|]. by eapply m_good_mono, IH. }
  assert (good_log (mu_log a)) as Ga by (by eapply m_good_mono).
  apply IH; [by eapply rtc_r|done|]. rewrite kept_safe in *. destruct (m_reach compress decompress cs gz a Hr Ga) as [[Bl Bp] Xi].
  assert (forall y y', mu_sys a = y -> mu_sys b = y' -> (forall u, y_proc y = Up u -> exists G L ol oa, mi decompress (y_fs y) u (mu_log a) (mu_sh a) (mu_threads a) G L ol oa) ->
    live_step compress decompress cs y y' -> (forall u', y_proc y' = Up u' -> u_pc u' = CIdle) -> y_safe decompress y' f t d) as Live.
  { intros y y' E E' Hm St Hi'. rewrite E in *. destruct St; unfold y_safe, x_inv in *; cbn [y_fs y_proc y_log] in *.
    - match goal with G : mkdir_all _ _ = _ |- _ => destruct (mkdir_effect _ [] _ Bl eq_refl (Nat.le_0_l 2) G) as (E1 & E2 & _) end.
      match goal with G : g_start _ _ |- _ => inversion G; subst end. rewrite safe_no_gap by (by apply no_gap). revert Hk. apply disk_same; by rewrite E2.
    - destruct Bp as [_ Bp]. destruct Xi as (Xv & _ & Xg & _). match goal with G : g_step _ _ _ _ |- _ => destruct (g_step_inv compress decompress gz _ _ _ _ Bl Bp Xv Xg G) as (_ & _ & I3) end. by apply I3.
    - match goal with G : opened _ _ _ _ _ |- _ => inversion G; subst end. cbn. rewrite safe_no_gap in * by (by apply no_gap). done.
    - destruct Bp as [_ Bp]. destruct (Hm u eq_refl) as (G & L & ol & oa & I). match goal with G0 : up_step _ _ _ _ _ |- _ => destruct (bg_step compress decompress _ _ _ _ _ G G0 (mi_pc _ _ _ _ _ _ _ _ _ _ I) (Hi' _ eq_refl)) as [GS _] end.
      destruct (up_step_x compress decompress gz _ _ _ _ _ L Bl (ghost_wf _ _ G Bp) (mi_xv _ _ _ _ _ _ _ _ _ _ I) (mi_x _ _ _ _ _ _ _ _ _ _ I) GS) as (_ & _ & U). by apply U.
    - destruct Bp as [_ Bp]. destruct (Hm u eq_refl) as (G & L & ol & oa & I). match goal with G0 : up_tick _ _ |- _ => destruct (bg_tick _ _ _ _ G G0) as (GT & _) end.
      destruct (up_tick_x decompress _ _ _ _ L (ghost_wf _ _ G Bp) (mi_x _ _ _ _ _ _ _ _ _ _ I) GT) as (-> & _ & U). by apply U.
    - match goal with K : up_call _ _ _ |- _ => inversion K; subst; specialize (Hi' _ eq_refl); done end. }
  assert (forall u, y_proc (mu_sys a) = Up u -> exists G L ol oa, mi decompress (y_fs (mu_sys a)) u (mu_log a) (mu_sh a) (mu_threads a) G L ol oa) as Hm.
  { intros u E. rewrite E in Xi. exact Xi. }
  destruct Hab as [Hl|(y' & Hl & ->)].
  - inversion Hl; subst; unfold mu_log in *; cbn [mu_sys mu_sh mu_threads] in *.
    + apply (Live _ _ eq_refl eq_refl Hm); [done|]. intros u' E. match goal with K : forall u, _ <> Up u |- _ => by destruct (K u') end.
    + apply (Live _ _ eq_refl eq_refl Hm); [done|]. intros u' E. match goal with K : live_step _ _ _ _ _ |- _ => inversion K; subst; cbn in *; try congruence end.
      match goal with K : opened _ _ _ _ _ |- _ => inversion K; subst end. by injection E as <-.
    + apply (Live _ _ eq_refl eq_refl Hm); [done|]. intros u0 E. congruence.
    + done.
    + done.
    + match goal with K : client_step _ _ _ |- _ => inversion K; subst; done end.
    + done.
    + done.
  - specialize (Hc Hl). inversion Hl as [s p log Hp E]; subst. unfold gap, y_safe in *. rewrite <- E in *. cbn [mu_sys y_proc y_fs] in *. destruct p; [done|..]; by apply safe_no_gap in Hk.
Qed.
Print Assumptions C66_persistent.
