(** C46: what the client of a disk store sees in memory. *)
From Verif Require Import Base M_Field M_LRU S_Visits M_Memory S_Memory M_File M_Serialize M_Disk S_Disk P_DiskMem P_Memory P_Memory2 X_DiskExec.
#[local] Open Scope Z_scope.

(** The log splits at the (first) opening; nothing was ever called before it, and the
    store has only been used through SaveOrUpdate. *)
Theorem C46_same_as_memory : forall compress decompress cache_size y u l1 l2,
  reachable compress decompress cache_size y -> y_proc y = Up u -> u_pc u = CIdle ->
  y_log y = l1 ++ EOpened :: l2 -> EOpened ∉ l2 -> calls_of l1 = [] ->
  (forall c, c ∈ calls_of l2 -> exists d x, c = Save d x) ->
  forall m, mem_run mem_new (calls_of l2) m -> same_answers (u_mem u) m.
Proof.
  intros compress decompress cs y u l1 l2 Hr Hu Hi Hl Hn Hc Hs m Hm.
  pose proof (first_session_reach _ _ _ _ Hr) as H. unfold first_session in H. rewrite Hu in H. destruct H as (k1 & k2 & E & Hn2 & Ht).
  assert (k1 = l1 /\ k2 = l2) as [-> ->].
  { rewrite Hl in E. clear - E Hn Hn2. revert k1 E. induction l1 as [|e l1 IH]; intros [|e' k1] E; cbn in E.
    - by injection E as ->.
    - injection E as <- E. subst l2. exfalso. apply Hn. apply elem_of_app. right. left.
    - injection E as -> E. subst k2. exfalso. apply Hn2. apply elem_of_app. right. left.
    - injection E as <- E. destruct (IH k1 E) as [-> ->]. done. }
  destruct (up_idle_answers mem_new u (calls_of l2) (Ht Hc) Hi) as (m1 & ms & R1 & R2 & E1 & E2 & E3 & E4).
  assert (saves (calls_of l2) = calls_of l2) as Hsv.
  { clear - Hs. induction (calls_of l2) as [|c h IH]; [done|]. cbn. destruct (Hs c) as (d & x & ->); [left|]. cbn. f_equal. apply IH. intros c Hc. apply Hs. by right. }
  rewrite Hsv in R2.
  pose proof (fun f t ts => mem_perm _ _ _ _ (Permutation_refl _) Hm R1 f t ts) as P1.
  pose proof (fun f t ts => mem_perm _ _ _ _ (Permutation_refl _) Hm R2 f t ts) as P2.
  split; [|split; [|split; [|split]]]; intros.
  - destruct (P1 f t []) as (-> & _). unfold disk_get_documents, mem_get_documents. by rewrite E1.
  - destruct (P1 f "" []) as (_ & -> & _). unfold disk_get_index, mem_get_index. by rewrite E1.
  - destruct (P1 f "" terms) as (_ & _ & _ & _ & ->). unfold disk_get_nft, mem_get_nft. by rewrite E2.
  - destruct (P2 f "" []) as (_ & _ & -> & _). unfold disk_get_size, mem_get_size. by rewrite E3.
  - destruct (P2 f "" []) as (_ & _ & _ & -> & _). unfold disk_get_length, mem_get_length. by rewrite E4.
Qed.
Print Assumptions C46_same_as_memory.

(** The same within any session: between two moments at which no call is in progress
    the answers evolve exactly as those of a memory store with the same content; a
    bare UpdateIndex changes the index as in memory but not the size and length. *)
Theorem C46_session : forall compress decompress cache_size a ev b u0 u,
  y_proc a = Up u0 -> u_pc u0 = CIdle -> session compress decompress cache_size a ev b -> y_proc b = Up u -> u_pc u = CIdle ->
  exists m ms, mem_run (contents (u_mem u0)) (calls_of ev) m /\ mem_run (contents (u_mem u0)) (saves (calls_of ev)) ms /\
    (forall f t, disk_get_documents (u_mem u) f t = mem_get_documents m f t) /\
    (forall f, disk_get_index (u_mem u) f = mem_get_index m f) /\
    (forall f terms, disk_get_nft (u_mem u) f terms = mem_get_nft m f terms) /\
    (forall f, disk_get_size (u_mem u) f = mem_get_size ms f) /\
    (forall f, disk_get_length (u_mem u) f = mem_get_length ms f).
Proof.
  intros compress decompress cs a ev b u0 u Ha Hi Hs Hb Hj.
  destruct (session_tracks _ _ _ _ _ _ _ Ha Hi Hs) as (u' & E & Ht). rewrite Hb in E. injection E as <-.
  destruct (up_idle_answers _ _ _ Ht Hj) as (m & ms & R1 & R2 & E1 & E2 & E3 & E4). exists m, ms.
  split; [done|]. split; [done|]. unfold disk_get_documents, disk_get_index, disk_get_nft, disk_get_size, disk_get_length,
    mem_get_documents, mem_get_index, mem_get_nft, mem_get_size, mem_get_length. by rewrite E1, E2, E3, E4.
Qed.
Print Assumptions C46_session.

(** Refuted for a bare UpdateIndex: memory counts it in the field size, disk does not. *)
Definition x_ab : field := mkField "text" 3 {["a" := 2; "b" := 1]}.
Definition x_bc : field := mkField "text" 5 {["b" := 4; "c" := 1]}.
Theorem C46_bare_update_index_refuted : exists y u m,
  reachable id Some 2 y /\ y_proc y = Up u /\ u_pc u = CIdle /\ calls_of (y_log y) = [Index "d1" x_ab] /\
  mem_run mem_new (calls_of (y_log y)) m /\ disk_get_size (u_mem u) "text" = 0 /\ mem_get_size m "text" = 1.
Proof.
  destruct (play_obs 2 [(false, AStart); (false, AOpen); (false, ACall (Index "d1" x_ab)); (true, AClient)]
    (fun y => (match y_proc y with Up u => match u_pc u with CIdle => Some (disk_get_size (u_mem u) "text") | _ => None end | _ => None end,
               bool_decide (calls_of (y_log y) = [Index "d1" x_ab])))
    (Some 0, true)) as (y & Hr & H); [vm_compute; reflexivity|].
  injection H as H1 H2. apply bool_decide_eq_true_1 in H2.
  destruct (y_proc y) as [| |u] eqn:E; try discriminate H1. destruct (u_pc u) eqn:E1; try discriminate H1. injection H1 as H1.
  destruct (mem_run_total mem_new (calls_of (y_log y))) as [m Hm].
  exists y, u, m. do 4 (split; [done|]). split; [done|]. split; [done|].
  rewrite (mem_size_exact _ _ "text" Hm). rewrite H2. vm_compute. reflexivity.
Qed.
Print Assumptions C46_bare_update_index_refuted.

(** The hypotheses of C46_same_as_memory are met: two saves, interleaved with flushes
    and a merge. *)
Example C46_case : exists y u l2, reachable id Some 2 y /\ y_proc y = Up u /\ u_pc u = CIdle /\ y_log y = [] ++ EOpened :: l2 /\ EOpened ∉ l2 /\
  calls_of l2 = [Save "d1" x_ab; Save "d2" x_bc] /\ disk_get_size (u_mem u) "text" = 2 /\ disk_get_length (u_mem u) "text" = 8 /\
  disk_get_nft (u_mem u) "text" ["a"; "b"; "z"] !! "b" = Some 2.
Proof.
  destruct (play_obs 2 [(false, AStart); (false, AOpen); (false, ACall (Save "d1" x_ab)); (true, AClient); (true, ARecv); (false, TIndex); (true, AIndex "u1");
      (false, ACall (Save "d2" x_bc)); (false, TMetrics); (true, AMetrics); (false, TMerge); (true, AMerge); (true, AClient); (false, TDocs); (true, ADocs)]
    (fun y => (match y_proc y with Up u => match u_pc u with CIdle => Some (disk_get_size (u_mem u) "text", disk_get_length (u_mem u) "text",
                  disk_get_nft (u_mem u) "text" ["a"; "b"; "z"] !! "b") | _ => None end | _ => None end,
               match y_log y with EOpened :: l2 => bool_decide (EOpened ∉ l2 /\ calls_of l2 = [Save "d1" x_ab; Save "d2" x_bc]) | _ => false end))
    (Some (2, 8, Some 2), true)) as (y & Hr & H); [vm_compute; reflexivity|].
  injection H as H1 H2. destruct (y_proc y) as [| |u] eqn:E; try discriminate H1. destruct (u_pc u) eqn:E1; try discriminate H1.
  apply (inj Some) in H1. apply pair_equal_spec in H1 as [H1 H13]. apply pair_equal_spec in H1 as [H11 H12]. destruct (y_log y) as [|[] l2] eqn:El; try discriminate H2. apply bool_decide_eq_true_1 in H2 as [H21 H22].
  exists y, u, l2. split; [exact Hr|]. split; [exact E|]. split; [exact E1|]. split; [exact El|]. split; [exact H21|]. split; [exact H22|]. split; [exact H11|]. split; [exact H12|]. exact H13.
Qed.
