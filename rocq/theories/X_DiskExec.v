(** Executions of the disk machine, computed: a scheduler script and its soundness.
    Used only to exhibit concrete reachable states beside the theorems. *)
From Verif Require Import Base M_Field M_LRU S_Visits M_Memory M_File M_Serialize M_Disk S_Disk.
#[local] Open Scope Z_scope.

#[global] Instance call_eq_dec : EqDecision call.
Proof. solve_decision. Defined.
#[global] Instance event_eq_dec : EqDecision event.
Proof. solve_decision. Defined.

Definition keys_of {A} (m : gmap string A) : list string := (map_to_list m).*1.
Lemma keys_of_order {A} (m : gmap string A) : range_order m (keys_of m).
Proof. unfold range_order, keys_of. reflexivity. Qed.
Definition visit_index (m : gmap string (gmap string bool)) : list (string * list string) :=
  map (fun kv => (kv.1, keys_of kv.2)) (map_to_list m).
Lemma visit_index_ok m : visits_index m (visit_index m).
Proof.
  exists (map_to_list m). split; [unfold visits; reflexivity|]. unfold visit_index. induction (map_to_list m) as [|kv l IH]; cbn; constructor; [|done].
  split; [done|]. exists (map_to_list kv.2). split; [unfold visits; reflexivity|done].
Qed.
Definition visit_fields (m : gmap string field) : list (string * (string * Z * list (string * Z))) :=
  map (fun kv => (kv.1, (f_name kv.2, f_length kv.2, map_to_list (f_tf kv.2)))) (map_to_list m).
Lemma visit_fields_ok m : visits_fields m (visit_fields m).
Proof.
  exists (map_to_list m). split; [unfold visits; reflexivity|]. unfold visit_fields. induction (map_to_list m) as [|kv l IH]; cbn; constructor; [|done]. do 3 (split; [done|]). unfold visits. reflexivity.
Qed.
Definition list_dirs (s : fs) : list string :=
  omap (fun p => match p with [n] => if decide (n = "docs") then None else Some n | _ => None end) (elements (fs_dirs s)).
Lemma list_dirs_ok s : lists_dirs s [] (list_dirs s).
Proof.
  assert (forall l : list path, NoDup l -> NoDup (omap (fun p => match p with [n] => if decide (n = "docs") then None else Some n | _ => None end) l) /\
    forall n, n ∈ omap (fun p => match p with [n] => if decide (n = "docs") then None else Some n | _ => None end) l <-> [n] ∈ l /\ n <> "docs") as H.
  { induction l as [|p l IH]; intros Hn.
    - split; [constructor|]. intros n. cbn. rewrite !elem_of_nil. tauto.
    - apply NoDup_cons in Hn as [Hp Hn]. destruct (IH Hn) as [I1 I2].
      assert (forall n, n ∈ omap (fun p => match p with [n] => if decide (n = "docs") then None else Some n | _ => None end) (p :: l) <-> [n] ∈ p :: l /\ n <> "docs") as HM.
      { intros n. rewrite elem_of_list_omap. split.
        - intros (q & Hq & E). destruct q as [|m [|]]; try done. destruct (decide (m = "docs")); [done|]. injection E as <-. done.
        - intros [Hq Hd]. exists [n]. split; [done|]. by destruct (decide (n = "docs")). }
      split; [|exact HM]. cbn. destruct p as [|m [|]]; try done. destruct (decide (m = "docs")); [done|]. constructor; [|done].
      rewrite I2. tauto. }
  destruct (H (elements (fs_dirs s)) (NoDup_elements _)) as [H1 H2]. split; [exact H1|]. intros n. unfold list_dirs. rewrite H2. cbn. by rewrite elem_of_elements.
Qed.
Definition list_frags (s : fs) (f : string) : list string :=
  omap (fun p => match p with [g; t; n] => if decide (g = f /\ t = "temp") then Some n else None | _ => None end) (map_to_list (fs_files s)).*1.
Lemma list_frags_ok s f : lists_files s [f; "temp"] (list_frags s f).
Proof.
  assert (forall l : list path, NoDup l -> NoDup (omap (fun p => match p with [g; t; n] => if decide (g = f /\ t = "temp") then Some n else None | _ => None end) l) /\
    forall n, n ∈ omap (fun p => match p with [g; t; n] => if decide (g = f /\ t = "temp") then Some n else None | _ => None end) l <-> [f; "temp"; n] ∈ l) as H.
  { induction l as [|p l IH]; intros Hn.
    - split; [constructor|]. intros n. cbn. rewrite !elem_of_nil. tauto.
    - apply NoDup_cons in Hn as [Hp Hn]. destruct (IH Hn) as [I1 I2]. split.
      + cbn. destruct p as [|g [|t [|n [|]]]]; try done. destruct (decide (g = f /\ t = "temp")) as [[-> ->]|]; [|done]. constructor; [|done]. by rewrite I2.
      + intros n. rewrite elem_of_list_omap. split.
        * intros (q & Hq & E). destruct q as [|g [|t [|n' [|]]]]; try done. destruct (decide (g = f /\ t = "temp")) as [[-> ->]|]; [|done]. by injection E as <-.
        * intros Hq. exists [f; "temp"; n]. split; [done|]. by rewrite decide_True. }
  destruct (H (map_to_list (fs_files s)).*1 (NoDup_fst_map_to_list _)) as [H1 H2]. split; [exact H1|]. intros n. unfold list_frags. rewrite H2. cbn.
  rewrite elem_of_list_fmap. split.
  - intros ([p c] & -> & Hp). apply elem_of_map_to_list in Hp. by eexists.
  - intros [c Hc]. exists ([f; "temp"; n], c). split; [done|]. by apply elem_of_map_to_list.
Qed.

Inductive act :=
| ACall (c : call) | AGet (ids : list string) (f : string)
| AClient | ARecv | AMetrics | ANft | ADocs | AIndex (u : string) | AMerge
| TMetrics | TNft | TDocs | TIndex | TMerge | AStart | ALoad | AOpen | ACrash.

Section exec.
  Variables (compress : bytes -> bytes) (decompress : bytes -> option bytes) (cache_size : Z).

  Section writer.
    Context {V : Type}.
    Variables (dirof : string -> path) (nameof : string -> string) (serf : string -> V -> option bytes) (ser : string -> V -> bytes -> Prop).
    Hypothesis Hser : forall k v T, serf k v = Some T -> ser k v T.
    Definition w_exec (w : writer V) (s : fs) : option (writer V * fs) :=
      match w_pc w with
      | WIdle => None
      | WLoop [] => Some (mkW (w_buf w) WIdle, s)
      | WLoop (k :: ks) => s' ← mkdir_all s (dirof k); Some (mkW (w_buf w) (WSer k ks), s')
      | WSer k ks => v ← w_buf w !! k; T ← serf k v; Some (mkW (w_buf w) (WIter k ks T), s)
      | WIter k ks T => Some (mkW (w_buf w) (WSave k ks (compress T) SSOpen), s)
      | WSave k ks b SSOk => Some (mkW (delete k (w_buf w)) (WLoop ks), s)
      | WSave k ks b pc => r ← ss_step (dirof k) (nameof k) b (pc, s); Some (mkW (w_buf w) (WSave k ks b r.1), r.2)
      end.
    Lemma w_exec_ok w s w' s' : w_exec w s = Some (w', s') -> w_step compress dirof nameof ser (w, s) (w', s').
    Proof.
      destruct w as [buf pc]. unfold w_exec. cbn [w_pc w_buf]. destruct pc as [|[|k ks]|k ks|k ks T|k ks b pc]; intros H.
      - done.
      - injection H as <- <-. constructor.
      - destruct (mkdir_all s (dirof k)) eqn:E; [|done]. injection H as <- <-. by constructor.
      - destruct (buf !! k) eqn:E; [|done]. cbn in H. destruct (serf k v) eqn:E2; [|done]. injection H as <- <-. econstructor; eauto.
      - injection H as <- <-. constructor.
      - assert (pc = SSOk \/ pc <> SSOk) as [->|Hne] by (destruct pc; auto; right; done).
        + injection H as <- <-. constructor.
        + assert ((r ← ss_step (dirof k) (nameof k) b (pc, s); Some (mkW buf (WSave k ks b r.1), r.2)) = Some (w', s')) as H' by (by destruct pc).
          destruct (ss_step (dirof k) (nameof k) b (pc, s)) as [[pc' s1]|] eqn:E; [|done]. injection H' as <- <-. by constructor.
    Qed.
    Definition w_tickf (w : writer V) : option (writer V) :=
      match w_pc w with WIdle => Some (mkW (w_buf w) (WLoop (keys_of (w_buf w)))) | _ => None end.
    Lemma w_tickf_ok w w' : w_tickf w = Some w' -> w_tick w w'.
    Proof. destruct w as [buf []]; try done. intros [= <-]. constructor. apply keys_of_order. Qed.
  End writer.

  Definition i_exec (u : string) (w : iwriter) (s : fs) : option (iwriter * fs) :=
    match i_pc w with
    | IIdle => None
    | ILoop [] => Some (mkI ∅ IIdle, s)
    | ILoop (k :: ks) => m ← i_buf w !! k; T ← serialize_index (visit_index m); Some (mkI (i_buf w) (IMkdir k ks (compress T)), s)
    | IMkdir k ks b => s' ← mkdir_all s [k; "temp"]; Some (mkI (i_buf w) (IOpen k ks b), s')
    | IOpen k ks b => match fs_files s !! [k; "temp"; u] with Some _ => None | None =>
                        s' ← open_trunc s [k; "temp"; u]; Some (mkI (i_buf w) (IWrite k ks b u), s') end
    | IWrite k ks b u => Some (mkI (i_buf w) (ILoop ks), write_all s [k; "temp"; u] b)
    end.
  Lemma i_exec_ok u w s w' s' : i_exec u w s = Some (w', s') -> i_step compress (w, s) (w', s').
  Proof.
    destruct w as [buf pc]. unfold i_exec. cbn [i_pc i_buf]. destruct pc as [|[|k ks]|k ks b|k ks b|k ks b v]; intros H.
    - done.
    - injection H as <- <-. constructor.
    - destruct (buf !! k) eqn:E; [|done]. cbn in H. destruct (serialize_index (visit_index g)) eqn:E2; [|done]. injection H as <- <-.
      econstructor; [done|]. eexists. split; [apply visit_index_ok|done].
    - destruct (mkdir_all s [k; "temp"]) eqn:E; [|done]. injection H as <- <-. by constructor.
    - destruct (fs_files s !! [k; "temp"; u]) eqn:E1; [done|]. destruct (open_trunc s [k; "temp"; u]) eqn:E; [|done]. injection H as <- <-. by constructor.
    - injection H as <- <-. constructor.
  Qed.

  Definition g_exec (g : merger) (s : fs) : option (merger * fs) :=
    let acc := m_acc g in
    match m_pc g with
    | MIdle | MErr | MFields [] => None
    | MFields (f :: fs) => s' ← mkdir_all s [f; "temp"]; Some (mkM acc (MList f fs), s')
    | MList f fs => Some (mkM acc (MIndex f fs (list_frags s f)), s)
    | MIndex f fs files =>
        if exists_path s [f; "index"] then
          m ← read_index decompress (fs_files s !! [f; "index"]);
          Some (mkM acc (MFrag f fs files files (fold_left td_index (visit_index m) ∅)), s)
        else Some (mkM acc (MFrag f fs files files ∅), s)
    | MFrag f fs files (u :: todo) td =>
        m ← read_index decompress (fs_files s !! [f; "temp"; u]);
        Some (mkM acc (MFrag f fs files todo (fold_left td_fragment (visit_index m) td)), s)
    | MFrag f fs files [] td => T ← serialize_index (visit_index td); Some (mkM acc (MMkdir f fs files td (compress T)), s)
    | MMkdir f fs files td b => s' ← mkdir_all s [f]; Some (mkM acc (MSave f fs files td b SSOpen), s')
    | MSave f fs files td b SSOk => Some (mkM acc (MDel f fs files td), s)
    | MSave f fs files td b pc => r ← ss_step [f] "index" b (pc, s); Some (mkM acc (MSave f fs files td b r.1), r.2)
    | MDel f fs (u :: todo) td => s' ← remove s [f; "temp"; u]; Some (mkM acc (MDel f fs todo td), s')
    | MDel f fs [] td => Some (mkM (<[f := td]> acc) (MFields fs), s)
    end.
  Lemma g_exec_ok g s g' s' : g_exec g s = Some (g', s') -> g_step compress decompress (g, s) (g', s').
  Proof.
    destruct g as [acc pc]. unfold g_exec. cbn [m_pc m_acc]. destruct pc as [|[|f fs]|f fs|f fs files|f fs files [|u todo] td|f fs files td b|f fs files td b pc|f fs [|u todo] td|]; intros H; try done.
    - destruct (mkdir_all s [f; "temp"]) eqn:E; [|done]. injection H as <- <-. by constructor.
    - injection H as <- <-. constructor. apply list_frags_ok.
    - destruct (exists_path s [f; "index"]) eqn:E.
      + destruct (read_index decompress (fs_files s !! [f; "index"])) eqn:E2; [|done]. injection H as <- <-. econstructor; [done|]. apply visit_index_ok.
      + injection H as <- <-. by constructor.
    - destruct (serialize_index (visit_index td)) eqn:E; [|done]. injection H as <- <-. constructor. eexists. split; [apply visit_index_ok|done].
    - destruct (read_index decompress (fs_files s !! [f; "temp"; u])) eqn:E2; [|done]. injection H as <- <-. econstructor; [done|]. apply visit_index_ok.
    - destruct (mkdir_all s [f]) eqn:E; [|done]. injection H as <- <-. by constructor.
    - assert (pc = SSOk \/ pc <> SSOk) as [->|Hne] by (destruct pc; auto; right; done).
      + injection H as <- <-. constructor.
      + assert ((r ← ss_step [f] "index" b (pc, s); Some (mkM acc (MSave f fs files td b r.1), r.2)) = Some (g', s')) as H' by (by destruct pc).
        destruct (ss_step [f] "index" b (pc, s)) as [[pc' s1]|] eqn:E; [|done]. injection H' as <- <-. by constructor.
    - injection H as <- <-. constructor.
    - destruct (remove s [f; "temp"; u]) eqn:E; [|done]. injection H as <- <-. by constructor.
  Qed.

  Notation m_serf := (fun (f : string) (v : Z * Z) => serialize_metrics f (wrap32 v.1) (wrap32 v.2)).
  Definition n_serf (f : string) (m : gmap string Z) : option bytes := serialize_nft (map_to_list m).
  Definition d_serf (h : gmap nat (gmap string field)) (d : string) (l : nat) : option bytes := m ← h !! l; serialize_field_map (visit_fields m).
  Definition fresh_addr (h : gmap nat (gmap string field)) : nat := S (max_list (map_to_list h).*1).
  Lemma fresh_addr_ok h : h !! fresh_addr h = None.
  Proof. destruct (h !! fresh_addr h) eqn:E; [|done]. apply elem_of_map_to_list in E. apply (elem_of_list_fmap_1 fst) in E. cbn in E.
    apply max_list_elem_of_le in E. unfold fresh_addr in E. lia. Qed.

  Definition c_exec (s : fs) (m : cmem) (pc : cpc) : option (cmem * cpc) :=
    match pc with
    | CSave d x => Some (mkC (c_index m) (addi (c_length m) (f_name x) (f_length x)) (addi (c_size m) (f_name x) 1) (c_nft m) (c_cache m) (c_heap m), CFieldSend d x)
    | CIndex full d x => Some ((match c_index m !! f_name x with Some _ => m | None => set_index m (<[f_name x := ∅]> (c_index m)) end), CIndexLoop full d x (keys_of (f_tf x)))
    | CIndexLoop full d x (t :: ks) => idx ← c_index m !! f_name x; Some (set_index m (<[f_name x := index_term d idx t]> (c_index m)), CIndexSend full d x t ks)
    | CIndexLoop full d x [] => Some (m, if full then CNft d x else CIdle)
    | CNft d x => Some (m, CNftLoop d x (default ∅ (c_nft m !! f_name x)) (keys_of (f_tf x)))
    | CNftLoop d x ft (t :: ks) => Some (m, CNftSend d x (addi ft t 1) t ks)
    | CNftLoop d x ft [] => Some (set_nft m (<[f_name x := ft]> (c_nft m)), CDoc d x)
    | CGet ids0 f (id :: ids) acc =>
        match lru_get (c_cache m) id with
        | Some (c', Some e) => l ← lru_deref c' e; fd ← c_heap m !! l;
            Some (set_cache m c' (c_heap m), CGet ids0 f ids (match fd !! f with Some x => <[id := x]> acc | None => acc end))
        | Some (c', None) => Some (set_cache m c' (c_heap m), CGetLoad ids0 f id ids acc)
        | None => None
        end
    | CGetLoad ids0 f id ids acc =>
        match load_doc decompress s id with
        | Some None => Some (m, CGet ids0 f ids acc)
        | Some (Some fd) => c' ← lru_put (c_cache m) id (fresh_addr (c_heap m));
            Some (set_cache m c' (<[fresh_addr (c_heap m) := fd]> (c_heap m)), CGet ids0 f ids (match fd !! f with Some x => <[id := x]> acc | None => acc end))
        | None => None
        end
    | CGet ids0 f [] acc => Some (m, CGot ids0 f acc)
    | CGot ids0 f acc => Some (m, CIdle)
    | _ => None
    end.
  Lemma c_exec_ok s m pc m' pc' : c_exec s m pc = Some (m', pc') -> c_step decompress s (m, pc) (m', pc').
  Proof.
    destruct pc as [|d x|d x|full d x|full d x [|t ks]|full d x t ks|d x|d x ft [|t ks]|d x ft t ks|d x|d x l|ids0 f [|id ids] acc|ids0 f id ids acc|ids0 f acc]; intros H; try done; cbn [c_exec] in H.
    - injection H as <- <-. constructor.
    - injection H as <- <-. constructor. apply keys_of_order.
    - injection H as <- <-. constructor.
    - destruct (c_index m !! f_name x) eqn:E; [|done]. injection H as <- <-. by constructor.
    - injection H as <- <-. constructor. apply keys_of_order.
    - injection H as <- <-. constructor.
    - injection H as <- <-. constructor.
    - injection H as <- <-. constructor.
    - destruct (lru_get (c_cache m) id) as [[c' [e|]]|] eqn:E; [| |done].
      + destruct (lru_deref c' e) as [l|] eqn:E1; [|done]. cbn in H. destruct (c_heap m !! l) as [fd|] eqn:E2; [|done]. injection H as <- <-. by econstructor.
      + injection H as <- <-. by constructor.
    - destruct (load_doc decompress s id) as [[fd|]|] eqn:E; [| |done].
      + destruct (lru_put (c_cache m) id (fresh_addr (c_heap m))) eqn:E1; [|done]. injection H as <- <-. econstructor; [done|apply fresh_addr_ok|done].
      + injection H as <- <-. by constructor.
    - injection H as <- <-. constructor.
  Qed.
  Definition c_doc_exec (m : cmem) (pc : cpc) : option (nat * cmem * cpc) :=
    match pc with
    | CDoc d x =>
        match lru_get (c_cache m) d with
        | Some (c1, Some e) => l ← lru_deref c1 e; fd ← c_heap m !! l; c2 ← lru_put c1 d l;
            Some (l, set_cache m c2 (<[l := <[f_name x := x]> fd]> (c_heap m)), CDocSend d x l)
        | Some (c1, None) => let l := fresh_addr (c_heap m) in c2 ← lru_put c1 d l;
            Some (l, set_cache m c2 (<[l := {[f_name x := x]}]> (c_heap m)), CDocSend d x l)
        | None => None
        end
    | _ => None
    end.
  Lemma c_doc_exec_ok m pc l m' pc' : c_doc_exec m pc = Some (l, m', pc') -> c_doc (m, pc) l (m', pc').
  Proof.
    destruct pc; try done. cbn [c_doc_exec]. intros H. destruct (lru_get (c_cache m) d) as [[c1 [e|]]|] eqn:E; [| |done].
    - destruct (lru_deref c1 e) as [l'|] eqn:E1; [|done]. cbn in H. destruct (c_heap m !! l') as [fd|] eqn:E2; [|done]. cbn in H.
      destruct (lru_put c1 d l') as [c2|] eqn:E3; [|done]. injection H as <- <- <-. by econstructor.
    - cbn zeta in H. destruct (lru_put c1 d (fresh_addr (c_heap m))) as [c2|] eqn:E3; [|done]. injection H as <- <- <-. econstructor; [done|apply fresh_addr_ok|done].
  Qed.
  Definition iterb (dw : writer nat) (l : nat) : bool :=
    match w_pc dw with WIter k _ _ => bool_decide (w_buf dw !! k = Some l) | _ => false end.
  Lemma iterb_ok dw l : iterb dw l = false -> ~ iterating dw l.
  Proof. unfold iterb. intros H (k & ks & T & E1 & E2). rewrite E1 in H. apply bool_decide_eq_false_1 in H. done. Qed.

  Definition finished (g : merger) : bool := match m_pc g with MFields [] => true | _ => false end.
  Definition up_exec (a : act) (u : up) (s : fs) : option (up * fs * list event) :=
    let 'mkUp m pc ich mw nw dw iw mg := u in
    match a with
    | ACall (Save d x) => match pc with CIdle => Some (mkUp m (CSave d x) ich mw nw dw iw mg, s, [ECall (Save d x)]) | _ => None end
    | ACall (Index d x) => match pc with CIdle => Some (mkUp m (CIndex false d x) ich mw nw dw iw mg, s, [ECall (Index d x)]) | _ => None end
    | AGet ids f => match pc with CIdle => Some (mkUp m (CGet ids f ids ∅) ich mw nw dw iw mg, s, [EGet ids f]) | _ => None end
    | AClient =>
        match pc with
        | CFieldSend d x => match mw with mkW mb WIdle =>
            Some (mkUp m (CIndex true d x) ich (mkW (m_recv mb (f_name x) (geti (c_size m) (f_name x)) (geti (c_length m) (f_name x))) WIdle) nw dw iw mg, s, []) | _ => None end
        | CIndexSend full d x t ks => if (length ich <? 100)%nat then Some (mkUp m (CIndexLoop full d x ks) (ich ++ [mkPost (f_name x) t d]) mw nw dw iw mg, s, []) else None
        | CNftSend d x ft t ks => match nw with mkW nb WIdle =>
            Some (mkUp m (CNftLoop d x ft ks) ich mw (mkW (n_recv nb (f_name x) t (geti ft t)) WIdle) dw iw mg, s, [ENft (f_name x) t (geti ft t)]) | _ => None end
        | CDocSend d x l => match dw with mkW db WIdle => Some (mkUp m CIdle ich mw nw (mkW (d_recv db d l) WIdle) iw mg, s, []) | _ => None end
        | CDoc d x => r ← c_doc_exec m pc; if iterb dw r.1.1 then None else Some (mkUp r.1.2 r.2 ich mw nw dw iw mg, s, [])
        | _ => r ← c_exec s m pc; Some (mkUp r.1 r.2 ich mw nw dw iw mg, s, [])
        end
    | ARecv => match ich, iw with p :: ich', mkI ib IIdle => Some (mkUp m pc ich' mw nw dw (mkI (i_recv ib p) IIdle) mg, s, []) | _, _ => None end
    | AMetrics => r ← w_exec m_dir m_name m_serf mw s; Some (mkUp m pc ich r.1 nw dw iw mg, r.2, [])
    | ANft => r ← w_exec n_dir n_name n_serf nw s; Some (mkUp m pc ich mw r.1 dw iw mg, r.2, nft_event nw)
    | ADocs => r ← w_exec d_dir d_name (d_serf (c_heap m)) dw s; Some (mkUp m pc ich mw nw r.1 iw mg, r.2, [])
    | AIndex v => r ← i_exec v iw s; Some (mkUp m pc ich mw nw dw r.1 mg, r.2, [])
    | AMerge => if finished mg then Some (mkUp m pc ich mw nw dw iw (mkM ∅ MIdle), s, [])
                else r ← g_exec mg s; Some (mkUp m pc ich mw nw dw iw r.1, r.2, [])
    | TMetrics => w ← w_tickf mw; Some (mkUp m pc ich w nw dw iw mg, s, [])
    | TNft => w ← w_tickf nw; Some (mkUp m pc ich mw w dw iw mg, s, [])
    | TDocs => w ← w_tickf dw; Some (mkUp m pc ich mw nw w iw mg, s, [])
    | TIndex => match iw with mkI ib IIdle => Some (mkUp m pc ich mw nw dw (mkI ib (ILoop (keys_of ib))) mg, s, []) | _ => None end
    | TMerge => match mg with mkM acc MIdle => Some (mkUp m pc ich mw nw dw iw (mkM ∅ (MFields (list_dirs s))), s, []) | _ => None end
    | _ => None
    end.
  Lemma up_exec_ok a u s u' s' ev log : up_exec a u s = Some (u', s', ev) ->
    live_step compress decompress cache_size (mkSys s (Up u) log) (mkSys s' (Up u') (log ++ ev)).
  Proof.
    destruct u as [m pc ich mw nw dw iw mg].
    assert (forall u1 s1, up_tick (mkUp m pc ich mw nw dw iw mg, s) (u1, s1) ->
      live_step compress decompress cache_size (mkSys s (Up (mkUp m pc ich mw nw dw iw mg)) log) (mkSys s1 (Up u1) (log ++ []))) as HT.
    { intros u1 s1 H. rewrite app_nil_r. by apply y_tick. }
    destruct a as [c|ids f| | | | | |v| | | | | | | | | |]; cbn [up_exec]; intros H; try discriminate H.
    - destruct c; destruct pc; try discriminate H; injection H as <- <- <-; apply y_call; constructor.
    - destruct pc; try discriminate H; injection H as <- <- <-; apply y_call; constructor.
    - apply y_up. destruct pc as [|? ?|d x|? ? ?|? ? ? ?|full d x t ks|? ?|? ? ? ?|d x ft t ks|d x|d x l|? ? ? ?|? ? ? ? ?|? ? ?]; try (
        match type of H with (c_exec ?a ?b ?c ≫= _) = _ => destruct (c_exec a b c) as [[m1 pc1]|] eqn:E; [|discriminate H] end;
        injection H as <- <- <-; apply u_client; by apply c_exec_ok in E).
      + destruct mw as [mb []]; try discriminate H. injection H as <- <- <-. constructor.
      + destruct (length ich <? 100)%nat eqn:E; [|discriminate H]. injection H as <- <- <-. constructor. by apply Nat.ltb_lt.
      + destruct nw as [nb []]; try discriminate H. injection H as <- <- <-. constructor.
      + destruct (c_doc_exec m (CDoc d x)) as [[[l m1] pc1]|] eqn:E; [|discriminate H]. cbn in H. destruct (iterb dw l) eqn:E2; [discriminate H|].
        injection H as <- <- <-. eapply u_doc; [by apply c_doc_exec_ok|by apply iterb_ok].
      + destruct dw as [db []]; try discriminate H. injection H as <- <- <-. constructor.
    - destruct ich as [|p ich]; [discriminate H|]. destruct iw as [ib []]; try discriminate H. injection H as <- <- <-. apply y_up. constructor.
    - destruct (w_exec _ _ _ _ _) as [[w1 s1]|] eqn:E; [|discriminate H]. injection H as <- <- <-. apply y_up, u_metrics.
      eapply w_exec_ok; [|exact E]. intros k v T ET. exact ET.
    - destruct (w_exec _ _ _ _ _) as [[w1 s1]|] eqn:E; [|discriminate H]. injection H as <- <- <-. apply y_up, u_nft.
      eapply w_exec_ok; [|exact E]. intros k v T ET. exists (map_to_list v). unfold n_serf in ET. split; [unfold visits; reflexivity|exact ET].
    - destruct (w_exec _ _ _ _ _) as [[w1 s1]|] eqn:E; [|discriminate H]. injection H as <- <- <-. apply y_up, u_docs.
      eapply w_exec_ok; [|exact E]. intros k v T ET. unfold d_serf in ET. destruct (c_heap m !! v) as [x|] eqn:Ex; [|discriminate ET].
      exists x, (visit_fields x). split; [done|]. split; [apply visit_fields_ok|exact ET].
    - destruct (i_exec _ _ _) as [[w1 s1]|] eqn:E; [|discriminate H]. injection H as <- <- <-. apply y_up, u_index. by eapply i_exec_ok.
    - apply y_up. destruct (finished mg) eqn:Ef.
      + destruct mg as [acc [|[|]| | | | | | |]]; try discriminate Ef. injection H as <- <- <-. apply u_merge_end.
      + destruct (g_exec mg s) as [[w1 s1]|] eqn:E; [|discriminate H]. injection H as <- <- <-. apply u_merge. by apply g_exec_ok.
    - destruct (w_tickf mw) as [w|] eqn:E; [|discriminate H]. injection H as <- <- <-. apply HT, t_metrics. by apply w_tickf_ok.
    - destruct (w_tickf nw) as [w|] eqn:E; [|discriminate H]. injection H as <- <- <-. apply HT, t_nft. by apply w_tickf_ok.
    - destruct (w_tickf dw) as [w|] eqn:E; [|discriminate H]. injection H as <- <- <-. apply HT, t_docs. by apply w_tickf_ok.
    - destruct iw as [ib []]; try discriminate H. injection H as <- <- <-. apply HT, t_index. constructor. apply keys_of_order.
    - destruct mg as [acc []]; try discriminate H. injection H as <- <- <-. apply HT, t_merge. constructor. apply list_dirs_ok.
  Qed.

  Definition exec (a : act) (y : sys) : option sys :=
    match a, y with
    | ACrash, mkSys s Down log => None
    | ACrash, mkSys s _ log => Some (mkSys s Down (log ++ [ECrash]))
    | AStart, mkSys s Down log => s' ← mkdir_all s []; Some (mkSys s' (Loading (mkM ∅ (MFields (list_dirs s')))) log)
    | ALoad, mkSys s (Loading g) log => r ← g_exec g s; Some (mkSys r.2 (Loading r.1) log)
    | AOpen, mkSys s (Loading (mkM acc (MFields []))) log =>
        sl ← load_metrics decompress s (list_dirs s);
        nft ← load_nft decompress s (list_dirs s);
        Some (mkSys s (Up (mkUp (mkC acc sl.2 sl.1 nft (lru_new cache_size) ∅) CIdle [] (mkW ∅ WIdle) (mkW ∅ WIdle) (mkW ∅ WIdle) (mkI ∅ IIdle) (mkM ∅ MIdle))) (log ++ [EOpened]))
    | a, mkSys s (Up u) log => r ← up_exec a u s; Some (mkSys r.1.2 (Up r.1.1) (log ++ r.2))
    | _, _ => None
    end.
  Lemma exec_ok a y y' : exec a y = Some y' -> sys_step compress decompress cache_size y y'.
  Proof.
    destruct y as [s p log]. intros H.
    assert (forall u, p = Up u -> (r ← up_exec a u s; Some (mkSys r.1.2 (Up r.1.1) (log ++ r.2))) = Some y' -> sys_step compress decompress cache_size (mkSys s p log) y') as HU.
    { intros u -> H'. destruct (up_exec a u s) as [[[u1 s1] ev]|] eqn:E; [|discriminate H']. injection H' as <-. left. by eapply up_exec_ok. }
    destruct a; destruct p as [|g|v]; try discriminate H; try (by eapply HU);
      try (injection H as <-; right; by constructor).
    - cbn [exec] in H. destruct (mkdir_all s []) as [s'|] eqn:E; [|discriminate H]. injection H as <-. left. econstructor; [done|]. constructor. apply list_dirs_ok.
    - cbn [exec] in H. destruct (g_exec g s) as [[g1 s1]|] eqn:E; [|discriminate H]. injection H as <-. left. constructor. by apply g_exec_ok.
    - cbn [exec] in H. destruct g as [acc [|[|]| | | | | | |]]; try discriminate H.
      destruct (load_metrics decompress s (list_dirs s)) as [[size len]|] eqn:E1; [|discriminate H]. cbn [mbind option_bind] in H.
      destruct (load_nft decompress s (list_dirs s)) as [nft|] eqn:E2; [|discriminate H]. injection H as <-. left. constructor.
      econstructor; [apply list_dirs_ok|exact E1|apply list_dirs_ok|exact E2].
  Qed.

  Fixpoint script (l : list act) (y : sys) : option sys :=
    match l with [] => Some y | a :: l' => y' ← exec a y; script l' y' end.
  Lemma script_ok l : forall y y', script l y = Some y' -> rtc (sys_step compress decompress cache_size) y y'.
  Proof.
    induction l as [|a l IH]; intros y y' H; cbn in H.
    - injection H as <-. constructor.
    - destruct (exec a y) as [y1|] eqn:E; [|discriminate H]. apply exec_ok in E. econstructor; [exact E|]. by apply IH.
  Qed.
  Lemma script_reach l y : script l sys_init = Some y -> reachable compress decompress cache_size y.
  Proof. apply script_ok. Qed.
End exec.

(** Repeat an action. *)
Definition rep (n : nat) (a : act) : list act := repeat a n.
(** Repeat an action until it is disabled (at most 50 times). *)
Section until.
  Variable cache_size : Z.
  Notation ex := (exec id Some cache_size).
  Fixpoint until (n : nat) (a : act) (y : sys) : list act :=
    match n with O => [] | S n' => match ex a y with Some y' => a :: until n' a y' | None => [] end end.
  (** A script whose actions are repeated until disabled; the flat script is computed. *)
  Fixpoint flatten (l : list (bool * act)) (y : sys) : list act :=
    match l with
    | [] => []
    | (false, a) :: l' => match ex a y with Some y' => a :: flatten l' y' | None => [a] end
    | (true, a) :: l' => let us := until 50 a y in us ++ match script id Some cache_size us y with Some y' => flatten l' y' | None => [] end
    end.
  Definition play (l : list (bool * act)) : option sys := script id Some cache_size (flatten l sys_init) sys_init.
  Lemma play_reach l y : play l = Some y -> reachable id Some cache_size y.
  Proof. apply script_reach. Qed.
End until.
Lemma play_obs {A} (cs : Z) l (obs : sys -> A) (v : A) :
  option_map obs (play cs l) = Some v -> exists y, reachable id Some cs y /\ obs y = v.
Proof. destruct (play cs l) as [y|] eqn:E; [|done]. cbn. intros [= <-]. exists y. split; [by eapply play_reach|done]. Qed.

(** NewDiskStore on a folder, computed. *)
Section reopen.
  Variables (compress : bytes -> bytes) (decompress : bytes -> option bytes) (cache_size : Z).
  Fixpoint load_run (fuel : nat) (g : merger) (s : fs) : option (gmap string (gmap string set_data) * fs) :=
    match fuel with
    | O => None
    | S n => if finished g then Some (m_acc g, s) else r ← g_exec compress decompress g s; load_run n r.1 r.2
    end.
  Lemma load_run_ok fuel : forall g s acc s', load_run fuel g s = Some (acc, s') -> rtc (g_step compress decompress) (g, s) (mkM acc (MFields []), s').
  Proof.
    induction fuel as [|n IH]; intros g s acc s' H; [done|]. cbn [load_run] in H. destruct (finished g) eqn:E.
    - destruct g as [a [|[|]| | | | | | |]]; try discriminate E. injection H as <- <-. constructor.
    - destruct (g_exec compress decompress g s) as [[g1 s1]|] eqn:E1; [|discriminate H]. apply g_exec_ok in E1. econstructor; [exact E1|]. by apply IH.
  Qed.
  Definition reopen_exec (s : fs) : option (up * fs) :=
    s0 ← mkdir_all s [];
    r ← load_run 1000 (mkM ∅ (MFields (list_dirs s0))) s0;
    sl ← load_metrics decompress r.2 (list_dirs r.2);
    nft ← load_nft decompress r.2 (list_dirs r.2);
    Some (mkUp (mkC r.1 sl.2 sl.1 nft (lru_new cache_size) ∅) CIdle [] (mkW ∅ WIdle) (mkW ∅ WIdle) (mkW ∅ WIdle) (mkI ∅ IIdle) (mkM ∅ MIdle), r.2).
  Lemma reopen_exec_ok s u s' : reopen_exec s = Some (u, s') -> reopen compress decompress cache_size s u s'.
  Proof.
    unfold reopen_exec. intros H. destruct (mkdir_all s []) as [s0|] eqn:E0; [|discriminate H]. cbn [mbind option_bind] in H.
    destruct (load_run 1000 _ s0) as [[acc s1]|] eqn:E1; [|discriminate H]. cbn [mbind option_bind fst snd] in H.
    destruct (load_metrics decompress s1 (list_dirs s1)) as [[size len]|] eqn:E2; [|discriminate H]. cbn [mbind option_bind fst snd] in H.
    destruct (load_nft decompress s1 (list_dirs s1)) as [nft|] eqn:E3; [|discriminate H]. injection H as <- <-.
    exists acc. split.
    - exists s0, (mkM ∅ (MFields (list_dirs s0))). split; [done|]. split; [constructor; apply list_dirs_ok|]. by apply load_run_ok in E1.
    - econstructor; [apply list_dirs_ok|exact E2|apply list_dirs_ok|exact E3].
  Qed.
End reopen.
