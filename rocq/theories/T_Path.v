(** C57: the files that names lead to. *)
From Verif Require Import Base M_Path S_Path P_Path.
From Coq Require Import Ascii.
#[local] Open Scope nat_scope.

(** filepath.Clean returns the shortest path to the same target. *)
Theorem C57_clean p : clean p = path_to (absolute p) (target p).
Proof. apply clean_spec. Qed.
Theorem C57_clean_same_target p : absolute (clean p) = absolute p /\ target (clean p) = target p.
Proof. rewrite C57_clean. apply path_to_target, target_ok. Qed.
Lemma clean_ext p q : absolute p = absolute q -> target p = target q -> clean p = clean q.
Proof. intros E1 E2. by rewrite !C57_clean, E1, E2. Qed.
Lemma clean_inj p q : clean p = clean q -> absolute p = absolute q /\ target p = target q.
Proof. intros E. destruct (C57_clean_same_target p) as [<- <-], (C57_clean_same_target q) as [<- <-]. by rewrite E. Qed.
(** Two paths are cleaned to the same string exactly if they have the same target. *)
Theorem C57_clean_equal p q : clean p = clean q <-> absolute p = absolute q /\ target p = target q.
Proof. split; [apply clean_inj|]. intros [? ?]. by apply clean_ext. Qed.

(** * filepath.Join *)
Definition all_pieces (es : list string) : list string := concat (map pieces es).
Lemma pieces_join_slash e es : pieces (join_slash (e :: es)) = all_pieces (e :: es).
Proof.
  revert e. induction es as [|e' es IH]; intros e; [unfold all_pieces; cbn; by rewrite app_nil_r|]. change (join_slash (e :: e' :: es)) with (e ++ "/" ++ join_slash (e' :: es))%string. by rewrite pieces_cat, IH.
Qed.
Lemma absolute_join e es : e <> ""%string -> absolute (join_slash (e :: es)) = absolute e.
Proof. destruct e; [done|]. by destruct es. Qed.
Lemma join_target e es : e <> ""%string -> absolute (join (e :: es)) = absolute e /\ target (join (e :: es)) = rev (walk (absolute e) [] (all_pieces (e :: es))).
Proof.
  intros He. cbn [join]. rewrite decide_False by done. destruct (C57_clean_same_target (join_slash (e :: es))) as [-> ->]. unfold target. rewrite absolute_join by done. by rewrite pieces_join_slash.
Qed.
Lemma join_clean e es : e <> ""%string -> join (e :: es) = path_to (absolute e) (rev (walk (absolute e) [] (all_pieces (e :: es)))).
Proof. intros He. cbn [join]. rewrite decide_False by done. rewrite C57_clean. unfold target. rewrite absolute_join by done. by rewrite pieces_join_slash. Qed.
Lemma path_ne abs cs : ok_target abs cs -> path_to abs cs <> ""%string.
Proof.
  intros H. destruct abs; [done|]. destruct cs as [|c cs]; [done|]. assert (c <> ""%string) as Hc. { destruct H as (us & ns & E & H1 & _ & H2). destruct us as [|u us]; cbn in E; [subst ns; apply Forall_cons in H2 as [(? & _) _]; done|]. injection E as -> ->. by apply Forall_cons in H1 as [-> _]. }
  destruct c; [done|]. by destruct cs.
Qed.
(** Joining in steps or at once makes no difference. *)
Theorem C57_join_nested a b : join (join a :: b) = join (a ++ b).
Proof.
  induction a as [|e a IH]; [done|]. cbn [app]. destruct (decide (e = ""%string)) as [->|He]; [exact IH|].
  destruct (join_target e a He) as [E1 E2]. rewrite (join_clean e (a ++ b) He). rewrite join_clean.
  - rewrite E1. f_equal. f_equal. unfold all_pieces. cbn [map concat]. rewrite map_app, concat_app, app_assoc. rewrite !(walk_app _ _ _ (concat (map pieces b))). f_equal.
    unfold target in E2. rewrite E1 in E2. apply (f_equal (@rev string)) in E2. rewrite !rev_involutive in E2. exact E2.
  - rewrite join_clean by done. apply path_ne. pose proof (target_ok (join (e :: a))) as O. by rewrite E1, E2 in O.
Qed.
(** Below a root folder, simple names lead where they say. *)
Theorem C57_join_simple root names : names <> [] -> Forall simple names ->
  absolute (join (root :: names)) = absolute root /\ target (join (root :: names)) = target root ++ names /\ inside root (join (root :: names)).
Proof.
  intros Hn H. assert (all_pieces names = names) as Ep. { unfold all_pieces. clear Hn. induction H as [|c cs (_ & _ & _ & Hc) _ IH]; [done|]. cbn. by rewrite pieces_simple, IH. }
  assert (absolute (join (root :: names)) = absolute root /\ target (join (root :: names)) = target root ++ names) as [E1 E2].
  { destruct (decide (root = ""%string)) as [->|Hr].
    - destruct names as [|n names]; [done|]. cbn [join]. rewrite (decide_True (P := ""%string = ""%string)) by done. pose proof (Forall_inv H) as (N1 & _ & _ & N4). change (if decide (n = ""%string) then join names else clean (join_slash (n :: names))) with (join (n :: names)).
      destruct (join_target n names N1) as [-> ->]. assert (absolute n = false) as ->. { destruct n as [|x n]; [done|]. cbn. apply bool_decide_eq_false. intros ->. apply N4. left. }
      split; [done|]. rewrite Ep, walk_simple by done. rewrite app_nil_r, rev_involutive. done.
    - destruct (join_target root names Hr) as [-> ->]. split; [done|]. unfold all_pieces. cbn [map concat]. change (concat (map pieces names)) with (all_pieces names). rewrite Ep, walk_app, walk_simple by done. unfold target. by rewrite rev_app_distr, rev_involutive. }
  split; [done|]. split; [done|]. by exists names.
Qed.
Lemma join_is_path root names : names <> [] -> Forall simple names -> join (root :: names) = path_to (absolute root) (target root ++ names).
Proof.
  intros Hn H. destruct (C57_join_simple root names Hn H) as (E1 & E2 & _). rewrite <- E1, <- E2. rewrite <- C57_clean. destruct (decide (root = ""%string)) as [->|Hr].
  - destruct names as [|n names]; [done|]. cbn [join]. rewrite (decide_True (P := ""%string = ""%string)) by done. pose proof (Forall_inv H) as (N1 & _). rewrite decide_False by done. apply C57_clean_equal. by apply and_comm, and_comm; destruct (C57_clean_same_target (join_slash (n :: names))).
  - cbn [join]. rewrite decide_False by done. apply C57_clean_equal. by destruct (C57_clean_same_target (join_slash (root :: names))).
Qed.
(** Different lists of simple names are different files (so the component lists of the
    file system model of M_File.v and M_Disk.v stand for the paths of the program). *)
Theorem C57_faithful root p q : p <> [] -> q <> [] -> Forall simple p -> Forall simple q -> join (root :: p) = join (root :: q) <-> p = q.
Proof.
  intros Hp Hq Sp Sq. split; [|by intros ->]. intros E. destruct (C57_join_simple root p Hp Sp) as (_ & E1 & _). destruct (C57_join_simple root q Hq Sq) as (_ & E2 & _). rewrite E, E2 in E1. by apply app_inv_head in E1.
Qed.

(** * The files of the storage *)
Lemma simple_chars s : s <> ""%string -> s <> "."%string -> s <> ".."%string -> forallb (fun c => negb (bool_decide (c = slash))) (list_ascii_of_string s) = true -> simple s.
Proof. intros H1 H2 H3 H4. split; [done|]. split; [done|]. split; [done|]. intros Hs. apply elem_of_list_In in Hs. rewrite forallb_forall in H4. specialize (H4 _ Hs). by rewrite bool_decide_eq_true_2 in H4. Qed.
Ltac simple_name := apply simple_chars; [done|done|done|reflexivity].
Ltac simple_list := repeat apply Forall_cons_2; try apply Forall_nil_2; try done; try simple_name.
Lemma simple_file k : simple (file_name k).
Proof. destruct k; simple_name. Qed.
Lemma simple_suffix d s : simple d -> no_slash s -> 2 <= String.length s -> simple (d ++ s).
Proof.
  intros (H1 & H2 & H3 & H4) Hs Hl. assert (String.length (d ++ s) = String.length d + String.length s) as L. { clear. induction d as [|c d IH]; [done|]. cbn. by rewrite IH. }
  assert (1 <= String.length d) as Ld by (destruct d; [done|cbn; lia]). split; [intros E; rewrite E in L; cbn in L; lia|]. split; [intros E; rewrite E in L; cbn in L; lia|]. split; [intros E; rewrite E in L; cbn in L; lia|].
  unfold no_slash in *. rewrite chs_app. by intros [?|?]%elem_of_app.
Qed.
Lemma noslash_chars s : forallb (fun c => negb (bool_decide (c = slash))) (list_ascii_of_string s) = true -> no_slash s.
Proof. intros H4 Hs. apply elem_of_list_In in Hs. rewrite forallb_forall in H4. specialize (H4 _ Hs). by rewrite bool_decide_eq_true_2 in H4. Qed.
Lemma simple_temp d : simple d -> simple (d ++ "_temp").
Proof. intros H. apply simple_suffix; [done|by apply noslash_chars|cbn; lia]. Qed.
Lemma simple_old d : simple d -> simple (d ++ "_old").
Proof. intros H. apply simple_suffix; [done|by apply noslash_chars|cbn; lia]. Qed.

(** What is written is what is read. *)
Theorem C57_read_what_was_written root f k d :
  field_save_paths root f k !! 0 = Some (field_path root f k) /\ document_save_paths root d !! 0 = Some (document_path root d).
Proof. unfold field_save_paths, document_save_paths, save_paths, field_path, document_path. cbn [lookup list_lookup]. by rewrite !C57_join_nested. Qed.
(** Every path made from simple names is inside the root folder. *)
Theorem C57_inside root f k u d p : simple f -> simple u -> simple d ->
  p ∈ field_save_paths root f k ++ document_save_paths root d ++ [postings_path root f u] -> inside root p.
Proof.
  intros Hf Hu Hd Hp. assert (simple "docs") as S1 by simple_name. assert (simple "metrics") as S2 by simple_name. assert (simple "temp") as S3 by simple_name. pose proof (simple_file k) as Sk.
  assert (forall names, names <> [] -> Forall simple names -> inside root (join (root :: names))) as K by (intros names H1 H2; by apply C57_join_simple).
  unfold field_save_paths, document_save_paths, save_paths, postings_path in Hp. rewrite !C57_join_nested in Hp. cbn [app] in Hp.
  repeat (apply elem_of_cons in Hp as [->|Hp]; [apply K; [done|simple_list; by auto using simple_temp, simple_old]|]). by apply elem_of_nil in Hp.
Qed.
(** Different fields, or different files of a field, are different paths, also while being
    written. *)
Theorem C57_field_files_distinct root f g k k' i j p : simple f -> simple g ->
  field_save_paths root f k !! i = Some p -> field_save_paths root g k' !! j = Some p -> f = g /\ k = k' /\ i = j.
Proof.
  intros Hf Hg. unfold field_save_paths, save_paths. rewrite !C57_join_nested. cbn [app].
  assert (forall x y, simple x -> simple y -> join [root; f; x] = join [root; g; y] -> f = g /\ x = y) as K.
  { intros x y Hx Hy E. apply C57_faithful in E; [by injection E|done|done|by simple_list|by simple_list]. }
  pose proof (simple_file k) as S1. pose proof (simple_file k') as S2. pose proof (simple_temp _ S1). pose proof (simple_old _ S1). pose proof (simple_temp _ S2). pose proof (simple_old _ S2).
  intros Hi Hj. destruct i as [|[|[|i]]]; try discriminate Hi; destruct j as [|[|[|j]]]; try discriminate Hj; cbn in Hi, Hj; injection Hi as <-; injection Hj as E; symmetry in E; apply K in E as [-> E]; try done; destruct k, k'; try discriminate E; done.
Qed.
(** Different documents are different paths; the only clashes are with the temporary names
    of another document. *)
Theorem C57_documents_distinct root d e : simple d -> simple e -> document_path root d = document_path root e <-> d = e.
Proof.
  intros Hd He. unfold document_path. rewrite C57_faithful; [|done|done| |]; [split; [by intros [= ->]|by intros ->]| |]; simple_list.
Qed.
Theorem C57_document_temp_clash root d : document_save_paths root d !! 1 = Some (document_path root (d ++ "_temp")) /\ document_save_paths root d !! 2 = Some (document_path root (d ++ "_old")).
Proof. unfold document_save_paths, save_paths, document_path. cbn [lookup list_lookup]. by rewrite !C57_join_nested. Qed.
(** No file of a field is the file of a document, and no file of postings is anything else. *)
Theorem C57_kinds_distinct root f g u d k p : simple f -> simple g -> simple u -> simple d ->
  p ∈ field_save_paths root f k -> p ∈ document_save_paths root d \/ p = postings_path root g u -> False.
Proof.
  intros Hf Hg Hu Hd. pose proof (simple_file k) as S1. pose proof (simple_temp _ S1). pose proof (simple_old _ S1). pose proof (simple_temp _ Hd). pose proof (simple_old _ Hd).
  assert (simple "docs") as D1 by simple_name. assert (simple "metrics") as D2 by simple_name. assert (simple "temp") as D3 by simple_name.
  unfold field_save_paths, document_save_paths, save_paths, postings_path. rewrite !C57_join_nested. cbn [app]. intros Hp Hq.
  assert (exists x, simple x /\ p = join [root; f; x]) as (x & Sx & ->). { repeat (apply elem_of_cons in Hp as [->|Hp]; [eexists; split; [|reflexivity]; done|]). by apply elem_of_nil in Hp. }
  assert (exists a b c, simple a /\ simple b /\ simple c /\ join [root; f; x] = join [root; a; b; c]) as (a & b & c & Sa & Sb & Sc & E).
  { destruct Hq as [Hq|E]; [|by exists g, "temp"%string, u]. repeat (apply elem_of_cons in Hq as [E|Hq]; [eexists "docs"%string, "metrics"%string, _; split; [done|]; split; [done|]; split; [|exact E]; done|]). by apply elem_of_nil in Hq. }
  apply C57_faithful in E; [discriminate E|done|done| |]; by simple_list.
Qed.
Theorem C57_postings_distinct root f g u v : simple f -> simple g -> simple u -> simple v -> postings_path root f u = postings_path root g v <-> f = g /\ u = v.
Proof.
  intros Hf Hg Hu Hv. assert (simple "temp") as D3 by simple_name. unfold postings_path. rewrite !C57_join_nested. cbn [app]. rewrite C57_faithful; [|done|done|by simple_list|by simple_list]. split; [by intros [= -> ->]|by intros [-> ->]].
Qed.
(** A field called docs: its metrics file is the folder of the documents. *)
Theorem C57_docs_clash root : field_path root "docs" FMetrics = join [root; "docs"; "metrics"]%string.
Proof. done. Qed.

(** * Other names *)
(** Every name has an alias: the same name with a slash at its end. *)
Theorem C57_alias root f k d : root <> ""%string ->
  field_path root (f ++ "/") k = field_path root f k /\ document_path root (d ++ "/") = document_path root d.
Proof.
  intros Hr. assert (forall s, pieces (s ++ "/") = pieces s ++ [""]%string) as K. { intros s. apply (pieces_cat s ""). }
  assert (forall abs cs ss, walk abs cs (ss ++ [""]%string) = walk abs cs ss) as W by (intros abs cs ss; by rewrite walk_app).
  unfold field_path, document_path. rewrite !join_clean by done. unfold all_pieces. cbn [map concat]. rewrite !K. split.
  - f_equal. f_equal. rewrite !app_nil_r, !app_assoc. rewrite !(walk_app _ _ _ (pieces (file_name k))). f_equal. apply W.
  - f_equal. f_equal. rewrite !app_nil_r, !app_assoc. apply W.
Qed.
Lemma up_pieces s : pieces ("../" ++ s) = ".."%string :: pieces s.
Proof. apply (pieces_cat ".." s). Qed.
Lemma walk_dotdot abs c cs : c <> ".."%string -> walk1 abs (c :: cs) ".." = cs.
Proof. intros H. unfold walk1. rewrite decide_False by (intros [?|?]; done). rewrite decide_True by done. by rewrite decide_False. Qed.
(** Names that begin with "../" leave the folder: for a root folder cs/c, the field "../x"
    is a neighbour of the folder, and so is the document "../../../x". *)
Theorem C57_outside root cs c x k : target root = cs ++ [c] -> c <> ".."%string -> simple x ->
  target (field_path root ("../" ++ x) k) = cs ++ [x; file_name k] /\
  target (document_path root ("../../../" ++ x)) = cs ++ [x] /\
  ~ inside root (document_path root ("../../../" ++ x)) /\ (x <> c -> ~ inside root (field_path root ("../" ++ x) k)).
Proof.
  intros Ht Hc Hx. pose proof (simple_file k) as Sk. assert (simple "docs") as D1 by simple_name. assert (simple "metrics") as D2 by simple_name.
  assert (walk (absolute root) [] (pieces root) = c :: rev cs) as W. { unfold target in Ht. apply (f_equal (@rev string)) in Ht. rewrite rev_involutive in Ht. by rewrite Ht, rev_app_distr. }
  assert (root <> ""%string) as Hr. { intros ->. destruct cs; discriminate Ht. }
  assert (target (field_path root ("../" ++ x) k) = cs ++ [x; file_name k]) as T1.
  { unfold field_path. destruct (join_target root [("../" ++ x)%string; file_name k] Hr) as [_ ->]. unfold all_pieces. cbn [map concat]. rewrite up_pieces, !app_nil_r. rewrite (pieces_simple x) by apply Hx. rewrite (pieces_simple (file_name k)) by apply Sk.
    rewrite walk_app, W. cbn [app]. change (walk ?a ?b (?s :: ?t)) with (walk a (walk1 a b s) t). rewrite walk_dotdot by done. rewrite walk_simple by (by simple_list). rewrite rev_app_distr, !rev_involutive. done. }
  assert (target (document_path root ("../../../" ++ x)) = cs ++ [x]) as T2.
  { unfold document_path. destruct (join_target root ["docs"; "metrics"; "../../../" ++ x]%string Hr) as [_ ->]. unfold all_pieces. cbn [map concat].
    assert (pieces ("../../../" ++ x) = [".."; ".."; ".."; x]%string) as ->. { change ("../../../" ++ x)%string with ("../" ++ ("../" ++ ("../" ++ x)))%string. rewrite !up_pieces. rewrite (pieces_simple x) by apply Hx. done. }
    rewrite (pieces_simple "docs") by apply D1. rewrite (pieces_simple "metrics") by apply D2. rewrite walk_app, W. cbn [app].
    change (["docs"; "metrics"; ".."; ".."; ".."; x]%string) with (["docs"; "metrics"]%string ++ [".."; ".."; ".."; x]%string). rewrite walk_app. rewrite (walk_simple _ ["docs"; "metrics"]%string) by (by simple_list). cbn [rev app].
    change (walk ?a ?b (?s :: ?t)) with (walk a (walk1 a b s) t). rewrite walk_dotdot by done.
    change (walk ?a ?b (?s :: ?t)) with (walk a (walk1 a b s) t). rewrite walk_dotdot by done. change (walk ?a ?b (?s :: ?t)) with (walk a (walk1 a b s) t). rewrite walk_dotdot by done. rewrite walk_simple by (by simple_list). by rewrite rev_app_distr, !rev_involutive. }
  split; [done|]. split; [done|]. split.
  - intros (q & Hq & _ & _ & E). rewrite T2, Ht in E. apply (f_equal length) in E. rewrite !app_length in E. destruct q; [done|]. cbn in E. lia.
  - intros Hxc (q & Hq & _ & _ & E). rewrite T1, Ht, <- app_assoc in E. apply app_inv_head in E. injection E as -> _. done.
Qed.

(** * Concrete cases, with the root folder of main.go *)
Example C57_case :
  simple "title" /\ simple "42" /\ field_path "disk_storage/" "title" FMetrics = "disk_storage/title/metrics"%string /\
  document_path "disk_storage/" "42" = "disk_storage/docs/metrics/42"%string /\
  target "disk_storage/" = [] ++ ["disk_storage"%string] /\
  document_path "disk_storage/" "../../../x" = "x"%string /\ field_path "disk_storage/" "../x" FIndex = "x/index"%string /\
  document_path "disk_storage/" "../../title/metrics" = field_path "disk_storage/" "title" FMetrics.
Proof. repeat split; try done; try simple_name. all: intros H; apply elem_of_list_In in H; cbn in H; naive_solver. Qed.
Example C57_clean_cases : map clean [""; "/"; "a//b/../c/."; "../../a"; "/../a"; "a/../.."; "a.b/..c/..."]%string = ["."; "/"; "a/c"; "../../a"; "/a"; ".."; "a.b/..c/..."]%string.
Proof. vm_compute. reflexivity. Qed.
Print Assumptions C57_clean.
Print Assumptions C57_clean_same_target.
Print Assumptions C57_clean_equal.
Print Assumptions C57_join_nested.
Print Assumptions C57_join_simple.
Print Assumptions C57_faithful.
Print Assumptions C57_read_what_was_written.
Print Assumptions C57_inside.
Print Assumptions C57_field_files_distinct.
Print Assumptions C57_documents_distinct.
Print Assumptions C57_document_temp_clash.
Print Assumptions C57_kinds_distinct.
Print Assumptions C57_postings_distinct.
Print Assumptions C57_docs_clash.
Print Assumptions C57_alias.
Print Assumptions C57_outside.
