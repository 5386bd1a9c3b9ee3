(** Model of file/File.go on an explicit file system.

    A path is the list of its components.  The file system maps paths to file
    contents and has a set of directories.  System calls are atomic, except that
    writing a file is two steps (os.WriteFile creates or truncates the file, then
    writes it): between the two the file holds an unknown partial content [Torn].
    A crash of the process stops the program between two steps and leaves the file
    system as it is (loss of unsynced data at power failure is not modelled).  System calls fail only for the reasons listed in each
    definition; a full disk or missing permissions are not modelled. *)
From Verif Require Import Base.

Notation path := (list string).
Definition bytes : Type := list Z.

Inductive content := Torn | Whole (b : bytes).
#[global] Instance content_eq_dec : EqDecision content.
Proof. solve_decision. Defined.

Record fs := mkFs { fs_files : gmap path content; fs_dirs : gset path }.

Definition parent (p : path) : path := removelast p.
Definition set_files (s : fs) (m : gmap path content) : fs := mkFs m (fs_dirs s).
Definition is_dir (s : fs) (p : path) : bool := bool_decide (p ∈ fs_dirs s).
Definition is_file (s : fs) (p : path) : bool := bool_decide (is_Some (fs_files s !! p)).

(** File.go:89-95  Exists (os.Stat succeeds) *)
Definition exists_path (s : fs) (p : path) : bool := is_file s p || is_dir s p.

(** open(p, O_CREATE|O_TRUNC): fails when the directory is missing or [p] is a
    directory. *)
Definition open_trunc (s : fs) (p : path) : option fs :=
  if is_dir s (parent p) && negb (is_dir s p) then Some (set_files s (<[p := Torn]> (fs_files s))) else None.
(** The write and close of os.WriteFile. *)
Definition write_all (s : fs) (p : path) (b : bytes) : fs := set_files s (<[p := Whole b]> (fs_files s)).

Definition is_below (p q : path) : bool := bool_decide (take (length p) q = p).
(** The directory [p] has an entry. *)
Definition dir_nonempty (s : fs) (p : path) : bool :=
  existsb (fun q => is_below p q && negb (bool_decide (p = q))) (map fst (map_to_list (fs_files s)) ++ elements (fs_dirs s)).
Definition move_path (p q r : path) : path := if is_below p r then q ++ drop (length p) r else r.

(** os.Rename (File.go:81-87) for a file: the target, if it is a file, is replaced
    atomically; fails if the target is a directory or its parent is missing.  For a
    directory: everything below moves; fails if the target is a file or a non-empty
    directory. *)
Definition rename (s : fs) (p q : path) : option fs :=
  match fs_files s !! p with
  | Some c =>
      if is_dir s (parent q) && negb (is_dir s q) then Some (set_files s (<[q := c]> (delete p (fs_files s)))) else None
  | None =>
      if is_dir s p && is_dir s (parent q) && negb (is_file s q) && negb (is_dir s q && dir_nonempty s q) then
        Some (mkFs (list_to_map (map (fun kc : path * content => (move_path p q kc.1, kc.2)) (map_to_list (fs_files s))))
                   (list_to_set (map (move_path p q) (elements (fs_dirs s)))))
      else None
  end.

(** os.Remove (File.go:97-100): a file, or an empty directory. *)
Definition remove (s : fs) (p : path) : option fs :=
  match fs_files s !! p with
  | Some _ => Some (set_files s (delete p (fs_files s)))
  | None =>
      if is_dir s p && negb (dir_nonempty s p) then Some (mkFs (fs_files s) (fs_dirs s ∖ {[p]})) else None
  end.

(** os.ReadFile (File.go:66-72) *)
Definition read_file (s : fs) (p : path) : option content := fs_files s !! p.

(** The prefixes of a path, shortest first. *)
Fixpoint prefixes (p : path) : list path :=
  match p with [] => [[]] | x :: p' => [] :: map (cons x) (prefixes p') end.
(** os.MkdirAll (File.go:74-79): fails if a prefix is a file (log.Fatalf). *)
Definition mkdir_all (s : fs) (p : path) : option fs :=
  if forallb (fun q => negb (is_file s q)) (prefixes p) then Some (mkFs (fs_files s) (list_to_set (prefixes p) ∪ fs_dirs s))
  else None.

(** Names of the direct entries of a directory, in the order of os.ReadDir
    (sorted); we leave the order unspecified: [ns] is any listing. *)
Definition lists_files (s : fs) (p : path) (ns : list string) : Prop :=
  NoDup ns /\ forall n, n ∈ ns <-> is_Some (fs_files s !! (p ++ [n])).
(** File.go:118-133  ListDirectories skips the name "docs". *)
Definition lists_dirs (s : fs) (p : path) (ns : list string) : Prop :=
  NoDup ns /\ forall n, n ∈ ns <-> p ++ [n] ∈ fs_dirs s /\ n <> "docs".

(** File.go:135-166  SecureSaveFile as a program over the file system.  The program
    counter names the next system call. *)
Inductive ss_pc :=
| SSOpen          (* :141 os.WriteFile(tempPath): open *)
| SSWrite         (* :141 write, close *)
| SSStatCur       (* :146 Exists(currentPath) *)
| SSRenameOld     (* :147 *)
| SSRenameCur     (* :153 *)
| SSStatOld       (* :158 *)
| SSDelete        (* :159 *)
| SSOk | SSErr.

Section secure_save.
  Variables (dir : path) (name : string) (buff : bytes).
  Definition cur_path : path := dir ++ [name].
  Definition temp_path : path := dir ++ [String.append name "_temp"].
  Definition old_path : path := dir ++ [String.append name "_old"].

  Definition on (r : option fs) (s : fs) (pc : ss_pc) : ss_pc * fs :=
    match r with Some s' => (pc, s') | None => (SSErr, s) end.

  (** One system call; [None] when the function has returned. *)
  Definition ss_step (st : ss_pc * fs) : option (ss_pc * fs) :=
    let s := st.2 in
    match st.1 with
    | SSOpen => Some (on (open_trunc s temp_path) s SSWrite)
    | SSWrite => Some (SSStatCur, write_all s temp_path buff)
    | SSStatCur => Some ((if exists_path s cur_path then SSRenameOld else SSRenameCur), s)
    | SSRenameOld => Some (on (rename s cur_path old_path) s SSRenameCur)
    | SSRenameCur => Some (on (rename s temp_path cur_path) s SSStatOld)
    | SSStatOld => Some ((if exists_path s old_path then SSDelete else SSOk), s)
    | SSDelete => Some (on (remove s old_path) s SSOk)
    | SSOk | SSErr => None
    end.
  Definition ss_steps : ss_pc * fs -> ss_pc * fs -> Prop := rtc (fun a b => ss_step a = Some b).
End secure_save.
