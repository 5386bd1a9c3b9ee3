(** Specification vocabulary for file replacement. *)
From Verif Require Import Base M_File.

(** The directory exists and none of the three names used by SecureSaveFile is a
    directory. *)
Definition can_save (s : fs) (dir : path) (name : string) : Prop :=
  dir ∈ fs_dirs s /\ dir ++ [name] ∉ fs_dirs s /\ dir ++ [String.append name "_temp"] ∉ fs_dirs s /\
  dir ++ [String.append name "_old"] ∉ fs_dirs s.

(** What a reader of a path finds. *)
Definition file_at (s : fs) (p : path) : option content := fs_files s !! p.

(** [t] is a state of the file system during (or after) SecureSaveFile(dir, name, b)
    started in [s]: the states a crash can leave behind. *)
Definition during_save (dir : path) (name : string) (b : bytes) (s : fs) (t : fs) : Prop :=
  exists pc, ss_steps dir name b (SSOpen, s) (pc, t).
(** The call has returned without error. *)
Definition saved (dir : path) (name : string) (b : bytes) (s : fs) (t : fs) : Prop :=
  ss_steps dir name b (SSOpen, s) (SSOk, t).
