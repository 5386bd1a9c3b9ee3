(** How file names are built: path/filepath.Join and Clean of the Go standard library for
    Unix (not part of /repo; modelled from their published source), and the paths that
    storage/DiskIO.go and file/File.go make with them. *)
From Verif Require Import Base.
From Coq Require Import Ascii.
#[local] Open Scope nat_scope.

Notation chars := (list ascii).
Definition slash : ascii := "/"%char.
Definition dot : ascii := "."%char.

(** filepath.Clean, case "..": out.w--, then on while out.w > dotdot and the byte just
    dropped is not a slash.  [rout] is the output written so far, last byte first. *)
Fixpoint backtrack (rout : chars) (dotdot : nat) : chars :=
  match rout with
  | [] => []
  | c :: r => if decide (length rout <= dotdot) then rout else if decide (c = slash) then r else backtrack r dotdot
  end.
(** filepath.Clean, default case: the bytes up to the next slash, and the rest. *)
Fixpoint segment (rest : chars) : chars * chars :=
  match rest with
  | [] => ([], [])
  | c :: r => if decide (c = slash) then ([], rest) else let (s, r') := segment r in (c :: s, r')
  end.
Definition ends_here (rest : chars) : bool := match rest with [] => true | c :: _ => bool_decide (c = slash) end.
(** filepath.Clean, the switch: what the path goes on with. *)
Inductive element := Skip (rest : chars) | Up (rest : chars) | Elem (name rest : chars).
Definition next_element (c : ascii) (r : chars) : element :=
  if decide (c = slash) then Skip r                                        (* path[r] == '/' *)
  else if decide (c = dot /\ ends_here r = true) then Skip r               (* . element *)
  else match r with
       | c2 :: r2 => if decide (c = dot /\ c2 = dot /\ ends_here r2 = true) then Up r2   (* .. element *)
                     else let (s, r') := segment (c :: r) in Elem s r'
       | [] => let (s, r') := segment (c :: r) in Elem s r'
       end.
(** filepath.Clean, the loop.  Every turn consumes a byte, so [fuel] = the length of the
    path is enough. *)
Fixpoint clean_loop (rooted : bool) (fuel : nat) (rest rout : chars) (dotdot : nat) : chars :=
  match fuel, rest with
  | S fuel, c :: r =>
    match next_element c r with
    | Skip r => clean_loop rooted fuel r rout dotdot
    | Up r =>
      if decide (dotdot < length rout) then clean_loop rooted fuel r (backtrack rout dotdot) dotdot
      else if rooted then clean_loop rooted fuel r rout dotdot
      else let rout' := dot :: dot :: (if decide (0 < length rout) then slash :: rout else rout) in
           clean_loop rooted fuel r rout' (length rout')
    | Elem s r =>
      let rout1 := if decide (length rout = if rooted then 1 else 0) then rout else slash :: rout in
      clean_loop rooted fuel r (rev s ++ rout1) dotdot
    end
  | _, _ => rout
  end.
Definition clean_chars (p : chars) : chars :=
  match p with
  | [] => [dot]
  | c :: r =>
    let rout := if decide (c = slash) then clean_loop true (length p) r [slash] 1 else clean_loop false (length p) p [] 0 in
    match rout with [] => [dot] | _ => rev rout end
  end.
Definition clean (p : string) : string := string_of_list_ascii (clean_chars (list_ascii_of_string p)).
(** strings.Join(elem, "/") *)
Fixpoint join_slash (es : list string) : string :=
  match es with [] => "" | [e] => e | e :: es => (e ++ "/" ++ join_slash es)%string end.
(** filepath.Join: leading empty elements are dropped, the rest is joined and cleaned. *)
Fixpoint join (es : list string) : string :=
  match es with [] => "" | e :: es' => if decide (e = ""%string) then join es' else clean (join_slash es) end.

(** storage/DiskIO.go:27, 45, 73, 249, 288; file/File.go:137: the files of a field *)
Inductive field_file := FNumberFieldTerm | FMetrics | FIndex.
(** file/File.go:13-21 *)
Definition file_name (k : field_file) : string := match k with FNumberFieldTerm => "nfterm" | FMetrics => "metrics" | FIndex => "index" end.
Definition field_path (root fieldName : string) (k : field_file) : string := join [root; fieldName; file_name k].
(** storage/DiskIO.go:63  where a document is read *)
Definition document_path (root documentId : string) : string := join [root; "docs"; "metrics"; documentId]%string.
(** storage/DiskIO.go:355-359  a file of postings; [uuid] is the random name *)
Definition postings_path (root fieldName uuid : string) : string := join [join [root; fieldName; "temp"]; uuid]%string.
(** storage/DiskIO.go:207-211, 249-253, 288-294 with file/File.go:137-139: the three paths
    SecureSaveFile works on *)
Definition save_paths (folder fileName : string) : list string :=
  [join [folder; fileName]; join [folder; fileName ++ "_temp"]; join [folder; fileName ++ "_old"]]%string.
Definition field_save_paths (root fieldName : string) (k : field_file) : list string := save_paths (join [root; fieldName]) (file_name k).
Definition document_save_paths (root documentId : string) : list string := save_paths (join [root; "docs"; "metrics"]%string) documentId.
