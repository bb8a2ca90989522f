(** Model of the path handling of /repo/src/platform.rs, /repo/src/utils.rs and
    /repo/src/source.rs, with std::path as it behaves on Unix hosts (the only
    host modelled). Paths are strings. *)
From Verif Require Import Base Str Utf8.

(** /repo/src/platform.rs:9-13 [enum Platform]. *)
Inductive Platform := Linux | Mac | Win.
Definition platform_eqb (a b : Platform) : bool :=
  match a, b with Linux, Linux | Mac, Mac | Win, Win => true | _, _ => false end.

(** /repo/src/platform.rs:66-75 [impl Display for Platform]. *)
Definition platform_text (p : Platform) : str :=
  match p with Linux => lit "Linux" | Mac => lit "Mac" | Win => lit "windows" end.

(** /repo/src/platform.rs:16-22 [is_target]; the host is a parameter. *)
Definition is_target (host p : Platform) : bool := platform_eqb host p.

Definition is_slash (c : N) : bool := c =? c_slash.
Definition is_sep (c : N) : bool := (c =? c_slash) || (c =? c_bslash).

(** The part of the string before the first character satisfying [p]. *)
Fixpoint before_first (p : N -> bool) (s : str) : str :=
  match s with [] => [] | c :: t => if p c then [] else c :: before_first p t end.

(** /repo/src/platform.rs:24-36 [Platform::is_absolute_path]. *)
Definition is_absolute_path (p : Platform) (s : str) : bool :=
  match p with
  | Linux | Mac => starts_with [c_slash] s
  | Win =>
      let first_fragment := before_first is_sep s in
      match first_fragment with [] => true | _ => ends_with_char 58 first_fragment end
  end.

(** /repo/src/platform.rs:38-63 [Platform::join_paths]. *)
Definition join_paths (p : Platform) (left right : str) : str :=
  match p with
  | Linux | Mac => trim_end_by is_slash left ++ [c_slash] ++ trim_start_by is_slash right
  | Win =>
      let left := trim_end_by is_sep left in
      let right := trim_start_by is_sep right in
      if starts_with [c_slash] left then left ++ [c_slash] ++ right
      else left ++ [c_bslash] ++ right
  end.

(** ** std::path on Unix *)

(** std::path::Component (a Prefix never occurs on Unix). *)
Inductive Comp := RootDir | CurDir | ParentDir | Normal (s : str).

(** One piece between slashes; "." only counts at the very start of a relative
    path (std::path::Components). *)
Definition piece_comp (first : bool) (s : str) : list Comp :=
  if str_eqb s [] then []
  else if str_eqb s (lit ".") then (if first then [CurDir] else [])
  else if str_eqb s (lit "..") then [ParentDir]
  else [Normal s].
(** std::path::Path::components. *)
Definition components (s : str) : list Comp :=
  match split_on is_slash s with
  | [] => []
  | p0 :: ps =>
      (if starts_with [c_slash] s then [RootDir] else piece_comp true p0)
      ++ flat_map (piece_comp false) ps
  end.

(** std::path::PathBuf::push: an absolute argument replaces the path, otherwise
    a separator is added if the path is not empty and does not end with one. *)
Definition path_push (s p : str) : str :=
  if starts_with [c_slash] p then p
  else match s with
  | [] => p
  | _ => if ends_with_char c_slash s then s ++ p else s ++ [c_slash] ++ p
  end.

Definition comp_eqb (a b : Comp) : bool :=
  match a, b with
  | RootDir, RootDir | CurDir, CurDir | ParentDir, ParentDir => true
  | Normal s, Normal t => str_eqb s t
  | _, _ => false
  end.
(** Shortest prefix of [s] (of length [n] or more) with the given components. *)
Fixpoint shortest_prefix (fuel n : nat) (s : str) (cs : list Comp) : str :=
  if list_eqb comp_eqb (components (firstn n s)) cs then firstn n s
  else match fuel with O => s | S f => shortest_prefix f (S n) s cs end.
(** std::path::Path::parent: the path without its last component and without
    what separates it, None when there is no component or only the root. *)
Definition path_parent (s : str) : option str :=
  match last_opt (components s) with
  | None | Some RootDir => None
  | Some _ => Some (shortest_prefix (length s) 0 s (removelast (components s)))
  end.
(** std::path::PathBuf::pop. *)
Definition path_pop (s : str) : str :=
  match path_parent s with Some p => p | None => s end.

(** std::path::Path::file_name. *)
Definition path_file_name (s : str) : option str :=
  match last_opt (components s) with Some (Normal n) => Some n | _ => None end.
(** std::path [rsplit_file_at_dot]: (stem, extension); [n] is a Normal
    component, so it is not "..". *)
Definition split_file_at_dot (n : str) : str * option str :=
  match rsplit_once (lit ".") n with
  | None => (n, None)
  | Some ([], _) => (n, None)
  | Some (before, after) => (before, Some after)
  end.
(** std::path::Path::extension. *)
Definition path_extension (s : str) : option str :=
  match path_file_name s with
  | Some n => snd (split_file_at_dot n)
  | None => None
  end.
(** std::path::PathBuf::set_extension with a non-empty extension: everything
    behind the file stem is replaced. The stem ends where the shortest prefix
    with all components ends, minus the old extension. *)
Definition path_set_extension (s ext : str) : str :=
  match path_file_name s with
  | None => s
  | Some n =>
      let full := shortest_prefix (length s) 0 s (components s) in
      let stem := fst (split_file_at_dot n) in
      firstn (length full - length n + length stem) full ++ lit "." ++ ext
  end.

(** ** /repo/src/utils.rs *)

(** /repo/src/utils.rs:172-199 [normalize_path]. *)
Definition norm_step (ret : str) (c : Comp) : str :=
  match c with
  | RootDir => path_push ret [c_slash]
  | CurDir => ret
  | ParentDir => path_pop ret
  | Normal s => path_push ret s
  end.
Definition normalize_path (s : str) : str := fold_left norm_step (components s) [].

(** /repo/src/utils.rs:36-58 [get_base]. *)
Definition get_base (file_name : str) : str :=
  match path_extension file_name with
  | Some e =>
      let e := to_lower e in
      if str_eqb e (lit "pd_") then path_set_extension file_name (lit "pdb")
      else if str_eqb e (lit "ex_") then path_set_extension file_name (lit "exe")
      else if str_eqb e (lit "dl_") then path_set_extension file_name (lit "dll")
      else file_name
  | None => file_name
  end.

(** /repo/src/utils.rs:67-70: the name of the .sym file. *)
Definition sym_file_name (file_name : str) : str :=
  match rsplit_once (lit ".") file_name with
  | Some (basename, ext) =>
      if str_eqb (to_lower ext) (lit "pdb") then basename ++ lit ".sym" else file_name ++ lit ".sym"
  | None => file_name ++ lit ".sym"
  end.
(** /repo/src/utils.rs:60-74 [get_path_for_sym]. *)
Definition get_path_for_sym (file_name id : str) : str :=
  path_push (path_push (get_base file_name) id) (sym_file_name file_name).

(** /repo/src/utils.rs:141-154 [get_corrected_path]; panics when the path has
    no extension. *)
Definition get_corrected_path (path : str) : res str :=
  match path_extension path with
  | None => Panic "called `Option::unwrap()` on a `None` value"
  | Some e =>
      Ok (if starts_with (lit "pd") e then path_set_extension path (lit "pdb")
          else if starts_with (lit "dl") e then path_set_extension path (lit "dll")
          else if starts_with (lit "ex") e then path_set_extension path (lit "exe")
          else if starts_with (lit "db") e then path_set_extension path (lit "dbg")
          else path)
  end.

(** ** /repo/src/source.rs *)

(** /repo/src/source.rs:59-66 [path_to_string]. *)
Definition path_to_string (bytes : list N) : str :=
  match decode bytes with Some s => s | None => bytes end.

(** /repo/src/source.rs:68-92 [SourceFiles::get_path]. [dir] and [name] are the
    results of symbolic's lossy decoding of the file entry; [canon] is
    [fs::canonicalize] followed by [to_string_lossy] (an oracle). *)
Definition get_path (canon : str -> option str) (p : Platform) (canonicalize : bool)
    (compilation_dir : list N) (dir name : str) : str :=
  let dir :=
    if negb (is_absolute_path p dir) && negb (match compilation_dir with [] => true | _ => false end)
    then join_paths p (path_to_string compilation_dir) dir else dir in
  let path := join_paths p dir name in
  if canonicalize then
    match canon path with Some q => q | None => normalize_path path end
  else path.
