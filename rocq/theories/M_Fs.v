(** File system and file reading (src/utils.rs:13-170). *)
From Verif Require Import Base Str M_Path M_Source.

(** *** The operating system *)
(** A location is the list of directory names from the inside out. Links are
    not modelled: ".." goes to the enclosing directory. A path to a file with a
    slash at its end stands for the file; the system would refuse it. *)
Definition Loc := list str.
Definition loc_eqb : Loc -> Loc -> bool := list_eqb str_eqb.
Inductive Node := NFile (data : list N) | NDir.
(** Later entries are shadowed by earlier ones. *)
Definition FS := list (Loc * Node).
Definition fs_get (fs : FS) (l : Loc) : option Node :=
  match l with [] => Some NDir | _ => afind loc_eqb l fs end.
Definition fs_set (fs : FS) (l : Loc) (n : Node) : FS := (l, n) :: fs.
Definition comp_step (l : Loc) (c : Comp) : Loc :=
  match c with RootDir => [] | CurDir => l | ParentDir => tl l | Normal n => n :: l end.
(** Location a path stands for, seen from directory [cwd]. *)
Definition locate (cwd : Loc) (path : str) : Loc := fold_left comp_step (components path) cwd.
(** Names in a directory. *)
Definition fs_children (fs : FS) (l : Loc) : list str :=
  nodup str_eq_dec (flat_map (fun e => match fst e with n :: up => if loc_eqb up l then [n] else [] | [] => [] end) fs).
(** What the process may create or write, what of the data it writes reaches the
    disk ([os_disk d = d] on a disk that is not full), and in pieces of which
    lengths a formatted text is written (the rest is the last piece). *)
Record Os := mkOs { os_cwd : Loc; os_may : Loc -> bool; os_disk : list N -> list N; os_cuts : list N -> list N }.
(** [Path::exists], [Path::is_file], [Path::is_dir]. *)
Definition path_exists (os : Os) (fs : FS) (p : str) : bool := match fs_get fs (locate (os_cwd os) p) with Some _ => true | None => false end.
Definition is_file (os : Os) (fs : FS) (p : str) : bool := match fs_get fs (locate (os_cwd os) p) with Some (NFile _) => true | _ => false end.
Definition is_dir (os : Os) (fs : FS) (p : str) : bool := match fs_get fs (locate (os_cwd os) p) with Some NDir => true | _ => false end.
(** [fs::create_dir_all]. *)
Fixpoint mkdirs (os : Os) (fs : FS) (l : Loc) : option FS :=
  match l with
  | [] => Some fs
  | _ :: up =>
      match fs_get fs l with
      | Some NDir => Some fs
      | Some (NFile _) => None
      | None =>
          match mkdirs os fs up with
          | Some fs1 => if os_may os l then Some (fs_set fs1 l NDir) else None
          | None => None
          end
      end
  end.
Definition create_dir_all (os : Os) (fs : FS) (p : str) : option FS := mkdirs os fs (locate (os_cwd os) p).
(** [File::create]: the file is there and empty. *)
Definition file_create (os : Os) (fs : FS) (p : str) : option FS :=
  let l := locate (os_cwd os) p in
  match l with
  | [] => None
  | _ :: up =>
      match fs_get fs up, fs_get fs l with
      | Some NDir, Some NDir => None
      | Some NDir, _ => if os_may os l then Some (fs_set fs l (NFile [])) else None
      | _, _ => None
      end
  end.
(** Capacity of [BufWriter]. *)
Definition buf_capacity : N := 8192.
(** [BufWriter::write_all] of [n] bytes; the numbers of bytes in the buffer and of
    those handed on. *)
Definition buf_step (st : N * N) (n : N) : N * N :=
  let '(b, k) := st in
  if n <? buf_capacity - b then (b + n, k)
  else
    let '(b, k) := if buf_capacity - b <? n then (0, k + b) else (b, k) in
    if buf_capacity <=? n then (b, k + n) else (b + n, k).
Fixpoint buf_pieces (cuts : list N) (total : N) (st : N * N) : N * N :=
  match cuts with
  | [] => buf_step st total
  | c :: t => let n := N.min c total in buf_pieces t (total - n) (buf_step st n)
  end.
(** Bytes handed on before the drop. *)
Definition handed_on (cuts : list N) (total : N) : N := snd (buf_pieces cuts total (0, 0)).
(** Writing all the data to a fresh writer, followed by its drop: what is still
    in the buffer then is written without looking at errors. *)
Definition buf_write (os : Os) (fs : FS) (p : str) (cuts data : list N) : FS * bool :=
  let out := os_disk os data in
  let k := N.to_nat (handed_on cuts (lenN data)) in
  (fs_set fs (locate (os_cwd os) p) (NFile out), str_eqb (firstn k out) (firstn k data)).


(** *** Cabinet archives *)
(** An archive lists its files with their names and contents (None: cannot be
    decompressed); [cab] tells which data is an archive. *)
Definition Cab := list (str * option (list N)).
(** /repo/src/utils.rs:156-170 [get_cabinet_files] after [get_corrected_path]. *)
Fixpoint cab_find (files : Cab) (name : str) : res (option (option (list N))) :=
  match files with
  | [] => Ok None
  | (n, data) :: t =>
      match path_file_name n with
      | None => Panic "called `Option::unwrap()` on a `None` value"
      | Some f => if str_eqb f name then Ok (Some data) else cab_find t name
      end
  end.
(** /repo/src/utils.rs:112-139 [read_cabinet]. *)
Definition read_cabinet (cab : list N -> option Cab) (buf : list N) (path : str) : res (option (list N)) :=
  match cab buf with
  | None => Ok (Some buf)
  | Some files =>
      p <- get_corrected_path path ;;
      match path_file_name p with
      | None => Panic "called `Option::unwrap()` on a `None` value"
      | Some n => r <- cab_find files n ;; Ok (match r with Some (Some d) => Some d | _ => None end)
      end
  end.

(** *** Reading an input file *)
(** /repo/src/utils.rs:76-110 [get_mac_bundle] on an existing path: [None] when
    it is not a directory. The DWARF entry is named by its path; a failing
    [metadata] of an entry is not modelled. *)
Definition get_mac_bundle (os : Os) (fs : FS) (path : str) : res (option str) :=
  if is_dir os fs path then
    let dwarf := path_push path (lit "Contents/Resources/DWARF") in
    if is_dir os fs dwarf then
      match fs_children fs (locate (os_cwd os) dwarf) with
      | [] => Panic "Unable to find DWARF-bearing file in bundle"
      | [n] => Ok (Some (path_push dwarf n))
      | _ => Panic "Too many DWARF files in bundle"
      end
    else Panic "File is a directory and not a mac bundle"
  else Ok None.
(** /repo/src/utils.rs:13-34 [read_file]. Files that exist can be read. *)
Definition read_file (os : Os) (cab : list N -> option Cab) (fs : FS) (path : str) : res (list N) :=
  if path_exists os fs path then
    b <- get_mac_bundle os fs path ;;
    let path := match b with Some p => p | None => path end in
    match fs_get fs (locate (os_cwd os) path) with
    | Some (NFile data) =>
        r <- read_cabinet cab data path ;;
        match r with Some d => Ok d | None => Panic "Unable to read the cabinet file" end
    | _ => Panic "Unable to read the file"
    end
  else Panic "Unable to open the file".
