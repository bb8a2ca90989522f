(** Model of how an input file becomes a module: choosing the object of a fat
    file, finding the PE or PDB that belongs to it and the dispatch on the
    format (src/mac.rs, src/linux.rs, src/windows/, src/dumper.rs). *)
From Verif Require Import Base Str M_Path M_Source M_Symbol M_Collector M_Object M_Fs M_Cache M_Store.

(** *** The parsers *)
(** Formats told apart by symbolic's [peek]. *)
Inductive Format := FmtElf | FmtPdb | FmtPe | FmtMachO | FmtOther.
(** A parsed PE: its debug id (only compared), the PDB name recorded in it and
    what is read from it. *)
Record PeFile := mkPeFile { pf_id : N; pf_pdb : option str; pf_obj : Parsed }.
Record PdbFile := mkPdbFile { pd_id : N; pd_obj : Parsed }.
(** symbolic's parsers as functions of the bytes; None: an error. An archive is
    the list of its objects with their architectures, None for an unreadable
    one. *)
Record Parsers := mkParsers {
  ps_peek : list N -> Format;
  ps_object : list N -> option Parsed;
  ps_pe : list N -> option PeFile;
  ps_pdb : list N -> option PdbFile;
  ps_archive : list N -> option (list (option (N * Parsed)))
}.

(** *** Mach-O *)
(** /repo/src/mac.rs:27-34: the object to dump. *)
Definition select_object (objs : list (option (N * Parsed))) (arch : N) : res (option Parsed) :=
  match objs with
  | [Some o] => Ok (Some (snd o))
  | [None] => Panic "called `Result::unwrap()` on an `Err` value"
  | _ => Ok (option_map snd (find (fun o => fst o =? arch) (filter_map (fun o => o) objs)))
  end.
(** /repo/src/mac.rs:16-53 [from_macho]. *)
Definition from_macho (ps : Parsers) (e : RunEnv) (buf : list N) (file_name : str) (arch : N) : res Obj :=
  match ps_archive ps buf with
  | None => Err "archive"
  | Some objs =>
      o <- select_object objs arch ;;
      match o with
      | Some p => from_object e Mac p file_name None None
      | None => Err "Cannot find a valid object for architecture"
      end
  end.
Fixpoint join_str (sep : str) (l : list str) : str :=
  match l with [] => [] | [x] => x | x :: t => x ++ sep ++ join_str sep t end.
(** /repo/src/mac.rs:56-72 [print_macho_architectures]: the text printed. *)
Definition print_macho_architectures (ps : Parsers) (arch_name : N -> str) (buf : list N) (file_name : str) : res str :=
  match ps_archive ps buf with
  | None => Err "archive"
  | Some objs =>
      names <- mapM (fun o => match o with Some o => Ok (arch_name (fst o)) | None => Panic "called `Result::unwrap()` on an `Err` value" end) objs ;;
      Ok (file_name ++ lit " contains the following architecture" ++ (if lenN names =? 1 then [] else lit "s") ++ lit ":" ++ [c_nl]
          ++ join_str (lit ", ") names ++ [c_nl])
  end.

(** *** ELF *)
(** /repo/src/linux.rs:15-33 [from_elf]. *)
Definition from_elf (ps : Parsers) (e : RunEnv) (buf : list N) (file_name : str) : res Obj :=
  match ps_object ps buf with
  | None => Err "object"
  | Some o => from_object e Linux o file_name None None
  end.

(** *** Windows *)
(** /repo/src/utils.rs:201-203 [get_filename]. *)
Definition get_filename (path : str) : res str :=
  match path_file_name path with Some n => Ok n | None => Panic "called `Option::unwrap()` on a `None` value" end.
(** std::path::PathBuf::set_file_name. *)
Definition path_set_file_name (path name : str) : str :=
  path_push (match path_file_name path with Some _ => path_pop path | None => path end) name.
(** std::env::current_dir. *)
Definition cwd_path (os : Os) : str := c_slash :: join_with c_slash (rev (os_cwd os)).

(** First of the paths that is a file, read. *)
Fixpoint read_first (os : Os) (cab : list N -> option Cab) (fs : FS) (paths : list str) : res (option (list N)) :=
  match paths with
  | [] => Ok None
  | p :: t => if is_file os fs p then d <- read_file os cab fs p ;; Ok (Some d) else read_first os cab fs t
  end.
(** /repo/src/windows/utils.rs:13-33 [try_to_find_pdb]. *)
Definition try_to_find_pdb (os : Os) (cab : list N -> option Cab) (fs : FS) (path pdb_filename : str) : res (option (list N)) :=
  let pdb := path_set_file_name path pdb_filename in
  let pdb_cab := path_set_extension pdb (lit "pd_") in
  read_first os cab fs [pdb; pdb_cab; path_set_file_name (cwd_path os) pdb_filename].
(** [str::replace] of a backslash by a slash. *)
Definition unix_path (s : str) : str := map (fun c => if c =? c_bslash then c_slash else c) s.
(** /repo/src/windows/utils.rs:35-53 [os_specific_try_to_find_pdb] on Unix. *)
Definition os_specific_try_to_find_pdb (os : Os) (cab : list N -> option Cab) (fs : FS) (path pdb_filename : str) : res (option (list N) * str) :=
  let pdb_path := unix_path pdb_filename in
  match path_file_name pdb_path with
  | Some name =>
      d <- (if is_file os fs pdb_path then d <- read_file os cab fs pdb_path ;; Ok (Some d) else try_to_find_pdb os cab fs path name) ;;
      Ok (d, name)
  | None => Ok (None, [])
  end.
(** Everything outside: parsers, file system environment, network, the order in
    which probes end, home directory and configuration file. *)
Record Ext := mkExt {
  ex_ps : Parsers;
  ex_env : M_Cache.CEnv;
  ex_net : Net;
  ex_sched : list CJob -> list CJob;
  ex_home : option str
}.
Definition ex_os (x : Ext) : Os := ce_os (ex_env x).
Definition ex_cab (x : Ext) : list N -> option Cab := ce_cab (ex_env x).
(** /repo/src/windows/utils.rs:55-80 [get_pe_pdb_buf]; [pa_debug_id] is the
    breakpad form of the debug id. The file system is the one after a download
    was put in the cache. *)
Definition get_pe_pdb_buf (x : Ext) (fs : FS) (path : str) (buf : list N) (servers : option (list SymbolServer))
    : res (option (PeFile * list N * str) * FS) :=
  match ps_pe (ex_ps x) buf with
  | None => Panic "Unable to parse the PE file"
  | Some pe =>
      match pf_pdb pe with
      | None => Ok (None, fs)
      | Some pdb_filename =>
          ' r <- os_specific_try_to_find_pdb (ex_os x) (ex_cab x) fs path pdb_filename ;;
          let '(pdb, name) := r in
          match name, pdb with
          | [], _ => Ok (None, fs)
          | _, Some d => Ok (Some (pe, d, name), fs)
          | _, None =>
              l <- search_file (ex_env x) (ex_net x) (ex_sched x) fs name (pa_debug_id (pf_obj pe)) servers ;;
              Ok (option_map (fun d => (pe, d, name)) (lk_data l), lk_fs l)
          end
      end
  end.
(** /repo/src/windows/utils.rs:83-89 [fix_extension], for extensions that end in '_'. *)
Definition fix_extension (ext : str) : str :=
  if str_eqb ext (lit "dl_") then lit "dll" else if str_eqb ext (lit "ex_") then lit "exe" else ext.
(** /repo/src/windows/utils.rs:94-109: the loop; the path is changed as it goes. *)
Fixpoint find_pe_loop (os : Os) (cab : list N -> option Cab) (ps : Parsers) (fs : FS) (id : N) (path : str) (exts : list str)
    : res (option (str * list N)) :=
  match exts with
  | [] => Ok None
  | ext :: t =>
      let path := path_set_extension path ext in
      if is_file os fs path then
        buf <- read_file os cab fs path ;;
        match ps_pe ps buf with
        | Some pe =>
            let path := if ends_with_char 95 ext then path_set_extension path (fix_extension ext) else path in
            name <- get_filename path ;;
            if pf_id pe =? id then Ok (Some (name, buf)) else find_pe_loop os cab ps fs id path t
        | None => find_pe_loop os cab ps fs id path t
        end
      else find_pe_loop os cab ps fs id path t
  end.
(** /repo/src/windows/utils.rs:91-111 [find_pe_for_pdb]. *)
Definition find_pe_for_pdb (os : Os) (cab : list N -> option Cab) (ps : Parsers) (fs : FS) (path : str) (id : N) : res (option (str * list N)) :=
  find_pe_loop os cab ps fs id path [lit "dll"; lit "dl_"; lit "exe"; lit "ex_"].
(** /repo/src/windows/pdb.rs:53-56 [win_path_file_name]. *)
Definition win_path_file_name (s : str) : str :=
  match rsplit_once [c_bslash] s with Some (_, t) => t | None => s end.
(** No mapping of paths and no inlines (/repo/src/windows/pdb.rs:47-48). *)
Definition plain_env (e : RunEnv) : RunEnv := mkRunEnv (re_ck e) (re_host e) (re_canon e) (fun _ => Ok None) (re_dm e) false (re_sort e).
(** /repo/src/windows/pdb.rs:15-35 [from_pdb]. *)
Definition from_pdb (e : RunEnv) (pdb : PdbFile) (pdb_name : str) (pe_name : option str) (pe : option PeFile) : res Obj :=
  from_object e Win (pd_obj pdb) pdb_name (option_map pf_obj pe) pe_name.
(** /repo/src/windows/pdb.rs:37-51 [from_pe]. *)
Definition from_pe (e : RunEnv) (pe_name : str) (pe : PeFile) : res Obj :=
  from_object (plain_env e) Win (pf_obj pe) (win_path_file_name (match pf_pdb pe with Some n => n | None => pe_name end)) None (Some pe_name).
(** /repo/src/dumper.rs:116-139 [get_pdb_object_info]. *)
Definition get_pdb_object_info (x : Ext) (e : RunEnv) (fs : FS) (buf : list N) (path filename : str) : res Obj :=
  match ps_pdb (ex_ps x) buf with
  | None => Err "pdb"
  | Some pdb =>
      r <- find_pe_for_pdb (ex_os x) (ex_cab x) (ex_ps x) fs path (pd_id pdb) ;;
      match r with
      | Some (pe_name, pe_buf) =>
          match ps_pe (ex_ps x) pe_buf with
          | Some pe => from_pdb e pdb filename (Some pe_name) (Some pe)
          | None => Panic "called `Result::unwrap()` on an `Err` value"
          end
      | None => from_pdb e pdb filename None None
      end
  end.
(** /repo/src/dumper.rs:141-169 [get_pe_pdb_object_info]. *)
Definition get_pe_pdb_object_info (x : Ext) (e : RunEnv) (fs : FS) (buf : list N) (path filename : str) (symbol_server : option str) : FS * res Obj :=
  match servers <- get_sym_servers (ex_os x) fs (ex_home x) symbol_server ;; get_pe_pdb_buf x fs path buf servers with
  | Ok (Some (pe, pdb_buf, pdb_name), fs') =>
      (fs', match ps_pdb (ex_ps x) pdb_buf with
            | Some pdb => from_pdb e pdb pdb_name (Some filename) (Some pe)
            | None => Err "pdb"
            end)
  | Ok (None, fs') => (fs', Err "No pdb file found")
  | Err m => (fs, Err m)
  | Panic m => (fs, Panic m)
  end.
(** /repo/src/dumper.rs:181-186 [get_pe_object_info]. *)
Definition get_pe_object_info (x : Ext) (e : RunEnv) (buf : list N) (filename : str) : res Obj :=
  match ps_pe (ex_ps x) buf with
  | Some pe => from_pe e filename pe
  | None => Panic "Unable to parse the PE file"
  end.

(** *** Dispatch *)
(** /repo/src/dumper.rs:302-337 [get_object_info], with the file system after
    it: a PDB may have been downloaded into a cache. What a panic leaves on the
    disk is in M_Left. *)
Definition get_object_info (x : Ext) (e : RunEnv) (fs : FS) (buf : list N) (path filename : str) (arch : N) (symbol_server : option str) : FS * res Obj :=
  match ps_peek (ex_ps x) buf with
  | FmtElf => (fs, from_elf (ex_ps x) e buf filename)
  | FmtPdb => (fs, get_pdb_object_info x e fs buf path filename)
  | FmtPe =>
      match get_pe_pdb_object_info x e fs buf path filename symbol_server with
      | (fs', Err _) => (fs', get_pe_object_info x e buf filename)
      | r => r
      end
  | FmtMachO => (fs, from_macho (ex_ps x) e buf filename arch)
  | FmtOther => (fs, Err "Unknown file format")
  end.

(** *** One file *)
(** What of /repo/src/dumper.rs:77-91 [Config] matters here. [cf_arch] is
    [Arch::from_str] of the architecture; [cf_map] the outcome of
    [PathMappings::new] (modelled in M_Mapping). *)
Record Config := mkConfig {
  cf_output : Output;
  cf_symbol_server : option str;
  cf_debug_id : option str;
  cf_code_id : option str;
  cf_arch : option N;
  cf_check_cfi : bool;
  cf_inlines : bool;
  cf_map : res (str -> res (option str))
}.
Definition set_map (e : RunEnv) (m : str -> res (option str)) (inl : bool) : RunEnv :=
  mkRunEnv (re_ck e) (re_host e) (re_canon e) m (re_dm e) inl (re_sort e).
(** /repo/src/dumper.rs:248-265 [get_from_id]. *)
Definition get_from_id (x : Ext) (cf : Config) (fs : FS) (path filename : str) : FS * res (list N) :=
  match (match cf_debug_id cf with Some i => Some i | None => cf_code_id cf end) with
  | Some id =>
      match servers <- get_sym_servers (ex_os x) fs (ex_home x) (cf_symbol_server cf) ;; search_file (ex_env x) (ex_net x) (ex_sched x) fs filename id servers with
      | Ok l => (lk_fs l, match lk_data l with Some d => Ok d | None => Err "Impossible to get file" end)
      | Err m => (fs, Err m)
      | Panic m => (fs, Panic m)
      end
  | None => (fs, read_file (ex_os x) (ex_cab x) fs path)
  end.
Definition next {A B} (r : FS * res A) (f : FS -> A -> FS * res B) : FS * res B :=
  match r with (fs, Ok a) => f fs a | (fs, Err m) => (fs, Err m) | (fs, Panic m) => (fs, Panic m) end.
(** /repo/src/dumper.rs:276-300 [single_file] up to the storing. *)
Definition load_file (x : Ext) (e : RunEnv) (cf : Config) (fs : FS) (file : str) : FS * res Obj :=
  next (fs, get_filename file) (fun fs name =>
  next (get_from_id x cf fs file name) (fun fs buf =>
  next (fs, cf_map cf) (fun fs m =>
  match cf_arch cf with
  | None => (fs, Err "arch")
  | Some arch => get_object_info x (set_map e m (cf_inlines cf)) fs buf file name arch (cf_symbol_server cf)
  end))).
(** /repo/src/dumper.rs:276-300 [single_file]. *)
Definition single_file (x : Ext) (e : RunEnv) (extra : list str) (cf : Config) (w : World) (file : str) : World * res unit :=
  match load_file x e cf (w_fs w) file with
  | (fs, Ok o) => store (ex_os x) extra (cf_output cf) (cf_check_cfi cf) o (set_fs w fs)
  | (fs, Err m) => (set_fs w fs, Err m)
  | (fs, Panic m) => (set_fs w fs, Panic m)
  end.
(** /repo/src/action.rs:33-39, 46-55: listing the architectures of the files;
    what was printed before a failure stays. *)
Fixpoint list_arch (x : Ext) (arch_name : N -> str) (fs : FS) (files : list str) : str * res unit :=
  match files with
  | [] => ([], Ok tt)
  | f :: t =>
      match (n <- get_filename f ;; buf <- read_file (ex_os x) (ex_cab x) fs f ;; print_macho_architectures (ex_ps x) arch_name buf n) with
      | Ok text => let '(out, r) := list_arch x arch_name fs t in (text ++ out, r)
      | Err m => ([], Err m)
      | Panic m => ([], Panic m)
      end
  end.
