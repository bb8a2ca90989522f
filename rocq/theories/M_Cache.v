(** Symbol servers and their caches (src/cache.rs). *)
From Verif Require Import Base Str Utf8 M_Path M_Source M_Fs.

(** /repo/src/cache.rs:22-26 [SymbolServer]. *)
Record SymbolServer := mkServer { sv_cache : option str; sv_server : str }.
(** /repo/src/cache.rs:28-32 [Job]. *)
Record CJob := mkCJob { cj_cache : option str; cj_url : str }.
(** /repo/src/cache.rs:19. *)
Definition default_store : str := lit "https://msdl.microsoft.com/download/symbols".

(** /repo/src/cache.rs:41-51 [correct_path]; [home] is [home_dir()], which is
    assumed to be UTF-8. *)
Definition correct_path (home : option str) (path : str) : str :=
  match home with
  | None => path
  | Some h => match strip_prefix (lit "~") path with Some t => h ++ t | None => path end
  end.
Definition is_star (c : N) : bool := c =? 42.
(** /repo/src/cache.rs:53-76 [parse_srv]. Lower-casing is ASCII only: no other
    character becomes one of "srv". *)
Definition parse_srv (home : option str) (path : str) : option SymbolServer :=
  match map trim (split_on is_star path) with
  | [] => None
  | p0 :: rest =>
      if str_eqb (to_lower p0) (lit "srv") then
        match rest with
        | [] => Some (mkServer None default_store)
        | [s] => Some (mkServer None s)
        | [c; s] => Some (mkServer (Some (correct_path home c)) s)
        | _ => None
        end
      else None
  end.
Definition is_entry_sep (c : N) : bool := (c =? 59) || (c =? 10).
Fixpoint filter_map {A B} (f : A -> option B) (l : list A) : list B :=
  match l with [] => [] | x :: t => match f x with Some y => y :: filter_map f t | None => filter_map f t end end.
(** /repo/src/cache.rs:78-80 [parse_sympath]. *)
Definition parse_sympath (home : option str) (path : str) : list SymbolServer :=
  filter_map (parse_srv home) (split_on is_entry_sep path).
(** /repo/src/cache.rs:105-112 [read_config_from_str]. *)
Definition read_config_from_str (home : option str) (s : str) : option (list SymbolServer) :=
  match parse_sympath home s with [] => None | l => Some l end.
(** /repo/src/cache.rs:82-103 [read_config]. A file that is there can be opened
    and read (on Unix a directory can be opened, but not read). *)
Definition read_config (os : Os) (fs : FS) (home : option str) : res (option (list SymbolServer)) :=
  match home with
  | None => Ok None
  | Some h =>
      match fs_get fs (locate (os_cwd os) (path_push (path_push h (lit ".dump_syms")) (lit "config"))) with
      | None => Ok None
      | Some NDir => Panic "Unable to read the file"
      | Some (NFile d) => match decode d with Some s => Ok (read_config_from_str home s) | None => Panic "Not utf-8 data in the file" end
      end
  end.
(** /repo/src/cache.rs:114-116 [get_sym_servers]. *)
Definition get_sym_servers (os : Os) (fs : FS) (home arg : option str) : res (option (list SymbolServer)) :=
  match arg with Some s => Ok (read_config_from_str home s) | None => read_config os fs home end.

(** *** Looking up a file *)
(** The network: status of a HEAD request (None: no answer) and body of a GET
    request (None: it could not be received). The status of the GET answer is
    not looked at by the program. *)
Record Net := mkNet { nt_head : str -> option N; nt_get : str -> option (list N) }.
(** Everything outside: operating system, archives, URL syntax. *)
Record CEnv := mkCEnv { ce_os : Os; ce_cab : list N -> option Cab; ce_url : str -> bool }.

(** /repo/src/cache.rs:157, 171: where a cache keeps a file. *)
Definition entry_path (cache base id file_name : str) : str :=
  path_push (path_push (path_push cache base) id) file_name.
(** /repo/src/cache.rs:149-162 [search_in_cache]. *)
Fixpoint search_in_cache (e : CEnv) (fs : FS) (servers : list SymbolServer) (id base file_name : str) : option str :=
  match servers with
  | [] => None
  | s :: t =>
      match sv_cache s with
      | Some c => let p := entry_path c base id file_name in
                  if path_exists (ce_os e) fs p then Some p else search_in_cache e fs t id base file_name
      | None => search_in_cache e fs t id base file_name
      end
  end.
(** /repo/src/cache.rs:34-39 [Job::new] with the caller's panic. *)
Definition job_new (e : CEnv) (cache : option str) (url : str) : res CJob :=
  if ce_url e url then Ok (mkCJob cache url) else Panic "Invalid url".
(** [&s[..s.len() - 1]]: all but the last byte, which panics inside a
    character or on the empty string. *)
Definition drop_last_byte (s : str) : res str :=
  match rev s with
  | c :: t => if utf8_len c =? 1 then Ok (rev t) else Panic "byte index is not a char boundary"
  | [] => Panic "attempt to subtract with overflow"
  end.
Definition slashed (a b c d : str) : str := a ++ lit "/" ++ b ++ lit "/" ++ c ++ lit "/" ++ d.
(** /repo/src/cache.rs:164-195 [get_jobs]. *)
Fixpoint get_jobs (e : CEnv) (servers : list SymbolServer) (id base file_name : str) : res (list CJob) :=
  match servers with
  | [] => Ok []
  | s :: t =>
      let path := option_map (fun c => entry_path c base id file_name) (sv_cache s) in
      j1 <- job_new e path (slashed (sv_server s) file_name id file_name) ;;
      js <- (if ends_with_char 95 file_name then Ok [j1]
             else short <- drop_last_byte file_name ;;
                  j2 <- job_new e path (slashed (sv_server s) file_name id (short ++ lit "_")) ;;
                  Ok [j1; j2]) ;;
      rest <- get_jobs e t id base file_name ;;
      Ok (js ++ rest)
  end.
(** /repo/src/cache.rs:197-230 [check_if_file_exists], [check_data]: the probes
    run concurrently; [done] lists the jobs in the order their probes end. *)
Definition check_data (n : Net) (done : list CJob) : option CJob :=
  match filter (fun j => match nt_head n (cj_url j) with Some s => s =? 200 | None => false end) done with
  | j :: _ => Some j
  | [] => None
  end.
Definition not_found : list N := lit "Symbol Not Found".
(** /repo/src/cache.rs:118-147 [copy_in_cache]. *)
Definition copy_in_cache (e : CEnv) (fs : FS) (path : option str) (data : list N) : res (bool * FS) :=
  match data with
  | [] => Ok (false, fs)
  | _ =>
      if starts_with not_found data then Ok (false, fs)
      else match path with
      | None => Ok (true, fs)
      | Some p =>
          fs1 <- match path_parent p with
                 | Some parent =>
                     if path_exists (ce_os e) fs parent then Ok fs
                     else match create_dir_all (ce_os e) fs parent with
                          | Some f => Ok f
                          | None => Panic "Unable to create cache directory"
                          end
                 | None => Ok fs
                 end ;;
          match file_create (ce_os e) fs1 p with
          | None => Panic "Cannot open file for writing"
          | Some fs2 =>
              let '(fs3, ok) := buf_write (ce_os e) fs2 p [] data in
              if ok then Ok (true, fs3) else Panic "Cannot write file"
          end
      end
  end.
(** Result of a lookup: the data, the file system and the URLs downloaded. *)
Record Lookup := mkLookup { lk_data : option (list N); lk_fs : FS; lk_gets : list str }.
(** /repo/src/cache.rs:232-254 [fetch_data]. *)
Definition fetch_data (e : CEnv) (n : Net) (fs : FS) (done : list CJob) : res Lookup :=
  match check_data n done with
  | None => Ok (mkLookup None fs [])
  | Some j =>
      match nt_get n (cj_url j) with
      | None => Ok (mkLookup None fs [cj_url j])
      | Some buf =>
          ' r <- copy_in_cache e fs (cj_cache j) buf ;;
          let '(ok, fs1) := r in
          Ok (mkLookup (if ok : bool then Some buf else None) fs1 [cj_url j])
      end
  end.
(** /repo/src/cache.rs:256-290 [search_file]; [sched] is the order in which the
    probes end. *)
Definition search_file (e : CEnv) (n : Net) (sched : list CJob -> list CJob) (fs : FS) (file_name id : str) (servers : option (list SymbolServer)) : res Lookup :=
  match file_name, servers with
  | [], _ | _, None => Ok (mkLookup None fs [])
  | _, Some sv =>
      let base := get_base file_name in
      match search_in_cache e fs sv id base file_name with
      | Some path => d <- read_file (ce_os e) (ce_cab e) fs path ;; Ok (mkLookup (Some d) fs [])
      | None =>
          jobs <- get_jobs e sv id base file_name ;;
          l <- fetch_data e n fs (sched jobs) ;;
          match lk_data l with
          | None => Ok l
          | Some buf =>
              r <- read_cabinet (ce_cab e) buf file_name ;;
              match r with
              | Some d => Ok (mkLookup (Some d) (lk_fs l) (lk_gets l))
              | None => Panic "Unable to read the file from the server"
              end
          end
      end
  end.
