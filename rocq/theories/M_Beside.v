(** Lookups on symbol servers made by several workers at the same time
    (/repo/src/cache.rs:118-290, called by the workers of /repo/src/dumper.rs:388-453
    while they process files), operation by operation. *)
From Verif Require Import Base Str Utf8 M_Path M_Source M_Fs M_Cache M_Store M_Input M_Sched M_Cli M_Many M_Shared.

(** A file that is looked up; [rq_sched] is the order in which the probes of this
    lookup end. *)
Record Req := mkReq { rq_name : str; rq_id : str; rq_sched : list CJob -> list CJob }.
(** Where a lookup is. *)
Inductive Seek :=
| KLook (rest : list SymbolServer)                           (* caches still to be looked at *)
| KRead (p : str)                                            (* found in a cache *)
| KAsk                                                       (* found in none *)
| KParent (p : str) (buf : list N)                           (* downloaded, to be kept at [p] *)
| KDirs (p d : str) (buf : list N)                           (* directory [d] was not there *)
| KCreate (p : str) (buf : list N)
| KWrite (p : str) (off : N) (rest : list (list N)) (buf : list N)
| KDone (r : res (option (list N))).
(** /repo/src/cache.rs:282-286. *)
Definition unpack (e : CEnv) (name : str) (buf : list N) : res (option (list N)) :=
  r <- read_cabinet (ce_cab e) buf name ;;
  match r with Some d => Ok (Some d) | None => Panic "Unable to read the file from the server" end.
(** /repo/src/cache.rs:232-242, 118-126 and 197-230: the answers of the network,
    for which the file system does not matter. *)
Definition ask (e : CEnv) (n : Net) (sv : list SymbolServer) (r : Req) : Seek :=
  match get_jobs e sv (rq_id r) (get_base (rq_name r)) (rq_name r) with
  | Err m => KDone (Err m)
  | Panic m => KDone (Panic m)
  | Ok jobs =>
      match check_data n (rq_sched r jobs) with
      | None => KDone (Ok None)
      | Some j =>
          match nt_get n (cj_url j) with
          | None | Some [] => KDone (Ok None)
          | Some buf =>
              if starts_with not_found buf then KDone (Ok None)
              else match cj_cache j with None => KDone (unpack e (rq_name r) buf) | Some p => KParent p buf end
          end
      end
  end.
(** One operation of a lookup: [Path::exists], reading a file (one step), the
    network, [create_dir_all], [File::create], a write at the position of the
    handle. [cut] says in which pieces [write_all] writes the data; the
    [BufWriter] hands data on that does not fit its buffer or writes it when it is
    dropped. The disk is not full. *)
Definition seek_step (e : CEnv) (n : Net) (cut : list N -> list (list N)) (sv : list SymbolServer) (r : Req) (fs : FS) (k : Seek) : option (FS * Seek) :=
  let os := ce_os e in
  match k with
  | KLook [] => Some (fs, KAsk)
  | KLook (s :: t) =>
      Some (fs, match sv_cache s with
                | Some c => let p := entry_path c (get_base (rq_name r)) (rq_id r) (rq_name r) in if path_exists os fs p then KRead p else KLook t
                | None => KLook t
                end)
  | KRead p => Some (fs, KDone (d <- read_file os (ce_cab e) fs p ;; Ok (Some d)))
  | KAsk => Some (fs, ask e n sv r)
  | KParent p buf =>
      Some (fs, match path_parent p with Some d => if path_exists os fs d then KCreate p buf else KDirs p d buf | None => KCreate p buf end)
  | KDirs p d buf =>
      Some (match create_dir_all os fs d with Some fs1 => (fs1, KCreate p buf) | None => (fs, KDone (Panic "Unable to create cache directory")) end)
  | KCreate p buf =>
      Some (match file_create os fs p with Some fs1 => (fs1, KWrite p 0 (cut buf) buf) | None => (fs, KDone (Panic "Cannot open file for writing")) end)
  | KWrite p off [] buf => Some (fs, KDone (unpack e (rq_name r) buf))
  | KWrite p off (c :: t) buf =>
      let l := locate (os_cwd os) p in
      Some (match fs_get fs l with Some (NFile old) => fs_set fs l (NFile (write_at off c old)) | _ => fs end, KWrite p (off + lenN c) t buf)
  | KDone _ => None
  end.
(** Lookups that go on in any order. *)
Inductive sought (e : CEnv) (n : Net) (cut : list N -> list (list N)) (sv : list SymbolServer) (fs0 : FS) (rs : list Req) : FS -> list (Req * Seek) -> Prop :=
| sought_start : sought e n cut sv fs0 rs fs0 (map (fun r => (r, KLook sv)) rs)
| sought_step fs a r k b fs' k' : sought e n cut sv fs0 rs fs (a ++ (r, k) :: b) -> seek_step e n cut sv r fs k = Some (fs', k') ->
    sought e n cut sv fs0 rs fs' (a ++ (r, k') :: b).
