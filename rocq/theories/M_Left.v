(** What is on the disk after a download, also one that panics on its way. *)
From Verif Require Import Base Str M_Path M_Source M_Symbol M_Object M_Fs M_Cache M_Store M_Input M_Sched M_Many M_Shared.

(** [fs::create_dir_all] (/repo/src/cache.rs:130): the directories made before one
    cannot be made stay. *)
Fixpoint mkdirs_left (os : Os) (fs : FS) (l : Loc) : FS :=
  match l with
  | [] => fs
  | _ :: up =>
      match fs_get fs l with
      | Some _ => fs
      | None =>
          match mkdirs os fs up with
          | Some fs1 => if os_may os l then fs_set fs1 l NDir else fs1
          | None => mkdirs_left os fs up
          end
      end
  end.
(** /repo/src/cache.rs:118-147 [copy_in_cache]; what of the data the disk took
    stays there. *)
Definition copy_left (e : CEnv) (fs : FS) (path : option str) (data : list N) : FS :=
  match data with
  | [] => fs
  | _ =>
      if starts_with not_found data then fs
      else match path with
      | None => fs
      | Some p =>
          let '(fs1, made) :=
            match path_parent p with
            | Some parent =>
                if path_exists (ce_os e) fs parent then (fs, true)
                else match create_dir_all (ce_os e) fs parent with
                     | Some f => (f, true)
                     | None => (mkdirs_left (ce_os e) fs (locate (os_cwd (ce_os e)) parent), false)
                     end
            | None => (fs, true)
            end in
          if made : bool then
            match file_create (ce_os e) fs1 p with
            | None => fs1
            | Some fs2 => fst (buf_write (ce_os e) fs2 p [] data)
            end
          else fs1
      end
  end.
(** /repo/src/cache.rs:256-290 [search_file], with 232-254 [fetch_data]: the data
    is unpacked when it is in the cache already. *)
Definition search_left (e : CEnv) (n : Net) (sched : list CJob -> list CJob) (fs : FS) (file_name id : str) (servers : option (list SymbolServer)) : FS :=
  match file_name, servers with
  | [], _ | _, None => fs
  | _, Some sv =>
      let base := get_base file_name in
      match search_in_cache e fs sv id base file_name with
      | Some _ => fs
      | None =>
          match get_jobs e sv id base file_name with
          | Ok jobs =>
              match check_data n (sched jobs) with
              | None => fs
              | Some j => match nt_get n (cj_url j) with None => fs | Some buf => copy_left e fs (cj_cache j) buf end
              end
          | _ => fs
          end
      end
  end.
(** /repo/src/dumper.rs:141-169, 302-337: a PDB is looked for when the file is a PE
    file that records one (/repo/src/windows/utils.rs:51-80). *)
Definition info_left (x : Ext) (fs : FS) (buf : list N) (path : str) (symbol_server : option str) : FS :=
  match ps_peek (ex_ps x) buf, get_sym_servers (ex_os x) fs (ex_home x) symbol_server, ps_pe (ex_ps x) buf with
  | FmtPe, Ok servers, Some pe =>
      match pf_pdb pe with
      | None => fs
      | Some f =>
          match os_specific_try_to_find_pdb (ex_os x) (ex_cab x) fs path f with
          | Ok (None, name) => search_left (ex_env x) (ex_net x) (ex_sched x) fs name (pa_debug_id (pf_obj pe)) servers
          | _ => fs
          end
      end
  | _, _, _ => fs
  end.
(** /repo/src/dumper.rs:248-265 [get_from_id]. *)
Definition id_left (x : Ext) (cf : Config) (fs : FS) (filename : str) : FS :=
  match (match cf_debug_id cf with Some i => Some i | None => cf_code_id cf end) with
  | Some id =>
      match get_sym_servers (ex_os x) fs (ex_home x) (cf_symbol_server cf) with
      | Ok servers => search_left (ex_env x) (ex_net x) (ex_sched x) fs filename id servers
      | _ => fs
      end
  | None => fs
  end.
(** /repo/src/dumper.rs:276-300 [single_file] up to the storing. *)
Definition load_left (x : Ext) (cf : Config) (fs : FS) (file : str) : FS :=
  match get_filename file with
  | Ok name =>
      match snd (get_from_id x cf fs file name), cf_map cf, cf_arch cf with
      | Ok buf, Ok _, Some _ => info_left x (id_left x cf fs name) buf file (cf_symbol_server cf)
      | _, _, _ => id_left x cf fs name
      end
  | _ => fs
  end.
(** /repo/src/dumper.rs:276-300 [single_file]: nothing is stored after a panic. *)
Definition single_left (x : Ext) (e : RunEnv) (extra : list str) (cf : Config) (w : World) (file : str) : World :=
  match snd (load_file x e cf (w_fs w) file) with
  | Panic _ => set_fs w (load_left x cf (w_fs w) file)
  | _ => fst (single_file x e extra cf w file)
  end.
(** /repo/src/dumper.rs:410-417: one of several files. *)
Definition job_left (u : Setup) (fs : FS) (file : str) : FS :=
  match get_filename file, read_file (ex_os (u_ext u)) (ex_cab (u_ext u)) fs file with
  | Ok _, Ok buf => info_left (u_ext u) fs buf file None
  | _, _ => fs
  end.
