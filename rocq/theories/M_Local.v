(** Model of /repo/src/dumper.rs in a build without the feature "http". *)
From Verif Require Import Base Str M_Path M_Object M_Fs M_Store M_Input M_Args M_Cli.

(** /repo/src/dumper.rs:170-178 [get_pe_pdb_object_info] without "http". *)
Definition get_pe_pdb_object_info_local : res Obj := Err "HTTP symbol retrieval not enabled".
(** /repo/src/dumper.rs:302-337 [get_object_info] with it. *)
Definition get_object_info_local (x : Ext) (e : RunEnv) (fs : FS) (buf : list N) (path filename : str) (arch : N) : res Obj :=
  match ps_peek (ex_ps x) buf with
  | FmtElf => from_elf (ex_ps x) e buf filename
  | FmtPdb => get_pdb_object_info x e fs buf path filename
  | FmtPe =>
      match get_pe_pdb_object_info_local with
      | Err _ => get_pe_object_info x e buf filename
      | r => r
      end
  | FmtMachO => from_macho (ex_ps x) e buf filename arch
  | FmtOther => Err "Unknown file format"
  end.
(** /repo/src/dumper.rs:267-274 [get_from_id] without "http": the file is read. *)
Definition get_from_id_local (x : Ext) (fs : FS) (path : str) : res (list N) := read_file (ex_os x) (ex_cab x) fs path.
(** /repo/src/dumper.rs:276-300 [single_file] in this build. *)
Definition load_file_local (x : Ext) (e : RunEnv) (cf : Config) (fs : FS) (file : str) : res Obj :=
  name <- get_filename file ;;
  buf <- get_from_id_local x fs file ;;
  m <- cf_map cf ;;
  match cf_arch cf with
  | None => Err "arch"
  | Some arch => get_object_info_local x (set_map e m (cf_inlines cf)) fs buf file name arch
  end.
Definition single_file_local (x : Ext) (e : RunEnv) (extra : list str) (cf : Config) (w : World) (file : str) : World * res unit :=
  match load_file_local x e cf (w_fs w) file with
  | Ok o => store (ex_os x) extra (cf_output cf) (cf_check_cfi cf) o w
  | Err m => (w, Err m)
  | Panic m => (w, Panic m)
  end.
