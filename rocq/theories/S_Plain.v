(** Specification of a simple setting for several files. *)
From Verif Require Import Base Str M_Symbol M_Object M_Fs M_Cache M_Store M_Input S_Path S_Fs S_Cache S_Format.

(** No configuration file names symbol servers. *)
Definition no_servers (x : Ext) (fs : FS) : Prop := forall h, ex_home x = Some h -> fs_get fs (config_at (ex_os x) h) = None.
(** There is nothing below the directory of the store, and neither it nor
    anything above it is a file. *)
Definition new_store (os : Os) (dir : str) (fs : FS) : Prop :=
  (forall k, k <> [] -> fs_get fs (k ++ locate (os_cwd os) dir) = None) /\
  (forall k up d, locate (os_cwd os) dir = k ++ up -> fs_get fs up <> Some (NFile d)).
(** A module whose texts keep to one line or one word where the format asks for
    it, whose name and debug id are names of directory entries; with CFI if that is
    asked for. *)
Definition plain_module (check : bool) (ls : list str) (o : Obj) : Prop :=
  proper (ob_name o) /\ proper (ob_debug_id o) /\ clean_head o /\ clean_names o /\ stack_lines (ob_stack o) ls /\ (check = true -> ob_stack o <> []).
