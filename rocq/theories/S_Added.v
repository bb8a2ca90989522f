(** Specification of what downloads leave behind. *)
From Verif Require Import Base Str Utf8 M_Path S_Path M_Source M_Symbol M_Object M_Fs M_Cache S_Cache M_Store M_Input.

(** The servers named by the argument or, without one, by the configuration file. *)
Definition named_servers (x : Ext) (arg : option str) (fs : FS) (sv : list SymbolServer) : Prop := exists s l,
  (arg = Some s \/ arg = None /\ exists h, ex_home x = Some h /\ fs_get fs (config_at (ex_os x) h) = Some (NFile (encode s)) /\ Forall scalar s) /\
  pieces entry_end s l /\ servers_of (ex_home x) l sv /\ sv <> [].
(** What is new is a file that one of the caches keeps, at base/id/name for names
    and ids in [W], or a directory above one; all else is as it was. *)
Definition added (os : Os) (sv : list SymbolServer) (W : str -> str -> Prop) (fs fs' : FS) : Prop := forall l,
  fs_get fs' l = fs_get fs l \/
  fs_get fs l = None /\ exists c name id, In c (caches sv) /\ W name id /\ proper name /\ proper id /\
    ((l = entry_loc os c (get_base name) id name /\ exists d, fs_get fs' l = Some (NFile d)) \/
     (fs_get fs' l = Some NDir /\ exists k, entry_loc os c (get_base name) id name = k ++ l /\ k <> [])).
(** Nothing changes or the servers that are named had something to give. *)
Definition kept_there (x : Ext) (arg : option str) (W : str -> str -> Prop) (fs fs' : FS) : Prop :=
  (forall l, fs_get fs' l = fs_get fs l) \/ exists sv, named_servers x arg fs sv /\ added (ex_os x) sv W fs fs'.
(** The debug ids of PE files are directory entries. *)
Definition proper_ids (x : Ext) : Prop := forall buf pe, ps_pe (ex_ps x) buf = Some pe -> proper (pa_debug_id (pf_obj pe)).
(** Name and id of a PDB that is recorded in a PE file. *)
Definition recorded_pdb (x : Ext) (n i : str) : Prop := exists buf pe recorded,
  ps_pe (ex_ps x) buf = Some pe /\ pf_pdb pe = Some recorded /\ path_file_name (unix_path recorded) = Some n /\ i = pa_debug_id (pf_obj pe).
(** What may be asked for when the file [f] is dumped: the file, by an id that is
    given, and a PDB. *)
Definition asked_for (x : Ext) (cf : Config) (f n i : str) : Prop :=
  (path_file_name f = Some n /\ (cf_debug_id cf = Some i \/ cf_debug_id cf = None /\ cf_code_id cf = Some i)) \/ recorded_pdb x n i.
