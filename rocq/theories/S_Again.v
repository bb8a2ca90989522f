(** Specification of dumping one file again. *)
From Verif Require Import Base Str Utf8 M_Path S_Path M_Source M_Symbol M_Object M_Fs S_Fs M_Cache S_Cache M_Store S_Store M_Input S_Input M_Shared S_Shared.

(** Where files are looked for when the file [f], which contains [d], is loaded:
    the file itself; for a PDB, PE files beside it; for a PE file, the PDB that is
    recorded in it. *)
Definition looked_at (x : Ext) (f : str) (d : list N) (l : Loc) : Prop :=
  let cwd := os_cwd (ex_os x) in let dir := tl (locate cwd f) in
  l = locate cwd f \/
  (ps_peek (ex_ps x) d = FmtPdb /\ exists n stem p, last_name f n /\ stem_of n stem /\ In p pe_exts /\ l = (stem ++ 46 :: fst p) :: dir) \/
  (ps_peek (ex_ps x) d = FmtPe /\ exists pe recorded r n stem, ps_pe (ex_ps x) d = Some pe /\ pf_pdb pe = Some recorded /\ slashed_path recorded r /\
     last_name r n /\ stem_of n stem /\ In l (map fst (pdb_places cwd dir r n (stem ++ lit ".pd_")))).
(** The same files at the places [P]. *)
Definition same_files (P : Loc -> Prop) (fs fs' : FS) : Prop := forall l d, P l -> fs_get fs' l = Some (NFile d) <-> fs_get fs l = Some (NFile d).
(** No symbol server is known and the file is asked for by its path. *)
Definition local_only (x : Ext) (cf : Config) (fs : FS) : Prop :=
  cf_debug_id cf = None /\ cf_code_id cf = None /\ cf_symbol_server cf = None /\
  forall h, ex_home x = Some h -> fs_get fs (config_at (ex_os x) h) = None.
(** The file is there; the path of a PDB that is recorded in it does not end with
    a slash or a dot. *)
Definition input_at (x : Ext) (fs : FS) (f : str) (d : list N) : Prop :=
  (exists n raw, last_name f n /\ fs_get fs (locate (os_cwd (ex_os x)) f) = Some (NFile raw) /\ unpacked (ex_cab x) raw n d) /\
  forall pe recorded r, ps_pe (ex_ps x) d = Some pe -> pf_pdb pe = Some recorded -> slashed_path recorded r -> nameless r \/ exists k, last_name r k.
(** Nothing is written where the program looks for files, and no directory of the
    store is where the configuration file would be. *)
Definition out_of_the_way (x : Ext) (out : Output) (f : str) (d : list N) (o : Obj) : Prop :=
  (forall l, file_target (ex_os x) out l \/ store_target (ex_os x) out o l -> ~ looked_at x f d l /\ forall h, ex_home x = Some h -> l <> config_at (ex_os x) h) /\
  (forall l h k, store_target (ex_os x) out o l -> ex_home x = Some h -> l <> k ++ config_at (ex_os x) h).
(** The same is added to the streams. *)
Definition same_output (w v v' : World) : Prop := exists t u,
  w_out v = w_out w ++ t /\ w_out v' = w_out v ++ t /\ w_err v = w_err w ++ u /\ w_err v' = w_err v ++ u.
