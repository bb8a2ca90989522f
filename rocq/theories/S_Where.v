(** Specification of where the source files of an object are looked for. *)
From Verif Require Import Base Str Utf8 M_Path M_Source M_Collector M_Object S_Path S_Collector.

(** The path of a location as the debug info gives it. *)
Inductive located (pl : Platform) (r : FileRef) : str -> Prop :=
| lo_absolute : sp_abs pl (fr_dir r) -> located pl r (join_paths pl (fr_dir r) (fr_name r))
| lo_alone : fr_cdir r = [] -> located pl r (join_paths pl (fr_dir r) (fr_name r))
| lo_below : ~ sp_abs pl (fr_dir r) -> fr_cdir r <> [] -> fr_dir r <> [] ->
    located pl r (join_paths pl (join_paths pl (path_to_string (fr_cdir r)) (fr_dir r)) (fr_name r))
| lo_unix : pl <> Win -> fr_cdir r <> [] -> fr_dir r = [] ->
    located pl r (join_paths pl (join_paths pl (path_to_string (fr_cdir r)) []) (fr_name r))
| lo_windows : pl = Win -> fr_dir r = [] -> located pl r (join_paths pl [] (fr_name r)).
(** DWARF in a PE file: an executable made with MinGW. *)
Definition mingw (main : Parsed) : Prop := pa_pe main = true /\ pa_debug_info main = true.
(** The source file is looked for on this machine. *)
Definition looked_for (e : RunEnv) (pl : Platform) (main : Parsed) : Prop := re_host e = pl /\ ~ mingw main.
(** Two machines agree on all there is to say about an object. *)
Definition agree_on (e e' : RunEnv) (pl : Platform) (main : Parsed) : Prop :=
  re_ck e' = re_ck e /\ re_dm e' = re_dm e /\ re_inl e' = re_inl e /\ re_sort e' = re_sort e /\
  forall fs r, pa_functions main = Some fs -> In r (flat_map fun_refs (readable fs)) ->
    env_path (ce_src (run_cenv e' pl main)) r = env_path (ce_src (run_cenv e pl main)) r /\
    re_map e' (env_path (ce_src (run_cenv e pl main)) r) = re_map e (env_path (ce_src (run_cenv e pl main)) r).
