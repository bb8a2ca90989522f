(** Specification of the program on several files. *)
From Verif Require Import Base Str M_Object M_Fs M_Store M_Input M_Cli M_Args M_Main M_Shared S_Path S_Store S_Symbol S_Collector S_Many S_Shared S_Cli S_Main.

(** INFO lines: those asked for and, unless switched off, who made the file. *)
Definition info_of (m : Machine) (c : Cmd) : list str :=
  ar_extra (cm_args c) ++ (if ar_no_generator (cm_args c) then [] else [lit "GENERATOR mozilla/dump_syms " ++ ma_version m]).
(** What the workers have. *)
Definition used (m : Machine) (c : Cmd) (p : str -> res (option str)) (a : N) (out : Output) : Setup :=
  mkSetup (ma_ext m) (ma_env m) (ma_iter m) p a (cm_inlines c) (info_of m c) out (cm_check_cfi c).
(** The arguments ask for the symbols of at least two files, written to [out]; the
    architecture has a name and the rules can be read. *)
Definition asks_several (m : Machine) (argv : list str) (fs : FS) (c : Cmd) (p : str -> res (option str)) (a : N) (out : Output) : Prop :=
  command (ma_target m) argv = Got c /\ (2 <= length (ar_files (cm_args c)))%nat /\ ar_list_arch (cm_args c) = false /\ Forall info_text (ar_extra (cm_args c)) /\
  output_asked (ar_output (cm_args c)) (ar_store (cm_args c)) out /\ ma_arch m (cm_arch c) = Some a /\ path_mapping m fs c = Ok p.
(** The number of jobs: as asked for, else the number of processors. *)
Definition jobs_asked (m : Machine) (c : Cmd) (j : N) : Prop :=
  number (ar_jobs (cm_args c)) j \/ (forall n, ~ number (ar_jobs (cm_args c)) n) /\ j = ma_cpus m.
(** Every file gives a module. *)
Definition all_read (u : Setup) (files : list str) (fs0 : FS) : Prop :=
  forall f, In f files -> exists o, snd (u_job u fs0 f) = Ok o /\ (re_ck (u_env u) = false \/ ends_fit (ob_syms o)).
(** The same arguments for one of the files; neither ids nor symbol servers. *)
Definition same_but_one (c : Cmd) (f : str) (c1 : Cmd) : Prop :=
  ar_files (cm_args c1) = [f] /\ ar_output (cm_args c1) = ar_output (cm_args c) /\ ar_store (cm_args c1) = ar_store (cm_args c) /\
  ar_extra (cm_args c1) = ar_extra (cm_args c) /\ ar_no_generator (cm_args c1) = ar_no_generator (cm_args c) /\ ar_list_arch (cm_args c1) = ar_list_arch (cm_args c) /\
  cm_server c1 = None /\ cm_debug_id c1 = None /\ cm_code_id c1 = None /\ cm_arch c1 = cm_arch c /\ cm_check_cfi c1 = cm_check_cfi c /\ cm_inlines c1 = cm_inlines c /\
  cm_var c1 = cm_var c /\ cm_src c1 = cm_src c /\ cm_dest c1 = cm_dest c /\ cm_map_file c1 = cm_map_file c.
(** Nothing prevents module [d] from being written to all destinations. *)
Definition deliverable (u : Setup) (R : FS -> Prop) (d : Obj) : Prop :=
  proper (ob_name d) /\ proper (ob_debug_id d) /\ (exists text, fmt_object (u_extra u) d = Ok text) /\ (u_check u = true -> ob_stack d <> []) /\
  forall fs, R fs -> (forall l, file_target (u_os u) (u_out u) l -> room fs l) /\ (forall l, store_target (u_os u) (u_out u) d l -> room_below fs l) /\
    forall l t k, file_target (u_os u) (u_out u) l -> store_target (u_os u) (u_out u) d t -> t = k ++ l -> k = [].
(** All files have one debug id. *)
Definition one_id (u : Setup) (files : list str) (fs0 : FS) : Prop :=
  forall f g o o', In f files -> In g files -> snd (u_job u fs0 f) = Ok o -> snd (u_job u fs0 g) = Ok o' -> ob_debug_id o = ob_debug_id o'.
