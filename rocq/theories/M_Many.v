(** The program on several files: what [several_files] does with each file, and
    how it ends. *)
From Verif Require Import Base Str Utf8 M_Path M_Source M_Symbol M_Collector M_Object M_Fs M_Cache M_Store M_Input M_Sched M_Cli.

(** The system of M_Sched on [ObjectInfo]: debug ids and merging are those of
    /repo/src/object_info.rs:202-292; processing a file ([proc]) and storing
    ([st]) are parameters. *)
Definition dump_sys (ck : bool) (iter : list (str * N) -> list (str * N)) (proc : str -> res Obj) (st : Obj -> res unit -> Prop) : Sys Obj :=
  mkSys proc ob_debug_id (merge_objects ck iter) st.
(** /repo/src/dumper.rs:410-417: a worker reads and processes a file. Ids and
    the symbol server of the command line are not used. *)
Definition get_job (x : Ext) (e : RunEnv) (m : str -> res (option str)) (arch : N) (inl : bool) (fs : FS) (file : str) : FS * res Obj :=
  next (fs, get_filename file) (fun fs name =>
  next (fs, read_file (ex_os x) (ex_cab x) fs file) (fun fs buf =>
  get_object_info x (set_map e m inl) fs buf file name arch None)).
(** Every file is processed as if the others did not download anything; nothing
    is stored before all of them are processed (C46). *)
Definition several_sys (x : Ext) (e : RunEnv) (iter : list (str * N) -> list (str * N)) (m : str -> res (option str)) (arch : N) (inl : bool) (fs : FS)
    (st : Obj -> res unit -> Prop) : Sys Obj :=
  dump_sys (re_ck e) iter (fun f => snd (get_job x e m arch inl fs f)) st.
(** /repo/src/dumper.rs:455-507 [several_files] and /repo/src/main.rs:242-245: the
    possible exit status; none for a run that does not end. *)
Inductive several_exit (x : Ext) (e : RunEnv) (iter : list (str * N) -> list (str * N)) (cf : Config) (jobs : nat) (fs : FS) (files : list str)
    (st : Obj -> res unit -> Prop) : N -> Prop :=
| se_map r : cf_map cf = r -> (forall m, r <> Ok m) -> several_exit x e iter cf jobs fs files st (exit_code (match r with Ok _ => Ok tt | Err s => Err s | Panic s => Panic s end))
| se_arch m : cf_map cf = Ok m -> cf_arch cf = None -> several_exit x e iter cf jobs fs files st 1
| se_done m a s : cf_map cf = Ok m -> cf_arch cf = Some a ->
    reach (several_sys x e iter m a (cf_inlines cf) fs st) (Nat.min jobs (length files)) (start jobs files) s -> s_main s = MDone ->
    several_exit x e iter cf jobs fs files st (exit_code (Ok tt))
| se_panic m a s : cf_map cf = Ok m -> cf_arch cf = Some a ->
    reach (several_sys x e iter m a (cf_inlines cf) fs st) (Nat.min jobs (length files)) (start jobs files) s -> s_main s = MPanic ->
    several_exit x e iter cf jobs fs files st (exit_code (Panic "called `Result::unwrap()` on an `Err` value")).
(** /repo/src/main.rs:242-245 and /repo/src/action.rs:21-56 with [--list-arch], for any
    number of files: the world afterwards and the exit status. *)
Definition main_list (x : Ext) (arch_name : N -> str) (w : World) (files : list str) : World * N :=
  let '(text, r) := list_arch x arch_name (w_fs w) files in (mkWorld (w_fs w) (w_out w ++ encode text) (w_err w), exit_code r).
