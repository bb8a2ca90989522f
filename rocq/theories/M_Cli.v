(** Model of /repo/src/main.rs: from the command line to the action. *)
From Verif Require Import Base Str Utf8 Regex M_Fs M_Store M_Object M_Input.

(** The values taken from the command line (/repo/src/main.rs:21-138; M_Args
    has the parsing). *)
Record Args := mkArgs {
  ar_files : list str;
  ar_output : option str;
  ar_store : option str;
  ar_verbose : str;
  ar_jobs : str;
  ar_list_arch : bool;
  ar_extra : list str;
  ar_no_generator : bool
}.
Inductive Level := LOff | LError | LWarn | LInfo | LDebug | LTrace.
(** /repo/src/main.rs:143-150. *)
Definition verbosity (s : str) : Level :=
  if str_eqb s (lit "off") then LOff
  else if str_eqb s (lit "warn") then LWarn
  else if str_eqb s (lit "info") then LInfo
  else if str_eqb s (lit "debug") then LDebug
  else if str_eqb s (lit "trace") then LTrace
  else LError.
(** /repo/src/main.rs:216-224. *)
Definition select_output (output store : option str) : Output :=
  match output, store with
  | Some out, Some dir => OBoth (file_output out) dir
  | Some out, None => OFile (file_output out)
  | None, Some dir => OStore dir
  | None, None => OFile FStdout
  end.
(** /repo/src/main.rs:203-211, on a 64-bit host. *)
Definition num_jobs (cpus : N) (s : str) : N :=
  match parse_unsigned (2 ^ 64) s with Some n => n | None => cpus end.
Definition is_keyword_char (c : N) : bool := ((65 <=? c) && (c <=? 90)) || (c =? 95).
(** /repo/src/main.rs:253: [^[A-Z_]+ .*], which need not reach the end of the
    text. *)
Definition info_line : re := Cat (plus (Cls is_keyword_char)) (Cat (rlit (lit " ")) (Star (Cls (fun c => negb (c =? 10))))).
Definition info_line_match (s : str) : bool := rmatch (Cat info_line (Star (Cls (fun _ => true)))) s.
(** /repo/src/main.rs:252-277 [get_extra_info]. *)
Definition get_extra_info (version : str) (extra : list str) (no_generator : bool) : res (list str) :=
  if forallb info_line_match extra then
    Ok (extra ++ (if no_generator then [] else [lit "GENERATOR mozilla/dump_syms " ++ version]))
  else Panic "Extra INFO line format is invalid".
(** /repo/src/action.rs:15-18. *)
Inductive Act := ActList | ActDump (out : Output) (jobs : N).
(** /repo/src/main.rs:140-240: INFO lines, action and log level. *)
Definition plan (version : str) (cpus : N) (a : Args) : res (list str * Act * Level) :=
  info <- get_extra_info version (ar_extra a) (ar_no_generator a) ;;
  Ok (info, if ar_list_arch a then ActList else ActDump (select_output (ar_output a) (ar_store a)) (num_jobs cpus (ar_jobs a)), verbosity (ar_verbose a)).
(** /repo/src/main.rs:242-245: exit status of the process; 101 is Rust's after
    a panic of the main thread. *)
Definition exit_code (r : res unit) : N := match r with Ok _ => 0 | Err _ => 1 | Panic _ => 101 end.
(** /repo/src/main.rs:140-246 and /repo/src/action.rs:21-40 for one file: the
    world afterwards and the exit status. [cfg] has the arguments passed on to
    the dumper. The message printed on standard error for an error is left out. *)
Definition main_one (version : str) (cpus : N) (x : Ext) (e : RunEnv) (arch_name : N -> str) (cfg : Output -> Config) (a : Args) (w : World) (file : str) : World * N :=
  match plan version cpus a with
  | Ok (info, ActList, _) =>
      let '(text, r) := list_arch x arch_name (w_fs w) [file] in
      (mkWorld (w_fs w) (w_out w ++ encode text) (w_err w), exit_code r)
  | Ok (info, ActDump out _, _) => let '(w', r) := single_file x e info (cfg out) w file in (w', exit_code r)
  | Err m => (w, exit_code (Err m))
  | Panic m => (w, exit_code (Panic m))
  end.
