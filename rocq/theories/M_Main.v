(** Model of the whole program, /repo/src/main.rs:140-246 with /repo/src/action.rs:20-44:
    from the arguments to the files written and the exit status. *)
From Verif Require Import Base Str Utf8 M_Source M_Object M_Fs M_Digest M_Store M_Input M_Mapping M_Cli M_Args M_Sched M_Many M_Shared.

(** The machine and what the libraries do on it. *)
Record Machine := mkMachine {
  ma_target : str;                                 (* architecture of the build *)
  ma_version : str;
  ma_cpus : N;
  ma_ext : Ext;
  ma_env : RunEnv;                                 (* without the path mapping and the inline switch *)
  ma_re_ok : str -> bool;                          (* [Regex::new] *)
  ma_caps : str -> str -> option (N -> option str);
  ma_order : Vars -> Vars;                         (* iteration over the variables *)
  ma_json : list N -> option RuleFile;
  ma_arch : str -> option N;                       (* [Arch::from_str] *)
  ma_arch_name : N -> str;
  ma_iter : list (str * N) -> list (str * N);      (* iteration over the source files *)
  ma_text : list str -> str                        (* text of [--help] and [--version] *)
}.
(** /repo/src/mapping.rs:31-37 [Mappings::new]. *)
Definition mapping_file (m : Machine) (fs : FS) (path : str) : res RuleFile :=
  data <- read (ex_os (ma_ext m)) fs path ;;
  match ma_json m data with Some f => Ok f | None => Err "json" end.
Definition map_env (m : Machine) (fs : FS) : MapEnv := mkMapEnv (ma_caps m) (get_digest (ex_os (ma_ext m)) fs).
(** /repo/src/dumper.rs:282-288, 456-462 and /repo/src/source.rs:112-125. The
    mapping file and the files whose digests are asked for are those at the
    start of the program. *)
Definition path_mapping (m : Machine) (fs : FS) (c : Cmd) : res (str -> res (option str)) :=
  og <- mappings_new (ma_re_ok m) (ma_order m) (cm_var c) (cm_src c) (cm_dest c) (option_map (mapping_file m fs) (cm_map_file c)) ;;
  Ok (match og with
      | None => fun _ => Ok None
      | Some gs => first_mapping (map_env m fs) gs
      end).
(** /repo/src/main.rs:226-239. *)
Definition config_of (m : Machine) (fs : FS) (c : Cmd) (out : Output) : Config :=
  mkConfig out (cm_server c) (cm_debug_id c) (cm_code_id c) (ma_arch m (cm_arch c)) (cm_check_cfi c) (cm_inlines c) (path_mapping m fs c).
(** /repo/src/dumper.rs:98-113 [Config::with_output]. *)
Definition with_output (m : Machine) (out : Output) : Config :=
  mkConfig out None None None (ma_arch m (compile_time_arch (ma_target m))) true true (Ok (fun _ => Ok None)).
(** /repo/src/dumper.rs:388-417 and 455-507: what the workers have. *)
Definition setup_of (m : Machine) (info : list str) (cf : Config) (map : str -> res (option str)) (arch : N) : Setup :=
  mkSetup (ma_ext m) (ma_env m) (ma_iter m) map arch (cf_inlines cf) info (cf_output cf) (cf_check_cfi cf).
(** /repo/src/dumper.rs:455-507 [several_files] and /repo/src/main.rs:242-245: the
    world when the main thread ends the process and the exit status; none for a
    run that does not end. *)
Inductive several_run (m : Machine) (info : list str) (cf : Config) (jobs : nat) (w : World) (files : list str) : World -> N -> Prop :=
| sv_map r : cf_map cf = r -> (forall p, r <> Ok p) -> several_run m info cf jobs w files w (exit_code (match r with Ok _ => Ok tt | Err s => Err s | Panic s => Panic s end))
| sv_arch p : cf_map cf = Ok p -> cf_arch cf = None -> several_run m info cf jobs w files w 1
| sv_done p a k : cf_map cf = Ok p -> cf_arch cf = Some a ->
    worked (setup_of m info cf p a) (Nat.min jobs (length files)) (work_start w jobs files) k -> s_main (k_threads k) = MDone ->
    several_run m info cf jobs w files (k_world k) (exit_code (Ok tt))
| sv_panic p a k : cf_map cf = Ok p -> cf_arch cf = Some a ->
    worked (setup_of m info cf p a) (Nat.min jobs (length files)) (work_start w jobs files) k -> s_main (k_threads k) = MPanic ->
    several_run m info cf jobs w files (k_world k) (exit_code (Panic "called `Result::unwrap()` on an `Err` value")).
(** The program: arguments, world before, world after and exit status. Messages
    are left out. clap ends the process with status 2 for a usage error and 0
    after [--help] and [--version]. *)
Inductive program (m : Machine) (argv : list str) (w : World) : World -> N -> Prop :=
| pr_usage : command (ma_target m) argv = Usage -> program m argv w w 2
| pr_shown : command (ma_target m) argv = Shown -> program m argv w (mkWorld (w_fs w) (w_out w ++ encode (ma_text m argv)) (w_err w)) 0
| pr_one c f w' n : command (ma_target m) argv = Got c -> ar_files (cm_args c) = [f] ->
    main_one (ma_version m) (ma_cpus m) (ma_ext m) (ma_env m) (ma_arch_name m) (config_of m (w_fs w) c) (cm_args c) w f = (w', n) -> program m argv w w' n
| pr_info c f g t s : command (ma_target m) argv = Got c -> ar_files (cm_args c) = f :: g :: t -> plan (ma_version m) (ma_cpus m) (cm_args c) = Panic s ->
    program m argv w w (exit_code (Panic s))
| pr_list c f g t info level w' n : command (ma_target m) argv = Got c -> ar_files (cm_args c) = f :: g :: t ->
    plan (ma_version m) (ma_cpus m) (cm_args c) = Ok (info, ActList, level) -> main_list (ma_ext m) (ma_arch_name m) w (f :: g :: t) = (w', n) -> program m argv w w' n
| pr_several c f g t info out jobs level w' n : command (ma_target m) argv = Got c -> ar_files (cm_args c) = f :: g :: t ->
    plan (ma_version m) (ma_cpus m) (cm_args c) = Ok (info, ActDump out jobs, level) ->
    several_run m info (config_of m (w_fs w) c out) (N.to_nat jobs) w (f :: g :: t) w' n -> program m argv w w' n.
