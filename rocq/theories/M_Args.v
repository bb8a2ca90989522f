(** Model of /repo/src/main.rs:21-138, 184-201: the command line. clap is
    modelled by hand after its documentation, for what [cli] uses of it. *)
From Verif Require Import Base Str M_Source M_Fs M_Store M_Object M_Input M_Mapping M_Cli.

(** *** The options *)
(** Options with a value and switches (/repo/src/main.rs:33-138). *)
Inductive Opt := AOutput | AStore | ADebugId | ACodeId | AServer | AVerbose | AArch | AType | AJobs | AVar | ASrc | ADest | AMapFile | AExtra.
Inductive Switch := WCfi | WList | WInlines | WNoGen.
Scheme Equality for Opt.
Scheme Equality for Switch.
(** [.long(...)]. *)
Definition long_opts : list (str * Opt) :=
  [(lit "output", AOutput); (lit "store", AStore); (lit "debug-id", ADebugId); (lit "code-id", ACodeId); (lit "symbol-server", AServer); (lit "verbose", AVerbose);
   (lit "arch", AArch); (lit "type", AType); (lit "mapping-var", AVar); (lit "mapping-src", ASrc); (lit "mapping-dest", ADest); (lit "mapping-file", AMapFile); (lit "extra-info", AExtra)].
Definition long_switches : list (str * Switch) :=
  [(lit "check-cfi", WCfi); (lit "list-arch", WList); (lit "inlines", WInlines); (lit "no-generator", WNoGen)].
(** [.short(...)]. *)
Definition short_opt (c : N) : option Opt :=
  if c =? 111 then Some AOutput else if c =? 115 then Some AStore else if c =? 97 then Some AArch else if c =? 116 then Some AType else if c =? 106 then Some AJobs else None.
(** [ArgAction::Append]; the others may be given once. *)
Definition appends (o : Opt) : bool := match o with AVar | ASrc | ADest | AExtra => true | _ => false end.

(** *** clap *)
(** What an argument list stands for: values, a usage error, or the text of
    [--help] or [--version]. *)
Inductive Ev := EFile (t : str) | EOpt (o : Opt) (v : str) | ESwitch (w : Switch).
Inductive Out (A : Type) := Got (a : A) | Usage | Shown.
Arguments Got {A}. Arguments Usage {A}. Arguments Shown {A}.
Definition cons_out (e : Ev) (r : Out (list Ev)) : Out (list Ev) := match r with Got l => Got (e :: l) | Usage => Usage | Shown => Shown end.
(** An argument that is taken for an option. *)
Definition dashed (t : str) : bool := match t with c :: _ :: _ => c =? 45 | _ => false end.
Definition is_help (n : str) : bool := str_eqb n (lit "help") || str_eqb n (lit "version").
(** A value given to a single option a second time, or a switch, is an error. *)
Definition again (so : list Opt) (o : Opt) : bool := negb (appends o) && existsb (Opt_beq o) so.
(** The arguments from left to right; [so] and [sw] are the options and switches
    already seen. *)
Fixpoint scan_args (so : list Opt) (sw : list Switch) (l : list str) : Out (list Ev) :=
  match l with
  | [] => Got []
  | t :: rest =>
      let valued o attached :=
        match attached with
        | Some v => if again so o then Usage else cons_out (EOpt o v) (scan_args (o :: so) sw rest)
        | None =>
            match rest with
            | v :: rest' => if dashed v || again so o then Usage else cons_out (EOpt o v) (scan_args (o :: so) sw rest')
            | [] => Usage
            end
        end in
      match t with
      | a :: c :: r =>
          if a =? 45 then
            if c =? 45 then
              match r with
              | [] => Got (map EFile rest)
              | _ =>
                  let '(n, attached) := split_eq r in
                  match afind str_eqb n long_opts, afind str_eqb n long_switches, attached with
                  | Some o, _, _ => valued o attached
                  | None, Some w, None => if existsb (Switch_beq w) sw then Usage else cons_out (ESwitch w) (scan_args so (w :: sw) rest)
                  | None, None, None => if is_help n then Shown else Usage
                  | None, _, Some _ => Usage
                  end
              end
            else
              match short_opt c with
              | Some o => valued o (match r with [] => None | d :: v => if d =? 61 then Some v else Some r end)
              | None => if (c =? 104) || (c =? 86) then Shown else Usage
              end
          else cons_out (EFile t) (scan_args so sw rest)
      | _ => cons_out (EFile t) (scan_args so sw rest)
      end
  end.

(** *** What main takes from it *)
Definition files_of (l : list Ev) : list str := flat_map (fun e => match e with EFile t => [t] | _ => [] end) l.
Definition values (o : Opt) (l : list Ev) : list str := flat_map (fun e => match e with EOpt o' v => if Opt_beq o o' then [v] else [] | _ => [] end) l.
(** [get_one]. *)
Definition value (o : Opt) (l : list Ev) : option str := match values o l with [] => None | v :: _ => Some v end.
(** [get_many]: None if the option was not given. *)
Definition many (o : Opt) (l : list Ev) : option (list str) := match values o l with [] => None | vs => Some vs end.
Definition switched (w : Switch) (l : list Ev) : bool := existsb (fun e => match e with ESwitch w' => Switch_beq w w' | _ => false end) l.
Definition or_default (d : str) (v : option str) : str := match v with Some x => x | None => d end.
(** /repo/src/main.rs:184-201. *)
Record Cmd := mkCmd {
  cm_args : Args;
  cm_server : option str;
  cm_debug_id : option str;
  cm_code_id : option str;
  cm_arch : str;
  cm_check_cfi : bool;
  cm_inlines : bool;
  cm_var : option (list str);
  cm_src : option (list str);
  cm_dest : option (list str);
  cm_map_file : option str
}.
(** /repo/src/common.rs:21-35 [get_compile_time_arch], with the names of
    symbolic's [Arch]. *)
Definition compile_time_arch (target : str) : str :=
  or_default (lit "unknown") (afind str_eqb target
    [(lit "x86", lit "x86"); (lit "x86_64", lit "x86_64"); (lit "arm", lit "arm"); (lit "aarch64", lit "arm64"); (lit "mips", lit "mips"); (lit "mips64", lit "mips64");
     (lit "powerpc", lit "ppc"); (lit "powerpc64", lit "ppc64")]).
(** /repo/src/main.rs:140-201: defaults are those of [cli]. [target] is the
    architecture the program was built for. *)
Definition command (target : str) (argv : list str) : Out Cmd :=
  match scan_args [] [] argv with
  | Usage => Usage
  | Shown => Shown
  | Got l =>
      match files_of l with
      | [] => Usage
      | fs => Got (mkCmd (mkArgs fs (value AOutput l) (value AStore l) (or_default (lit "error") (value AVerbose l)) (or_default [] (value AJobs l)) (switched WList l) (values AExtra l) (switched WNoGen l))
                   (value AServer l) (value ADebugId l) (value ACodeId l) (or_default (compile_time_arch target) (value AArch l)) (switched WCfi l) (switched WInlines l)
                   (many AVar l) (many ASrc l) (many ADest l) (value AMapFile l))
      end
  end.
