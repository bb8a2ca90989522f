(** Specification of the whole program. *)
From Verif Require Import Base Str M_Fs M_Mapping M_Cli M_Args S_Mapping S_Args.
From Verif Require M_Path M_Object M_Input M_Store S_Input.

(** A rule with the variables it sees; what it makes of a path. *)
Definition Seen := (Vars * Rule)%type.
Inductive rule_result (e : MapEnv) (x : Seen) (p : str) : res (option str) -> Prop :=
| rr_outside : ~ covers (ru_files (snd x)) p -> rule_result e x p (Ok None)
| rr_no_match : me_caps e (ru_source (snd x)) p = None -> rule_result e x p (Ok None)
| rr_match caps parts tail ms : covers (ru_files (snd x)) p -> me_caps e (ru_source (snd x)) p = Some caps -> decomposed (ru_dest (snd x)) parts tail ->
    Forall2 (fun q v => means (fst x) (snd q) v) parts ms -> rule_result e x p (expand e p caps (combine (map fst parts) ms) tail).
(** The first rule that applies; a rule that fails ends the search. *)
Inductive first_rule (e : MapEnv) (p : str) : list Seen -> option str -> Prop :=
| fr_none : first_rule e p [] None
| fr_hit x t q : rule_result e x p (Ok (Some q)) -> first_rule e p (x :: t) (Some q)
| fr_next x t r : rule_result e x p (Ok None) -> first_rule e p t r -> first_rule e p (x :: t) r
| fr_fail x t s : rule_result e x p (Err s) -> first_rule e p (x :: t) None.
(** The rules of the mapping file that list files, its other rules, the rules of
    the command line. *)
Definition rule_list (cli : Vars) (file : option (Vars * list Rule)) (sources dests : list str) : list Seen :=
  (match file with
   | Some (vs, rs) => map (pair vs) (filter restricted rs ++ filter (fun r => negb (restricted r)) rs)
   | None => []
   end) ++ map (pair cli) (cli_rules sources dests).
Definition variables_of (texts : list str) (vs : Vars) : Prop :=
  exists ps, Forall2 is_pair texts ps /\ forall k x, stands vs k x <-> last_value ps k x.
(** The output asked for. *)
Definition output_asked (o s : option str) (out : M_Store.Output) : Prop :=
  match o, s with
  | None, None => out = M_Store.OFile M_Store.FStdout
  | Some p, None => (p = lit "-" /\ out = M_Store.OFile M_Store.FStdout) \/ (p <> lit "-" /\ out = M_Store.OFile (M_Store.FPath p))
  | None, Some d => out = M_Store.OStore d
  | Some p, Some d => (p = lit "-" /\ out = M_Store.OBoth M_Store.FStdout d) \/ (p <> lit "-" /\ out = M_Store.OBoth (M_Store.FPath p) d)
  end.
Definition or_self (r : option str) (p : str) : str := match r with Some q => q | None => p end.
(** Files that hold the debug info themselves, executables of Windows excepted. *)
Inductive debug_info (ps : M_Input.Parsers) (arch : N) (buf : list N) : M_Path.Platform -> M_Object.Parsed -> Prop :=
| di_elf p : M_Input.ps_peek ps buf = M_Input.FmtElf -> M_Input.ps_object ps buf = Some p -> debug_info ps arch buf M_Path.Linux p
| di_macho l p : M_Input.ps_peek ps buf = M_Input.FmtMachO -> M_Input.ps_archive ps buf = Some l -> S_Input.chosen arch l p -> debug_info ps arch buf M_Path.Mac p
| di_pdb p : M_Input.ps_peek ps buf = M_Input.FmtPdb -> M_Input.ps_pdb ps buf = Some p -> debug_info ps arch buf M_Path.Win (M_Input.pd_obj p).
