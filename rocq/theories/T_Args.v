(** Theorems about the command line (C74). *)
From Verif Require Import Base Str M_Source M_Mapping M_Cli M_Args S_Args P_Args.

(** C74: the arguments are accepted exactly if they are documented spellings, with
    nothing given twice that may be given once and at least one file; then every
    setting is the one asked for, or its documented default. *)
Theorem C74_understood : forall target argv c,
  command target argv = Got c <->
  exists items tail, Forall well_formed items /\ once items /\ argv = arguments items tail /\ ar_files (cm_args c) <> [] /\ asks target items tail c.
Proof. exact understood. Qed.
Print Assumptions C74_understood.

(** Help or version is shown exactly if it is asked for behind acceptable
    arguments; what follows is not looked at. *)
Theorem C74_help : forall target argv,
  command target argv = Shown <->
  exists items h rest, Forall well_formed items /\ once items /\ asks_help h /\ argv = concat (map text items) ++ h :: rest.
Proof. exact shown. Qed.
Print Assumptions C74_help.

(** Everything else is a usage error; in particular the following. *)
Theorem C74_usage :
  (forall target argv, command target argv = Usage <->
     ~ (exists items tail, Forall well_formed items /\ once items /\ argv = arguments items tail /\ concat (map item_file items) ++ match tail with Some l => l | None => [] end <> []) /\
     ~ (exists items h rest, Forall well_formed items /\ once items /\ asks_help h /\ argv = concat (map text items) ++ h :: rest)) /\
  (forall target items rest, Forall well_formed items -> ~ once items -> command target (concat (map text items) ++ rest) = Usage) /\
  (forall target items tail, Forall well_formed items -> concat (map item_file items) ++ match tail with Some l => l | None => [] end = [] -> command target (arguments items tail) = Usage) /\
  (forall target items n v rest, Forall well_formed items -> n <> [] -> ~ In c_eq n -> (forall o, ~ named o n) -> (forall w, ~ switch_named w n) -> n <> lit "help" -> n <> lit "version" ->
     command target (concat (map text items) ++ (lit "--" ++ n ++ match v with Some v => lit "=" ++ v | None => [] end) :: rest) = Usage) /\
  (forall target items c r rest, Forall well_formed items -> (forall o, ~ lettered o [c]) -> c <> 45 -> [c] <> lit "h" -> [c] <> lit "V" ->
     command target (concat (map text items) ++ (lit "-" ++ c :: r) :: rest) = Usage) /\
  (forall target items t rest, Forall well_formed items -> (exists o n, named o n /\ t = lit "--" ++ n) \/ (exists o c, lettered o c /\ t = lit "-" ++ c) ->
     match rest with [] => True | v :: _ => ~ plain v end -> command target (concat (map text items) ++ t :: rest) = Usage).
Proof.
  split; [|split; [exact twice|split; [exact no_file|split; [exact unknown_long|split; [exact unknown_short|exact without_value]]]]].
  intros target argv. split.
  - intros U. split.
    + intros (items & tail & W & O & E & NE). assert (G : command target argv = Got (cmd_of target (map ev items ++ map EFile (tail_of tail)))).
      { apply understood. exists items, tail. split; [exact W|]. split; [exact O|]. split; [exact E|]. split; [|now apply asks_spec]. cbn [cmd_of cm_args ar_files]. now rewrite files_items. }
      rewrite U in G. discriminate.
    + intros H. apply (shown target argv) in H. rewrite U in H. discriminate.
  - intros [A B]. destruct (command target argv) as [c| |] eqn:E; [|reflexivity|].
    + elim A. apply understood in E. destruct E as (items & tail & W & O & Ea & NE & As). exists items, tail. split; [exact W|]. split; [exact O|]. split; [exact Ea|]. destruct As as (F & _). now rewrite <- F.
    + elim B. now apply (shown target argv).
Qed.
Print Assumptions C74_usage.

(** The spelling does not matter, nor the place of the files among the options:
    what is accepted twice from the same values is the same command. *)
Theorem C74_spelling : forall target items items' tail tail',
  Forall well_formed items -> Forall well_formed items' -> once items ->
  concat (map item_value items) = concat (map item_value items') -> concat (map item_switch items) = concat (map item_switch items') ->
  concat (map item_file items) ++ match tail with Some l => l | None => [] end = concat (map item_file items') ++ match tail' with Some l => l | None => [] end ->
  command target (arguments items tail) = command target (arguments items' tail').
Proof.
  intros target items items' tail tail' W W' O Ev Es Ef.
  assert (O' : once items') by (unfold once in *; now rewrite <- Ev, <- Es).
  destruct (command target (arguments items tail)) as [c| |] eqn:E.
  - symmetry. apply understood. rewrite command_def, (scan_arguments items tail W O) in E. destruct (files_of _) eqn:Ef0 in E; [discriminate|]. injection E as <-.
    exists items', tail'. split; [exact W'|]. split; [exact O'|]. split; [reflexivity|]. split; [cbn [cmd_of cm_args ar_files]; rewrite Ef0; discriminate|].
    assert (A : asks target items tail (cmd_of target (map ev items ++ map EFile (tail_of tail)))) by now apply asks_spec.
    unfold asks, optional, defaulted, collected_values, switch_is, optional in *. rewrite <- Ev, <- Es, <- Ef. exact A.
  - symmetry. rewrite command_def, (scan_arguments items tail W O), files_items in E. fold (tail_of tail) (tail_of tail') in Ef. apply no_file; [exact W'|]. rewrite <- Ef. destruct (concat _ ++ tail_of tail); [reflexivity|discriminate].
  - rewrite command_def, (scan_arguments items tail W O) in E. destruct (files_of _); discriminate.
Qed.
Print Assumptions C74_spelling.

(** *** Examples *)
Definition ax_argv : list str := map lit
  ["-s"; "sym"; "lib.so"; "--inlines"; "--mapping-var=rev=1"; "-j4"; "--arch"; "arm64"; "--mapping-var"; "b=2"; "-o=-"; "--"; "-odd"]%string.
Example C74_ex : command (lit "x86_64") ax_argv =
  Got (mkCmd (mkArgs [lit "lib.so"; lit "-odd"] (Some (lit "-")) (Some (lit "sym")) (lit "error") (lit "4") false [] false)
             None None None (lit "arm64") false true (Some [lit "rev=1"; lit "b=2"]) None None None).
Proof. vm_compute. reflexivity. Qed.
(** The hypotheses of the theorems hold for the same line. *)
Definition ax_items : list Item :=
  [IShort AStore (lit "s") (lit "sym"); IFile (lit "lib.so"); ISwitch WInlines (lit "inlines"); IJoined AVar (lit "mapping-var") (lit "rev=1"); IStuck AJobs (lit "j") (lit "4");
   ILong AArch (lit "arch") (lit "arm64"); ILong AVar (lit "mapping-var") (lit "b=2"); IEquals AOutput (lit "o") (lit "-")].
Example C74_ex_items : Forall well_formed ax_items /\ once ax_items /\ ax_argv = arguments ax_items (Some [lit "-odd"]).
Proof.
  split; [|split; [|vm_compute; reflexivity]].
  - repeat apply Forall_cons; try apply Forall_nil; cbn [well_formed named lettered switch_named]; splits; try reflexivity; try discriminate; try (intros r; discriminate); right; intros r; discriminate.
  - apply fine_once. cbn. repeat (split; [reflexivity|]). exact I.
Qed.
Example C74_ex_default :
  command (lit "x86_64") [lit "a.pdb"] = Got (mkCmd (mkArgs [lit "a.pdb"] None None (lit "error") [] false [] false) None None None (lit "x86_64") false false None None None None) /\
  command (lit "riscv64") [lit "-"] = Got (mkCmd (mkArgs [lit "-"] None None (lit "error") [] false [] false) None None None (lit "unknown") false false None None None None).
Proof. vm_compute. split; reflexivity. Qed.
Example C74_ex_usage :
  command (lit "x86_64") [] = Usage /\
  command (lit "x86_64") (map lit ["a"; "-s"; "x"; "--store"; "y"]%string) = Usage /\
  command (lit "x86_64") (map lit ["a"; "--inlines=yes"]%string) = Usage /\
  command (lit "x86_64") (map lit ["a"; "--output"; "-x"]%string) = Usage /\
  command (lit "x86_64") (map lit ["a"; "--jobs"; "2"]%string) = Usage /\
  command (lit "x86_64") (map lit ["a"; "-o"; "--"; "b"]%string) = Usage /\
  command (lit "x86_64") (map lit ["--inlines"; "--help"; "--nonsense"]%string) = Shown /\
  command (lit "x86_64") (map lit ["--nonsense"; "--help"]%string) = Usage.
Proof. vm_compute. splits; reflexivity. Qed.
