(** Theorems C54 and C62: the command line. *)
From Verif Require Import Base BMap Str Utf8 M_Symbol M_Store M_Object S_Format M_Fs S_Fs M_Cache S_Store M_Path S_Path M_Input P_Path P_Input M_Cli S_Cli P_Cli T_Object T_Input.

(** ** C54 *)
Theorem C54_output : forall out dir, out <> lit "-" ->
  select_output None None = OFile FStdout /\
  select_output (Some (lit "-")) None = OFile FStdout /\
  select_output (Some out) None = OFile (FPath out) /\
  select_output None (Some dir) = OStore dir /\
  select_output (Some (lit "-")) (Some dir) = OBoth FStdout dir /\
  select_output (Some out) (Some dir) = OBoth (FPath out) dir.
Proof.
  intros out dir N. unfold select_output, file_output. destruct (str_eqb out (lit "-")) eqn:E; [apply str_eqb_eq in E; now elim N|]. splits; reflexivity.
Qed.
Print Assumptions C54_output.
Theorem C54_jobs : forall cpus s, (forall n, number s n -> num_jobs cpus s = n) /\ ((forall n, ~ number s n) -> num_jobs cpus s = cpus).
Proof. intros cpus s. split; [exact (fun n => jobs_number cpus s n)|exact (jobs_default cpus s)]. Qed.
Print Assumptions C54_jobs.
Theorem C54_extra_info : forall version extra no_generator,
  (Forall info_text extra -> get_extra_info version extra no_generator = Ok (extra ++ (if no_generator then [] else [lit "GENERATOR mozilla/dump_syms " ++ version]))) /\
  ((exists s, In s extra /\ ~ info_text s) -> is_panic (get_extra_info version extra no_generator) = true).
Proof. intros version extra ng. split; [exact (extra_ok version extra ng)|]. intros (s & I & N). exact (extra_bad version extra ng s I N). Qed.
Print Assumptions C54_extra_info.
(** An accepted line may have a line break, and then puts another record into the symbol file. *)
Theorem C54_newline_refuted : exists version s o text rs, info_text s /\ get_extra_info version [s] true = Ok [s] /\ fmt_object [s] o = Ok text /\
  parse_file text = Some rs /\ In (RPublic false 39321 0 (lit "evil")) rs /\ nfind 39321 (ob_syms o) = None.
Proof.
  exists [], (lit "K v" ++ [c_nl] ++ lit "PUBLIC 9999 0 evil"), ix_a. eexists _, _. splits.
  - exists (lit "K"), (lit "v" ++ [c_nl] ++ lit "PUBLIC 9999 0 evil"). splits; [reflexivity|discriminate|apply Forall_forall; cbn; intros c H; repeat (destruct H as [<- |H]; [lia|]); destruct H].
  - vm_compute. reflexivity.
  - vm_compute. reflexivity.
  - vm_compute. reflexivity.
  - vm_compute. tauto.
  - vm_compute. reflexivity.
Qed.
Print Assumptions C54_newline_refuted.
(** The action, the INFO lines and what is logged. *)
Theorem C54_plan : forall version cpus a, Forall info_text (ar_extra a) -> exists action level,
  plan version cpus a = Ok (ar_extra a ++ (if ar_no_generator a then [] else [lit "GENERATOR mozilla/dump_syms " ++ version]), action, level) /\
  (ar_list_arch a = true -> action = ActList) /\
  (ar_list_arch a = false -> action = ActDump (select_output (ar_output a) (ar_store a)) (num_jobs cpus (ar_jobs a))) /\
  logs (ar_verbose a) level /\ forall l, logs (ar_verbose a) l -> l = level.
Proof.
  intros version cpus a F. unfold plan. rewrite (extra_ok _ _ _ F). cbn [bind]. do 2 eexists. splits; [reflexivity|intros ->; reflexivity|intros ->; reflexivity|apply verbosity_logs|].
  intros l H. exact (logs_fun _ _ _ H (verbosity_logs _)).
Qed.
Print Assumptions C54_plan.
Example C54_ex_jobs : number (lit "+012") 12 /\ (forall n, ~ number (lit "18446744073709551616") n) /\ num_jobs 4 (lit "+012") = 12 /\ num_jobs 4 (lit "18446744073709551616") = 4 /\ num_jobs 4 [] = 4.
Proof.
  splits; cycle 2; [vm_compute; reflexivity|vm_compute; reflexivity|vm_compute; reflexivity| |].
  - split; [lia|]. exists (lit "012"). split; [now right|reflexivity].
  - intros n (L & ds & [<- |E] & R); [|discriminate]. vm_compute in R. injection R as <-. vm_compute in L. discriminate.
Qed.
Example C54_ex_plan : plan (lit "2.3") 4 (mkArgs [lit "a"] None (Some (lit "st")) (lit "debug") (lit "x") false [lit "K v"] true) = Ok ([lit "K v"], ActDump (OStore (lit "st")) 4, LDebug) /\
  plan (lit "2.3") 4 (mkArgs [lit "a"] None None (lit "DEBUG") [] true [] false) = Ok ([lit "GENERATOR mozilla/dump_syms 2.3"], ActList, LError).
Proof. vm_compute. auto. Qed.
Example C54_ex_extra : info_text (lit "RELEASECHANNEL  nightly") /\ ~ info_text (lit "Channel x") /\ ~ info_text (lit "KEY").
Proof.
  splits.
  - exists (lit "RELEASECHANNEL"), (lit " nightly"). splits; [reflexivity|discriminate|apply Forall_forall; cbn; intros c H; repeat (destruct H as [<- |H]; [lia|]); destruct H].
  - intros H. apply info_spec in H. vm_compute in H. discriminate.
  - intros H. apply info_spec in H. vm_compute in H. discriminate.
Qed.

(** ** C62: exit status for one file *)
(** Zero means that the module was written completely, with its INFO lines ... *)
Theorem C62_success : forall version cpus x e arch_name cfg a w file w', healthy (ex_os x) -> ar_list_arch a = false ->
  (forall fs o, load_file x e (cfg (select_output (ar_output a) (ar_store a))) (w_fs w) file = (fs, Ok o) -> proper (ob_name o) /\ proper (ob_debug_id o)) ->
  (forall out, cf_output (cfg out) = out) -> ar_store a <> Some [] ->
  main_one version cpus x e arch_name cfg a w file = (w', 0) ->
  Forall info_text (ar_extra a) /\
  exists fs o text, load_file x e (cfg (select_output (ar_output a) (ar_store a))) (w_fs w) file = (fs, Ok o) /\
    fmt_object (ar_extra a ++ (if ar_no_generator a then [] else [lit "GENERATOR mozilla/dump_syms " ++ version])) o = Ok text /\
    delivered (ex_os x) text (select_output (ar_output a) (ar_store a)) o (set_fs w fs) w'.
Proof.
  intros version cpus x e an cfg a w file w' H L P C NS. unfold main_one, plan. rewrite L.
  destruct (forallb info_line_match (ar_extra a)) eqn:F.
  - assert (F' : Forall info_text (ar_extra a)) by (apply Forall_forall; intros s I; rewrite forallb_forall in F; now apply info_spec, F).
    rewrite (extra_ok _ _ _ F'). cbn [bind]. destruct (single_file _ _ _ _ _ _) as [w1 r] eqn:S. destruct r as [[]|m|m]; cbn [exit_code]; intros E; try discriminate. injection E as <-.
    split; [exact F'|]. set (out := select_output (ar_output a) (ar_store a)) in *.
    assert (NO : cf_output (cfg out) <> OStore []);
    [|destruct (single_ok x e _ (cfg out) w file w1 P H NO S) as (fs & o & text & E1 & E2 & E3 & _); exists fs, o, text; rewrite C in E3; auto].
    rewrite C. unfold out, select_output. destruct (ar_output a), (ar_store a); try discriminate. intros [= ->]. now elim NS.
  - unfold get_extra_info. rewrite F. cbn. discriminate.
Qed.
Print Assumptions C62_success.
(** ... and a file that cannot be loaded never gives zero. *)
Theorem C62_failure : forall version cpus x e arch_name cfg a w file fs r, ar_list_arch a = false ->
  load_file x e (cfg (select_output (ar_output a) (ar_store a))) (w_fs w) file = (fs, r) -> (forall o, r <> Ok o) ->
  exists fs' n, main_one version cpus x e arch_name cfg a w file = (mkWorld fs' (w_out w) (w_err w), n) /\ n <> 0.
Proof.
  intros version cpus x e an cfg a w file fs r L E N. unfold main_one, plan. rewrite L. destruct (get_extra_info _ _ _) as [info|m|m]; cbn [bind].
  - destruct (single_fails x e info _ w file fs r E N) as (r' & S & N'). rewrite S. exists fs, (exit_code r'). split; [reflexivity|]. destruct r' as [[]|m|m]; cbn; congruence.
  - exists (w_fs w). eexists. split; [destruct w; reflexivity|discriminate].
  - exists (w_fs w). eexists. split; [destruct w; reflexivity|discriminate].
Qed.
Print Assumptions C62_failure.
(** A bad INFO line stops the program before anything is read or written. *)
Theorem C62_bad_line : forall version cpus x e arch_name cfg a w file s, In s (ar_extra a) -> ~ info_text s ->
  main_one version cpus x e arch_name cfg a w file = (w, 101).
Proof.
  intros version cpus x e an cfg a w file s I N. unfold main_one, plan. pose proof (extra_bad version (ar_extra a) (ar_no_generator a) s I N) as P.
  destruct (get_extra_info _ _ _); try discriminate. reflexivity.
Qed.
Print Assumptions C62_bad_line.
Definition ix_args (extra : list str) : Args := mkArgs [lit "libx.so"] None (Some (lit "st")) (lit "error") [] false extra false.
Example C62_ex : exists w', main_one (lit "2.3") 4 ix ix_env dec ix_cf (ix_args [lit "K v"]) ix_w (lit "libx.so") = (w', 0) /\
  match fs_get (w_fs w') (locate (os_cwd ix_os) (lit "st/libx.so/AB12/libx.so.sym")) with
  | Some (NFile d) => starts_with (encode (lit "MODULE Linux x86_64 AB12 libx.so" ++ [c_nl] ++ lit "INFO CODE_ID C0DE" ++ [c_nl] ++ lit "INFO K v" ++ [c_nl] ++ lit "INFO GENERATOR mozilla/dump_syms 2.3")) d
  | _ => false end = true.
Proof. eexists. split; vm_compute; reflexivity. Qed.
Example C62_ex_failure : snd (main_one (lit "2.3") 4 ix ix_env dec ix_cf (ix_args []) ix_w (lit "nothere")) = 101 /\
  snd (main_one (lit "2.3") 4 ix ix_env dec ix_cf (ix_args [lit "k"]) ix_w (lit "libx.so")) = 101 /\
  snd (main_one (lit "2.3") 4 ix ix_env dec ix_cf (ix_args []) (mkWorld [([lit "a"], NFile (lit "?"))] [] []) (lit "/a")) = 1.
Proof. vm_compute. auto. Qed.
