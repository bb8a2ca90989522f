(** Theorems C75 and C76: the whole program, from the arguments to the symbol file. *)
From Verif Require Import Base BMap Str Utf8 M_Names M_Path M_Source M_Symbol M_Collector M_Object M_Fs M_Digest M_Cache M_Store M_Input M_Mapping M_Cli M_Args M_Sched M_Many M_Shared M_Main
  S_Source S_Collector S_Object S_Format S_Symbolize S_Mapping S_Digest S_Fs S_Path S_Input S_Store S_Cli S_Main
  P_Collector P_Object P_Merge P_Format P_Cli P_Input P_Main T_Collector T_Object T_Format T_Input T_Cli T_Mapping T_Symbolize.
From Verif Require S_Args P_Args S_Many.

(** ** C75 *)
(** Acceptable arguments that name one file, without [--list-arch] and with
    well-formed INFO lines: the file is dumped with exactly the settings asked
    for. *)
Theorem C75_settings : forall m items tail c f out w, Forall S_Args.well_formed items -> S_Args.once items -> S_Args.asks (ma_target m) items tail c ->
  ar_files (cm_args c) = [f] -> ar_list_arch (cm_args c) = false -> Forall info_text (ar_extra (cm_args c)) -> output_asked (ar_output (cm_args c)) (ar_store (cm_args c)) out ->
  exists cf, cf_output cf = out /\ cf_symbol_server cf = cm_server c /\ cf_debug_id cf = cm_debug_id c /\ cf_code_id cf = cm_code_id c /\ cf_arch cf = ma_arch m (cm_arch c) /\
    (cf_check_cfi cf = true <-> In WCfi (concat (map S_Args.item_switch items))) /\ (cf_inlines cf = true <-> In WInlines (concat (map S_Args.item_switch items))) /\
    cf_map cf = path_mapping m (w_fs w) c /\
    forall v n, program m (S_Args.arguments items tail) w v n <->
      exists w' r, single_file (ma_ext m) (ma_env m) (ar_extra (cm_args c) ++ (if ar_no_generator (cm_args c) then [] else [lit "GENERATOR mozilla/dump_syms " ++ ma_version m])) cf w f = (w', r) /\
        v = w' /\ n = exit_code r.
Proof.
  intros m items tail c f out w W O A F L X Ho. apply output_unique in Ho. subst out.
  assert (G : command (ma_target m) (S_Args.arguments items tail) = Got c). { apply P_Args.understood. exists items, tail. splits; auto. rewrite F. discriminate. }
  exists (config_of m (w_fs w) c (select_output (ar_output (cm_args c)) (ar_store (cm_args c)))).
  assert (Sw : S_Args.switch_is WCfi items (cm_check_cfi c) /\ S_Args.switch_is WInlines items (cm_inlines c)) by (unfold S_Args.asks in A; tauto).
  destruct Sw as [S1 S2]. splits; try reflexivity; [exact S1|exact S2|]. intros v n.
  assert (M : main_one (ma_version m) (ma_cpus m) (ma_ext m) (ma_env m) (ma_arch_name m) (config_of m (w_fs w) c) (cm_args c) w f =
    (let '(w', r) := single_file (ma_ext m) (ma_env m) (ar_extra (cm_args c) ++ (if ar_no_generator (cm_args c) then [] else [lit "GENERATOR mozilla/dump_syms " ++ ma_version m]))
       (config_of m (w_fs w) c (select_output (ar_output (cm_args c)) (ar_store (cm_args c)))) w f in (w', exit_code r))).
  { unfold main_one, plan. rewrite (extra_ok _ _ _ X). cbn [bind]. rewrite L. reflexivity. }
  destruct (single_file _ _ _ _ _ _) as [w1 r1]. split.
  - intros P. exists w1, r1. split; [reflexivity|]. inversion P; subst; try congruence; match goal with H : command _ _ = Got ?d |- _ => assert (d = c) by congruence; subst d end; try congruence.
    match goal with H : ar_files _ = [?d] |- _ => assert (d = f) by congruence; subst d end. split; congruence.
  - intros (w' & r & [= <- <-] & -> & ->). now apply (pr_one m _ w c f).
Qed.
Print Assumptions C75_settings.

(** A configuration made with [Config::with_output] is the one of the command line
    with [--check-cfi] and [--inlines] (which are off by default there). *)
Theorem C75_defaults : forall m fs f out, exists c, command (ma_target m) [lit "--check-cfi"; lit "--inlines"; lit "--"; f] = Got c /\
  ar_files (cm_args c) = [f] /\ config_of m fs c out = with_output m out.
Proof. intros m fs f out. eexists. split; [reflexivity|]. split; reflexivity. Qed.
Print Assumptions C75_defaults.

(** The exit status is 0, 1, 2 or 101; it is 2 exactly for a usage error, and
    then nothing has changed. *)
Theorem C75_statuses : forall m argv w v n, program m argv w v n ->
  (n = 0 \/ n = 1 \/ n = 2 \/ n = 101) /\ (n = 2 <-> command (ma_target m) argv = Usage) /\ (n = 2 -> v = w).
Proof. exact statuses. Qed.
Print Assumptions C75_statuses.

(** Unless several files are dumped, the program ends in exactly one way. *)
Theorem C75_ends : forall m argv w,
  (forall c f g t, command (ma_target m) argv = Got c -> ar_files (cm_args c) = f :: g :: t -> ar_list_arch (cm_args c) = true \/ exists s, In s (ar_extra (cm_args c)) /\ ~ info_text s) ->
  exists w' n, program m argv w w' n /\ forall v k, program m argv w v k -> v = w' /\ k = n.
Proof. exact one_end. Qed.
Print Assumptions C75_ends.

(** Arguments that are not understood, a question for help or the version, and
    an INFO line without a value: the end is the same whatever the files. *)
Theorem C75_no_work : forall m argv w v n,
  (command (ma_target m) argv = Usage -> (program m argv w v n <-> v = w /\ n = 2)) /\
  (command (ma_target m) argv = Shown -> (program m argv w v n <-> v = (mkWorld (w_fs w) (w_out w ++ encode (ma_text m argv)) (w_err w)) /\ n = 0)) /\
  (forall c s, command (ma_target m) argv = Got c -> In s (ar_extra (cm_args c)) -> ~ info_text s -> (program m argv w v n <-> v = w /\ n = 101)).
Proof. exact no_work. Qed.
Print Assumptions C75_no_work.
(** [--list-arch] prints the texts of the files up to the first that has none;
    the status is 0 exactly if all have one. *)
Theorem C75_listing : forall m argv w c, command (ma_target m) argv = Got c -> ar_list_arch (cm_args c) = true -> Forall info_text (ar_extra (cm_args c)) ->
  exists done rest ts k, ar_files (cm_args c) = done ++ rest /\ Forall2 (S_Many.lists (ma_ext m) (ma_arch_name m) (w_fs w)) done ts /\
    (forall f t, hd_error rest = Some f -> ~ S_Many.lists (ma_ext m) (ma_arch_name m) (w_fs w) f t) /\ (k = 0 <-> rest = []) /\
    forall v n, program m argv w v n <-> v = (mkWorld (w_fs w) (w_out w ++ encode (concat ts)) (w_err w)) /\ n = k.
Proof. exact listing. Qed.
Print Assumptions C75_listing.

Lemma several_is m argv w c f g t v n : command (ma_target m) argv = Got c -> ar_files (cm_args c) = f :: g :: t -> ar_list_arch (cm_args c) = false -> Forall info_text (ar_extra (cm_args c)) ->
  let out := select_output (ar_output (cm_args c)) (ar_store (cm_args c)) in
  program m argv w v n <->
  several_run m (ar_extra (cm_args c) ++ (if ar_no_generator (cm_args c) then [] else [lit "GENERATOR mozilla/dump_syms " ++ ma_version m])) (config_of m (w_fs w) c out)
    (N.to_nat (num_jobs (ma_cpus m) (ar_jobs (cm_args c)))) w (f :: g :: t) v n.
Proof.
  intros G F L X out. unfold out. clear out.
  assert (Ep : plan (ma_version m) (ma_cpus m) (cm_args c) = Ok (ar_extra (cm_args c) ++ (if ar_no_generator (cm_args c) then [] else [lit "GENERATOR mozilla/dump_syms " ++ ma_version m]),
    ActDump (select_output (ar_output (cm_args c)) (ar_store (cm_args c))) (num_jobs (ma_cpus m) (ar_jobs (cm_args c))), verbosity (ar_verbose (cm_args c)))).
  { unfold plan. rewrite (extra_ok _ _ _ X). cbn [bind]. now rewrite L. }
  split.
  - intros P. inversion P as [| | | | |c' f' g' t' info out jobs level v' n' G' F' Ep' H]; subst; try congruence; assert (c' = c) by congruence; subst c'; try congruence.
  - intros H. exact (pr_several m argv w c f g t _ _ _ _ v n G F Ep H).
Qed.
(** Several files are dumped by as many jobs as asked for, with the same settings. *)
Theorem C75_several : forall m argv w c f g t v n, command (ma_target m) argv = Got c -> ar_files (cm_args c) = f :: g :: t -> ar_list_arch (cm_args c) = false ->
  Forall info_text (ar_extra (cm_args c)) -> forall out, output_asked (ar_output (cm_args c)) (ar_store (cm_args c)) out ->
  program m argv w v n <->
  several_run m (ar_extra (cm_args c) ++ (if ar_no_generator (cm_args c) then [] else [lit "GENERATOR mozilla/dump_syms " ++ ma_version m])) (config_of m (w_fs w) c out)
    (N.to_nat (num_jobs (ma_cpus m) (ar_jobs (cm_args c)))) w (f :: g :: t) v n.
Proof.
  intros m argv w c f g t v n G F L X out Ho. apply output_unique in Ho. subst out.
  now apply several_is.
Qed.
Print Assumptions C75_several.
(** Several files, and a mapping file that cannot be used or an unknown
    architecture: nothing is done and the status is not 0. *)
Theorem C75_several_refused : forall m argv w c f g t v n, command (ma_target m) argv = Got c -> ar_files (cm_args c) = f :: g :: t -> ar_list_arch (cm_args c) = false ->
  Forall info_text (ar_extra (cm_args c)) ->
  (forall s, path_mapping m (w_fs w) c = Err s -> (program m argv w v n <-> v = w /\ n = 1)) /\
  (forall s, path_mapping m (w_fs w) c = Panic s -> (program m argv w v n <-> v = w /\ n = 101)) /\
  (forall p, path_mapping m (w_fs w) c = Ok p -> ma_arch m (cm_arch c) = None -> (program m argv w v n <-> v = w /\ n = 1)).
Proof.
  intros m argv w c f g t v n G F L X. set (out := select_output (ar_output (cm_args c)) (ar_store (cm_args c))).
  pose proof (several_is m argv w c f g t v n G F L X) as S. cbv zeta in S. fold out in S.
  assert (EM : cf_map (config_of m (w_fs w) c out) = path_mapping m (w_fs w) c) by reflexivity. assert (EA : cf_arch (config_of m (w_fs w) c out) = ma_arch m (cm_arch c)) by reflexivity.
  set (cf := config_of m (w_fs w) c out) in *. clearbody out. splits.
  - intros s E. rewrite <- EM in E. rewrite S. split.
    + intros H. inversion H as [r E' N|q E' N|q b k E' Ec W M|q b k E' Ec W M]; subst; try congruence. rewrite E. auto.
    + intros (-> & ->). pose proof (sv_map m (ar_extra (cm_args c) ++ (if ar_no_generator (cm_args c) then [] else [lit "GENERATOR mozilla/dump_syms " ++ ma_version m])) cf (N.to_nat (num_jobs (ma_cpus m) (ar_jobs (cm_args c)))) w (f :: g :: t) _ E) as Q. apply Q. discriminate.
  - intros s E. rewrite <- EM in E. rewrite S. split.
    + intros H. inversion H as [r E' N|q E' N|q b k E' Ec W M|q b k E' Ec W M]; subst; try congruence. rewrite E. auto.
    + intros (-> & ->). pose proof (sv_map m (ar_extra (cm_args c) ++ (if ar_no_generator (cm_args c) then [] else [lit "GENERATOR mozilla/dump_syms " ++ ma_version m])) cf (N.to_nat (num_jobs (ma_cpus m) (ar_jobs (cm_args c)))) w (f :: g :: t) _ E) as Q. apply Q. discriminate.
  - intros p E A. rewrite <- EM in E. rewrite <- EA in A. rewrite S. split.
    + intros H. inversion H as [r E' N|q E' N|q b k E' Ec W M|q b k E' Ec W M]; subst; try congruence; [now elim (N p)|auto].
    + intros (-> & ->). exact (sv_arch m _ cf _ w _ p E A).
Qed.
Print Assumptions C75_several_refused.

(** The lists of the command line are never empty, so that C39_empty_list_refuted
    does not happen. *)
Theorem C39_command_line : forall target argv c re_ok vars, command target argv = Got c -> is_panic (get_mappings re_ok vars (cm_src c) (cm_dest c)) = false.
Proof. intros target argv c re_ok vars G. destruct (cmd_lists _ _ _ G) as (A & B & _). now apply get_mappings_no_panic. Qed.
Print Assumptions C39_command_line.
(** The rules never make the program panic, except if the mapping file is a
    directory. *)
Theorem C75_mapping_panic : forall m fs target argv c, command target argv = Got c ->
  is_panic (path_mapping m fs c) = true <->
  exists path vs, cm_map_file c = Some path /\ fs_get fs (locate (os_cwd (ex_os (ma_ext m))) path) = Some NDir /\ get_variables (cm_var c) = Ok vs.
Proof. exact path_mapping_panic. Qed.
Print Assumptions C75_mapping_panic.

(** ** C76 *)
(** The paths shown: the first rule that applies, of the mapping file and the
    command line with their variables. *)
Theorem C76_mapping : forall m fs c f, (forall v, Permutation (ma_order m v) v) -> path_mapping m fs c = Ok f ->
  exists cli file, variables_of (opt_list (cm_var c)) cli /\ lenN (opt_list (cm_src c)) = lenN (opt_list (cm_dest c)) /\
    match cm_map_file c, file with
    | None, None => True
    | Some path, Some (vs, rs) => exists d rf, holds (ex_os (ma_ext m)) fs path d /\ ma_json m d = Some rf /\ rs = rf_rules rf /\ overrides cli (rf_vars rf) vs
    | _, _ => False
    end /\
    forall p, (is_panic (f p) = false /\ forall r, first_rule (map_env m fs) p (rule_list cli file (opt_list (cm_src c)) (opt_list (cm_dest c))) r <-> r = match f p with Ok q => q | _ => None end) \/
      (fs_get fs (locate (os_cwd (ex_os (ma_ext m))) p) = Some NDir /\ is_panic (f p) = true /\
       forall r, ~ first_rule (map_env m fs) p (rule_list cli file (opt_list (cm_src c)) (opt_list (cm_dest c))) r).
Proof. exact path_mapping_ok. Qed.
Print Assumptions C76_mapping.

(** One file, status 0: a reader of what was written finds the debug info with
    these paths, and inlined calls only if asked for (C70 says what [read_back]
    means for each address). *)
Lemma dump_back : forall m argv w w' c dir n buf main fns ls pl arch E,
  command (ma_target m) argv = Got c -> ar_files (cm_args c) = [path_push dir n] -> ar_list_arch (cm_args c) = false -> cm_debug_id c = None -> cm_code_id c = None ->
  ar_store (cm_args c) <> Some [] -> Forall one_line (ar_extra (cm_args c)) -> one_line (ma_version m) ->
  healthy (ex_os (ma_ext m)) -> sorts_ranges (re_sort (ma_env m)) -> proper n -> content (ex_cab (ma_ext m)) (w_fs w) (locate (os_cwd (ex_os (ma_ext m))) (path_push dir n)) n buf ->
  ma_arch m (cm_arch c) = Some arch -> pa_functions main = Some fns -> consistent (flat_map fun_refs (readable fns)) -> exceptions_u32 main ->
  (forall fs o, load_file (ma_ext m) (ma_env m) (config_of m (w_fs w) c (select_output (ar_output (cm_args c)) (ar_store (cm_args c)))) (w_fs w) (path_push dir n) = (fs, Ok o) ->
    writable ls o /\ proper (ob_name o) /\ proper (ob_debug_id o)) ->
  (forall pm, re_sort (E pm) = re_sort (ma_env m)) ->
  (forall pm fs o, path_mapping m (w_fs w) c = Ok pm ->
    get_object_info (ma_ext m) (set_map (ma_env m) pm (cm_inlines c)) (w_fs w) buf (path_push dir n) n arch (cm_server c) = (fs, Ok o) ->
    exists mn pe pn, from_object (E pm) pl main mn pe pn = Ok o) ->
  program m argv w w' 0 ->
  exists pm fs o text rs, path_mapping m (w_fs w) c = Ok pm /\
    get_object_info (ma_ext m) (set_map (ma_env m) pm (cm_inlines c)) (w_fs w) buf (path_push dir n) n arch (cm_server c) = (fs, Ok o) /\
    delivered (ex_os (ma_ext m)) text (select_output (ar_output (cm_args c)) (ar_store (cm_args c))) o (set_fs w fs) w' /\ parse_file text = Some rs /\
    read_back (E pm) pl main fns rs /\ (forall p i, In (p, i) (sm_ref (ob_files o)) -> is_panic (re_map (E pm) p) = false).
Proof.
  intros m argv w w' c dir n buf main fns ls pl arch E G F L I1 I2 Hs Hx Hv He So Pn Ct Ea Pf Co Ex Wr Es Hg P.
  inversion P as [| |c' f' w1 n1 G' F' M| |c' f' g' t' info level w1 n1 G' F' |]; subst; try congruence; assert (c' = c) by congruence; subst c'.
  rewrite F in F'. injection F' as <-.
  destruct (C62_success (ma_version m) (ma_cpus m) (ma_ext m) (ma_env m) (ma_arch_name m) (config_of m (w_fs w) c) (cm_args c) w (path_push dir n) w' He L) as (X & fs & o & text & Hl & Ht & D); auto.
  { intros fs o Hl. apply (Wr fs o Hl). }
  destruct (Wr fs o Hl) as (Wo & _ & _).
  destruct (path_mapping m (w_fs w) c) as [pm|s|s] eqn:Em.
  2,3: exfalso; apply (C58_bad_options (ma_ext m) (ma_env m) (config_of m (w_fs w) c (select_output (ar_output (cm_args c)) (ar_store (cm_args c)))) (w_fs w) (path_push dir n)) with (fs' := fs) (o := o); [left; intros q; cbn [config_of cf_map]; rewrite Em; discriminate|exact Hl].
  rewrite (C58_by_path (ma_ext m) (ma_env m) (config_of m (w_fs w) c (select_output (ar_output (cm_args c)) (ar_store (cm_args c)))) (w_fs w) dir n buf pm arch Pn I1 I2 Ct Em Ea) in Hl.
  destruct (Hg pm fs o eq_refl Hl) as (mn & pe & pn & Ho).
  assert (Ol : Forall one_line (ar_extra (cm_args c) ++ (if ar_no_generator (cm_args c) then [] else [lit "GENERATOR mozilla/dump_syms " ++ ma_version m]))).
  { apply Forall_app. split; [exact Hx|]. destruct (ar_no_generator (cm_args c)); [constructor|]. constructor; [|constructor]. unfold one_line in *. intros K. apply in_app_or in K. destruct K as [K|K]; [|contradiction].
    revert K. vm_compute. intros K. repeat (destruct K as [K|K]; [discriminate|]). exact K. }
  destruct (C31_parse_back _ ls o Wo Ol) as (text' & rs & T' & Pr & _). assert (text' = text) by congruence. subst text'.
  exists pm, fs, o, text, rs. split; [reflexivity|]. split; [exact Hl|]. split; [exact D|]. split; [exact Pr|].
  split; [|now apply (proj1 (proj2 (C55_mapping_panics (E pm) pl main mn pe pn) o (proj1 (C55_mapping_panics (E pm) pl main mn pe pn) o Ho)))].
  exists mn, pe, pn, o, (ar_extra (cm_args c) ++ (if ar_no_generator (cm_args c) then [] else [lit "GENERATOR mozilla/dump_syms " ++ ma_version m])), ls.
  split; [exact Pf|]. split; [rewrite Es; exact So|]. split; [exact Co|]. split; [exact Ex|]. split; [exact Ho|]. split; [exact Wo|]. split; [exact Ol|]. exists text. split; assumption.
Qed.
(** ELF, Mach-O and PDB files. *)
Theorem C76_file : forall m argv w w' c dir n buf main fns ls pl arch,
  command (ma_target m) argv = Got c -> ar_files (cm_args c) = [path_push dir n] -> ar_list_arch (cm_args c) = false -> cm_debug_id c = None -> cm_code_id c = None ->
  ar_store (cm_args c) <> Some [] -> Forall one_line (ar_extra (cm_args c)) -> one_line (ma_version m) ->
  healthy (ex_os (ma_ext m)) -> sorts_ranges (re_sort (ma_env m)) -> proper n -> content (ex_cab (ma_ext m)) (w_fs w) (locate (os_cwd (ex_os (ma_ext m))) (path_push dir n)) n buf ->
  ma_arch m (cm_arch c) = Some arch -> debug_info (ex_ps (ma_ext m)) arch buf pl main ->
  pa_functions main = Some fns -> consistent (flat_map fun_refs (readable fns)) -> exceptions_u32 main ->
  (forall fs o, load_file (ma_ext m) (ma_env m) (config_of m (w_fs w) c (select_output (ar_output (cm_args c)) (ar_store (cm_args c)))) (w_fs w) (path_push dir n) = (fs, Ok o) ->
    writable ls o /\ proper (ob_name o) /\ proper (ob_debug_id o)) ->
  program m argv w w' 0 ->
  exists pm o text rs, path_mapping m (w_fs w) c = Ok pm /\
    delivered (ex_os (ma_ext m)) text (select_output (ar_output (cm_args c)) (ar_store (cm_args c))) o w w' /\ parse_file text = Some rs /\
    read_back (set_map (ma_env m) pm (cm_inlines c)) pl main fns rs /\ (forall p i, In (p, i) (sm_ref (ob_files o)) -> is_panic (pm p) = false).
Proof.
  intros m argv w w' c dir n buf main fns ls pl arch G F L I1 I2 Hs Hx Hv He So Pn Ct Ea Di Pf Co Ex Wr P.
  assert (Sh : forall e, exists r, get_object_info (ma_ext m) e (w_fs w) buf (path_push dir n) n arch (cm_server c) = (w_fs w, r) /\ forall o, r = Ok o -> exists mn pe pn, from_object e pl main mn pe pn = Ok o).
  { intros e. destruct Di as [p Pk Po|l p Pk Pa Ch|p Pk Pp].
    - rewrite (C57_elf _ _ _ _ _ _ _ _ _ Pk Po). eexists. split; [reflexivity|]. eauto.
    - rewrite (C57_macho _ _ _ _ _ _ _ _ Pk), (C51_chosen _ _ _ _ _ _ _ Pa Ch). eexists. split; [reflexivity|]. eauto.
    - rewrite (C57_pdb _ _ _ _ _ _ _ _ Pk). eexists. split; [reflexivity|]. intros o. unfold get_pdb_object_info. rewrite Pp.
      destruct (find_pe_for_pdb _ _ _ _ _ _) as [[[pn pb]|]|s|s]; cbn [bind]; try discriminate.
      + destruct (ps_pe _ pb); [|discriminate]. unfold from_pdb. eauto.
      + unfold from_pdb. eauto. }
  destruct (dump_back m argv w w' c dir n buf main fns ls pl arch (fun pm => set_map (ma_env m) pm (cm_inlines c)) G F L I1 I2 Hs Hx Hv He So Pn Ct Ea Pf Co Ex Wr) as (pm & fs & o & text & rs & Em & Hg & D & Pr & R & Nd); auto.
  - intros pm fs o _ Hg. destruct (Sh (set_map (ma_env m) pm (cm_inlines c))) as (r & E & K). rewrite E in Hg. apply K. congruence.
  - exists pm, o, text, rs. destruct (Sh (set_map (ma_env m) pm (cm_inlines c))) as (r & E & _). rewrite E in Hg. injection Hg as <- _. destruct w; auto.
Qed.
Print Assumptions C76_file.
(** [pm p] panics only if a rule asks for the digest of [p] and that is a directory
    (C76_mapping): then the program does not end with status 0. *)
(** An executable of Windows for which a PDB is found (C53): the debug info of the
    PDB, in the same way. *)
Theorem C76_pe_pdb : forall m argv w w' c dir n buf pdb fns ls arch servers pe d dn fs',
  command (ma_target m) argv = Got c -> ar_files (cm_args c) = [path_push dir n] -> ar_list_arch (cm_args c) = false -> cm_debug_id c = None -> cm_code_id c = None ->
  ar_store (cm_args c) <> Some [] -> Forall one_line (ar_extra (cm_args c)) -> one_line (ma_version m) ->
  healthy (ex_os (ma_ext m)) -> sorts_ranges (re_sort (ma_env m)) -> proper n -> content (ex_cab (ma_ext m)) (w_fs w) (locate (os_cwd (ex_os (ma_ext m))) (path_push dir n)) n buf ->
  ma_arch m (cm_arch c) = Some arch -> ps_peek (ex_ps (ma_ext m)) buf = FmtPe ->
  get_sym_servers (ex_os (ma_ext m)) (w_fs w) (ex_home (ma_ext m)) (cm_server c) = Ok servers -> get_pe_pdb_buf (ma_ext m) (w_fs w) (path_push dir n) buf servers = Ok (Some (pe, d, dn), fs') ->
  ps_pdb (ex_ps (ma_ext m)) d = Some pdb -> (forall pm s, from_object (set_map (ma_env m) pm (cm_inlines c)) Win (pd_obj pdb) dn (Some (pf_obj pe)) (Some n) <> Err s) ->
  pa_functions (pd_obj pdb) = Some fns -> consistent (flat_map fun_refs (readable fns)) -> exceptions_u32 (pd_obj pdb) ->
  (forall fs o, load_file (ma_ext m) (ma_env m) (config_of m (w_fs w) c (select_output (ar_output (cm_args c)) (ar_store (cm_args c)))) (w_fs w) (path_push dir n) = (fs, Ok o) ->
    writable ls o /\ proper (ob_name o) /\ proper (ob_debug_id o)) ->
  program m argv w w' 0 ->
  exists pm o text rs, path_mapping m (w_fs w) c = Ok pm /\
    delivered (ex_os (ma_ext m)) text (select_output (ar_output (cm_args c)) (ar_store (cm_args c))) o (set_fs w fs') w' /\ parse_file text = Some rs /\
    read_back (set_map (ma_env m) pm (cm_inlines c)) Win (pd_obj pdb) fns rs /\ (forall p i, In (p, i) (sm_ref (ob_files o)) -> is_panic (pm p) = false).
Proof.
  intros m argv w w' c dir n buf pdb fns ls arch servers pe d dn fs' G F L I1 I2 Hs Hx Hv He So Pn Ct Ea Pk Sv Gp Pd Ne Pf Co Ex Wr P.
  assert (Sh : forall pm, get_object_info (ma_ext m) (set_map (ma_env m) pm (cm_inlines c)) (w_fs w) buf (path_push dir n) n arch (cm_server c) =
    (fs', from_object (set_map (ma_env m) pm (cm_inlines c)) Win (pd_obj pdb) dn (Some (pf_obj pe)) (Some n))).
  { intros pm. unfold get_object_info, get_pe_pdb_object_info. rewrite Pk, Sv. cbn [bind]. rewrite Gp, Pd. unfold from_pdb. cbn [option_map]. specialize (Ne pm).
    destruct (from_object _ Win (pd_obj pdb) dn _ _) as [o|s|s]; [reflexivity|now elim (Ne s)|reflexivity]. }
  destruct (dump_back m argv w w' c dir n buf (pd_obj pdb) fns ls Win arch (fun pm => set_map (ma_env m) pm (cm_inlines c)) G F L I1 I2 Hs Hx Hv He So Pn Ct Ea Pf Co Ex Wr) as (pm & fs & o & text & rs & Em & Hg & D & Pr & R & Nd); auto.
  - intros pm fs o _ Hg. rewrite Sh in Hg. injection Hg as _ Hg. eauto.
  - exists pm, o, text, rs. rewrite Sh in Hg. injection Hg as <- _. auto.
Qed.
Print Assumptions C76_pe_pdb.
(** One for which none is found: its own debug info, without the rules and
    without inlined calls, whatever was asked for. *)
Theorem C76_pe_alone : forall m argv w w' c dir n buf pe fns ls arch servers fs',
  command (ma_target m) argv = Got c -> ar_files (cm_args c) = [path_push dir n] -> ar_list_arch (cm_args c) = false -> cm_debug_id c = None -> cm_code_id c = None ->
  ar_store (cm_args c) <> Some [] -> Forall one_line (ar_extra (cm_args c)) -> one_line (ma_version m) ->
  healthy (ex_os (ma_ext m)) -> sorts_ranges (re_sort (ma_env m)) -> proper n -> content (ex_cab (ma_ext m)) (w_fs w) (locate (os_cwd (ex_os (ma_ext m))) (path_push dir n)) n buf ->
  ma_arch m (cm_arch c) = Some arch -> ps_peek (ex_ps (ma_ext m)) buf = FmtPe -> ps_pe (ex_ps (ma_ext m)) buf = Some pe ->
  get_sym_servers (ex_os (ma_ext m)) (w_fs w) (ex_home (ma_ext m)) (cm_server c) = Ok servers -> get_pe_pdb_buf (ma_ext m) (w_fs w) (path_push dir n) buf servers = Ok (None, fs') ->
  pa_functions (pf_obj pe) = Some fns -> consistent (flat_map fun_refs (readable fns)) -> exceptions_u32 (pf_obj pe) ->
  (forall fs o, load_file (ma_ext m) (ma_env m) (config_of m (w_fs w) c (select_output (ar_output (cm_args c)) (ar_store (cm_args c)))) (w_fs w) (path_push dir n) = (fs, Ok o) ->
    writable ls o /\ proper (ob_name o) /\ proper (ob_debug_id o)) ->
  program m argv w w' 0 ->
  exists o text rs, delivered (ex_os (ma_ext m)) text (select_output (ar_output (cm_args c)) (ar_store (cm_args c))) o (set_fs w fs') w' /\ parse_file text = Some rs /\
    read_back (set_map (ma_env m) (fun _ => Ok None) false) Win (pf_obj pe) fns rs.
Proof.
  intros m argv w w' c dir n buf pe fns ls arch servers fs' G F L I1 I2 Hs Hx Hv He So Pn Ct Ea Pk Pe Sv Gp Pf Co Ex Wr P.
  destruct (dump_back m argv w w' c dir n buf (pf_obj pe) fns ls Win arch (fun _ => set_map (ma_env m) (fun _ => Ok None) false) G F L I1 I2 Hs Hx Hv He So Pn Ct Ea Pf Co Ex Wr) as (pm & fs & o & text & rs & Em & Hg & D & Pr & R & Nd); auto.
  - intros pm fs o _ Hg. unfold get_object_info, get_pe_pdb_object_info, get_pe_object_info in Hg. rewrite Pk, Sv in Hg. cbn [bind] in Hg. rewrite Gp, Pe in Hg. injection Hg as _ Hg. unfold from_pe in Hg. eauto.
  - exists o, text, rs. unfold get_object_info, get_pe_pdb_object_info, get_pe_object_info in Hg. rewrite Pk, Sv in Hg. cbn [bind] in Hg. rewrite Gp, Pe in Hg. injection Hg as <- _. auto.
Qed.
Print Assumptions C76_pe_alone.
(** The path shown for a line or a call: what the first rule that applies makes of
    it, else the path itself. *)
Theorem C76_shown : forall m fs c pm i pl main, (forall v, Permutation (ma_order m v) v) -> path_mapping m fs c = Ok pm ->
  exists cli file, variables_of (opt_list (cm_var c)) cli /\
  let src := ce_src (run_cenv (set_map (ma_env m) pm i) pl main) in
  let rules := rule_list cli file (opt_list (cm_src c)) (opt_list (cm_dest c)) in
  forall lf name, fs_get fs (locate (os_cwd (ex_os (ma_ext m))) (env_path src (d_file lf))) <> Some NDir ->
    exists r, first_rule (map_env m fs) (env_path src (d_file lf)) rules r /\
      snd (line_text src lf) = or_self r (env_path src (d_file lf)) /\ fm_file (frame_text src (re_dm (ma_env m)) (name, lf)) = or_self r (env_path src (d_file lf)).
Proof.
  intros m fs c pm i pl main Po Em. destruct (path_mapping_ok m fs c pm Po Em) as (cli & file & V & _ & _ & A). exists cli, file. split; [exact V|].
  cbv zeta. intros lf name Nd. set (p := env_path _ _) in *. destruct (A p) as [(Np & B)|(D & _)]; [|contradiction]. exists (match pm p with Ok q => q | _ => None end). split; [now apply B|]. split; reflexivity.
Qed.
Print Assumptions C76_shown.
(** Without rules nothing is mapped. *)
Theorem C76_no_rules : forall m fs c pm, cm_map_file c = None -> cm_src c = None -> cm_dest c = None -> path_mapping m fs c = Ok pm -> forall p, pm p = Ok None.
Proof.
  intros m fs c pm F S D. unfold path_mapping, mappings_new. rewrite F, S, D. destruct (get_variables (cm_var c)) as [vs|s|s]; cbn [bind option_map get_mappings_from_file get_mappings app]; [|discriminate|discriminate].
  intros [= <-] p. reflexivity.
Qed.
Print Assumptions C76_no_rules.

(** *** Examples *)
(** The ELF file of C70, dumped with inlines, one variable and one rule. *)
Definition px_ps : Parsers := mkParsers (fun _ => FmtElf) (fun d => match d with [69] => Some sx_main | _ => None end) (fun _ => None) (fun _ => None) (fun _ => None).
Definition px_ext : Ext := mkExt px_ps (M_Cache.mkCEnv ix_os (fun _ => None) (fun _ => true)) (mkNet (fun _ => None) (fun _ => None)) (fun l => l) None.
Definition px_m : Machine := mkMachine (lit "x86_64") (lit "2.3") 4 px_ext (sx_env false) mx_ok (me_caps mx_env) (fun v => v) (fun _ => None)
  (fun s => if str_eqb s (lit "x86_64") then Some 2 else None) dec (fun l => l) (fun _ => lit "help").
Definition px_argv : list str := map lit ["libx.so"; "--inlines"; "--mapping-var"; "rev=7"; "--mapping-src"; "/b/"; "--mapping-dest"; "hg:{rev}:{1}"; "-o"; "x.sym"]%string.
Definition px_w : World := mkWorld [([lit "w"; lit "home"], NDir); ([lit "libx.so"; lit "w"; lit "home"], NFile [69])] [] [].
Definition px_c : Cmd := mkCmd (mkArgs [lit "libx.so"] (Some (lit "x.sym")) None (lit "error") [] false [] false)
  None None None (lit "x86_64") false true (Some [lit "rev=7"]) (Some [lit "/b/"]) (Some [lit "hg:{rev}:{1}"]) None.
Lemma px_command : command (ma_target px_m) px_argv = Got px_c.
Proof. vm_compute. reflexivity. Qed.
Definition px_text (w : World) : option (list Rec) :=
  match fs_get (w_fs w) [lit "x.sym"; lit "w"; lit "home"] with Some (NFile d) => match decode d with Some t => parse_file t | None => None end | _ => None end.

Example C76_ex : exists w' rs, program px_m px_argv px_w w' 0 /\ px_text w' = Some rs /\
  read_name rs 4096 = Some (lit "f") /\
  read_inlines rs 4096 4110 = Some [mkFrame (lit "g") 1 (lit "hg:7:s/f0.c"); mkFrame (lit "h") 10 (lit "hg:7:s/f1.c")] /\
  read_line rs 4096 4110 = Some (Some (20, lit "hg:7:s/f2.c")).
Proof.
  eexists _, _. split; [apply (pr_one _ _ _ px_c (lit "libx.so")); [exact px_command|reflexivity|vm_compute; reflexivity]|]. split; [vm_compute; reflexivity|]. splits; vm_compute; reflexivity.
Qed.

(** A rule asks for the digest of a source file and there is a directory in its
    place; without the directory the same run succeeds. *)
Definition px_argv_digest : list str := map lit ["libx.so"; "--inlines"; "--mapping-src"; "/b/"; "--mapping-dest"; "{digest}"; "-o"; "x.sym"]%string.
Definition px_dir : World := mkWorld (w_fs px_w ++ [([lit "f0.c"; lit "s"; lit "b"], NDir)]) [] [].
Example C76_ex_directory : program px_m px_argv_digest px_dir px_dir 101 /\
  exists w', program px_m px_argv_digest px_w w' 0.
Proof.
  split; [|eexists]; (eapply pr_one; [vm_compute; reflexivity|reflexivity|vm_compute; reflexivity]).
Qed.

(** Without [--inlines] and rules: the line of the outermost function, paths as
    they are, on the standard output. *)
Example C76_ex_plain : exists w' t rs, program px_m [lit "libx.so"] px_w w' 0 /\ decode (w_out w') = Some t /\ parse_file t = Some rs /\
  read_inlines rs 4096 4110 = Some [] /\ read_line rs 4096 4110 = Some (Some (1, lit "/b/s/f0.c")).
Proof.
  eexists _, _, _. split; [eapply pr_one; [vm_compute; reflexivity|reflexivity|vm_compute; reflexivity]|]. split; [vm_compute; reflexivity|]. split; [vm_compute; reflexivity|]. splits; vm_compute; reflexivity.
Qed.
Lemma ok_inj {A} (x y : A) : Ok x = Ok y -> x = y.
Proof. congruence. Qed.
Lemma pair_inj {A B} (a c : A) (b d : B) : (a, b) = (c, d) -> a = c /\ b = d.
Proof. intros [= -> ->]. auto. Qed.
Definition px_pm : str -> res (option str) := match path_mapping px_m (w_fs px_w) px_c with Ok f => f | _ => fun _ => Ok None end.
Lemma px_pm_ok : path_mapping px_m (w_fs px_w) px_c = Ok px_pm.
Proof.
  unfold px_pm. assert (H : match path_mapping px_m (w_fs px_w) px_c with Ok _ => true | _ => false end = true) by (vm_compute; reflexivity).
  destruct (path_mapping px_m (w_fs px_w) px_c); [reflexivity|discriminate|discriminate].
Qed.
Definition px_o : Obj := ox_get (from_object (set_map (ma_env px_m) px_pm true) Linux sx_main (lit "libx.so") None None).
Lemma px_o_ok : from_object (set_map (ma_env px_m) px_pm true) Linux sx_main (lit "libx.so") None None = Ok px_o.
Proof. vm_compute. reflexivity. Qed.
Lemma px_writable : writable [lit "CFI INIT 10 20 x"] px_o.
Proof.
  destruct sx_words as (W1 & W2 & W3 & W4).
  apply (C31_fresh_writable (sp_shown (ce_src (run_cenv (set_map (ma_env px_m) px_pm true) Linux sx_main)))).
  - exists (set_map (ma_env px_m) px_pm true), Linux, sx_main, (lit "libx.so"), None, None.
    split; [apply sorts_perm, cx_sorts|]. split; [intros fs' [= <-]; exact collector_consistent|]. split; [intros xs b e [=]|]. split; [reflexivity|exact px_o_ok].
  - apply (head_check px_o (lit "x86_64") (lit "AB12") (lit "libx.so") (Some (lit "C0DE"))); try (vm_compute; reflexivity); try assumption.
    split; [exact W4|]. exists (lit "C0D"), 69. split; reflexivity.
  - apply names_check; vm_compute; reflexivity.
  - vm_compute. reflexivity.
Qed.
Example C76_hypotheses : command (ma_target px_m) px_argv = Got px_c /\ path_push [] (lit "libx.so") = lit "libx.so" /\ healthy ix_os /\
  proper (lit "libx.so") /\ content (ex_cab px_ext) (w_fs px_w) (locate (os_cwd ix_os) (lit "libx.so")) (lit "libx.so") [69] /\
  sorts_ranges (re_sort (ma_env px_m)) /\ consistent (flat_map fun_refs (readable cx_fs)) /\ exceptions_u32 sx_main /\
  path_mapping px_m (w_fs px_w) px_c = Ok px_pm /\ (forall v, Permutation (ma_order px_m v) v) /\
  debug_info px_ps 2 [69] Linux sx_main /\ ma_arch px_m (cm_arch px_c) = Some 2 /\
  (forall fs o, load_file px_ext (ma_env px_m) (config_of px_m (w_fs px_w) px_c (OFile (FPath (lit "x.sym")))) (w_fs px_w) (lit "libx.so") = (fs, Ok o) ->
    writable [lit "CFI INIT 10 20 x"] o /\ proper (ob_name o) /\ proper (ob_debug_id o)).
Proof.
  pose proof px_pm_ok as Em.
  split; [exact px_command|]. split; [reflexivity|]. split; [intros l; reflexivity|]. split; [apply ix_proper; [reflexivity|cbn; lia]|].
  split; [exists [69]; split; [reflexivity|left; split; reflexivity]|].
  split; [exact cx_sorts|]. split; [exact collector_consistent|]. split; [intros xs b x [=]|]. split; [exact Em|]. split; [intros v; apply Permutation_refl|].
  split; [apply di_elf; reflexivity|]. split; [reflexivity|]. intros fs o Ho.
  assert (Ct : content (ex_cab px_ext) (w_fs px_w) (locate (os_cwd (ex_os px_ext)) (path_push [] (lit "libx.so"))) (lit "libx.so") [69]) by (exists [69]; split; [reflexivity|left; split; reflexivity]).
  assert (Pn : proper (lit "libx.so")) by (apply ix_proper; [reflexivity|cbn; lia]).
  pose proof (C58_by_path px_ext (ma_env px_m) (config_of px_m (w_fs px_w) px_c (OFile (FPath (lit "x.sym")))) (w_fs px_w) [] (lit "libx.so") [69] px_pm 2 Pn eq_refl eq_refl Ct Em eq_refl) as B.
  change (path_push [] (lit "libx.so")) with (lit "libx.so") in B. rewrite B in Ho. clear B.
  change (cf_inlines _) with true in Ho. change (cf_symbol_server _) with (@None str) in Ho.
  rewrite (C57_elf px_ext (set_map (ma_env px_m) px_pm true) (w_fs px_w) [69] (lit "libx.so") (lit "libx.so") 2 None sx_main eq_refl eq_refl) in Ho. rewrite px_o_ok in Ho. apply pair_inj in Ho. destruct Ho as [_ Ho]. apply ok_inj in Ho. subst o. split; [exact px_writable|].
  replace (ob_name px_o) with (lit "libx.so") by (vm_compute; reflexivity). replace (ob_debug_id px_o) with (lit "AB12") by (vm_compute; reflexivity).
  split; apply ix_proper; try reflexivity; cbn; lia.
Qed.

(** A program made with MinGW: an executable of Windows with its own debug info
    and no PDB.  Inlined calls are asked for and a rule rewrites the paths, and
    neither shows in the symbol file, against what the file of [C76_ex] with the
    same debug info gives. *)
Definition mw_pe : PeFile := mkPeFile 1 None (mkParsed (pa_functions sx_main) (pa_debug_id sx_main) (pa_code_id sx_main) (pa_arch sx_main) true true (pa_exceptions sx_main) (pa_publics sx_main) (pa_size sx_main)
  (pa_secs sx_main) (pa_unxz sx_main) (pa_unwind sx_main) (pa_cfi sx_main) (pa_bytes sx_main) (pa_inner sx_main)).
Definition mw_ps : Parsers := mkParsers (fun _ => FmtPe) (fun _ => None) (fun d => match d with [69] => Some mw_pe | _ => None end) (fun _ => None) (fun _ => None).
Definition mw_ext : Ext := mkExt mw_ps (ex_env px_ext) (ex_net px_ext) (ex_sched px_ext) None.
Definition mw_m : Machine := mkMachine (ma_target px_m) (ma_version px_m) (ma_cpus px_m) mw_ext (ma_env px_m) (ma_re_ok px_m) (ma_caps px_m) (ma_order px_m) (ma_json px_m) (ma_arch px_m) (ma_arch_name px_m) (ma_iter px_m) (ma_text px_m).
Theorem C76_mingw_refuted : exists m argv w w' c buf pe pm rs fr l,
  command (ma_target m) argv = Got c /\ ar_files (cm_args c) = [lit "libx.so"] /\ cm_inlines c = true /\ path_mapping m (w_fs w) c = Ok pm /\
  content (ex_cab (ma_ext m)) (w_fs w) (locate (os_cwd (ex_os (ma_ext m))) (lit "libx.so")) (lit "libx.so") buf /\
  ps_peek (ex_ps (ma_ext m)) buf = FmtPe /\ ps_pe (ex_ps (ma_ext m)) buf = Some pe /\ pf_pdb pe = None /\
  pa_functions (pf_obj pe) = pa_functions sx_main /\
  program m argv w w' 0 /\ px_text w' = Some rs /\
  read_inlines rs 4096 4110 = Some [] /\ read_line rs 4096 4110 = Some (Some (l, lit "/b/s/f0.c")) /\ pm (lit "/b/s/f0.c") = Ok (Some (lit "hg:7:s/f0.c")) /\
  (exists v rs', program px_m argv w v 0 /\ px_text v = Some rs' /\ read_inlines rs' 4096 4110 = Some [fr; mkFrame (lit "h") 10 (lit "hg:7:s/f1.c")]).
Proof.
  exists mw_m, px_argv, px_w. eexists. exists px_c, [69], mw_pe, px_pm. eexists. exists (mkFrame (lit "g") 1 (lit "hg:7:s/f0.c")), 1.
  split; [exact px_command|]. split; [reflexivity|]. split; [reflexivity|]. split; [exact px_pm_ok|].
  split; [exists [69]; split; [reflexivity|left; split; reflexivity]|]. split; [reflexivity|]. split; [reflexivity|]. split; [reflexivity|]. split; [reflexivity|].
  split; [apply (pr_one _ _ _ px_c (lit "libx.so")); [exact px_command|reflexivity|vm_compute; reflexivity]|]. split; [vm_compute; reflexivity|].
  split; [vm_compute; reflexivity|]. split; [vm_compute; reflexivity|]. split; [vm_compute; reflexivity|].
  destruct C76_ex as (v & rs' & P & T & _ & I & _). exists v, rs'. auto.
Qed.
Print Assumptions C76_mingw_refuted.

Lemma head_check_pe o cpu id name code : ob_cpu o = cpu -> ob_debug_id o = id -> ob_name o = name -> ob_code_id o = code -> ob_pe_name o = Some name ->
  one_word cpu -> one_word id -> one_line name -> match code with Some c => one_line c /\ exists t x, c = t ++ [x] /\ is_ws x = false | None => True end -> (exists t x, name = t ++ [x] /\ is_ws x = false) ->
  clean_head o.
Proof. intros <- <- <- <- E A B C D F. unfold clean_head. rewrite E. auto 10. Qed.
Definition mw_o : Obj := ox_get (from_object (set_map (ma_env mw_m) (fun _ => Ok None) false) Win (pf_obj mw_pe) (lit "libx.so") None (Some (lit "libx.so"))).
Example C76_hypotheses_pe : ma_arch mw_m (cm_arch px_c) = Some 2 /\ pa_functions (pf_obj mw_pe) = Some cx_fs /\ exceptions_u32 (pf_obj mw_pe) /\
  get_sym_servers (ex_os mw_ext) (w_fs px_w) (ex_home mw_ext) (cm_server px_c) = Ok None /\ get_pe_pdb_buf mw_ext (w_fs px_w) (lit "libx.so") [69] None = Ok (None, w_fs px_w) /\
  (forall fs o, load_file mw_ext (ma_env mw_m) (config_of mw_m (w_fs px_w) px_c (OFile (FPath (lit "x.sym")))) (w_fs px_w) (lit "libx.so") = (fs, Ok o) ->
    writable [lit "CFI INIT 10 20 x"] o /\ proper (ob_name o) /\ proper (ob_debug_id o)).
Proof.
  split; [reflexivity|]. split; [reflexivity|]. split; [intros xs b x [=]|]. split; [vm_compute; reflexivity|]. split; [vm_compute; reflexivity|]. intros fs o Ho.
  assert (Ct : content (ex_cab mw_ext) (w_fs px_w) (locate (os_cwd (ex_os mw_ext)) (path_push [] (lit "libx.so"))) (lit "libx.so") [69]) by (exists [69]; split; [reflexivity|left; split; reflexivity]).
  assert (Pn : proper (lit "libx.so")) by (apply ix_proper; [reflexivity|cbn; lia]).
  pose proof (C58_by_path mw_ext (ma_env mw_m) (config_of mw_m (w_fs px_w) px_c (OFile (FPath (lit "x.sym")))) (w_fs px_w) [] (lit "libx.so") [69] px_pm 2 Pn eq_refl eq_refl Ct px_pm_ok eq_refl) as B.
  change (path_push [] (lit "libx.so")) with (lit "libx.so") in B. rewrite B in Ho. clear B.
  change (get_object_info _ _ _ _ _ _ _ _) with (w_fs px_w, from_object (set_map (ma_env mw_m) (fun _ => Ok None) false) Win (pf_obj mw_pe) (lit "libx.so") None (Some (lit "libx.so"))) in Ho.
  assert (Mo : from_object (set_map (ma_env mw_m) (fun _ => Ok None) false) Win (pf_obj mw_pe) (lit "libx.so") None (Some (lit "libx.so")) = Ok mw_o) by (vm_compute; reflexivity).
  rewrite Mo in Ho. apply pair_inj in Ho. destruct Ho as [_ Ho]. apply ok_inj in Ho. subst o. split.
  - destruct sx_words as (W1 & W2 & W3 & W4).
    apply (C31_fresh_writable (sp_shown (ce_src (run_cenv (set_map (ma_env mw_m) (fun _ => Ok None) false) Win (pf_obj mw_pe))))).
    + exists (set_map (ma_env mw_m) (fun _ => Ok None) false), Win, (pf_obj mw_pe), (lit "libx.so"), None, (Some (lit "libx.so")).
      split; [apply sorts_perm, cx_sorts|]. split; [intros fs' [= <-]; exact collector_consistent|]. split; [intros xs b e [=]|]. split; [reflexivity|exact Mo].
    + apply (head_check_pe mw_o (lit "x86_64") (lit "AB12") (lit "libx.so") (Some (lit "C0DE"))); try (vm_compute; reflexivity); try assumption.
      * split; [exact W4|]. exists (lit "C0D"), 69. split; reflexivity.
      * exists (lit "libx.s"), 111. split; reflexivity.
    + apply names_check; vm_compute; reflexivity.
    + vm_compute. reflexivity.
  - replace (ob_name mw_o) with (lit "libx.so") by (vm_compute; reflexivity). replace (ob_debug_id mw_o) with (lit "AB12") by (vm_compute; reflexivity).
    split; apply ix_proper; try reflexivity; cbn; lia.
Qed.
(** The same executable with a PDB beside it: the rule and [--inlines] apply. *)
Definition vw_pe : PeFile := mkPeFile 1 (Some (lit "C:\b\x.pdb")) (pf_obj mw_pe).
Definition vw_ps : Parsers := mkParsers (fun d => match d with [68] => FmtPdb | _ => FmtPe end) (fun _ => None) (fun d => match d with [69] => Some vw_pe | _ => None end)
  (fun d => match d with [68] => Some (mkPdbFile 1 sx_main) | _ => None end) (fun _ => None).
Definition vw_ext : Ext := mkExt vw_ps (ex_env px_ext) (ex_net px_ext) (ex_sched px_ext) None.
Definition vw_m : Machine := mkMachine (ma_target px_m) (ma_version px_m) (ma_cpus px_m) vw_ext (ma_env px_m) (ma_re_ok px_m) (ma_caps px_m) (ma_order px_m) (ma_json px_m) (ma_arch px_m) (ma_arch_name px_m) (ma_iter px_m) (ma_text px_m).
Definition vw_w : World := mkWorld (w_fs px_w ++ [([lit "x.pdb"; lit "w"; lit "home"], NFile [68])]) [] [].
Example C76_ex_pe_pdb : get_sym_servers (ex_os vw_ext) (w_fs vw_w) (ex_home vw_ext) (cm_server px_c) = Ok None /\ get_pe_pdb_buf vw_ext (w_fs vw_w) (lit "libx.so") [69] None = Ok (Some (vw_pe, [68], lit "x.pdb"), w_fs vw_w) /\
  ps_pdb vw_ps [68] = Some (mkPdbFile 1 sx_main) /\ (exists o, from_object (set_map (ma_env vw_m) px_pm (cm_inlines px_c)) Win sx_main (lit "x.pdb") (Some (pf_obj vw_pe)) (Some (lit "libx.so")) = Ok o) /\
  exists w' rs, program vw_m px_argv vw_w w' 0 /\ px_text w' = Some rs /\ read_name rs 4096 = Some (lit "f") /\
  read_inlines rs 4096 4110 = Some [mkFrame (lit "g") 1 (lit "hg:7:s/f0.c"); mkFrame (lit "h") 10 (lit "hg:7:s/f1.c")] /\
  read_line rs 4096 4110 = Some (Some (20, lit "hg:7:s/f2.c")).
Proof.
  split; [vm_compute; reflexivity|]. split; [vm_compute; reflexivity|]. split; [reflexivity|]. split; [eexists; vm_compute; reflexivity|].
  eexists _, _. split; [apply (pr_one _ _ _ px_c (lit "libx.so")); [exact px_command|reflexivity|vm_compute; reflexivity]|]. split; [vm_compute; reflexivity|]. splits; vm_compute; reflexivity.
Qed.

Definition px_end (argv : list str) (w : World) : World * N :=
  match command (ma_target px_m) argv with Got c => main_one (ma_version px_m) (ma_cpus px_m) px_ext (ma_env px_m) dec (config_of px_m (w_fs w) c) (cm_args c) w (hd [] (ar_files (cm_args c))) | _ => (w, 2) end.
(** Status 2, 0, 101 (a file that is not there, a bad INFO line, a mapping file
    that is a directory) and 1 (rules without a place for them). *)
Example C75_ex_usage : program px_m (map lit ["libx.so"; "--inline"]%string) px_w px_w 2.
Proof. apply pr_usage. vm_compute. reflexivity. Qed.
Example C75_ex_help : program px_m (map lit ["libx.so"; "--help"]%string) px_w (mkWorld (w_fs px_w) (lit "help") []) 0.
Proof. apply (pr_shown px_m). vm_compute. reflexivity. Qed.
Example C75_ex_no_info : exists c, command (ma_target px_m) (map lit ["libx.so"; "liby.so"; "--extra-info"; "x"]%string) = Got c /\ In (lit "x") (ar_extra (cm_args c)) /\ ~ info_text (lit "x") /\
  program px_m (map lit ["libx.so"; "liby.so"; "--extra-info"; "x"]%string) px_w px_w 101.
Proof.
  assert (N1 : ~ info_text (lit "x")) by (rewrite <- info_spec; vm_compute; discriminate).
  assert (G : exists c, command (ma_target px_m) (map lit ["libx.so"; "liby.so"; "--extra-info"; "x"]%string) = Got c /\ In (lit "x") (ar_extra (cm_args c))) by (eexists; split; [vm_compute; reflexivity|now left]).
  destruct G as (c & G & I). exists c. splits; try assumption. destruct (C75_no_work px_m (map lit ["libx.so"; "liby.so"; "--extra-info"; "x"]%string) px_w px_w 101) as (_ & _ & H). apply (H c (lit "x") G I N1). auto.
Qed.
Definition lm_m : Machine := mkMachine (lit "x86_64") (lit "2.3") 4 ix (sx_env false) mx_ok (me_caps mx_env) (fun v => v) (fun _ => None) (fun _ => None) dec (fun l => l) (fun _ => []).
Definition lm_w : World := mkWorld [([lit "a"], NFile (lit "M1")); ([lit "b"], NFile (lit "M2")); ([lit "c"], NFile (lit "E"))] (lit "> ") [].
Example C75_ex_listing :
  program lm_m (map lit ["/a"; "/c"; "/b"; "--list-arch"]%string) lm_w (mkWorld (w_fs lm_w) (encode (lit "> a contains the following architecture:" ++ [c_nl] ++ lit "7" ++ [c_nl])) []) 1.
Proof. eapply pr_list; [vm_compute; reflexivity|reflexivity|vm_compute; reflexivity|vm_compute; reflexivity]. Qed.
Example C75_ex_ends :
  snd (px_end [lit "libx.so"] px_w) = 0 /\ snd (px_end [lit "gone"] px_w) = 101 /\
  px_end (map lit ["libx.so"; "--extra-info"; "x"]%string) px_w = (px_w, 101) /\
  px_end (map lit ["libx.so"; "--mapping-file"; "/home/w"]%string) px_w = (px_w, 101) /\
  px_end (map lit ["libx.so"; "--mapping-src"; "/b/"]%string) px_w = (px_w, 1).
Proof. splits; vm_compute; reflexivity. Qed.
Example C75_ex_directory : is_panic (path_mapping px_m (w_fs px_w) (mkCmd (cm_args px_c) None None None (lit "x86_64") false true None None None (Some (lit "/home/w")))) = true.
Proof. vm_compute. reflexivity. Qed.
(** Two files: what several files do is asked for with four jobs; with an unknown
    architecture the status is 1. *)
Example C75_ex_several : exists c, command (ma_target px_m) (map lit ["libx.so"; "liby.so"; "-j"; "4"; "--arch"; "nope"]%string) = Got c /\ ar_files (cm_args c) = [lit "libx.so"; lit "liby.so"] /\
  num_jobs (ma_cpus px_m) (ar_jobs (cm_args c)) = 4 /\ program px_m (map lit ["libx.so"; "liby.so"; "-j"; "4"; "--arch"; "nope"]%string) px_w px_w 1.
Proof.
  eexists. split; [vm_compute; reflexivity|]. split; [reflexivity|]. split; [vm_compute; reflexivity|].
  eapply pr_several; [vm_compute; reflexivity|reflexivity|vm_compute; reflexivity|]. eapply sv_arch; reflexivity.
Qed.
