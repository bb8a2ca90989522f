(** Theorems C37, C38 and C39: path mappings. *)
From Verif Require Import Base Str M_Mapping S_Mapping P_Mapping.

(** ** C37 *)
(** Every template splits into literal text and actions. *)
Theorem C37_decomposes : forall s, exists parts tail, decomposed s parts tail.
Proof. exact decomposes. Qed.
Print Assumptions C37_decomposes.

(** However it splits, the rule built from it replaces each action by its value
    and copies the literal text; it does not apply to a path outside its file
    list or not matching its expression. *)
Theorem C37_expansion : forall re_ok re s vars files parts tail ms, re_ok re = true -> decomposed s parts tail ->
  Forall2 (fun p m => means vars (snd p) m) parts ms ->
  exists g, gen_new re_ok re s vars files = Ok g /\ g_files g = files /\ forall e file,
    (covers files file -> forall caps, me_caps e re file = Some caps -> gen_apply e g file = expand e file caps (combine (map fst parts) ms) tail) /\
    ((covers files file -> me_caps e re file = None) -> gen_apply e g file = Ok None).
Proof. exact gen_new_ok. Qed.
Print Assumptions C37_expansion.

(** An unknown action (or a bad expression) is refused when the rule is built. *)
Theorem C37_unknown_action : forall re_ok re s vars files parts tail, decomposed s parts tail ->
  (exists p, In p parts /\ forall m, ~ means vars (snd p) m) \/ re_ok re = false ->
  exists w, gen_new re_ok re s vars files = Err w.
Proof. exact gen_new_unknown. Qed.
Print Assumptions C37_unknown_action.

(** Building a rule never panics. *)
Theorem C37_no_panic : forall re_ok re s vars files, is_panic (gen_new re_ok re s vars files) = false.
Proof. exact gen_new_total. Qed.
Print Assumptions C37_no_panic.

(** A matching engine for the examples: the expression is a prefix, group 0 the
    path, group 1 what follows the prefix, no other group. *)
Definition mx_env : MapEnv := mkMapEnv
  (fun re file => if starts_with re file then Some (fun n => if n =? 0 then Some file else if n =? 1 then Some (skipn (length re) file) else None) else None)
  (fun up file => if str_eqb file (lit "/foo/gone") then Err "metadata" else Ok (if up then lit "AB" else lit "ab")).
Definition mx_vars : Vars := [(lit "rev", lit "r42")].
Definition mx_template : str := lit "s3://{{rev}:}{1}/{digest}}{tail".
Definition mx_parts : list (str * str) := [(lit "s3://{", lit "rev"); (lit ":}", lit "1"); (lit "/", lit "digest")].
Definition mx_tail : str := lit "}{tail".
Definition mx_ms : list Meaning := [MVar (lit "r42"); MGroup 1; MDigest false].
Definition mx_ok (re : str) : bool := negb (str_eqb re (lit "(")).
Example C37_ex_split : decomposed mx_template mx_parts mx_tail.
Proof. apply decomposed_b. vm_compute. reflexivity. Qed.
Example C37_ex_means : Forall2 (fun p m => means mx_vars (snd p) m) mx_parts mx_ms.
Proof. repeat (constructor; [apply means_kind; vm_compute; reflexivity|]). constructor. Qed.
Example C37_ex_expand : exists g, gen_new mx_ok (lit "/foo/") mx_template mx_vars [] = Ok g /\
  gen_apply mx_env g (lit "/foo/a.c") = Ok (Some (lit "s3://{r42:}a.c/ab}{tail")) /\
  gen_apply mx_env g (lit "/foo/gone") = Err "metadata" /\ gen_apply mx_env g (lit "/bar/a.c") = Ok None.
Proof. eexists. vm_compute. auto. Qed.
(** A variable whose name is a number comes before the group. *)
Example C37_ex_numeric : exists g, gen_new mx_ok (lit "/foo/") (lit "{1}") [(lit "1", lit "v")] [] = Ok g /\
  gen_apply mx_env g (lit "/foo/a.c") = Ok (Some (lit "v")).
Proof. eexists. vm_compute. auto. Qed.
Example C37_ex_missing_group : exists g, gen_new mx_ok (lit "/foo/") (lit "{2}{digest}") mx_vars [] = Ok g /\
  gen_apply mx_env g (lit "/foo/gone") = Ok None.
Proof. eexists. vm_compute. auto. Qed.
Example C37_ex_unknown : forall m, ~ means mx_vars (lit "nope") m.
Proof. intros m H. apply means_kind in H. vm_compute in H. discriminate. Qed.
Example C37_ex_rejected : gen_new mx_ok (lit "/foo/") (lit "x{nope}") mx_vars [] = Err "Invalid action in mapping string"
  /\ gen_new mx_ok (lit "(") (lit "x") mx_vars [] = Err "regex".
Proof. vm_compute. auto. Qed.

(** ** C38 *)
(** The rules of a mapping: the rules of the file that list files, the other
    rules of the file, the rules of the command line. The variables of the
    command line override those of the file; the rules of the command line only
    see the former. *)
Theorem C38_rule_order : forall re_ok order variables ss ds file og, (forall m, Permutation (order m) m) ->
  mappings_new re_ok order variables ss ds file = Ok og ->
  exists cli gf gc, get_variables variables = Ok cli /\ opt_list og = gf ++ gc /\ (og = None <-> gf ++ gc = []) /\
    lenN (opt_list ss) = lenN (opt_list ds) /\ Forall2 (built re_ok cli) (cli_rules (opt_list ss) (opt_list ds)) gc /\
    match file with
    | None => gf = []
    | Some (Ok f) => exists vs, overrides cli (rf_vars f) vs /\
        Forall2 (built re_ok vs) (filter restricted (rf_rules f) ++ filter (fun r => negb (restricted r)) (rf_rules f)) gf
    | Some _ => False
    end.
Proof. exact mappings_new_inv. Qed.
Print Assumptions C38_rule_order.

(** The first rule that applies gives the answer; a rule that fails stops the
    search. *)
Theorem C38_first_rule : forall e gs f,
  (forall s, first_mapping e gs f = Ok (Some s) <->
    exists a g b, gs = a ++ g :: b /\ Forall (fun h => gen_apply e h f = Ok None) a /\ gen_apply e g f = Ok (Some s)) /\
  (first_mapping e gs f = Ok None <-> Forall (fun h => gen_apply e h f = Ok None) gs) /\
  (forall w, first_mapping e gs f = Err w <->
    exists a g b, gs = a ++ g :: b /\ Forall (fun h => gen_apply e h f = Ok None) a /\ gen_apply e g f = Err w) /\
  (forall w, first_mapping e gs f = Panic w <->
    exists a g b, gs = a ++ g :: b /\ Forall (fun h => gen_apply e h f = Ok None) a /\ gen_apply e g f = Panic w).
Proof. intros e gs f. split; [intros s; apply first_some|split; [apply first_none|split; [intros w; apply first_err|intros w; apply first_panic]]]. Qed.
Print Assumptions C38_first_rule.

(** Any number of threads looking up paths in any interleaving of their checks
    and insertions: every answer is the one computed without memo. *)
Theorem C38_memo_transparent : forall e gs m f, reachable e gs m ->
  (exists x m', lookup_step e gs m f x m') /\ forall x m', lookup_step e gs m f x m' -> x = first_mapping e gs f.
Proof. intros e gs m f R. split; [apply lookup_progress|]. intros x m'. exact (lookup_exact e gs m f x m' R). Qed.
Print Assumptions C38_memo_transparent.

(** Lookups one after the other give what each gives alone. *)
Theorem C38_history : forall e gs l, lookups e gs [] l = map (first_mapping e gs) l.
Proof. intros e gs l. apply lookups_exact. discriminate. Qed.
Print Assumptions C38_history.

(** Failures and misses are not memoised: a later lookup, with the files as
    they are by then, is computed afresh. *)
Theorem C38_retry : forall e1 e2 gs c f, (forall r, fst (map_path e1 gs c f) <> Ok (Some r)) ->
  snd (map_path e1 gs c f) = c /\ fst (map_path e2 gs (snd (map_path e1 gs c f)) f) = first_mapping e2 gs f.
Proof. intros e1 e2 gs c f H. destruct (retry e1 e2 gs c f H) as [-> E]. auto. Qed.
Print Assumptions C38_retry.

(** The restriction to unchanged files is needed: a memoised digest is kept
    when the file changes. *)
Theorem C38_changed_file_refuted : exists e1 e2 gs f r, fst (map_path e1 gs [] f) = Ok (Some r) /\
  fst (map_path e2 gs (snd (map_path e1 gs [] f)) f) <> first_mapping e2 gs f.
Proof.
  exists mx_env, (mkMapEnv (me_caps mx_env) (fun _ _ => Ok (lit "cd"))), [mkGen (lit "/foo/") [mkAction (KDigest false) 0 0] (lit "{digest}") []], (lit "/foo/a.c"), (lit "ab").
  vm_compute. split; [reflexivity|discriminate].
Qed.
Print Assumptions C38_changed_file_refuted.

Definition mx_file : RuleFile := mkRuleFile [(lit "rev", lit "file"); (lit "own", lit "o")]
  [mkRule (lit "/foo/") (lit "any/{rev}/{own}/{1}") []; mkRule (lit "/foo/") (lit "only/{rev}/{1}") [lit "/foo/a.c"; lit "/foo/b.c"]].
Definition mx_gens : list Gen :=
  match mappings_new mx_ok (fun m => m) (Some [lit "rev=cli"]) (Some [lit "/"]) (Some [lit "cmd/{0}"]) (Some (Ok mx_file)) with Ok (Some g) => g | _ => [] end.
Example C38_ex : lookups mx_env mx_gens [] [lit "/foo/a.c"; lit "/foo/z.c"; lit "/bar"; lit "none"; lit "/foo/a.c"] =
  [Ok (Some (lit "only/cli/a.c")); Ok (Some (lit "any/cli/o/z.c")); Ok (Some (lit "cmd//bar")); Ok None; Ok (Some (lit "only/cli/a.c"))].
Proof. vm_compute. reflexivity. Qed.
Example C38_ex_reachable : exists m, reachable mx_env mx_gens m /\ var_get (lit "/foo/a.c") (fst m) = Some (lit "only/cli/a.c") /\
  snd m = [(lit "/foo/a.c", lit "only/cli/a.c")].
Proof.
  exists ([(lit "/foo/a.c", lit "only/cli/a.c")], [(lit "/foo/a.c", lit "only/cli/a.c")]). split; [|vm_compute; auto].
  change [(lit "/foo/a.c", lit "only/cli/a.c")] with (var_insert (lit "/foo/a.c") (lit "only/cli/a.c") []) at 1.
  apply (reach_store _ _ [] [] (lit "/foo/a.c") (lit "only/cli/a.c") [(lit "/foo/a.c", lit "only/cli/a.c")]). cbn [app].
  assert (E : first_mapping mx_env mx_gens (lit "/foo/a.c") = Ok (Some (lit "only/cli/a.c"))) by (vm_compute; reflexivity).
  eapply reach_look; [eapply reach_look; [apply reach_start|]|]; apply look_found; try exact E; reflexivity.
Qed.
Example C38_ex_retry : forall r, fst (map_path mx_env [mkGen (lit "/foo/") [mkAction (KDigest false) 0 0] (lit "{digest}") []] [] (lit "/foo/gone")) <> Ok (Some r).
Proof. vm_compute. discriminate. Qed.

(** ** C39 *)
(** A variable is split at its first '='; of two values for one name the later
    one counts. *)
Theorem C39_variables : forall l ps, Forall2 is_pair l ps ->
  exists m, get_variables (Some l) = Ok m /\ NoDup (map fst m) /\ forall k x, stands m k x <-> last_value ps k x.
Proof. intros l ps F. destruct (get_variables_ok l ps F) as (m & E & N & H). exists m. split; [exact E|]. split; [exact N|]. intros k x. rewrite stands_get. apply H. Qed.
Print Assumptions C39_variables.

(** A variable without '=' is rejected. *)
Theorem C39_no_equals : forall (l : list str) (v : str), In v l -> ~ In c_eq v -> get_variables (Some l) = Err "Invalid pair".
Proof. exact get_variables_err. Qed.
Print Assumptions C39_no_equals.

(** Sources and destinations in different numbers are rejected. *)
Theorem C39_lengths : forall re_ok vars ss ds, lenN (opt_list ss) <> lenN (opt_list ds) ->
  exists w, get_mappings re_ok vars ss ds = Err w.
Proof.
  intros re_ok vars ss ds H. unfold get_mappings. destruct ss as [ss|], ds as [ds|]; cbn [opt_len opt_list] in *;
    try (destruct (N.eqb_spec (lenN ss) (lenN ds)); [contradiction|eauto]); try now elim H.
  - destruct (N.eqb_spec (lenN ss) 0); [contradiction|eauto].
  - destruct (N.eqb_spec 0 (lenN ds)); [contradiction|eauto].
Qed.
Print Assumptions C39_lengths.

(** Every pair becomes one rule, in order; no panic, when both lists are given
    or neither is. *)
Theorem C39_pairs_partial : forall re_ok vars ss ds, lenN (opt_list ss) = lenN (opt_list ds) -> (ss = None <-> ds = None) ->
  is_panic (get_mappings re_ok vars ss ds) = false /\
  forall gs, get_mappings re_ok vars ss ds = Ok gs <-> Forall2 (built re_ok vars) (cli_rules (opt_list ss) (opt_list ds)) gs.
Proof. exact get_mappings_pairs. Qed.
Print Assumptions C39_pairs_partial.

(** The full claim fails for an empty list given on one side only: the counts
    agree, yet the program panics. *)
Theorem C39_empty_list_refuted : exists re_ok vars ss ds, lenN (opt_list ss) = lenN (opt_list ds) /\
  is_panic (@get_mappings re_ok vars ss ds) = true.
Proof. exists mx_ok, [], None, (Some []). vm_compute. auto. Qed.
Print Assumptions C39_empty_list_refuted.

(** Exactly then does it panic. *)
Theorem C39_panics : forall re_ok vars ss ds, is_panic (get_mappings re_ok vars ss ds) = true <-> (ss = None /\ ds = Some []) \/ (ss = Some [] /\ ds = None).
Proof.
  intros re_ok vars ss ds. destruct ss as [ss|], ds as [ds|].
  - split; [|intros [(? & ?)|(? & ?)]; discriminate]. intros P. destruct (N.eq_dec (lenN ss) (lenN ds)) as [E|E].
    + destruct (C39_pairs_partial re_ok vars (Some ss) (Some ds) E) as (X & _); [split; discriminate|]. congruence.
    + destruct (C39_lengths re_ok vars (Some ss) (Some ds) E) as (m & X). rewrite X in P. discriminate.
  - destruct ss as [|s ss]; [split; [auto|reflexivity]|]. split; [discriminate|intros [(? & ?)|(? & ?)]; discriminate].
  - destruct ds as [|s ds]; [split; [auto|reflexivity]|]. split; [discriminate|intros [(? & ?)|(? & ?)]; discriminate].
  - split; [discriminate|intros [(? & ?)|(? & ?)]; discriminate].
Qed.
Print Assumptions C39_panics.

Example C39_ex_pairs : Forall2 is_pair [lit "a=1"; lit "b=x=y"; lit "a="] [(lit "a", lit "1"); (lit "b", lit "x=y"); (lit "a", [])].
Proof.
  assert (H : forall v k x, str_eqb v (k ++ c_eq :: x) && negb (existsb (N.eqb c_eq) k) = true -> is_pair v (k, x)).
  { intros v k x H. apply andb_prop in H. destruct H as [H1 H2]. split; [now apply str_eqb_eq|]. intros I. apply existsb_In in I. cbn [fst] in I. now rewrite I in H2. }
  repeat (constructor; [apply H; vm_compute; reflexivity|]). constructor.
Qed.
Example C39_ex_vars : exists m, get_variables (Some [lit "a=1"; lit "b=x=y"; lit "a="]) = Ok m /\ var_get (lit "a") m = Some [] /\ var_get (lit "b") m = Some (lit "x=y").
Proof. eexists. vm_compute. auto. Qed.
Example C39_ex_bad : get_variables (Some [lit "a=1"; lit "novalue"]) = Err "Invalid pair".
Proof. vm_compute. reflexivity. Qed.
Example C39_ex_rules : exists g h, get_mappings mx_ok mx_vars (Some [lit "/a"; lit "/b"]) (Some [lit "A{1}"; lit "B{rev}"]) = Ok [g; h] /\
  gen_apply mx_env g (lit "/ax") = Ok (Some (lit "Ax")) /\ gen_apply mx_env h (lit "/bx") = Ok (Some (lit "Br42")).
Proof. do 2 eexists. vm_compute. auto. Qed.
Example C39_ex_lengths : get_mappings mx_ok mx_vars (Some [lit "/a"; lit "/b"]) (Some [lit "A"]) = Err "mapping-src and mapping-dest must have the same number of elements".
Proof. vm_compute. reflexivity. Qed.
