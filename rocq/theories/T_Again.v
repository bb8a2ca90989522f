(** Theorems C88: dumping one file again. *)
From Verif Require Import Base Str Utf8 M_Path M_Source M_Symbol M_Object M_Fs M_Cache M_Store M_Input M_Mapping M_Cli M_Args M_Shared M_Main
  S_Path S_Fs S_Cache S_Store S_Input S_Shared S_Cli S_Main S_Whole S_Again T_Object P_Fs P_Path P_Cache P_Store P_Input P_Cli P_Main P_Again T_Input T_Mapping T_Main.

(** What a file gives depends on the files at the places that are looked at, and
    on nothing else on the disk. *)
Theorem C88_same_module : forall x e cf fs fs' f d, Forall proper (os_cwd (ex_os x)) -> input_at x fs f d -> local_only x cf fs -> local_only x cf fs' ->
  same_files (looked_at x f d) fs fs' -> load_file x e cf fs' f = (fs', snd (load_file x e cf fs f)) /\ fst (load_file x e cf fs f) = fs.
Proof. intros x e cf fs fs' f d CW IN LO LO' SF. exact (again_load x fs fs' f d CW SF IN e cf LO LO'). Qed.
Print Assumptions C88_same_module.

(** Storing a module where it has been stored works and leaves all files as they
    are; what goes to the standard streams is repeated. *)
Theorem C88_stored_again : forall os extra out ck o w v, proper (ob_name o) -> proper (ob_debug_id o) -> store os extra out ck o w = (v, Ok tt) ->
  exists v', store os extra out ck o v = (v', Ok tt) /\ same_fs (w_fs v') (w_fs v) /\ same_output w v v'.
Proof. exact store_again. Qed.
Print Assumptions C88_stored_again.

(** A file that has been dumped can be dumped again, with the same outcome. *)
Theorem C88_again : forall x e extra cf w v f d o, Forall proper (os_cwd (ex_os x)) -> input_at x (w_fs w) f d -> local_only x cf (w_fs w) ->
  (exists fs, load_file x e cf (w_fs w) f = (fs, Ok o)) -> proper (ob_name o) -> proper (ob_debug_id o) -> out_of_the_way x (cf_output cf) f d o ->
  single_file x e extra cf w f = (v, Ok tt) ->
  exists v', single_file x e extra cf v f = (v', Ok tt) /\ same_fs (w_fs v') (w_fs v) /\ same_output w v v'.
Proof. exact single_again. Qed.
Print Assumptions C88_again.

(** The program with the same arguments; no rules for paths. *)
Lemma no_rules_same m fs fs' c : cm_map_file c = None -> cm_src c = None -> cm_dest c = None -> path_mapping m fs' c = path_mapping m fs c.
Proof. intros F S D. unfold path_mapping, mappings_new. rewrite F, S, D. destruct (get_variables (cm_var c)) as [vs|s|s]; reflexivity. Qed.
Theorem C88_program : forall m argv w v v' n c f d out o, command (ma_target m) argv = Got c -> ar_files (cm_args c) = [f] -> ar_list_arch (cm_args c) = false ->
  cm_map_file c = None -> cm_src c = None -> cm_dest c = None -> output_asked (ar_output (cm_args c)) (ar_store (cm_args c)) out ->
  Forall proper (os_cwd (ex_os (ma_ext m))) -> input_at (ma_ext m) (w_fs w) f d -> local_only (ma_ext m) (config_of m (w_fs w) c out) (w_fs w) ->
  (exists fs, load_file (ma_ext m) (ma_env m) (config_of m (w_fs w) c out) (w_fs w) f = (fs, Ok o)) -> proper (ob_name o) -> proper (ob_debug_id o) -> out_of_the_way (ma_ext m) out f d o ->
  program m argv w v 0 -> program m argv v v' n -> n = 0 /\ same_fs (w_fs v') (w_fs v) /\ same_output w v v'.
Proof.
  intros m argv w v v' n c f d out o G F L R1 R2 R3 Ho CW IN LO Ld Hn Hi OW P P'. apply output_unique in Ho. subst out.
  assert (One : forall a b k, program m argv a b k -> main_one (ma_version m) (ma_cpus m) (ma_ext m) (ma_env m) (ma_arch_name m) (config_of m (w_fs a) c) (cm_args c) a f = (b, k)).
  { intros a b k Q. inversion Q; subst; try congruence; match goal with H : command _ _ = Got ?z |- _ => assert (z = c) by congruence; subst z end; congruence. }
  assert (Cf : forall out, config_of m (w_fs v) c out = config_of m (w_fs w) c out) by (intros out; unfold config_of; now rewrite (no_rules_same m (w_fs w) (w_fs v) c R1 R2 R3)).
  apply One in P, P'. unfold main_one in P, P'. unfold plan in P, P'. destruct (get_extra_info _ _ _) as [info|s|s]; cbn [bind] in P, P'; [|discriminate..]. rewrite L in P, P'. rewrite Cf in P'.
  destruct (single_file _ _ _ _ w f) as [w1 [[]|s|s]] eqn:S in P; cbn [exit_code] in P; try discriminate. injection P as <-.
  destruct (C88_again _ _ _ _ _ _ _ d o CW IN LO Ld Hn Hi OW S) as (v2 & S2 & Sf & So). rewrite S2 in P'. injection P' as <- <-. auto.
Qed.
Print Assumptions C88_program.

(** *** Examples *)
Definition ag_fs : FS := [([lit "d"], NDir); ([lit "x.dll"; lit "d"], NFile (lit "PAB12")); ([lit "x.pdb"; lit "d"], NFile (lit "DAB12"))].
Definition ag_w : World := mkWorld ag_fs [] [].
Definition ag_cf (out : Output) : Config := mkConfig out None None None (Some 1) true true (Ok (fun _ => Ok None)).
Definition ag_o : Obj := ox_get (snd (load_file ix ix_env (ag_cf (OFile FStdout)) ag_fs (lit "/d/x.dll"))).
Lemma ag_load out : load_file ix ix_env (ag_cf out) ag_fs (lit "/d/x.dll") = (ag_fs, Ok ag_o).
Proof. vm_compute. reflexivity. Qed.
Lemma ag_names : proper (ob_name ag_o) /\ proper (ob_debug_id ag_o).
Proof.
  assert (E : ob_name ag_o = lit "x.pdb" /\ ob_debug_id ag_o = lit "AB12") by (split; vm_compute; reflexivity). destruct E as (-> & ->). split; apply ix_proper; reflexivity || (cbn; lia).
Qed.
Lemma ag_cwd : Forall proper (os_cwd (ex_os ix)).
Proof. repeat constructor; try discriminate; vm_compute; intuition discriminate. Qed.
Lemma ag_input : input_at ix ag_fs (lit "/d/x.dll") (lit "PAB12").
Proof.
  split.
  - exists (lit "x.dll"), (lit "PAB12"). splits; [split; [apply ix_proper; [reflexivity|cbn; lia]|right; now exists (lit "/d")]|vm_compute; reflexivity|left; split; reflexivity].
  - intros pe recorded r P Pd S. cbn in P. injection P as <-. cbn in Pd. injection Pd as <-. apply slashed_unix in S. subst r. right. exists (lit "x.pdb"). split; [apply ix_proper; [reflexivity|cbn; lia]|]. right. exists (lit "C:/b"). vm_compute. reflexivity.
Qed.
Lemma ag_local out fs : local_only ix (ag_cf out) fs.
Proof. unfold local_only. splits; try reflexivity. discriminate. Qed.
Lemma ag_apart : out_of_the_way ix (OBoth (FPath (lit "/o")) (lit "/s")) (lit "/d/x.dll") (lit "PAB12") ag_o.
Proof.
  split; [|discriminate]. intros l T. split; [|discriminate]. assert (LT : length l = 1%nat \/ length l = 4%nat).
  { destruct T as [-> |(_ & b & g & _ & _ & ->)]; [left|right]; vm_compute; reflexivity. }
  intros LA. assert (LL : length l = 2%nat \/ length l = 5%nat); [|lia]. destruct LA as [-> |[(Fm & _)|(_ & pe & recorded & r & n & stem & P & Pd & S & _ & _ & I)]]; [left; vm_compute; reflexivity|discriminate Fm|].
  cbn in P. injection P as <-. cbn in Pd. injection Pd as <-. apply slashed_unix in S. subst r. cbn [map fst pdb_places] in I. destruct I as [<- |[<- |[<- |[<- |[]]]]]; [right; vm_compute; reflexivity|left; reflexivity..].
Qed.
(** A PE file with its PDB beside it, to a file and to a store. *)
Example C88_ex : exists v v', single_file ix ix_env [] (ag_cf (OBoth (FPath (lit "/o")) (lit "/s"))) ag_w (lit "/d/x.dll") = (v, Ok tt) /\
  single_file ix ix_env [] (ag_cf (OBoth (FPath (lit "/o")) (lit "/s"))) v (lit "/d/x.dll") = (v', Ok tt) /\ same_fs (w_fs v') (w_fs v) /\ ~ same_fs (w_fs v) (w_fs ag_w) /\
  exists a, fs_get (w_fs v) [lit "x.sym"; lit "AB12"; lit "x.pdb"; lit "s"] = Some (NFile a) /\ a <> [].
Proof.
  eexists. destruct (C88_again ix ix_env [] (ag_cf (OBoth (FPath (lit "/o")) (lit "/s"))) ag_w (fst (single_file ix ix_env [] (ag_cf (OBoth (FPath (lit "/o")) (lit "/s"))) ag_w (lit "/d/x.dll"))) (lit "/d/x.dll") (lit "PAB12") ag_o)
    as (v' & S & F & _); [exact ag_cwd|exact ag_input|apply ag_local|eexists; apply ag_load|apply ag_names..|exact ag_apart|vm_compute; reflexivity|].
  exists v'. split; [|split; [exact S|split; [exact F|split]]].
  - vm_compute. reflexivity.
  - intros E. specialize (E [lit "o"]). vm_compute in E. discriminate.
  - eexists. split; [vm_compute; reflexivity|discriminate].
Qed.
(** The streams get the text again. *)
Example C88_ex_streams : exists v v', single_file ix ix_env [] (ag_cf (OFile FStdout)) ag_w (lit "/d/x.dll") = (v, Ok tt) /\
  single_file ix ix_env [] (ag_cf (OFile FStdout)) v (lit "/d/x.dll") = (v', Ok tt) /\ w_out v' = w_out v ++ w_out v /\ w_out v <> [].
Proof. do 2 eexists. splits; [vm_compute; reflexivity..|vm_compute; discriminate]. Qed.
(** What else is on the disk does not matter; the PDB does. *)
Definition ag_pdb (l : FS) : option str := match snd (load_file ix ix_env (ag_cf (OFile FStdout)) (l ++ ag_fs) (lit "/d/x.dll")) with Ok o => Some (ob_debug_id o) | _ => None end.
Example C88_ex_places : map ag_pdb [[]; [([lit "x.exe"; lit "d"], NFile (lit "PZZ"))]; [([lit "x.pdb"; lit "d"], NFile (lit "DZZ"))]; [([lit "x.pdb"; lit "home"], NFile (lit "DZZ"))]; [([lit "x.pdb"; lit "b"; lit "C:"; lit "w"; lit "home"], NFile (lit "DZZ"))]]
  = [Some (lit "AB12"); Some (lit "AB12"); Some (lit "ZZ"); Some (lit "AB12"); Some (lit "ZZ")].
Proof. vm_compute. reflexivity. Qed.

(** Written over the file itself: it cannot be dumped again. Nothing else is
    unusual. *)
Theorem C88_over_input_refuted : exists x e extra cf w v f d o, Forall proper (os_cwd (ex_os x)) /\ input_at x (w_fs w) f d /\ local_only x cf (w_fs w) /\ healthy (ex_os x) /\
  (exists fs, load_file x e cf (w_fs w) f = (fs, Ok o)) /\ proper (ob_name o) /\ proper (ob_debug_id o) /\ single_file x e extra cf w f = (v, Ok tt) /\
  exists m, single_file x e extra cf v f = (v, Err m).
Proof.
  exists ix, ix_env, [], (ag_cf (OFile (FPath (lit "/d/x.dll")))), ag_w. eexists. exists (lit "/d/x.dll"), (lit "PAB12"), ag_o.
  splits; [exact ag_cwd|exact ag_input|apply ag_local|intros l; reflexivity|eexists; apply ag_load|apply ag_names|apply ag_names|vm_compute; reflexivity|]. eexists. vm_compute. reflexivity.
Qed.
Print Assumptions C88_over_input_refuted.
(** Written over the PDB: both times it works, with another outcome. *)
Theorem C88_over_pdb_refuted : exists x e extra cf w v v' f d o, Forall proper (os_cwd (ex_os x)) /\ input_at x (w_fs w) f d /\ local_only x cf (w_fs w) /\ healthy (ex_os x) /\
  (exists fs, load_file x e cf (w_fs w) f = (fs, Ok o)) /\ proper (ob_name o) /\ proper (ob_debug_id o) /\ single_file x e extra cf w f = (v, Ok tt) /\
  single_file x e extra cf v f = (v', Ok tt) /\ ~ same_fs (w_fs v') (w_fs v).
Proof.
  exists ix, ix_env, [], (ag_cf (OFile (FPath (lit "/d/x.pdb")))), ag_w. do 2 eexists. exists (lit "/d/x.dll"), (lit "PAB12"), ag_o.
  splits; [exact ag_cwd|exact ag_input|apply ag_local|intros l; reflexivity|eexists; apply ag_load|apply ag_names|apply ag_names|vm_compute; reflexivity..|].
  intros E. specialize (E [lit "x.pdb"; lit "d"]). vm_compute in E. discriminate.
Qed.
Print Assumptions C88_over_pdb_refuted.

(** The whole program. *)
Definition ag_m : Machine := mkMachine (lit "x86_64") (lit "2.3") 4 ix ix_env mx_ok (me_caps mx_env) (fun v => v) (fun _ => None) (fun s => if str_eqb s (lit "x86_64") then Some 2 else None) dec (fun l => l) (fun _ => []).
Definition ag_argv : list str := map lit ["/d/x.dll"; "--store"; "/s"; "--inlines"; "-o"; "/o"]%string.
Definition ag_c : Cmd := mkCmd (mkArgs [lit "/d/x.dll"] (Some (lit "/o")) (Some (lit "/s")) (lit "error") [] false [] false) None None None (lit "x86_64") false true None None None None.
Example C88_ex_program : exists v, program ag_m ag_argv ag_w v 0 /\ forall v' n, program ag_m ag_argv v v' n -> n = 0 /\ same_fs (w_fs v') (w_fs v).
Proof.
  assert (G : command (ma_target ag_m) ag_argv = Got ag_c) by (vm_compute; reflexivity).
  assert (P : program ag_m ag_argv ag_w (fst (main_one (ma_version ag_m) (ma_cpus ag_m) ix ix_env (ma_arch_name ag_m) (config_of ag_m ag_fs ag_c) (cm_args ag_c) ag_w (lit "/d/x.dll"))) 0).
  { apply (pr_one _ _ _ ag_c (lit "/d/x.dll")); [exact G|reflexivity|vm_compute; reflexivity]. }
  match type of P with program _ _ _ ?t _ => set (v := t) in P end. clearbody v. exists v. split; [exact P|]. intros v' n P'.
  destruct (C88_program ag_m ag_argv ag_w v v' n ag_c (lit "/d/x.dll") (lit "PAB12") (OBoth (FPath (lit "/o")) (lit "/s")) ag_o G) as (E & F & _); try reflexivity.
  - exact (output_chosen (Some (lit "/o")) (Some (lit "/s"))).
  - exact ag_cwd.
  - exact ag_input.
  - unfold local_only. splits; try reflexivity.
  - eexists. vm_compute. reflexivity.
  - apply ag_names.
  - apply ag_names.
  - exact ag_apart.
  - exact P.
  - exact P'.
  - auto.
Qed.
