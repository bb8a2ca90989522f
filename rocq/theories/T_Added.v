(** What is downloaded replaces nothing and is kept in the caches only (C91). *)
From Verif Require Import Base Str Utf8 M_Path M_Source M_Symbol M_Object M_Fs M_Cache M_Store M_Input M_Sched M_Cli M_Args M_Many M_Shared M_Main
  S_Path S_Fs S_Cache S_Symbol S_Collector S_Store S_Input S_Sched S_Many S_Shared S_Cli S_Main S_Whole S_Plain S_Confined S_Added P_Fs P_Cache P_Shared P_Main P_Added
  T_Store T_Input T_Many T_Shared T_Whole T_Plain T_Main T_Again T_Fetched T_Confined.
Local Open Scope N_scope.

(** One file, given by path or by id. The probes may end in any order. *)
Theorem C91_load : forall x e cf fs f fs' r, (forall js, Permutation (ex_sched x js) js) -> proper_ids x -> (forall i, cf_debug_id cf = Some i \/ cf_code_id cf = Some i -> proper i) ->
  load_file x e cf fs f = (fs', r) -> kept_there x (cf_symbol_server cf) (asked_for x cf f) fs fs'.
Proof. intros x e cf fs f fs' r SC ID PI L. pose proof (load_kept x SC ID e cf fs f PI) as K. now rewrite L in K. Qed.
Print Assumptions C91_load.
(** So whatever was there is as it was. *)
Theorem C91_nothing_replaced : forall x e cf fs f fs' r l n, (forall js, Permutation (ex_sched x js) js) -> proper_ids x -> (forall i, cf_debug_id cf = Some i \/ cf_code_id cf = Some i -> proper i) ->
  load_file x e cf fs f = (fs', r) -> fs_get fs l = Some n -> fs_get fs' l = Some n.
Proof.
  intros x e cf fs f fs' r l n SC ID PI L G. destruct (C91_load x e cf fs f fs' r SC ID PI L) as [E|(sv & _ & A)]; [now rewrite E|exact (added_some _ _ _ _ _ _ _ A G)].
Qed.
Print Assumptions C91_nothing_replaced.
(** Files processed one after the other, in any order. *)
Theorem C91_after : forall u fs l, (forall js, Permutation (ex_sched (u_ext u) js) js) -> proper_ids (u_ext u) -> kept_there (u_ext u) None (recorded_pdb (u_ext u)) fs (after u fs l).
Proof. intros u fs l SC ID. now apply after_kept. Qed.
Print Assumptions C91_after.
(** The whole effect of dumping a file: downloads in the caches, then the output. *)
Theorem C91_file : forall x e extra cf w f v r, let module o := snd (load_file x e cf (w_fs w) f) = Ok o in
  (forall js, Permutation (ex_sched x js) js) -> proper_ids x -> (forall i, cf_debug_id cf = Some i \/ cf_code_id cf = Some i -> proper i) ->
  (forall o, module o -> proper_module o) -> single_file x e extra cf w f = (v, r) ->
  exists fs1, kept_there x (cf_symbol_server cf) (asked_for x cf f) (w_fs w) fs1 /\ only_at (ex_os x) (cf_output cf) module fs1 (w_fs v).
Proof.
  intros x e extra cf w f v r module SC ID PI PR S. exists (fst (load_file x e cf (w_fs w) f)). split; [now apply load_kept|]. exact (proj1 (C90_file x e extra cf w f v r PR S)).
Qed.
Print Assumptions C91_file.
(** The program on one file. *)
Theorem C91_one : forall m argv w v n c f out, let x := ma_ext m in let cf := config_of m (w_fs w) c out in let module o := snd (load_file x (ma_env m) cf (w_fs w) f) = Ok o in
  (forall js, Permutation (ex_sched x js) js) -> proper_ids x -> (forall i, cf_debug_id cf = Some i \/ cf_code_id cf = Some i -> proper i) ->
  command (ma_target m) argv = Got c -> ar_files (cm_args c) = [f] -> ar_list_arch (cm_args c) = false -> output_asked (ar_output (cm_args c)) (ar_store (cm_args c)) out ->
  (forall o, module o -> proper_module o) -> program m argv w v n ->
  exists fs1, kept_there x (cf_symbol_server cf) (asked_for x cf f) (w_fs w) fs1 /\ only_at (ex_os x) out module fs1 (w_fs v).
Proof.
  intros m argv w v n c f out x cf module SC ID PI G F L Ho PR P. destruct (C90_one m argv w v n c f out G F L Ho PR P) as ([E|O] & _).
  - exists (w_fs w). split; [now left|]. intros l. left. now rewrite E.
  - eexists. split; [|exact O]. now apply load_kept.
Qed.
Print Assumptions C91_one.
(** The program on several files. *)
Theorem C91_several : forall m argv w v n c p a out R, let u := used m c p a out in let files := ar_files (cm_args c) in
  (forall js, Permutation (ex_sched (ma_ext m) js) js) -> proper_ids (ma_ext m) ->
  asks_several m argv (w_fs w) c p a out -> steady u files (w_fs w) R -> (forall d, candidate u files (w_fs w) d -> proper_module d) ->
  program m argv w v n ->
  exists fs1, kept_there (ma_ext m) None (recorded_pdb (ma_ext m)) (w_fs w) fs1 /\ only_at (u_os u) out (candidate u files (w_fs w)) fs1 (w_fs v).
Proof.
  intros m argv w v n c p a out R u files SC ID A ST PR P. destruct (C90_several m argv w v n c p a out R A ST PR P) as ((fs1 & _ & (l & rest & _ & ->) & O) & _).
  eexists. split; [|exact O]. exact (after_kept u l SC ID (w_fs w)).
Qed.
Print Assumptions C91_several.

(** So whatever was there and is not where output goes is as it was. *)
Lemma bystander x arg W os out P fs fs1 fs' l nd : kept_there x arg W fs fs1 -> only_at os out P fs1 fs' -> fs_get fs l = Some nd -> ~ file_target os out l -> (forall d, P d -> ~ store_target os out d l) -> fs_get fs' l = Some nd.
Proof.
  intros K O G NF NS. assert (G1 : fs_get fs1 l = Some nd) by (destruct K as [E|(sv & _ & A)]; [now rewrite E|exact (added_some _ _ _ _ _ _ _ A G)]).
  destruct (O l) as [E|[E|[(d & Pd & T)|(E & _)]]]; [now rewrite E|now elim NF|now elim (NS d Pd)|congruence].
Qed.
Theorem C91_others_one : forall m argv w v n c f out l nd, let x := ma_ext m in let cf := config_of m (w_fs w) c out in let module o := snd (load_file x (ma_env m) cf (w_fs w) f) = Ok o in
  (forall js, Permutation (ex_sched x js) js) -> proper_ids x -> (forall i, cf_debug_id cf = Some i \/ cf_code_id cf = Some i -> proper i) ->
  command (ma_target m) argv = Got c -> ar_files (cm_args c) = [f] -> ar_list_arch (cm_args c) = false -> output_asked (ar_output (cm_args c)) (ar_store (cm_args c)) out ->
  (forall o, module o -> proper_module o) -> program m argv w v n ->
  fs_get (w_fs w) l = Some nd -> ~ file_target (ex_os x) out l -> (forall o, module o -> ~ store_target (ex_os x) out o l) -> fs_get (w_fs v) l = Some nd.
Proof.
  intros m argv w v n c f out l nd x cf module SC ID PI G F L Ho PR P Gl NF NS. destruct (C91_one m argv w v n c f out SC ID PI G F L Ho PR P) as (fs1 & K & O). exact (bystander _ _ _ _ _ _ _ _ _ _ _ K O Gl NF NS).
Qed.
Print Assumptions C91_others_one.
Theorem C91_others_several : forall m argv w v n c p a out R l nd, let u := used m c p a out in let files := ar_files (cm_args c) in
  (forall js, Permutation (ex_sched (ma_ext m) js) js) -> proper_ids (ma_ext m) ->
  asks_several m argv (w_fs w) c p a out -> steady u files (w_fs w) R -> (forall d, candidate u files (w_fs w) d -> proper_module d) ->
  program m argv w v n ->
  fs_get (w_fs w) l = Some nd -> ~ file_target (u_os u) out l -> (forall d, candidate u files (w_fs w) d -> ~ store_target (u_os u) out d l) -> fs_get (w_fs v) l = Some nd.
Proof.
  intros m argv w v n c p a out R l nd u files SC ID A ST PR P Gl NF NS. destruct (C91_several m argv w v n c p a out R SC ID A ST PR P) as (fs1 & K & O). exact (bystander _ _ _ _ _ _ _ _ _ _ _ K O Gl NF NS).
Qed.
Print Assumptions C91_others_several.

(** *** Examples *)
(** A PE file whose PDB a server has. *)
Definition ad_ext : Ext := mkExt (mkParsers (ps_peek fe_ps) (ps_object fe_ps) (fun _ => ps_pe fe_ps (lit "P1AB")) (ps_pdb fe_ps) (ps_archive fe_ps)) (ex_env fe_ext) fe_net (fun l => l) None.
Definition ad_cf (id : option str) : Config := mkConfig (OStore (lit "/s")) (Some (lit "srv*/cache*https://s")) id None (Some 1) true true (Ok (fun _ => Ok None)).
Example C91_ex : proper_ids ad_ext /\ named_servers ad_ext (Some (lit "srv*/cache*https://s")) fe_fs fe_sv /\
  fs_get fe_fs (entry_loc ix_os (lit "/cache") (lit "x.pdb") (lit "AB") (lit "x.pdb")) = None /\
  exists d, fs_get (fst (load_file ad_ext ix_env (ad_cf None) fe_fs (lit "/d/a.dll"))) (entry_loc ix_os (lit "/cache") (lit "x.pdb") (lit "AB") (lit "x.pdb")) = Some (NFile d) /\ d <> [].
Proof.
  splits.
  - intros buf pe [= <-]. unfold proper. splits; vm_compute; intuition discriminate.
  - apply named_iff. vm_compute. reflexivity.
  - reflexivity.
  - eexists. split; [vm_compute; reflexivity|discriminate].
Qed.
(** Two files, one after the other, with the server in the configuration file. *)
Definition ad_home : Ext := mkExt (ex_ps ad_ext) (ex_env ad_ext) fe_net (fun l => l) (Some (lit "/h")).
Definition ad_u : Setup := mkSetup ad_home ix_env (fun l => l) (fun _ => Ok None) 0 true [] (OStore (lit "/s")) true.
Example C91_ex_after : proper_ids ad_home /\ named_servers ad_home None fe_fs fe_sv /\
  fs_get (after ad_u fe_fs fe_files) (entry_loc ix_os (lit "/cache") (lit "x.pdb") (lit "AB") (lit "x.pdb")) = Some (NFile (lit "D3AB")) /\ fs_get (after ad_u fe_fs fe_files) [lit "cache"] = Some NDir.
Proof.
  splits; [|apply named_iff; vm_compute; reflexivity|vm_compute; reflexivity|vm_compute; reflexivity].
  intros buf pe [= <-]. unfold proper. splits; vm_compute; intuition discriminate.
Qed.
(** The program on two files, one of which cannot be stored. *)
Example C91_ex_several : (forall js, Permutation (ex_sched (ma_ext wm_m) js) js) /\ proper_ids (ma_ext wm_m) /\ asks_several wm_m wm_argv (w_fs cn_w) wm_c wm_p 0 (OStore (lit "/s")) /\
  steady vx_store vx_files cn_fs (eq cn_fs) /\ (forall d, candidate vx_store vx_files cn_fs d -> proper_module d) /\ program wm_m wm_argv cn_w (k_world cn_end) 0.
Proof.
  destruct C90_ex as (A & NS & PR & P & _). splits; [intros js; apply Permutation_refl| |exact A|exact (C80_steady vx_store vx_files cn_fs NS)|exact PR|exact P].
  intros buf pe E. discriminate E.
Qed.
(** The program on one file: the PDB is downloaded, the module stored. *)
Definition ad_m : Machine := mkMachine (lit "x86_64") (lit "2.3") 2 ad_home ix_env (fun _ => true) (fun _ _ => None) (fun v => v) (fun _ => None) (fun s => if str_eqb s (lit "x86_64") then Some 0 else None) dec (fun l => l) (fun _ => []).
Definition ad_argv : list str := map lit ["/d/a.dll"; "--store"; "/s"; "--inlines"]%string.
Definition ad_c : Cmd := mkCmd (mkArgs [lit "/d/a.dll"] None (Some (lit "/s")) (lit "error") [] false [] false) None None None (lit "x86_64") false true None None None None.
Definition ad_v : World := fst (main_one (ma_version ad_m) (ma_cpus ad_m) ad_home ix_env (ma_arch_name ad_m) (config_of ad_m fe_fs ad_c) (cm_args ad_c) fe_w (lit "/d/a.dll")).
Example C91_ex_one : let cf := config_of ad_m (w_fs fe_w) ad_c (OStore (lit "/s")) in
  proper_ids (ma_ext ad_m) /\ (forall i, cf_debug_id cf = Some i \/ cf_code_id cf = Some i -> proper i) /\ command (ma_target ad_m) ad_argv = Got ad_c /\
  (forall o, snd (load_file (ma_ext ad_m) (ma_env ad_m) cf (w_fs fe_w) (lit "/d/a.dll")) = Ok o -> proper_module o) /\ program ad_m ad_argv fe_w ad_v 0 /\
  fs_get (w_fs ad_v) (entry_loc ix_os (lit "/cache") (lit "x.pdb") (lit "AB") (lit "x.pdb")) = Some (NFile (lit "D3AB")) /\ fs_get (w_fs ad_v) [lit "x.sym"; lit "AB"; lit "x.pdb"; lit "s"] <> None.
Proof.
  intros cf. subst cf. splits.
  - exact (proj1 C91_ex_after).
  - intros i [E|E]; vm_compute in E; discriminate E.
  - vm_compute. reflexivity.
  - intros o E. assert (N : match snd (load_file (ma_ext ad_m) (ma_env ad_m) (config_of ad_m (w_fs fe_w) ad_c (OStore (lit "/s"))) (w_fs fe_w) (lit "/d/a.dll")) with Ok o => (ob_name o, ob_debug_id o) | _ => ([], []) end = (lit "x.pdb", lit "AB")) by (vm_compute; reflexivity).
    rewrite E in N. injection N as N1 N2. unfold proper_module, proper. rewrite N1, N2. splits; vm_compute; intuition discriminate.
  - apply (pr_one _ _ _ ad_c (lit "/d/a.dll")); [vm_compute; reflexivity|reflexivity|vm_compute; reflexivity].
  - vm_compute. reflexivity.
  - vm_compute. discriminate.
Qed.
Example C91_ex_others : let l := [lit "a.dll"; lit "d"] in fs_get (w_fs fe_w) l = Some (NFile (lit "P1AB")) /\ ~ file_target (ex_os (ma_ext ad_m)) (OStore (lit "/s")) l /\
  (forall o, ~ store_target (ex_os (ma_ext ad_m)) (OStore (lit "/s")) o l) /\ fs_get (w_fs ad_v) l = Some (NFile (lit "P1AB")).
Proof. intros l. splits; [reflexivity|intros []|intros o (_ & b & g & _ & _ & E); discriminate E|vm_compute; reflexivity]. Qed.
(** An id that is no directory entry: the download is kept above the cache. *)
Definition ad_net : Net := mkNet (fun _ => Some 200) (fun _ => Some (lit "EDID")).
Theorem C91_ids_refuted : exists x e cf fs f sv l, proper_ids x /\ (forall js, Permutation (ex_sched x js) js) /\ named_servers x (cf_symbol_server cf) fs sv /\
  fs_get fs l = None /\ (exists d, fs_get (fst (load_file x e cf fs f)) l = Some (NFile d)) /\ forall c k, In c (caches sv) -> l <> k ++ locate (os_cwd (ex_os x)) c.
Proof.
  exists (mkExt (ex_ps ad_ext) (ex_env fe_ext) ad_net (fun l => l) None), ix_env, (ad_cf (Some (lit "../.."))), fe_fs, (lit "/d/b.so"), fe_sv, [lit "b.so"].
  splits.
  - intros buf pe [= <-]. unfold proper. splits; vm_compute; intuition discriminate.
  - intros js. apply Permutation_refl.
  - apply named_iff. vm_compute. reflexivity.
  - reflexivity.
  - eexists. vm_compute. reflexivity.
  - intros c k [<- |[]] E. change (locate _ (lit "/cache")) with [lit "cache"] in E. destruct k as [|a [|b k]]; discriminate E.
Qed.
Print Assumptions C91_ids_refuted.
