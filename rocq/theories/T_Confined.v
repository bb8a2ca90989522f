(** Whatever fails, the program writes nowhere but where it is told to (C90). *)
From Verif Require Import Base Str Utf8 M_Path M_Source M_Symbol M_Object M_Fs M_Cache M_Store M_Input M_Sched M_Cli M_Args M_Many M_Shared M_Main
  S_Path S_Fs S_Cache S_Symbol S_Collector S_Store S_Input S_Sched S_Many S_Shared S_Cli S_Main S_Whole S_Plain S_Again S_Confined P_Fs P_Store P_Input P_Many P_Shared P_Several P_Plain P_Main P_Confined
  T_Store T_Input T_Many T_Shared T_Whole T_Plain T_Main T_Again.
Local Open Scope N_scope.

(** At every moment while several files are dumped: [R] is what processing them
    makes of the file system, as in C80. *)
Theorem C90_moments : forall u jobs files R w k, steady u files (w_fs w) R -> (forall d, candidate u files (w_fs w) d -> proper_module d) ->
  worked u (Nat.min jobs (length files)) (work_start w jobs files) k ->
  (exists fs1, R fs1 /\ partly u files (w_fs w) (k_threads k) fs1 /\ only_at (u_os u) (u_out u) (candidate u files (w_fs w)) fs1 (w_fs (k_world k))) /\ quiet (u_out u) w (k_world k).
Proof.
  intros u jobs files R w k ST PR W. destruct (worked_conf u jobs files (w_fs w) R ST PR w k eq_refl W) as [B (fs1 & F1 & F2 & F3) _ Q]. split; [|exact Q]. exists fs1. splits; [exact F1|eapply taken_partly; eauto|exact F3].
Qed.
Print Assumptions C90_moments.
(** However the program ends. *)
Theorem C90_several : forall m argv w v n c p a out R, let u := used m c p a out in let files := ar_files (cm_args c) in
  asks_several m argv (w_fs w) c p a out -> steady u files (w_fs w) R -> (forall d, candidate u files (w_fs w) d -> proper_module d) ->
  program m argv w v n ->
  (exists fs1, R fs1 /\ (exists l rest, Permutation (l ++ rest) files /\ fs1 = after u (w_fs w) l) /\ only_at (u_os u) out (candidate u files (w_fs w)) fs1 (w_fs v)) /\ quiet out w v.
Proof.
  intros m argv w v n c p a out R u files A ST PR P. apply (program_several m argv w v n c p a out A) in P. cbv zeta in P. destruct P as (k & W & -> & _).
  destruct (C90_moments u _ files R w k ST PR W) as ((fs1 & F1 & (l & rest & L1 & L2 & _) & F3) & Q). split; [|exact Q]. exists fs1. splits; [exact F1|now exists l, rest|exact F3].
Qed.
Print Assumptions C90_several.
(** Without symbol servers there are no other changes. *)
Theorem C90_plain : forall m argv w v n c p a out, let u := used m c p a out in let files := ar_files (cm_args c) in
  asks_several m argv (w_fs w) c p a out -> no_servers (ma_ext m) (w_fs w) -> (forall d, candidate u files (w_fs w) d -> proper_module d) ->
  program m argv w v n -> only_at (u_os u) out (candidate u files (w_fs w)) (w_fs w) (w_fs v) /\ quiet out w v.
Proof.
  intros m argv w v n c p a out u files A NS PR P. destruct (C90_several m argv w v n c p a out (eq (w_fs w)) A (C80_steady u files (w_fs w) NS) PR P) as ((fs1 & <- & _ & O) & Q). auto.
Qed.
Print Assumptions C90_plain.

(** One file. *)
Lemma quiet_then out a b c : quiet out a b -> quiet out b c -> quiet out a c.
Proof. intros (A1 & A2) (B1 & B2). split; intros N; [rewrite B1, A1|rewrite B2, A2]; auto. Qed.
Lemma write_quiet os extra f o w out : (f = FStdout \/ f = FStderr -> to_stream out f) -> quiet out w (fst (write_sym os extra f o w)).
Proof.
  intros T. unfold write_sym. destruct f as [p| |].
  - destruct (file_create os (w_fs w) p); [|split; reflexivity]. destruct (fmt_object extra o); [destruct (buf_write _ _ _ _ _)|..]; split; reflexivity.
  - destruct (fmt_object extra o); [|split; reflexivity..]. split; cbn; [intros N; elim N; auto|reflexivity].
  - destruct (fmt_object extra o); [|split; reflexivity..]. split; cbn; [reflexivity|intros N; elim N; auto].
Qed.
Lemma store_quiet os extra out ck o w : quiet out w (fst (store os extra out ck o w)).
Proof.
  unfold store. destruct (ck && _); [split; reflexivity|]. unfold andThen.
  assert (A : quiet out w (fst (match output_store out o with Some p => write_store os extra p o w | None => (w, Ok tt) end))).
  { destruct (output_store out o) as [p|]; [|split; reflexivity]. unfold write_store. destruct (path_parent p) as [q|]; [|split; reflexivity]. destruct (create_dir_all os (w_fs w) q) as [g|]; [|split; reflexivity].
    pose proof (write_quiet os extra (FPath p) o (set_fs w g) out ltac:(intros [X|X]; discriminate)) as (Q1 & Q2). split; [exact Q1|exact Q2]. }
  destruct (match output_store out o with Some p => write_store os extra p o w | None => (w, Ok tt) end) as [w1 r]. cbn [fst snd] in A |- *. destruct r as [[]|s|s]; [|exact A..].
  destruct (output_file out) as [f|] eqn:E; [|exact A]. apply (quiet_then _ _ _ _ A). apply write_quiet. intros _. unfold to_stream. unfold output_file in E. destruct out as [g|dir|g dir]; [injection E as ->; now left|discriminate|injection E as ->; right; eauto].
Qed.
Theorem C90_file : forall x e extra cf w f v r, let module o := snd (load_file x e cf (w_fs w) f) = Ok o in
  (forall o, module o -> proper_module o) -> single_file x e extra cf w f = (v, r) ->
  only_at (ex_os x) (cf_output cf) module (fst (load_file x e cf (w_fs w) f)) (w_fs v) /\ quiet (cf_output cf) w v.
Proof.
  intros x e extra cf w f v r module PR S. unfold module in *. clear module. unfold single_file in S. destruct (load_file x e cf (w_fs w) f) as [g [o|s|s]]; cbn [fst snd] in *; [|injection S as <- _; split; [intros l; now left|split; reflexivity]..].
  destruct (PR o eq_refl) as (Hn & Hi). split.
  - intros l. set (os := ex_os x) in *. set (out := cf_output cf) in *.
    assert (FT : file_target os out l \/ ~ file_target os out l) by (unfold file_target; destruct out as [[p| |]|dir|[p| |] dir]; auto; destruct (list_eq_dec str_eq_dec l (locate (os_cwd os) p)); auto).
    assert (TT : store_target os out o l \/ ~ store_target os out o l).
    { assert (D : forall dir, dir <> [] /\ stored_at os dir o l \/ ~ (dir <> [] /\ stored_at os dir o l)).
      { intros dir. destruct (sym_store_path dir o) as [p|] eqn:Ep; [|right; intros (D & _); destruct dir; [now elim D|discriminate]]. destruct (store_loc os dir o p Hn Hi Ep) as (D & At & _).
        destruct (list_eq_dec str_eq_dec l (locate (os_cwd os) p)) as [-> |N]; [left; auto|right]. intros (_ & X). apply N. now apply (stored_unique os dir o). }
      unfold store_target. destruct out as [f0|dir|f0 dir]; [now right|apply D..]. }
    destruct FT as [FT|FT]; [auto|]. destruct TT as [TT|TT]; [right; right; left; eauto|]. destruct (store_frame _ _ _ _ _ _ _ _ _ Hn Hi S FT TT) as [E|(E1 & E2 & t & k & T & Et & Nk)]; [now left|].
    right. right. right. splits; auto. exists o, t, k. auto.
  - pose proof (store_quiet (ex_os x) extra (cf_output cf) (cf_check_cfi cf) o (set_fs w g)) as (Q1 & Q2). rewrite S in Q1, Q2. split; [exact Q1|exact Q2].
Qed.
Print Assumptions C90_file.
(** Nothing at all is written if there is nothing to dump: wrong arguments, help, a
    list of architectures. *)
Theorem C90_nothing : forall m argv w v n, (forall c, command (ma_target m) argv = Got c -> ar_list_arch (cm_args c) = true) -> program m argv w v n -> w_fs v = w_fs w /\ w_err v = w_err w.
Proof.
  intros m argv w v n L P. destruct P as [H|H|c f w' n H F M|c f g t s H F Pl|c f g t info level w' n H F Pl M|c f g t info out jobs level w' n H F Pl S]; auto.
  - unfold main_one, plan in M. rewrite (L c H) in M. destruct (get_extra_info _ _ _); cbn [bind] in M; [|injection M as <- _; auto..]. destruct (list_arch _ _ _ _). injection M as <- _. auto.
  - unfold main_list in M. destruct (list_arch _ _ _ _). injection M as <- _. auto.
  - exfalso. unfold plan in Pl. rewrite (L c H) in Pl. destruct (get_extra_info _ _ _); discriminate.
Qed.
Print Assumptions C90_nothing.
(** The program on one file. *)
Theorem C90_one : forall m argv w v n c f out, let cf := config_of m (w_fs w) c out in let module o := snd (load_file (ma_ext m) (ma_env m) cf (w_fs w) f) = Ok o in
  command (ma_target m) argv = Got c -> ar_files (cm_args c) = [f] -> ar_list_arch (cm_args c) = false -> output_asked (ar_output (cm_args c)) (ar_store (cm_args c)) out ->
  (forall o, module o -> proper_module o) -> program m argv w v n ->
  (w_fs v = w_fs w \/ only_at (ex_os (ma_ext m)) out module (fst (load_file (ma_ext m) (ma_env m) cf (w_fs w) f)) (w_fs v)) /\ quiet out w v.
Proof.
  intros m argv w v n c f out cf module G F L Ho PR P. subst module. subst cf. apply output_unique in Ho. subst out.
  assert (M : main_one (ma_version m) (ma_cpus m) (ma_ext m) (ma_env m) (ma_arch_name m) (config_of m (w_fs w) c) (cm_args c) w f = (v, n)).
  { inversion P; subst; try congruence; match goal with H : command _ _ = Got ?z |- _ => assert (z = c) by congruence; subst z end; congruence. }
  unfold main_one, plan in M. destruct (get_extra_info _ _ _) as [info|s|s]; cbn [bind] in M; [|injection M as <- _; split; [now left|split; reflexivity]..]. rewrite L in M.
  destruct (single_file _ _ _ _ w f) as [w1 r] eqn:S in M. injection M as <- _. apply C90_file in S; [|exact PR]. destruct S as (O & Q). split; [right; exact O|exact Q].
Qed.
Print Assumptions C90_one.

(** *** Examples *)
(** Two files; in the store there is a file where the directory of one of them would
    be, so that this one cannot be stored. *)
Definition cn_fs : FS := ([lit "s"], NDir) :: ([lit "b"; lit "s"], NFile (lit "mine")) :: vx_fs.
Definition cn_w : World := mkWorld cn_fs (lit "> ") [].
Definition cn_end : Work := wgos vx_store 2 [(vx_all, 200)]%nat (work_start cn_w 2 vx_files).
Lemma cn_job f : In f vx_files -> snd (u_job vx_store cn_fs f) = Ok (vx_at f).
Proof. intros [<- |[<- |[]]]; vm_compute; reflexivity. Qed.
Lemma cn_candidate d : candidate vx_store vx_files cn_fs d -> proper_module d.
Proof.
  intros (os & M & A & _ & L). destruct os as [|o os]; [now apply merged_nonempty in M|]. destruct (A o (or_introl eq_refl)) as (f & Ff & P & E). rewrite cn_job in P by exact Ff. injection P as <-.
  assert (d = vx_at f) as ->.
  { destruct os as [|x os]; [now apply merged_single in M|]. exfalso. cbn [length] in L.
    assert (Q : (length (filter (fun g => match snd (u_job vx_store cn_fs g) with Ok o => str_eqb (ob_debug_id o) (ob_debug_id d) | _ => false end) vx_files) <= 1)%nat); [|lia].
    rewrite <- E. destruct Ff as [<- |[<- |[]]]; vm_compute; lia. }
  destruct Ff as [<- |[<- |[]]]; (split; unfold proper; splits; vm_compute; intuition discriminate).
Qed.
Example C90_ex : asks_several wm_m wm_argv cn_fs wm_c wm_p 0 (OStore (lit "/s")) /\ no_servers (ma_ext wm_m) cn_fs /\ (forall d, candidate vx_store vx_files cn_fs d -> proper_module d) /\
  program wm_m wm_argv cn_w (k_world cn_end) 0 /\ only_at (u_os vx_store) (OStore (lit "/s")) (candidate vx_store vx_files cn_fs) cn_fs (w_fs (k_world cn_end)) /\
  fs_get (w_fs (k_world cn_end)) [lit "b"; lit "s"] = Some (NFile (lit "mine")).
Proof.
  assert (A : asks_several wm_m wm_argv cn_fs wm_c wm_p 0 (OStore (lit "/s"))) by (unfold asks_several; splits; [vm_compute; reflexivity|cbn; lia|reflexivity|constructor|reflexivity|reflexivity|reflexivity]).
  assert (NS : no_servers (ma_ext wm_m) cn_fs) by (intros h X; discriminate X).
  assert (P : program wm_m wm_argv cn_w (k_world cn_end) 0).
  { apply (program_several wm_m wm_argv cn_w _ _ wm_c wm_p 0 (OStore (lit "/s")) A). exists cn_end. splits; [apply wgos_worked; constructor|reflexivity|]. left. split; [vm_compute; reflexivity|reflexivity]. }
  splits; [exact A|exact NS|exact cn_candidate|exact P| |vm_compute; reflexivity].
  exact (proj1 (C90_plain wm_m wm_argv cn_w _ _ wm_c wm_p 0 (OStore (lit "/s")) A NS cn_candidate P)).
Qed.
(** One file, to a file and to the store. *)
Example C90_ex_one : exists v, program ag_m ag_argv ag_w v 0 /\ snd (load_file (ma_ext ag_m) (ma_env ag_m) (config_of ag_m (w_fs ag_w) ag_c (OBoth (FPath (lit "/o")) (lit "/s"))) (w_fs ag_w) (lit "/d/x.dll")) = Ok ag_o /\
  proper_module ag_o /\ w_out v = [] /\ fs_get (w_fs v) [lit "o"] <> None.
Proof.
  exists (fst (main_one (ma_version ag_m) (ma_cpus ag_m) ix ix_env (ma_arch_name ag_m) (config_of ag_m ag_fs ag_c) (cm_args ag_c) ag_w (lit "/d/x.dll"))).
  splits; [|vm_compute; reflexivity|exact ag_names|vm_compute; reflexivity|vm_compute; discriminate].
  apply (pr_one _ _ _ ag_c (lit "/d/x.dll")); [vm_compute; reflexivity|reflexivity|vm_compute; reflexivity].
Qed.
(** An ELF file that calls itself "..": a file beside the store is replaced. *)
Definition cn_ext : Ext := mkExt (mkParsers (fun _ => FmtElf) (fun _ => Some stx_dots) (fun _ => None) (fun _ => None) (fun _ => None)) (M_Cache.mkCEnv ix_os ix_cab (fun _ => true)) (mkNet (fun _ => None) (fun _ => None)) (fun l => l) None.
Definition cn_dots : World := mkWorld [([lit "e"], NFile (lit "E")); ([lit "o"], NDir); ([lit "AB12"; lit "o"], NDir); ([lit "...sym"; lit "AB12"; lit "o"], NFile (lit "mine"))] [] [].
Theorem C90_names_refuted : exists x e extra cf w f v dir l, cf_output cf = OStore dir /\ single_file x e extra cf w f = (v, Ok tt) /\ fst (load_file x e cf (w_fs w) f) = w_fs w /\
  fs_get (w_fs w) l = Some (NFile (lit "mine")) /\ fs_get (w_fs v) l <> fs_get (w_fs w) l /\ forall k, l <> k ++ locate (os_cwd (ex_os x)) dir.
Proof.
  exists cn_ext, ix_env, [], (ag_cf (OStore (lit "/o/s"))), cn_dots, (lit "/e"). eexists. exists (lit "/o/s"), [lit "...sym"; lit "AB12"; lit "o"].
  splits; [reflexivity|vm_compute; reflexivity|vm_compute; reflexivity|reflexivity|vm_compute; discriminate|]. intros k E. change (locate (os_cwd (ex_os cn_ext)) (lit "/o/s")) with [lit "s"; lit "o"] in E.
  apply (f_equal (@rev str)) in E. rewrite rev_app_distr in E. vm_compute in E. discriminate.
Qed.
Print Assumptions C90_names_refuted.
