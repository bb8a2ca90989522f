(** Whatever its arguments, what is on the disk and how it ends, the program
    removes nothing (C89). *)
From Verif Require Import Base Str Utf8 M_Path M_Source M_Symbol M_Object M_Fs S_Fs P_Fs M_Cache M_Store M_Input M_Cli M_Args M_Sched M_Many M_Shared M_Main S_Main S_Whole S_Shared S_Grown P_Grown T_Input T_Main T_Again.
Local Open Scope N_scope.

(** For a file alone. *)
Theorem C89_file : forall x e extra cf w f, grown_world w (fst (single_file x e extra cf w f)).
Proof. exact single_grown. Qed.
Print Assumptions C89_file.
(** At every moment while several files are processed, whatever the order of the
    threads. *)
Theorem C89_moments : forall u jobs files w k, worked u (Nat.min jobs (length files)) (work_start w jobs files) k -> grown_world w (k_world k).
Proof. intros u jobs files w k W. exact (worked_grown _ _ _ _ W). Qed.
Print Assumptions C89_moments.
(** Any end of the program. *)
Theorem C89_program : forall m argv w v n, program m argv w v n -> grown_world w v.
Proof.
  assert (Pt : forall w t, grown_world w (mkWorld (w_fs w) (w_out w ++ t) (w_err w))).
  { intros w t. split; [apply grown_refl|]. cbn. split; [eauto|exists []; now rewrite app_nil_r]. }
  intros m argv w v n P. destruct P as [H|H|c f w' n H F M|c f g t s H F Pl|c f g t info level w' n H F Pl M|c f g t info out jobs level w' n H F Pl S].
  - apply gw_refl.
  - apply Pt.
  - unfold main_one in M. destruct (plan _ _ _) as [[[info [|out j]] level]|s|s]; [| |injection M as <- _; apply gw_refl..].
    + destruct (list_arch _ _ _ _) as [text r]. injection M as <- _. apply Pt.
    + pose proof (C89_file (ma_ext m) (ma_env m) info (config_of m (w_fs w) c out) w f) as A. destruct (single_file _ _ _ _ _ _) as [w1 r]. injection M as <- _. exact A.
  - apply gw_refl.
  - unfold main_list in M. destruct (list_arch _ _ _ _) as [text r]. injection M as <- _. apply Pt.
  - destruct S as [r E N|p E N|p a k E Ea W D|p a k E Ea W D]; [apply gw_refl|apply gw_refl|exact (C89_moments _ _ (f :: g :: t) _ _ W)..].
Qed.
Print Assumptions C89_program.

(** *** Examples *)
(** A run that writes. *)
Example C89_ex : exists v, program ag_m ag_argv ag_w v 0 /\ grown_world ag_w v /\ ~ same_fs (w_fs v) (w_fs ag_w) /\ fs_get (w_fs v) [lit "AB12"; lit "x.pdb"; lit "s"] = Some NDir.
Proof.
  assert (P : program ag_m ag_argv ag_w (fst (main_one (ma_version ag_m) (ma_cpus ag_m) ix ix_env (ma_arch_name ag_m) (config_of ag_m ag_fs ag_c) (cm_args ag_c) ag_w (lit "/d/x.dll"))) 0).
  { apply (pr_one _ _ _ ag_c (lit "/d/x.dll")); [vm_compute; reflexivity|reflexivity|vm_compute; reflexivity]. }
  eexists. split; [exact P|]. split; [exact (C89_program _ _ _ _ _ P)|]. split; [|vm_compute; reflexivity]. intros E. specialize (E [lit "o"]). vm_compute in E. discriminate.
Qed.
(** A run that cannot write: [/d/x.pdb] is a file. *)
Definition gr_argv : list str := map lit ["/d/x.dll"; "--store"; "/d"]%string.
Definition gr_c : Cmd := mkCmd (mkArgs [lit "/d/x.dll"] None (Some (lit "/d")) (lit "error") [] false [] false) None None None (lit "x86_64") false false None None None None.
Example C89_ex_failed : exists v, program ag_m gr_argv ag_w v 1 /\ grown_world ag_w v /\ fs_get (w_fs v) [lit "x.pdb"; lit "d"] = Some (NFile (lit "DAB12")).
Proof.
  assert (P : program ag_m gr_argv ag_w (fst (main_one (ma_version ag_m) (ma_cpus ag_m) ix ix_env (ma_arch_name ag_m) (config_of ag_m ag_fs gr_c) (cm_args gr_c) ag_w (lit "/d/x.dll"))) 1).
  { apply (pr_one _ _ _ gr_c (lit "/d/x.dll")); [vm_compute; reflexivity|reflexivity|vm_compute; reflexivity]. }
  eexists. split; [exact P|]. split; [exact (C89_program _ _ _ _ _ P)|]. vm_compute. reflexivity.
Qed.
(** The contents of files may go: of the input itself, if that is the output. *)
Definition gr_argv2 : list str := map lit ["/d/x.dll"; "-o"; "/d/x.dll"]%string.
Definition gr_c2 : Cmd := mkCmd (mkArgs [lit "/d/x.dll"] (Some (lit "/d/x.dll")) None (lit "error") [] false [] false) None None None (lit "x86_64") false false None None None None.
Theorem C89_contents_refuted : exists m argv w v n l d, program m argv w v n /\ n = 0 /\ fs_get (w_fs w) l = Some (NFile d) /\ fs_get (w_fs v) l <> Some (NFile d).
Proof.
  exists ag_m, gr_argv2, ag_w. do 2 eexists. exists [lit "x.dll"; lit "d"], (lit "PAB12"). split; [|split; [reflexivity|split; [reflexivity|]]].
  - apply (pr_one _ _ _ gr_c2 (lit "/d/x.dll")); [vm_compute; reflexivity|reflexivity|vm_compute; reflexivity].
  - vm_compute. discriminate.
Qed.
Print Assumptions C89_contents_refuted.
