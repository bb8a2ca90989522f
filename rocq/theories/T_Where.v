(** Theorem C77: where the source files of an object are looked for. *)
From Verif Require Import Base Sort BMap Str Utf8 M_Names M_Path M_Source M_Symbol M_Collector M_Object S_Path S_Collector S_Object S_Where P_Path P_Where T_Collector T_Object.

(** Every location has one path in the debug info. *)
Theorem C77_located : forall pl r, exists p, located pl r p /\ forall q, located pl r q -> q = p.
Proof. intros pl r. exists (get_path (fun _ => None) pl false (fr_cdir r) (fr_dir r) (fr_name r)). split; [apply located_path|]. intros q. apply located_is. Qed.
Print Assumptions C77_located.
(** Files of the kind of this machine: the real path if there is one, else the
    path without dots (C21). *)
Theorem C77_looked_for : forall e pl main r p, looked_for e pl main -> located pl r p ->
  env_path (ce_src (run_cenv e pl main)) r = match re_canon e p with Some q => q | None => normalize_path p end.
Proof.
  intros e pl main r p [H M] L. apply (located_is (re_canon e)) in L. subst p. unfold env_path, run_cenv. cbn [ce_src se_canon se_platform se_canonicalize].
  replace (if pa_pe main && pa_debug_info main then false else is_target (re_host e) pl) with true; [apply get_path_canon|].
  destruct (pa_pe main) eqn:A, (pa_debug_info main) eqn:B; cbn [andb]; try (elim M; now split); rewrite H; destruct pl; reflexivity.
Qed.
Print Assumptions C77_looked_for.
(** All others, and executables made with MinGW: the path as it is. *)
Theorem C77_as_written : forall e pl main r p, ~ looked_for e pl main -> located pl r p -> env_path (ce_src (run_cenv e pl main)) r = p.
Proof.
  intros e pl main r p H L. rewrite (located_is (re_canon e) _ _ _ L). unfold env_path, run_cenv. cbn [ce_src se_canon se_platform se_canonicalize].
  replace (if pa_pe main && pa_debug_info main then false else is_target (re_host e) pl) with false; [reflexivity|].
  unfold looked_for, mingw in H. destruct (pa_pe main), (pa_debug_info main); cbn [andb]; trivial; destruct (re_host e), pl; trivial; elim H; split; trivial; intros [? ?]; discriminate.
Qed.
Print Assumptions C77_as_written.
(** Then the disk and the kind of machine do not matter: two machines produce the
    same symbols. *)
Theorem C77_reproducible : forall e e' pl main mn pe pn, ~ looked_for e pl main -> ~ looked_for e' pl main ->
  re_ck e' = re_ck e -> re_dm e' = re_dm e -> re_inl e' = re_inl e -> re_sort e' = re_sort e -> (forall p, re_map e' p = re_map e p) ->
  from_object e' pl main mn pe pn = from_object e pl main mn pe pn.
Proof.
  intros e e' pl main mn pe pn N N' A B C D M. apply from_object_ext. split; [exact A|]. split; [exact B|]. split; [exact C|]. split; [exact D|].
  intros fs r _ _. split; [|apply M]. destruct (C77_located pl r) as (p & L & _). now rewrite (C77_as_written e pl main r p N L), (C77_as_written e' pl main r p N' L).
Qed.
Print Assumptions C77_reproducible.
(** Looked for: only the paths of the object matter, not the rest of the disk nor
    what the rules make of other paths. *)
Theorem C77_only_its_paths : forall e e' pl main mn pe pn, re_host e' = re_host e -> re_ck e' = re_ck e -> re_dm e' = re_dm e -> re_inl e' = re_inl e -> re_sort e' = re_sort e ->
  (forall fs r p, pa_functions main = Some fs -> In r (flat_map fun_refs (readable fs)) -> located pl r p -> re_canon e' p = re_canon e p) ->
  (forall fs r, pa_functions main = Some fs -> In r (flat_map fun_refs (readable fs)) ->
     re_map e' (env_path (ce_src (run_cenv e pl main)) r) = re_map e (env_path (ce_src (run_cenv e pl main)) r)) ->
  from_object e' pl main mn pe pn = from_object e pl main mn pe pn.
Proof.
  intros e e' pl main mn pe pn Hh A B C D K M. apply from_object_ext. split; [exact A|]. split; [exact B|]. split; [exact C|]. split; [exact D|].
  intros fs r F I. split; [|now apply (M fs)]. unfold env_path, run_cenv. cbn [ce_src se_canon se_platform se_canonicalize]. rewrite Hh.
  destruct (if pa_pe main && pa_debug_info main then false else is_target (re_host e) pl); [|reflexivity]. rewrite !get_path_canon.
  rewrite <- (located_is (re_canon e') pl r _ (located_path (re_canon e) pl r)). now rewrite (K fs r _ F I (located_path (re_canon e) pl r)).
Qed.
Print Assumptions C77_only_its_paths.

(** *** Examples *)
(** A link on the disk is followed for an ELF file on Linux, and only there. *)
Definition wx_canon (p : str) : option str := if str_eqb p (lit "/b/s/f0.c") then Some (lit "/real/f0.c") else None.
Definition wx_env (host : Platform) (canon : str -> option str) := mkRunEnv true host canon (fun _ => Ok None) (mkDemangler (fun _ => None) (fun _ => lang_unknown)) true (sort_by_key i_start).
Definition wx_main := ox_small cx_fs [] (Some (lit "c0de")) true.
Definition wx_files (r : res Obj) : list str := match r with Ok o => sm_ids (ob_files o) | _ => [] end.
Example C77_ex :
  wx_files (from_object (wx_env Linux wx_canon) Linux wx_main (lit "x") None None) = [lit "/b/s/f2.c"; lit "/b/s/f1.c"; lit "/real/f0.c"] /\
  wx_files (from_object (wx_env Mac wx_canon) Linux wx_main (lit "x") None None) = [lit "/b/s/f2.c"; lit "/b/s/f1.c"; lit "/b/s/f0.c"].
Proof. split; vm_compute; reflexivity. Qed.
(** An executable made with MinGW, on Windows; a PDB there. *)
Definition wx_pe (pe : bool) : Parsed := mkParsed (pa_functions wx_main) (pa_debug_id wx_main) (pa_code_id wx_main) (pa_arch wx_main) true pe (pa_exceptions wx_main) (pa_publics wx_main) (pa_size wx_main)
  (pa_secs wx_main) (pa_unxz wx_main) (pa_unwind wx_main) (pa_cfi wx_main) (pa_bytes wx_main) (pa_inner wx_main).
Example C77_ex_mingw : ~ looked_for (wx_env Win wx_canon) Win (wx_pe true) /\ looked_for (wx_env Win wx_canon) Win (wx_pe false) /\
  In (lit "/b/s/f0.c") (wx_files (from_object (wx_env Win wx_canon) Win (wx_pe true) (lit "x") None None)) /\
  In (lit "/real/f0.c") (wx_files (from_object (wx_env Win wx_canon) Win (wx_pe false) (lit "x") None None)).
Proof.
  split; [intros [_ H]; apply H; split; reflexivity|]. split; [split; [reflexivity|intros [H _]; discriminate]|]. split; vm_compute; auto.
Qed.
Example C77_ex_located : exists r, In r (flat_map fun_refs (readable cx_fs)) /\ located Linux r (lit "/b/s/f0.c") /\ looked_for (wx_env Linux wx_canon) Linux wx_main /\ ~ looked_for (wx_env Mac wx_canon) Linux wx_main.
Proof.
  eexists. split; [left; reflexivity|]. split; [|split; [split; [reflexivity|intros [H _]; discriminate]|intros [H _]; discriminate]].
  match goal with |- located _ ?r _ => change (located Linux r (get_path (fun _ => None) Linux false (fr_cdir r) (fr_dir r) (fr_name r))) end. apply located_path.
Qed.
