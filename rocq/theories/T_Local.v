(** Theorem C78: the build without the feature "http". *)
From Verif Require Import Base Str Utf8 M_Path M_Object M_Fs M_Cache M_Store M_Input M_Local S_Path S_Fs S_Store S_Input P_Input T_Object T_Store T_Input.

(** The ids, the symbol server, the network and the search settings do not
    matter. *)
Theorem C78_nothing_remote : forall ps os cab ok ok' n n' sc sc' h h' e out sv sv' d d' c c' arch cfi inl mp extra w f,
  single_file_local (mkExt ps (mkCEnv os cab ok) n sc h) e extra (mkConfig out sv d c arch cfi inl mp) w f =
  single_file_local (mkExt ps (mkCEnv os cab ok') n' sc' h') e extra (mkConfig out sv' d' c' arch cfi inl mp) w f.
Proof. reflexivity. Qed.
Print Assumptions C78_nothing_remote.
(** Without ids, and except for PE files, the other build does the same. *)
Theorem C78_same : forall x e cf fs f, cf_debug_id cf = None -> cf_code_id cf = None ->
  (forall buf, read_file (ex_os x) (ex_cab x) fs f = Ok buf -> ps_peek (ex_ps x) buf <> FmtPe) ->
  load_file x e cf fs f = (fs, load_file_local x e cf fs f).
Proof.
  intros x e cf fs f D C P. unfold load_file, load_file_local, get_from_id, get_from_id_local. rewrite D, C.
  destruct (get_filename f) as [n| |]; cbn [next bind]; trivial. destruct (read_file _ _ fs f) as [b| |] eqn:R; cbn [next bind]; trivial. specialize (P b eq_refl).
  destruct (cf_map cf) as [m| |]; cbn [next bind]; trivial. destruct (cf_arch cf) as [a|]; trivial. unfold get_object_info, get_object_info_local. destruct (ps_peek (ex_ps x) b); trivial. contradiction.
Qed.
Print Assumptions C78_same.
(** A PE file is dumped from itself, ... *)
Theorem C78_pe : forall x e fs buf path name arch pe, ps_peek (ex_ps x) buf = FmtPe -> ps_pe (ex_ps x) buf = Some pe ->
  get_object_info_local x e fs buf path name arch = from_pe e name pe.
Proof. intros x e fs buf path name arch pe P Q. unfold get_object_info_local, get_pe_pdb_object_info_local, get_pe_object_info. now rewrite P, Q. Qed.
Print Assumptions C78_pe.
(** ... which is what the other build does if it finds no usable PDB. *)
Theorem C78_pe_same : forall x e fs buf path name arch sv fs' m, ps_peek (ex_ps x) buf = FmtPe -> get_pe_pdb_object_info x e fs buf path name sv = (fs', Err m) ->
  snd (get_object_info x e fs buf path name arch sv) = get_object_info_local x e fs buf path name arch.
Proof. intros x e fs buf path name arch sv fs' m P H. unfold get_object_info, get_object_info_local, get_pe_pdb_object_info_local. now rewrite P, H. Qed.
Print Assumptions C78_pe_same.
(** Even a PDB beside the PE file, for which no server is needed, is not used. *)
Theorem C78_pdb_beside : exists x e fs buf path name arch o o', ps_peek (ex_ps x) buf = FmtPe /\
  get_object_info x e fs buf path name arch None = (fs, Ok o) /\ get_object_info_local x e fs buf path name arch = Ok o' /\
  o' <> o /\ fs_get fs [lit "x.pdb"; lit "d"] = Some (NFile (lit "DD")).
Proof.
  exists ix, ix_env, [([lit "d"], NDir); ([lit "x.pdb"; lit "d"], NFile (lit "DD"))], (lit "PP"), (lit "/d/x.dll"), (lit "x.dll"), 2. eexists _, _.
  split; [vm_compute; reflexivity|]. split; [vm_compute; reflexivity|]. split; [vm_compute; reflexivity|]. split; [|vm_compute; reflexivity].
  intros E. apply (f_equal ob_debug_id) in E. vm_compute in E. discriminate.
Qed.
Print Assumptions C78_pdb_beside.
(** Nothing is written but the output (C44 says where), and a file that gives no
    module makes the run fail, with an error or a panic as it did. *)
Theorem C78_untouched : forall x e extra cf w f, (forall o, load_file_local x e cf (w_fs w) f <> Ok o) ->
  fst (single_file_local x e extra cf w f) = w /\ snd (single_file_local x e extra cf w f) <> Ok tt /\
  is_panic (snd (single_file_local x e extra cf w f)) = is_panic (load_file_local x e cf (w_fs w) f).
Proof.
  intros x e extra cf w f H. unfold single_file_local. destruct (load_file_local x e cf (w_fs w) f) as [o| |]; [now elim (H o)|..]; splits; try reflexivity; discriminate.
Qed.
Print Assumptions C78_untouched.

(** *** Examples *)
Example C78_ex : exists w', single_file_local ix ix_env [] (mkConfig (OFile FStdout) (Some (lit "https://s")) (Some (lit "DID")) None (Some 2) false true (Ok (fun _ => Ok None))) ix_w (lit "libx.so") = (w', Ok tt) /\
  starts_with (encode (lit "MODULE Linux x86_64 AB12 libx.so")) (w_out w') = true.
Proof. eexists. split; [vm_compute; reflexivity|vm_compute; reflexivity]. Qed.
Example C78_ex_gone : single_file_local ix ix_env [] (mkConfig (OFile FStdout) None None None (Some 2) false true (Ok (fun _ => Ok None))) ix_w (lit "gone") = (ix_w, Panic "Unable to open the file").
Proof. vm_compute. reflexivity. Qed.
Example C78_ex_failed : single_file_local ix ix_env [] (mkConfig (OFile FStdout) None None None None false true (Ok (fun _ => Ok None))) ix_w (lit "libx.so") = (ix_w, Err "arch").
Proof. vm_compute. reflexivity. Qed.
