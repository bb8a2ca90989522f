(** Theorems about processing and merging objects. *)
From Verif Require Import Base Sort BMap Str M_Names M_Path M_Line M_Source M_Symbol M_Collector M_Object
  S_Line S_Names S_Path S_Source S_Symbol S_Collector S_Object P_Line P_Names P_Path P_Source P_Symbol P_Collector P_Walk P_Tree P_Func P_Calls
  P_Object P_Merge P_Chain P_Where P_From T_Collector.

(** ** C55: processing one object *)
(** In-range data never makes it panic. *)
Theorem C55_no_panic : forall e pl main mn pe pn fs, sort_perm (re_sort e) -> consistent (flat_map fun_refs (readable fs)) ->
  pa_functions main = Some fs -> exceptions_u32 main -> debugdata_inside main ->
  (pl <> Win \/ all_publics ascii_name main) ->
  (re_ck e = false \/ (addresses_fit main fs /\ (re_inl e = false \/ Forall fits (readable fs)))) ->
  mapping_reads e pl main fs ->
  exists o, from_object e pl main mn pe pn = Ok o.
Proof. exact from_ok. Qed.
Print Assumptions C55_no_panic.
(** The mapping of a path can panic (C73, C76). Processing panics for that reason
    exactly if it does so for the path of a FILE record. *)
Theorem C55_mapping_panics : forall e pl main mn pe pn,
  (forall o, from_object e pl main mn pe pn = Ok o -> from_object (tamed e) pl main mn pe pn = Ok o) /\
  forall o, from_object (tamed e) pl main mn pe pn = Ok o ->
  ((forall p i, In (p, i) (sm_ref (ob_files o)) -> is_panic (re_map e p) = false) <-> from_object e pl main mn pe pn = Ok o) /\
  ((exists p i, In (p, i) (sm_ref (ob_files o)) /\ is_panic (re_map e p) = true) <-> is_panic (from_object e pl main mn pe pn) = true).
Proof. intros e pl main mn pe pn. split; [intros o; apply tamed_ok|intros o; apply mapping_panics]. Qed.
Print Assumptions C55_mapping_panics.
(** Every reference resolves, records are filed under their addresses. *)
Theorem C55_object_ok : forall e pl main mn pe pn o, sort_perm (re_sort e) ->
  (forall fs, pa_functions main = Some fs -> consistent (flat_map fun_refs (readable fs))) -> exceptions_u32 main ->
  from_object e pl main mn pe pn = Ok o -> obj_ok (run_shown e) o.
Proof. exact from_obj_ok. Qed.
Print Assumptions C55_object_ok.
(** Which record ends up at each address. *)
Theorem C55_records : forall e pl main mn pe pn o, from_object e pl main mn pe pn = Ok o ->
  exists fs mini, pa_functions main = Some fs /\
    minidebug (re_ck e) (pa_size main) (pa_unxz main) (pa_secs main) = Ok mini /\
    forall k, processed_at e pl main mn (ph_name mn pn) fs mini k (nfind k (ob_syms o)).
Proof. exact from_processed. Qed.
Print Assumptions C55_records.
(** No record ends above 2^32, the condition under which merging cannot overflow. *)
Theorem C55_ends : forall e pl main mn pe pn o fs, sort_perm (re_sort e) -> consistent (flat_map fun_refs (readable fs)) ->
  pa_functions main = Some fs -> addresses_fit main fs -> exceptions_u32 main ->
  from_object e pl main mn pe pn = Ok o -> ends_fit (ob_syms o).
Proof. exact from_ends. Qed.
Print Assumptions C55_ends.

(** A small ELF file, with minidebuginfo. *)
Definition ox_env (ck : bool) (map : str -> res (option str)) := mkRunEnv ck Linux (fun _ => None) map (mkDemangler (fun _ => None) (fun _ => lang_unknown)) true (sort_by_key i_start).
Definition ox_parsed (fs : list (option Fun)) (pubs : list Pub) (secs : list (option str * N * N)) (exc : option (list (option (N * N)))) (code : option str) (info : bool) : Parsed :=
  mkParsed (Some fs) (lit "AB12") code (lit "x86_64") info false exc pubs 4096 secs
    (fun a b => if a =? 64 then Some (Some [mkPub 8192 16 (Some (lit "hidden"))]) else None) true (lit "STACK CFI INIT 10 20 x" ++ [c_nl])
    (BElf [mkSection 4096 true (Some (lit ".text"))]) None.
Definition ox_main := ox_parsed cx_fs [mkPub 5000 8 (Some (lit "pub"))] [(Some (lit ".text"), 0, 9000); (Some (lit ".gnu_debugdata"), 64, 100)] (Some [Some (6000, 6010)]) (Some (lit "c0de")) true.
Example C55_example :
  (exists o, from_object (ox_env true (fun _ => Ok None)) Linux ox_main (lit "libx.so") None None = Ok o /\
     map fst (ob_syms o) = [4096; 5000; 6000; 8192] /\ ob_code_id o = Some (lit "C0DE") /\ lenN (sm_ids (ob_files o)) = 3) /\
  sort_perm (sort_by_key i_start) /\ consistent (flat_map fun_refs (readable cx_fs)) /\
  exceptions_u32 ox_main /\ debugdata_inside ox_main /\ addresses_fit ox_main cx_fs /\ Forall fits (readable cx_fs).
Proof.
  split; [eexists; vm_compute; splits; reflexivity|]. split; [apply sorts_perm, cx_sorts|]. split; [exact collector_consistent|].
  split; [|split; [|split]].
  - intros xs b e [= <-] [[= <- <-]|[]]. now vm_compute.
  - intros a n [[=]|[[= <- <-]|[]]]. now vm_compute.
  - split; [repeat constructor; now vm_compute|]. split; [intros xs b e [= <-] [[= <- <-]|[]]; now vm_compute|].
    split; [repeat constructor; now vm_compute|]. intros pubs (a & b & E). cbn in E. destruct (a =? 64); inversion E. repeat constructor; now vm_compute.
  - repeat constructor; now vm_compute.
Qed.

Definition ox_dir (d : str) (p : str) : res (option str) := if str_eqb p d then Panic "directory" else Ok (Some (lit "m" ++ p)).
Example C55_ex_mapping : match from_object (tamed (ox_env true (ox_dir (lit "/b/s/f0.c")))) Linux ox_main (lit "libx.so") None None with
    | Ok o => sm_ids (ob_files o) = [lit "m/b/s/f2.c"; lit "m/b/s/f1.c"; lit "/b/s/f0.c"] /\ map fst (sm_ref (ob_files o)) = [lit "/b/s/f2.c"; lit "/b/s/f1.c"; lit "/b/s/f0.c"]
    | _ => False
    end /\
  is_panic (from_object (ox_env true (ox_dir (lit "/b/s/f0.c"))) Linux ox_main (lit "libx.so") None None) = true /\
  is_panic (from_object (ox_env true (ox_dir (lit "/b/s"))) Linux ox_main (lit "libx.so") None None) = false.
Proof. vm_compute. auto. Qed.
Example C55_ex_reads : mapping_reads (ox_env true (ox_dir (lit "/b/s"))) Linux ox_main cx_fs.
Proof.
  assert (H : forallb (fun r => negb (is_panic (ox_dir (lit "/b/s") (env_path (ce_src (run_cenv (ox_env true (ox_dir (lit "/b/s"))) Linux ox_main)) r)))) (flat_map fun_refs (readable cx_fs)) = true) by (vm_compute; reflexivity).
  intros r I. rewrite forallb_forall in H. specialize (H r I). cbn [ox_env re_map]. now apply negb_true_iff in H.
Qed.

(** ** C24: which merges succeed *)
Theorem C24_refuses : forall ck iter x y, (exists e, merge_objects ck iter x y = Err e) <-> ob_debug_id x <> ob_debug_id y.
Proof. exact merge_refuses. Qed.
Print Assumptions C24_refuses.
Theorem C24_total : forall shown ck iter x y, iterates iter -> fresh shown x -> fresh shown y -> ob_debug_id x = ob_debug_id y ->
  ck = false \/ (ends_fit (ob_syms x) /\ ends_fit (ob_syms y)) ->
  exists m, merge_objects ck iter x y = Ok m /\ ob_debug_id m = ob_debug_id x.
Proof.
  intros shown ck iter x y It Fx Fy E T. apply fresh_ok in Fx, Fy. destruct (merge_two shown ck iter x y It Fx Fy E T) as (m & A & _).
  exists m. split; [exact A|]. exact (proj1 (merge_fields _ _ _ _ _ A)).
Qed.
Print Assumptions C24_total.
(** The iteration order of the hash map only affects the numbering of files. *)
Theorem C24_iteration_order : forall shown ck iter iter' x y, iterates iter -> iterates iter' -> fresh shown x -> fresh shown y ->
  ob_debug_id x = ob_debug_id y -> ends_fit (ob_syms x) -> ends_fit (ob_syms y) ->
  exists m m', merge_objects ck iter x y = Ok m /\ merge_objects ck iter' x y = Ok m' /\
    (forall k, rec_equiv m m' (nfind k (ob_syms m)) (nfind k (ob_syms m'))) /\
    Permutation (sm_ids (ob_files m)) (sm_ids (ob_files m')) /\
    ob_origins m = ob_origins m' /\ ob_name m = ob_name m' /\ ob_cpu m = ob_cpu m' /\ ob_debug_id m = ob_debug_id m' /\
    ob_code_id m = ob_code_id m' /\ ob_pe_name m = ob_pe_name m' /\ ob_stack m = ob_stack m' /\ ob_platform m = ob_platform m'.
Proof. intros shown ck iter iter' x y I I' Fx Fy. apply fresh_ok in Fx, Fy. exact (merge_iter_order shown ck iter iter' x y I I' Fx Fy). Qed.
Print Assumptions C24_iteration_order.

(** ** C25: source attribution *)
Theorem C25_attribution : forall shown ck iter x y, iterates iter -> fresh shown x -> fresh shown y -> ob_debug_id x = ob_debug_id y ->
  ck = false \/ (ends_fit (ob_syms x) /\ ends_fit (ob_syms y)) ->
  exists m, merge_objects ck iter x y = Ok m /\ refs_ok m /\ from_one_of [x; y] m.
Proof.
  intros shown ck iter x y It Fx Fy E T. apply fresh_ok in Fx, Fy. destruct (merge_two shown ck iter x y It Fx Fy E T) as (m & A & B & C & _).
  exists m. split; [exact A|]. split; [apply B|exact C].
Qed.
Print Assumptions C25_attribution.

Definition ox_fun (a i : N) (inl : list Fun) : Fun := mkFun a 32 (cx_name (lit "fn" ++ [48 + i])) [cx_line a 32 (7 + i) i] inl.
Definition ox_call (a i : N) : Fun := mkFun a 8 (cx_name (lit "in" ++ [48 + i])) [cx_line a 8 (50 + i) i] [].
Definition ox_small (fs : list (option Fun)) (pubs : list Pub) (code : option str) (info : bool) := ox_parsed fs pubs [] None code info.
Definition ox_obj (fs : list (option Fun)) (pubs : list Pub) (code : option str) (info : bool) : res Obj :=
  from_object (ox_env true (fun _ => Ok None)) Linux (ox_small fs pubs code info) (lit "libx.so") None None.
Lemma ox_fresh fs pubs code info o : consistent (flat_map fun_refs (readable fs)) -> ox_obj fs pubs code info = Ok o ->
  fresh (fun p => p) o.
Proof.
  intros C H. exists (ox_env true (fun _ => Ok None)), Linux, (ox_small fs pubs code info), (lit "libx.so"), None, None.
  split; [apply sorts_perm, cx_sorts|]. split; [intros fs' [= <-]; exact C|]. split; [intros xs b e [=]|]. split; [reflexivity|exact H].
Qed.
Ltac consistent_tac := intros r r' H H'; cbn in H, H'; intuition (subst; vm_compute in *; try discriminate; auto; try congruence).
Ltac ends_tac := let k := fresh in let s := fresh in let H := fresh in
  intros k s H; apply nfind_In in H; [|vm_compute; repeat constructor]; vm_compute in H;
  repeat (destruct H as [H|H]; [inversion H; subst; vm_compute; reflexivity|]); destruct H.

(** Two objects, the second with more records and an inlined call. *)
Definition ox_a_fs := [Some (ox_fun 4096 0 [ox_call 4100 2])].
Definition ox_b_fs := [Some (ox_fun 8192 1 []); Some (ox_fun 12288 2 [ox_call 12290 0])].
Definition ox_a : Obj := match ox_obj ox_a_fs [mkPub 8192 0 (Some (lit "pub"))] None false with Ok o => o | _ => mkObj [] (mkSrcMap [] []) [] [] [] [] None None [] false Linux end.
Definition ox_b : Obj := match ox_obj ox_b_fs [] (Some (lit "c0de")) true with Ok o => o | _ => mkObj [] (mkSrcMap [] []) [] [] [] [] None None [] false Linux end.
Example C24_hypotheses : fresh (fun p => p) ox_a /\ fresh (fun p => p) ox_b /\ ob_debug_id ox_a = ob_debug_id ox_b /\
  ends_fit (ob_syms ox_a) /\ ends_fit (ob_syms ox_b) /\ map fst (ob_syms ox_a) = [4096; 8192] /\ map fst (ob_syms ox_b) = [4096; 8192; 12288] /\
  lenN (sm_ids (ob_files ox_a)) = 2 /\ lenN (ob_origins ox_a) = 1.
Proof.
  split; [apply (ox_fresh ox_a_fs [mkPub 8192 0 (Some (lit "pub"))] None false); [consistent_tac|vm_compute; reflexivity]|].
  split; [apply (ox_fresh ox_b_fs [] (Some (lit "c0de")) true); [consistent_tac|vm_compute; reflexivity]|].
  split; [vm_compute; reflexivity|]. split; [ends_tac|]. split; [ends_tac|]. vm_compute. splits; reflexivity.
Qed.
(** The inlined call and the files of [ox_a] survive, renumbered. *)
Example C25_example : exists m s, merge_objects true (fun l => l) ox_a ox_b = Ok m /\ nfind 4096 (ob_syms m) = Some s /\
  map (says_line m) (ls_lines (sy_source s)) =
    [(4096, 4, 7, Some (lit "/b/s/f0.c")); (4100, 8, 52, Some (lit "/b/s/f2.c")); (4108, 20, 7, Some (lit "/b/s/f0.c"))] /\
  map (says_inline m) (ls_inlines (sy_source s)) = [(0, 7, Some (lit "/b/s/f0.c"), Some (lit "in2"), [mkRange 4100 8])] /\
  nfind 4096 (ob_syms ox_a) <> Some s.
Proof.
  destruct (merge_objects true (fun l => l) ox_a ox_b) as [m| |] eqn:E; [|vm_compute in E; discriminate|vm_compute in E; discriminate].
  vm_compute in E. inversion E; subst; clear E. eexists _, _. split; [reflexivity|]. split; [reflexivity|].
  split; [reflexivity|]. split; [reflexivity|]. vm_compute. discriminate.
Qed.

(** ** C26: three and more objects *)
(** Provided that at each step the accumulated object has more records than the
    next one or has all its files in its path index. *)
Theorem C26_chain_partial : forall shown ck iter x os, iterates iter -> fresh shown x -> Forall (fresh shown) os ->
  Forall (fun o => ob_debug_id o = ob_debug_id x) os ->
  (ck = false \/ Forall (fun o => ends_fit (ob_syms o)) (x :: os)) -> chained ck iter x os ->
  exists m, merge_all ck iter x os = Ok m /\ from_one_of (x :: os) m.
Proof.
  intros shown ck iter x os It Fx Fo E F G. apply fresh_ok in Fx.
  destruct (merge_chained shown ck iter It os x [x]) as (m & A & _ & C); auto using obj_ok_merged, from_one_of_self.
  - eapply Forall_impl; [|exact Fo]. apply fresh_ok.
  - destruct F as [|F]; [now left|right]. inversion F; subst. auto.
  - exists m. auto.
Qed.
Print Assumptions C26_chain_partial.
(** In particular for objects processed from the same sources, in any order. *)
Theorem C26_same_sources : forall shown ck iter x os, iterates iter -> fresh shown x -> Forall (fresh shown) os ->
  Forall (fun o => ob_debug_id o = ob_debug_id x) os ->
  (ck = false \/ Forall (fun o => ends_fit (ob_syms o)) (x :: os)) -> Forall (same_paths x) os ->
  exists m, merge_all ck iter x os = Ok m /\ from_one_of (x :: os) m.
Proof.
  intros shown ck iter x os It Fx Fo E F G. apply C26_chain_partial with (shown := shown); auto.
  apply same_paths_chained with (shown := shown); auto using fresh_ok.
  - eapply Forall_impl; [|exact Fo]. apply fresh_ok.
  - destruct F as [|F]; [now left|right]. inversion F; subst. auto.
Qed.
Print Assumptions C26_same_sources.
(** Without any condition on sizes and sources: merging succeeds, every file
    number resolves, and everything but the file names is right. *)
Theorem C26_places : forall shown ck iter x os, iterates iter -> fresh shown x -> Forall (fresh shown) os ->
  Forall (fun o => ob_debug_id o = ob_debug_id x) os ->
  (ck = false \/ Forall (fun o => ends_fit (ob_syms o)) (x :: os)) ->
  exists m, merge_all ck iter x os = Ok m /\ refs_ok m /\ places_from_one_of (x :: os) m.
Proof.
  intros shown ck iter x os It Fx Fo E F. apply fresh_ok in Fx.
  destruct (merge_all_any shown ck iter It os x [x]) as (m & A & (_ & B & _) & C & _); auto using obj_ok_merged, places_self.
  - eapply Forall_impl; [|exact Fo]. intros o Ho. apply obj_ok_merged. now apply fresh_ok.
  - destruct F as [|F]; [now left|right]. inversion F; subst. auto.
  - exists m. auto.
Qed.
Print Assumptions C26_places.
(** And which file names are wrong: in one more merge, exactly the files of the
    smaller object that its path index lacks become the first of the larger. *)
Theorem C26_which_files : forall shown ck iter x os o acc, iterates iter -> fresh shown x -> Forall (fresh shown) os -> fresh shown o ->
  Forall (fun o => ob_debug_id o = ob_debug_id x) os -> ob_debug_id o = ob_debug_id x ->
  (ck = false \/ Forall (fun o => ends_fit (ob_syms o)) (x :: o :: os)) -> merge_all ck iter x os = Ok acc ->
  exists m, merge_all ck iter x (os ++ [o]) = Ok m /\
    forall k s, nfind k (ob_syms m) = Some s -> sy_public s = false ->
      (exists a, nfind k (ob_syms (larger acc o)) = Some a /\ sy_public a = false /\ sy_name s = sy_name a /\ sy_len s = sy_len a /\
         same_source (larger acc o) a m s) \/
      (exists b, nfind k (ob_syms (smaller acc o)) = Some b /\ sy_public b = false /\ sy_name s = sy_name b /\ sy_len s = sy_len b /\
         moved_source (larger acc o) (smaller acc o) m b s).
Proof.
  intros shown ck iter x os o acc It Fx Fo F1 E E1 F M. apply fresh_ok in Fx, F1.
  assert (T : ck = false \/ (ends_fit (ob_syms x) /\ Forall (fun o => ends_fit (ob_syms o)) os /\ ends_fit (ob_syms o))).
  { destruct F as [|F]; [now left|right]. inversion F as [|? ? ? F']; inversion F'; subst. auto. }
  destruct (merge_all_any shown ck iter It os x [x]) as (acc' & A & B & _ & D & G); auto using obj_ok_merged, places_self.
  { eapply Forall_impl; [|exact Fo]. intros q Hq. apply obj_ok_merged. now apply fresh_ok. }
  { destruct T as [|(? & ? & ?)]; [now left|right; auto]. }
  assert (acc' = acc) by congruence. subst acc'.
  destruct (merge_any shown ck iter acc o It B (obj_ok_merged _ _ F1)) as (m & A1 & _ & C1 & _); [congruence| |].
  { destruct T as [|(? & ? & ?)]; [now left|right; auto]. }
  exists m. split; [|exact C1].
  assert (X : forall l x, merge_all ck iter x l = Ok acc -> merge_all ck iter x (l ++ [o]) = Ok m).
  { clear - A1. induction l as [|y l IH]; cbn [merge_all app]; intros x H.
    - injection H as ->. rewrite A1. reflexivity.
    - apply bind_ok in H as (z & Hz & H). rewrite Hz. cbn [bind]. auto. }
  now apply X.
Qed.
Print Assumptions C26_which_files.

(** Otherwise files are mixed up: after a merge the path index is not extended,
    so that a later merge into a larger object loses the numbering. *)
Definition ox_get (r : res Obj) : Obj := match r with Ok o => o | _ => mkObj [] (mkSrcMap [] []) [] [] [] [] None None [] false Linux end.
Definition ox_1 := ox_get (ox_obj [Some (ox_fun 4096 0 [])] [] None true).
Definition ox_2 := ox_get (ox_obj [Some (ox_fun 8192 1 [])] [] None true).
Definition ox_3 := ox_get (ox_obj [Some (ox_fun 12288 2 []); Some (ox_fun 16384 2 []); Some (ox_fun 20480 2 [])] [] None true).
Theorem C26_refuted : exists shown x y z m, fresh shown x /\ fresh shown y /\ fresh shown z /\
  ob_debug_id y = ob_debug_id x /\ ob_debug_id z = ob_debug_id x /\
  ends_fit (ob_syms x) /\ ends_fit (ob_syms y) /\ ends_fit (ob_syms z) /\
  merge_all true (fun l => l) x [y; z] = Ok m /\ ~ from_one_of [x; y; z] m.
Proof.
  exists (fun p => p), ox_1, ox_2, ox_3. eexists.
  split; [apply (ox_fresh [Some (ox_fun 4096 0 [])] [] None true); [consistent_tac|vm_compute; reflexivity]|].
  split; [apply (ox_fresh [Some (ox_fun 8192 1 [])] [] None true); [consistent_tac|vm_compute; reflexivity]|].
  split; [apply (ox_fresh [Some (ox_fun 12288 2 []); Some (ox_fun 16384 2 []); Some (ox_fun 20480 2 [])] [] None true); [consistent_tac|vm_compute; reflexivity]|].
  split; [vm_compute; reflexivity|]. split; [vm_compute; reflexivity|].
  split; [ends_tac|]. split; [ends_tac|]. split; [ends_tac|].
  split; [vm_compute; reflexivity|].
  intros H. destruct (H 4096 _ eq_refl eq_refl) as (o & s0 & Ho & Hs & Ps & _ & _ & (E & _)).
  destruct Ho as [<-|[<-|[<-|[]]]]; vm_compute in Hs; inversion Hs; subst s0; vm_compute in Ps, E; discriminate.
Qed.
Print Assumptions C26_refuted.
(** The file that is wrong is the first of the larger object. *)
Example C26_ex_wrong : exists m s, merge_all true (fun l => l) ox_1 [ox_2; ox_3] = Ok m /\ nfind 4096 (ob_syms m) = Some s /\
  nfind 4096 (ob_syms (ox_get (merge_objects true (fun l => l) ox_1 ox_2))) <> None /\
  map (fun l => file_text m (l_file l)) (ls_lines (sy_source s)) = [file_text ox_3 0] /\
  map (fun l => l_num l) (ls_lines (sy_source s)) = [7].
Proof. eexists _, _. vm_compute. splits; try reflexivity. discriminate. Qed.
(** In the other order the chain is fine, and so it is in any order for objects
    of the same sources, here with the larger one last. *)
Definition ox_4 := ox_get (ox_obj [Some (ox_fun 8192 0 [])] [] None true).
Definition ox_5 := ox_get (ox_obj [Some (ox_fun 12288 0 []); Some (ox_fun 16384 0 []); Some (ox_fun 20480 0 [])] [] None true).
Example C26_example : chained true (fun l => l) ox_3 [ox_1; ox_2] /\ ~ chained true (fun l => l) ox_1 [ox_2; ox_3] /\
  Forall (same_paths ox_1) [ox_4; ox_5] /\ lenN (ob_syms ox_4) < lenN (ob_syms ox_5) /\ ~ same_paths ox_1 ox_2.
Proof.
  split; [|split; [|split; [|split]]].
  - cbn [chained]. split; [left; vm_compute; reflexivity|]. intros m H. vm_compute in H. inversion H; subst; clear H.
    split; [left; vm_compute; reflexivity|auto].
  - cbn [chained]. intros (_ & H). specialize (H _ eq_refl). destruct H as ([H|H] & _); vm_compute in H; [discriminate|].
    apply Nat.nle_succ_diag_l in H. exact H.
  - constructor; [|constructor; [|constructor]]; intros q; vm_compute; tauto.
  - vm_compute. reflexivity.
  - intros H. pose proof (proj1 (H _) (or_introl eq_refl)) as G. vm_compute in G. destruct G as [G|[]]. discriminate.
Qed.

(** ** C27: which record wins *)
Theorem C27_merged_records : forall shown ck iter x y, iterates iter -> fresh shown x -> fresh shown y -> ob_debug_id x = ob_debug_id y ->
  ends_fit (ob_syms x) -> ends_fit (ob_syms y) ->
  exists m, merge_objects ck iter x y = Ok m /\ forall k, merged_at (larger x y) (smaller x y) m k.
Proof.
  intros shown ck iter x y It Fx Fy E Ex Ey. apply fresh_ok in Fx, Fy.
  destruct (merge_two shown ck iter x y It Fx Fy E) as (m & A & _ & _ & _ & _ & D); [right; auto|]. exists m. split; [exact A|]. exact (proj2 (D Ex Ey)).
Qed.
Print Assumptions C27_merged_records.
Lemma merged_keeps l r m k : merged_at l r m k -> nsorted (ob_syms m) -> forall a, nfind k (ob_syms l) = Some a -> nfind k (ob_syms m) <> None.
Proof.
  unfold merged_at. intros M S a Ea. rewrite Ea in M. destruct (nfind k (ob_syms r)) as [b|]; [|rewrite M; discriminate].
  destruct (sy_public b).
  - destruct M as (M1 & M2). destruct (sp_inside_dec _ k S) as [I|I]; [rewrite (M1 I); discriminate|]. specialize (M2 I).
    destruct (sy_synthetic b); [rewrite M2; discriminate|]. destruct (sy_synthetic a); [rewrite M2; discriminate|].
    destruct M2 as (s & -> & _). discriminate.
  - destruct (sy_public a); destruct M as (s & -> & _); discriminate.
Qed.
(** No address of the larger object is lost. *)
Theorem C27_larger_kept : forall shown ck iter x y m, iterates iter -> fresh shown x -> fresh shown y -> ob_debug_id x = ob_debug_id y ->
  ends_fit (ob_syms x) -> ends_fit (ob_syms y) -> merge_objects ck iter x y = Ok m ->
  forall k a, nfind k (ob_syms (larger x y)) = Some a -> nfind k (ob_syms m) <> None.
Proof.
  intros shown ck iter x y m It Fx Fy E Ex Ey H k a Ha. apply fresh_ok in Fx, Fy.
  destruct (merge_two shown ck iter x y It Fx Fy E) as (m' & A & B & _ & _ & _ & D); [right; auto|].
  assert (m' = m) by congruence. subst m'. exact (merged_keeps _ _ _ k (proj2 (D Ex Ey) k) (proj1 (proj1 B)) a Ha).
Qed.
Print Assumptions C27_larger_kept.
Example C27_example : exists m, merge_objects true (fun l => l) ox_a ox_b = Ok m /\
  map (fun kv => (fst kv, sy_public (snd kv), sy_multiple (snd kv))) (ob_syms m) =
    [(4096, false, true); (8192, false, true); (12288, false, false)].
Proof. eexists. split; [vm_compute; reflexivity|vm_compute; reflexivity]. Qed.

(** ** C28: functions of the debug info *)
Theorem C28_real_func_kept_partial : forall shown ck iter x y k, iterates iter -> fresh shown x -> fresh shown y -> ob_debug_id x = ob_debug_id y ->
  ends_fit (ob_syms x) -> ends_fit (ob_syms y) ->
  (forall s, nfind k (ob_syms (larger x y)) = Some s -> sy_public s = false -> sy_synthetic s = false) ->
  (exists o s, (o = x \/ o = y) /\ real_func o k s) ->
  exists m s, merge_objects ck iter x y = Ok m /\ real_func m k s /\
    exists o s0, (o = x \/ o = y) /\ real_func o k s0 /\ sy_name s = sy_name s0 /\ sy_len s = sy_len s0 /\ same_source o s0 m s.
Proof. intros shown ck iter x y k It Fx Fy. apply fresh_ok in Fx, Fy. exact (real_func_kept shown ck iter x y k It Fx Fy). Qed.
Print Assumptions C28_real_func_kept_partial.
(** The condition is exact: a placeholder of the larger object is what the merge
    holds, with its name and without lines, whatever the smaller has there. *)
Theorem C28_placeholder_wins : forall shown ck iter x y k a, iterates iter -> fresh shown x -> fresh shown y -> ob_debug_id x = ob_debug_id y ->
  ends_fit (ob_syms x) -> ends_fit (ob_syms y) ->
  nfind k (ob_syms (larger x y)) = Some a -> sy_public a = false -> sy_synthetic a = true ->
  (exists b, real_func (smaller x y) k b) ->
  exists m s, merge_objects ck iter x y = Ok m /\ nfind k (ob_syms m) = Some s /\ same_head true a s /\ sy_source s = sy_source a.
Proof. intros shown ck iter x y k a It Fx Fy. apply fresh_ok in Fx, Fy. exact (placeholder_wins shown ck iter x y k a It Fx Fy). Qed.
Print Assumptions C28_placeholder_wins.
Theorem C28_exactly : forall shown ck iter x y k, iterates iter -> fresh shown x -> fresh shown y -> ob_debug_id x = ob_debug_id y ->
  ends_fit (ob_syms x) -> ends_fit (ob_syms y) -> (exists o s, (o = x \/ o = y) /\ real_func o k s) ->
  ((exists m s, merge_objects ck iter x y = Ok m /\ real_func m k s) <->
   forall a, nfind k (ob_syms (larger x y)) = Some a -> sy_public a = false -> sy_synthetic a = false).
Proof.
  intros shown ck iter x y k It Fx Fy E Ex Ey R. split.
  - intros (m & s & M & Hs & _ & Ss) a Ha Pa. destruct (sy_synthetic a) eqn:Sa; [|reflexivity]. exfalso.
    assert (Rs : exists b, real_func (smaller x y) k b).
    { destruct R as (o & b & Ho & Rb). exists b. assert (O : o = larger x y \/ o = smaller x y) by (unfold larger, smaller; destruct (lenN (ob_syms y) <? lenN (ob_syms x)); tauto).
      destruct O as [->| ->]; [|exact Rb]. destruct Rb as (Hb & _ & Sb). congruence. }
    destruct (C28_placeholder_wins shown ck iter x y k a It Fx Fy E Ex Ey Ha Pa Sa Rs) as (m' & s' & M' & Hs' & (_ & _ & _ & Hd & _) & _).
    rewrite M in M'. injection M' as <-. congruence.
  - intros NS. destruct (C28_real_func_kept_partial shown ck iter x y k It Fx Fy E Ex Ey NS R) as (m & s & M & Rm & _). eauto.
Qed.
Print Assumptions C28_exactly.
(** A placeholder of the larger object hides the real function of the smaller. *)
Definition ox_ph : Obj := ox_get (from_object (ox_env true (fun _ => Ok None)) Linux
  (ox_parsed [] [mkPub 9000 8 (Some (lit "p"))] [] (Some [Some (4096, 4128)]) None true) (lit "libx.so") None None).
Theorem C28_real_func_lost_refuted : exists shown x y k s m s', fresh shown x /\ fresh shown y /\ ob_debug_id x = ob_debug_id y /\
  ends_fit (ob_syms x) /\ ends_fit (ob_syms y) /\ real_func x k s /\ ls_lines (sy_source s) <> [] /\
  merge_objects true (fun l => l) x y = Ok m /\ nfind k (ob_syms m) = Some s' /\ sy_synthetic s' = true /\ ls_lines (sy_source s') = [].
Proof.
  exists (fun p => p), ox_1, ox_ph, 4096. eexists _, _, _.
  split; [apply (ox_fresh [Some (ox_fun 4096 0 [])] [] None true); [consistent_tac|vm_compute; reflexivity]|].
  split. { exists (ox_env true (fun _ => Ok None)), Linux. eexists (ox_parsed [] [mkPub 9000 8 (Some (lit "p"))] [] (Some [Some (4096, 4128)]) None true), (lit "libx.so"), None, None.
    split; [apply sorts_perm, cx_sorts|]. split; [intros fs' [= <-]; consistent_tac|].
    split; [intros xs b e [= <-] [[= <- <-]|[]]; now vm_compute|]. split; [reflexivity|vm_compute; reflexivity]. }
  split; [vm_compute; reflexivity|]. split; [ends_tac|]. split; [ends_tac|].
  split; [split; [vm_compute; reflexivity|split; reflexivity]|]. split; [discriminate|].
  split; [vm_compute; reflexivity|]. split; [vm_compute; reflexivity|]. split; reflexivity.
Qed.
Print Assumptions C28_real_func_lost_refuted.

(** ** C29, C30: CFI text and identity *)
Theorem C29_cfi : forall ck iter x y m, merge_objects ck iter x y = Ok m ->
  both_stacks (ob_stack (larger x y)) (ob_stack (smaller x y)) (ob_stack m).
Proof.
  intros ck iter x y m H. destruct (merge_fields _ _ _ _ _ H) as (_ & _ & _ & _ & _ & _ & _ & _ & E & _). rewrite E. apply merge_stack_spec.
Qed.
Print Assumptions C29_cfi.
Theorem C30_identity : forall ck iter x y m, merge_objects ck iter x y = Ok m ->
  ob_debug_id m = ob_debug_id x /\ ob_debug_id m = ob_debug_id y /\
  ob_cpu m = ob_cpu (larger x y) /\ ob_platform m = ob_platform (larger x y) /\
  ob_name m = (if ob_stripped (smaller x y) then ob_name (smaller x y) else ob_name (larger x y)) /\
  ob_code_id m = match ob_code_id (larger x y) with Some c => Some c | None => ob_code_id (smaller x y) end.
Proof.
  intros ck iter x y m H. destruct (merge_fields _ _ _ _ _ H) as (A & B & C & D & _ & _ & N' & I & _). auto 10.
Qed.
Print Assumptions C30_identity.
(** The PE file name that belongs to a code id taken from the smaller object is lost. *)
Definition ox_pe : Obj := ox_get (from_object (ox_env true (fun _ => Ok None)) Linux (ox_small [] [] (Some (lit "c0de")) false) (lit "x.pdb") None (Some (lit "x.exe"))).
Theorem C30_pe_name_refuted : exists x y m c n, merge_objects true (fun l => l) x y = Ok m /\
  ob_code_id m = Some c /\ ob_code_id y = Some c /\ ob_pe_name y = Some n /\ ob_pe_name m = None.
Proof. exists ox_3, ox_pe. eexists _, _, _. splits; vm_compute; reflexivity. Qed.
Print Assumptions C30_pe_name_refuted.
Example C29_example : exists m, merge_objects true (fun l => l) ox_a ox_b = Ok m /\ ob_code_id m = Some (lit "C0DE") /\
  ob_stack m = lit "STACK CFI INIT 10 20 x" ++ [c_nl] ++ lit "STACK CFI INIT 10 20 x" ++ [c_nl].
Proof. eexists. splits; vm_compute; reflexivity. Qed.

(** ** C12: merged tables *)
Theorem C12_merge_filed : forall ck iter x os m, filed (ob_syms x) -> Forall (fun o => filed (ob_syms o)) os ->
  merge_all ck iter x os = Ok m -> filed (ob_syms m).
Proof. intros ck iter x os. exact (merge_all_filed ck iter os x). Qed.
Print Assumptions C12_merge_filed.
Theorem C12_fresh_filed : forall shown o, fresh shown o -> filed (ob_syms o).
Proof. intros shown o F. exact (proj1 (fresh_ok shown o F)). Qed.
Print Assumptions C12_fresh_filed.
Example C12_merge_example : exists m, merge_all true (fun l => l) ox_1 [ox_2; ox_3] = Ok m /\ map fst (ob_syms m) = [4096; 8192; 12288; 16384; 20480].
Proof. eexists. split; vm_compute; reflexivity. Qed.

(** ** C71: the same file given twice *)
(** Nothing is lost and no attribution changes; every FUNC gets the 'm' marker,
    and the origins and the CFI text are repeated. *)
Theorem C71_twice : forall shown ck iter o, iterates iter -> fresh shown o -> ck = false \/ ends_fit (ob_syms o) ->
  exists m, merge_objects ck iter o o = Ok m /\
    (forall k, nfind k (ob_syms m) = option_map seen_twice (nfind k (ob_syms o))) /\
    sm_ids (ob_files m) = sm_ids (ob_files o) /\ ob_origins m = ob_origins o ++ ob_origins o /\
    both_stacks (ob_stack o) (ob_stack o) (ob_stack m) /\
    ob_name m = ob_name o /\ ob_cpu m = ob_cpu o /\ ob_debug_id m = ob_debug_id o /\ ob_code_id m = ob_code_id o /\
    ob_pe_name m = ob_pe_name o /\ ob_platform m = ob_platform o.
Proof.
  intros shown ck iter o It F T. apply fresh_ok in F.
  assert (T' : ck = false \/ ends_fit (ob_syms o) /\ ends_fit (ob_syms o)) by (destruct T; auto).
  destruct (merge_two shown ck iter o o It F F eq_refl T') as (m & A & _). exists m. split; [exact A|].
  destruct (merge_twice shown ck iter o m It F A) as (S & Fi & Og). split; [exact S|]. split; [now rewrite Fi|]. split; [exact Og|].
  revert A. unfold merge_objects, merge_into. rewrite str_eqb_refl, N.ltb_irrefl. cbn [negb]. intros A.
  destruct (srcmap_merge _ _ _) as [[[x y] z]| |]; try discriminate. cbn [bind] in A. destruct (merge_inline_origins _ _) as [og om].
  destruct (foldM _ _ _) as [sy| |]; try discriminate. cbn [bind] in A. injection A as <-. cbn.
  split; [apply merge_stack_spec|]. destruct (ob_stripped o), (ob_code_id o); splits; reflexivity.
Qed.
Print Assumptions C71_twice.
(** So no line record or INLINE record means anything else. *)
Theorem C71_same_source : forall shown ck iter o m k s, iterates iter -> fresh shown o -> merge_objects ck iter o o = Ok m -> nfind k (ob_syms o) = Some s ->
  exists s', nfind k (ob_syms m) = Some s' /\ same_head (sy_multiple s || negb (sy_public s)) s s' /\ (sy_public s = false -> same_source o s m s').
Proof.
  intros shown ck iter o m k s It F A Hs. apply fresh_ok in F. destruct (merge_twice shown ck iter o m It F A) as (S & Fi & Og).
  exists (seen_twice s). split; [now rewrite S, Hs|]. destruct F as (_ & R & _).
  split; [unfold seen_twice, same_head; destruct (sy_public s) eqn:P; cbn; rewrite ?P, ?Bool.orb_true_r, ?Bool.orb_false_r; splits; reflexivity|].
  intros P. destruct (R k s Hs P) as (R1 & R2 & _). unfold same_source, seen_twice. rewrite P. cbn [sy_source].
  assert (FT : forall i, file_text m i = file_text o i) by (intros i; unfold file_text; now rewrite Fi).
  split; [apply map_ext; intros l; unfold says_line; now rewrite FT|].
  rewrite (map_ext_in (says_inline o) (says_inline m)); [reflexivity|].
  intros x Ix. unfold says_inline. rewrite FT. destruct (R2 x Ix) as (_ & N). rewrite Og.
  rewrite nthN_app1; [reflexivity|]. destruct (nthN (ob_origins o) (s_origin (fst x))) eqn:E; [exact (nthN_some_lt _ _ _ E)|contradiction].
Qed.
Print Assumptions C71_same_source.
(** The file does change. *)
Theorem C71_unchanged_refuted : exists o m, fresh (fun p => p) o /\ ends_fit (ob_syms o) /\ merge_objects true (fun l => l) o o = Ok m /\
  fmt_object [] m <> fmt_object [] o.
Proof.
  exists ox_a. eexists. split; [apply C24_hypotheses|]. split; [ends_tac|]. split; [vm_compute; reflexivity|]. vm_compute. discriminate.
Qed.
Print Assumptions C71_unchanged_refuted.
Example C71_example : exists m, merge_objects true (fun l => l) ox_a ox_a = Ok m /\
  map (fun kv => (fst kv, sy_public (snd kv), sy_multiple (snd kv))) (ob_syms ox_a) = [(4096, false, false); (8192, true, false)] /\
  map (fun kv => (fst kv, sy_public (snd kv), sy_multiple (snd kv))) (ob_syms m) = [(4096, false, true); (8192, true, false)] /\
  ob_origins ox_a = [lit "in2"] /\ ob_origins m = [lit "in2"; lit "in2"] /\
  ob_stack m = ob_stack ox_a ++ ob_stack ox_a.
Proof. eexists. split; [vm_compute; reflexivity|]. vm_compute. splits; reflexivity. Qed.
