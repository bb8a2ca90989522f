(** Property theorems C06, C12 (functions), C13, C14, C15, C16, C17. *)
From Verif Require Import Base Sort BMap Str M_Names M_Path M_Line S_Line M_Source S_Source M_Symbol S_Symbol M_Collector S_Collector P_Collector P_Walk P_Tree P_Func P_Calls P_Overrun P_Exact.

(** ** C06: one FUNC record per address *)
Theorem C06_func_records : forall e fs m s o, collected e fs m s o -> forall k,
  match funcs_at k (readable fs) with
  | [] => nfind k m = None
  | f :: rest => exists sym, nfind k m = Some sym /\ from_fun e f (more rest) sym
  end.
Proof. intros e fs m s o H. exact (proj2 (funcs_record e fs m s o H)). Qed.
Print Assumptions C06_func_records.

(** ** C12: the records are filed under their addresses *)
Theorem C12_functions_filed : forall e fs m s o, collected e fs m s o -> filed m.
Proof. intros e fs m s o H. exact (proj1 (funcs_record e fs m s o H)). Qed.
Print Assumptions C12_functions_filed.

(** ** C13: the inline walk *)
(** Collection always ends with a result: in a release build for every tree,
    with overflow checks for trees below 2^32. *)
Theorem C13_collect_total : forall e fs, sort_perm (ce_sort e) -> consistent (flat_map fun_refs (readable fs)) ->
  (ce_ck e = false \/ ce_inl e = false \/ Forall fits (readable fs)) ->
  exists m s o, collected e fs m s o.
Proof. exact functions_ok. Qed.
Print Assumptions C13_collect_total.

(** With overflow checks a tree that does not fit can panic. *)
Definition cx_src := mkSrcEnv (fun _ => None) Linux false (fun _ => None).
Definition cx_env (ck inl : bool) := mkCEnv ck cx_src (mkDemangler (fun _ => None) (fun _ => lang_unknown)) inl (sort_by_key i_start).
Definition cx_file (i : N) : FileRef := mkFileRef 1 (lit "/b") 2 (lit "s") (10 + i) (lit "f" ++ [48 + i] ++ lit ".c").
Definition cx_line (a sz n i : N) := mkDLine a (Some sz) n (cx_file i).
Definition cx_name (n : str) := mkName n 0 0.
Theorem C13_overflow_panics_refuted : exists fs w, collect_functions (cx_env true true) fs ([], src_new, orig_new) = Panic w.
Proof.
  exists [Some (mkFun 4096 16 (cx_name (lit "f")) [cx_line 4096 (two64 - 1) 3 0] [])]. eexists. vm_compute. reflexivity.
Qed.
Print Assumptions C13_overflow_panics_refuted.

(** Every INLINE range at depth [d] stems from an inlined line at that depth,
    each used at most once; all are used when the tree is well-formed. *)
Theorem C13_ranges_from_inlinees : forall e fs m s o f evs s' o', sorts_ranges (ce_sort e) ->
  consistent (flat_map fun_refs (readable fs) ++ fun_refs f) ->
  collected e fs m s o -> collect_rec e f 0 s o = Ok (evs, s', o') -> addr64 f ->
  forall d, exists used rest, Permutation (used ++ rest) (calls_at d f) /\
    Forall2 (call_for e s' o' (N.of_nat d)) used (filter (fun x => s_depth (fst x) =? N.of_nat d) (inline_calls evs)) /\
    (well_formed f -> rest = []).
Proof. exact c13_calls. Qed.
Print Assumptions C13_ranges_from_inlinees.

(** ** C14: inline stacks *)
(** At a covered address there is exactly one stack of frames. *)
Theorem C14_stack_unique : forall f a, well_formed f -> covers f a ->
  exists st lf, frames f a st lf /\ forall st' lf', frames f a st' lf' -> st' = st /\ lf' = lf.
Proof. exact c14_stack. Qed.
Print Assumptions C14_stack_unique.

Theorem C14_inline_records : forall e fs m s o k f rest sym, ce_inl e = true -> sorts_ranges (ce_sort e) ->
  consistent (flat_map fun_refs (readable fs)) ->
  collected e fs m s o -> funcs_at k (readable fs) = f :: rest -> nfind k m = Some sym -> well_formed f ->
  (forall a st lf, frames f a st lf -> exists ss, sites_are e s o 0 st ss /\
     forall site, cover_count a (ranges_of site (sy_source sym)) = count_occ site_dec ss site) /\
  (forall a, ~ covers f a -> forall site, cover_count a (ranges_of site (sy_source sym)) = 0%nat).
Proof. exact c14_inlines. Qed.
Print Assumptions C14_inline_records.

(** The innermost line, provided successive equal lines of inlined functions
    leave no gap. Missing: the general case, which is false (below). *)
Theorem C14_innermost_line_partial : forall e fs m s o k f rest sym, ce_inl e = true -> sorts_ranges (ce_sort e) ->
  consistent (flat_map fun_refs (readable fs)) ->
  collected e fs m s o -> funcs_at k (readable fs) = f :: rest -> nfind k m = Some sym ->
  well_formed f -> no_gaps_inside (ce_src e) f -> f_addr f + f_size f < two32 ->
  forall a st lf, frames f a st lf -> a < f_addr f + f_size f ->
  exists l, filter (in_line a) (ls_lines (sy_source sym)) = [l] /\ l_num l = d_line lf mod two32 /\
    file_is (ce_src e) s (l_file l) (d_file lf).
Proof. exact c14_line. Qed.
Print Assumptions C14_innermost_line_partial.

(** The innermost line is missing only after a gap between equal successive
    lines of an inlined function. *)
Theorem C14_only_after_gap : forall e fs m s o k f rest sym, ce_inl e = true -> sorts_ranges (ce_sort e) ->
  consistent (flat_map fun_refs (readable fs)) ->
  collected e fs m s o -> funcs_at k (readable fs) = f :: rest -> nfind k m = Some sym ->
  well_formed f -> f_addr f + f_size f < two32 ->
  forall a st lf, frames f a st lf -> a < f_addr f + f_size f ->
  (exists l, filter (in_line a) (ls_lines (sy_source sym)) = [l] /\ l_num l = d_line lf mod two32 /\ file_is (ce_src e) s (l_file l) (d_file lf)) \/
  (exists h pre x y post, below f h /\ f_lines h = pre ++ x :: y :: post /\ same_info (ce_src e) x y /\ dl_end x < d_addr y /\ d_addr y <= a /\ same_info (ce_src e) y lf).
Proof. exact c14_gap. Qed.
Print Assumptions C14_only_after_gap.
(** Exactly which line is found, for every well-formed tree: the one of the last
    record due at or before the address; there is one for every covered address. *)
Theorem C14_lines_exact : forall e fs m s o k f rest sym, ce_inl e = true -> sorts_ranges (ce_sort e) ->
  consistent (flat_map fun_refs (readable fs)) ->
  collected e fs m s o -> funcs_at k (readable fs) = f :: rest -> nfind k m = Some sym ->
  well_formed f -> f_addr f + f_size f < two32 ->
  (forall a b lf, starts (same_info (ce_src e)) f b lf -> b <= a -> (forall x y, b < x <= a -> ~ starts (same_info (ce_src e)) f x y) -> a < f_addr f + f_size f ->
    exists l, filter (in_line a) (ls_lines (sy_source sym)) = [l] /\ l_num l = d_line lf mod two32 /\ file_is (ce_src e) s (l_file l) (d_file lf)) /\
  (forall a, (forall x y, x <= a -> ~ starts (same_info (ce_src e)) f x y) -> filter (in_line a) (ls_lines (sy_source sym)) = []) /\
  (forall a, covers f a -> exists b lf, b <= a /\ starts (same_info (ce_src e)) f b lf /\ forall x y, b < x <= a -> ~ starts (same_info (ce_src e)) f x y).
Proof. exact c14_exact. Qed.
Print Assumptions C14_lines_exact.

Lemma cx_sorts : sorts_ranges (sort_by_key i_start).
Proof. intros l. split; [symmetry; apply sort_by_key_perm|]. apply sort_by_key_sorted. Qed.

Ltac wf_num := vm_compute; first [reflexivity|discriminate|split; wf_num].
Ltac wf_all := repeat match goal with
  | |- StronglySorted _ [] => constructor | |- StronglySorted _ (_ :: _) => constructor
  | |- Forall _ [] => constructor | |- Forall _ (_ :: _) => constructor end.
Ltac hnf_lines := match goal with |- _ ?P ?l => let l' := eval hnf in l in change l with l' end.
Ltac wf_lines := split; hnf_lines; wf_all; wf_num.
Ltac wf_in := repeat match goal with H : _ = _ \/ _ |- _ => destruct H as [<-|H] | H : False |- _ => destruct H end.
Ltac wf_nested := let x := fresh in let H := fresh in intros x H; cbn in H; wf_in; (eexists; split; [left; reflexivity|wf_num]).

(** A function calling [g] inline twice: the second part of [g] is attributed
    to the line of the caller. *)
Definition gap_g := mkFun 4096 25 (cx_name (lit "g")) [cx_line 4096 5 7 1; cx_line 4116 5 7 1] [].
Definition gap_f := mkFun 4096 48 (cx_name (lit "f")) [cx_line 4096 48 3 0] [gap_g].
Lemma gap_wf : well_formed gap_f.
Proof.
  constructor; cbn [f_lines f_inl gap_f].
  - wf_lines.
  - constructor; [wf_nested|constructor].
  - repeat constructor.
  - constructor; [|constructor]. constructor; cbn [f_lines f_inl gap_g]; [|constructor|constructor|constructor].
    wf_lines.
Qed.
Theorem C14_innermost_line_refuted : exists e fs m s o f k sym a st lf, ce_inl e = true /\ sorts_ranges (ce_sort e) /\
  collected e fs m s o /\ funcs_at k (readable fs) = [f] /\ nfind k m = Some sym /\ well_formed f /\
  f_addr f + f_size f < two32 /\ a < f_addr f + f_size f /\ frames f a st lf /\
  exists l, filter (in_line a) (ls_lines (sy_source sym)) = [l] /\ l_num l <> d_line lf mod two32.
Proof.
  exists (cx_env false true), [Some gap_f]. eexists _, _, _. exists gap_f, 4096. eexists.
  exists 4118, [(cx_name (lit "g"), cx_line 4096 48 3 0)], (cx_line 4116 5 7 1).
  split; [reflexivity|]. split; [exact cx_sorts|]. split; [vm_compute; reflexivity|]. split; [reflexivity|]. split; [vm_compute; reflexivity|].
  split; [exact gap_wf|]. split; [reflexivity|]. split; [reflexivity|]. split.
  - eapply (fr_call gap_f gap_g).
    + left; reflexivity.
    + vm_compute; split; [discriminate|reflexivity].
    + left; reflexivity.
    + constructor; [right; left; reflexivity|vm_compute; split; [discriminate|reflexivity]|intros g []].
  - eexists. split; [vm_compute; reflexivity|vm_compute; discriminate].
Qed.
Print Assumptions C14_innermost_line_refuted.

(** In the witness records are due at 4096 and 4101 (and at 4121), not at 4116. *)
Example C14_ex_starts : let sm := same_info (ce_src (cx_env false true)) in
  starts sm gap_f 4096 (cx_line 4096 5 7 1) /\ starts sm gap_f 4101 (cx_line 4096 48 3 0) /\ starts sm gap_f 4121 (cx_line 4096 48 3 0) /\ (forall l, ~ starts sm gap_f 4116 l) /\
  below gap_f gap_g /\ sm (cx_line 4096 5 7 1) (cx_line 4116 5 7 1) /\ dl_end (cx_line 4096 5 7 1) < d_addr (cx_line 4116 5 7 1).
Proof.
  assert (Cg : forall a, covers gap_g a <-> 4096 <= a < 4101 \/ 4116 <= a < 4121).
  { intros a. split.
    - intros (l & Hl & Ha). cbn in Hl. wf_in; unfold in_dl, dl_end in Ha; cbn in Ha; lia.
    - intros [H|H]; [exists (cx_line 4096 5 7 1)|exists (cx_line 4116 5 7 1)]; (split; [cbn; auto|]); unfold in_dl, dl_end; cbn; lia. }
  assert (Fg : forall a l, In l (f_lines gap_g) -> in_dl a l -> frames gap_g a [] l) by (intros a l Hl Ha; constructor; auto; intros g []).
  assert (Ff : forall a, 4096 <= a < 4144 -> ~ covers gap_g a -> frames gap_f a [] (cx_line 4096 48 3 0)).
  { intros a Ha Hn. constructor; [left; reflexivity|unfold in_dl, dl_end; cbn; lia|]. intros g [<-|[]]. exact Hn. }
  assert (Nf : forall a l, covers gap_g a -> ~ frames gap_f a [] l).
  { intros a l Hc Hf. inversion Hf as [? ? ? _ _ Hn|]; subst. apply (Hn gap_g); auto. now left. }
  cbv zeta. splits.
  - apply st_inl with gap_g; [now left|]. apply st_own.
    + apply Fg; [now left|unfold in_dl, dl_end; cbn; lia].
    + intros (_ & Hf). apply frames_covers in Hf. apply Cg in Hf. lia.
    + intros (_ & pre & l' & post & E & _). destruct pre as [|p [|q [|r pre]]]; cbn in E; discriminate.
  - apply st_own.
    + apply Ff; [lia|]. rewrite Cg. lia.
    + intros (_ & Hf). eapply Nf; [|exact Hf]. rewrite Cg. lia.
    + intros (_ & pre & l' & post & E & _). destruct pre as [|p [|q pre]]; cbn in E; discriminate.
  - apply st_own.
    + apply Ff; [lia|]. rewrite Cg. lia.
    + intros (_ & Hf). eapply Nf; [|exact Hf]. rewrite Cg. lia.
    + intros (_ & pre & l' & post & E & _). destruct pre as [|p [|q pre]]; cbn in E; discriminate.
  - intros l Hs. inversion Hs as [? ? ? Hf _ _|? g ? ? Ig Hg]; subst.
    + eapply Nf; [|exact Hf]. rewrite Cg. lia.
    + destruct Ig as [<-|[]]. inversion Hg as [? ? ? Hf _ N2|? h ? ? Ih _]; subst; [|destruct Ih]. inversion Hf as [? ? ? Hl Ha _|]; subst. cbn in Hl. wf_in; unfold in_dl, dl_end in Ha; cbn in Ha; [lia|].
      apply N2. split; [reflexivity|]. exists [], (cx_line 4096 5 7 1), []. splits; [reflexivity|split; reflexivity|].
      apply Fg; [now left|unfold in_dl, dl_end; cbn; lia].
  - apply bl_here. now left.
  - split; reflexivity.
  - reflexivity.
Qed.

(** ** C15: lines of the caller *)
(** For well-formed trees. Missing: inline ranges that reach over the end of a
    caller line, for which the claim is false (below). *)
Theorem C15_caller_line_partial : forall e fs m s o k f rest sym, ce_inl e = true -> sorts_ranges (ce_sort e) ->
  consistent (flat_map fun_refs (readable fs)) ->
  collected e fs m s o -> funcs_at k (readable fs) = f :: rest -> nfind k m = Some sym ->
  well_formed f -> f_addr f + f_size f < two32 ->
  forall a lf, In lf (f_lines f) -> in_dl a lf -> (forall g, In g (f_inl f) -> ~ covers g a) -> a < f_addr f + f_size f ->
  exists l, filter (in_line a) (ls_lines (sy_source sym)) = [l] /\ l_num l = d_line lf mod two32 /\
    file_is (ce_src e) s (l_file l) (d_file lf).
Proof. exact c15_line. Qed.
Print Assumptions C15_caller_line_partial.

(** An inlined call reaching into the next line makes that line disappear. *)
Definition over_g := mkFun 4096 15 (cx_name (lit "g")) [cx_line 4096 15 7 1] [].
Definition over_f := mkFun 4096 30 (cx_name (lit "f")) [cx_line 4096 10 3 0; cx_line 4106 20 4 0] [over_g].
Theorem C15_overrun_refuted : exists e fs m s o f k sym a lf, ce_inl e = true /\ sorts_ranges (ce_sort e) /\
  collected e fs m s o /\ funcs_at k (readable fs) = [f] /\ nfind k m = Some sym /\ lines_ok (f_lines f) /\
  f_addr f + f_size f < two32 /\ a < f_addr f + f_size f /\ In lf (f_lines f) /\ in_dl a lf /\
  (forall g, In g (f_inl f) -> ~ covers g a) /\
  ~ exists l, filter (in_line a) (ls_lines (sy_source sym)) = [l] /\ l_num l = d_line lf mod two32.
Proof.
  exists (cx_env false true), [Some over_f]. eexists _, _, _. exists over_f, 4096. eexists.
  exists 4120, (cx_line 4106 20 4 0).
  split; [reflexivity|]. split; [exact cx_sorts|]. split; [vm_compute; reflexivity|]. split; [reflexivity|]. split; [vm_compute; reflexivity|].
  split; [wf_lines|].
  split; [reflexivity|]. split; [reflexivity|]. split; [right; left; reflexivity|]. split; [vm_compute; split; [discriminate|reflexivity]|]. split.
  - intros g [<-|[]] (l & [<-|[]] & H). vm_compute in H. destruct H as (_ & H). discriminate.
  - intros (l & H & Hn). vm_compute in H. inversion H; subst. vm_compute in Hn. discriminate.
Qed.
Print Assumptions C15_overrun_refuted.

(** Which lines are lost: with inlined calls anywhere, also across the lines of
    the caller, every address of a line that is not passed over is attributed to
    it unless a call inlined there covers it ... *)
Theorem C15_kept : forall e fs m s o k f rest sym, ce_inl e = true -> sorts_ranges (ce_sort e) ->
  consistent (flat_map fun_refs (readable fs)) ->
  collected e fs m s o -> funcs_at k (readable fs) = f :: rest -> nfind k m = Some sym ->
  loosely_formed f -> f_addr f + f_size f < two32 ->
  forall a lf, kept f lf -> in_dl a lf -> (forall g, In g (f_inl f) -> ~ covers g a) -> a < f_addr f + f_size f ->
  exists l, filter (in_line a) (ls_lines (sy_source sym)) = [l] /\ l_num l = d_line lf mod two32 /\
    file_is (ce_src e) s (l_file l) (d_file lf).
Proof. intros e fs m s o k f rest sym Ei US C H Hf Hk W. exact (proj1 (c15_loose e fs m s o k f rest sym Ei US C H Hf Hk W)). Qed.
Print Assumptions C15_kept.
(** ... and no line record is ever written for a line that is passed over. *)
Theorem C15_only_kept : forall e fs m s o k f rest sym, ce_inl e = true -> sorts_ranges (ce_sort e) ->
  consistent (flat_map fun_refs (readable fs)) ->
  collected e fs m s o -> funcs_at k (readable fs) = f :: rest -> nfind k m = Some sym -> loosely_formed f ->
  forall l, In l (ls_lines (sy_source sym)) -> exists lf, l_num l = d_line lf mod two32 /\ file_is (ce_src e) s (l_file l) (d_file lf) /\
    (kept f lf \/ exists g, In g (f_inl f) /\ In lf (tree_lines g) /\ covers g (l_rva l)).
Proof. intros e fs m s o k f rest sym Ei US C H Hf Hk W. exact (proj2 (c15_loose e fs m s o k f rest sym Ei US C H Hf Hk W)). Qed.
Print Assumptions C15_only_kept.
(** In particular a line is only lost when an inlined call reaches over its start. *)
Theorem C15_only_crossed : forall e fs m s o k f rest sym, ce_inl e = true -> sorts_ranges (ce_sort e) ->
  consistent (flat_map fun_refs (readable fs)) ->
  collected e fs m s o -> funcs_at k (readable fs) = f :: rest -> nfind k m = Some sym ->
  loosely_formed f -> f_addr f + f_size f < two32 ->
  forall a lf, In lf (f_lines f) -> in_dl a lf -> (forall g, In g (f_inl f) -> ~ covers g a) -> a < f_addr f + f_size f ->
  (exists l, filter (in_line a) (ls_lines (sy_source sym)) = [l] /\ l_num l = d_line lf mod two32 /\
    file_is (ce_src e) s (l_file l) (d_file lf)) \/
  (exists g x, In g (f_inl f) /\ In x (f_lines g) /\ d_addr x < d_addr lf < dl_end x).
Proof.
  intros e fs m s o k f rest sym Ei US C H Hf Hk W Sz a lf Hl Ha Hn La.
  destruct (crossed_dec f lf) as [X|X]; [right; exact X|left]. apply (C15_kept e fs m s o k f rest sym Ei US C H Hf Hk W Sz a lf); auto.
  apply uncrossed_kept; auto; [apply W|]. intros g x Hg Hx (A & B). apply X. exists g, x. auto.
Qed.
Print Assumptions C15_only_crossed.

(** The second line of [over_f] is passed over. In [cross_f] a call begins between
    the first two lines and runs into the second, which is kept; the call there
    runs into the third line, which is passed over, and the fourth is kept. *)
Definition cross_g := mkFun 4100 25 (cx_name (lit "g")) [cx_line 4104 4 7 1; cx_line 4110 10 8 1] [].
Definition cross_f := mkFun 4096 60 (cx_name (lit "f")) [cx_line 4096 6 3 0; cx_line 4106 6 4 0; cx_line 4112 10 5 0; cx_line 4122 20 6 0] [cross_g].
Example C15_ex_over : loosely_formed over_f /\ ~ kept over_f (cx_line 4106 20 4 0).
Proof.
  split.
  - split; [wf_lines|]. split; [repeat constructor|]. constructor; [|constructor]. constructor; cbn [f_lines f_inl over_g]; [wf_lines|constructor|constructor|constructor].
  - intros K. inversion K as [l post E|k l pre mid post K' E F N]; subst; [discriminate|].
    destruct pre as [|p [|q pre]]; cbn in E; inversion E; subst.
    + apply N. exists over_g, (cx_line 4096 15 7 1). splits; [now left|now left|reflexivity|reflexivity].
    + destruct mid; discriminate.
    + destruct pre; discriminate.
Qed.
Example C15_ex_cross : loosely_formed cross_f /\ kept cross_f (cx_line 4106 6 4 0) /\ kept cross_f (cx_line 4122 20 6 0) /\
  exists m s o sym, collected (cx_env true true) [Some cross_f] m s o /\ nfind 4096 m = Some sym /\
  map (fun l => (l_rva l, l_len l, l_num l)) (ls_lines (sy_source sym)) = [(4096, 8, 3); (4104, 4, 7); (4108, 2, 4); (4110, 12, 8); (4122, 34, 6)].
Proof.
  assert (K1 : kept cross_f (cx_line 4106 6 4 0)).
  { apply (kp_next cross_f (cx_line 4096 6 3 0) (cx_line 4106 6 4 0) [] [] [cx_line 4112 10 5 0; cx_line 4122 20 6 0]); [eapply kp_first; reflexivity|reflexivity|constructor|].
    intros (g & x & [<-|[]] & Hx & A & B). cbn in Hx. wf_in; vm_compute in A; discriminate. }
  splits; auto.
  - split; [wf_lines|]. split; [repeat constructor|]. constructor; [|constructor]. constructor; cbn [f_lines f_inl cross_g]; [wf_lines|constructor|constructor|constructor].
  - apply (kp_next cross_f (cx_line 4106 6 4 0) (cx_line 4122 20 6 0) [cx_line 4096 6 3 0] [cx_line 4112 10 5 0] []); [exact K1|reflexivity| |].
    + constructor; [|constructor]. exists cross_g, (cx_line 4110 10 8 1). splits; [now left|right; now left|reflexivity|reflexivity].
    + intros (g & x & [<-|[]] & Hx & A & B). cbn in Hx. wf_in; vm_compute in B; discriminate.
  - do 4 eexists. split; [vm_compute; reflexivity|]. split; [vm_compute; reflexivity|]. vm_compute. reflexivity.
Qed.

(** ** C16: without inlines *)
Theorem C16_lookup : forall e fs m s o k f rest sym, ce_inl e = false -> sorts_ranges (ce_sort e) ->
  consistent (flat_map fun_refs (readable fs)) ->
  collected e fs m s o -> funcs_at k (readable fs) = f :: rest -> nfind k m = Some sym ->
  StronglySorted (fun a b => d_addr a <= d_addr b) (f_lines f) -> Forall (fun l => d_addr l < two32) (f_lines f) ->
  f_addr f + f_size f < two32 -> forall a, a < f_addr f + f_size f ->
  match flat_line a (f_lines f) with
  | Some lf => exists l, filter (in_line a) (ls_lines (sy_source sym)) = [l] /\ l_num l = d_line lf mod two32 /\
                 file_is (ce_src e) s (l_file l) (d_file lf)
  | None => filter (in_line a) (ls_lines (sy_source sym)) = []
  end.
Proof. exact c16_lookup. Qed.
Print Assumptions C16_lookup.
Theorem C16_line_zero_never : forall e fs m s o k f rest sym, ce_inl e = false -> sorts_ranges (ce_sort e) ->
  consistent (flat_map fun_refs (readable fs)) ->
  collected e fs m s o -> funcs_at k (readable fs) = f :: rest -> nfind k m = Some sym ->
  Forall (fun l => d_line l < two32) (f_lines f) -> Forall (fun l => l_num l <> 0) (ls_lines (sy_source sym)).
Proof. exact c16_nonzero. Qed.
Print Assumptions C16_line_zero_never.
(** Line numbers beyond 32 bits can be written as 0. *)
Theorem C16_line_zero_refuted : exists e fs m s o k sym, ce_inl e = false /\ collected e fs m s o /\ nfind k m = Some sym /\
  exists l, In l (ls_lines (sy_source sym)) /\ l_num l = 0.
Proof.
  exists (cx_env false false), [Some (mkFun 4096 16 (cx_name (lit "f")) [cx_line 4096 8 two32 0] [])]. eexists _, _, _. exists 4096. eexists.
  split; [reflexivity|]. split; [vm_compute; reflexivity|]. split; [vm_compute; reflexivity|]. eexists. split; [left; reflexivity|reflexivity].
Qed.
Print Assumptions C16_line_zero_refuted.

(** ** C17: references resolve *)
Theorem C17_references_resolve : forall e fs m s o, sorts_ranges (ce_sort e) -> consistent (flat_map fun_refs (readable fs)) ->
  collected e fs m s o ->
  (exists P, NoDup P /\ sf_ids s = map (sp_shown (ce_src e)) P) /\
  forall k sym, nfind k m = Some sym ->
  (forall l, In l (ls_lines (sy_source sym)) -> exists p, nthN (sf_ids s) (l_file l) = Some p) /\
  (forall x rs, In (x, rs) (ls_inlines (sy_source sym)) ->
     (exists p, nthN (sf_ids s) (s_file x) = Some p) /\ exists n, nthN (og_names o) (s_origin x) = Some n).
Proof. exact c17_refs. Qed.
Print Assumptions C17_references_resolve.

(** ** Concrete case: two levels of inlining, a shared address, an unreadable
    function. *)
Definition cx_h := mkFun 4108 4 (cx_name (lit "h")) [cx_line 4108 4 20 2] [].
Definition cx_g := mkFun 4104 12 (cx_name (lit "g")) [cx_line 4104 8 10 1; cx_line 4112 4 11 1] [cx_h].
Definition cx_k := mkFun 4120 4 (cx_name (lit "k")) [cx_line 4120 4 30 2] [].
Definition cx_f := mkFun 4096 32 (cx_name (lit "f")) [cx_line 4096 24 1 0; cx_line 4120 8 2 0] [cx_g; cx_k].
Definition cx_f2 := mkFun 4096 32 (cx_name (lit "f2")) [cx_line 4096 32 5 0] [].
Definition cx_fs := [Some cx_f; None; Some cx_f2].
Example collector_wf : well_formed cx_f.
Proof.
  assert (Wk : well_formed cx_k) by (constructor; [wf_lines|constructor|constructor|constructor]).
  assert (Wh : well_formed cx_h) by (constructor; [wf_lines|constructor|constructor|constructor]).
  assert (Wg : well_formed cx_g).
  { constructor; [wf_lines| | |constructor; [exact Wh|constructor]].
    - constructor; [wf_nested|constructor].
    - constructor; constructor. }
  constructor; [wf_lines| | |constructor; [exact Wg|constructor; [exact Wk|constructor]]].
  - constructor; [|constructor; [|constructor]]; intros x H; cbn in H; wf_in.
    + eexists; split; [left; reflexivity|wf_num].
    + eexists; split; [left; reflexivity|wf_num].
    + eexists; split; [right; left; reflexivity|wf_num].
  - constructor; [|repeat constructor]. constructor; [|constructor].
    intros a ((x & Hx & Ha) & (y & Hy & Hb)). cbn in Hx, Hy. unfold in_dl, dl_end, dl_size in *. wf_in; cbn in Ha, Hb; lia.
Qed.
Example collector_consistent : consistent (flat_map fun_refs (readable cx_fs)).
Proof.
  intros r r' H H'. cbn in H, H'.
  repeat match goal with H : _ \/ _ |- _ => destruct H as [<-|H] | H : False |- _ => destruct H end;
    cbn; intros; try discriminate; auto.
Qed.
Example collector_no_gaps : no_gaps_inside (ce_src (cx_env true true)) cx_f.
Proof.
  assert (N1 : forall e l, no_equal_gap e [l]).
  { intros e l pre x y post E. destruct pre as [|a [|b pre]]; cbn in E; inversion E. }
  assert (N2 : no_equal_gap (ce_src (cx_env true true)) (f_lines cx_g)).
  { intros pre x y post E (H & _). destruct pre as [|a [|b pre]]; cbn in E; inversion E; subst; [discriminate H|destruct pre; discriminate]. }
  constructor; cbn [f_inl cx_f].
  - constructor; [exact N2|]. constructor; [apply N1|constructor].
  - constructor; [|constructor; [|constructor]].
    + constructor; cbn [f_inl cx_g]; (constructor; [|constructor]); [apply N1|]. constructor; constructor.
    + constructor; constructor.
Qed.
Example collector_example : exists m s o sym, collected (cx_env true true) cx_fs m s o /\ map fst m = [4096] /\
  nfind 4096 m = Some sym /\ sy_multiple sym = true /\ sy_name sym = lit "f" /\
  map (fun l => (l_rva l, l_len l, l_num l, l_file l)) (ls_lines (sy_source sym)) =
    [(4096, 8, 1, 2); (4104, 4, 10, 1); (4108, 4, 20, 0); (4112, 4, 11, 1); (4116, 4, 1, 2); (4120, 4, 30, 0); (4124, 4, 2, 2)] /\
  og_names o = [lit "g"; lit "h"; lit "k"].
Proof. eexists _, _, _, _. split; [vm_compute; reflexivity|]. repeat (split; [reflexivity|]). vm_compute. reflexivity. Qed.
Example collector_frames : frames cx_f 4110
  [(cx_name (lit "g"), cx_line 4096 24 1 0); (cx_name (lit "h"), cx_line 4104 8 10 1)] (cx_line 4108 4 20 2).
Proof.
  eapply (fr_call cx_f cx_g); [left; reflexivity|vm_compute; split; [discriminate|reflexivity]|left; reflexivity|].
  eapply (fr_call cx_g cx_h); [left; reflexivity|vm_compute; split; [discriminate|reflexivity]|left; reflexivity|].
  constructor; [left; reflexivity|vm_compute; split; [discriminate|reflexivity]|intros g []].
Qed.
(** INLINE records of the case: site (origin, depth, line, file) and ranges. *)
Example collector_inlines_example : exists m s o sym, collected (cx_env true true) cx_fs m s o /\ nfind 4096 m = Some sym /\
  map (fun kv => (s_origin (fst kv), s_depth (fst kv), s_line (fst kv), s_file (fst kv), map (fun r => (r_rva r, r_len r)) (snd kv))) (ls_inlines (sy_source sym)) =
    [(0, 0, 1, 2, [(4104, 12)]); (1, 1, 10, 1, [(4108, 4)]); (2, 0, 2, 2, [(4120, 4)])] /\
  sf_ids s = [lit "/b/s/f2.c"; lit "/b/s/f1.c"; lit "/b/s/f0.c"].
Proof. eexists _, _, _, _. split; [vm_compute; reflexivity|]. split; [reflexivity|]. vm_compute. auto. Qed.
(** A line of size unknown counts one byte; line 0 and function address 0 are
    left out; equal numbers of different files are kept apart. *)
Example collector_edge_example : exists m s o sym, collected (cx_env true true)
    [Some (mkFun 0 8 (cx_name (lit "z")) [cx_line 0 8 1 0] []);
     Some (mkFun 4096 16 (cx_name (lit "f")) [cx_line 4096 16 1 0] [mkFun 4104 1 (cx_name (lit "g")) [mkDLine 4104 None 7 (cx_file 1)] []])] m s o /\
  map fst m = [4096] /\ nfind 4096 m = Some sym /\
  map (fun l => (l_rva l, l_len l, l_num l, l_file l)) (ls_lines (sy_source sym)) = [(4096, 8, 1, 1); (4104, 1, 7, 0); (4105, 7, 1, 1)] /\
  map (fun kv => map (fun r => (r_rva r, r_len r)) (snd kv)) (ls_inlines (sy_source sym)) = [[(4104, 1)]].
Proof. eexists _, _, _, _. split; [vm_compute; reflexivity|]. repeat (split; [reflexivity|]). vm_compute. auto. Qed.
Example collector_flat_edge_example : exists m s o sym, collected (cx_env true false)
    [Some (mkFun 4096 32 (cx_name (lit "f")) [cx_line 4096 8 0 0; cx_line 4104 8 5 0; cx_line 4112 8 5 1; cx_line 4120 8 5 1] [])] m s o /\ nfind 4096 m = Some sym /\
  map (fun l => (l_rva l, l_len l, l_num l, l_file l)) (ls_lines (sy_source sym)) = [(4104, 8, 5, 0); (4112, 16, 5, 1)].
Proof. eexists _, _, _, _. split; [vm_compute; reflexivity|]. split; [reflexivity|]. vm_compute. auto. Qed.
Example collector_flat_example : exists m s o sym, collected (cx_env true false) cx_fs m s o /\ nfind 4096 m = Some sym /\
  map (fun l => (l_rva l, l_len l, l_num l, l_file l)) (ls_lines (sy_source sym)) = [(4096, 24, 1, 0); (4120, 8, 2, 0)] /\
  flat_line 4121 (f_lines cx_f) = Some (cx_line 4120 8 2 0).
Proof. eexists _, _, _, _. split; [vm_compute; reflexivity|]. repeat (split; [reflexivity|]). reflexivity. Qed.

(** ** C72: the exact line table of a function without inlined calls *)
(** One record for each run of lines with the same number and path, at the start
    of the run. Without inlines lines numbered 0 are left out first. *)
Theorem C72_flat_exact : forall e fs m s o k f rest sym, ce_inl e = false -> sorts_ranges (ce_sort e) -> consistent (flat_map fun_refs (readable fs)) ->
  collected e fs m s o -> funcs_at k (readable fs) = f :: rest -> nfind k m = Some sym ->
  StronglySorted (fun a b => d_addr a <= d_addr b) (f_lines f) -> Forall (fun l => d_addr l < two32 /\ d_line l < two32) (f_lines f) ->
  Forall2 (line_is (ce_src e) s) (run_starts (ce_src e) None (filter (fun l => negb (d_line l =? 0)) (f_lines f))) (ls_lines (sy_source sym)).
Proof. intros. edestruct flat_exact as (fid & _ & F); eauto using exact_weaken. Qed.
Print Assumptions C72_flat_exact.
Theorem C72_exact : forall e fs m s o k f rest sym, ce_inl e = true -> f_inl f = [] -> sorts_ranges (ce_sort e) -> consistent (flat_map fun_refs (readable fs)) ->
  collected e fs m s o -> funcs_at k (readable fs) = f :: rest -> nfind k m = Some sym ->
  lines_ok (f_lines f) -> Forall (fun l => d_line l < two32) (f_lines f) ->
  Forall2 (line_is (ce_src e) s) (run_starts (ce_src e) None (f_lines f)) (ls_lines (sy_source sym)).
Proof. intros. edestruct walk_exact as (fid & _ & F); eauto using exact_weaken. Qed.
Print Assumptions C72_exact.
(** So no two records in a row are the same. *)
Theorem C72_no_repeat : forall e fs m s o k f rest sym, sorts_ranges (ce_sort e) -> consistent (flat_map fun_refs (readable fs)) ->
  collected e fs m s o -> funcs_at k (readable fs) = f :: rest -> nfind k m = Some sym ->
  (ce_inl e = false /\ StronglySorted (fun a b => d_addr a <= d_addr b) (f_lines f) /\ Forall (fun l => d_addr l < two32) (f_lines f)) \/
  (ce_inl e = true /\ f_inl f = [] /\ lines_ok (f_lines f)) ->
  Forall (fun l => d_line l < two32) (f_lines f) ->
  forall pre x y post, ls_lines (sy_source sym) = pre ++ x :: y :: post -> (l_num x, l_file x) <> (l_num y, l_file y).
Proof.
  intros e fs m s o k f rest sym US C H Hf Hk [(Ei & S & B)|(Ei & Nf & L)] U.
  - destruct (flat_exact e fs m s o k f rest sym Ei US C H Hf Hk S) as (fid & Pf & F).
    { rewrite Forall_forall in *. intros l Hl. auto. }
    apply (exact_differ (ce_src e) s fid (f_lines f) (run_starts (ce_src e) None (filter (fun l => negb (d_line l =? 0)) (f_lines f))) _ Pf); [|exact F|apply run_starts_differ].
    intros d X. apply run_starts_in in X. now apply filter_In in X.
  - destruct (walk_exact e fs m s o k f rest sym Ei Nf US C H Hf Hk L U) as (fid & Pf & F).
    apply (exact_differ (ce_src e) s fid (f_lines f) (run_starts (ce_src e) None (f_lines f)) _ Pf); [|exact F|apply run_starts_differ].
    intros d X. now apply run_starts_in in X.
Qed.
Print Assumptions C72_no_repeat.
(** With numbers beyond 32 bits, or lines out of order, it can happen. *)
Theorem C72_wide_refuted : exists e fs m s o sym x y, ce_inl e = false /\ collected e fs m s o /\ nfind 4096 m = Some sym /\
  ls_lines (sy_source sym) = [x; y] /\ (l_num x, l_file x) = (l_num y, l_file y).
Proof.
  exists (cx_env false false), [Some (mkFun 4096 16 (cx_name (lit "f")) [cx_line 4096 8 5 0; cx_line 4104 8 (two32 + 5) 0] [])]. eexists _, _, _. eexists. eexists _, _.
  split; [reflexivity|]. split; [vm_compute; reflexivity|]. split; [vm_compute; reflexivity|]. split; [vm_compute; reflexivity|reflexivity].
Qed.
Print Assumptions C72_wide_refuted.
(** Four lines, of which the second and third continue the first. *)
Definition cx_runs := mkFun 4096 32 (cx_name (lit "r")) [cx_line 4096 8 5 0; cx_line 4104 8 5 0; cx_line 4112 4 5 0; cx_line 4116 16 5 1] [].
Definition cx_runs0 := mkFun 4096 32 (cx_name (lit "r")) [cx_line 4096 8 5 0; cx_line 4104 8 0 0; cx_line 4112 4 5 0; cx_line 4116 16 5 1] [].
Example C72_example : exists m s o sym, collected (cx_env false true) [Some cx_runs] m s o /\ nfind 4096 m = Some sym /\
  funcs_at 4096 (readable [Some cx_runs]) = [cx_runs] /\ lines_ok (f_lines cx_runs) /\ consistent (flat_map fun_refs (readable [Some cx_runs])) /\
  map triple (ls_lines (sy_source sym)) = [(4096, 5, 0); (4116, 5, 1)] /\
  map d_addr (run_starts (ce_src (cx_env false true)) None (f_lines cx_runs)) = [4096; 4116].
Proof.
  eexists _, _, _, _. split; [vm_compute; reflexivity|]. split; [vm_compute; reflexivity|]. split; [reflexivity|].
  split; [split; repeat constructor; vm_compute; congruence|]. split; [|split; vm_compute; reflexivity].
  intros r r' H H'. cbn in H, H'.
  repeat match goal with H : _ \/ _ |- _ => destruct H as [<-|H] | H : False |- _ => destruct H end; cbn; intros; try discriminate; auto.
Qed.
Example C72_flat_example : exists m s o sym, collected (cx_env false false) [Some cx_runs0] m s o /\ nfind 4096 m = Some sym /\
  map triple (ls_lines (sy_source sym)) = [(4096, 5, 0); (4116, 5, 1)].
Proof. eexists _, _, _, _. split; [vm_compute; reflexivity|]. split; vm_compute; reflexivity. Qed.
