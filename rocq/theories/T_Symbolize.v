(** Theorem C70: from the debug info to what a reader of the symbol file finds. *)
From Verif Require Import Base Sort BMap Str M_Names M_Path M_Line M_Source M_Symbol M_Collector M_Object
  S_Line S_Source S_Symbol S_Collector S_Object S_Format S_Symbolize P_Symbol P_Collector P_Walk P_Tree P_Func P_Calls P_Object P_Merge P_From P_Format P_Symbolize
  T_Collector T_Object T_Format.

(** An object processed from [main] and read back from its file as [rs]. *)
Definition read_back (e : RunEnv) (pl : Platform) (main : Parsed) (fs : list (option Fun)) (rs : list Rec) : Prop :=
  exists mn pe pn o extra ls, pa_functions main = Some fs /\ sorts_ranges (re_sort e) /\ consistent (flat_map fun_refs (readable fs)) /\ exceptions_u32 main /\
    from_object e pl main mn pe pn = Ok o /\ writable ls o /\ Forall one_line extra /\ written extra o rs.

(** The function, with its name (Windows: see below). *)
Theorem C70_name : forall e pl main fs rs k f rest, read_back e pl main fs rs -> funcs_at k (readable fs) = f :: rest -> pl <> Win ->
  read_name rs k = Some (demangle (re_dm e) (f_name f)).
Proof. intros e pl main fs rs k f rest (mn & pe & pn & o & extra & ls & A & B & C & D & E & F & G & R) Hf. eapply whole_name; eauto. Qed.
Print Assumptions C70_name.
(** On Windows: the name and the parameter size given by the publics at that
    address (C07_windows_unique: they determine both). *)
Theorem C70_name_windows : forall e main fs rs k f rest, read_back e Win main fs rs -> funcs_at k (readable fs) = f :: rest ->
  Forall (fun g => f_addr g = 0 \/ clear_of k (f_addr g mod two32) (f_size g mod two32)) (readable fs) ->
  (forall xs b x, pa_exceptions main = Some xs -> In (Some (b, x)) xs -> clear_of k b (x - b)) ->
  all_publics (fun p => clear_of k (pb_addr p mod two32) (pb_size p mod two32)) main ->
  exists mini nm a mu len b, (mini = [] \/ embedded main mini) /\ read_name rs k = Some nm /\ functions_at k rs = [(RFunc mu k len a nm, b)] /\
    win_named (re_dm e) (demangle (re_dm e) (f_name f)) 0 (pubs_at k (pa_publics main ++ mini)) nm a.
Proof.
  intros e main fs rs k f rest (mn & pe & pn & o & extra & ls & A & B & C & D & E & F & G & R) Hf AF AX AP.
  destruct (whole_win e Win main mn pe pn o fs extra ls rs k f rest A B C D E F G R Hf eq_refl AF AX AP) as (mini & nm & a & mu & len & b & H1 & H2 & H3).
  exists mini, nm, a, mu, len, b. splits; auto. unfold read_name. now rewrite H2.
Qed.
Print Assumptions C70_name_windows.
(** The inlined calls. *)
Theorem C70_inlines : forall e pl main fs rs k f rest, read_back e pl main fs rs -> funcs_at k (readable fs) = f :: rest -> re_inl e = true -> well_formed f ->
  (forall a st lf, frames f a st lf -> read_inlines rs k a = Some (map (frame_text (ce_src (run_cenv e pl main)) (re_dm e)) st)) /\
  (forall a, ~ covers f a -> read_inlines rs k a = Some []).
Proof. intros e pl main fs rs k f rest (mn & pe & pn & o & extra & ls & A & B & C & D & E & F & G & R) Hf. eapply whole_stack; eauto. Qed.
Print Assumptions C70_inlines.
(** The source line, at addresses where nothing is inlined ... *)
Theorem C70_caller_line : forall e pl main fs rs k f rest, read_back e pl main fs rs -> funcs_at k (readable fs) = f :: rest -> re_inl e = true -> well_formed f ->
  f_addr f + f_size f < two32 -> forall a lf, In lf (f_lines f) -> in_dl a lf -> (forall g, In g (f_inl f) -> ~ covers g a) -> a < f_addr f + f_size f ->
  read_line rs k a = Some (Some (line_text (ce_src (run_cenv e pl main)) lf)).
Proof. intros e pl main fs rs k f rest (mn & pe & pn & o & extra & ls & A & B & C & D & E & F & G & R) Hf. eapply whole_self_line; eauto. Qed.
Print Assumptions C70_caller_line.
(** ... and of the innermost inlined function, if successive equal lines of
    inlined functions leave no gap. Missing: the general case, which is false
    (C14_innermost_line_refuted). *)
Theorem C70_innermost_line_partial : forall e pl main fs rs k f rest, read_back e pl main fs rs -> funcs_at k (readable fs) = f :: rest -> re_inl e = true -> well_formed f ->
  no_gaps_inside (ce_src (run_cenv e pl main)) f -> f_addr f + f_size f < two32 ->
  forall a st lf, frames f a st lf -> a < f_addr f + f_size f -> read_line rs k a = Some (Some (line_text (ce_src (run_cenv e pl main)) lf)).
Proof. intros e pl main fs rs k f rest (mn & pe & pn & o & extra & ls & A & B & C & D & E & F & G & R) Hf. eapply whole_line; eauto. Qed.
Print Assumptions C70_innermost_line_partial.
(** It is missing only after such a gap ... *)
Theorem C70_only_after_gap : forall e pl main fs rs k f rest, read_back e pl main fs rs -> funcs_at k (readable fs) = f :: rest -> re_inl e = true -> well_formed f ->
  f_addr f + f_size f < two32 -> forall a st lf, frames f a st lf -> a < f_addr f + f_size f ->
  read_line rs k a = Some (Some (line_text (ce_src (run_cenv e pl main)) lf)) \/
  (exists h pre x y post, below f h /\ f_lines h = pre ++ x :: y :: post /\ same_info (ce_src (run_cenv e pl main)) x y /\ dl_end x < d_addr y /\ d_addr y <= a /\
    same_info (ce_src (run_cenv e pl main)) y lf).
Proof. intros e pl main fs rs k f rest (mn & pe & pn & o & extra & ls & A & B & C & D & E & F & G & R) Hf. eapply whole_gap; eauto. Qed.
Print Assumptions C70_only_after_gap.
(** ... and this is the line that is found in every case (C14_lines_exact has that
    there is a start before every covered address). *)
Theorem C70_lines_exact : forall e pl main fs rs k f rest, read_back e pl main fs rs -> funcs_at k (readable fs) = f :: rest -> re_inl e = true -> well_formed f ->
  f_addr f + f_size f < two32 ->
  (forall a b lf, starts (same_info (ce_src (run_cenv e pl main))) f b lf -> b <= a -> (forall x y, b < x <= a -> ~ starts (same_info (ce_src (run_cenv e pl main))) f x y) ->
    a < f_addr f + f_size f -> read_line rs k a = Some (Some (line_text (ce_src (run_cenv e pl main)) lf))) /\
  (forall a, (forall x y, x <= a -> ~ starts (same_info (ce_src (run_cenv e pl main))) f x y) -> read_line rs k a = Some None).
Proof. intros e pl main fs rs k f rest (mn & pe & pn & o & extra & ls & A & B & C & D & E & F & G & R) Hf. eapply whole_exact; eauto. Qed.
Print Assumptions C70_lines_exact.
(** Without inlines. *)
Theorem C70_flat : forall e pl main fs rs k f rest, read_back e pl main fs rs -> funcs_at k (readable fs) = f :: rest -> re_inl e = false ->
  (forall a, read_inlines rs k a = Some []) /\
  (StronglySorted (fun a b => d_addr a <= d_addr b) (f_lines f) -> Forall (fun l => d_addr l < two32) (f_lines f) -> f_addr f + f_size f < two32 ->
   forall a, a < f_addr f + f_size f -> read_line rs k a = Some (option_map (line_text (ce_src (run_cenv e pl main))) (flat_line a (f_lines f)))).
Proof.
  intros e pl main fs rs k f rest (mn & pe & pn & o & extra & ls & A & B & C & D & E & F & G & R) Hf Ei. split; [eapply whole_flat_inlines; eauto|eapply whole_flat; eauto].
Qed.
Print Assumptions C70_flat.
(** After merging two objects the reader finds for each function what it finds
    in the file of one of them. *)
Theorem C70_merged : forall shown ck iter x y lx ly m ex rs rx ry, iterates iter -> fresh shown x -> fresh shown y ->
  ck = false \/ (ends_fit (ob_syms x) /\ ends_fit (ob_syms y)) -> writable lx x -> writable ly y -> Forall one_line ex ->
  merge_objects ck iter x y = Ok m -> written ex m rs -> written ex x rx -> written ex y ry ->
  forall k s, nfind k (ob_syms m) = Some s -> sy_public s = false ->
  exists r, (r = rx \/ r = ry) /\ read_name rs k = read_name r k /\ forall a, read_inlines rs k a = read_inlines r k a /\ read_line rs k a = read_line r k a.
Proof.
  intros shown ck iter x y lx ly m ex rs rx ry It Fx Fy T Wx Wy Ex Hm Rm Rx Ry k s Hk Ps.
  assert (Eid : ob_debug_id x = ob_debug_id y) by (pose proof (merge_fields _ _ _ _ _ Hm) as G; cbv zeta in G; destruct G as (G1 & G2 & _); congruence).
  destruct (C25_attribution shown ck iter x y It Fx Fy Eid T) as (m' & Hm' & _ & One). assert (m' = m) by congruence. subst m'.
  destruct (C31_merged_writable ck iter [y] [ly] x lx m Wx) as (lm & _ & Wm); [constructor; [exact Wy|constructor]|unfold merge_all; rewrite Hm; reflexivity|].
  assert (Fm : filed (ob_syms m)) by (apply (C12_merge_filed ck iter x [y] m); [exact (C12_fresh_filed _ _ Fx)|constructor; [exact (C12_fresh_filed _ _ Fy)|constructor]|unfold merge_all; rewrite Hm; reflexivity]).
  destruct (One k s Hk Ps) as (o & s0 & Ho & Hk0 & P0 & En & _ & Sm).
  destruct Ho as [<-|[<-|[]]]; [exists rx|exists ry]; (split; [auto|]);
    [apply (reads_same ex ex lx lm x m rx rs k s0 s)|apply (reads_same ex ex ly lm y m ry rs k s0 s)]; auto; try (now apply whole_records);
    [exact (C12_fresh_filed _ _ Fx)|exact (C12_fresh_filed _ _ Fy)].
Qed.
Print Assumptions C70_merged.

(** The functions of C14 in an ELF file: [h] inlined in [g] inlined in [f]. *)
Definition sx_read (r : res Obj) : option (list Rec) :=
  match r with Ok o => match fmt_object [] o with Ok t => parse_file t | _ => None end | _ => None end.
Definition sx_main := ox_small cx_fs [] (Some (lit "c0de")) true.
Definition sx_env (inl : bool) := mkRunEnv true Linux (fun _ => None) (fun _ => Ok None) (mkDemangler (fun _ => None) (fun _ => lang_unknown)) inl (sort_by_key i_start).
Definition sx_obj (inl : bool) : res Obj := from_object (sx_env inl) Linux sx_main (lit "libx.so") None None.
Example C70_example : exists rs, sx_read (sx_obj true) = Some rs /\ read_name rs 4096 = Some (lit "f") /\
  read_inlines rs 4096 4110 = Some [mkFrame (lit "g") 1 (lit "/b/s/f0.c"); mkFrame (lit "h") 10 (lit "/b/s/f1.c")] /\
  read_line rs 4096 4110 = Some (Some (20, lit "/b/s/f2.c")) /\
  read_inlines rs 4096 4116 = Some [] /\ read_line rs 4096 4116 = Some (Some (1, lit "/b/s/f0.c")) /\
  read_inlines rs 4096 4200 = Some [] /\ read_line rs 4096 4200 = Some None.
Proof. eexists. split; [vm_compute; reflexivity|]. splits; vm_compute; reflexivity. Qed.
Example C70_flat_example : exists rs, sx_read (sx_obj false) = Some rs /\ read_inlines rs 4096 4110 = Some [] /\ read_line rs 4096 4110 = Some (Some (1, lit "/b/s/f0.c")).
Proof. eexists. split; [vm_compute; reflexivity|]. splits; vm_compute; reflexivity. Qed.
Lemma sx_words : one_word (lit "x86_64") /\ one_word (lit "AB12") /\ one_line (lit "libx.so") /\ one_line (lit "C0DE").
Proof. splits; vm_compute; intuition discriminate. Qed.
Definition sx_o : Obj := ox_get (sx_obj true).
Lemma sx_o_ok : sx_obj true = Ok sx_o.
Proof. vm_compute. reflexivity. Qed.
Lemma sx_same : ox_obj cx_fs [] (Some (lit "c0de")) true = Ok sx_o.
Proof. vm_compute. reflexivity. Qed.
Lemma sx_writable : writable [lit "CFI INIT 10 20 x"] sx_o.
Proof.
  destruct sx_words as (W1 & W2 & W3 & W4).
  apply (C31_fresh_writable (fun p => p)); [exact (ox_fresh cx_fs [] (Some (lit "c0de")) true sx_o collector_consistent sx_same)| |apply names_check; vm_compute; reflexivity|vm_compute; reflexivity].
  apply (head_check sx_o (lit "x86_64") (lit "AB12") (lit "libx.so") (Some (lit "C0DE"))); try (vm_compute; reflexivity); try assumption.
  split; [exact W4|]. exists (lit "C0D"), 69. split; reflexivity.
Qed.
Lemma sx_src : ce_src (run_cenv (sx_env true) Linux sx_main) = mkSrcEnv (fun _ => None) Linux true (fun _ => None).
Proof. reflexivity. Qed.
Example C70_hypotheses : exists rs, read_back (sx_env true) Linux sx_main cx_fs rs /\ funcs_at 4096 (readable cx_fs) = [cx_f; cx_f2] /\
  well_formed cx_f /\ f_addr cx_f + f_size cx_f < two32.
Proof.
  destruct (C31_parse_back [] _ sx_o sx_writable (Forall_nil _)) as (t & rs & T & P & _). exists rs.
  split; [|split; [reflexivity|split; [exact collector_wf|reflexivity]]].
  exists (lit "libx.so"), None, None, sx_o, [], [lit "CFI INIT 10 20 x"].
  split; [reflexivity|]. split; [exact cx_sorts|]. split; [exact collector_consistent|]. split; [intros xs b x [=]|]. split; [exact sx_o_ok|]. split; [exact sx_writable|].
  split; [constructor|]. exists t. auto.
Qed.
(** Two files of one module: the function at 4096 has other numbers in the merged
    file than in the first one, and means the same. *)
Example C70_merged_example : exists m rs ra rb, merge_objects true (fun l => l) ox_a ox_b = Ok m /\ written [] m rs /\ written [] ox_a ra /\ written [] ox_b rb /\
  map snd (functions_at 4096 ra) = [[RInline 0 7 1 0 [(4100, 8)]; RLine 4096 4 7 1; RLine 4100 8 52 0; RLine 4108 20 7 1]] /\
  map snd (functions_at 4096 rs) = [[RInline 0 7 1 1 [(4100, 8)]; RLine 4096 4 7 1; RLine 4100 8 52 2; RLine 4108 20 7 1]] /\
  read_inlines rs 4096 4102 = Some [mkFrame (lit "in2") 7 (lit "/b/s/f0.c")] /\ read_line rs 4096 4102 = Some (Some (52, lit "/b/s/f2.c")) /\
  read_inlines ra 4096 4102 = Some [mkFrame (lit "in2") 7 (lit "/b/s/f0.c")] /\ read_line ra 4096 4102 = Some (Some (52, lit "/b/s/f2.c")).
Proof.
  eexists _, _, _, _. split; [vm_compute; reflexivity|]. split; [eexists; split; vm_compute; reflexivity|]. split; [eexists; split; vm_compute; reflexivity|]. split; [eexists; split; vm_compute; reflexivity|].
  repeat (split; [vm_compute; reflexivity|]). vm_compute; reflexivity.
Qed.
(** On Windows two publics at 4096: the last one without parameters gives the name,
    and 12 bytes of parameters are those of the only one that has them. *)
Definition sw_main := ox_small cx_fs [mkPub 4096 0 (Some (lit "_nice@12")); mkPub 4096 4 (Some (lit "_nicer")); mkPub 4097 0 (Some (lit "inside"))] (Some (lit "c0de")) true.
Definition sw_obj : res Obj := from_object (sx_env true) Win sw_main (lit "x.pdb") None None.
Example C70_windows_example : exists rs, sx_read sw_obj = Some rs /\ read_name rs 4096 = Some (lit "nicer") /\
  map fst (functions_at 4096 rs) = [RFunc true 4096 32 12 (lit "nicer")].
Proof. eexists. split; [vm_compute; reflexivity|]. split; vm_compute; reflexivity. Qed.
Example C70_windows_hypotheses : Forall (fun g => f_addr g = 0 \/ clear_of 4096 (f_addr g mod two32) (f_size g mod two32)) (readable cx_fs) /\
  pa_exceptions sw_main = None /\ Forall (fun p => clear_of 4096 (pb_addr p mod two32) (pb_size p mod two32)) (pa_publics sw_main) /\
  win_named (re_dm (sx_env true)) (lit "f") 0 (pubs_at 4096 (pa_publics sw_main)) (lit "nicer") 12.
Proof.
  split; [|split; [reflexivity|split]].
  - change (readable cx_fs) with [cx_f; cx_f2]. constructor; [|constructor; [|constructor]]; right; unfold clear_of; vm_compute; intuition discriminate.
  - repeat constructor; unfold clear_of; vm_compute; intuition discriminate.
  - assert (NC : forall a n x, should_skip_symbol x = false -> ~ constant_pub (mkPub a n (Some x))).
    { intros a n x E (y & [= <-] & C). apply skip_constant in C. congruence. }
    change (pubs_at 4096 (pa_publics sw_main)) with [mkPub 4096 0 (Some (lit "_nice@12")); mkPub 4096 4 (Some (lit "_nicer"))].
    eapply (wn_name _ _ _ _ (lit "_nice@12") (mkWin (lit "nice") (Some 12)) (lit "nice")); [reflexivity|apply NC; reflexivity|vm_compute; reflexivity|vm_compute; intuition discriminate|reflexivity|].
    eapply (wn_name _ _ _ _ (lit "_nicer") (mkWin (lit "nicer") None) (lit "nicer")); [reflexivity|apply NC; reflexivity|vm_compute; reflexivity|vm_compute; intuition discriminate|reflexivity|].
    constructor.
Qed.
