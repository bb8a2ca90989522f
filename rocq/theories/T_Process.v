(** Theorems about the header of a processed object and about completeness of its records. *)
From Verif Require Import Base Sort BMap Str M_Names M_Path M_Line M_Source M_Symbol M_Collector M_Object
  S_Line S_Source S_Symbol S_Collector S_Object S_Process P_Collector P_Walk P_Tree P_Func P_Calls P_Object P_From P_Process T_Collector T_Object.

(** ** C67: where the header and the CFI text come from *)
Theorem C67_header : forall e pl main mn pe pn o, from_object e pl main mn pe pn = Ok o ->
  ob_debug_id o = pa_debug_id main /\ ob_cpu o = pa_arch main /\ ob_platform o = pl /\ ob_pe_name o = pn /\
  (ob_stripped o = true <-> pa_debug_info main = false) /\ module_code main pe (ob_code_id o) /\ module_cfi main pe (ob_stack o) /\
  after_slash (match pa_inner main with Some n => n | None => mn end) (ob_name o).
Proof. exact from_header. Qed.
Print Assumptions C67_header.
(** These specifications leave no choice. *)
Theorem C67_determined : forall main pe,
  (forall c c', module_code main pe c -> module_code main pe c' -> c = c') /\
  (forall t t', module_cfi main pe t -> module_cfi main pe t' -> t = t') /\
  (forall s n n', after_slash s n -> after_slash s n' -> n = n').
Proof. exact header_determined. Qed.
Print Assumptions C67_determined.

(** A PDB whose PE is at hand: code id and CFI are those of the PE. *)
Definition pr_pdb (code : option str) (unw : bool) : Parsed :=
  mkParsed (Some cx_fs) (lit "AB12") code (lit "x86_64") true false None [mkPub 5000 8 (Some (lit "pub"))] 4096 []
    (fun _ _ => None) unw (lit "STACK WIN 4 1000" ++ [c_nl]) BPdb None.
Definition pr_pe (code : option str) (unw : bool) : Parsed :=
  mkParsed None (lit "FFFF") code (lit "x86") false false None [] 0 [] (fun _ _ => None) unw (lit "STACK CFI INIT 1" ++ [c_nl]) BPe None.
Definition pr_run (main : Parsed) (pe : option Parsed) : res Obj := from_object (ox_env true (fun _ => Ok None)) Win main (lit "o/libx.pdb") pe (Some (lit "libx.dll")).
Definition pr_view (r : res Obj) := match r with Ok o => Some (ob_code_id o, ob_stack o, ob_name o, ob_debug_id o, map fst (ob_syms o)) | _ => None end.
Example C67_example :
  pr_view (pr_run (pr_pdb (Some (lit "c0de")) true) (Some (pr_pe (Some (lit "5f1a")) true))) =
    Some (Some (lit "5F1A"), lit "STACK CFI INIT 1" ++ [c_nl], lit "libx.pdb", lit "AB12", [4096; 5000; 5008]) /\
  pr_view (pr_run (pr_pdb (Some (lit "c0de")) true) (Some (pr_pe None false))) =
    Some (Some (lit "C0DE"), lit "STACK WIN 4 1000" ++ [c_nl], lit "libx.pdb", lit "AB12", [4096; 5000; 5008]) /\
  pr_view (pr_run (pr_pdb None false) None) = Some (None, [], lit "libx.pdb", lit "AB12", [4096; 5000; 5008]).
Proof. splits; vm_compute; reflexivity. Qed.

(** ** C68: nothing is lost and nothing is made up *)
Theorem C68_complete : forall e pl main mn pe pn o, sizes_u64 main -> from_object e pl main mn pe pn = Ok o ->
  exists fs mini, pa_functions main = Some fs /\ mini_publics main mini /\
  (forall f, In f (readable fs) -> f_addr f <> 0 -> exists s, nfind (f_addr f mod two32) (ob_syms o) = Some s /\ sy_public s = false) /\
  (forall xs b x, pa_exceptions main = Some xs -> In (Some (b, x)) xs -> b <= x -> covered (ob_syms o) b) /\
  (forall p, In p (pa_publics main ++ mini) -> ~ constant_pub p -> covered (ob_syms o) (pb_addr p mod two32)) /\
  (forall secs h, pa_bytes main = BElf secs -> In h secs -> se_exec h = true -> exists s, nfind (se_addr h mod two32) (ob_syms o) = Some s).
Proof. exact from_complete. Qed.
Print Assumptions C68_complete.
Theorem C68_synthetic : forall e pl main mn pe pn o k s, from_object e pl main mn pe pn = Ok o ->
  nfind k (ob_syms o) = Some s -> sy_public s = true -> sy_synthetic s = true -> stands_for main mn (ob_syms o) k s.
Proof. exact from_synthetic. Qed.
Print Assumptions C68_synthetic.
Theorem C68_trailing : forall e pl main mn pe pn o fs, sort_perm (re_sort e) -> consistent (flat_map fun_refs (readable fs)) ->
  pa_functions main = Some fs -> addresses_fit main fs -> exceptions_u32 main ->
  from_object e pl main mn pe pn = Ok o -> (pa_bytes main = BPe \/ pa_bytes main = BPdb) -> ob_syms o <> [] ->
  exists k s, last_record (ob_syms o) k s /\ synthetic_at k (sp_unknown mn) s.
Proof. exact from_trailing. Qed.
Print Assumptions C68_trailing.

(** In the ELF file of C55 the public comes from minidebuginfo at 8192, the
    exception entry at 6000 gets a placeholder, and the section at 4096 needs no
    record of its own. *)
Example C68_example : sizes_u64 ox_main /\ mini_publics ox_main [mkPub 8192 16 (Some (lit "hidden"))] /\
  match from_object (ox_env true (fun _ => Ok None)) Linux ox_main (lit "libx.so") None None with
  | Ok o => map (fun kv => (fst kv, sy_public (snd kv), sy_synthetic (snd kv))) (ob_syms o) =
              [(4096, false, false); (5000, true, false); (6000, false, true); (8192, true, false)]
  | _ => False
  end.
Proof.
  split; [intros s a n [[= <- <- <-]|[[= <- <- <-]|[]]]; now vm_compute|]. split; [|vm_compute; reflexivity].
  apply (mp_first ox_main [(Some (lit ".text"), 0, 9000)] 64 100 []); [reflexivity| |now vm_compute|reflexivity].
  intros a n [[=]|[]].
Qed.
(** The PDB ends with a synthetic record; an ELF section without records gets one. *)
Example C68_trailing_example : sort_perm (re_sort (ox_env true (fun _ => Ok None))) /\ addresses_fit (pr_pdb None false) cx_fs /\ exceptions_u32 (pr_pdb None false) /\
  match pr_run (pr_pdb None false) None with
  | Ok o => option_map (fun kv => (fst kv, sy_public (snd kv), sy_synthetic (snd kv), sy_name (snd kv))) (last_opt (ob_syms o)) =
              Some (5008, true, true, lit "<unknown in o/libx.pdb>")
  | _ => False
  end /\
  match from_object (ox_env true (fun _ => Ok None)) Linux (ox_parsed [] [] [] None None true) (lit "libx.so") None None with
  | Ok o => map (fun kv => (fst kv, sy_public (snd kv), sy_synthetic (snd kv), sy_name (snd kv))) (ob_syms o) = [(4096, true, true, lit "<.text ELF section in libx.so>")]
  | _ => False
  end.
Proof.
  split; [apply sorts_perm, cx_sorts|]. split; [|split; [intros xs b e [=]|split; vm_compute; reflexivity]].
  split; [repeat constructor; now vm_compute|]. split; [intros xs b e [=]|]. split; [repeat constructor; now vm_compute|].
  intros pubs (a & b & E). discriminate E.
Qed.
