(** Specification of merging any number of modules in any order. *)
From Verif Require Import Base BMap Str M_Path M_Line M_Source M_Symbol M_Collector M_Object M_Fs M_Cache M_Store M_Input S_Source S_Symbol S_Collector S_Object.

(** [m] is what the modules [os] give when merged two by two in some order. *)
Inductive merged_from (ck : bool) (iter : list (str * N) -> list (str * N)) : list Obj -> Obj -> Prop :=
| mf_one o : merged_from ck iter [o] o
| mf_two a b x y m : merged_from ck iter a x -> merged_from ck iter b y -> merge_objects ck iter x y = Ok m -> merged_from ck iter (a ++ b) m.

(** A line and an INLINE record without the source file. *)
Definition bare_line (l : Line) : N * N * N := (l_rva l, l_len l, l_num l).
Definition bare_inline (o : Obj) (x : Site * list Range) : N * N * option str * list Range :=
  (s_depth (fst x), s_line (fst x), nthN (ob_origins o) (s_origin (fst x)), snd x).
(** Record [s'] of [o'] has the line table of [s] up to the files, and no INLINE
    record that is not one of [s]. *)
Definition kept_source (o : Obj) (s : Symbol) (o' : Obj) (s' : Symbol) : Prop :=
  map bare_line (ls_lines (sy_source s')) = map bare_line (ls_lines (sy_source s)) /\
  forall x', In x' (ls_inlines (sy_source s')) -> exists x, In x (ls_inlines (sy_source s)) /\ bare_inline o' x' = bare_inline o x.
(** Every record of [m] is one of [os], apart from its 'm' marker and files. *)
Definition records_from (os : list Obj) (m : Obj) : Prop :=
  forall k s, nfind k (ob_syms m) = Some s -> exists o s0, In o os /\ nfind k (ob_syms o) = Some s0 /\ same_head (sy_multiple s) s0 s /\
    (sy_public s = false -> kept_source o s0 m s).
(** The addresses of FUNC records. *)
Definition has_func (o : Obj) (k : N) : Prop := exists s, nfind k (ob_syms o) = Some s /\ sy_public s = false.
(** No FUNC record is a placeholder made from an exception table. *)
Definition no_placeholder (o : Obj) : Prop := forall k s, nfind k (ob_syms o) = Some s -> sy_public s = false -> sy_synthetic s = false.
(** Modules as processed from files, of one debug id, that fit. *)
Definition same_module (ck : bool) (id : str) (o : Obj) : Prop :=
  (exists shown, fresh shown o) /\ ob_debug_id o = id /\ (ck = false \/ ends_fit (ob_syms o)).

(** Everything the parsers give for the bytes of a file. *)
Definition parsed_from (ps : Parsers) (p : Parsed) : Prop :=
  exists buf, ps_object ps buf = Some p \/ (exists pe, ps_pe ps buf = Some pe /\ pf_obj pe = p) \/ (exists pdb, ps_pdb ps buf = Some pdb /\ pd_obj pdb = p) \/
    (exists l a, ps_archive ps buf = Some l /\ In (Some (a, p)) l).
(** What the parsers promise: strings at one place are one string, exception
    tables hold 32-bit addresses. *)
Definition sane (ps : Parsers) : Prop :=
  forall p, parsed_from ps p -> (forall fs, pa_functions p = Some fs -> consistent (flat_map fun_refs (readable fs))) /\ exceptions_u32 p.
(** Every file gives a module with records that end below 2^32 (or without
    overflow checks), and storing works. *)
Definition good_input (ck : bool) (proc : str -> res Obj) (st : Obj -> res unit -> Prop) (files : list str) : Prop :=
  (forall f, In f files -> exists o, proc f = Ok o /\ (ck = false \/ ends_fit (ob_syms o))) /\ forall d r, st d r <-> r = Ok tt.
(** The module [m] was made from all the files with its debug id. *)
Definition made_from (ck : bool) (iter : list (str * N) -> list (str * N)) (proc : str -> res Obj) (files : list str) (m : Obj) (os : list Obj) : Prop :=
  merged_from ck iter os m /\ (forall o, In o os -> exists f, In f files /\ proc f = Ok o /\ ob_debug_id o = ob_debug_id m) /\
  (forall f o, In f files -> proc f = Ok o -> ob_debug_id o = ob_debug_id m -> In o os) /\
  length os = length (filter (fun f => match proc f with Ok o => str_eqb (ob_debug_id o) (ob_debug_id m) | _ => false end) files).

(** The files with debug id [k]. *)
Definition files_of (proc : str -> res Obj) (k : str) (files : list str) : list str :=
  filter (fun f => match proc f with Ok o => str_eqb (ob_debug_id o) k | _ => false end) files.
(** Every debug id belongs to at most two files, and two of one id differ in
    their number of records. *)
Definition pairs (proc : str -> res Obj) (files : list str) : Prop :=
  forall k, (length (files_of proc k files) <= 2)%nat /\
    forall f g o p, files_of proc k files = [f; g] -> proc f = Ok o -> proc g = Ok p -> lenN (ob_syms o) <> lenN (ob_syms p).
(** The modules of the files with debug id [id]. *)
Definition module_of (proc : str -> res Obj) (files : list str) (id : str) (o : Obj) : Prop :=
  exists f, In f files /\ proc f = Ok o /\ ob_debug_id o = id.
(** At [k] only one of them has a FUNC record. *)
Definition one_func (proc : str -> res Obj) (files : list str) (id : str) (k : N) : Prop :=
  forall o p, module_of proc files id o -> module_of proc files id p -> has_func o k -> has_func p k -> o = p.
(** Same name, length, parameter size and kind. *)
Definition same_func (a b : Symbol) : Prop :=
  sy_name a = sy_name b /\ sy_len a = sy_len b /\ sy_param a = sy_param b /\ sy_synthetic a = sy_synthetic b.
(** The architectures of file [f] can be listed, as [t]. *)
Definition lists (x : Ext) (arch_name : N -> str) (fs : FS) (f t : str) : Prop :=
  exists n d, path_file_name f = Some n /\ read_file (ex_os x) (ex_cab x) fs f = Ok d /\ print_macho_architectures (ex_ps x) arch_name d n = Ok t.
