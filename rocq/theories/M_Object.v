(** Model of /repo/src/object_info.rs: building, merging and writing one module;
    and of [remap_lines], [remap_inlines] and [get_compressed_minidebuginfo] of
    /repo/src/symbol.rs. *)
From Verif Require Import Base Sort BMap Str M_Names M_Path M_Line M_Source M_Symbol M_Collector.

(** /repo/src/object_info.rs:28-41 [struct ObjectInfo]; [ob_stripped] is
    [bin_type == Type::Stripped]. *)
Record Obj := mkObj {
  ob_syms : Symbols;
  ob_files : SrcMap;
  ob_origins : list str;
  ob_name : str;
  ob_cpu : str;
  ob_debug_id : str;
  ob_code_id : option str;
  ob_pe_name : option str;
  ob_stack : str;
  ob_stripped : bool;
  ob_platform : Platform
}.

(** Slice indexing. *)
Definition index (l : list N) (i : N) : res N :=
  match nthN l i with Some x => Ok x | None => Panic "index out of bounds" end.
Definition remap_file (fm : option (list N)) (i : N) : res N :=
  match fm with Some m => index m i | None => Ok i end.
(** /repo/src/symbol.rs:70-76 [remap_lines]. *)
Definition remap_line (fm : option (list N)) (l : Line) : res Line :=
  i <- remap_file fm (l_file l) ;; Ok (mkLine (l_rva l) (l_len l) (l_num l) i).
(** /repo/src/symbol.rs:78-95 [remap_inlines]; [collect] into a BTreeMap keeps
    the last of equal keys. *)
Definition remap_site (fm : option (list N)) (om : list N) (kv : Site * list Range) : res (Site * list Range) :=
  let s := fst kv in
  i <- remap_file fm (s_file s) ;;
  o <- index om (s_origin s) ;;
  Ok (mkSite o (s_depth s) (s_line s) i, snd kv).
Definition remap_symbol (fm : option (list N)) (om : list N) (s : Symbol) : res Symbol :=
  let src := sy_source s in
  ls <- mapM (remap_line fm) (ls_lines src) ;;
  is <- mapM (remap_site fm om) (ls_inlines src) ;;
  Ok (mkSymbol (sy_name s) (sy_public s) (sy_multiple s) (sy_synthetic s) (sy_rva s) (sy_len s) (sy_param s)
        (mkLines ls (bcollect site_lt is) (ls_sorted src) (ls_last src))).

(** /repo/src/object_info.rs:218-225: the CFI texts. *)
Definition merge_stack (l r : str) : str :=
  match l, r with
  | [], _ => r
  | _, [] => l
  | _, _ => (if ends_with_char c_nl l then l else l ++ [c_nl]) ++ r
  end.

(** /repo/src/object_info.rs:233-281: one record of the right object. *)
Definition merge_symbol (ck : bool) (fm : option (list N)) (om : list N) (syms : Symbols) (kv : N * Symbol) : res Symbols :=
  let '(addr, sym) := kv in
  if sy_public sym then
    inside <- is_inside_symbol ck addr syms ;;
    if inside then Ok syms
    else match nfind addr syms with
    | Some e =>
        if sy_synthetic sym then Ok syms
        else if sy_synthetic e then Ok (ninsert addr sym syms)
        else if str_eqb (sy_name e) (sy_name sym) then Ok syms
        else Ok (ninsert addr (set_multiple e) syms)
    | None => Ok (ninsert addr sym syms)
    end
  else match nfind addr syms with
  | Some a =>
      if sy_public a then sym <- remap_symbol fm om sym ;; Ok (ninsert addr (set_multiple sym) syms)
      else Ok (ninsert addr (set_multiple a) syms)
  | None => sym <- remap_symbol fm om sym ;; Ok (ninsert addr sym syms)
  end.

(** /repo/src/object_info.rs:211-291, after the choice of left and right; [iter]
    is the iteration order of the hash map of the right object's paths. *)
Definition merge_into (ck : bool) (iter : list (str * N) -> list (str * N)) (left right : Obj) : res Obj :=
  ' fm <- srcmap_merge (iter (sm_ref (ob_files right))) (ob_files left) (ob_files right) ;;
  let '(files, _, remap) := fm in
  let '(origins, om) := merge_inline_origins (ob_origins left) (ob_origins right) in
  syms <- foldM (merge_symbol ck remap om) (ob_syms right) (ob_syms left) ;;
  Ok (mkObj syms files origins
        (if ob_stripped right then ob_name right else ob_name left)
        (ob_cpu left) (ob_debug_id left)
        (match ob_code_id left with Some c => Some c | None => ob_code_id right end)
        (ob_pe_name left) (merge_stack (ob_stack left) (ob_stack right)) (ob_stripped left) (ob_platform left)).
(** /repo/src/object_info.rs:202-292 [ObjectInfo::merge]. *)
Definition merge_objects (ck : bool) (iter : list (str * N) -> list (str * N)) (left right : Obj) : res Obj :=
  if negb (str_eqb (ob_debug_id left) (ob_debug_id right)) then Err "The files don't have the same debug id"
  else if lenN (ob_syms right) <? lenN (ob_syms left) then merge_into ck iter left right
  else merge_into ck iter right left.

(** /repo/src/object_info.rs:43-84 [impl Display for ObjectInfo]; [extra] is
    EXTRA_INFO (empty when unset). *)
Fixpoint fmt_numbered (f : N -> str -> str) (n : N) (l : list str) : str :=
  match l with [] => [] | x :: t => f n x ++ fmt_numbered f (n + 1) t end.
Definition fmt_file (n : N) (name : str) : str := lit "FILE " ++ dec n ++ [c_sp] ++ name ++ [c_nl].
Definition fmt_module (o : Obj) : str :=
  lit "MODULE " ++ platform_text (ob_platform o) ++ [c_sp] ++ ob_cpu o ++ [c_sp] ++ ob_debug_id o ++ [c_sp] ++ ob_name o ++ [c_nl].
Definition fmt_code_id (o : Obj) : str :=
  match ob_code_id o with
  | None => []
  | Some c => trim (lit "INFO CODE_ID " ++ c ++ [c_sp] ++ match ob_pe_name o with Some n => n | None => [] end) ++ [c_nl]
  end.
Definition fmt_object (extra : list str) (o : Obj) : res str :=
  syms <- mapM (fun kv => fmt_symbol (snd kv)) (ob_syms o) ;;
  Ok (fmt_module o ++ fmt_code_id o
      ++ concat (map (fun l => lit "INFO " ++ l ++ [c_nl]) extra)
      ++ fmt_numbered fmt_file 0 (sm_ids (ob_files o))
      ++ fmt_numbered fmt_origin 0 (ob_origins o)
      ++ concat syms ++ ob_stack o).

(** What is read from an object file by symbolic and goblin. [pa_functions]:
    None when the debug session cannot be opened. [pa_exceptions]: exception
    entries, for PE objects that have them. [pa_cfi]: what the CFI writer puts
    out before it ends or fails. [pa_inner]: the name an ELF or Mach-O file has
    for itself. *)
Record Parsed := mkParsed {
  pa_functions : option (list (option Fun));
  pa_debug_id : str;
  pa_code_id : option str;
  pa_arch : str;
  pa_debug_info : bool;
  pa_pe : bool;
  pa_exceptions : option (list (option (N * N)));
  pa_publics : list Pub;
  pa_size : N;
  pa_secs : list (option str * N * N);
  pa_unxz : N -> N -> option (option (list Pub));
  pa_unwind : bool;
  pa_cfi : str;
  pa_bytes : Bytes;
  pa_inner : option str
}.

(** /repo/src/symbol.rs:164-181 [get_compressed_minidebuginfo] with
    /repo/src/object_info.rs:151-155. [pa_secs]: name, offset and size of the ELF
    sections ([] for other objects); [pa_unxz] decompresses and parses (inner
    None: not an object). *)
Fixpoint minidebug (ck : bool) (size : N) (unxz : N -> N -> option (option (list Pub))) (secs : list (option str * N * N))
    : res (list Pub) :=
  match secs with
  | [] => Ok []
  | (name, start, len) :: t =>
      if match name with Some n => str_eqb n (lit ".gnu_debugdata") | None => false end then
        e <- add64 ck start len ;;
        if (start <=? e) && (e <=? size) then
          match unxz start e with
          | Some (Some pubs) => Ok pubs
          | _ => Ok []
          end
        else Panic "slice index out of range"
      else minidebug ck size unxz t
  end.

(** /repo/src/object_info.rs:86-101 [get_stack_info]. *)
Definition stack_info (main : Parsed) (pe : option Parsed) : str :=
  match pe with
  | Some p => if pa_unwind p then pa_cfi p else if pa_unwind main then pa_cfi main else []
  | None => if pa_unwind main then pa_cfi main else []
  end.

(** /repo/src/object_info.rs:198-200 [file_name_only]. *)
Definition file_name_only (s : str) : str :=
  match last_opt (split_on (fun c => c =? c_slash) s) with Some x => x | None => s end.

(** What a run fixes: overflow checks, host, file system, path mapping (what
    [PathMappings::map] does for a path), demangler, inlines on or off, tie-breaking of the unstable sort. *)
Record RunEnv := mkRunEnv {
  re_ck : bool;
  re_host : Platform;
  re_canon : str -> option str;
  re_map : str -> res (option str);
  re_dm : Demangler;
  re_inl : bool;
  re_sort : list IR -> list IR
}.
(** /repo/src/source.rs:112-125: an error of the mapping is logged and the path
    stays as it is. *)
Definition map_path (e : RunEnv) (p : str) : option str := match re_map e p with Ok r => r | _ => None end.
(** /repo/src/object_info.rs:113-124, 188-196. *)
Definition run_cenv (e : RunEnv) (platform : Platform) (main : Parsed) : CEnv :=
  mkCEnv (re_ck e)
    (mkSrcEnv (re_canon e) platform (if pa_pe main && pa_debug_info main then false else is_target (re_host e) platform) (map_path e))
    (re_dm e) (re_inl e) (re_sort e).

(** /repo/src/source.rs:108-113: the mapping is asked for every path once, when it
    is entered in the index; it may panic (/repo/src/mapping.rs:41). *)
Definition ask_mapping (e : RunEnv) (src : Src) : res unit :=
  if existsb (fun kv => is_panic (re_map e (fst kv))) (sf_ref src) then Panic "Unable to read the file" else Ok tt.
(** /repo/src/object_info.rs:104-183 [ObjectInfo::from_object]. The code id is
    upper-cased for ASCII only (it is a hexadecimal number). A panic of the
    mapping happens while the functions are collected, here after it; nothing can
    be seen of that. *)
Definition from_object (e : RunEnv) (platform : Platform) (main : Parsed) (main_name : str)
    (pe : option Parsed) (pe_name : option str) : res Obj :=
  match pa_functions main with
  | None => Err "debug session"
  | Some fs =>
      ' c <- collect_functions (run_cenv e platform main) fs ([], src_new, orig_new) ;;
      let '(syms, src, orig) := c in
      _ <- ask_mapping e src ;;
      syms <- (match pa_exceptions main with
               | Some xs => collect_placeholders (re_ck e) (match pe_name with Some n => n | None => main_name end) xs syms
               | None => Ok syms
               end) ;;
      syms <- collect_publics (re_ck e) platform (re_dm e) (pa_publics main) syms ;;
      mini <- minidebug (re_ck e) (pa_size main) (pa_unxz main) (pa_secs main) ;;
      syms <- collect_publics (re_ck e) platform (re_dm e) mini syms ;;
      syms <- add_executable_section_symbols (re_ck e) (pa_bytes main) main_name syms ;;
      Ok (mkObj syms (src_mapping src) (og_names orig)
            (file_name_only (match pa_inner main with Some n => n | None => main_name end))
            (pa_arch main) (pa_debug_id main)
            (option_map to_upper (match (match pe with Some p => pa_code_id p | None => None end) with
                                  | Some c => Some c | None => pa_code_id main end))
            pe_name (stack_info main pe) (negb (pa_debug_info main)) platform)
  end.
