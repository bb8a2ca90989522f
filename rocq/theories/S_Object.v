(** Specification of merging, for objects given by their tables. *)
From Verif Require Import Base BMap Str M_Names M_Path M_Line M_Source M_Symbol M_Collector M_Object S_Source S_Symbol S_Collector.

(** What a line record and an INLINE record of object [o] say. *)
Definition file_text (o : Obj) (i : N) : option str := nthN (sm_ids (ob_files o)) i.
Definition says_line (o : Obj) (l : Line) : N * N * N * option str :=
  (l_rva l, l_len l, l_num l, file_text o (l_file l)).
Definition says_inline (o : Obj) (x : Site * list Range) : N * N * option str * option str * list Range :=
  (s_depth (fst x), s_line (fst x), file_text o (s_file (fst x)), nthN (ob_origins o) (s_origin (fst x)), snd x).
(** Record [s] of [o] and record [s'] of [o'] have the same line table and the
    same INLINE records. *)
Definition same_source (o : Obj) (s : Symbol) (o' : Obj) (s' : Symbol) : Prop :=
  map (says_line o) (ls_lines (sy_source s)) = map (says_line o') (ls_lines (sy_source s')) /\
  Permutation (map (says_inline o) (ls_inlines (sy_source s))) (map (says_inline o') (ls_inlines (sy_source s'))).
(** Same first line of the record; [m] is its 'm' marker. *)
Definition same_head (m : bool) (s s' : Symbol) : Prop :=
  sy_name s' = sy_name s /\ sy_public s' = sy_public s /\ sy_multiple s' = m /\ sy_synthetic s' = sy_synthetic s /\
  sy_rva s' = sy_rva s /\ sy_len s' = sy_len s /\ sy_param s' = sy_param s.

(** Every reference of a FUNC record resolves; no INLINE call site twice. *)
Definition refs_ok (o : Obj) : Prop :=
  forall k s, nfind k (ob_syms o) = Some s -> sy_public s = false ->
    (forall l, In l (ls_lines (sy_source s)) -> file_text o (l_file l) <> None) /\
    (forall x, In x (ls_inlines (sy_source s)) -> file_text o (s_file (fst x)) <> None /\ nthN (ob_origins o) (s_origin (fst x)) <> None) /\
    bsorted site_lt (ls_inlines (sy_source s)).
(** The file table of a freshly processed object: each path once, numbered like
    its shown text. *)
Definition files_ok (shown : str -> str) (f : SrcMap) : Prop :=
  exists P, NoDup P /\ sm_ids f = map shown P /\ NoDup (map fst (sm_ref f)) /\
    forall p i, In (p, i) (sm_ref f) <-> nthN P i = Some p.
(** After merges some files may not be in the path index any more. *)
Definition files_some (shown : str -> str) (f : SrcMap) : Prop :=
  exists P, sm_ids f = map shown P /\ NoDup (map fst (sm_ref f)) /\
    forall p i, In (p, i) (sm_ref f) -> nthN P i = Some p.
Definition obj_ok (shown : str -> str) (o : Obj) : Prop :=
  filed (ob_syms o) /\ refs_ok o /\ files_ok shown (ob_files o).
Definition obj_merged (shown : str -> str) (o : Obj) : Prop :=
  filed (ob_syms o) /\ refs_ok o /\ files_some shown (ob_files o).

(** Any order of iterating over a hash map. *)
Definition iterates (iter : list (str * N) -> list (str * N)) : Prop := forall l, Permutation (iter l) l.

(** The record at address [k] after merging [r] into [l]; [m] is the result. *)
Definition merged_at (l r m : Obj) (k : N) : Prop :=
  match nfind k (ob_syms l), nfind k (ob_syms r) with
  | None, None => nfind k (ob_syms m) = None
  | Some a, None => nfind k (ob_syms m) = Some a
  | None, Some b =>
      if sy_public b
      then (sp_inside (ob_syms m) k -> nfind k (ob_syms m) = None) /\
           (~ sp_inside (ob_syms m) k -> nfind k (ob_syms m) = Some b)
      else exists s, nfind k (ob_syms m) = Some s /\ same_head (sy_multiple b) b s /\ same_source r b m s
  | Some a, Some b =>
      if sy_public b
      then (sp_inside (ob_syms m) k -> nfind k (ob_syms m) = Some a) /\
           (~ sp_inside (ob_syms m) k ->
              if sy_synthetic b then nfind k (ob_syms m) = Some a
              else if sy_synthetic a then nfind k (ob_syms m) = Some b
              else exists s, nfind k (ob_syms m) = Some s /\ sy_source s = sy_source a /\
                   ((sy_name a = sy_name b /\ same_head (sy_multiple a) a s) \/ (sy_name a <> sy_name b /\ same_head true a s)))
      else if sy_public a
           then exists s, nfind k (ob_syms m) = Some s /\ same_head true b s /\ same_source r b m s
           else exists s, nfind k (ob_syms m) = Some s /\ same_head true a s /\ sy_source s = sy_source a
  end.

(** Larger and smaller object of a merge (the second one on ties). *)
Definition larger (x y : Obj) : Obj := if lenN (ob_syms y) <? lenN (ob_syms x) then x else y.
Definition smaller (x y : Obj) : Obj := if lenN (ob_syms y) <? lenN (ob_syms x) then y else x.

(** Merging one after the other. *)
Fixpoint merge_all (ck : bool) (iter : list (str * N) -> list (str * N)) (acc : Obj) (os : list Obj) : res Obj :=
  match os with
  | [] => Ok acc
  | o :: t => m <- merge_objects ck iter acc o ;; merge_all ck iter m t
  end.
(** The accumulated object has strictly more records than the next, or no file
    of it is missing from its path index. *)
Definition all_indexed (o : Obj) : Prop := (length (sm_ids (ob_files o)) <= length (sm_ref (ob_files o)))%nat.
Fixpoint chained (ck : bool) (iter : list (str * N) -> list (str * N)) (acc : Obj) (os : list Obj) : Prop :=
  match os with
  | [] => True
  | o :: t => (lenN (ob_syms o) < lenN (ob_syms acc) \/ all_indexed acc) /\
              forall m, merge_objects ck iter acc o = Ok m -> chained ck iter m t
  end.
(** The same paths, in any order. *)
Definition same_paths (x y : Obj) : Prop :=
  forall p, In p (map fst (sm_ref (ob_files x))) <-> In p (map fst (sm_ref (ob_files y))).
(** The text of file [j] of the merge [m] of the smaller [r] into [l], for file
    [i] of [r]: a file without a path in the index becomes the first file of [l]. *)
Definition indexed (o : Obj) (i : N) : Prop := exists p, In (p, i) (sm_ref (ob_files o)).
Definition file_after (l r m : Obj) (i j : N) : Prop :=
  (indexed r i \/ sm_ids (ob_files l) = [] -> file_text m j = file_text r i) /\
  (~ indexed r i -> sm_ids (ob_files l) <> [] -> file_text m j = file_text l 0) /\ file_text m j <> None.
Definition moved_line (l r m : Obj) (a b : Line) : Prop :=
  l_rva b = l_rva a /\ l_len b = l_len a /\ l_num b = l_num a /\ file_after l r m (l_file a) (l_file b).
Definition moved_inline (l r m : Obj) (x y : Site * list Range) : Prop :=
  s_depth (fst y) = s_depth (fst x) /\ s_line (fst y) = s_line (fst x) /\ snd y = snd x /\
  nthN (ob_origins m) (s_origin (fst y)) = nthN (ob_origins r) (s_origin (fst x)) /\ file_after l r m (s_file (fst x)) (s_file (fst y)).
(** The record [s'] of [m] is the record [s] of [r] with such files. *)
Definition moved_source (l r m : Obj) (s s' : Symbol) : Prop :=
  Forall2 (moved_line l r m) (ls_lines (sy_source s)) (ls_lines (sy_source s')) /\
  forall y, In y (ls_inlines (sy_source s')) -> exists x, In x (ls_inlines (sy_source s)) /\ moved_inline l r m x y.
(** Everything but the files is that of the FUNC record of one of [os]. *)
Definition says_place (l : Line) : N * N * N := (l_rva l, l_len l, l_num l).
Definition places_from_one_of (os : list Obj) (m : Obj) : Prop :=
  forall k s, nfind k (ob_syms m) = Some s -> sy_public s = false ->
    exists o s0, In o os /\ nfind k (ob_syms o) = Some s0 /\ sy_public s0 = false /\ sy_name s = sy_name s0 /\ sy_len s = sy_len s0 /\
      map says_place (ls_lines (sy_source s)) = map says_place (ls_lines (sy_source s0)) /\
      forall y, In y (ls_inlines (sy_source s)) -> exists x, In x (ls_inlines (sy_source s0)) /\
        s_depth (fst y) = s_depth (fst x) /\ s_line (fst y) = s_line (fst x) /\ snd y = snd x /\
        nthN (ob_origins m) (s_origin (fst y)) = nthN (ob_origins o) (s_origin (fst x)).
(** Where a FUNC record of a merge of several objects comes from. *)
Definition from_one_of (os : list Obj) (m : Obj) : Prop :=
  forall k s, nfind k (ob_syms m) = Some s -> sy_public s = false ->
    exists o s0, In o os /\ nfind k (ob_syms o) = Some s0 /\ sy_public s0 = false /\
      sy_name s = sy_name s0 /\ sy_len s = sy_len s0 /\ same_source o s0 m s.
(** The CFI text put together from two texts. *)
Definition both_stacks (a b c : str) : Prop :=
  (a = [] /\ c = b) \/ (b = [] /\ c = a) \/ (a <> [] /\ b <> [] /\ ((exists t, a = t ++ [10]) /\ c = a ++ b \/ (~ (exists t, a = t ++ [10]) /\ c = a ++ 10 :: b))).
(** Same records up to the numbering of files. *)
Definition rec_equiv (m m' : Obj) (a b : option Symbol) : Prop :=
  match a, b with
  | None, None => True
  | Some s, Some s' => same_head (sy_multiple s) s s' /\ (if sy_public s then sy_source s = sy_source s' else same_source m s m' s')
  | _, _ => False
  end.
(** The record of something seen twice: a FUNC gets the 'm' marker. *)
Definition seen_twice (s : Symbol) : Symbol :=
  if sy_public s then s
  else mkSymbol (sy_name s) false true (sy_synthetic s) (sy_rva s) (sy_len s) (sy_param s) (sy_source s).
(** A FUNC record of debug info at [k]. *)
Definition real_func (o : Obj) (k : N) (s : Symbol) : Prop :=
  nfind k (ob_syms o) = Some s /\ sy_public s = false /\ sy_synthetic s = false.

(** *** Processing one object *)
(** Exception tables hold 32-bit addresses. *)
Definition exceptions_u32 (p : Parsed) : Prop :=
  forall xs b e, pa_exceptions p = Some xs -> In (Some (b, e)) xs -> b < two32 /\ e < two32.
(** The publics of the minidebuginfo embedded in the file. *)
Definition embedded (p : Parsed) (pubs : list Pub) : Prop := exists a b, pa_unxz p a b = Some (Some pubs).
Definition all_publics (Q : Pub -> Prop) (p : Parsed) : Prop :=
  Forall Q (pa_publics p) /\ forall pubs, embedded p pubs -> Forall Q pubs.
(** A minidebuginfo section lies within the file. *)
Definition debugdata_inside (p : Parsed) : Prop :=
  forall a n, In (Some (lit ".gnu_debugdata"), a, n) (pa_secs p) -> a + n <= pa_size p /\ pa_size p < two64.
(** Everything ends below 2^32-1. *)
Definition room (a n : N) : Prop := a + n + 1 < two32.
Definition addresses_fit (p : Parsed) (fs : list (option Fun)) : Prop :=
  Forall (fun f => room (f_addr f mod two32) (f_size f mod two32)) (readable fs) /\
  (forall xs b e, pa_exceptions p = Some xs -> In (Some (b, e)) xs -> e + 1 < two32) /\
  all_publics (fun q => room (pb_addr q mod two32) (pb_size q mod two32)) p.
(** Module named in placeholders; path shown for a path. *)
Definition ph_name (main_name : str) (pe_name : option str) : str := match pe_name with Some n => n | None => main_name end.
Definition run_shown (e : RunEnv) (p : str) : str := match (match re_map e p with Ok r => r | _ => None end) with Some q => q | None => p end.
(** No rule asks for the digest of a directory: the mapping panics for no source
    file of the object. *)
Definition mapping_reads (e : RunEnv) (pl : Platform) (main : Parsed) (fs : list (option Fun)) : Prop :=
  forall r, In r (flat_map fun_refs (readable fs)) -> is_panic (re_map e (env_path (ce_src (run_cenv e pl main)) r)) = false.
(** The same run with a mapping that leaves a path alone instead of panicking. *)
Definition tamed (e : RunEnv) : RunEnv :=
  mkRunEnv (re_ck e) (re_host e) (re_canon e) (fun p => if is_panic (re_map e p) then Ok None else re_map e p) (re_dm e) (re_inl e) (re_sort e).
(** An object as processed from a file, with the path mapping [shown]. *)
Definition fresh (shown : str -> str) (o : Obj) : Prop :=
  exists e pl main mn pe pn, sort_perm (re_sort e) /\
    (forall fs, pa_functions main = Some fs -> consistent (flat_map fun_refs (readable fs))) /\ exceptions_u32 main /\
    (forall p, run_shown e p = shown p) /\ from_object e pl main mn pe pn = Ok o.
(** The record at [k] of a processed object. *)
Definition processed_at (e : RunEnv) (pl : Platform) (main : Parsed) (main_name ph_name : str) (fs : list (option Fun))
    (mini : list Pub) (k : N) (r : option Symbol) : Prop :=
  match funcs_at k (readable fs), r with
  | f :: rest, Some s => exists s0, from_fun (run_cenv e pl main) f (more rest) s0 /\ pub_kept pl (re_dm e) k (pa_publics main ++ mini) s0 s
  | _ :: _, None => False
  | [], None => True
  | [], Some s =>
      (exists xs b s0, pa_exceptions main = Some xs /\ In (Some (k, b)) xs /\ k <= b /\ placeholder_of ph_name k b s0 /\
         pub_kept pl (re_dm e) k (pa_publics main ++ mini) s0 s) \/
      pub_new pl (re_dm e) k (pa_publics main ++ mini) s \/
      (exists name, synthetic_at k name s)
  end.
