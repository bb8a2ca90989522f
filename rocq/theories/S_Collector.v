(** Specification of function collection: what the debug info says at an
    address, independently of how it is collected. *)
From Verif Require Import Base Sort BMap Str M_Names M_Path M_Line S_Line M_Source S_Source M_Symbol M_Collector.

(** The functions the reader could read, and those that start at a 32-bit
    address (address 0 means "no address"). *)
Fixpoint readable (fs : list (option Fun)) : list Fun :=
  match fs with [] => [] | Some f :: t => f :: readable t | None :: t => readable t end.
Definition funcs_at (k : N) (fs : list Fun) : list Fun :=
  filter (fun f => negb (f_addr f =? 0) && (f_addr f mod two32 =? k)) fs.

(** All source locations of a function tree. *)
Fixpoint fun_refs (f : Fun) : list FileRef :=
  match f with mkFun _ _ _ lines inls => map d_file lines ++ flat_map fun_refs inls end.

(** An unstable sort returns its input in some order. *)
Definition sort_perm (us : list IR -> list IR) : Prop := forall l, Permutation (us l) l.
(** The unstable sort of inline ranges: some permutation sorted by start. *)
Definition sorts_ranges (us : list IR -> list IR) : Prop :=
  forall l, Permutation (us l) l /\ StronglySorted (fun a b => i_start a <= i_start b) (us l).

(** Address ranges of line records; a record without size covers one byte. *)
Definition dl_size (l : DLine) : N := match d_size l with Some s => s | None => 1 end.
Definition dl_end (l : DLine) : N := d_addr l + dl_size l.
Definition in_dl (a : N) (l : DLine) : Prop := d_addr l <= a < dl_end l.
Definition covers (g : Fun) (a : N) : Prop := exists l, In l (f_lines g) /\ in_dl a l.

(** The inline stack at an address: (inlined function, line of the call) from
    the outside in, and the innermost line. *)
Inductive frames : Fun -> N -> list (Name * DLine) -> DLine -> Prop :=
| fr_self f a l : In l (f_lines f) -> in_dl a l -> (forall g, In g (f_inl f) -> ~ covers g a) -> frames f a [] l
| fr_call f g a l st lf : In l (f_lines f) -> in_dl a l -> In g (f_inl f) -> frames g a st lf ->
    frames f a ((f_name g, l) :: st) lf.

(** Well-formed debug info: lines non-empty, sorted, disjoint, below 2^32;
    sibling inlined functions disjoint; inlined lines nested in one caller line. *)
Definition lines_ok (ls : list DLine) : Prop :=
  StronglySorted (fun a b => dl_end a <= d_addr b) ls /\
  Forall (fun l => d_addr l < dl_end l /\ dl_end l < two32) ls.
Definition nested (g f : Fun) : Prop :=
  forall x, In x (f_lines g) -> exists l, In l (f_lines f) /\ d_addr l <= d_addr x /\ dl_end x <= dl_end l.
Definition disjoint (g h : Fun) : Prop := forall a, ~ (covers g a /\ covers h a).
Inductive well_formed : Fun -> Prop :=
| wf_fun f : lines_ok (f_lines f) -> Forall (fun g => nested g f) (f_inl f) ->
    ForallOrdPairs disjoint (f_inl f) -> Forall well_formed (f_inl f) -> well_formed f.

(** Same line number and path. *)
Definition same_info (e : SrcEnv) (a b : DLine) : Prop :=
  d_line a mod two32 = d_line b mod two32 /\ env_path e (d_file a) = env_path e (d_file b).
(** Successive lines with the same line number and path leave no gap. *)
Definition no_equal_gap (e : SrcEnv) (ls : list DLine) : Prop :=
  forall pre x y post, ls = pre ++ x :: y :: post -> same_info e x y -> dl_end x = d_addr y.
Inductive no_gaps_inside (e : SrcEnv) : Fun -> Prop :=
| ng_fun f : Forall (fun g => no_equal_gap e (f_lines g)) (f_inl f) -> Forall (no_gaps_inside e) (f_inl f) ->
    no_gaps_inside e f.

(** Where a line record is due: the address belongs to the line of a function
    itself, not to a call inlined there; it does not continue what the address
    before it has; and it is not the start of a line that repeats the line the
    function had just before it, inlined calls between them excepted. *)
Inductive starts (same : DLine -> DLine -> Prop) : Fun -> N -> DLine -> Prop :=
| st_own f a l : frames f a [] l -> ~ (1 <= a /\ frames f (a - 1) [] l) ->
    ~ (a = d_addr l /\ exists pre l' post, f_lines f = pre ++ l' :: l :: post /\ same l' l /\ frames f (dl_end l' - 1) [] l') ->
    starts same f a l
| st_inl f g a l : In g (f_inl f) -> starts same g a l -> starts same f a l.

(** Functions inlined somewhere in a function. *)
Inductive below : Fun -> Fun -> Prop :=
| bl_here f g : In g (f_inl f) -> below f g
| bl_in f g h : In g (f_inl f) -> below g h -> below f h.

(** Debug info whose inlined lines may lie anywhere, also across the lines of
    the outermost function; otherwise as above. *)
Definition loosely_formed (f : Fun) : Prop :=
  lines_ok (f_lines f) /\ ForallOrdPairs disjoint (f_inl f) /\ Forall well_formed (f_inl f).
(** A call that begins before the end of line [k] runs into line [l]. *)
Definition runs_into (f : Fun) (k l : DLine) : Prop :=
  exists g x, In g (f_inl f) /\ In x (f_lines g) /\ d_addr x < dl_end k /\ d_addr l < dl_end x.
(** Lines that are not passed over: the first one, and after each of them the
    next one that no call beginning before its end runs into. *)
Inductive kept (f : Fun) : DLine -> Prop :=
| kp_first l post : f_lines f = l :: post -> kept f l
| kp_next k l pre mid post : kept f k -> f_lines f = pre ++ k :: mid ++ l :: post ->
    Forall (runs_into f k) mid -> ~ runs_into f k l -> kept f l.

(** Shown names of a location and of an inlined function in finished tables. *)
Definition file_is (e : SrcEnv) (s : Src) (i : N) (r : FileRef) : Prop :=
  nthN (sf_ids s) i = Some (sp_shown e (env_path e r)).
Definition origin_is (dm : Demangler) (o : Orig) (i : N) (n : Name) : Prop :=
  nthN (og_names o) i = Some (demangle_and_sanitize dm n).
(** A call site describing one frame at a depth. *)
Definition site_is (e : CEnv) (s : Src) (o : Orig) (depth : N) (fr : Name * DLine) (x : Site) : Prop :=
  s_depth x = depth /\ s_line x = d_line (snd fr) mod two32 /\
  file_is (ce_src e) s (s_file x) (d_file (snd fr)) /\ origin_is (ce_dm e) o (s_origin x) (fst fr).
Fixpoint sites_are (e : CEnv) (s : Src) (o : Orig) (depth : N) (st : list (Name * DLine)) (xs : list Site) : Prop :=
  match st, xs with
  | [], [] => True
  | fr :: st, x :: xs => site_is e s o depth fr x /\ sites_are e s o (depth + 1) st xs
  | _, _ => False
  end.
(** Ranges written for a site. *)
Definition ranges_of (x : Site) (ls : Lines) : list Range :=
  flat_map (fun kv => if sp_site_eqb (fst kv) x then snd kv else []) (ls_inlines ls).
Definition site_dec (x y : Site) : {x = y} + {x <> y}.
Proof. decide equality; apply N.eq_dec. Defined.

(** The FUNC record of a function. *)
Definition from_fun (e : CEnv) (f : Fun) (multiple : bool) (sym : Symbol) : Prop :=
  sy_name sym = demangle (ce_dm e) (f_name f) /\ sy_public sym = false /\ sy_synthetic sym = false /\
  sy_multiple sym = multiple /\ sy_rva sym = f_addr f mod two32 /\ sy_len sym = f_size f mod two32 /\ sy_param sym = 0.
Definition more {A} (l : list A) : bool := match l with [] => false | _ => true end.

(** All line records of a tree; they fit in 32 bits. *)
Fixpoint tree_lines (f : Fun) : list DLine :=
  match f with mkFun _ _ _ lines inls => lines ++ flat_map tree_lines inls end.
Definition fits (f : Fun) : Prop := Forall (fun l => dl_end l < two32) (tree_lines f).
Definition addr64 (f : Fun) : Prop := Forall (fun l => d_addr l < two64) (tree_lines f).

(** Inlined lines at nesting level [d]: caller, inlined function, line. *)
Fixpoint calls_at (d : nat) (f : Fun) : list (Fun * Fun * DLine) :=
  match d with
  | O => flat_map (fun g => map (pair (f, g)) (f_lines g)) (f_inl f)
  | S d => flat_map (calls_at d) (f_inl f)
  end.
(** An [add_inline] call written for an inlined line. *)
Definition call_for (e : CEnv) (s : Src) (o : Orig) (depth : N) (c : Fun * Fun * DLine) (x : Site * Range) : Prop :=
  let '(f, g, l) := c in
  (exists cl, In cl (f_lines f) /\ site_is e s o depth (f_name g, cl) (fst x)) /\
  r_rva (snd x) = d_addr l mod two32 /\ r_len (snd x) = dl_size l mod two32.
Fixpoint inline_calls (is : list Ins) : list (Site * Range) :=
  match is with
  | [] => []
  | InsLine _ _ _ :: t => inline_calls t
  | InsInline s r :: t => (s, r) :: inline_calls t
  end.

(** Without inlines: the last line with a number that starts at or before [a]. *)
Definition flat_line (a : N) (ls : list DLine) : option DLine :=
  last_opt (filter (fun l => negb (d_line l =? 0) && (d_addr l <=? a)) ls).

(** Same line number and path, as a test; the lines that start a run of lines
    with the same number and path, after the line [prev]. *)
Definition same_place (e : SrcEnv) (a b : DLine) : bool :=
  (d_line a =? d_line b) && str_eqb (env_path e (d_file a)) (env_path e (d_file b)).
Fixpoint run_starts (e : SrcEnv) (prev : option DLine) (ls : list DLine) : list DLine :=
  match ls with
  | [] => []
  | l :: t =>
      if match prev with Some p => same_place e p l | None => false end then run_starts e prev t
      else l :: run_starts e (Some l) t
  end.
(** A line record written for a line of the debug info. *)
Definition line_is (e : SrcEnv) (s : Src) (d : DLine) (l : Line) : Prop :=
  l_rva l = d_addr d /\ l_num l = d_line d /\ file_is e s (l_file l) (d_file d).

(** A whole object: its functions collected into empty tables. *)
Definition collected (e : CEnv) (fs : list (option Fun)) (m : Symbols) (s : Src) (o : Orig) : Prop :=
  collect_functions e fs ([], src_new, orig_new) = Ok (m, s, o).
