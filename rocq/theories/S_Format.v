(** A reader for Breakpad symbol files, and the records an object stands for. *)
From Verif Require Import Base BMap Str M_Path M_Line M_Source M_Symbol M_Object S_Line.

(** Records of a symbol file. *)
Inductive Rec :=
| RModule (os cpu id name : str)
| RInfo (text : str)
| RFile (n : N) (name : str)
| ROrigin (n : N) (name : str)
| RFunc (multiple : bool) (addr size param : N) (name : str)
| RInline (depth line file origin : N) (ranges : list (N * N))
| RLine (addr size line file : N)
| RPublic (multiple : bool) (addr param : N) (name : str)
| RStack (text : str).

(** Text up to the first space, and what follows it. *)
Fixpoint token (s : str) : str * option str :=
  match s with
  | [] => ([], None)
  | c :: t => if c =? c_sp then ([], Some t) else let '(w, r) := token t in (c :: w, r)
  end.
(** The next word of a line whose rest must exist. *)
Definition word (s : str) : option (str * str) := match token s with (w, Some r) => Some (w, r) | _ => None end.
Definition obind {A B} (o : option A) (f : A -> option B) : option B := match o with Some a => f a | None => None end.
Definition hex_word (s : str) : option (N * str) := obind (word s) (fun x => obind (read_hex (fst x)) (fun n => Some (n, snd x))).
Definition dec_word (s : str) : option (N * str) := obind (word s) (fun x => obind (read_dec (fst x)) (fun n => Some (n, snd x))).
(** The optional 'm' marker. *)
Definition marker (s : str) : bool * str :=
  match word s with Some (w, r) => if str_eqb w (lit "m") then (true, r) else (false, s) | None => (false, s) end.
(** Space-separated words. *)
Fixpoint words (s : str) : list str :=
  match s with
  | [] => [[]]
  | c :: t => if c =? c_sp then [] :: words t else match words t with w :: ws => (c :: w) :: ws | [] => [[c]] end
  end.
Fixpoint pairs (ws : list str) : option (list (N * N)) :=
  match ws with
  | [] => Some []
  | a :: b :: t => obind (read_hex a) (fun x => obind (read_hex b) (fun y => obind (pairs t) (fun l => Some ((x, y) :: l))))
  | [_] => None
  end.
Definition parse_inline (s : str) : option Rec :=
  match words s with
  | d :: l :: f :: o :: rs =>
      obind (read_dec d) (fun d => obind (read_dec l) (fun l => obind (read_dec f) (fun f => obind (read_dec o) (fun o =>
      obind (pairs rs) (fun rs => match rs with [] => None | _ => Some (RInline d l f o rs) end)))))
  | _ => None
  end.
Definition parse_lineno (s : str) : option Rec :=
  match words s with
  | [a; n; l; f] =>
      obind (read_hex a) (fun a => obind (read_hex n) (fun n => obind (read_dec l) (fun l => obind (read_dec f) (fun f => Some (RLine a n l f)))))
  | _ => None
  end.
(** One line. *)
Definition parse_line (s : str) : option Rec :=
  let '(kind, rest) := match token s with (w, Some r) => (w, r) | (w, None) => (w, []) end in
  if str_eqb kind (lit "MODULE") then
    obind (word rest) (fun a => obind (word (snd a)) (fun b => obind (word (snd b)) (fun c => Some (RModule (fst a) (fst b) (fst c) (snd c)))))
  else if str_eqb kind (lit "INFO") then Some (RInfo rest)
  else if str_eqb kind (lit "FILE") then obind (dec_word rest) (fun n => Some (RFile (fst n) (snd n)))
  else if str_eqb kind (lit "INLINE_ORIGIN") then obind (dec_word rest) (fun n => Some (ROrigin (fst n) (snd n)))
  else if str_eqb kind (lit "INLINE") then parse_inline rest
  else if str_eqb kind (lit "FUNC") then
    let '(m, rest) := marker rest in
    obind (hex_word rest) (fun a => obind (hex_word (snd a)) (fun n => obind (hex_word (snd n)) (fun p => Some (RFunc m (fst a) (fst n) (fst p) (snd p)))))
  else if str_eqb kind (lit "PUBLIC") then
    let '(m, rest) := marker rest in
    obind (hex_word rest) (fun a => obind (hex_word (snd a)) (fun p => Some (RPublic m (fst a) (fst p) (snd p))))
  else if str_eqb kind (lit "STACK") then Some (RStack rest)
  else parse_lineno s.
(** Lines of a text; a last line without line break counts if not empty. *)
Fixpoint lines_of (s : str) : list str :=
  match s with
  | [] => []
  | c :: t => if c =? c_nl then [] :: lines_of t else match lines_of t with l :: ls => (c :: l) :: ls | [] => [[c]] end
  end.
Fixpoint parse_lines (ls : list str) : option (list Rec) :=
  match ls with
  | [] => Some []
  | l :: t => obind (parse_line l) (fun r => obind (parse_lines t) (fun rs => Some (r :: rs)))
  end.
Definition parse_file (s : str) : option (list Rec) := parse_lines (lines_of s).

(** *** The records of an object *)
Definition one_line (s : str) : Prop := ~ In c_nl s.
(** Number of line breaks. *)
Definition breaks (s : str) : nat := length (filter (fun c => c =? c_nl) s).
Definition one_word (s : str) : Prop := one_line s /\ ~ In c_sp s.
Fixpoint number_from {A B} (f : N -> A -> B) (n : N) (l : list A) : list B :=
  match l with [] => [] | x :: t => f n x :: number_from f (n + 1) t end.
Definition code_text (c : str) (pe : option str) : str :=
  lit "CODE_ID " ++ c ++ match pe with Some (x :: t) => c_sp :: x :: t | _ => [] end.
Definition origin_text (name : str) : str := if forallb is_ws name then lit "<name omitted>" else name.
Definition inline_record (x : Site * list Range) : Rec :=
  RInline (s_depth (fst x)) (s_line (fst x)) (s_file (fst x)) (s_origin (fst x)) (map (fun r => (r_rva r, r_len r)) (snd x)).
Definition line_record (l : Line) : Rec := RLine (l_rva l) (l_len l) (l_num l) (l_file l).
(** INLINE records come sorted, then the line records. *)
Definition symbol_records (s : Symbol) (rs : list Rec) : Prop :=
  if sy_public s then rs = [RPublic (sy_multiple s) (sy_rva s) (sy_param s) (sy_name s)]
  else exists inl, Permutation inl (ls_inlines (sy_source s)) /\ StronglySorted sp_inline_le inl /\
       rs = RFunc (sy_multiple s) (sy_rva s) (sy_len s) (sy_param s) (sy_name s)
            :: map inline_record inl ++ map line_record (ls_lines (sy_source s)).
(** Operating system on the MODULE line. *)
Definition os_word (p : Platform) : str := match p with Linux => lit "Linux" | Mac => lit "Mac" | Win => lit "windows" end.
Definition object_records (extra : list str) (stack : list str) (o : Obj) (rs : list Rec) : Prop :=
  exists per, Forall2 (fun kv r => symbol_records (snd kv) r) (ob_syms o) per /\
    rs = RModule (os_word (ob_platform o)) (ob_cpu o) (ob_debug_id o) (ob_name o)
         :: match ob_code_id o with Some c => [RInfo (code_text c (ob_pe_name o))] | None => [] end
         ++ map RInfo extra
         ++ number_from RFile 0 (sm_ids (ob_files o))
         ++ number_from (fun n s => ROrigin n (origin_text s)) 0 (ob_origins o)
         ++ concat per ++ map RStack stack.

(** Names and paths without line breaks. *)
Definition clean_head (o : Obj) : Prop :=
  one_word (ob_cpu o) /\ one_word (ob_debug_id o) /\ one_line (ob_name o) /\
  match ob_code_id o with Some c => one_line c /\ exists t x, c = t ++ [x] /\ is_ws x = false | None => True end /\
  match ob_pe_name o with Some n => one_line n /\ (n = [] \/ exists t x, n = t ++ [x] /\ is_ws x = false) | None => True end.
Definition clean_names (o : Obj) : Prop :=
  Forall one_line (sm_ids (ob_files o)) /\ Forall one_line (ob_origins o) /\ Forall (fun kv => one_line (sy_name (snd kv))) (ob_syms o).
(** The CFI text consists of STACK lines. *)
Definition stack_lines (text : str) (ls : list str) : Prop := lines_of text = map (fun l => lit "STACK " ++ l) ls.
(** Every call site has an address range. *)
Definition has_ranges (s : Symbol) : Prop := sy_public s = false -> Forall (fun x : Site * list Range => snd x <> []) (ls_inlines (sy_source s)).
Definition all_ranges (o : Obj) : Prop := forall k s, nfind k (ob_syms o) = Some s -> has_ranges s.
(** Everything asked of an object to be written. *)
Definition writable (ls : list str) (o : Obj) : Prop :=
  nsorted (ob_syms o) /\ all_ranges o /\ clean_head o /\ clean_names o /\ stack_lines (ob_stack o) ls.

(** Addresses of the FUNC and PUBLIC records, as they come. *)
Fixpoint record_addresses (rs : list Rec) : list N :=
  match rs with
  | [] => []
  | RFunc _ a _ _ _ :: t => a :: record_addresses t
  | RPublic _ a _ _ :: t => a :: record_addresses t
  | _ :: t => record_addresses t
  end.
(** A text that begins with the FUNC or PUBLIC record of address [a]. *)
Definition begins_at (a : N) (text : str) : Prop :=
  exists kind m rest, (kind = lit "FUNC " \/ kind = lit "PUBLIC ") /\ (m = [] \/ m = lit "m ") /\
    text = kind ++ m ++ hex a ++ [c_sp] ++ rest.
