(** What a reader of a symbol file finds for an address of a function. *)
From Verif Require Import Base Str M_Names M_Path M_Source M_Symbol M_Collector M_Object S_Source S_Collector S_Format.

(** The INLINE and line records at the head of a list of records. *)
Fixpoint body (rs : list Rec) : list Rec :=
  match rs with
  | RInline d l f o rg :: t => RInline d l f o rg :: body t
  | RLine a n l f :: t => RLine a n l f :: body t
  | _ => []
  end.
(** The FUNC records with address [k], each with the records that belong to it. *)
Fixpoint functions_at (k : N) (rs : list Rec) : list (Rec * list Rec) :=
  match rs with
  | [] => []
  | RFunc m a n p name :: t => if a =? k then (RFunc m a n p name, body t) :: functions_at k t else functions_at k t
  | _ :: t => functions_at k t
  end.
(** The names given to a number. *)
Fixpoint file_names (i : N) (rs : list Rec) : list str :=
  match rs with
  | [] => []
  | RFile n s :: t => if n =? i then s :: file_names i t else file_names i t
  | _ :: t => file_names i t
  end.
Fixpoint origin_names (i : N) (rs : list Rec) : list str :=
  match rs with
  | [] => []
  | ROrigin n s :: t => if n =? i then s :: origin_names i t else origin_names i t
  | _ :: t => origin_names i t
  end.
Definition within (a : N) (p : N * N) : bool := (fst p <=? a) && (a <? fst p + snd p).
Definition line_covers (a : N) (r : Rec) : bool := match r with RLine b n _ _ => within a (b, n) | _ => false end.
Definition inline_covers (a : N) (r : Rec) : bool := match r with RInline _ _ _ _ rg => existsb (within a) rg | _ => false end.
Definition has_depth (d : N) (r : Rec) : bool := match r with RInline e _ _ _ _ => e =? d | _ => false end.

(** An inlined call: the inlined function, and where it is called. *)
Record Frame := mkFrame { fm_function : str; fm_line : N; fm_file : str }.
Definition read_frame (rs : list Rec) (r : Rec) : option Frame :=
  match r with
  | RInline _ l f o _ =>
      match file_names f rs, origin_names o rs with [p], [n] => Some (mkFrame n l p) | _, _ => None end
  | _ => None
  end.
(** One record for each depth from [d] on. *)
Fixpoint read_stack (rs : list Rec) (d : N) (n : nat) (recs : list Rec) : option (list Frame) :=
  match n with
  | O => Some []
  | S n =>
      match filter (has_depth d) recs with
      | [r] => match read_frame rs r, read_stack rs (d + 1) n recs with Some f, Some l => Some (f :: l) | _, _ => None end
      | _ => None
      end
  end.

(** Name of the function at [k]; inlined calls at [a], outermost first; source
    line at [a] (Some None: there is none). None means that the file is
    ambiguous or has dangling numbers. *)
Definition read_name (rs : list Rec) (k : N) : option str :=
  match functions_at k rs with [(RFunc _ _ _ _ name, _)] => Some name | _ => None end.
Definition read_inlines (rs : list Rec) (k a : N) : option (list Frame) :=
  match functions_at k rs with
  | [(_, b)] => let c := filter (inline_covers a) b in read_stack rs 0 (length c) c
  | _ => None
  end.
Definition read_line (rs : list Rec) (k a : N) : option (option (N * str)) :=
  match functions_at k rs with
  | [(_, b)] =>
      match filter (line_covers a) b with
      | [] => Some None
      | [RLine _ _ n f] => match file_names f rs with [p] => Some (Some (n, p)) | _ => None end
      | _ => None
      end
  | _ => None
  end.

(** What the debug info says, in the words of the symbol file. *)
Definition frame_text (e : SrcEnv) (dm : Demangler) (fr : Name * DLine) : Frame :=
  mkFrame (origin_text (demangle_and_sanitize dm (fst fr))) (d_line (snd fr) mod two32) (sp_shown e (env_path e (d_file (snd fr)))).
Definition line_text (e : SrcEnv) (l : DLine) : N * str := (d_line l mod two32, sp_shown e (env_path e (d_file l))).
(** The records read back from the file written for [o]. *)
Definition written (extra : list str) (o : Obj) (rs : list Rec) : Prop := exists text, fmt_object extra o = Ok text /\ parse_file text = Some rs.
