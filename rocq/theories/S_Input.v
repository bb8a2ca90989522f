(** Specification of the choice of objects and files. *)
From Verif Require Import Base Str M_Path S_Path M_Source M_Symbol M_Object M_Fs M_Cache S_Fs M_Store M_Input.

(** *** Fat files *)
(** The object to dump: the only one, or the first readable one of the
    requested architecture. *)
Inductive chosen (arch : N) : list (option (N * Parsed)) -> Parsed -> Prop :=
| ch_only a p : chosen arch [Some (a, p)] p
| ch_first l1 l2 p : length (l1 ++ l2) <> 0%nat -> (forall q, ~ In (Some (arch, q)) l1) -> chosen arch (l1 ++ Some (arch, p) :: l2) p.

(** *** Names *)
(** [stem] is the name without its extension; a leading dot starts no extension. *)
Definition stem_of (n stem : str) : Prop :=
  (exists e, n = stem ++ 46 :: e /\ stem <> [] /\ ~ In 46 e) \/ (n = stem /\ forall a e, n = a ++ 46 :: e -> a = []).
(** What stands behind the last backslash. *)
Definition after_backslash (s t : str) : Prop :=
  ~ In 92 t /\ (s = t \/ exists u, s = u ++ 92 :: t).

(** *** Reading *)
(** Content of a file that is no directory: the bytes or, for an archive, the
    file it was made from. *)
Definition content (cab : list N -> option Cab) (fs : FS) (l : Loc) (name : str) (d : list N) : Prop :=
  exists raw, fs_get fs l = Some (NFile raw) /\ unpacked cab raw name d.
Definition no_file (fs : FS) (l : Loc) : Prop := forall d, fs_get fs l <> Some (NFile d).

(** *** The PE of a PDB *)
(** Extensions in the order tried, with the one the file is reported under. *)
Definition pe_exts : list (str * str) :=
  [(lit "dll", lit "dll"); (lit "dl_", lit "dll"); (lit "exe", lit "exe"); (lit "ex_", lit "exe")].
(** In [dir], the file [name] is a PE with debug id [id], whose bytes are [d]. *)
Definition is_pe (cab : list N -> option Cab) (ps : Parsers) (fs : FS) (dir : Loc) (name : str) (id : N) (d : list N) : Prop :=
  content cab fs (name :: dir) name d /\ exists pe, ps_pe ps d = Some pe /\ pf_id pe = id.
(** There is a file of that name, it can be read and is no such PE, or there is
    no file. *)
Definition no_pe (cab : list N -> option Cab) (ps : Parsers) (fs : FS) (dir : Loc) (name : str) (id : N) : Prop :=
  no_file fs (name :: dir) \/ exists d, content cab fs (name :: dir) name d /\ forall pe, ps_pe ps d = Some pe -> pf_id pe <> id.

(** *** The PDB of a PE *)
(** The last piece of the path [s] names the file [n]. *)
Definition last_name (s n : str) : Prop := proper n /\ (s = n \/ exists d, s = d ++ 47 :: n).
(** No piece of the path is a name. *)
Definition nameless (s : str) : Prop := forall p, In p (sp_pieces s) -> p = [] \/ p = lit "." \/ p = lit "..".
(** Backslashes as slashes. *)
Definition slashed_path (s t : str) : Prop := Forall2 (fun c d => (c = 92 /\ d = 47) \/ (c <> 92 /\ d = c)) s t.
(** Where the PDB called [n] is looked for, with the names it may have there:
    the recorded path, the directory of the PE, also compressed, and the
    directory above the working directory. *)
Definition pdb_places (cwd dir : Loc) (recorded n packed : str) : list (Loc * str) :=
  [(locate cwd recorded, n); (n :: dir, n); (packed :: dir, packed); (n :: tl cwd, n)].
(** The first place where there is a file. *)
Definition first_file (fs : FS) (places : list (Loc * str)) (l : Loc) (name : str) : Prop :=
  exists before after, places = before ++ (l, name) :: after /\ Forall (fun p => no_file fs (fst p)) before /\ ~ no_file fs l.

(** *** Bundles *)
(** [n] is the only entry of the directory. *)
Definition only_entry (fs : FS) (dir : Loc) (n : str) : Prop := forall m, fs_get fs (m :: dir) <> None <-> m = n.
Definition dwarf_dir (l : Loc) : Loc := lit "DWARF" :: lit "Resources" :: lit "Contents" :: l.

(** *** Listing architectures *)
(** Names separated by ", ". *)
Inductive listed : list str -> str -> Prop :=
| li_none : listed [] []
| li_one a : listed [a] a
| li_more a b l t : listed (b :: l) t -> listed (a :: b :: l) (a ++ lit ", " ++ t).

(** Storing one module after the other until one fails. *)
Definition store_seq (os : Os) (extra : list str) (out : Output) (ck : bool) (l : list Obj) (w : World) : World * res unit :=
  fold_left (fun r o => andThen r (store os extra out ck o)) l (w, Ok tt).
