(** Specification of path operations, independent of the model's helpers. *)
From Verif Require Import Base Str Utf8 M_Path.

(** Characters that separate path components on a platform. *)
Definition sp_sep (p : Platform) (c : N) : Prop :=
  match p with Win => c = 47 \/ c = 92 | _ => c = 47 end.

(** An absolute path: starts with a separator, or (Windows) has a drive-like
    first fragment "X:". The empty string is not absolute. *)
Definition sp_abs (p : Platform) (s : str) : Prop :=
  (exists c t, s = c :: t /\ sp_sep p c) \/
  (p = Win /\ exists x t, s = x ++ 58 :: t /\ (forall c, In c x -> ~ sp_sep p c) /\
     match t with [] => True | c :: _ => sp_sep p c end).

(** [core] is [s] without trailing / leading separators. *)
Definition no_trailing (p : Platform) (s core : str) : Prop :=
  exists seps, s = core ++ seps /\ (forall c, In c seps -> sp_sep p c) /\
    (forall x c, core = x ++ [c] -> ~ sp_sep p c).
Definition no_leading (p : Platform) (s core : str) : Prop :=
  exists seps, s = seps ++ core /\ (forall c, In c seps -> sp_sep p c) /\
    (forall c x, core = c :: x -> ~ sp_sep p c).

(** Lexical meaning of a path on a stack of directory names (innermost first). *)
Definition sp_piece (st : list str) (p : str) : list str :=
  if str_eqb p [] then st
  else if str_eqb p [46] then st
  else if str_eqb p [46; 46] then tl st
  else p :: st.
Definition sp_pieces (s : str) : list str := split_on (fun c => c =? 47) s.
Definition sp_abs_unix (s : str) : bool := match s with c :: _ => c =? 47 | [] => false end.
(** Where the path leads, starting from directory [cwd]. *)
Definition sp_walk (cwd : list str) (s : str) : list str :=
  fold_left sp_piece (sp_pieces s) (if sp_abs_unix s then [] else cwd).

(** A name of a directory entry. *)
Definition proper (p : str) : Prop := p <> [] /\ p <> [46] /\ p <> [46; 46] /\ ~ In 47 p.

(** The normal form: optional root and the directory names in order. *)
Definition sp_render (root : bool) (names : list str) : str :=
  (if root then [47] else []) ++ join_with 47 names.

(** A piece without path separators. *)
Definition no_slash (s : str) : Prop := ~ In 47 s.

(** Equality up to ASCII case; the second string is in lower case. *)
Definition ci (e w : str) : Prop := Forall2 (fun c d => c = d \/ (97 <= d <= 122 /\ c + 32 = d)) e w.
(** First component of the store path: compressed-file extensions are restored. *)
Definition sp_base (n b : str) : Prop :=
  (exists stem e o w, stem <> [] /\ n = stem ++ 46 :: e /\
     In (o, w) [(lit "pd_", lit "pdb"); (lit "ex_", lit "exe"); (lit "dl_", lit "dll")] /\ ci e o /\
     b = stem ++ 46 :: w) \/
  ((forall stem e o w, stem <> [] -> n = stem ++ 46 :: e ->
     In (o, w) [(lit "pd_", lit "pdb"); (lit "ex_", lit "exe"); (lit "dl_", lit "dll")] -> ~ ci e o) /\ b = n).
(** Last component: ".sym" replaces ".pdb", otherwise is appended. *)
Definition sp_sym (n f : str) : Prop :=
  (exists b e, n = b ++ 46 :: e /\ ci e (lit "pdb") /\ f = b ++ lit ".sym") \/
  ((forall b e, n = b ++ 46 :: e -> ~ ci e (lit "pdb")) /\ f = n ++ lit ".sym").
