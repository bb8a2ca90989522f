(** Specification of file system changes. *)
From Verif Require Import Base Str M_Path S_Path M_Fs.

(** A disk that is not full. *)
Definition healthy (os : Os) : Prop := forall d, os_disk os d = d.
(** [fs'] is [fs] with some missing directories on the way to [l] created. *)
Definition dirs_added (fs fs' : FS) (l : Loc) : Prop :=
  forall x, fs_get fs' x = fs_get fs x \/ (fs_get fs x = None /\ fs_get fs' x = Some NDir /\ exists k, l = k ++ x).

(** Everything lies in directories. *)
Definition tree (fs : FS) : Prop := forall n up x, fs_get fs (n :: up) = Some x -> fs_get fs up = Some NDir.

(** *** Cabinet archives *)
(** The name a path gives to its file: the last piece that is neither empty nor
    a dot. *)
Definition names_file (p n : str) : Prop :=
  n <> lit ".." /\ exists l, filter (fun x => negb (str_eqb x []) && negb (str_eqb x (lit "."))) (sp_pieces p) = l ++ [n].
(** Extensions by their first two letters, with the one of the file inside. *)
Definition packed_exts : list (str * str) := [(lit "pd", lit "pdb"); (lit "dl", lit "dll"); (lit "ex", lit "exe"); (lit "db", lit "dbg")].
(** The archive [n] is made from the file [w]. *)
Inductive made_of : str -> str -> Prop :=
| mo_packed stem p t r : In (p, t) packed_exts -> stem <> [] -> ~ In 46 (p ++ r) -> made_of (stem ++ 46 :: p ++ r) (stem ++ 46 :: t)
| mo_other stem e : stem <> [] -> ~ In 46 e -> (forall p t r, In (p, t) packed_exts -> e <> p ++ r) -> made_of (stem ++ 46 :: e) (stem ++ 46 :: e).
(** The first member of that name; all those before have names. *)
Inductive first_member (n : str) : Cab -> option (list N) -> Prop :=
| fm_here m d t : names_file m n -> first_member n ((m, d) :: t) d
| fm_later m k d t x : names_file m k -> k <> n -> first_member n t x -> first_member n ((m, d) :: t) x.
(** What data stored under the name [n] stands for: itself or, for an archive,
    the file it was made from. *)
Definition unpacked (cab : list N -> option Cab) (raw : list N) (n : str) (d : list N) : Prop :=
  (cab raw = None /\ d = raw) \/
  exists files w, cab raw = Some files /\ made_of n w /\ first_member w files (Some d).
