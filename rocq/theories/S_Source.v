(** Specification of file and origin numbering. *)
From Verif Require Import Base Str Utf8 M_Names M_Path M_Source.

(** The source path of a location and the text shown for it. *)
Definition sp_shown (e : SrcEnv) (path : str) : str :=
  match se_map e path with Some q => q | None => path end.

(** Equal addresses and lengths of the three strings mean equal strings. *)
Definition consistent (rs : list FileRef) : Prop :=
  forall r r', In r rs -> In r' rs ->
    fr_cptr r = fr_cptr r' -> lenN (fr_cdir r) = lenN (fr_cdir r') ->
    fr_dptr r = fr_dptr r' -> lenN (encode (fr_dir r)) = lenN (encode (fr_dir r')) ->
    fr_nptr r = fr_nptr r' -> lenN (encode (fr_name r)) = lenN (encode (fr_name r')) ->
    fr_cdir r = fr_cdir r' /\ fr_dir r = fr_dir r' /\ fr_name r = fr_name r'.

(** Looking up a whole history of locations: the numbers given out and the
    final state. *)
Fixpoint lookups (e : SrcEnv) (rs : list FileRef) (s : Src) : res (list N * Src) :=
  match rs with
  | [] => Ok ([], s)
  | r :: t =>
      ' p <- src_lookup e r s ;;
      ' q <- lookups e t (snd p) ;;
      Ok (fst p :: fst q, snd q)
  end.

(** Asking for a whole history of inlined function names. *)
Fixpoint origins (d : Demangler) (ns : list Name) (o : Orig) : list N * Orig :=
  match ns with
  | [] => ([], o)
  | n :: t =>
      let '(i, o1) := orig_get_id d n o in
      let '(is, o2) := origins d t o1 in (i :: is, o2)
  end.

(** A text on exactly one line, and with something visible on it. *)
Definition one_line (s : str) : Prop := exists body, s = body ++ [10] /\ ~ In 10 body.
Definition visible (s : str) : Prop := exists c, In c s /\ is_ws c = false.
