(** Specification of storing. *)
From Verif Require Import Base Str Utf8 M_Path S_Path M_Symbol M_Object M_Fs M_Store.

(** Where the store keeps a module: DIR/BASE/ID/FILE.sym. *)
Definition stored_at (os : Os) (dir : str) (o : Obj) (l : Loc) : Prop :=
  exists base f, sp_base (ob_name o) base /\ sp_sym (ob_name o) f /\ l = f :: ob_debug_id o :: base :: locate (os_cwd os) dir.
(** The destination has the complete text. *)
Definition file_has (os : Os) (text : str) (w : World) (l : Loc) : Prop := fs_get (w_fs w) l = Some (NFile (encode text)).
Definition file_done (os : Os) (text : str) (f : FileOutput) (w w' : World) : Prop :=
  match f with
  | FPath p => file_has os text w' (locate (os_cwd os) p) /\ w_out w' = w_out w /\ w_err w' = w_err w
  | FStdout => w_out w' = w_out w ++ encode text /\ w_err w' = w_err w
  | FStderr => w_err w' = w_err w ++ encode text /\ w_out w' = w_out w
  end.
Definition store_done (os : Os) (text : str) (dir : str) (o : Obj) (w' : World) : Prop :=
  dir <> [] -> exists l, stored_at os dir o l /\ file_has os text w' l.
Definition delivered (os : Os) (text : str) (out : Output) (o : Obj) (w w' : World) : Prop :=
  match out with
  | OFile f => file_done os text f w w'
  | OStore dir => store_done os text dir o w' /\ w_out w' = w_out w /\ w_err w' = w_err w
  | OBoth f dir => store_done os text dir o w' /\ file_done os text f w w'
  end.
(** There is a file with what the disk takes of the text; nothing is missing
    from it but perhaps the end, which fits the buffer of the writer. *)
Definition kept (os : Os) (text : str) (w : World) (l : Loc) : Prop :=
  fs_get (w_fs w) l = Some (NFile (os_disk os (encode text))) /\
  exists k, lenN (encode text) <= N.of_nat k + 8192 /\ firstn k (os_disk os (encode text)) = firstn k (encode text).
(** The locations that may change: the destinations, and directories above the
    one in the store. *)
Definition file_target (os : Os) (out : Output) (l : Loc) : Prop :=
  match out with OFile (FPath p) | OBoth (FPath p) _ => l = locate (os_cwd os) p | _ => False end.
Definition store_target (os : Os) (out : Output) (o : Obj) (l : Loc) : Prop :=
  match out with OStore dir | OBoth _ dir => dir <> [] /\ stored_at os dir o l | OFile _ => False end.
(** A file can be made at [l]. *)
Definition room (fs : FS) (l : Loc) : Prop :=
  exists n up, l = n :: up /\ fs_get fs up = Some NDir /\ fs_get fs l <> Some NDir.
(** So can the directories above [l] and then the file. *)
Definition room_below (fs : FS) (l : Loc) : Prop :=
  l <> [] /\ fs_get fs l <> Some NDir /\ forall k up d, l = k ++ up -> k <> [] -> fs_get fs up <> Some (NFile d).
