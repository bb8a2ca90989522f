(** Specification of what the program may do to the disk and the streams. *)
From Verif Require Import Base M_Fs S_Fs M_Store.

(** Nothing is removed: directories stay directories, files stay files (with
    other contents perhaps), and everything is in a directory if it was before. *)
Definition grown (fs fs' : FS) : Prop :=
  (forall l, fs_get fs l = Some NDir -> fs_get fs' l = Some NDir) /\
  (forall l d, fs_get fs l = Some (NFile d) -> exists d', fs_get fs' l = Some (NFile d')) /\
  (tree fs -> tree fs').
(** Nothing is removed from the streams either. *)
Definition grown_world (w v : World) : Prop :=
  grown (w_fs w) (w_fs v) /\ (exists t, w_out v = w_out w ++ t) /\ exists t, w_err v = w_err w ++ t.
