(** Specification of where the program writes. *)
From Verif Require Import Base Str M_Path M_Object M_Fs M_Store M_Input M_Shared S_Path S_Fs S_Store S_Shared.

(** Apart from the output file, the files in the store of modules in [P] and new
    directories above these, [fs] is as [fs1]. *)
Definition only_at (os : Os) (out : Output) (P : Obj -> Prop) (fs1 fs : FS) : Prop := forall l,
  fs_get fs l = fs_get fs1 l \/ file_target os out l \/ (exists d, P d /\ store_target os out d l) \/
  (fs_get fs1 l = None /\ fs_get fs l = Some NDir /\ exists d t k, P d /\ store_target os out d t /\ t = k ++ l /\ k <> []).
(** The output goes to the stream [f]. *)
Definition to_stream (out : Output) (f : FileOutput) : Prop := out = OFile f \/ exists dir, out = OBoth f dir.
(** The streams are as before unless the output goes there. *)
Definition quiet (out : Output) (w v : World) : Prop :=
  (~ to_stream out FStdout -> w_out v = w_out w) /\ (~ to_stream out FStderr -> w_err v = w_err w).
(** The module can be found in a store under its own name. *)
Definition proper_module (d : Obj) : Prop := proper (ob_name d) /\ proper (ob_debug_id d).
