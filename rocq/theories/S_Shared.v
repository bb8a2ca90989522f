(** Specification of several files that share the file system. *)
From Verif Require Import Base Str Utf8 M_Path M_Symbol M_Object M_Fs M_Store M_Input M_Sched M_Many M_Shared S_Path S_Fs S_Store S_Sched S_Many.

(** The same nodes at the same places. *)
Definition same_fs (a b : FS) : Prop := forall l, fs_get a l = fs_get b l.
Definition same_world (v w : World) : Prop := same_fs (w_fs v) (w_fs w) /\ w_out v = w_out w /\ w_err v = w_err w.
(** Processing the files makes file systems of [R] only (downloads), in all of
    which every file gives the same module. *)
Definition steady (u : Setup) (files : list str) (fs0 : FS) (R : FS -> Prop) : Prop :=
  R fs0 /\ forall fs f, R fs -> In f files -> R (fst (u_job u fs f)) /\ snd (u_job u fs f) = snd (u_job u fs0 f).
(** What is left of a file system when the files of a list have been processed one
    after the other; every file has been, each once. *)
Definition after (u : Setup) (fs : FS) (l : list str) : FS := fold_left (fun fs f => fst (u_job u fs f)) l fs.
Definition processed (u : Setup) (files : list str) (fs0 fs : FS) : Prop := exists l, Permutation l files /\ fs = after u fs0 l.
(** What can be stored: a module made of all files with its debug id. *)
Definition candidate (u : Setup) (files : list str) (fs0 : FS) (d : Obj) : Prop :=
  exists os, made_from (re_ck (u_env u)) (u_iter u) (fun f => snd (u_job u fs0 f)) files d os.
(** It has a text, and there is room for it in the store. *)
Definition storable (u : Setup) (dir : str) (R : FS -> Prop) (d : Obj) : Prop :=
  proper (ob_name d) /\ proper (ob_debug_id d) /\ (exists text, fmt_object (u_extra u) d = Ok text) /\ (u_check u = true -> ob_stack d <> []) /\
  forall fs l, R fs -> stored_at (u_os u) dir d l -> room_below fs l.
(** Its storing has begun: a worker is at it, or has been. *)
Definition begun {I} (s : St I) (d : I) : Prop :=
  In d (stored s) \/ exists i, nth_error (s_workers s) i = Some (WOnly d) \/ nth_error (s_workers s) i = Some (WDump d).
(** At any time: some of the files have been processed, all of them once storing
    has begun. *)
Definition partly (u : Setup) (files : list str) (fs0 : FS) (s : St Obj) (fs : FS) : Prop :=
  exists l rest, Permutation (l ++ rest) files /\ fs = after u fs0 l /\ forall d, begun s d -> rest = [].
(** What can be different from [fs1] while modules are stored: their files, and
    new directories above these. *)
Definition only_stores (os : Os) (dir : str) (s : St Obj) (fs1 fs : FS) : Prop := forall l,
  fs_get fs l = fs_get fs1 l \/
  (fs_get fs1 l = None /\ fs_get fs l = Some NDir /\ exists d t k, begun s d /\ stored_at os dir d t /\ t = k ++ l /\ k <> []) \/
  (exists d, begun s d /\ stored_at os dir d l /\ fs_get fs l <> Some NDir).
(** Writes to a stream, each with the debug id of the module it is for. *)
Definition pieces_of (id : str) (ps : list (str * list N)) : list (list N) := map snd (filter (fun p => str_eqb (fst p) id) ps).
(** The stream of an output that is one. *)
Definition stream_of (fo : FileOutput) (w : World) : list N := match fo with FStderr => w_err w | _ => w_out w end.
Definition other_of (fo : FileOutput) (w : World) : list N := match fo with FStderr => w_out w | _ => w_err w end.
(** It has a text. *)
Definition printable (u : Setup) (d : Obj) : Prop := (exists text, fmt_object (u_extra u) d = Ok text) /\ (u_check u = true -> ob_stack d <> []).
(** No worker is storing. *)
Definition none_storing {I} (s : St I) : Prop := forall w, In w (s_workers s) -> match w with WOnly _ | WDump _ => False | _ => True end.
