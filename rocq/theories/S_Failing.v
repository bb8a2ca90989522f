(** Specification for C86: files that cannot be processed. *)
From Verif Require Import Base Str M_Symbol M_Collector M_Object M_Fs M_Input M_Shared S_Symbol S_Object S_Many.

(** Those of the files for which there is no module. *)
Definition unread (u : Setup) (fs : FS) (f : str) : bool := match snd (u_job u fs f) with Ok _ => false | _ => true end.
Definition failing (u : Setup) (fs : FS) (files : list str) : list str := filter (unread u fs) files.
(** Adding the length of a symbol to its address does not overflow in the others. *)
Definition others_fit (u : Setup) (fs : FS) (files : list str) : Prop :=
  forall f o, In f files -> snd (u_job u fs f) = Ok o -> re_ck (u_env u) = false \/ ends_fit (ob_syms o).
