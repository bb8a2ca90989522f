(** Specification of processing several files. *)
From Verif Require Import Base Str M_Sched.

Section Spec.
Context {I : Type}.
Implicit Types (S : Sys I) (s : St I).

(** [d] is what the files [g] give when merged one after the other (the last of
    the list first). *)
Inductive merge_in_order S : list str -> I -> Prop :=
| mo_one f d : sy_proc S f = Ok d -> merge_in_order S [f] d
| mo_more f d g prev m : merge_in_order S g prev -> sy_proc S f = Ok d -> sy_key S d = sy_key S prev ->
    sy_merge S d prev = Ok m -> merge_in_order S (f :: g) m.
(** The files with debug id [k]. *)
Definition has_key S (k : str) (f : str) : bool := match sy_proc S f with Ok d => str_eqb (sy_key S d) k | _ => false end.
Definition group S (files : list str) (k : str) : list str := filter (has_key S k) files.
(** Merging keeps the debug id. *)
Definition key_kept S : Prop := forall x y m, sy_key S x = sy_key S y -> sy_merge S x y = Ok m -> sy_key S m = sy_key S x.

(** The modules given to [store]. *)
Definition stored s : list I := map fst (h_log (s_shared s)).
(** No file is waiting or being worked on, and none has failed. *)
Definition all_merged S (files : list str) s : Prop :=
  (forall fs, s_main s = MSend fs -> fs = []) /\
  (forall f, ~ In (MGet f) (h_queue (s_shared s))) /\
  (forall w, In w (s_workers s) -> match w with WGet _ | WMerge _ _ | WCheck | WDec | WPoison _ => False | _ => True end) /\
  (forall f, In f files -> exists d, sy_proc S f = Ok d).

(** Modules with the same debug id that come from the files can be merged. *)
Definition merges S (files : list str) : Prop :=
  exists V : I -> Prop, (forall f d, In f files -> sy_proc S f = Ok d -> V d) /\
    forall x y, V x -> V y -> sy_key S x = sy_key S y -> exists m, sy_merge S x y = Ok m /\ V m.
(** Every file can be processed, merging works, and storing works. *)
Definition works S (files : list str) : Prop :=
  (forall f, In f files -> exists d, sy_proc S f = Ok d) /\ merges S files /\ forall d r, sy_store S d r <-> r = Ok tt.
(** The file cannot be processed. *)
Definition fails S (f : str) : bool := match sy_proc S f with Ok _ => false | _ => true end.
(** Two files have different debug ids. *)
Definition two_groups S (files : list str) : Prop :=
  exists f1 d1 f2 d2, In f1 files /\ In f2 files /\ sy_proc S f1 = Ok d1 /\ sy_proc S f2 = Ok d2 /\ sy_key S d1 <> sy_key S d2.

Definition exits_ok s : Prop := forall w, In w (s_workers s) -> w = WExit XOk.
Definition complete s : Prop := s_main s = MDone.
Definition ended s : Prop := s_main s = MDone \/ s_main s = MPanic.
(** No thread can do anything although the run has not ended. *)
Definition blocked S (nj : nat) s : Prop := ~ ended s /\ forall s', ~ step S nj s s'.
(** Two files are left, both merged, and both of the workers that had them have
    seen that theirs is not the last one and are about to count it. *)
Definition racing s : Prop :=
  h_counter (s_shared s) = 2 /\ exists i j, i <> j /\ nth_error (s_workers s) i = Some WDec /\ nth_error (s_workers s) j = Some WDec.
(** Runs in which this never happens. *)
Inductive calm S (nj : nat) (s0 : St I) : St I -> Prop :=
| calm_start : ~ racing s0 -> calm S nj s0 s0
| calm_step s s' : calm S nj s0 s -> step S nj s s' -> ~ racing s' -> calm S nj s0 s'.
(** [n] steps. *)
Inductive steps S (nj : nat) : nat -> St I -> St I -> Prop :=
| steps_0 s : steps S nj 0 s s
| steps_S n s s1 s2 : step S nj s s1 -> steps S nj n s1 s2 -> steps S nj (Datatypes.S n) s s2.
End Spec.
