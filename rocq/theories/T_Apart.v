(** Records end with a line break, so that what follows is on other lines (C33). *)
From Verif Require Import Base Sort BMap Str M_Names M_Path M_Line M_Source M_Symbol M_Collector M_Object S_Format P_Format.
Local Open Scope N_scope.

Lemma ended_apart a b : (a = [] \/ exists t, a = t ++ [c_nl]) -> lines_of (a ++ b) = lines_of a ++ lines_of b.
Proof. intros [-> |(t & ->)]; [reflexivity|]. rewrite <- app_assoc. apply lines_app_nl. Qed.
Lemma ended_concat l : Forall (fun a => exists t, a = t ++ [c_nl]) l -> concat l = [] \/ exists t, concat l = t ++ [c_nl].
Proof.
  induction 1 as [|a l (t & ->) F IH]; [now left|]. right. cbn [concat]. destruct IH as [-> |(u & ->)]; [exists t; apply app_nil_r|]. exists ((t ++ [c_nl]) ++ u). now rewrite app_assoc.
Qed.
Lemma ended_lines ls t : fmt_lines ls = Ok t -> t = [] \/ exists u, t = u ++ [c_nl].
Proof.
  unfold fmt_lines. intros H. apply bind_ok in H as (i & _ & H). injection H as <-. rewrite <- concat_app. apply ended_concat. apply Forall_app. split; apply Forall_map, Forall_forall; intros x _.
  - unfold fmt_inline. eexists. rewrite !app_assoc. reflexivity.
  - unfold fmt_line. eexists. rewrite !app_assoc. reflexivity.
Qed.
(** Whatever comes after a record begins a new line. *)
Theorem C33_apart : forall n name s body rest,
  lines_of (fmt_file n name ++ rest) = lines_of (fmt_file n name) ++ lines_of rest /\
  (fmt_symbol s = Ok body -> lines_of (body ++ rest) = lines_of body ++ lines_of rest).
Proof.
  intros n name s body rest. split.
  - apply ended_apart. right. unfold fmt_file. eexists. rewrite !app_assoc. reflexivity.
  - intros H. apply ended_apart. right. unfold fmt_symbol in H. destruct (sy_public s).
    + match type of H with Ok ?x = Ok _ => assert (Eb : body = x) by congruence end. rewrite Eb. eexists. rewrite !app_assoc. reflexivity.
    + apply bind_ok in H as (t & E & H). match type of H with Ok ?x = Ok _ => assert (Eb : body = x) by congruence end. rewrite Eb. clear H Eb.
      apply ended_lines in E as [-> |(u & ->)]; eexists; rewrite ?app_nil_r, !app_assoc; reflexivity.
Qed.
Print Assumptions C33_apart.
Example C33_ex_apart : lines_of (fmt_file 3 (lit "f") ++ fmt_file 4 (lit "g")) = [lit "FILE 3 f"; lit "FILE 4 g"].
Proof. vm_compute. reflexivity. Qed.
