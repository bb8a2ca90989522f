(** Regular expressions over characters (the fragment of the [regex] crate the
    code uses), matched by derivatives, with the usual language semantics. *)
From Verif Require Import Base Str.

Inductive re :=
| Emp                      (* matches nothing *)
| Eps                      (* matches the empty string *)
| Cls (p : N -> bool)      (* one character of a class *)
| Cat (a b : re)
| Alt (a b : re)
| Star (a : re).

Fixpoint rlit (s : str) : re :=
  match s with [] => Eps | c :: t => Cat (Cls (N.eqb c)) (rlit t) end.
Fixpoint alts (l : list re) : re :=
  match l with [] => Emp | [r] => r | r :: t => Alt r (alts t) end.
Definition opt (r : re) : re := Alt r Eps.
Definition plus (r : re) : re := Cat r (Star r).

Fixpoint nullable (r : re) : bool :=
  match r with
  | Emp => false | Eps => true | Cls _ => false
  | Cat a b => nullable a && nullable b
  | Alt a b => nullable a || nullable b
  | Star _ => true
  end.
Fixpoint deriv (c : N) (r : re) : re :=
  match r with
  | Emp => Emp | Eps => Emp
  | Cls p => if p c then Eps else Emp
  | Cat a b => if nullable a then Alt (Cat (deriv c a) b) (deriv c b) else Cat (deriv c a) b
  | Alt a b => Alt (deriv c a) (deriv c b)
  | Star a => Cat (deriv c a) (Star a)
  end.
(** Whole-string match. *)
Fixpoint rmatch (r : re) (s : str) : bool :=
  match s with [] => nullable r | c :: t => rmatch (deriv c r) t end.

(** Language semantics. *)
Inductive lang : re -> str -> Prop :=
| L_eps : lang Eps []
| L_cls p c : p c = true -> lang (Cls p) [c]
| L_cat a b s t : lang a s -> lang b t -> lang (Cat a b) (s ++ t)
| L_altl a b s : lang a s -> lang (Alt a b) s
| L_altr a b s : lang b s -> lang (Alt a b) s
| L_star0 a : lang (Star a) []
| L_star1 a s t : lang a s -> lang (Star a) t -> lang (Star a) (s ++ t).

Lemma nullable_lang r : nullable r = true <-> lang r [].
Proof.
  split.
  - induction r; simpl; intros H; try discriminate.
    + constructor.
    + apply andb_true_iff in H as (H1 & H2). change (@nil N) with (@nil N ++ []). constructor; auto.
    + apply orb_true_iff in H as [H|H]; [apply L_altl|apply L_altr]; auto.
    + constructor.
  - remember [] as s eqn:E. induction 1; simpl; auto; try discriminate.
    + apply app_eq_nil in E as (-> & ->). rewrite IHlang1, IHlang2; auto.
    + rewrite IHlang; auto.
    + rewrite IHlang; auto. apply orb_true_r.
Qed.

Lemma deriv_lang r c s : lang (deriv c r) s <-> lang r (c :: s).
Proof.
  revert s; induction r; intros s; simpl.
  - split; intros H; inversion H.
  - split; intros H; inversion H.
  - destruct (p c) eqn:E; split; intros H; inversion H; subst; try congruence; constructor; auto.
  - assert (Hc : lang (Cat (deriv c r1) r2) s -> lang (Cat r1 r2) (c :: s)).
    { intros H; inversion H as [| |? ? s1 s2 H1 H2 E1 E2| | | |]; subst.
      apply IHr1 in H1. now apply (L_cat _ _ (c :: s1) s2). }
    split.
    + destruct (nullable r1) eqn:En; auto. intros H; inversion H as [| | |? ? ? Ha|? ? ? Hb| |]; subst; auto.
      apply IHr2 in Hb. apply nullable_lang in En. now apply (L_cat _ _ [] (c :: s)).
    + intros H; inversion H as [| |? ? s1 s2 H1 H2 E1 E2| | | |]; subst. destruct s1 as [|d s1].
      * apply nullable_lang in H1. rewrite H1. simpl in E2. subst. apply L_altr. now apply IHr2.
      * simpl in E2. inversion E2; subst.
        assert (Hl : lang (Cat (deriv c r1) r2) (s1 ++ s2)) by (constructor; auto; now apply IHr1).
        destruct (nullable r1); auto. now apply L_altl.
  - split; intros H; inversion H; subst; (apply L_altl + apply L_altr); now (apply IHr1 + apply IHr2).
  - split.
    + intros H; inversion H as [| |? ? s1 s2 H1 H2 E1 E2| | | |]; subst. apply IHr in H1.
      now apply (L_star1 _ (c :: s1) s2).
    + intros H. remember (Star r) as q eqn:Eq. remember (c :: s) as w eqn:Ew. revert s Ew.
      induction H as [| | | | | |a s1 s2 H1 IH1 H2 IH2]; intros s0 Ew; try discriminate.
      inversion Eq; subst. destruct s1 as [|d s1].
      * simpl in Ew. now apply IH2.
      * simpl in Ew. inversion Ew; subst. constructor; auto. now apply IHr.
Qed.

Lemma rmatch_lang r s : rmatch r s = true <-> lang r s.
Proof.
  revert r; induction s as [|c s IH]; intros r; simpl; [apply nullable_lang|].
  rewrite IH. apply deriv_lang.
Qed.

(** [Regex::replace(s, "")] for a pattern anchored at the end ([...$]) that
    never matches the empty string: the leftmost match is removed, i.e. the
    longest suffix in the language. *)
Fixpoint strip_end (r : re) (s : str) : str :=
  if rmatch r s then []
  else match s with [] => [] | c :: t => c :: strip_end r t end.

Lemma strip_end_spec r s :
  exists d, s = strip_end r s ++ d /\ (d = [] \/ lang r d) /\
    forall p' d', s = p' ++ d' -> lang r d' -> (length (strip_end r s) <= length p')%nat.
Proof.
  induction s as [|c s IH].
  - exists []. simpl. destruct (nullable r); repeat split; auto; intros; simpl; lia.
  - cbn [strip_end]. destruct (rmatch r (c :: s)) eqn:E.
    + exists (c :: s). simpl. repeat split; auto; [right; now apply rmatch_lang|intros; lia].
    + destruct IH as (d & E1 & Hd & Hmax). exists d. split; [simpl; congruence|]. split; auto.
      intros p' d' Es Hl. destruct p' as [|c' p']; simpl in *.
      * subst. apply rmatch_lang in Hl. simpl in Hl, E. congruence.
      * inversion Es; subst. apply le_n_S. eapply Hmax; eauto.
Qed.

Lemma lang_cat_inv a b s : lang (Cat a b) s <-> exists x y, s = x ++ y /\ lang a x /\ lang b y.
Proof.
  split.
  - intros H; inversion H; subst; eauto.
  - intros (x & y & -> & Hx & Hy). now constructor.
Qed.
Lemma lang_alt_inv a b s : lang (Alt a b) s <-> lang a s \/ lang b s.
Proof. split; [intros H; inversion H; auto|intros [H|H]; [now apply L_altl|now apply L_altr]]. Qed.
Lemma lang_cls_inv p s : lang (Cls p) s <-> exists c, s = [c] /\ p c = true.
Proof. split; [intros H; inversion H; eauto|intros (c & -> & H); now constructor]. Qed.
Lemma lang_eps_inv s : lang Eps s <-> s = [].
Proof. split; [intros H; now inversion H|intros ->; constructor]. Qed.
Lemma lang_emp_inv s : ~ lang Emp s.
Proof. intros H; inversion H. Qed.
Lemma lang_lit w s : lang (rlit w) s <-> s = w.
Proof.
  revert s; induction w as [|c w IH]; intros s; simpl; [apply lang_eps_inv|].
  rewrite lang_cat_inv. split.
  - intros (x & y & -> & Hx & Hy). apply lang_cls_inv in Hx as (d & -> & Hd). apply IH in Hy.
    apply N.eqb_eq in Hd. now subst.
  - intros ->. exists [c], w. repeat split; [constructor; apply N.eqb_refl|now apply IH].
Qed.
Lemma lang_star_cls p s : lang (Star (Cls p)) s <-> forallb p s = true.
Proof.
  split.
  - intros H. remember (Star (Cls p)) as r eqn:E. induction H; try discriminate; auto.
    inversion E; subst. apply lang_cls_inv in H as (c & -> & Hc). simpl. rewrite Hc. auto.
  - induction s as [|c s IH]; simpl; intros H; [constructor|].
    apply andb_true_iff in H as (Hc & Hs). apply (L_star1 _ [c] s); auto. now constructor.
Qed.
Lemma lang_star_list a s : lang (Star a) s <-> exists l, s = concat l /\ Forall (lang a) l.
Proof.
  split.
  - intros H. remember (Star a) as r eqn:E. induction H; try discriminate.
    + exists []; auto.
    + inversion E; subst. destruct IHlang2 as (l & -> & Hl); auto. exists (s :: l); auto.
  - intros (l & -> & H). induction H; simpl; [constructor|now constructor].
Qed.
