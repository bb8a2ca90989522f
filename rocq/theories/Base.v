(** Base layer: Rust results/panics, fixed-width arithmetic, list helpers.
    No code of /repo is modelled here; these are the Rust language notions the
    model files use. *)
From Coq Require Export String Ascii.
From Coq Require Export List NArith ZArith Bool Lia Permutation Sorted Arith.
From Coq Require Export ZifyBool ZifyNat ZifyN.
Export ListNotations.
Global Open Scope N_scope.
Global Open Scope list_scope.
Global Open Scope bool_scope.

Ltac Zify.zify_post_hook ::= Z.div_mod_to_equations.

(** [Ok v]: normal result; [Err e]: an [anyhow::Error] (or [Result::Err]);
    [Panic w]: the Rust program panics at [w]. *)
Inductive res (A : Type) : Type :=
| Ok (a : A)
| Err (e : string)
| Panic (w : string).
Arguments Ok {A} a.
Arguments Err {A} e%string.
Arguments Panic {A} w%string.

Definition bind {A B} (r : res A) (f : A -> res B) : res B :=
  match r with Ok a => f a | Err e => Err e | Panic w => Panic w end.
Notation "x <- r ;; k" := (bind r (fun x => k))
  (at level 61, r at next level, right associativity).
Notation "' p <- r ;; k" := (bind r (fun x => let p := x in k))
  (at level 61, p pattern, r at next level, right associativity).

Definition is_ok {A} (r : res A) : bool := match r with Ok _ => true | _ => false end.
Definition is_panic {A} (r : res A) : bool := match r with Panic _ => true | _ => false end.

Lemma bind_ok {A B} (r : res A) (f : A -> res B) b :
  bind r f = Ok b <-> exists a, r = Ok a /\ f a = Ok b.
Proof.
  destruct r; simpl; split; intros H; eauto; try discriminate;
    destruct H as (a' & H1 & H2); try discriminate. now inversion H1; subst.
Qed.

(** Fixed-width arithmetic. [ck] tells whether the build has overflow checks
    (dev/test profile: panic) or not (release/dist profile: wrap). *)
Definition two32 : N := 4294967296.
Definition two64 : N := 18446744073709551616.

(** [x as u32] for a wider unsigned x. *)
Definition u32 (n : N) : N := n mod two32.

Definition add_w (w : N) (ck : bool) (x y : N) : res N :=
  if x + y <? w then Ok (x + y)
  else if ck then Panic "attempt to add with overflow" else Ok ((x + y) mod w).
Definition sub_w (w : N) (ck : bool) (x y : N) : res N :=
  if y <=? x then Ok (x - y)
  else if ck then Panic "attempt to subtract with overflow" else Ok (x + w - y).
Definition add32 := add_w two32.
Definition sub32 := sub_w two32.
Definition add64 := add_w two64.
Definition sub64 := sub_w two64.

(** [u32::checked_add], [u32::checked_sub]. *)
Definition checked_add32 (x y : N) : option N :=
  if x + y <? two32 then Some (x + y) else None.
Definition checked_sub32 (x y : N) : option N :=
  if y <=? x then Some (x - y) else None.

Lemma add32_ok ck x y : x + y < two32 -> add32 ck x y = Ok (x + y).
Proof. intros H; unfold add32, add_w. destruct (N.ltb_spec (x + y) two32); [reflexivity|lia]. Qed.
Lemma sub32_ok ck x y : y <= x -> sub32 ck x y = Ok (x - y).
Proof. intros H; unfold sub32, sub_w. destruct (N.leb_spec y x); [reflexivity|lia]. Qed.
Lemma add64_ok ck x y : x + y < two64 -> add64 ck x y = Ok (x + y).
Proof. intros H; unfold add64, add_w. destruct (N.ltb_spec (x + y) two64); [reflexivity|lia]. Qed.
Lemma sub64_ok ck x y : y <= x -> sub64 ck x y = Ok (x - y).
Proof. intros H; unfold sub64, sub_w. destruct (N.leb_spec y x); [reflexivity|lia]. Qed.

Lemma u32_lt n : u32 n < two32.
Proof. unfold u32. apply N.mod_lt. discriminate. Qed.
Lemma u32_small n : n < two32 -> u32 n = n.
Proof. unfold u32. apply N.mod_small. Qed.

(** Monadic map / fold, left to right, stopping at the first failure. *)
Fixpoint mapM {A B} (f : A -> res B) (l : list A) : res (list B) :=
  match l with
  | [] => Ok []
  | x :: t => y <- f x ;; ys <- mapM f t ;; Ok (y :: ys)
  end.
Fixpoint foldM {S A} (f : S -> A -> res S) (l : list A) (s : S) : res S :=
  match l with
  | [] => Ok s
  | x :: t => s' <- f s x ;; foldM f t s'
  end.

Lemma foldM_app {S A} (f : S -> A -> res S) l1 l2 s :
  foldM f (l1 ++ l2) s = (s' <- foldM f l1 s ;; foldM f l2 s').
Proof.
  revert s; induction l1 as [|x l1 IH]; intros s; simpl; [reflexivity|].
  destruct (f s x); simpl; auto.
Qed.

Lemma mapM_length {A B} (f : A -> res B) l l' : mapM f l = Ok l' -> length l' = length l.
Proof.
  revert l'; induction l as [|x l IH]; simpl; intros l' H; [now inversion H|].
  apply bind_ok in H as (y & _ & H). apply bind_ok in H as (ys & Hys & H).
  inversion H; subst; simpl; f_equal; eauto.
Qed.

Lemma mapM_map {A B} (f : A -> res B) (g : A -> B) l :
  (forall x, In x l -> f x = Ok (g x)) -> mapM f l = Ok (map g l).
Proof.
  induction l as [|x l IH]; simpl; intros H; [reflexivity|].
  rewrite (H x) by now left. simpl. rewrite IH by (intros; apply H; now right). reflexivity.
Qed.

(** Slice indexing: [None] = index out of bounds (a panic in Rust). *)
Definition nthN {A} (l : list A) (i : N) : option A := nth_error l (N.to_nat i).
Definition lenN {A} (l : list A) : N := N.of_nat (length l).

Lemma nthN_app1 {A} (l1 l2 : list A) i : i < lenN l1 -> nthN (l1 ++ l2) i = nthN l1 i.
Proof. unfold nthN, lenN; intros; apply nth_error_app1; lia. Qed.
Lemma nthN_app2 {A} (l1 l2 : list A) i : lenN l1 <= i -> nthN (l1 ++ l2) i = nthN l2 (i - lenN l1).
Proof. unfold nthN, lenN; intros; rewrite nth_error_app2 by lia. f_equal; lia. Qed.
Lemma nthN_some_lt {A} (l : list A) i x : nthN l i = Some x -> i < lenN l.
Proof.
  unfold nthN, lenN; intros H.
  assert (Hx : nth_error l (N.to_nat i) <> None) by congruence.
  apply nth_error_Some in Hx; lia.
Qed.
Lemma nthN_lt_some {A} (l : list A) i : i < lenN l -> exists x, nthN l i = Some x.
Proof.
  unfold nthN, lenN; intros H. destruct (nth_error l (N.to_nat i)) eqn:E; eauto.
  apply nth_error_None in E; lia.
Qed.
Lemma lenN_app {A} (l1 l2 : list A) : lenN (l1 ++ l2) = lenN l1 + lenN l2.
Proof. unfold lenN; rewrite app_length; lia. Qed.
Lemma lenN_cons {A} (x : A) l : lenN (x :: l) = 1 + lenN l.
Proof. unfold lenN; simpl length; lia. Qed.
Lemma nthN_In {A} (l : list A) i x : nthN l i = Some x -> In x l.
Proof. apply nth_error_In. Qed.

(** Replace the i-th element. *)
Fixpoint set_nth {A} (l : list A) (i : nat) (x : A) : list A :=
  match l, i with
  | [], _ => []
  | _ :: t, O => x :: t
  | y :: t, S i' => y :: set_nth t i' x
  end.
Definition set_nthN {A} (l : list A) (i : N) (x : A) := set_nth l (N.to_nat i) x.

Lemma set_nth_length {A} (l : list A) i x : length (set_nth l i x) = length l.
Proof. revert i; induction l; destruct i; simpl; auto. Qed.
Lemma set_nth_same {A} (l : list A) i x : (i < length l)%nat -> nth_error (set_nth l i x) i = Some x.
Proof. revert i; induction l; destruct i; simpl; intros; try lia; auto. apply IHl; lia. Qed.
Lemma set_nth_other {A} (l : list A) i j x : i <> j -> nth_error (set_nth l i x) j = nth_error l j.
Proof. revert i j; induction l; destruct i, j; simpl; intros; auto; try congruence. Qed.

Fixpoint last_opt {A} (l : list A) : option A :=
  match l with [] => None | [x] => Some x | _ :: t => last_opt t end.

Lemma last_opt_app {A} (l : list A) x : last_opt (l ++ [x]) = Some x.
Proof. induction l as [|y l IH]; simpl; auto. rewrite IH. destruct l; auto. Qed.
Lemma last_opt_none {A} (l : list A) : last_opt l = None -> l = [].
Proof. induction l as [|x l IH]; simpl; auto. destruct l; [discriminate|]. intros H; apply IH in H; discriminate. Qed.
Lemma last_opt_some {A} (l : list A) x : last_opt l = Some x -> exists l', l = l' ++ [x].
Proof.
  induction l as [|y l IH]; simpl; [discriminate|]. destruct l as [|z l].
  - intros H; inversion H; subst. exists []; reflexivity.
  - intros H; apply IH in H as (l' & ->). exists (y :: l'); reflexivity.
Qed.

Definition option_eqb {A} (eqb : A -> A -> bool) (x y : option A) : bool :=
  match x, y with Some a, Some b => eqb a b | None, None => true | _, _ => false end.

Fixpoint list_eqb {A} (eqb : A -> A -> bool) (x y : list A) : bool :=
  match x, y with
  | [], [] => true
  | a :: x', b :: y' => eqb a b && list_eqb eqb x' y'
  | _, _ => false
  end.
Lemma list_eqb_spec {A} (eqb : A -> A -> bool) :
  (forall a b, eqb a b = true <-> a = b) -> forall x y, list_eqb eqb x y = true <-> x = y.
Proof.
  intros H; induction x as [|a x IH]; destruct y as [|b y]; simpl; split; intros E;
    try discriminate; auto.
  - apply andb_true_iff in E as (E1 & E2). apply H in E1. apply IH in E2. congruence.
  - inversion E; subst. apply andb_true_iff; split; [now apply H|now apply IH].
Qed.

(** Split conjunctions only. *)
Ltac splits := repeat match goal with |- _ /\ _ => split end.

Lemma foldM_inv {S A} (I : S -> Prop) (f : S -> A -> res S) l s s' :
  (forall s x s', In x l -> I s -> f s x = Ok s' -> I s') -> I s -> foldM f l s = Ok s' -> I s'.
Proof.
  revert s; induction l as [|x l IH]; simpl; intros s Hf Hs H; [now inversion H; subst|].
  apply bind_ok in H as (s1 & H1 & H2). eapply IH; [|eapply Hf|]; eauto.
Qed.
Lemma foldM_inv_ok {S A} (I : S -> Prop) (f : S -> A -> res S) l s :
  (forall s x, In x l -> I s -> exists s', f s x = Ok s' /\ I s') -> I s -> exists s', foldM f l s = Ok s' /\ I s'.
Proof.
  revert s; induction l as [|x l IH]; simpl; intros s Hf Hs; [eauto|].
  destruct (Hf s x) as (s1 & -> & H1); auto. simpl. apply IH; auto.
Qed.

Lemma StronglySorted_app_r {A} (R : A -> A -> Prop) a b : StronglySorted R (a ++ b) -> StronglySorted R b.
Proof. induction a as [|x a IH]; simpl; auto. intros H; inversion H; auto. Qed.
