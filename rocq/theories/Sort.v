(** Stable sorting ([slice::sort_by_key]); the implementation in std is a merge
    sort, here an insertion sort: both are determined by "sorted permutation,
    equal keys keep their order". *)
From Verif Require Import Base.

Section Sort.
  Context {A : Type} (leb : A -> A -> bool).

  Fixpoint sinsert (x : A) (l : list A) : list A :=
    match l with
    | [] => [x]
    | y :: t => if leb x y then x :: y :: t else y :: sinsert x t
    end.
  Fixpoint ssort (l : list A) : list A :=
    match l with [] => [] | x :: t => sinsert x (ssort t) end.

  Definition lebP (x y : A) : Prop := leb x y = true.

  Lemma sinsert_perm x l : Permutation (x :: l) (sinsert x l).
  Proof.
    induction l as [|y l IH]; simpl; auto. destruct (leb x y); auto.
    rewrite perm_swap. now constructor.
  Qed.
  Lemma ssort_perm l : Permutation l (ssort l).
  Proof. induction l as [|x l IH]; simpl; auto. rewrite <- sinsert_perm. now constructor. Qed.
  Lemma ssort_length l : length (ssort l) = length l.
  Proof. symmetry; apply Permutation_length, ssort_perm. Qed.
  Lemma ssort_nil_iff l : ssort l = [] <-> l = [].
  Proof.
    split; intros H; [|subst; reflexivity].
    pose proof (ssort_perm l) as P. rewrite H in P. now apply Permutation_sym, Permutation_nil in P.
  Qed.

  Hypothesis leb_total : forall x y, leb x y = true \/ leb y x = true.
  Hypothesis leb_trans : forall x y z, leb x y = true -> leb y z = true -> leb x z = true.

  Lemma sinsert_sorted x l : StronglySorted lebP l -> StronglySorted lebP (sinsert x l).
  Proof.
    induction 1 as [|y l Hs IH Hf]; simpl; [repeat constructor|].
    destruct (leb x y) eqn:E.
    - constructor; [now constructor|]. constructor; auto.
      eapply Forall_impl; [|exact Hf]. intros z Hz. eapply leb_trans; eauto.
    - constructor; auto.
      assert (Hyx : leb y x = true) by (destruct (leb_total x y); congruence).
      rewrite <- sinsert_perm. now constructor.
  Qed.
  Lemma ssort_sorted l : StronglySorted lebP (ssort l).
  Proof. induction l; simpl; [constructor|now apply sinsert_sorted]. Qed.

  Lemma ssort_id l : StronglySorted lebP l -> ssort l = l.
  Proof.
    induction 1 as [|y l Hs IH Hf]; simpl; auto. rewrite IH.
    destruct l as [|z l]; simpl; auto. inversion Hf; subst. unfold lebP in *. now rewrite H1.
  Qed.

  (** Stability: for every class of pairwise equivalent elements the subsequence
      of that class is unchanged. *)
  Lemma sinsert_filter (P : A -> bool) x l :
    (forall y, In y l -> P x = true -> P y = true -> leb x y = true) ->
    filter P (sinsert x l) = filter P (x :: l).
  Proof.
    induction l as [|y l IH]; intros H; [reflexivity|].
    cbn [sinsert]. destruct (leb x y) eqn:E; [reflexivity|].
    cbn [filter]. rewrite IH by (intros; apply H; [now right|auto..]).
    cbn [filter]. destruct (P x) eqn:Px, (P y) eqn:Py; auto.
    rewrite (H y) in E; auto; [discriminate|now left].
  Qed.
  Lemma ssort_filter (P : A -> bool) l :
    (forall x y, In x l -> In y l -> P x = true -> P y = true -> leb x y = true) ->
    filter P (ssort l) = filter P l.
  Proof.
    induction l as [|x l IH]; intros H; [reflexivity|].
    cbn [ssort]. rewrite sinsert_filter.
    - cbn [filter]. rewrite IH by (intros; apply H; auto; now right). reflexivity.
    - intros y Hy Px Py. apply H; auto; [now left|].
      right. eapply Permutation_in; [symmetry; apply ssort_perm|exact Hy].
  Qed.

  (** Two sorted lists with the same elements are equal when equivalent elements
      of them are equal. *)
  Lemma sorted_perm_unique l1 l2 :
    StronglySorted lebP l1 -> StronglySorted lebP l2 -> Permutation l1 l2 ->
    (forall x y, In x l1 -> In y l1 -> leb x y = true -> leb y x = true -> x = y) ->
    l1 = l2.
  Proof.
    intros S1; revert l2; induction S1 as [|x l1 S1 IH F1]; intros l2 S2 P Ha.
    - now apply Permutation_nil in P.
    - destruct l2 as [|y l2]; [now apply Permutation_sym, Permutation_nil in P|].
      inversion S2 as [|? ? S2' F2]; subst.
      assert (x = y).
      { apply Ha; [now left| | |].
        - eapply Permutation_in; [symmetry; exact P|now left].
        - assert (Hy : In y (x :: l1)) by (eapply Permutation_in; [symmetry; exact P|now left]).
          destruct Hy as [<-|Hy]; [destruct (leb_total x x); auto|].
          rewrite Forall_forall in F1. now apply F1.
        - assert (Hx : In x (y :: l2)) by (eapply Permutation_in; [exact P|now left]).
          destruct Hx as [->|Hx]; [destruct (leb_total x x); auto|].
          rewrite Forall_forall in F2. now apply F2. }
      subst y. f_equal. apply IH; auto.
      + now apply Permutation_cons_inv in P.
      + intros; apply Ha; auto; now right.
  Qed.
End Sort.

(** [sort_by_key] with a numeric key. *)
Definition key_leb {A} (key : A -> N) (x y : A) : bool := key x <=? key y.
Definition sort_by_key {A} (key : A -> N) (l : list A) : list A := ssort (key_leb key) l.

Section Key.
  Context {A : Type} (key : A -> N).
  Definition key_le (x y : A) : Prop := key x <= key y.
  Lemma key_leb_total : forall x y : A, key_leb key x y = true \/ key_leb key y x = true.
  Proof. unfold key_leb; intros; lia. Qed.
  Lemma key_leb_trans : forall x y z : A,
    key_leb key x y = true -> key_leb key y z = true -> key_leb key x z = true.
  Proof. unfold key_leb; intros; lia. Qed.
  Lemma SS_key_le l : StronglySorted (lebP (key_leb key)) l <-> StronglySorted key_le l.
  Proof.
    split; induction 1 as [|x l S IH F]; constructor; auto;
      (eapply Forall_impl; [|exact F]); unfold lebP, key_leb, key_le; intros; lia.
  Qed.
  Lemma sort_by_key_perm l : Permutation l (sort_by_key key l).
  Proof. apply ssort_perm. Qed.
  Lemma sort_by_key_sorted l : StronglySorted key_le (sort_by_key key l).
  Proof. apply SS_key_le, ssort_sorted; [apply key_leb_total|apply key_leb_trans]. Qed.
  Lemma sort_by_key_id l : StronglySorted key_le l -> sort_by_key key l = l.
  Proof. intros; now apply ssort_id, SS_key_le. Qed.
  Lemma sort_by_key_stable k l :
    filter (fun x => key x =? k) (sort_by_key key l) = filter (fun x => key x =? k) l.
  Proof. apply ssort_filter. unfold key_leb; intros; lia. Qed.
  Lemma sort_by_key_unique l1 l2 :
    Permutation l1 l2 -> NoDup (map key l1) -> sort_by_key key l1 = sort_by_key key l2.
  Proof.
    intros P ND. apply (sorted_perm_unique (key_leb key)).
    - apply key_leb_total.
    - apply ssort_sorted; [apply key_leb_total|apply key_leb_trans].
    - apply ssort_sorted; [apply key_leb_total|apply key_leb_trans].
    - now rewrite <- !sort_by_key_perm.
    - intros x y Hx Hy Hxy Hyx.
      assert (Hk : key x = key y) by (unfold key_leb in *; lia).
      apply (Permutation_in _ (Permutation_sym (sort_by_key_perm l1))) in Hx, Hy.
      clear - ND Hx Hy Hk. induction l1 as [|z l IH]; simpl in *; [easy|].
      inversion ND as [|? ? Hn ND']; subst.
      destruct Hx as [<-|Hx], Hy as [<-|Hy]; auto.
      + exfalso; apply Hn; rewrite Hk; now apply in_map.
      + exfalso; apply Hn; rewrite <- Hk; now apply in_map.
  Qed.
End Key.

(** A stable sort by key is characterised by sortedness and stability. *)
Lemma stable_sort_unique {A} (key : A -> N) l1 l2 :
  StronglySorted (key_le key) l1 -> StronglySorted (key_le key) l2 ->
  (forall k, filter (fun x => key x =? k) l1 = filter (fun x => key x =? k) l2) ->
  l1 = l2.
Proof.
  intros S1; revert l2; induction S1 as [|x l1 S1 IH F1]; intros l2 S2 H.
  - destruct l2 as [|y l2]; auto. specialize (H (key y)). cbn [filter] in H.
    rewrite N.eqb_refl in H. discriminate.
  - destruct l2 as [|y l2].
    { specialize (H (key x)). cbn [filter] in H. rewrite N.eqb_refl in H. discriminate. }
    inversion S2 as [|? ? S2' F2]; subst.
    rewrite Forall_forall in F1, F2. unfold key_le in *.
    assert (Hle : key x <= key y).
    { assert (Hin : In y (filter (fun z => key z =? key y) (x :: l1))).
      { rewrite H. cbn [filter]. rewrite N.eqb_refl. now left. }
      apply filter_In in Hin as ([<-|Hin] & _); [lia|now apply F1]. }
    assert (Hge : key y <= key x).
    { assert (Hin : In x (filter (fun z => key z =? key x) (y :: l2))).
      { rewrite <- H. cbn [filter]. rewrite N.eqb_refl. now left. }
      apply filter_In in Hin as ([<-|Hin] & _); [lia|now apply F2]. }
    assert (Hxy : x = y).
    { specialize (H (key x)). cbn [filter] in H. rewrite N.eqb_refl in H.
      replace (key y =? key x) with true in H by lia. now inversion H. }
    subst y. f_equal. apply IH; auto.
    intros k. specialize (H k). cbn [filter] in H. destruct (key x =? k); [now inversion H|auto].
Qed.
