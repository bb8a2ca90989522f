(** [BTreeMap] as a strictly sorted association list. *)
From Verif Require Import Base Sort.

Section BMap.
  Context {K V : Type} (lt : K -> K -> bool).

  Fixpoint bfind (k : K) (m : list (K * V)) : option V :=
    match m with
    | [] => None
    | (k', v) :: t => if lt k k' then None else if lt k' k then bfind k t else Some v
    end.
  Fixpoint binsert (k : K) (v : V) (m : list (K * V)) : list (K * V) :=
    match m with
    | [] => [(k, v)]
    | (k', v') :: t =>
        if lt k k' then (k, v) :: (k', v') :: t
        else if lt k' k then (k', v') :: binsert k v t
        else (k, v) :: t
    end.
  Definition bcollect (l : list (K * V)) : list (K * V) :=
    fold_left (fun m kv => binsert (fst kv) (snd kv) m) l [].

  Definition blt (a b : K * V) : Prop := lt (fst a) (fst b) = true.
  Definition bsorted (m : list (K * V)) : Prop := StronglySorted blt m.

  Hypothesis lt_irrefl : forall a, lt a a = false.
  Hypothesis lt_trans : forall a b c, lt a b = true -> lt b c = true -> lt a c = true.
  Hypothesis lt_tot : forall a b, lt a b = false -> lt b a = false -> a = b.

  Lemma lt_asym a b : lt a b = true -> lt b a = false.
  Proof.
    intros H; destruct (lt b a) eqn:E; auto.
    rewrite <- (lt_irrefl a). symmetry; eauto.
  Qed.

  Lemma bfind_below k m : bsorted m -> Forall (fun kv => lt k (fst kv) = true) m -> bfind k m = None.
  Proof. destruct m as [|[k' v] m]; simpl; auto. intros _ H; inversion H; subst; simpl in *. now rewrite H2. Qed.

  Lemma Forall_binsert (P : K * V -> Prop) k v m : P (k, v) -> Forall P m -> Forall P (binsert k v m).
  Proof.
    induction m as [|[k' v'] m IH]; simpl; intros Hk H; [now constructor|].
    inversion H; subst. destruct (lt k k'); [constructor; auto|].
    destruct (lt k' k); constructor; auto.
  Qed.

  Lemma binsert_sorted k v m : bsorted m -> bsorted (binsert k v m).
  Proof.
    induction 1 as [|[k' v'] m S IH F]; simpl; [repeat constructor|].
    destruct (lt k k') eqn:E1.
    - constructor; [now constructor|]. constructor; [exact E1|].
      eapply Forall_impl; [|exact F]. unfold blt; simpl. intros; eauto.
    - destruct (lt k' k) eqn:E2.
      + constructor; auto. apply Forall_binsert; auto.
      + assert (k = k') by auto; subst k'. constructor; auto.
  Qed.

  Lemma bfind_binsert_eq k v m : bsorted m -> bfind k (binsert k v m) = Some v.
  Proof.
    induction 1 as [|[k' v'] m S IH F]; simpl; [now rewrite lt_irrefl|].
    destruct (lt k k') eqn:E1; [simpl; now rewrite lt_irrefl|].
    destruct (lt k' k) eqn:E2; simpl; [rewrite E1, E2; auto|now rewrite lt_irrefl].
  Qed.
  Lemma bfind_binsert_ne k k0 v m : bsorted m -> k <> k0 -> bfind k0 (binsert k v m) = bfind k0 m.
  Proof.
    intros S Hne; induction S as [|[k' v'] m S IH F]; simpl.
    - destruct (lt k0 k) eqn:E1; auto. destruct (lt k k0) eqn:E2; auto. exfalso; auto.
    - destruct (lt k k') eqn:E1; simpl.
      + destruct (lt k0 k) eqn:E2; [|destruct (lt k k0) eqn:E3; auto; exfalso; auto].
        now rewrite (lt_trans _ _ _ E2 E1).
      + destruct (lt k' k) eqn:E2; simpl.
        * now rewrite IH.
        * assert (k = k') by auto; subst k'.
          destruct (lt k0 k) eqn:E3; auto. destruct (lt k k0) eqn:E4; auto. exfalso; auto.
  Qed.

  Lemma bfind_In k v m : bsorted m -> (bfind k m = Some v <-> In (k, v) m).
  Proof.
    induction 1 as [|[k' v'] m S IH F]; simpl; [split; [discriminate|easy]|].
    rewrite Forall_forall in F. unfold blt in F; simpl in F.
    destruct (lt k k') eqn:E1; [split; [discriminate|]|destruct (lt k' k) eqn:E2].
    - intros [H|H]; [inversion H; subst; now rewrite lt_irrefl in E1|].
      apply F in H; simpl in H. apply lt_asym in H. congruence.
    - rewrite IH. split; [now right|]. intros [H|H]; auto. inversion H; subst.
      now rewrite lt_irrefl in E2.
    - assert (k = k') by auto; subst k'. split; intros H; [inversion H; now left|].
      destruct H as [H|H]; [now inversion H|]. apply F in H; simpl in H. now rewrite lt_irrefl in H.
  Qed.

  Lemma bsorted_ext m1 m2 : bsorted m1 -> bsorted m2 -> (forall k, bfind k m1 = bfind k m2) -> m1 = m2.
  Proof.
    intros S1; revert m2; induction S1 as [|[k1 v1] m1 S1 IH F1]; intros m2 S2 H.
    - destruct m2 as [|[k v] m2]; auto. specialize (H k); simpl in H. now rewrite lt_irrefl in H.
    - destruct m2 as [|[k2 v2] m2]; [specialize (H k1); simpl in H; now rewrite lt_irrefl in H|].
      inversion S2 as [|? ? S2' F2]; subst.
      assert (Hk : k1 = k2).
      { apply lt_tot.
        - destruct (lt k1 k2) eqn:E; auto. specialize (H k1); simpl in H.
          now rewrite lt_irrefl, E in H.
        - destruct (lt k2 k1) eqn:E; auto. specialize (H k2); simpl in H.
          now rewrite lt_irrefl, E in H. }
      subst k2. assert (v1 = v2).
      { specialize (H k1); simpl in H. rewrite lt_irrefl in H. congruence. }
      subst v2. f_equal. apply IH; auto. intros k. specialize (H k); simpl in H.
      assert (Hbl : forall m : list (K * V), bsorted m -> Forall (blt (k1, v1)) m -> lt k1 k = false -> bfind k m = None).
      { intros m Sm Fm Hk. apply bfind_below; auto. eapply Forall_impl; [|exact Fm].
        unfold blt; simpl. intros [k' v'] Hb; simpl in *.
        destruct (lt k k1) eqn:E; eauto. assert (k = k1) by auto; now subst. }
      destruct (lt k k1) eqn:E1; [|destruct (lt k1 k) eqn:E2; auto].
      + rewrite (Hbl m1), (Hbl m2); auto; now apply lt_asym.
      + rewrite (Hbl m1), (Hbl m2); auto.
  Qed.

  Lemma bsorted_NoDup m : bsorted m -> NoDup (map fst m).
  Proof.
    induction 1 as [|[k v] m S IH F]; simpl; constructor; auto.
    intros H; apply in_map_iff in H as ([k' v'] & Hk & H); simpl in Hk; subst.
    rewrite Forall_forall in F. apply F in H. unfold blt in H; simpl in H. now rewrite lt_irrefl in H.
  Qed.

  Lemma binsert_perm_fresh k v m : bsorted m -> bfind k m = None -> Permutation ((k, v) :: m) (binsert k v m).
  Proof.
    induction 1 as [|[k' v'] m S IH F]; simpl; auto. intros H.
    destruct (lt k k'); auto. destruct (lt k' k); [|discriminate].
    rewrite perm_swap. constructor; auto.
  Qed.

  Lemma bcollect_acc l m : bsorted m ->
    bsorted (fold_left (fun m kv => binsert (fst kv) (snd kv) m) l m).
  Proof. revert m; induction l as [|[k v] l IH]; simpl; intros; auto. apply IH, binsert_sorted; auto. Qed.
  Lemma bcollect_sorted l : bsorted (bcollect l).
  Proof. apply bcollect_acc; constructor. Qed.

  (** Collecting distinct keys loses nothing. *)
  Lemma bcollect_acc_perm l m : bsorted m -> NoDup (map fst (l ++ m)) ->
    Permutation (l ++ m) (fold_left (fun m kv => binsert (fst kv) (snd kv) m) l m).
  Proof.
    revert m; induction l as [|[k v] l IH]; simpl; intros m S ND; auto.
    inversion ND as [|? ? Hn ND']; subst.
    assert (Hf : bfind k m = None).
    { destruct (bfind k m) eqn:E; auto. apply bfind_In in E; auto. exfalso; apply Hn.
      rewrite map_app. apply in_or_app; right. now apply (in_map fst) in E. }
    assert (P : Permutation (l ++ binsert k v m) ((k, v) :: l ++ m)).
    { rewrite <- binsert_perm_fresh by auto. symmetry. apply Permutation_middle. }
    rewrite <- IH; [now rewrite P|now apply binsert_sorted|].
    eapply Permutation_NoDup; [apply Permutation_map; symmetry; exact P|simpl; now constructor].
  Qed.
  Lemma bcollect_perm l : NoDup (map fst l) -> Permutation l (bcollect l).
  Proof. intros H. rewrite <- (app_nil_r l) at 1. apply bcollect_acc_perm; [constructor|now rewrite app_nil_r]. Qed.

  Lemma bsorted_map_val (f : K * V -> V) m : bsorted m -> bsorted (map (fun kv => (fst kv, f kv)) m).
  Proof.
    induction 1 as [|[k v] m S IH F]; simpl; constructor; auto.
    rewrite Forall_map. eapply Forall_impl; [|exact F]. unfold blt; simpl; auto.
  Qed.
End BMap.

(** Maps keyed by u32/N. *)
Notation nmap V := (list (N * V)).
Definition nfind {V} (k : N) (m : nmap V) := bfind N.ltb k m.
Definition ninsert {V} (k : N) (v : V) (m : nmap V) := binsert N.ltb k v m.
Definition nsorted {V} (m : nmap V) := bsorted N.ltb m.

Lemma N_irrefl a : (a <? a) = false. Proof. lia. Qed.
Lemma N_trans a b c : (a <? b) = true -> (b <? c) = true -> (a <? c) = true. Proof. lia. Qed.
Lemma N_tot a b : (a <? b) = false -> (b <? a) = false -> a = b. Proof. lia. Qed.

Section NMap.
  Context {V : Type}.
  Implicit Types (m : nmap V).
  Lemma ninsert_sorted k v m : nsorted m -> nsorted (ninsert k v m).
  Proof. apply binsert_sorted; [apply N_trans|apply N_tot]. Qed.
  Lemma nfind_insert_eq k v m : nsorted m -> nfind k (ninsert k v m) = Some v.
  Proof. apply bfind_binsert_eq, N_irrefl. Qed.
  Lemma nfind_insert_ne k k0 v m : nsorted m -> k <> k0 -> nfind k0 (ninsert k v m) = nfind k0 m.
  Proof. apply bfind_binsert_ne; [apply N_trans|apply N_tot]. Qed.
  Lemma nfind_insert k k0 v m : nsorted m ->
    nfind k0 (ninsert k v m) = if k0 =? k then Some v else nfind k0 m.
  Proof.
    intros S. destruct (N.eqb_spec k0 k) as [->|Hne]; [now apply nfind_insert_eq|].
    apply nfind_insert_ne; auto.
  Qed.
  Lemma nfind_In k v m : nsorted m -> (nfind k m = Some v <-> In (k, v) m).
  Proof. apply bfind_In; [apply N_irrefl|apply N_trans|apply N_tot]. Qed.
  Lemma nsorted_ext m1 m2 : nsorted m1 -> nsorted m2 -> (forall k, nfind k m1 = nfind k m2) -> m1 = m2.
  Proof. apply bsorted_ext; [apply N_irrefl|apply N_trans|apply N_tot]. Qed.
  Lemma nsorted_NoDup m : nsorted m -> NoDup (map fst m).
  Proof. apply bsorted_NoDup, N_irrefl. Qed.
  Lemma nsorted_nil : nsorted ([] : nmap V). Proof. constructor. Qed.
  Lemma Forall_ninsert (P : N * V -> Prop) k v m : P (k, v) -> Forall P m -> Forall P (ninsert k v m).
  Proof. apply Forall_binsert. Qed.
End NMap.

(** [map.range((Included(0), Excluded(k))).next_back()]: the entry with the
    greatest key strictly below k. *)
Definition last_below {V} (k : N) (m : nmap V) : option (N * V) :=
  last_opt (filter (fun kv => fst kv <? k) m).

Lemma last_below_spec {V} k (m : nmap V) k' v : nsorted m ->
  (last_below k m = Some (k', v) <->
   nfind k' m = Some v /\ k' < k /\ forall j w, nfind j m = Some w -> j < k -> j <= k').
Proof.
  intros S. unfold last_below. split.
  - intros H. apply last_opt_some in H as (l' & H).
    assert (Hin : In (k', v) (filter (fun kv => fst kv <? k) m)) by (rewrite H; apply in_or_app; right; now left).
    apply filter_In in Hin as (Hin & Hlt); simpl in Hlt.
    split; [now apply nfind_In|]. split; [lia|]. intros j w Hj Hjk.
    apply nfind_In in Hj; auto.
    assert (Hj' : In (j, w) (l' ++ [(k', v)])) by (rewrite <- H; apply filter_In; split; auto; simpl; lia).
    assert (S' : nsorted (l' ++ [(k', v)])).
    { rewrite <- H. clear - S. induction S as [|x m S IH F]; simpl; [constructor|].
      destruct (fst x <? k); auto. constructor; auto. rewrite Forall_forall in *.
      intros y Hy; apply filter_In in Hy as (Hy & _); auto. }
    apply in_app_or in Hj' as [Hj'|[Hj'|[]]]; [|inversion Hj'; lia].
    clear - S' Hj'. induction l' as [|x l' IH]; simpl in *; [easy|].
    inversion S' as [|? ? S'' F]; subst. destruct Hj' as [->|Hj']; auto.
    rewrite Forall_forall in F. assert (Hb : blt N.ltb (j, w) (k', v)) by (apply F, in_or_app; right; now left).
    unfold blt in Hb; simpl in Hb. lia.
  - intros (Hf & Hlt & Hmax). apply nfind_In in Hf; auto.
    destruct (last_opt (filter (fun kv => fst kv <? k) m)) as [[k2 v2]|] eqn:E.
    + apply last_opt_some in E as (l' & E).
      assert (Hin : In (k2, v2) (filter (fun kv => fst kv <? k) m)) by (rewrite E; apply in_or_app; right; now left).
      apply filter_In in Hin as (Hin & Hlt2); simpl in Hlt2.
      assert (H1 : k2 <= k') by (eapply Hmax; [apply nfind_In; eauto|lia]).
      assert (H2 : k' <= k2).
      { assert (Hj' : In (k', v) (l' ++ [(k2, v2)])) by (rewrite <- E; apply filter_In; split; auto; simpl; lia).
        assert (S' : nsorted (l' ++ [(k2, v2)])).
        { rewrite <- E. clear - S. induction S as [|x m S IH F]; simpl; [constructor|].
          destruct (fst x <? k); auto. constructor; auto. rewrite Forall_forall in *.
          intros y Hy; apply filter_In in Hy as (Hy & _); auto. }
        apply in_app_or in Hj' as [Hj'|[Hj'|[]]]; [|inversion Hj'; lia].
        clear - S' Hj'. induction l' as [|x l' IH]; simpl in *; [easy|].
        inversion S' as [|? ? S'' F]; subst. destruct Hj' as [->|Hj']; auto.
        rewrite Forall_forall in F. assert (Hb : blt N.ltb (k', v) (k2, v2)) by (apply F, in_or_app; right; now left).
        unfold blt in Hb; simpl in Hb. lia. }
      assert (k2 = k') by lia; subst k2. apply nfind_In in Hin, Hf; auto. rewrite Hf in Hin; inversion Hin; subst. reflexivity.
    + apply last_opt_none in E. exfalso.
      assert (Hin : In (k', v) (filter (fun kv => fst kv <? k) m)) by (apply filter_In; split; auto; simpl; lia).
      rewrite E in Hin; easy.
Qed.
Lemma last_below_none {V} k (m : nmap V) : nsorted m ->
  (last_below k m = None <-> forall j w, nfind j m = Some w -> k <= j).
Proof.
  intros S. unfold last_below. split.
  - intros H j w Hj. apply last_opt_none in H. apply nfind_In in Hj; auto.
    destruct (N.ltb_spec j k); [|lia]. exfalso.
    assert (Hin : In (j, w) (filter (fun kv => fst kv <? k) m)) by (apply filter_In; split; auto; simpl; lia).
    rewrite H in Hin; easy.
  - intros H. destruct (last_opt _) as [[j w]|] eqn:E; auto. exfalso.
    apply last_opt_some in E as (l' & E).
    assert (Hin : In (j, w) (filter (fun kv => fst kv <? k) m)) by (rewrite E; apply in_or_app; right; now left).
    apply filter_In in Hin as (Hin & Hlt); simpl in Hlt. apply nfind_In in Hin; auto.
    apply H in Hin. lia.
Qed.
