(** Proofs about file and origin numbering. *)
From Verif Require Import Base Str Utf8 M_Names M_Path M_Source S_Source.

(** ** Association lists *)
Section Afind.
Context {K V : Type} (eqb : K -> K -> bool) (Heqb : forall x y, eqb x y = true <-> x = y).
Lemma afind_In k (l : list (K * V)) v : afind eqb k l = Some v -> In (k, v) l.
Proof.
  induction l as [|[k' v'] l IH]; cbn; [discriminate|]. destruct (eqb k k') eqn:E.
  - intros [= ->]. apply Heqb in E. subst. now left.
  - intros H. right. auto.
Qed.
Lemma afind_None k (l : list (K * V)) : afind eqb k l = None <-> ~ In k (map fst l).
Proof.
  induction l as [|[k' v'] l IH]; cbn; [tauto|]. destruct (eqb k k') eqn:E.
  - apply Heqb in E. subst. split; [discriminate|tauto].
  - rewrite IH. split; [|tauto]. intros H [->|H']; [|tauto]. assert (eqb k k = true) by now apply Heqb. congruence.
Qed.
Lemma afind_unique k (l : list (K * V)) v : NoDup (map fst l) -> In (k, v) l -> afind eqb k l = Some v.
Proof.
  induction l as [|[k' v'] l IH]; cbn; [tauto|]. intros ND H. inversion ND as [|? ? N1 N2]; subst.
  destruct (eqb k k') eqn:E.
  - apply Heqb in E. subst k'. destruct H as [[= ->]|H]; [reflexivity|]. exfalso. apply N1. apply (in_map fst) in H. exact H.
  - destruct H as [[= -> ->]|H]; [|auto]. assert (eqb k k = true) by now apply Heqb. congruence.
Qed.
Lemma afind_app k (l : list (K * V)) l' : afind eqb k (l ++ l') = match afind eqb k l with Some v => Some v | None => afind eqb k l' end.
Proof. induction l as [|[k' v'] l IH]; cbn; [reflexivity|]. destruct (eqb k k'); auto. Qed.
End Afind.

Lemma key_eqb_eq a b : key_eqb a b = true <-> a = b.
Proof.
  destruct a as [[[? ?] [? ?]] [? ?]], b as [[[? ?] [? ?]] [? ?]]. cbn.
  rewrite !andb_true_iff, !N.eqb_eq. split.
  - intros [[[[[-> ->] ->] ->] ->] ->]. reflexivity.
  - intros [= -> -> -> -> -> ->]. tauto.
Qed.
Lemma name_eqb_eq a b : name_eqb a b = true <-> a = b.
Proof.
  destruct a, b. unfold name_eqb. cbn. rewrite !andb_true_iff, !N.eqb_eq, str_eqb_eq. split.
  - intros [[-> ->] ->]. reflexivity.
  - intros [= -> -> ->]. tauto.
Qed.

Lemma Forall2_impl {A B} (P Q : A -> B -> Prop) l l' : (forall a b, P a b -> Q a b) -> Forall2 P l l' -> Forall2 Q l l'.
Proof. intros H F. induction F; constructor; auto. Qed.

Lemma Forall2_length {A B} (P : A -> B -> Prop) l l' : Forall2 P l l' -> length l = length l'.
Proof. intros F. induction F; cbn; congruence. Qed.

(** ** countN *)
Lemma countN_length a n : length (countN a n) = n.
Proof. revert a; induction n; intros; cbn; auto. Qed.
Lemma countN_nth n : forall a i, i < N.of_nat n -> nthN (countN a n) i = Some (a + i).
Proof.
  induction n as [|n IH]; intros a i Hi; [lia|]. unfold nthN. cbn [countN].
  destruct (N.to_nat i) as [|j] eqn:E.
  - cbn. f_equal. lia.
  - cbn [nth_error]. specialize (IH (a + 1) (N.of_nat j) ltac:(lia)). unfold nthN in IH. rewrite Nat2N.id in IH.
    rewrite IH. f_equal. lia.
Qed.
Lemma countN_snoc a n : countN a (S n) = countN a n ++ [a + N.of_nat n].
Proof.
  revert a; induction n as [|n IH]; intros a; [cbn; f_equal; lia|].
  change (countN a (S (S n))) with (a :: countN (a + 1) (S n)). rewrite IH. cbn [countN app]. f_equal. f_equal. f_equal. lia.
Qed.

(** ** File numbering
    Canonical state for the distinct paths [P] seen so far, all in use. *)
Definition numbered {A} (l : list A) : list (A * N) := combine l (countN 0 (length l)).
Lemma numbered_snoc {A} (l : list A) x : numbered (l ++ [x]) = numbered l ++ [(x, lenN l)].
Proof.
  unfold numbered. rewrite app_length, Nat.add_1_r, countN_snoc.
  assert (H : forall (a : list A) (b : list N), length a = length b -> forall y z, combine (a ++ [y]) (b ++ [z]) = combine a b ++ [(y, z)]).
  { clear. induction a as [|u a IH]; intros [|v b] E y z; try discriminate; cbn; [reflexivity|]. injection E as E. now rewrite IH. }
  rewrite H by now rewrite countN_length. unfold lenN. now rewrite N.add_0_l.
Qed.
Lemma numbered_fst {A} (l : list A) : map fst (numbered l) = l.
Proof.
  unfold numbered. generalize 0. induction l as [|x l IH]; intros n; [reflexivity|]. cbn. now rewrite IH.
Qed.
Lemma numbered_In {A} (l : list A) x i : In (x, i) (numbered l) <-> nthN l i = Some x.
Proof.
  induction l as [|y l IH] using rev_ind.
  - cbn. unfold nthN. destruct (N.to_nat i); cbn; split; easy.
  - rewrite numbered_snoc, in_app_iff, IH. cbn. split.
    + intros [H|[[= -> <-]|[]]].
      * rewrite nthN_app1; [exact H|]. now apply nthN_some_lt in H.
      * rewrite nthN_app2 by lia. now rewrite N.sub_diag.
    + intros H. destruct (N.lt_ge_cases i (lenN l)) as [L|L].
      * rewrite nthN_app1 in H by exact L. now left.
      * rewrite nthN_app2 in H by exact L. right. left. unfold nthN in H.
        destruct (N.to_nat (i - lenN l)) as [|j] eqn:E; cbn in H; [|destruct j; discriminate].
        injection H as ->. f_equal. lia.
Qed.
Lemma numbered_find (l : list str) x : NoDup l ->
  forall i, afind str_eqb x (numbered l) = Some i <-> nthN l i = Some x.
Proof.
  intros ND i. rewrite <- numbered_In. split.
  - apply afind_In, str_eqb_eq.
  - apply afind_unique; [exact str_eqb_eq|]. now rewrite numbered_fst.
Qed.
Lemma numbered_find_none (l : list str) x : afind str_eqb x (numbered l) = None <-> ~ In x l.
Proof. rewrite (afind_None str_eqb str_eqb_eq). now rewrite numbered_fst. Qed.
Lemma nthN_NoDup {A} (l : list A) i j x : NoDup l -> nthN l i = Some x -> nthN l j = Some x -> i = j.
Proof.
  intros ND Hi Hj. pose proof (nthN_some_lt _ _ _ Hi) as L. unfold nthN, lenN in *.
  rewrite NoDup_nth_error in ND. specialize (ND (N.to_nat i) (N.to_nat j) ltac:(lia) ltac:(congruence)). lia.
Qed.

Definition fake_of (e : SrcEnv) (P : list str) : list (option N * str) :=
  map (fun pi => (Some (snd pi), sp_shown e (fst pi))) (numbered P).
Lemma fake_of_snoc e P p : fake_of e (P ++ [p]) = fake_of e P ++ [(Some (lenN P), sp_shown e p)].
Proof. unfold fake_of. rewrite numbered_snoc, map_app. reflexivity. Qed.
Lemma fake_of_len e P : lenN (fake_of e P) = lenN P.
Proof. unfold fake_of, numbered, lenN. rewrite map_length, combine_length, countN_length, Nat.min_id. reflexivity. Qed.
Lemma fake_of_nth e P i p : nthN P i = Some p -> nthN (fake_of e P) i = Some (Some i, sp_shown e p).
Proof.
  induction P as [|q P IH] using rev_ind; [unfold nthN; destruct (N.to_nat i); discriminate|].
  intros H. rewrite fake_of_snoc. destruct (N.lt_ge_cases i (lenN P)) as [L|L].
  - rewrite nthN_app1 in H by exact L. rewrite nthN_app1 by (rewrite fake_of_len; exact L). auto.
  - assert (i = lenN P). { apply nthN_some_lt in H. rewrite lenN_app in H. unfold lenN at 2 in H. cbn in H. lia. }
    subst i. rewrite nthN_app2 in H by lia. rewrite nthN_app2 by (rewrite fake_of_len; lia).
    rewrite fake_of_len, N.sub_diag in *. injection H as ->. reflexivity.
Qed.

Lemma set_nthN_last {A} (l : list A) a b : set_nthN (l ++ [a]) (lenN l) b = l ++ [b].
Proof.
  unfold set_nthN, lenN. rewrite Nat2N.id. induction l as [|x l IH]; [reflexivity|]. cbn. now rewrite IH.
Qed.

(** [kp] is the meaning of a cache key. *)
Record SrcInv (e : SrcEnv) (kp : Key -> str) (P : list str) (s : Src) : Prop := mkSrcInv {
  si_nodup : NoDup P;
  si_ref : sf_ref s = numbered P;
  si_fake : sf_fake s = fake_of e P;
  si_ids : sf_ids s = map (sp_shown e) P;
  si_cache : forall k i, In (k, i) (sf_cache s) -> nthN P i = Some (kp k)
}.
Lemma src_new_inv e kp : SrcInv e kp [] src_new.
Proof. constructor; try reflexivity; [constructor|intros k i []]. Qed.

(** [get_id] on a path already numbered. *)
Lemma get_id_known e kp P s r i : SrcInv e kp P s -> kp (fr_key r) = env_path e r -> nthN P i = Some (env_path e r) ->
  exists s', src_get_id e r s = (i, s') /\ SrcInv e kp P s'.
Proof.
  intros I Hk Hi. destruct I as [ND R F D C]. unfold src_get_id.
  destruct (afind key_eqb (fr_key r) (sf_cache s)) as [j|] eqn:E.
  - apply (afind_In _ key_eqb_eq) in E. apply C in E. rewrite Hk in E.
    rewrite (nthN_NoDup _ _ _ _ ND Hi E). exists s. split; [reflexivity|]. now constructor.
  - assert (afind str_eqb (env_path e r) (sf_ref s) = Some i) as -> by (rewrite R; now apply numbered_find).
    eexists. split; [reflexivity|]. constructor; cbn; trivial.
    intros k j H. apply in_app_or in H as [H|[[= <- <-]|[]]]; [auto|]. congruence.
Qed.
Lemma true_id_known e kp P s i p : SrcInv e kp P s -> nthN P i = Some p -> src_get_true_id i s = Ok (i, s).
Proof.
  intros I Hi. unfold src_get_true_id. rewrite (si_fake _ _ _ _ I), (fake_of_nth e P i p Hi). reflexivity.
Qed.
(** [get_id] on a new path: the intermediate state, which [get_true_id] completes. *)
Lemma get_id_new e kp P s r : SrcInv e kp P s -> kp (fr_key r) = env_path e r -> ~ In (env_path e r) P ->
  exists s1 s2, src_get_id e r s = (lenN P, s1) /\ src_get_true_id (lenN P) s1 = Ok (lenN P, s2) /\
    SrcInv e kp (P ++ [env_path e r]) s2.
Proof.
  intros I Hk Hn. destruct I as [ND R F D C]. unfold src_get_id.
  destruct (afind key_eqb (fr_key r) (sf_cache s)) as [j|] eqn:E.
  { apply (afind_In _ key_eqb_eq) in E. apply C in E. rewrite Hk in E. apply nthN_In in E. contradiction. }
  assert (afind str_eqb (env_path e r) (sf_ref s) = None) as -> by (rewrite R; now apply numbered_find_none).
  rewrite F, fake_of_len. eexists. eexists. split; [reflexivity|].
  set (p := env_path e r) in *. unfold src_get_true_id. cbn [sf_fake sf_ids sf_cache sf_ref].
  rewrite nthN_app2 by (rewrite fake_of_len; lia). rewrite fake_of_len, N.sub_diag. cbn [nthN].
  change (nthN [(None, match se_map e p with Some q => q | None => p end)] 0)
    with (Some (@None N, sp_shown e p)).
  assert (L : lenN (sf_ids s) = lenN P) by (rewrite D; unfold lenN; now rewrite map_length).
  cbv beta iota zeta. rewrite L. split; [reflexivity|]. constructor; cbn [sf_ref sf_fake sf_ids sf_cache].
  - apply NoDup_rev in ND. rewrite <- (rev_involutive (P ++ [p])). apply NoDup_rev. rewrite rev_app_distr. cbn.
    constructor; [|exact ND]. now rewrite <- in_rev.
  - now rewrite R, numbered_snoc.
  - rewrite fake_of_snoc, <- (fake_of_len e P). apply set_nthN_last.
  - now rewrite D, map_app.
  - intros k i H. apply in_app_or in H as [H|[[= <- <-]|[]]].
    + pose proof (C k i H) as H'. rewrite nthN_app1; [exact H'|]. now apply nthN_some_lt in H'.
    + rewrite nthN_app2 by lia. rewrite N.sub_diag, Hk. reflexivity.
Qed.

Definition extends {A} (P P' : list A) : Prop := exists Q, P' = P ++ Q.
Lemma extends_refl {A} (P : list A) : extends P P. Proof. exists []. now rewrite app_nil_r. Qed.
Lemma extends_trans {A} (P Q R : list A) : extends P Q -> extends Q R -> extends P R.
Proof. intros [x ->] [y ->]. exists (x ++ y). now rewrite app_assoc. Qed.
Lemma extends_snoc {A} (P : list A) x : extends P (P ++ [x]). Proof. now exists [x]. Qed.
Lemma extends_nth {A} (P P' : list A) i x : extends P P' -> nthN P i = Some x -> nthN P' i = Some x.
Proof. intros [Q ->] H. rewrite nthN_app1; [exact H|]. now apply nthN_some_lt in H. Qed.

Lemma lookup_inv e kp P s r : SrcInv e kp P s -> kp (fr_key r) = env_path e r ->
  exists i P' s', src_lookup e r s = Ok (i, s') /\ SrcInv e kp P' s' /\ extends P P' /\
    nthN P' i = Some (env_path e r) /\ (forall p, In p P' -> In p P \/ p = env_path e r).
Proof.
  intros I Hk. unfold src_lookup. destruct (in_dec str_eq_dec (env_path e r) P) as [Hin|Hn].
  - assert (exists i, nthN P i = Some (env_path e r)) as [i Hi].
    { apply In_nth_error in Hin as [i Hi]. exists (N.of_nat i). unfold nthN. now rewrite Nat2N.id. }
    destruct (get_id_known e kp P s r i I Hk Hi) as (s' & -> & I').
    rewrite (true_id_known e kp P s' i _ I' Hi). exists i, P, s'. splits; auto using extends_refl.
  - destruct (get_id_new e kp P s r I Hk Hn) as (s1 & s2 & -> & E & I'). cbv beta iota. rewrite E.
    exists (lenN P), (P ++ [env_path e r]), s2. splits; trivial; [apply extends_snoc| |].
    + rewrite nthN_app2 by lia. rewrite N.sub_diag. reflexivity.
    + intros p H. apply in_app_or in H as [H|[<-|[]]]; tauto.
Qed.

Lemma lookups_inv e kp rs : forall P s, SrcInv e kp P s -> (forall r, In r rs -> kp (fr_key r) = env_path e r) ->
  exists ns P' s', lookups e rs s = Ok (ns, s') /\ SrcInv e kp P' s' /\ extends P P' /\
    Forall2 (fun r i => nthN P' i = Some (env_path e r)) rs ns /\
    (forall p, In p P' -> In p P \/ exists r, In r rs /\ p = env_path e r).
Proof.
  induction rs as [|r rs IH]; intros P s I H.
  - exists [], P, s. splits; auto using extends_refl.
  - destruct (lookup_inv e kp P s r I (H r (or_introl eq_refl))) as (i & P1 & s1 & E1 & I1 & X1 & N1 & S1).
    destruct (IH P1 s1 I1 (fun r' h => H r' (or_intror h))) as (ns & P2 & s2 & E2 & I2 & X2 & F2 & S2).
    exists (i :: ns), P2, s2. cbn [lookups]. rewrite E1. cbn [bind snd]. rewrite E2. cbn [bind fst snd].
    splits; trivial.
    + eapply extends_trans; eauto.
    + constructor; [|exact F2]. eapply extends_nth; eauto.
    + intros p Hp. destruct (S2 p Hp) as [Hp1|(r' & Hr & ->)]; [|right; exists r'; split; [now right|reflexivity]].
      destruct (S1 p Hp1) as [?| ->]; [now left|right]. exists r. split; [now left|reflexivity].
Qed.

(** A consistent history gives a meaning to cache keys. *)
Lemma consistent_kp e rs : consistent rs -> exists kp, forall r, In r rs -> kp (fr_key r) = env_path e r.
Proof.
  intros C. exists (fun k => match find (fun r => key_eqb (fr_key r) k) rs with Some r => env_path e r | None => [] end).
  intros r Hr. destruct (find (fun r' => key_eqb (fr_key r') (fr_key r)) rs) as [r'|] eqn:E.
  - apply find_some in E as [Hr' K]. apply key_eqb_eq in K. unfold fr_key in K. injection K as K1 K2 K3 K4 K5 K6.
    destruct (C r' r Hr' Hr K1 K2 K3 K4 K5 K6) as (A1 & A2 & A3). unfold env_path. now rewrite A1, A2, A3.
  - exfalso. pose proof (find_none _ _ E r Hr) as K. cbv beta in K.
    assert (key_eqb (fr_key r) (fr_key r) = true) by now apply key_eqb_eq. congruence.
Qed.

Lemma Forall2_nthN {A B} (Q : A -> B -> Prop) l l' i : Forall2 Q l l' -> forall x y, nthN l i = Some x -> nthN l' i = Some y -> Q x y.
Proof.
  intros H. unfold nthN. revert H. generalize (N.to_nat i). intros j H; revert j.
  induction H as [|a b l l' Hab _ IH]; intros [|j] x y; cbn; try discriminate.
  - intros [= <-] [= <-]. exact Hab.
  - apply IH.
Qed.

Lemma numbering e rs : consistent rs ->
  exists ns s, lookups e rs src_new = Ok (ns, s) /\
    Forall2 (fun r i => nthN (sf_ids s) i = Some (sp_shown e (env_path e r))) rs ns /\
    (forall i j r r' n m, nthN rs i = Some r -> nthN rs j = Some r' -> nthN ns i = Some n -> nthN ns j = Some m ->
       (n = m <-> env_path e r = env_path e r')) /\
    (forall k, k < lenN (sf_ids s) -> exists r, In r rs /\ In k ns /\ nthN (sf_ids s) k = Some (sp_shown e (env_path e r))).
Proof.
  intros C. destruct (consistent_kp e rs C) as [kp Hkp].
  destruct (lookups_inv e kp rs [] src_new (src_new_inv e kp) Hkp) as (ns & P & s & E & I & _ & F & S).
  exists ns, s. split; [exact E|]. destruct I as [ND R Fk D Ca].
  assert (T : forall i p, nthN P i = Some p -> nthN (sf_ids s) i = Some (sp_shown e p)).
  { intros i p H. rewrite D. unfold nthN in *. now apply map_nth_error. }
  split; [|split].
  - eapply Forall2_impl; [|exact F]. intros r i H. now apply T.
  - intros i j r r' n m Hr Hr' Hn Hm.
    pose proof (Forall2_nthN _ _ _ i F r n Hr Hn) as A. pose proof (Forall2_nthN _ _ _ j F r' m Hr' Hm) as B.
    cbv beta in A, B. split.
    + intros ->. congruence.
    + intros H. rewrite H in A. exact (nthN_NoDup _ _ _ _ ND A B).
  - intros k Hk. assert (Lk : k < lenN P) by (rewrite D in Hk; unfold lenN in *; rewrite map_length in Hk; exact Hk).
    destruct (nthN_lt_some P k Lk) as [p Hp]. destruct (S p (nthN_In _ _ _ Hp)) as [[]|(r & Hr & ->)].
    exists r. split; [exact Hr|]. split; [|now apply T].
    apply In_nth_error in Hr as [j Hj]. destruct (nth_error ns j) as [n|] eqn:Hn.
    + assert (nthN P n = Some (env_path e r)).
      { pose proof (Forall2_nthN _ _ _ (N.of_nat j) F) as Q. unfold nthN at 1 2 in Q. rewrite Nat2N.id in Q. exact (Q r n Hj Hn). }
      rewrite (nthN_NoDup _ _ _ _ ND Hp H). now apply nth_error_In in Hn.
    + exfalso. apply nth_error_None in Hn. apply Forall2_length in F. rewrite <- F in Hn.
      assert (nth_error rs j <> None) by congruence. apply nth_error_Some in H. lia.
Qed.

(** Numbers given out earlier keep their meaning. *)
Lemma numbering_stable e rs1 rs2 : consistent (rs1 ++ rs2) ->
  exists ns1 s1 ns2 s2, lookups e rs1 src_new = Ok (ns1, s1) /\
    lookups e (rs1 ++ rs2) src_new = Ok (ns1 ++ ns2, s2) /\ exists more, sf_ids s2 = sf_ids s1 ++ more.
Proof.
  intros C. destruct (consistent_kp e _ C) as [kp Hkp].
  destruct (lookups_inv e kp rs1 [] src_new (src_new_inv e kp) (fun r h => Hkp r (in_or_app _ _ _ (or_introl h))))
    as (ns1 & P1 & s1 & E1 & I1 & _ & _ & _).
  destruct (lookups_inv e kp rs2 P1 s1 I1 (fun r h => Hkp r (in_or_app _ _ _ (or_intror h))))
    as (ns2 & P2 & s2 & E2 & I2 & [Q X2] & _ & _).
  exists ns1, s1, ns2, s2. split; [exact E1|]. split.
  - clear - E1 E2. revert E1. generalize src_new. revert ns1. induction rs1 as [|r rs IH]; intros ns1 s E1; cbn [app lookups] in *.
    + injection E1 as <- <-. exact E2.
    + destruct (src_lookup e r s) as [[i s']| |]; cbn [bind fst snd] in *; try discriminate.
      destruct (lookups e rs s') as [[ns s'']| |] eqn:E; cbn [bind fst snd] in *; try discriminate.
      injection E1 as <- <-. rewrite (IH ns s' E). reflexivity.
  - exists (map (sp_shown e) Q). rewrite (si_ids _ _ _ _ I1), (si_ids _ _ _ _ I2), X2. apply map_app.
Qed.

(** ** Inline origins *)
Record OrigInv (d : Demangler) (ns : list Name) (o : Orig) : Prop := mkOrigInv {
  oi_nodup : NoDup ns;
  oi_index : og_index o = numbered ns;
  oi_names : og_names o = map (demangle_and_sanitize d) ns
}.
Lemma orig_new_inv d : OrigInv d [] orig_new.
Proof. constructor; try reflexivity. constructor. Qed.
Lemma name_eq_dec (x y : Name) : {x = y} + {x <> y}.
Proof. destruct (name_eqb x y) eqn:E; [left; now apply name_eqb_eq|right; intros H; apply name_eqb_eq in H; congruence]. Qed.

Lemma NoDup_snoc {A} (l : list A) x : NoDup l -> ~ In x l -> NoDup (l ++ [x]).
Proof.
  intros ND Hn. apply NoDup_rev in ND. rewrite <- (rev_involutive (l ++ [x])). apply NoDup_rev. rewrite rev_app_distr. cbn.
  constructor; [|exact ND]. now rewrite <- in_rev.
Qed.

Lemma orig_inv d ns o n : OrigInv d ns o -> exists i ns' o', orig_get_id d n o = (i, o') /\ OrigInv d ns' o' /\
  extends ns ns' /\ nthN ns' i = Some n /\ (forall m, In m ns' -> In m ns \/ m = n).
Proof.
  intros I. pose proof I as [ND IX NM]. unfold orig_get_id. rewrite IX. destruct (afind name_eqb n (numbered ns)) as [i|] eqn:E.
  - apply (afind_In _ name_eqb_eq), numbered_In in E. exists i, ns, o.
    splits; auto using extends_refl.
  - apply (afind_None _ name_eqb_eq) in E. rewrite numbered_fst in E.
    assert (L : lenN (og_names o) = lenN ns) by (rewrite NM; unfold lenN; now rewrite map_length).
    rewrite L. eexists. exists (ns ++ [n]). eexists. split; [reflexivity|]. split; [|split; [apply extends_snoc|split]].
    + constructor; cbn; [now apply NoDup_snoc|now rewrite numbered_snoc|now rewrite NM, map_app].
    + rewrite nthN_app2 by lia. now rewrite N.sub_diag.
    + intros m H. apply in_app_or in H as [H|[<-|[]]]; tauto.
Qed.
Lemma origins_inv d reqs : forall ns o, OrigInv d ns o ->
  exists is ns' o', origins d reqs o = (is, o') /\ OrigInv d ns' o' /\ extends ns ns' /\
    Forall2 (fun n i => nthN ns' i = Some n) reqs is /\ (forall m, In m ns' -> In m ns \/ In m reqs).
Proof.
  induction reqs as [|n reqs IH]; intros ns o I.
  - exists [], ns, o. splits; auto using extends_refl.
  - destruct (orig_inv d ns o n I) as (i & ns1 & o1 & E1 & I1 & X1 & N1 & S1).
    destruct (IH ns1 o1 I1) as (is & ns2 & o2 & E2 & I2 & X2 & F2 & S2).
    exists (i :: is), ns2, o2. cbn [origins]. rewrite E1, E2. splits; trivial; try apply I2.
    + eapply extends_trans; eauto.
    + constructor; [|exact F2]. eapply extends_nth; eauto.
    + intros m Hm. destruct (S2 m Hm) as [H|H]; [|right; now right]. destruct (S1 m H) as [?| ->]; [now left|right; now left].
Qed.
Lemma origin_numbering d reqs : exists is o, origins d reqs orig_new = (is, o) /\
  Forall2 (fun n i => nthN (og_names o) i = Some (demangle_and_sanitize d n)) reqs is /\
  (forall i j n m a b, nthN reqs i = Some n -> nthN reqs j = Some m -> nthN is i = Some a -> nthN is j = Some b ->
     (a = b <-> n = m)) /\
  (forall k, k < lenN (og_names o) -> In k is).
Proof.
  destruct (origins_inv d reqs [] orig_new (orig_new_inv d)) as (is & ns & o & E & [ND IX NM] & _ & F & S).
  exists is, o. split; [exact E|]. split; [|split].
  - eapply Forall2_impl; [|exact F]. cbv beta. intros n i H. rewrite NM. unfold nthN in *. now apply map_nth_error.
  - intros i j n m a b Hn Hm Ha Hb.
    pose proof (Forall2_nthN _ _ _ i F n a Hn Ha) as A. pose proof (Forall2_nthN _ _ _ j F m b Hm Hb) as B.
    cbv beta in A, B. split; [intros ->; congruence|intros ->]. exact (nthN_NoDup _ _ _ _ ND A B).
  - intros k Hk. rewrite NM in Hk. unfold lenN in Hk. rewrite map_length in Hk.
    destruct (nthN_lt_some ns k Hk) as [n Hn]. destruct (S n (nthN_In _ _ _ Hn)) as [[]|Hin].
    apply In_nth_error in Hin as [j Hj]. destruct (nth_error is j) as [m|] eqn:Hm.
    + pose proof (Forall2_nthN _ _ _ (N.of_nat j) F) as Q. unfold nthN at 1 2 in Q. rewrite Nat2N.id in Q. specialize (Q n m Hj Hm).
      cbv beta in Q. rewrite (nthN_NoDup _ _ _ _ ND Hn Q). now apply nth_error_In in Hm.
    + exfalso. apply nth_error_None in Hm. apply Forall2_length in F. rewrite <- F in Hm.
      assert (nth_error reqs j <> None) by congruence. apply nth_error_Some in H. lia.
Qed.
Lemma origins_app d r1 r2 o : origins d (r1 ++ r2) o =
  let '(i1, o1) := origins d r1 o in let '(i2, o2) := origins d r2 o1 in (i1 ++ i2, o2).
Proof.
  revert o. induction r1 as [|n r1 IH]; intros o; cbn [app origins].
  - destruct (origins d r2 o). reflexivity.
  - destruct (orig_get_id d n o) as [i o1]. rewrite IH. destruct (origins d r1 o1) as [i1 o2].
    destruct (origins d r2 o2) as [i2 o3]. reflexivity.
Qed.
Lemma origin_numbering_stable d r1 r2 : exists i1 o1 i2 o2 more, origins d r1 orig_new = (i1, o1) /\
  origins d (r1 ++ r2) orig_new = (i1 ++ i2, o2) /\ og_names o2 = og_names o1 ++ more.
Proof.
  destruct (origins_inv d r1 [] orig_new (orig_new_inv d)) as (i1 & n1 & o1 & E1 & I1 & _).
  destruct (origins_inv d r2 n1 o1 I1) as (i2 & n2 & o2 & E2 & I2 & [Q X] & _).
  exists i1, o1, i2, o2, (map (demangle_and_sanitize d) Q). split; [exact E1|]. split.
  - rewrite origins_app, E1, E2. reflexivity.
  - rewrite (oi_names _ _ _ I2), (oi_names _ _ _ I1), X. apply map_app.
Qed.
Lemma sanitized d n c : In c (demangle_and_sanitize d n) -> 32 <= c /\ c <> 127.
Proof.
  unfold demangle_and_sanitize. intros H. apply filter_In in H as [_ H]. unfold is_ascii_control in H. lia.
Qed.

(** ** Merging origins *)
Lemma merge_origins_spec l r m ren : merge_inline_origins l r = (m, ren) ->
  (exists more, m = l ++ more) /\ length ren = length r /\
  (forall i s, nthN r i = Some s -> exists j, nthN ren i = Some j /\ nthN m j = Some s) /\
  (forall s, In s m -> In s l \/ In s r) /\ length m = (length l + length r)%nat.
Proof.
  intros H. assert (m = l ++ r /\ (ren = countN (lenN l) (length r))) as [-> ->].
  { unfold merge_inline_origins in H. destruct r as [|s0 r].
    - injection H as <- <-. rewrite app_nil_r. auto.
    - destruct l as [|t l]; injection H as <- <-; auto. }
  clear H. splits; [now exists r|apply countN_length| | |apply app_length].
  - intros i s H. pose proof (nthN_some_lt _ _ _ H) as L. exists (lenN l + i). split; [now apply countN_nth|].
    rewrite nthN_app2 by lia. replace (lenN l + i - lenN l) with i by lia. exact H.
  - intros s H. now apply in_app_or in H.
Qed.

(** ** INLINE_ORIGIN text *)
Lemma trim_start_nil p s : trim_start_by p s = [] -> forallb p s = true.
Proof. induction s as [|c s IH]; [reflexivity|]. cbn. destruct (p c); [cbn; auto|discriminate]. Qed.
Lemma trim_nil_iff s : trim s = [] <-> forallb is_ws s = true.
Proof.
  unfold trim, trim_end_by. split.
  - intros H. apply (f_equal (@rev N)) in H. rewrite rev_involutive in H. cbn in H. apply trim_start_nil in H.
    rewrite forallb_forall in H. assert (G : forallb is_ws (trim_start_by is_ws s) = true).
    { apply forallb_forall. intros c Hc. apply H. now apply -> in_rev. }
    clear H. induction s as [|c s IH]; [reflexivity|]. cbn in *. destruct (is_ws c) eqn:E; [exact (IH G)|].
    cbn in G. now rewrite E in G.
  - intros H. assert (trim_start_by is_ws s = []) as ->.
    { induction s as [|c s IH]; [reflexivity|]. cbn in *. destruct (is_ws c); [auto|discriminate]. }
    reflexivity.
Qed.
Lemma trim_nonblank s c t : trim s = c :: t -> visible s.
Proof.
  intros H. assert (forallb is_ws s <> true) by (rewrite <- trim_nil_iff; congruence).
  apply not_true_is_false in H0. clear H. induction s as [|d s IH]; [discriminate|]. cbn in H0.
  destruct (is_ws d) eqn:E; [destruct (IH H0) as [x [H1 H2]]; exists x; split; [now right|exact H2]|].
  exists d. split; [now left|exact E].
Qed.
Lemma dec_no_nl n : ~ In 10 (dec n).
Proof. intros H. pose proof (dec_chars n) as F. rewrite Forall_forall in F. specialize (F 10 H). lia. Qed.

Lemma origin_line k name : ~ In 10 name -> exists shown, fmt_origin k name = lit "INLINE_ORIGIN " ++ dec k ++ [32] ++ shown ++ [10] /\
  one_line (fmt_origin k name) /\ visible shown /\ (visible name -> shown = name).
Proof.
  intros Hn. unfold fmt_origin. set (sh := match trim name with [] => _ | _ => _ end).
  assert (visible sh /\ (visible name -> sh = name) /\ ~ In 10 sh) as (V & E & N).
  { subst sh. destruct (trim name) as [|c t] eqn:T.
    - split; [|split].
      + exists 60. split; [now left|reflexivity].
      + intros [c [Hc Hw]]. apply trim_nil_iff in T. rewrite forallb_forall in T. specialize (T c Hc). congruence.
      + vm_compute. intuition congruence.
    - split; [eapply trim_nonblank; eauto|]. auto. }
  exists sh. split; [reflexivity|]. split; [|auto].
  exists (lit "INLINE_ORIGIN " ++ dec k ++ [c_sp] ++ sh). split; [now rewrite <- !app_assoc|].
  intros H. apply in_app_or in H as [H|H]; [vm_compute in H; intuition congruence|].
  apply in_app_or in H as [H|H]; [now apply dec_no_nl in H|].
  apply in_app_or in H as [H|H]; [vm_compute in H; intuition congruence|]. tauto.
Qed.
Lemma origin_line_any d reqs is o k name : origins d reqs orig_new = (is, o) -> nthN (og_names o) k = Some name ->
  exists shown, fmt_origin k name = lit "INLINE_ORIGIN " ++ dec k ++ [32] ++ shown ++ [10] /\
  one_line (fmt_origin k name) /\ visible shown /\ (visible name -> shown = name).
Proof.
  intros E H. apply origin_line. destruct (origins_inv d reqs [] orig_new (orig_new_inv d)) as (is' & ns & o' & E' & I & _).
  rewrite E in E'. injection E' as <- <-. rewrite (oi_names _ _ _ I) in H. apply nthN_In in H.
  apply in_map_iff in H as [n [<- _]]. intros H. apply sanitized in H. lia.
Qed.
