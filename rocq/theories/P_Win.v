(** The names that public symbols give to functions of Windows files. *)
From Verif Require Import Base BMap Str M_Names S_Names P_Names M_Path M_Line M_Symbol S_Symbol P_Symbol.

Lemma clear_inside ck m k b : filed m -> (forall j w, nfind j m = Some w -> clear_of k j (sy_len w) /\ sy_len w < two32) ->
  is_inside_symbol ck k m = Ok b -> b = false.
Proof.
  intros (S & F) A H. unfold is_inside_symbol in H. destruct (last_below k m) as [[j w]|] eqn:E; [|congruence].
  apply closest_last in E; [|exact S]. destruct E as (Hj & Lj & _). destruct (A j w Hj) as (Aj & Lw). destruct (F j w Hj) as (Rj & Tj). rewrite Rj in H. unfold clear_of in Aj.
  unfold add32, add_w in H. destruct (N.ltb_spec (j + sy_len w) two32) as [L|L].
  - cbn [bind] in H. inversion H as [Hb]. lia.
  - destruct ck; [discriminate|]. cbn [bind] in H. inversion H as [Hb]. assert (E : (j + sy_len w) mod two32 = j + sy_len w - two32).
    { symmetry. apply (N.mod_unique _ _ 1); lia. }
    rewrite E. lia.
Qed.
Lemma win_names ck dm k pubs : forall m m' s, filed m -> (forall j w, nfind j m = Some w -> clear_of k j (sy_len w) /\ sy_len w < two32) ->
  Forall (fun p => clear_of k (pb_addr p mod two32) (pb_size p mod two32)) pubs -> nfind k m = Some s -> sy_public s = false ->
  collect_publics ck Win dm pubs m = Ok m' ->
  exists s', nfind k m' = Some s' /\ win_named dm (sy_name s) (sy_param s) (pubs_at k pubs) (sy_name s') (sy_param s').
Proof.
  induction pubs as [|p pubs IH]; intros m m' s F A P Hk Ps H; cbn [collect_publics foldM] in H.
  - inversion H; subst m'. exists s. split; [exact Hk|constructor].
  - apply bind_ok in H as (m1 & H1 & H2). assert (F1 := filed_public _ _ _ _ _ _ F H1). assert (Pp := Forall_inv P). apply Forall_inv_tail in P. cbn beta in Pp.
    assert (A1 : forall j w, nfind j m1 = Some w -> clear_of k j (sy_len w) /\ sy_len w < two32).
    { intros j w Hj. apply collect_public_step in H1. destruct H1 as [|s0 Hc H Hp|s0 s1 n Hpl Hn Hc H Hp Hr|s0 H Hp|parsed Hc H Hw Hwn]; [exact (A j w Hj)|..];
        (rewrite nfind_insert in Hj by apply F; destruct (N.eqb_spec j (u32 (pb_addr p))) as [->|Hne]; [|exact (A j w Hj)]; inversion Hj; subst w).
      - exact (A _ _ H).
      - destruct Hr as ((_ & _ & _ & El & _) & _). rewrite El. exact (A _ _ H).
      - exact (A _ _ H).
      - cbn [new_public sy_len]. split; [exact Pp|]. apply u32_lt. }
    unfold pubs_at. cbn [filter]. fold (pubs_at k pubs). destruct (N.eqb_spec (pb_addr p mod two32) k) as [Ek|Nk].
    + unfold collect_public in H1. change (u32 (pb_addr p)) with (pb_addr p mod two32) in H1. rewrite Ek in H1. apply bind_ok in H1 as (b & Hb & H1).
      apply (clear_inside ck m k b F A) in Hb. subst b.
      destruct (match pb_name p with Some n => should_skip_symbol n | None => false end) eqn:Ec.
      * inversion H1; subst m1. destruct (IH m m' s F A P Hk Ps H2) as (s' & Hs' & W). exists s'. split; [exact Hs'|]. apply wn_skip; [|exact W].
        left. destruct (pb_name p) as [n|] eqn:En; [|discriminate]. exists n. split; [exact En|]. now apply skip_constant.
      * apply not_constant in Ec. apply bind_ok in H1 as (parsed & Hp & H1). rewrite Hk in H1. inversion H1; subst m1. clear H1.
        set (s1 := merge_public dm parsed s) in *. assert (H1k : nfind k (ninsert k s1 m) = Some s1) by (rewrite nfind_insert by apply F; now rewrite N.eqb_refl).
        assert (P1 : sy_public s1 = false) by (unfold s1, merge_public; rewrite Ps; destruct parsed; auto).
        destruct (IH _ m' s1 F1 A1 P H1k P1 H2) as (s' & Hs' & W). exists s'. split; [exact Hs'|].
        destruct (pb_name p) as [n|] eqn:En.
        -- apply bind_ok in Hp as (w & Hw & Hp). inversion Hp; subst parsed. apply (wn_name dm _ _ p n w (sy_name s1)); auto.
           ++ intros I. unfold s1, merge_public. rewrite Ps. cbn [sy_name]. replace (contains_char (fun c => c =? 40) (sy_name s)) with true; [reflexivity|]. symmetry. apply existsb_exists. exists 40. auto.
           ++ intros I. unfold s1, merge_public. rewrite Ps. cbn [sy_name]. replace (contains_char (fun c => c =? 40) (sy_name s)) with false; [reflexivity|]. symmetry.
              destruct (contains_char (fun c => c =? 40) (sy_name s)) eqn:X; [|reflexivity]. apply existsb_exists in X as (c & Hc & X). apply N.eqb_eq in X. subst c. contradiction.
           ++ unfold s1, merge_public in W. rewrite Ps in W. unfold s1, merge_public. rewrite Ps. exact W.
        -- inversion Hp; subst parsed. apply wn_skip; [now right|]. unfold s1, merge_public in W. rewrite Ps in W. exact W.
    + assert (Hk1 : nfind k m1 = Some s).
      { apply collect_public_step in H1. destruct H1; auto; rewrite nfind_insert by apply F; (destruct (N.eqb_spec k (u32 (pb_addr p))) as [X|_]; [unfold u32 in X; congruence|exact Hk]). }
      exact (IH m1 m' s F1 A1 P Hk1 Ps H2).
Qed.
Lemma win_named_fun dm n a pubs n1 a1 n2 a2 : win_named dm n a pubs n1 a1 -> win_named dm n a pubs n2 a2 -> n1 = n2 /\ a1 = a2.
Proof.
  intros H. revert n2 a2. induction H as [n a|n a p pubs n' a' S W IH|n a p x w m pubs n' a' En Nc Pw Y N W IH]; intros n2 a2 H2.
  - inversion H2. auto.
  - inversion H2 as [|? ? ? ? ? ? _ W2|? ? ? x2 w2 m2 ? ? ? En2 Nc2 _ _ _ _]; subst; [auto|]. destruct S as [S|S]; [contradiction|congruence].
  - inversion H2 as [|? ? ? ? ? ? S2 W2|? ? ? x2 w2 m2 ? ? ? En2 Nc2 Pw2 Y2 N2 W2]; subst; [destruct S2; [contradiction|congruence]|].
    assert (x2 = x) by congruence. subst x2. assert (w2 = w) by congruence. subst w2.
    assert (m2 = m). { destruct (in_dec N.eq_dec 40 n) as [I|I]; [rewrite (Y I), (Y2 I)|rewrite (N I), (N2 I)]; reflexivity. }
    subst m2. auto.
Qed.
