(** Proofs about name handling. *)
From Verif Require Import Base Str Regex M_Names S_Names.

(** * rsplit_once *)
Lemma rsplit_once_some p s a b : rsplit_once p s = Some (a, b) -> s = a ++ p ++ b.
Proof.
  revert a b; induction s as [|c s IH]; simpl; intros a b H.
  - destruct p; inversion H; reflexivity.
  - destruct (rsplit_once p s) as [[a' b']|] eqn:E.
    + inversion H; subst. simpl. f_equal. now apply IH.
    + destruct (strip_prefix p (c :: s)) eqn:E2; inversion H; subst. now apply strip_prefix_spec in E2.
Qed.
Lemma rsplit_once_none p s a b : rsplit_once p s = None -> s <> a ++ p ++ b.
Proof.
  revert a; induction s as [|c s IH]; simpl; intros a H E.
  - destruct p; [discriminate|]. destruct a; discriminate.
  - destruct (rsplit_once p s) as [[a' b']|] eqn:E1; [discriminate|].
    destruct (strip_prefix p (c :: s)) eqn:E2; [discriminate|].
    destruct a as [|d a].
    + simpl in E. assert (E3 : strip_prefix p (c :: s) = Some b) by now apply strip_prefix_spec.
      congruence.
    + inversion E; subst. now apply (IH a).
Qed.
Lemma rsplit_once_max p s a b a' b' : rsplit_once p s = Some (a, b) -> s = a' ++ p ++ b' ->
  (length a' <= length a)%nat.
Proof.
  revert a a'; induction s as [|c s IH]; simpl; intros a a' H E.
  - destruct a'; [simpl; lia|discriminate].
  - destruct (rsplit_once p s) as [[a1 b1]|] eqn:E1.
    + inversion H; subst. destruct a' as [|d a']; simpl; [lia|]. inversion E; subst.
      apply le_n_S. eapply IH; eauto.
    + destruct (strip_prefix p (c :: s)) eqn:E2; inversion H; subst.
      destruct a' as [|d a']; simpl; [lia|]. inversion E; subst.
      exfalso. eapply rsplit_once_none; [exact E1|reflexivity].
Qed.
Lemma rsplit_once_exact p s a b : p <> [] -> s = a ++ p ++ b ->
  (forall a' b', s = a' ++ p ++ b' -> (length a' <= length a)%nat) -> rsplit_once p s = Some (a, b).
Proof.
  intros Hp E Hmax. destruct (rsplit_once p s) as [[a0 b0]|] eqn:R.
  - assert (H1 := rsplit_once_max _ _ _ _ _ _ R E).
    assert (E0 := rsplit_once_some _ _ _ _ R). assert (H2 := Hmax _ _ E0).
    assert (Hl : length a = length a0) by lia. rewrite E0 in E.
    assert (a0 = a /\ p ++ b0 = p ++ b) as (-> & Eb).
    { clear - E Hl. revert a Hl E; induction a0 as [|x a0 IH]; destruct a as [|y a]; simpl; intros Hl E; try lia; auto.
      inversion E; subst. destruct (IH a) as (-> & ->); auto. }
    apply app_inv_head in Eb. now subst.
  - exfalso. eapply rsplit_once_none; eauto.
Qed.

(** The only decomposition around a marker of [c]s when the tail has no [c]. *)
Lemma at_tail_max (c : N) (k : nat) (a b a' b' : str) : ~ In c b -> a ++ repeat c (S k) ++ b = a' ++ repeat c (S k) ++ b' ->
  (length a' <= length a)%nat.
Proof.
  intros Hb E. destruct (Nat.le_gt_cases (length a') (length a)) as [|Hgt]; auto. exfalso. apply Hb.
  (* the last marker character of the right decomposition sits in b *)
  assert (Hn : nth_error (a' ++ repeat c (S k) ++ b') (length a' + k) = Some c).
  { rewrite nth_error_app2 by lia. rewrite nth_error_app1 by (rewrite repeat_length; lia).
    apply nth_error_repeat. lia. }
  rewrite <- E in Hn. rewrite nth_error_app2 in Hn by lia.
  rewrite nth_error_app2 in Hn by (rewrite repeat_length; lia).
  eapply nth_error_In; eauto.
Qed.

Lemma all_digits_forall s l : all_digits dec_digit s = Some l -> Forall (fun c => 48 <= c <= 57) s.
Proof.
  revert l; induction s as [|c s IH]; simpl; intros l H; [constructor|].
  unfold dec_digit at 1 in H. destruct ((48 <=? c) && (c <=? 57)) eqn:E; [|discriminate].
  destruct (all_digits dec_digit s) eqn:E2; [|discriminate]. constructor; eauto. lia.
Qed.

Lemma parse_unsigned_spec max b n : parse_unsigned max b = Some n <-> n < max /\ exists ds, (b = ds \/ b = 43 :: ds) /\ read_dec ds = Some n.
Proof.
  unfold parse_unsigned, read_dec. split.
  - set (body := match b with [] => b | c :: t => if c =? 43 then t else b end).
    assert (Hb : b = body \/ b = 43 :: body).
    { subst body. destruct b as [|c t]; auto. destruct (N.eqb_spec c 43); subst; auto. }
    clearbody body. destruct body as [|d bd]; [discriminate|].
    destruct (all_digits dec_digit (d :: bd)) as [l|] eqn:E; [|discriminate].
    destruct (N.ltb_spec (digits_val 10 l) max); [|discriminate]. intros H'; inversion H'; subst n.
    split; auto. exists (d :: bd). split; auto. now rewrite E.
  - intros (Hn & ds & Hb & Hr). destruct ds as [|d ds]; [discriminate|].
    destruct (all_digits dec_digit (d :: ds)) as [l|] eqn:E; [|discriminate].
    inversion Hr; subst n.
    assert (Hd : (d =? 43) = false).
    { apply all_digits_forall in E. inversion E; subst. lia. }
    assert (Hbody : match b with [] => b | c :: t => if c =? 43 then t else b end = d :: ds).
    { destruct Hb as [->| ->]; [now rewrite Hd|reflexivity]. }
    rewrite Hbody, E. destruct (N.ltb_spec (digits_val 10 l) max); [reflexivity|lia].
Qed.

Lemma parse_unsigned_num b n : parse_unsigned two32 b = Some n <-> num_text b n.
Proof. apply parse_unsigned_spec. Qed.

Lemma num_text_no_at b n : num_text b n -> ~ In 64 b.
Proof.
  intros (_ & ds & Hb & Hr). unfold read_dec in Hr.
  assert (Hd : Forall (fun c => 48 <= c <= 57) ds).
  { destruct ds; [constructor|]. destruct (all_digits dec_digit (n0 :: ds)) eqn:E; [|discriminate].
    eapply all_digits_forall; eauto. }
  rewrite Forall_forall in Hd. intros Hin. destruct Hb as [->| ->].
  - apply Hd in Hin. lia.
  - destruct Hin as [E|Hin]; [discriminate|]. apply Hd in Hin. lia.
Qed.

Lemma dec_num_text n : n < two32 -> num_text (dec n) n.
Proof. intros H; split; auto. exists (dec n). split; auto. apply read_dec_dec. Qed.

(** * Decorated names *)
Lemma vectorcall_rsplit s a n : vectorcall s a n ->
  exists b, rsplit_once [c_at; c_at] s = Some (a, b) /\ parse_unsigned two32 b = Some n.
Proof.
  intros (b & E & Hn). exists b. split; [|now apply parse_unsigned_num].
  apply rsplit_once_exact; auto; [discriminate|]. intros a' b' E'. subst s.
  apply (at_tail_max 64 1 a b a' b'); auto. eapply num_text_no_at; eauto.
Qed.
Lemma rsplit_vectorcall s a b n : rsplit_once [c_at; c_at] s = Some (a, b) ->
  parse_unsigned two32 b = Some n -> vectorcall s a n.
Proof. intros H1 H2. exists b. split; [now apply rsplit_once_some in H1|now apply parse_unsigned_num]. Qed.

Lemma single_rsplit s a b n : s = a ++ [64] ++ b -> num_text b n -> rsplit_once [c_at] s = Some (a, b).
Proof.
  intros E Hn. apply rsplit_once_exact; auto; [discriminate|]. intros a' b' E'. subst s.
  apply (at_tail_max 64 0 a b a' b'); auto. eapply num_text_no_at; eauto.
Qed.

Lemma utf8_len1 c : (utf8_len c =? 1) = negb (127 <? c).
Proof. unfold utf8_len. destruct (N.ltb_spec c 128), (c <? 2048), (c <? 65536); simpl; lia. Qed.

Lemma parse_c_decorated_table s : sp_decorated s (parse_c_decorated s).
Proof.
  unfold parse_c_decorated.
  set (others := match s with [] => _ | _ => _ end).
  assert (Hothers : match s with
   | [] => others = Ok (mkWin [] None)
   | c :: rest =>
       if 127 <? c then is_panic others = true
       else if (c =? 64) || (c =? 95) then
         (exists a b n, rest = a ++ [64] ++ b /\ num_text b n /\ others = Ok (mkWin a (Some n))) \/
         ((forall a b n, rest = a ++ [64] ++ b -> ~ num_text b n) /\
          others = Ok (if c =? 95 then mkWin rest None else mkWin s None))
       else others = Ok (mkWin s None)
   end).
  { subst others. destruct s as [|c rest]; auto. rewrite utf8_len1, negb_involutive.
    destruct (127 <? c); auto. change c_at with 64. change c_us with 95.
    destruct ((c =? 64) || (c =? 95)) eqn:Ec; auto.
    destruct (rsplit_once [64] rest) as [[a b]|] eqn:R.
    - destruct (parse_unsigned two32 b) as [n|] eqn:Pn.
      + left. exists a, b, n. split; [now apply rsplit_once_some in R|]. split; auto.
        now apply parse_unsigned_num.
      + right. split; [|destruct (c =? 95); reflexivity].
        intros a' b' n' E Hn. assert (R' := single_rsplit _ _ _ _ E Hn).
        change c_at with 64 in R'. rewrite R in R'. inversion R'; subst.
        apply parse_unsigned_num in Hn. congruence.
    - right. split; [|destruct (c =? 95); reflexivity].
      intros a' b' n' E Hn. assert (R' := single_rsplit _ _ _ _ E Hn).
      change c_at with 64 in R'. congruence. }
  clearbody others.
  destruct (rsplit_once [c_at; c_at] s) as [[a b]|] eqn:R.
  - destruct (parse_unsigned two32 b) as [n|] eqn:Pn.
    + left. exists a, n. split; auto. eapply rsplit_vectorcall; eauto.
    + right. split; auto. intros a' n' Hv. destruct (vectorcall_rsplit _ _ _ Hv) as (b' & R' & P').
      rewrite R in R'. inversion R'; subst. congruence.
  - right. split; auto. intros a' n' Hv. destruct (vectorcall_rsplit _ _ _ Hv) as (b' & R' & P'). congruence.
Qed.

Lemma parse_unknown_punct s : ~ no_punct s -> parse_unknown s = Ok (mkWin s None).
Proof.
  intros H. unfold parse_unknown.
  destruct (contains_char _ s) eqn:E; auto. exfalso; apply H. unfold contains_char in E.
  assert (Hn : forall c, In c s -> ((c =? 58) || (c =? 40)) = false).
  { intros c Hc. destruct ((c =? 58) || (c =? 40)) eqn:Ec; auto.
    assert (existsb (fun c => (c =? 58) || (c =? 40)) s = true) by (apply existsb_exists; eauto). congruence. }
  split; intros Hin; apply Hn in Hin; lia.
Qed.
Lemma parse_unknown_plain s : no_punct s -> parse_unknown s = parse_c_decorated s.
Proof.
  intros (H1 & H2). unfold parse_unknown. destruct (contains_char _ s) eqn:E; auto.
  unfold contains_char in E. apply existsb_exists in E as (c & Hc & E). exfalso.
  apply orb_true_iff in E as [E|E]; apply N.eqb_eq in E; subst; auto.
Qed.

Lemma vectorcall_count s a n : vectorcall s a n -> (2 <= count_occ N.eq_dec s 64%N)%nat.
Proof.
  intros (b & -> & _). rewrite count_occ_app. simpl. lia.
Qed.
Lemma count_no_at f : no_at f -> count_occ N.eq_dec f 64%N = 0%nat.
Proof. apply count_occ_not_In. Qed.
Lemma dec_no_at n : no_at (dec n).
Proof. intros H. pose proof (dec_chars n) as Hc. rewrite Forall_forall in Hc. apply Hc in H. lia. Qed.

Lemma no_at_split f b a' b' : no_at f -> no_at b -> f ++ [64] ++ b = a' ++ [64] ++ b' -> f = a' /\ b = b'.
Proof.
  intros Hf Hb. revert a'; induction f as [|x f IH]; intros [|y a'] E; simpl in E; inversion E; subst; auto.
  - exfalso; apply Hb. apply in_or_app; right; now left.
  - exfalso; apply Hf; now left.
  - destruct (IH (fun H => Hf (or_intror H)) a') as (-> & ->); auto.
Qed.

Lemma dec_unsigned_inj n b n' : b = dec n -> num_text b n' -> n = n'.
Proof.
  intros -> (Hn & ds & [E|E] & Hr).
  - subst ds. rewrite read_dec_dec in Hr. congruence.
  - exfalso. pose proof (dec_chars n) as Hc. rewrite E in Hc. inversion Hc; lia.
Qed.

Lemma decode_stdcall f n : no_at f -> no_punct f -> n < two32 ->
  parse_unknown ([95] ++ f ++ [64] ++ dec n) = Ok (mkWin f (Some n)).
Proof.
  intros Hf (Hp1 & Hp2) Hn.
  assert (Hc : forall c, In c (dec n) -> 48 <= c <= 57) by (intros c; pose proof (dec_chars n) as H; rewrite Forall_forall in H; apply H).
  rewrite parse_unknown_plain.
  2:{ split; intros H; simpl in H; destruct H as [H|H]; try discriminate; apply in_app_or in H as [H|[H|H]];
      try discriminate; auto; apply Hc in H; lia. }
  pose proof (parse_c_decorated_table ([95] ++ f ++ [64] ++ dec n)) as T.
  destruct T as [(a & m & V & _)|(_ & T)].
  - exfalso. apply vectorcall_count in V. simpl in V. rewrite count_occ_app, (count_no_at f) in V by auto.
    simpl in V. rewrite (count_no_at (dec n)) in V by apply dec_no_at. lia.
  - cbn [app] in T. change (127 <? 95) with false in T. cbn [N.eqb] in T. simpl orb in T. cbv iota in T.
    destruct T as [(a & b & m & E & Hm & T)|(T & _)].
    + apply no_at_split in E as (-> & Eb); auto using dec_no_at.
      assert (n = m) by (eapply dec_unsigned_inj; [symmetry; eassumption|eassumption]). subst. exact T.
    + exfalso. eapply (T f (dec n) n); auto. now apply dec_num_text.
Qed.

Lemma decode_fastcall f n : no_at f -> no_punct f -> n < two32 ->
  parse_unknown ([64] ++ f ++ [64] ++ dec n) = Ok (mkWin f (Some n)).
Proof.
  intros Hf (Hp1 & Hp2) Hn.
  assert (Hc : forall c, In c (dec n) -> 48 <= c <= 57) by (intros c; pose proof (dec_chars n) as H; rewrite Forall_forall in H; apply H).
  rewrite parse_unknown_plain.
  2:{ split; intros H; simpl in H; destruct H as [H|H]; try discriminate; apply in_app_or in H as [H|[H|H]];
      try discriminate; auto; apply Hc in H; lia. }
  pose proof (parse_c_decorated_table ([64] ++ f ++ [64] ++ dec n)) as T.
  destruct T as [(a & m & V & T)|(_ & T)].
  - (* only possible when f is empty: "@@n" *)
    destruct V as (b & E & Hm). pose proof (num_text_no_at _ _ Hm) as Hb.
    destruct a as [|x a].
    + simpl in E. injection E as E. destruct f as [|y f].
      * simpl in E. injection E as E. assert (n = m) by (eapply dec_unsigned_inj; [symmetry; eassumption|eassumption]). subst. exact T.
      * exfalso. injection E as E1 E2. apply Hf. left. auto.
    + exfalso. simpl in E. injection E as Ex E.
      assert (Hcnt := f_equal (fun l => count_occ N.eq_dec l 64) E).
      cbn beta in Hcnt. rewrite !count_occ_app in Hcnt. simpl in Hcnt.
      change (f ++ 64 :: dec n) with (f ++ [64] ++ dec n) in Hcnt. rewrite ?count_occ_app in Hcnt. simpl in Hcnt.
      rewrite (count_no_at f), (count_no_at (dec n)) in Hcnt by auto using dec_no_at. lia.
  - cbn [app] in T. change (127 <? 64) with false in T. cbn [N.eqb] in T. simpl orb in T. cbv iota in T.
    destruct T as [(a & b & m & E & Hm & T)|(T & _)].
    + apply no_at_split in E as (-> & Eb); auto using dec_no_at.
      assert (n = m) by (eapply dec_unsigned_inj; [symmetry; eassumption|eassumption]). subst. exact T.
    + exfalso. eapply (T f (dec n) n); auto. now apply dec_num_text.
Qed.

Lemma decode_vectorcall f n : no_punct f -> n < two32 ->
  parse_unknown (f ++ [64; 64] ++ dec n) = Ok (mkWin f (Some n)).
Proof.
  intros (Hp1 & Hp2) Hn.
  assert (Hc : forall c, In c (dec n) -> 48 <= c <= 57) by (intros c; pose proof (dec_chars n) as H; rewrite Forall_forall in H; apply H).
  rewrite parse_unknown_plain.
  2:{ split; intros H; apply in_app_or in H as [H|H]; auto; destruct H as [H|[H|H]];
      try discriminate; auto; apply Hc in H; lia. }
  unfold parse_c_decorated. destruct (vectorcall_rsplit (f ++ [64;64] ++ dec n) f n) as (b & R & P).
  - exists (dec n). split; auto. now apply dec_num_text.
  - now rewrite R, P.
Qed.

Lemma decode_cdecl f : no_at f -> no_punct f -> parse_unknown ([95] ++ f) = Ok (mkWin f None).
Proof.
  intros Hf (Hp1 & Hp2). rewrite parse_unknown_plain.
  2:{ split; intros [H|H]; try discriminate; auto. }
  pose proof (parse_c_decorated_table ([95] ++ f)) as T.
  destruct T as [(a & m & V & _)|(_ & T)].
  - exfalso. apply vectorcall_count in V. simpl in V. rewrite (count_no_at f) in V by auto. lia.
  - cbn [app] in T. change (127 <? 95) with false in T. cbn [N.eqb] in T. simpl orb in T. cbv iota in T.
    destruct T as [(a & b & m & E & Hm & T)|(_ & T)].
    + exfalso; apply Hf. rewrite E. apply in_or_app; right; now left.
    + exact T.
Qed.

Lemma decode_plain c s : c <= 127 -> c <> 64 -> c <> 95 -> (forall a n, ~ vectorcall (c :: s) a n) ->
  parse_unknown (c :: s) = Ok (mkWin (c :: s) None).
Proof.
  intros Hc H1 H2 Hv.
  assert (Hdec : no_punct (c :: s) \/ ~ no_punct (c :: s)).
  { unfold no_punct. destruct (in_dec N.eq_dec 58 (c :: s)); [right; tauto|].
    destruct (in_dec N.eq_dec 40 (c :: s)); [right; tauto|left; tauto]. }
  destruct Hdec as [Hp|Hp]; [|now apply parse_unknown_punct].
  rewrite parse_unknown_plain by auto. pose proof (parse_c_decorated_table (c :: s)) as T.
  destruct T as [(a & m & V & _)|(_ & T)]; [exfalso; eapply Hv; eauto|].
  replace (127 <? c) with false in T by lia. replace ((c =? 64) || (c =? 95)) with false in T by lia. exact T.
Qed.

Lemma parse_unknown_panics s : is_panic (parse_unknown s) = true <->
  no_punct s /\ (exists c t, s = c :: t /\ 127 < c) /\ forall a n, ~ vectorcall s a n.
Proof.
  assert (Hdec : no_punct s \/ ~ no_punct s).
  { unfold no_punct. destruct (in_dec N.eq_dec 58 s); [right; tauto|].
    destruct (in_dec N.eq_dec 40 s); [right; tauto|left; tauto]. }
  destruct Hdec as [Hp|Hp].
  2:{ rewrite parse_unknown_punct by auto. simpl. split; [discriminate|tauto]. }
  rewrite parse_unknown_plain by auto. pose proof (parse_c_decorated_table s) as T.
  destruct T as [(a & m & V & T)|(Hv & T)].
  - rewrite T. simpl. split; [discriminate|]. intros (_ & _ & H). exfalso; eapply H; eauto.
  - destruct s as [|c s].
    + rewrite T. simpl. split; [discriminate|]. intros (_ & (c & t & E & _) & _). discriminate.
    + destruct (N.ltb_spec 127 c) as [Hc|Hc].
      * split; auto. intros _. repeat split; try apply Hp; auto. exists c, s. auto.
      * assert (Hno : is_panic (parse_c_decorated (c :: s)) = false).
        { destruct ((c =? 64) || (c =? 95)); [|now rewrite T].
          destruct T as [(a & b & m & _ & _ & T)|(_ & T)]; rewrite T; reflexivity. }
        rewrite Hno. split; [discriminate|]. intros (_ & (c' & t & E & Hc') & _). inversion E; subst. lia.
Qed.

(** * Compiler decorations *)
Lemma in_alts l s : l <> [] -> (lang (alts l) s <-> exists r', In r' l /\ lang r' s).
Proof.
  intros _; induction l as [|x [|y l] IH].
  - simpl. split; [intros H; now apply lang_emp_inv in H|intros (r' & [] & _)].
  - simpl. split; [eauto|]. intros (r' & [<-|[]] & H); auto.
  - change (alts (x :: y :: l)) with (Alt x (alts (y :: l))). rewrite lang_alt_inv, IH. split.
    + intros [H|(r' & H1 & H2)]; [exists x; split; auto; now left|exists r'; split; auto; now right].
    + intros (r' & [<-|H1] & H2); auto. right; eauto.
Qed.

Lemma lang_tags s : lang (alts [rlit (lit "cold"); rlit (lit "constprop"); rlit (lit "llvm");
                rlit (lit "localalias"); rlit (lit "lto_priv"); rlit (lit "isra"); rlit (lit "part"); rlit (lit "str")]) s
  <-> In s tags.
Proof.
  rewrite in_alts by discriminate.
  assert (E : [rlit (lit "cold"); rlit (lit "constprop"); rlit (lit "llvm");
                rlit (lit "localalias"); rlit (lit "lto_priv"); rlit (lit "isra"); rlit (lit "part"); rlit (lit "str")]
          = map rlit tags) by reflexivity.
  rewrite E. split.
  - intros (r & Hr & Hl). apply in_map_iff in Hr as (t & <- & Ht). apply lang_lit in Hl. now subst.
  - intros H. exists (rlit s). split; [now apply in_map|now apply lang_lit].
Qed.

Lemma lang_opt r s : lang (opt r) s <-> lang r s \/ s = [].
Proof. unfold opt. rewrite lang_alt_inv, lang_eps_inv. tauto. Qed.

Lemma lang_plus_digit s : lang (plus (Cls is_digit)) s <-> s <> [] /\ Forall (fun c => 48 <= c <= 57) s.
Proof.
  unfold plus. rewrite lang_cat_inv. split.
  - intros (x & y & -> & Hx & Hy). apply lang_cls_inv in Hx as (c & -> & Hc). apply lang_star_cls in Hy.
    split; [discriminate|]. rewrite forallb_forall in Hy. constructor; [unfold is_digit in Hc; lia|].
    apply Forall_forall. intros d Hd. apply Hy in Hd. unfold is_digit in Hd. lia.
  - intros (Hne & Hf). destruct s as [|c s]; [congruence|]. inversion Hf; subst.
    exists [c], s. repeat split; [constructor; unfold is_digit; lia|]. apply lang_star_cls.
    apply forallb_forall. intros d Hd. rewrite Forall_forall in H2. apply H2 in Hd. unfold is_digit. lia.
Qed.

Lemma lang_unit s : lang re_unit s <-> deco s.
Proof.
  unfold re_unit. rewrite lang_alt_inv. split.
  - intros [H|H].
    + apply lang_cat_inv in H as (x & y & -> & Hx & Hy).
      apply lang_cat_inv in Hx as (x1 & x2 & -> & Hx1 & Hx2). apply lang_lit in Hx1. subst x1.
      apply lang_tags in Hx2. apply lang_opt in Hy as [Hy|Hy].
      * apply lang_cat_inv in Hy as (y1 & y2 & -> & Hy1 & Hy2). apply lang_lit in Hy1. subst y1.
        apply lang_plus_digit in Hy2 as (Hne & Hf). simpl. now apply deco_tag_num.
      * subst y. rewrite app_nil_r. simpl. now apply deco_tag.
    + apply lang_cat_inv in H as (x & y & -> & Hx & Hy).
      apply lang_cat_inv in Hx as (x1 & x2 & -> & Hx1 & Hx2).
      apply lang_cat_inv in Hx1 as (b & x3 & -> & Hb & Hx3). apply lang_lit in Hx3. subst x3.
      apply lang_cat_inv in Hy as (y1 & e & -> & Hy1 & He). apply lang_lit in Hy1. subst y1.
      apply lang_opt in Hb. apply lang_opt in He. apply lang_star_cls in Hx2.
      rewrite <- !app_assoc. apply (deco_clone b x2 e).
      * destruct Hb as [Hb| ->]; auto. apply lang_lit in Hb. now right.
      * destruct He as [He| ->]; auto. apply lang_lit in He. now right.
      * intros Hin. rewrite forallb_forall in Hx2. apply Hx2 in Hin. discriminate.
  - intros H. destruct H as [t Ht|t ds Ht Hne Hds|b x e Hb He Hx].
    + left. apply lang_cat_inv. exists (46 :: t), []. split; [now rewrite app_nil_r|]. split.
      * apply lang_cat_inv. exists [46], t. repeat split; [now apply lang_lit|now apply lang_tags].
      * apply lang_opt; now right.
    + left. apply lang_cat_inv. exists (46 :: t), (46 :: ds). split; [reflexivity|]. split.
      * apply lang_cat_inv. exists [46], t. repeat split; [now apply lang_lit|now apply lang_tags].
      * apply lang_opt; left. apply lang_cat_inv. exists [46], ds. repeat split; [now apply lang_lit|].
        now apply lang_plus_digit.
    + right. apply lang_cat_inv. exists (b ++ lit "[clone" ++ x), ([93] ++ e). split; [now rewrite <- !app_assoc|]. split.
      * apply lang_cat_inv. exists (b ++ lit "[clone"), x. split; [now rewrite <- !app_assoc|]. split.
        -- apply lang_cat_inv. exists b, (lit "[clone"). repeat split; [|now apply lang_lit].
           apply lang_opt. destruct Hb; [now right|left; now apply lang_lit].
        -- apply lang_star_cls. apply forallb_forall. intros c Hc.
           destruct (N.eqb_spec c 93); [subst; contradiction|reflexivity].
      * apply lang_cat_inv. exists [93], e. repeat split; [now apply lang_lit|].
        apply lang_opt. destruct He; [now right|left; now apply lang_lit].
Qed.

Lemma decos_concat l : Forall deco l -> decos (concat l).
Proof. induction 1 as [|d l Hd Hl IH]; simpl; [apply decos_nil|now apply decos_app]. Qed.
Lemma decos_list s : decos s -> exists l, s = concat l /\ Forall deco l.
Proof. induction 1 as [|d e Hd He (l & -> & Hl)]; [exists []; auto|exists (d :: l); auto]. Qed.
Lemma deco_nonempty d : deco d -> d <> [].
Proof. destruct 1; try discriminate. destruct b; discriminate. Qed.
Lemma decos_app_both a b : decos a -> decos b -> decos (a ++ b).
Proof. intros Ha Hb; induction Ha as [|d e Hd He IH]; simpl; auto. rewrite <- app_assoc. now apply decos_app. Qed.

Lemma lang_nnn s : lang compiler_nnn s <-> decos s /\ s <> [].
Proof.
  unfold compiler_nnn, plus. rewrite lang_cat_inv. split.
  - intros (x & y & -> & Hx & Hy). apply lang_unit in Hx. apply lang_star_list in Hy as (l & -> & Hl).
    split.
    + constructor; auto. apply decos_concat. eapply Forall_impl; [|exact Hl]. intros; now apply lang_unit.
    + apply deco_nonempty in Hx. destruct x; [congruence|discriminate].
  - intros (H & Hne). apply decos_list in H as (l & -> & Hl). destruct l as [|d l]; [easy|].
    inversion Hl; subst. exists d, (concat l). repeat split; [now apply lang_unit|].
    apply lang_star_list. exists l. split; auto. eapply Forall_impl; [|exact H2]. intros; now apply lang_unit.
Qed.

Lemma strip_stripped s : stripped s (strip_end compiler_nnn s).
Proof.
  destruct (strip_end_spec compiler_nnn s) as (d & E & Hd & Hmax). exists d. split; auto. split.
  - destruct Hd as [->|Hd]; [constructor|]. now apply lang_nnn in Hd.
  - intros p' d' E' Hd'. destruct d' as [|c d'].
    + rewrite app_nil_r in E'. subst p'. rewrite E at 2. rewrite app_length. lia.
    + apply (Hmax p' (c :: d')); auto. apply lang_nnn. split; [auto|discriminate].
Qed.
Lemma stripped_unique s p q : stripped s p -> stripped s q -> p = q.
Proof.
  intros (d & E & Hd & Hm) (e & E' & He & Hm').
  assert (Hl : length p = length q) by (pose proof (Hm _ _ E' He); pose proof (Hm' _ _ E Hd); lia).
  subst s. clear - E' Hl. revert q Hl E'; induction p as [|x p IH]; destruct q as [|y q]; simpl; intros; try lia; auto.
  inversion E'; subst. f_equal. eapply IH; eauto.
Qed.
Lemma stripped_idem s p : stripped s p -> stripped p p.
Proof.
  intros (d & E & Hd & Hm). exists []. split; [now rewrite app_nil_r|]. split; [constructor|].
  intros p' d' E' Hd'. apply (Hm p' (d' ++ d)); [subst; now rewrite app_assoc|now apply decos_app_both].
Qed.

(** * Substitution of the anonymous namespace spelling *)
Section Repl.
  Context (w r : str) (hw : N) (w' : str) (Hw : w = hw :: w') (hr : N) (r' : str) (Hr : r = hr :: r').

  Inductive rep : str -> str -> Prop :=
  | rep_nil : rep [] []
  | rep_match s t : rep s t -> rep (w ++ s) (r ++ t)
  | rep_copy c s t : strip_prefix w (c :: s) = None -> rep s t -> rep (c :: s) (c :: t).

  Lemma replace_all_rep fuel s : (length s <= fuel)%nat -> rep s (replace_all fuel w r s).
  Proof.
    revert s; induction fuel as [|f IH]; intros s Hf.
    - destruct s; [constructor|simpl in Hf; lia].
    - cbn [replace_all]. destruct (strip_prefix w s) as [t|] eqn:E.
      + apply strip_prefix_spec in E. subst s. apply rep_match. apply IH.
        rewrite app_length, Hw in Hf. simpl in Hf. lia.
      + destruct s as [|c s]; [constructor|]. constructor; auto. apply IH. simpl in Hf; lia.
  Qed.

  Lemma rep_subst s t : rep s t -> subst_all w r s t.
  Proof.
    induction 1 as [|s t H (g0 & gs & E1 & E2 & F)|c s t Hn H (g0 & gs & E1 & E2 & F)].
    - exists [], []. repeat split. constructor; auto. intros (a & b & E). rewrite Hw in E. destruct a; discriminate.
    - exists [], (g0 :: gs). cbn [flat_map app]. rewrite <- !app_assoc. subst. repeat split.
      constructor; auto. intros (a & b & E). rewrite Hw in E. destruct a; discriminate.
    - exists (c :: g0), gs. subst. repeat split. inversion F; subst. constructor; auto.
      intros (a & b & E). destruct a as [|x a].
      + simpl in E. assert (Hc : strip_prefix w (c :: g0 ++ flat_map (app w) gs) = Some (b ++ flat_map (app w) gs)).
        { apply strip_prefix_spec. rewrite app_assoc, <- E. reflexivity. }
        congruence.
      + inversion E; subst. apply H2. now exists a, b.
  Qed.

  Lemma rep_split s t : rep s t -> forall q c d, t = q ++ c :: d -> ~ In c r ->
    exists q' d', s = q' ++ c :: d' /\ rep q' q /\ rep d' d /\ strip_prefix w (c :: d') = None.
  Proof.
    induction 1 as [|s t H IH|c0 s t Hn H IH]; intros q c d E Hc.
    - destruct q; discriminate.
    - assert (Eq : exists q1, q = r ++ q1 /\ t = q1 ++ c :: d).
      { clear - E Hc. revert q E; induction r as [|x rr IH]; intros q E; [exists q; auto|].
        destruct q as [|y q]; simpl in E; inversion E; subst.
        - exfalso; apply Hc; now left.
        - destruct (IH (fun H => Hc (or_intror H)) q H1) as (q1 & -> & ->). exists q1; auto. }
      destruct Eq as (q1 & -> & ->). destruct (IH q1 c d eq_refl Hc) as (q' & d' & -> & H1 & H2 & H3).
      exists (w ++ q'), d'. rewrite <- app_assoc. repeat split; auto. now constructor.
    - destruct q as [|x q]; simpl in E; inversion E; subst.
      + exists [], s. repeat split; auto. constructor.
      + destruct (IH q c d eq_refl Hc) as (q' & d' & -> & H1 & H2 & H3).
        exists (x :: q'), d'. repeat split; auto. constructor; auto.
        destruct (strip_prefix w (x :: q')) as [u|] eqn:Eu; auto.
        apply strip_prefix_spec in Eu.
        assert (Hx : strip_prefix w (x :: q' ++ c :: d') = Some (u ++ c :: d')).
        { apply strip_prefix_spec. change (x :: q' ++ c :: d') with ((x :: q') ++ c :: d'). now rewrite Eu, <- app_assoc. }
        congruence.
  Qed.

  Lemma rep_no_repl s t : rep s t -> ~ In hr t -> s = t.
  Proof.
    induction 1; intros Hn; auto.
    - exfalso; apply Hn. rewrite Hr. now left.
    - f_equal. apply IHrep. intros Hi; apply Hn; now right.
  Qed.
  Lemma rep_keeps s t c : rep s t -> ~ In c w -> In c s -> In c t.
  Proof.
    induction 1; intros Hc Hi; auto.
    - apply in_or_app. apply in_app_or in Hi as [Hi|Hi]; [contradiction|right; auto].
    - destruct Hi; [now left|right; auto].
  Qed.
  Lemma rep_prefix x : forall s b, rep s (x ++ b) -> ~ In hr x -> exists b', s = x ++ b' /\ rep b' b.
  Proof.
    induction x as [|c x IH]; intros s b H Hx; [exists s; auto|].
    inversion H as [|s0 t0 H0 E1 E2|c0 s0 t0 Hn H0 E1 E2]; subst s.
    - exfalso; apply Hx; left. rewrite Hr in E2. inversion E2; auto.
    - inversion E2; subst. destruct (IH s0 b H0) as (b' & -> & Hb); [intros Hi; apply Hx; now right|].
      exists b'; auto.
  Qed.
  Lemma rep_no_occurs s t : rep s t -> ~ In hw r -> ~ In hr w' -> ~ occurs w t.
  Proof.
    intros H H1 H2 (a & b & E). rewrite Hw in E. simpl in E.
    destruct (rep_split _ _ H _ _ _ E H1) as (q' & d' & -> & _ & Hd & Hn).
    destruct (rep_prefix _ _ _ Hd H2) as (b' & -> & _).
    assert (Hx : strip_prefix w (hw :: w' ++ b') = Some b').
    { apply strip_prefix_spec. rewrite Hw. reflexivity. }
    congruence.
  Qed.
  Lemma rep_id s : ~ occurs w s -> rep s s.
  Proof.
    induction s as [|c s IH]; intros H; constructor.
    - destruct (strip_prefix w (c :: s)) as [t|] eqn:E; auto. apply strip_prefix_spec in E.
      exfalso; apply H. exists [], t. auto.
    - apply IH. intros (a & b & E). apply H. exists (c :: a), b. now rewrite E.
  Qed.
  Lemma rep_fun s t u : rep s t -> rep s u -> t = u.
  Proof.
    intros H; revert u; induction H as [|s t H IH|c s t Hn H IH]; intros u Hu.
    - inversion Hu as [|s0 t0 H0 E1 E2|]; auto. rewrite Hw in E1. discriminate.
    - inversion Hu as [E1 E2|s0 t0 H0 E1 E2|c0 s0 t0 Hn0 H0 E1 E2].
      + rewrite Hw in E1; discriminate.
      + apply app_inv_head in E1. subst s0. f_equal. auto.
      + exfalso. assert (Hx : strip_prefix w (c0 :: s0) = Some s) by (apply strip_prefix_spec; auto). congruence.
    - inversion Hu as [|s0 t0 H0 E1 E2|c0 s0 t0 Hn0 H0 E1 E2].
      + exfalso. assert (Hx : strip_prefix w (c :: s) = Some s0) by (apply strip_prefix_spec; auto). congruence.
      + f_equal; auto.
  Qed.
End Repl.

Definition arep := rep anon_msvc anon_std.
Lemma normalize_rep s : arep s (normalize_anonymous_namespace s).
Proof. unfold arep, normalize_anonymous_namespace, replace. eapply replace_all_rep; [reflexivity|lia]. Qed.
Lemma normalize_subst s : subst_all anon_msvc anon_std s (normalize_anonymous_namespace s).
Proof. eapply rep_subst; [reflexivity|apply normalize_rep]. Qed.

Ltac notin := let H := fresh in intros H; vm_compute in H; repeat (destruct H as [H|H]; [discriminate|]); exact H.

Lemma normalize_no_occurs s : ~ occurs anon_msvc (normalize_anonymous_namespace s).
Proof. eapply rep_no_occurs; [reflexivity|reflexivity|apply normalize_rep|notin|notin]. Qed.

(** A decoration at the end of the normalised text comes from one in the text. *)
Lemma tags_no_paren t : In t tags -> ~ In 40 t.
Proof.
  intros H. vm_compute in H.
  repeat (destruct H as [<-|H]; [notin|]). destruct H.
Qed.
Lemma arep_deco s q d : arep s (q ++ d) -> deco d -> exists q' d', s = q' ++ d' /\ deco d'.
Proof.
  intros H Hd. destruct Hd as [t Ht|t ds Ht Hne Hds|b x e Hb He Hx].
  - destruct (rep_split _ _ _ _ H q 46 t eq_refl) as (q' & d' & -> & _ & Hd & _); [notin|].
    apply (rep_no_repl _ _ 40 _ eq_refl) in Hd; [|now apply tags_no_paren]. subst. exists q', (46 :: t).
    split; auto. now constructor.
  - destruct (rep_split _ _ _ _ H q 46 (t ++ 46 :: ds) eq_refl) as (q' & d' & -> & _ & Hd & _); [notin|].
    apply (rep_no_repl _ _ 40 _ eq_refl) in Hd.
    + subst. exists q', (46 :: t ++ 46 :: ds). split; auto. now constructor.
    + intros Hi. apply in_app_or in Hi as [Hi|[Hi|Hi]]; [now apply tags_no_paren in Hi|discriminate|].
      rewrite Forall_forall in Hds. apply Hds in Hi. lia.
  - (* drop the optional leading blank *)
    assert (H' : arep s ((q ++ b) ++ 91 :: lit "clone" ++ x ++ 93 :: e)).
    { rewrite <- app_assoc. exact H. }
    destruct (rep_split _ _ _ _ H' _ 91 _ eq_refl) as (q' & d' & -> & _ & Hd & _); [notin|].
    destruct (rep_prefix _ _ 40 _ eq_refl (lit "clone") _ _ Hd) as (d2 & -> & Hd2); [notin|].
    destruct (rep_split _ _ _ _ Hd2 x 93 e eq_refl) as (x' & e' & -> & Hx' & He' & _); [notin|].
    apply (rep_no_repl _ _ 40 _ eq_refl) in He'; [|destruct He; subst; notin]. subst e'.
    exists q', (91 :: lit "clone" ++ x' ++ 93 :: e). split; auto.
    apply (deco_clone [] x' e); auto.
    intros Hi. apply Hx. eapply rep_keeps; [exact Hx'|notin|exact Hi].
Qed.

Lemma decos_last d : decos d -> d <> [] -> exists q u, d = q ++ u /\ deco u.
Proof.
  induction 1 as [|d e Hd He IH]; [congruence|]. intros _. destruct e as [|c e].
  - exists [], d. now rewrite app_nil_r.
  - destruct IH as (q & u & E & Hu); [discriminate|]. exists (d ++ q), u. rewrite <- app_assoc, <- E. auto.
Qed.

Lemma fix_text_spec s : exists p, stripped s p /\ subst_all anon_msvc anon_std p (fix_text s).
Proof. exists (strip_end compiler_nnn s). split; [apply strip_stripped|apply normalize_subst]. Qed.

Lemma fix_text_clean s : ~ occurs anon_msvc (fix_text s) /\ stripped (fix_text s) (fix_text s).
Proof.
  split; [apply normalize_no_occurs|].
  unfold fix_text. set (p := strip_end compiler_nnn s).
  pose proof (stripped_idem s p (strip_stripped s)) as Hp. pose proof (normalize_rep p) as Hn.
  exists []. split; [now rewrite app_nil_r|]. split; [constructor|]. intros p' d' E Hd'.
  destruct d' as [|c d']; [rewrite app_nil_r in E; rewrite E; lia|]. exfalso.
  destruct (decos_last _ Hd') as (q & u & Eu & Hu); [discriminate|].
  rewrite E, Eu, app_assoc in Hn. destruct (arep_deco _ _ _ Hn Hu) as (q' & u' & Ep & Hu').
  destruct Hp as (d0 & E0 & _ & Hm).
  assert (Hl := Hm q' u' Ep). rewrite Ep, app_length in Hl.
  apply deco_nonempty in Hu' as Hne. destruct u'; [congruence|]. simpl in Hl.
  assert (Hds : decos (n :: u')) by (rewrite <- (app_nil_r (n :: u')); constructor; [auto|constructor]).
  apply Hl in Hds. lia.
Qed.

Lemma fix_text_idem s : fix_text (fix_text s) = fix_text s.
Proof.
  destruct (fix_text_clean s) as (H1 & H2). unfold fix_text at 1.
  assert (E : strip_end compiler_nnn (fix_text s) = fix_text s).
  { eapply stripped_unique; [apply strip_stripped|exact H2]. }
  rewrite E. eapply (rep_fun anon_msvc anon_std); [reflexivity|apply normalize_rep|]. now apply rep_id.
Qed.

Lemma fix_text_untouched s : (forall p d, s = p ++ d -> deco d -> False) -> ~ occurs anon_msvc s -> fix_text s = s.
Proof.
  intros Hd Ho. unfold fix_text.
  assert (E : strip_end compiler_nnn s = s).
  { eapply stripped_unique; [apply strip_stripped|]. exists []. split; [now rewrite app_nil_r|].
    split; [constructor|]. intros p' d' E Hd'. destruct d' as [|c d']; [rewrite E, app_nil_r; lia|]. exfalso.
    destruct (decos_last _ Hd') as (q & u & Eu & Hu); [discriminate|].
    apply (Hd (p' ++ q) u); auto. rewrite <- app_assoc, <- Eu. exact E. }
  rewrite E. eapply (rep_fun anon_msvc anon_std); [reflexivity|apply normalize_rep|now apply rep_id].
Qed.

(** ** Shown names *)
Lemma fix_cleaned s : cleaned s (fix_text s).
Proof. apply fix_text_spec. Qed.
Lemma anon_borderless x y z : lit "`anonymous namespace'" = x ++ y -> y ++ z = lit "`anonymous namespace'" -> x <> [] -> y = [].
Proof.
  intros A B N. destruct y as [|c y]; [reflexivity|exfalso]. injection B as E _. subst c. destruct x as [|d x]; [easy|]. injection A as _ A.
  assert (I : In 96 (x ++ 96 :: y)) by (apply in_or_app; right; now left). rewrite <- A in I. cbn in I. repeat (destruct I as [I|I]; [discriminate|]). destruct I.
Qed.
Lemma app_cases {A} (a b c d : list A) : a ++ b = c ++ d -> (exists e, c = a ++ e /\ b = e ++ d) \/ (exists e, a = c ++ e /\ d = e ++ b).
Proof.
  revert c. induction a as [|x a IH]; intros c H; [left; exists c; split; [reflexivity|exact H]|]. destruct c as [|y c]; [right; exists (x :: a); split; [reflexivity|now symmetry]|].
  injection H as -> H. destruct (IH c H) as [(e & -> & ->)|(e & -> & ->)]; [left|right]; exists e; auto.
Qed.
Lemma first_cut w g r g' r' : (forall x y z, w = x ++ y -> y ++ z = w -> x <> [] -> y = []) -> w <> [] -> ~ occurs w g -> ~ occurs w g' -> g ++ w ++ r = g' ++ w ++ r' -> g = g' /\ r = r'.
Proof.
  intros B N. assert (G : forall g r g' r', ~ occurs w g' -> forall e, g' = g ++ e -> w ++ r = e ++ w ++ r' -> e = []).
  { clear g r g' r'. intros g r g' r' O e -> H. destruct (app_cases _ _ _ _ H) as [(f & E & _)|(f & E & F)].
    - exfalso. apply O. exists g, f. now rewrite E.
    - destruct e as [|c e]; [reflexivity|exfalso]. destruct (app_cases _ _ _ _ F) as [(h & H1 & H2)|(h & H1 & H2)].
      + (* f = w ++ h: longer than w *) apply (f_equal (@length _)) in E. rewrite H1, app_length in E. cbn in E. rewrite app_length in E. lia.
      + assert (X : f = []) by (apply (B (c :: e) f h E); [now rewrite H1|discriminate]). subst f. rewrite app_nil_r in E. apply O. exists g, []. now rewrite app_nil_r, E. }
  intros O O' H. destruct (app_cases _ _ _ _ H) as [(e & E & F)|(e & E & F)].
  - assert (X : e = []) by exact (G g r g' r' O' e E F). subst e. rewrite app_nil_r in E. cbn in F. apply app_inv_head in F. auto.
  - assert (X : e = []) by exact (G g' r' g r O e E F). subst e. rewrite app_nil_r in E. cbn in F. apply app_inv_head in F. auto.
Qed.
Lemma subst_unique w r s t t' : (forall x y z, w = x ++ y -> y ++ z = w -> x <> [] -> y = []) -> w <> [] -> subst_all w r s t -> subst_all w r s t' -> t = t'.
Proof.
  intros B N (g & gs & Hs & -> & F) (g' & gs' & Hs' & -> & F'). rewrite Hs in Hs'. clear Hs s.
  assert (G : forall gs gs' g g', g ++ flat_map (app w) gs = g' ++ flat_map (app w) gs' -> Forall (fun g => ~ occurs w g) (g :: gs) -> Forall (fun g => ~ occurs w g) (g' :: gs') -> g = g' /\ gs = gs').
  { clear g gs g' gs' Hs' F F'. induction gs as [|h gs IH]; intros gs' g g' E F F'.
    - destruct gs' as [|h' gs']; cbn in E; [rewrite !app_nil_r in E; auto|]. exfalso. apply Forall_inv in F. apply F. rewrite app_nil_r in E. exists g', (h' ++ flat_map (app w) gs'). now rewrite E, <- !app_assoc.
    - destruct gs' as [|h' gs']; cbn in E.
      + exfalso. apply Forall_inv in F'. apply F'. rewrite app_nil_r in E. exists g, (h ++ flat_map (app w) gs). now rewrite <- E, <- !app_assoc.
      + rewrite <- !app_assoc in E. apply first_cut in E; [|exact B|exact N|now apply Forall_inv in F|now apply Forall_inv in F']. destruct E as (-> & E).
        apply Forall_inv_tail in F, F'. destruct (IH gs' h h' E F F') as (-> & ->). auto. }
  destruct (G gs gs' g g' Hs' F F') as (-> & ->). reflexivity.
Qed.
Lemma cleaned_unique s t t' : cleaned s t -> cleaned s t' -> t = t'.
Proof.
  intros (p & S & T) (p' & S' & T'). rewrite (stripped_unique _ _ _ S' S) in T'. refine (subst_unique _ _ _ _ _ _ _ T T'); [exact anon_borderless|discriminate].
Qed.
Lemma demangle_shown d n : shown_name d n (demangle d n).
Proof.
  exists (fix_text (nm_str n)). split; [apply fix_cleaned|]. unfold demangle, fix_symbol_name. cbn [nm_lang nm_str]. unfold lang_c. destruct (N.eqb_spec (nm_lang n) 1) as [E|E]; [now left|]. right. split; [exact E|].
  unfold if_possible. destruct (dm_demangle d _); auto.
Qed.
Lemma demangle_str_public d s : public_name d s (demangle_str d s).
Proof.
  unfold public_name, demangle_str, lang_unknown, fix_symbol_name. cbn [nm_str nm_lang nm_mangling]. destruct (N.eqb_spec (dm_detect d s) 0) as [E|E]; [now left|]. right. split; [exact E|].
  exists (fix_text s). split; [apply fix_cleaned|]. unfold if_possible, mangled. destruct (dm_demangle d _); auto.
Qed.
Lemma filter_printable s : printable s (filter (fun c => negb (is_ascii_control c)) s).
Proof. induction s as [|c s IH]; cbn [filter]; [constructor|]. unfold is_ascii_control at 1. destruct ((c <? 32) || (c =? 127)) eqn:E; cbn [negb]; constructor; trivial; lia. Qed.
Lemma demangle_origin d n : origin_name d n (demangle_and_sanitize d n).
Proof. exists (demangle d n). split; [apply demangle_shown|apply filter_printable]. Qed.
Lemma possible_unique d n t t' : if_possible d n t -> if_possible d n t' -> t = t'.
Proof. intros [A|(A & ->)] [B|(B & ->)]; congruence. Qed.
Lemma shown_unique d n t t' : shown_name d n t -> shown_name d n t' -> t = t'.
Proof.
  intros (c & C & [(L & ->)|(L & P)]) (c' & C' & [(L' & ->)|(L' & P')]); try contradiction; rewrite (cleaned_unique _ _ _ C' C) in *; [reflexivity|exact (possible_unique _ _ _ _ P P')].
Qed.
Lemma public_name_unique d n t t' : public_name d n t -> public_name d n t' -> t = t'.
Proof.
  intros [(L & ->)|(L & c & C & P)] [(L' & ->)|(L' & c' & C' & P')]; try contradiction; [reflexivity|]. rewrite (cleaned_unique _ _ _ C' C) in *. exact (possible_unique _ _ _ _ P P').
Qed.
Lemma printable_unique s t t' : printable s t -> printable s t' -> t = t'.
Proof. intros H. revert t'. induction H; intros t' H'; inversion H'; subst; trivial; try lia; auto. f_equal. auto. Qed.
Lemma origin_unique d n t t' : origin_name d n t -> origin_name d n t' -> t = t'.
Proof. intros (u & U & P) (u' & U' & P'). rewrite (shown_unique _ _ _ _ U' U) in P'. exact (printable_unique _ _ _ P P'). Qed.
