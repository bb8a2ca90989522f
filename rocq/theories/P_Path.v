(** Proofs about paths. *)
From Verif Require Import Base Str Utf8 P_Names M_Path S_Path.

(** ** Trimming *)
Lemma trim_start_split p s : exists seps, s = seps ++ trim_start_by p s /\ forallb p seps = true /\
  (forall c x, trim_start_by p s = c :: x -> p c = false).
Proof.
  induction s as [|c s IH]; cbn [trim_start_by].
  - exists []. repeat split. discriminate.
  - destruct (p c) eqn:E.
    + destruct IH as [seps [H1 [H2 H3]]]. exists (c :: seps). cbn. rewrite E, H2, <- H1. repeat split; trivial.
    + exists []. repeat split. intros c' x [= <- <-]. exact E.
Qed.
Lemma trim_end_split p s : exists seps, s = trim_end_by p s ++ seps /\ forallb p seps = true /\
  (forall x c, trim_end_by p s = x ++ [c] -> p c = false).
Proof.
  unfold trim_end_by. destruct (trim_start_split p (rev s)) as [seps [H1 [H2 H3]]].
  exists (rev seps). split; [|split].
  - rewrite <- rev_app_distr, <- H1, rev_involutive. reflexivity.
  - rewrite forallb_forall in *. intros c Hc. apply H2. now apply in_rev.
  - intros x c H. apply (H3 c (rev x)). apply (f_equal (@rev N)) in H. rewrite rev_involutive, rev_app_distr in H. exact H.
Qed.
Lemma trim_start_app p a b : forallb p a = true -> trim_start_by p (a ++ b) = trim_start_by p b.
Proof. induction a as [|c a IH]; [reflexivity|]. cbn. intros H. apply andb_true_iff in H as [E H]. rewrite E. auto. Qed.
Lemma trim_start_stop p c b : p c = false -> trim_start_by p (c :: b) = c :: b.
Proof. intros E. cbn. now rewrite E. Qed.
Lemma trim_start_stop2 p s t : (forall c x, s = c :: x -> p c = false) -> s <> [] -> trim_start_by p (s ++ t) = s ++ t.
Proof. destruct s as [|c s]; [easy|]. intros H _. apply trim_start_stop. eapply H. reflexivity. Qed.
Lemma trim_end_app p a b : forallb p b = true -> trim_end_by p (a ++ b) = trim_end_by p a.
Proof.
  intros H. unfold trim_end_by. rewrite rev_app_distr, trim_start_app; trivial.
  rewrite forallb_forall in *. intros c Hc. apply H. now apply in_rev.
Qed.
Lemma trim_end_stop p s c : p c = false -> trim_end_by p (s ++ [c]) = s ++ [c].
Proof.
  intros E. unfold trim_end_by. rewrite rev_app_distr. cbn [rev app]. rewrite trim_start_stop by exact E.
  cbn [rev]. now rewrite rev_involutive.
Qed.
Lemma trim_end_stop2 p a s : (forall x c, s = x ++ [c] -> p c = false) -> s <> [] -> trim_end_by p (a ++ s) = a ++ s.
Proof.
  intros H Hn. destruct (exists_last Hn) as [x [c ->]]. rewrite app_assoc. apply trim_end_stop. eapply H. reflexivity.
Qed.
Lemma trim_end_id p s : (forall x c, s = x ++ [c] -> p c = false) -> trim_end_by p s = s.
Proof.
  intros H. destruct s as [|c s]; [reflexivity|]. apply (trim_end_stop2 p [] (c :: s)); [exact H|discriminate].
Qed.
Lemma trim_start_id p s : (forall c x, s = c :: x -> p c = false) -> trim_start_by p s = s.
Proof. destruct s as [|c s]; [reflexivity|]. intros H. apply trim_start_stop. eapply H. reflexivity. Qed.

Lemma is_sep_spec c : is_sep c = true <-> sp_sep Win c.
Proof. unfold is_sep, sp_sep, c_slash, c_bslash. lia. Qed.
Lemma is_slash_spec p c : p <> Win -> is_slash c = true <-> sp_sep p c.
Proof. unfold is_slash, sp_sep, c_slash. destruct p; intros; try lia; congruence. Qed.

Definition sepb (p : Platform) (c : N) : bool := match p with Win => is_sep c | _ => is_slash c end.
Lemma sepb_spec p c : sepb p c = true <-> sp_sep p c.
Proof. destruct p; [apply is_slash_spec|apply is_slash_spec|apply is_sep_spec]; discriminate. Qed.
Lemma sepb_false p c : sepb p c = false <-> ~ sp_sep p c.
Proof. rewrite <- sepb_spec. destruct (sepb p c); split; congruence. Qed.

Lemma trim_end_no_trailing p s : no_trailing p s (trim_end_by (sepb p) s).
Proof.
  destruct (trim_end_split (sepb p) s) as [seps [H1 [H2 H3]]]. exists seps. split; [exact H1|split].
  - intros c Hc. rewrite forallb_forall in H2. apply sepb_spec. auto.
  - intros x c H. apply sepb_false. eauto.
Qed.
Lemma trim_start_no_leading p s : no_leading p s (trim_start_by (sepb p) s).
Proof.
  destruct (trim_start_split (sepb p) s) as [seps [H1 [H2 H3]]]. exists seps. split; [exact H1|split].
  - intros c Hc. rewrite forallb_forall in H2. apply sepb_spec. auto.
  - intros c x H. apply sepb_false. eauto.
Qed.
Lemma no_trailing_unique p s x : no_trailing p s x -> x = trim_end_by (sepb p) s.
Proof.
  intros [seps [-> [H2 H3]]]. rewrite trim_end_app, trim_end_id; trivial.
  - intros y c H. apply sepb_false. eauto.
  - apply forallb_forall. intros c Hc. apply sepb_spec. auto.
Qed.
Lemma no_leading_unique p s x : no_leading p s x -> x = trim_start_by (sepb p) s.
Proof.
  intros [seps [-> [H2 H3]]]. rewrite trim_start_app, trim_start_id; trivial.
  - intros c y H. apply sepb_false. eauto.
  - apply forallb_forall. intros c Hc. apply sepb_spec. auto.
Qed.

(** ** Joining *)
Lemma join_unfold p l r : join_paths p l r =
  trim_end_by (sepb p) l ++
  [match p with Win => if starts_with [c_slash] (trim_end_by (sepb p) l) then 47 else 92 | _ => 47 end]
  ++ trim_start_by (sepb p) r.
Proof.
  destruct p; try reflexivity. unfold join_paths. change (sepb Win) with is_sep.
  destruct (starts_with [c_slash] (trim_end_by is_sep l)); reflexivity.
Qed.

Lemma join_seam p l r l' r' : no_trailing p l l' -> no_leading p r r' ->
  exists sep, sp_sep p sep /\ join_paths p l r = l' ++ [sep] ++ r'.
Proof.
  intros Hl Hr. apply no_trailing_unique in Hl. apply no_leading_unique in Hr. subst.
  rewrite join_unfold. eexists. split; [|reflexivity].
  destruct p; try reflexivity. cbn. destruct (starts_with _ _); auto.
Qed.
Lemma join_unix p l r l' r' : p <> Win -> no_trailing p l l' -> no_leading p r r' ->
  join_paths p l r = l' ++ [47] ++ r'.
Proof.
  intros Hp Hl Hr. apply no_trailing_unique in Hl. apply no_leading_unique in Hr. subst.
  rewrite join_unfold. destruct p; congruence.
Qed.
Lemma starts_slash s : starts_with [c_slash] s = true <-> exists t, s = 47 :: t.
Proof. rewrite starts_with_spec. unfold c_slash. cbn [app]. reflexivity. Qed.
Lemma join_win l r l' r' : no_trailing Win l l' -> no_leading Win r r' ->
  join_paths Win l r = l' ++ [if starts_with (lit "/") l' then 47 else 92] ++ r'.
Proof.
  intros Hl Hr. apply no_trailing_unique in Hl. apply no_leading_unique in Hr. subst.
  rewrite join_unfold. reflexivity.
Qed.
Lemma join_win_slash l r : join_paths Win l r = trim_end_by is_sep l ++ [47] ++ trim_start_by is_sep r <->
  exists t, l = 47 :: t /\ exists c, In c l /\ ~ sp_sep Win c.
Proof.
  rewrite join_unfold. change (sepb Win) with is_sep. destruct (trim_end_split is_sep l) as [seps [H1 [H2 H3]]].
  set (l' := trim_end_by is_sep l) in *.
  assert (E : starts_with [c_slash] l' = true <-> exists t, l = 47 :: t /\ exists c, In c l /\ ~ sp_sep Win c).
  { rewrite starts_slash. split.
    - intros [t Ht]. exists (t ++ seps). rewrite H1, Ht. split; [reflexivity|].
      destruct (exists_last (l := l')) as [x [c Hc]]; [congruence|].
      exists c. split.
      + rewrite <- Ht, Hc. apply in_or_app. left. apply in_or_app. right. now left.
      + rewrite <- is_sep_spec, (H3 x c Hc). discriminate.
    - intros [t [Ht [c [Hc Hn]]]]. destruct l' as [|d l''].
      + cbn in H1. subst seps. rewrite forallb_forall in H2. exfalso. apply Hn, is_sep_spec. auto.
      + exists l''. rewrite H1 in Ht. injection Ht as -> _. reflexivity. }
  rewrite <- E. destruct (starts_with [c_slash] l'); split; intros H; try reflexivity; try discriminate.
  apply app_inv_head in H. discriminate H.
Qed.

Lemma before_first_spec p s : exists t, s = before_first p s ++ t /\ forallb (fun c => negb (p c)) (before_first p s) = true /\
  match t with [] => True | c :: _ => p c = true end.
Proof.
  induction s as [|c s IH]; cbn [before_first].
  - exists []. repeat split.
  - destruct (p c) eqn:E.
    + exists (c :: s). repeat split. exact E.
    + destruct IH as [t [H1 [H2 H3]]]. exists t. cbn. rewrite E, H2, <- H1. repeat split; trivial.
Qed.
Lemma before_first_app p x t : forallb (fun c => negb (p c)) x = true ->
  match t with [] => True | c :: _ => p c = true end -> before_first p (x ++ t) = x.
Proof.
  induction x as [|c x IH]; cbn.
  - intros _. destruct t; cbn; [easy|]. now intros ->.
  - intros H Ht. apply andb_true_iff in H as [E H]. destruct (p c); [discriminate|]. now rewrite IH.
Qed.
Lemma ends_with_char_spec c s : ends_with_char c s = true <-> exists x, s = x ++ [c].
Proof.
  unfold ends_with_char. destruct (last_opt s) as [d|] eqn:E.
  - apply last_opt_some in E as [x ->]. split.
    + intros H. apply N.eqb_eq in H. subst. eauto.
    + intros [y H]. apply app_inj_tail in H as [_ ->]. apply N.eqb_refl.
  - apply last_opt_none in E. subst. split; [discriminate|]. intros [x H]. destruct x; discriminate.
Qed.

(** The absolute-path test is right except that Windows counts the empty path
    as absolute. *)
Lemma is_absolute_spec p s : is_absolute_path p s = true <-> sp_abs p s \/ (p = Win /\ s = []).
Proof.
  assert (U : forall q, q <> Win -> starts_with [c_slash] s = true <-> sp_abs q s \/ (q = Win /\ s = [])).
  { intros q Hq. rewrite starts_slash. unfold sp_abs. split.
    - intros [t ->]. left. left. exists 47, t. split; [reflexivity|]. destruct q; reflexivity || congruence.
    - intros [[(c & t & -> & H)|[H _]]|[H _]]; try congruence. exists t. destruct q; cbn in H; subst; congruence. }
  destruct p; [apply (U Linux); discriminate|apply (U Mac); discriminate|]. clear U.
  unfold is_absolute_path. destruct (before_first_spec is_sep s) as [t [H1 [H2 H3]]].
  remember (before_first is_sep s) as f eqn:Ef. split.
  - intros H. destruct f as [|c f].
    + cbn in H1. subst t. destruct s as [|c s]; [right; auto|]. left. left. exists c, s. split; [reflexivity|].
      now apply is_sep_spec.
    + apply ends_with_char_spec in H as [x Hx]. left. right. split; [reflexivity|].
      exists x, t. rewrite H1, Hx, <- app_assoc. split; [reflexivity|]. split.
      * intros d Hd. rewrite <- is_sep_spec. rewrite Hx in H2. rewrite forallb_forall in H2.
        specialize (H2 d (in_or_app _ _ _ (or_introl Hd))). destruct (is_sep d); [discriminate|congruence].
      * destruct t; [exact I|]. now apply is_sep_spec.
  - intros [[(c & u & -> & H)|(_ & x & u & -> & Hx & Hu)]|[_ ->]].
    + cbn in Ef. apply is_sep_spec in H. rewrite H in Ef. now subst f.
    + assert (f = x ++ [58]).
      { subst f. change (x ++ 58 :: u) with (x ++ [58] ++ u). rewrite app_assoc. apply before_first_app.
        - rewrite forallb_app. cbn. replace (is_sep 58) with false by reflexivity. cbn. rewrite andb_true_r.
          apply forallb_forall. intros d Hd. specialize (Hx d Hd). rewrite <- is_sep_spec in Hx.
          destruct (is_sep d); [tauto|reflexivity].
        - destruct u; [exact I|]. now apply is_sep_spec. }
      rewrite H. destruct (x ++ [58]) eqn:E; [destruct x; discriminate|]. rewrite <- E. apply ends_with_char_spec. eauto.
    + cbn in Ef. now subst f.
Qed.

Lemma sep_app_first p (s : str) c t : sp_sep p c -> exists d u, trim_end_by (sepb p) s ++ c :: t = d :: u /\
  (s = [] \/ (exists x y, s = x :: y /\ (d = x \/ (sp_sep p x /\ sp_sep p d)))).
Proof.
  intros Hc. destruct (trim_end_split (sepb p) s) as [seps [H1 [H2 H3]]].
  destruct (trim_end_by (sepb p) s) as [|x l] eqn:E.
  - exists c, t. split; [reflexivity|]. destruct s as [|x y]; [now left|right]. exists x, y. split; [reflexivity|].
    right. split; [|exact Hc]. cbn in H1. subst seps. cbn in H2. apply andb_true_iff in H2 as [H2 _]. now apply sepb_spec.
  - exists x, (l ++ c :: t). split; [reflexivity|]. right. exists x, (l ++ seps). split; [exact H1|now left].
Qed.

Lemma join_abs p l r : sp_abs p l -> sp_abs p (join_paths p l r).
Proof.
  intros H. rewrite join_unfold.
  set (sep := match p with Win => _ | _ => _ end).
  assert (Hs : sp_sep p sep). { subst sep. destruct p; try reflexivity. cbn. destruct (starts_with _ _); auto. }
  clearbody sep. cbn [app]. destruct H as [(c & t & -> & Hc)|(-> & x & t & -> & Hx & Ht)].
  - left. destruct (sep_app_first p (c :: t) sep (trim_start_by (sepb p) r) Hs) as (d & u & -> & [Hn|(a & b & [= <- <-] & [->|[_ Hd]])]);
      [discriminate| |]; eauto.
  - right. split; [reflexivity|]. destruct (trim_end_split (sepb Win) (x ++ 58 :: t)) as [seps [H1 [H2 H3]]].
    exists x. destruct t as [|d t].
    + exists (sep :: trim_start_by (sepb Win) r). split; [|split; [exact Hx|exact Hs]].
      rewrite trim_end_stop by reflexivity. rewrite <- app_assoc. reflexivity.
    + (* the separators removed at the end cannot reach the drive *)
      assert (exists t', trim_end_by (sepb Win) (x ++ 58 :: d :: t) = x ++ 58 :: t' /\ match t' with [] => True | c :: _ => sp_sep Win c end) as [t' [-> Ht']].
      { destruct (trim_end_split (sepb Win) (d :: t)) as [sp2 [G1 [G2 G3]]].
        replace (x ++ 58 :: d :: t) with ((x ++ [58]) ++ (d :: t)) by (rewrite <- app_assoc; reflexivity).
        destruct (trim_end_by (sepb Win) (d :: t)) as [|e t'] eqn:E.
        - exists []. split; [|exact I]. cbn in G1. subst sp2. rewrite trim_end_app by exact G2.
          rewrite trim_end_stop by reflexivity. reflexivity.
        - exists (e :: t'). rewrite G1, app_assoc, trim_end_app by exact G2. rewrite trim_end_stop2; [|exact G3|discriminate].
          split; [rewrite <- app_assoc; reflexivity|]. cbn in G1. injection G1 as -> _. exact Ht. }
      exists (t' ++ sep :: trim_start_by (sepb Win) r). split; [rewrite <- app_assoc; reflexivity|].
      split; [exact Hx|]. destruct t'; [exact Hs|exact Ht'].
Qed.

Lemma join_assoc p a b c : p <> Win -> join_paths p (join_paths p a b) c = join_paths p a (join_paths p b c).
Proof.
  intros Hp. assert (E : forall l r, join_paths p l r = trim_end_by is_slash l ++ [47] ++ trim_start_by is_slash r)
    by (destruct p; congruence || reflexivity). rewrite !E. clear E.
  destruct (trim_start_split is_slash b) as [sb [B1 [B2 B3]]].
  destruct (trim_end_split is_slash a) as [sa [A1 [A2 A3]]].
  destruct (trim_start_split is_slash c) as [sc [C1 [C2 C3]]].
  set (A := trim_end_by is_slash a) in *. set (C := trim_start_by is_slash c) in *.
  set (B := trim_start_by is_slash b) in *. clearbody A C.
  destruct (trim_end_split is_slash B) as [se [E1 [E2 E3]]].
  set (D := trim_end_by is_slash B) in *.
  assert (HL : trim_end_by is_slash (A ++ [47] ++ B) = match D with [] => A | _ => A ++ [47] ++ D end).
  { rewrite E1. destruct D as [|d D'].
    - cbn [app]. change (A ++ 47 :: se) with (A ++ (47 :: se)). rewrite trim_end_app; [now apply trim_end_id|].
      cbn. exact E2.
    - change ([47] ++ (d :: D') ++ se) with (([47] ++ (d :: D')) ++ se). rewrite app_assoc, trim_end_app by exact E2.
      rewrite app_assoc. rewrite trim_end_stop2; [|exact E3|discriminate]. reflexivity. }
  assert (HT : trim_end_by is_slash b = match D with [] => [] | _ => sb ++ D end).
  { rewrite B1, E1. destruct D as [|d D'].
    - cbn [app]. rewrite <- (app_nil_l (sb ++ se)), trim_end_app; [reflexivity|]. rewrite forallb_app, B2. exact E2.
    - rewrite app_assoc, trim_end_app by exact E2. rewrite trim_end_stop2; [|exact E3|discriminate]. reflexivity. }
  rewrite HL, HT. destruct D as [|d D'].
  - cbn [app]. change (47 :: C) with ([47] ++ C). rewrite (trim_start_app is_slash [47] C eq_refl).
    rewrite (trim_start_id is_slash C C3). reflexivity.
  - rewrite <- !app_assoc. rewrite trim_start_app by exact B2. f_equal. f_equal.
    rewrite trim_start_stop2; [reflexivity| |discriminate].
    intros e x [= <- <-]. apply (B3 d (D' ++ se)). exact E1.
Qed.

(** ** Components and normalisation *)
Definition nslash (s : str) : Prop := forallb (fun c => negb (is_slash c)) s = true.
Lemma nslash_In s : nslash s <-> ~ In 47 s.
Proof.
  unfold nslash. rewrite forallb_forall. unfold is_slash, c_slash. split.
  - intros H Hin. specialize (H 47 Hin). discriminate.
  - intros H c Hc. destruct (c =? 47) eqn:E; [|reflexivity]. apply N.eqb_eq in E. subst. tauto.
Qed.
Lemma proper_nslash p : proper p -> nslash p.
Proof. intros (_ & _ & _ & H). now apply nslash_In. Qed.

Lemma piece_comp_proper b p : proper p -> piece_comp b p = [Normal p].
Proof.
  intros (H1 & H2 & H3 & _). unfold piece_comp. apply str_eqb_neq in H1, H2, H3.
  change (lit ".") with [46]. change (lit "..") with [46; 46]. now rewrite H1, H2, H3.
Qed.
Lemma split_render names : Forall proper names -> names <> [] -> split_on is_slash (join_with 47 names) = names.
Proof.
  intros F Hn. apply (split_join 47 names Hn).
  eapply Forall_impl; [|exact F]. intros p Hp. now apply proper_nslash.
Qed.
Lemma flat_map_proper b names : Forall proper names -> flat_map (piece_comp b) names = map Normal names.
Proof.
  induction 1 as [|p ps Hp _ IH]; [reflexivity|]. cbn [flat_map map]. rewrite IH, piece_comp_proper by exact Hp. reflexivity.
Qed.
Lemma split_on_cons_sep c s : is_slash c = true -> split_on is_slash (c :: s) = [] :: split_on is_slash s.
Proof. intros E. cbn [split_on]. now rewrite E. Qed.

Lemma proper_head names : Forall proper names -> starts_with [c_slash] (join_with 47 names) = false.
Proof.
  intros F. destruct names as [|p ps]; [reflexivity|]. inversion F as [|? ? Hp _]; subst.
  destruct p as [|c p]; [now destruct Hp|]. rewrite join_with_concat. cbn [app].
  destruct (starts_with [c_slash] (c :: p ++ concat (map (cons 47) ps))) eqn:E; [|reflexivity].
  apply starts_slash in E as [t [= -> _]]. destruct Hp as (_ & _ & _ & H). exfalso. apply H. now left.
Qed.
Lemma components_render (root : bool) names : Forall proper names ->
  components (sp_render root names) = (if root then [RootDir] else []) ++ map Normal names.
Proof.
  intros F. unfold components, sp_render. destruct root.
  - change ([47] ++ join_with 47 names) with (47 :: join_with 47 names).
    rewrite split_on_cons_sep by reflexivity.
    replace (starts_with [c_slash] (47 :: join_with 47 names)) with true by (symmetry; apply starts_slash; eauto).
    f_equal. destruct names as [|p ps]; [reflexivity|].
    rewrite split_render by (trivial || discriminate). now apply flat_map_proper.
  - cbn [app]. destruct names as [|p ps]; [reflexivity|].
    rewrite split_render by (trivial || discriminate). rewrite (proper_head _ F).
    inversion F; subst. rewrite piece_comp_proper, flat_map_proper by trivial. reflexivity.
Qed.

Fixpoint blen (cs : list Comp) : nat :=
  match cs with
  | [] => 0
  | Normal s :: t => S (length s) + blen t
  | ParentDir :: t => 3 + blen t
  | CurDir :: t => 2 + blen t
  | RootDir :: t => blen t
  end.
Lemma blen_app a b : blen (a ++ b) = (blen a + blen b)%nat.
Proof. induction a as [|c a IH]; [reflexivity|]. destruct c; cbn [app blen]; rewrite IH; lia. Qed.
Lemma blen_piece b p : (blen (piece_comp b p) <= S (length p))%nat.
Proof.
  unfold piece_comp. destruct (str_eqb p []) eqn:E1; [cbn; lia|].
  destruct (str_eqb p (lit ".")) eqn:E2.
  - apply str_eqb_eq in E2. subst. destruct b; cbn; lia.
  - destruct (str_eqb p (lit "..")) eqn:E3; [apply str_eqb_eq in E3; subst; cbn; lia|]. cbn. lia.
Qed.
Fixpoint plen (ps : list str) : nat := match ps with [] => 0 | p :: t => S (length p) + plen t end.
Lemma blen_pieces ps : (blen (flat_map (piece_comp false) ps) <= plen ps)%nat.
Proof.
  induction ps as [|p ps IH]; [reflexivity|]. cbn [flat_map plen]. rewrite blen_app. pose proof (blen_piece false p). lia.
Qed.
Lemma split_plen s : plen (split_on is_slash s) = S (length s).
Proof.
  induction s as [|c s IH]; [reflexivity|]. cbn [split_on]. destruct (is_slash c).
  - cbn [plen length]. lia.
  - destruct (split_on is_slash s) as [|p ps] eqn:E; [now apply split_on_nonempty in E|]. cbn [plen length] in *. lia.
Qed.
Lemma blen_map_normal names : blen (map Normal names) = plen names.
Proof. induction names as [|p ps IH]; [reflexivity|]. cbn [map blen plen]. now rewrite IH. Qed.
Lemma join_plen names : names <> [] -> S (length (join_with 47 names)) = plen names.
Proof.
  induction names as [|p ps IH]; [easy|]. intros _. rewrite join_with_concat, app_length. cbn [plen].
  destruct ps as [|q ps]; [cbn; lia|]. specialize (IH ltac:(discriminate)). rewrite join_with_concat, app_length in IH.
  cbn [map concat]. rewrite app_length. cbn [length]. lia.
Qed.

Lemma piece_no_root b q : ~ In RootDir (piece_comp b q).
Proof.
  unfold piece_comp. destruct (str_eqb q []); [easy|]. destruct (str_eqb q (lit ".")); [destruct b; cbn; intuition congruence|].
  destruct (str_eqb q (lit "..")); cbn; intuition congruence.
Qed.
Lemma prefix_len (root : bool) names p : Forall proper names ->
  components p = (if root then [RootDir] else []) ++ map Normal names ->
  (length (sp_render root names) <= length p)%nat.
Proof.
  intros F H. unfold sp_render. rewrite app_length.
  assert (B : blen (components p) = plen names) by (rewrite H, blen_app, blen_map_normal; destruct root; reflexivity).
  pose proof (split_plen p) as PL.
  unfold components in *. destruct (split_on is_slash p) as [|p0 ps] eqn:Es; [now apply split_on_nonempty in Es|].
  pose proof (blen_pieces ps) as BP. rewrite blen_app in B. cbn [plen] in PL.
  destruct (starts_with [c_slash] p) eqn:Ea.
  - apply starts_slash in Ea as [t ->]. rewrite split_on_cons_sep in Es by reflexivity. injection Es as <- Hs.
    cbn [blen] in B. destruct root.
    + destruct names as [|n ns]; [cbn; lia|]. pose proof (join_plen (n :: ns) ltac:(discriminate)). cbn [length] in *. lia.
    + destruct names; discriminate.
  - destruct root.
    + exfalso. assert (Hin : In RootDir (piece_comp true p0 ++ flat_map (piece_comp false) ps)) by (rewrite H; now left).
      apply in_app_or in Hin as [Hin|Hin]; [now apply piece_no_root in Hin|].
      apply in_flat_map in Hin as [q [_ Hq]]. now apply piece_no_root in Hq.
    + pose proof (blen_piece true p0). destruct names as [|n ns]; [cbn; lia|].
      pose proof (join_plen (n :: ns) ltac:(discriminate)). cbn [length] in *. lia.
Qed.

Lemma comp_eqb_eq a b : comp_eqb a b = true <-> a = b.
Proof.
  destruct a, b; cbn; try (split; congruence); try tauto. rewrite str_eqb_eq. split; congruence.
Qed.
Lemma comps_eqb_eq a b : list_eqb comp_eqb a b = true <-> a = b.
Proof. apply list_eqb_spec. exact comp_eqb_eq. Qed.

Lemma shortest_prefix_spec s cs k : (k <= length s)%nat -> components (firstn k s) = cs ->
  (forall j, (j < k)%nat -> components (firstn j s) <> cs) ->
  forall fuel n, (n <= k)%nat -> (k <= n + fuel)%nat -> shortest_prefix fuel n s cs = firstn k s.
Proof.
  intros Hk Hc Hmin. induction fuel as [|f IH]; intros n Hn Hf; cbn [shortest_prefix].
  - assert (n = k) by lia. subst n. replace (list_eqb comp_eqb (components (firstn k s)) cs) with true; [reflexivity|].
    symmetry. now apply comps_eqb_eq.
  - destruct (list_eqb comp_eqb (components (firstn n s)) cs) eqn:E.
    + apply comps_eqb_eq in E. destruct (Nat.eq_dec n k) as [->|Hne]; [reflexivity|]. exfalso. apply (Hmin n); [lia|exact E].
    + destruct (Nat.eq_dec n k) as [->|Hne].
      * exfalso. apply Bool.not_true_iff_false in E. apply E. now apply comps_eqb_eq.
      * apply IH; lia.
Qed.

Lemma join_snoc names p : names <> [] -> join_with 47 (names ++ [p]) = join_with 47 names ++ [47] ++ p.
Proof.
  destruct names as [|n ns]; [easy|]. intros _. cbn [app]. rewrite !join_with_concat, map_app, concat_app. cbn.
  rewrite app_nil_r. now rewrite <- app_assoc.
Qed.
Lemma render_snoc root names p : sp_render root (names ++ [p]) =
  sp_render root names ++ (match names with [] => [] | _ => [47] end) ++ p.
Proof.
  unfold sp_render. destruct names as [|n ns].
  - cbn. now rewrite app_nil_r.
  - rewrite join_snoc by discriminate. now rewrite app_assoc.
Qed.

Lemma pop_render root names p : Forall proper (names ++ [p]) ->
  path_pop (sp_render root (names ++ [p])) = sp_render root names.
Proof.
  intros F. assert (Fn : Forall proper names) by (apply Forall_app in F; tauto).
  unfold path_pop, path_parent. rewrite (components_render root _ F), map_app. cbn [map].
  rewrite app_assoc, last_opt_app, removelast_last.
  set (s := sp_render root (names ++ [p])).
  assert (Es : s = sp_render root names ++ (match names with [] => [] | _ => [47] end) ++ p) by apply render_snoc.
  assert (Ek : firstn (length (sp_render root names)) s = sp_render root names).
  { rewrite Es, firstn_app, Nat.sub_diag. cbn. rewrite app_nil_r. apply firstn_all. }
  cbv beta iota. etransitivity; [|exact Ek]. apply shortest_prefix_spec.
  - rewrite Es, app_length. lia.
  - rewrite Ek. now apply components_render.
  - intros j Hj H. pose proof (prefix_len root names (firstn j s) Fn H) as L. rewrite firstn_length in L. lia.
  - lia.
  - rewrite Es, app_length. lia.
Qed.
Lemma pop_render_nil root : path_pop (sp_render root []) = sp_render root [].
Proof. destruct root; reflexivity. Qed.

Lemma render_ends root names : Forall proper names -> ends_with_char 47 (sp_render root names) = true -> names = [].
Proof.
  intros F H. destruct names as [|n0 ns0]; [reflexivity|].
  destruct (exists_last (l := n0 :: ns0)) as [ns [p Ep]]; [discriminate|]. rewrite Ep in *.
  - apply ends_with_char_spec in H as [x H]. exfalso.
    rewrite render_snoc in H. apply Forall_app in F as [_ F]. inversion F as [|? ? (Hp & _ & _ & Hs) _]; subst.
    destruct (exists_last Hp) as [q [c ->]]. rewrite !app_assoc in H. apply app_inj_tail in H as [_ ->].
    apply Hs, in_or_app. right. now left.
Qed.

Lemma push_render root names p : Forall proper names -> proper p ->
  path_push (sp_render root names) p = sp_render root (names ++ [p]).
Proof.
  intros F Hp. unfold path_push. replace (starts_with [c_slash] p) with false.
  2:{ symmetry. destruct (starts_with [c_slash] p) eqn:E; [|reflexivity]. apply starts_slash in E as [t ->].
      destruct Hp as (_ & _ & _ & H). exfalso. apply H. now left. }
  rewrite render_snoc.
  destruct names as [|n ns].
  - destruct root; reflexivity.
  - destruct (sp_render root (n :: ns)) as [|c s] eqn:E.
    + exfalso. unfold sp_render in E. apply app_eq_nil in E as [_ E]. rewrite join_with_concat in E.
      apply app_eq_nil in E as [E _]. inversion F as [|? ? (H & _) _]; congruence.
    + rewrite <- E. destruct (ends_with_char c_slash (sp_render root (n :: ns))) eqn:Ee; [|reflexivity].
      apply render_ends in Ee; [discriminate|exact F].
Qed.

(** One step of normalisation on normal forms. *)
Definition st_step (names : list str) (c : Comp) : list str :=
  match c with
  | RootDir | CurDir => names
  | ParentDir => removelast names
  | Normal s => names ++ [s]
  end.
Definition comp_proper (c : Comp) : Prop := match c with Normal s => proper s | RootDir => False | _ => True end.
Lemma removelast_Forall {A} (P : A -> Prop) l : Forall P l -> Forall P (removelast l).
Proof.
  destruct l as [|a l]; [trivial|]. destruct (exists_last (l := a :: l)) as [x [y ->]]; [discriminate|].
  rewrite removelast_last. intros H. apply Forall_app in H. tauto.
Qed.
Lemma norm_steps cs : Forall comp_proper cs -> forall root names, Forall proper names ->
  fold_left norm_step cs (sp_render root names) = sp_render root (fold_left st_step cs names) /\
  Forall proper (fold_left st_step cs names).
Proof.
  induction 1 as [|c cs Hc _ IH]; intros root names F; [now split|]. cbn [fold_left].
  destruct c; cbn [norm_step st_step] in *; [easy|auto| |].
  - destruct names as [|n ns]; [rewrite pop_render_nil; now apply IH|].
      destruct (exists_last (l := n :: ns)) as [x [y E]]; [discriminate|]. rewrite E in *.
      rewrite pop_render, removelast_last by exact F. apply IH. apply Forall_app in F. tauto.
  - rewrite push_render by trivial. apply IH. apply Forall_app. split; trivial. now constructor.
Qed.

Lemma piece_comp_ok b p : nslash p -> Forall comp_proper (piece_comp b p).
Proof.
  intros H. unfold piece_comp.
  destruct (str_eqb p []) eqn:E1; [constructor|].
  destruct (str_eqb p (lit ".")) eqn:E2; [destruct b; repeat constructor|].
  destruct (str_eqb p (lit "..")) eqn:E3; [repeat constructor|].
  constructor; [|constructor]. apply str_eqb_neq in E1, E2, E3. repeat split; trivial. now apply nslash_In.
Qed.
Lemma pieces_ok s : Forall nslash (split_on is_slash s).
Proof. exact (split_on_pieces is_slash s). Qed.
Lemma flat_map_ok b ps : Forall nslash ps -> Forall comp_proper (flat_map (piece_comp b) ps).
Proof.
  induction 1 as [|p ps Hp _ IH]; [constructor|]. cbn [flat_map]. apply Forall_app. split; [now apply piece_comp_ok|exact IH].
Qed.

Lemma tl_removelast_rev {A} (l : list A) : tl (rev l) = rev (removelast l).
Proof.
  destruct l as [|a l]; [reflexivity|]. destruct (exists_last (l := a :: l)) as [x [y ->]]; [discriminate|].
  now rewrite rev_app_distr, removelast_last.
Qed.
Lemma piece_step b p names : rev (fold_left st_step (piece_comp b p) names) = sp_piece (rev names) p.
Proof.
  unfold piece_comp, sp_piece. destruct (str_eqb p []); [reflexivity|].
  change (lit ".") with [46]. change (lit "..") with [46; 46].
  destruct (str_eqb p [46]); [destruct b; reflexivity|].
  destruct (str_eqb p [46; 46]); cbn [fold_left st_step].
  - now rewrite tl_removelast_rev.
  - now rewrite rev_app_distr.
Qed.
Lemma pieces_step b ps : forall names, rev (fold_left st_step (flat_map (piece_comp b) ps) names) = fold_left sp_piece ps (rev names).
Proof.
  induction ps as [|p ps IH]; intros names; [reflexivity|]. cbn [flat_map fold_left].
  rewrite fold_left_app, IH, piece_step. reflexivity.
Qed.

Lemma normalize_spec s : exists names, normalize_path s = sp_render (sp_abs_unix s) names /\
  Forall proper names /\ rev names = sp_walk [] s.
Proof.
  unfold normalize_path, components, sp_walk, sp_pieces.
  change (fun c => c =? 47) with is_slash.
  pose proof (pieces_ok s) as OK.
  destruct (split_on is_slash s) as [|p0 ps] eqn:Es; [now apply split_on_nonempty in Es|].
  inversion OK as [|? ? Hp0 Hps]; subst.
  destruct (starts_with [c_slash] s) eqn:Ea.
  - apply starts_slash in Ea as [t ->]. rewrite split_on_cons_sep in Es by reflexivity. injection Es as <- Hs.
    change (sp_abs_unix (47 :: t)) with true. cbn [app fold_left].
    change (norm_step [] RootDir) with (sp_render true []).
    destruct (norm_steps _ (flat_map_ok false ps Hps) true [] (Forall_nil _)) as [H1 H2].
    eexists. split; [exact H1|]. split; [exact H2|]. rewrite pieces_step. reflexivity.
  - assert (sp_abs_unix s = false) as ->.
    { destruct s as [|c s]; [reflexivity|]. cbn. destruct (c =? 47) eqn:E; [|reflexivity]. apply N.eqb_eq in E. subst.
      exfalso. apply Bool.not_true_iff_false in Ea. apply Ea. apply starts_slash. eauto. }
    change (fold_left norm_step (piece_comp true p0 ++ flat_map (piece_comp false) ps) [])
      with (fold_left norm_step (piece_comp true p0 ++ flat_map (piece_comp false) ps) (sp_render false [])).
    destruct (norm_steps (piece_comp true p0 ++ flat_map (piece_comp false) ps)
       ltac:(apply Forall_app; split; [now apply piece_comp_ok|now apply flat_map_ok]) false [] (Forall_nil _)) as [H1 H2].
    eexists. split; [exact H1|]. split; [exact H2|].
    rewrite fold_left_app, pieces_step, piece_step. reflexivity.
Qed.

Lemma walk_names names : Forall proper names -> forall st, fold_left sp_piece names st = rev names ++ st.
Proof.
  induction 1 as [|p ps (H1 & H2 & H3 & _) _ IH]; intros st; [reflexivity|]. cbn [fold_left rev].
  rewrite IH. unfold sp_piece. apply str_eqb_neq in H1, H2, H3. rewrite H1, H2, H3. now rewrite <- app_assoc.
Qed.
Lemma abs_render root names : Forall proper names -> sp_abs_unix (sp_render root names) = root.
Proof.
  intros F. destruct root; [reflexivity|]. unfold sp_render. cbn [app].
  destruct names as [|p ps]; [reflexivity|]. inversion F as [|? ? (H1 & _ & _ & H4) _]; subst.
  destruct p as [|c p]; [easy|]. rewrite join_with_concat. cbn. destruct (c =? 47) eqn:E; [|reflexivity].
  apply N.eqb_eq in E. subst. exfalso. apply H4. now left.
Qed.
Lemma walk_render root names cwd : Forall proper names ->
  sp_walk cwd (sp_render root names) = rev names ++ (if root then [] else cwd).
Proof.
  intros F. unfold sp_walk. rewrite abs_render by exact F. unfold sp_pieces, sp_render.
  change (fun c => c =? 47) with is_slash. destruct root.
  - change ([47] ++ join_with 47 names) with (47 :: join_with 47 names). rewrite split_on_cons_sep by reflexivity.
    cbn [fold_left]. change (sp_piece [] []) with (@nil str). destruct names as [|p ps]; [reflexivity|].
    rewrite split_render by (trivial || discriminate). now apply walk_names.
  - cbn [app]. destruct names as [|p ps]; [reflexivity|].
    rewrite split_render by (trivial || discriminate). now apply walk_names.
Qed.

Lemma normalize_idem s : normalize_path (normalize_path s) = normalize_path s.
Proof.
  destruct (normalize_spec s) as (n1 & -> & F1 & _).
  destruct (normalize_spec (sp_render (sp_abs_unix s) n1)) as (n2 & -> & F2 & W).
  rewrite walk_render in W by exact F1. rewrite abs_render by exact F1. f_equal.
  rewrite <- (rev_involutive n2), W. destruct (sp_abs_unix s); rewrite app_nil_r; apply rev_involutive.
Qed.
Lemma normalize_walk_abs s cwd : sp_abs_unix s = true -> sp_walk cwd (normalize_path s) = sp_walk cwd s /\ sp_abs_unix (normalize_path s) = true.
Proof.
  intros H. destruct (normalize_spec s) as (n & -> & F & W). rewrite H in *. rewrite walk_render, abs_render by exact F.
  rewrite app_nil_r, W. split; [|reflexivity]. unfold sp_walk. now rewrite H.
Qed.
Lemma normalize_clean s : exists names, normalize_path s = sp_render (sp_abs_unix s) names /\ Forall proper names /\
  (names <> [] -> sp_pieces (normalize_path s) = (if sp_abs_unix s then [[]] else []) ++ names).
Proof.
  destruct (normalize_spec s) as (n & E & F & _). exists n. split; [exact E|]. split; [exact F|]. intros Hn. rewrite E.
  unfold sp_pieces, sp_render. change (fun c => c =? 47) with is_slash. destruct (sp_abs_unix s).
  - change ([47] ++ join_with 47 n) with (47 :: join_with 47 n). rewrite split_on_cons_sep by reflexivity.
    now rewrite split_render.
  - cbn [app]. now apply split_render.
Qed.

(** ** Source paths *)
Lemma get_path_abs canon p cd dir name : sp_abs p dir ->
  get_path canon p false cd dir name = join_paths p dir name.
Proof.
  intros H. unfold get_path. replace (is_absolute_path p dir) with true; [reflexivity|].
  symmetry. apply is_absolute_spec. now left.
Qed.
Lemma get_path_rel canon p cd dir name : ~ sp_abs p dir -> (p = Win -> dir <> []) -> cd <> [] ->
  get_path canon p false cd dir name = join_paths p (join_paths p (path_to_string cd) dir) name.
Proof.
  intros H H0 Hc. unfold get_path. replace (is_absolute_path p dir) with false.
  - destruct cd; [easy|reflexivity].
  - symmetry. apply Bool.not_true_iff_false. rewrite is_absolute_spec. intros [A|[A B]]; [now apply H|now apply H0].
Qed.
Lemma get_path_canon canon p cd dir name :
  get_path canon p true cd dir name =
  match canon (get_path canon p false cd dir name) with
  | Some q => q
  | None => normalize_path (get_path canon p false cd dir name)
  end.
Proof. reflexivity. Qed.
Lemma path_to_string_utf8 s : Forall scalar s -> path_to_string (encode s) = s.
Proof. intros H. unfold path_to_string. now rewrite decode_encode. Qed.
Lemma path_to_string_latin1 bs : (forall s, Forall scalar s -> bs <> encode s) -> path_to_string bs = bs.
Proof.
  intros H. unfold path_to_string. destruct (decode bs) as [s|] eqn:E; [|reflexivity].
  apply decode_spec in E as [F ->]. exfalso. now apply (H s F).
Qed.

(** ** Store path *)
Lemma push_nonempty s p : s <> [] -> ~ In 47 s -> ~ In 47 p -> path_push s p = s ++ [47] ++ p.
Proof.
  intros Hs Hn Hp. unfold path_push.
  replace (starts_with [c_slash] p) with false.
  2:{ symmetry. destruct (starts_with [c_slash] p) eqn:E; [|reflexivity]. apply starts_slash in E as [t ->].
      exfalso. apply Hp. now left. }
  destruct s as [|c s]; [easy|].
  destruct (ends_with_char c_slash (c :: s)) eqn:E; [|reflexivity].
  apply ends_with_char_spec in E as [x E]. exfalso. apply Hn. rewrite E. apply in_or_app. right. now left.
Qed.
Lemma push_tail s a p : s <> [] -> a <> [] -> ~ In 47 a -> ~ In 47 p -> path_push (s ++ [47] ++ a) p = s ++ [47] ++ a ++ [47] ++ p.
Proof.
  intros Hs Ha Hn Hp. unfold path_push.
  replace (starts_with [c_slash] p) with false.
  2:{ symmetry. destruct (starts_with [c_slash] p) eqn:E; [|reflexivity]. apply starts_slash in E as [t ->].
      exfalso. apply Hp. now left. }
  destruct (s ++ [47] ++ a) as [|c t] eqn:Et; [destruct s; discriminate|]. rewrite <- Et.
  destruct (ends_with_char c_slash (s ++ [47] ++ a)) eqn:E; [|rewrite <- !app_assoc; reflexivity].
  apply ends_with_char_spec in E as [x E]. exfalso. apply Hn.
  destruct (exists_last Ha) as [y [d ->]]. rewrite !app_assoc in E. apply app_inj_tail in E as [_ ->].
  apply in_or_app. right. now left.
Qed.

Lemma lower_ci e w : Forall (fun d => d < 65 \/ 90 < d) w -> to_lower e = w <-> ci e w.
Proof.
  unfold ci. revert w. induction e as [|c e IH]; intros w F; cbn [to_lower map].
  - split; [intros <-; constructor|]. intros H. inversion H. reflexivity.
  - split.
    + intros <-. inversion F as [|? ? F1 F2]; subst. constructor.
      * clear - F1. unfold lower_char in *. destruct ((65 <=? c) && (c <=? 90)) eqn:E; [right|now left]. split; lia.
      * now apply IH.
    + intros H. inversion H as [|? d ? w' H1 H2]; subst. inversion F as [|? ? F1 F2]; subst. f_equal.
      * clear - H1 F1. unfold lower_char. destruct ((65 <=? c) && (c <=? 90)) eqn:E; lia.
      * now apply IH.
Qed.
Lemma ci_length e w : ci e w -> length e = length w.
Proof. intros H. induction H; cbn; congruence. Qed.
Lemma ci_no_dot e w : ci e w -> ~ In 46 w -> ~ In 46 e.
Proof.
  intros H. induction H as [|c d e w H1 H2 IH]; cbn; [tauto|]. intros Hn [->|Hin].
  - apply Hn. left. lia.
  - apply IH; tauto.
Qed.
Lemma sep_split_unique (c : N) (a b a' b' : str) : ~ In c b -> ~ In c b' -> a ++ c :: b = a' ++ c :: b' -> a = a' /\ b = b'.
Proof.
  revert a'. induction a as [|x a IH]; intros [|x' a'] Hb Hb' E; cbn in E.
  - injection E as ->. auto.
  - injection E as -> ->. exfalso. apply Hb. apply in_or_app. right. now left.
  - injection E as <- <-. exfalso. apply Hb'. apply in_or_app. right. now left.
  - injection E as -> E2. destruct (IH a' Hb Hb' E2) as [-> ->]. auto.
Qed.
Lemma dot_split_unique (a b a' b' : str) : ~ In 46 b -> ~ In 46 b' -> a ++ 46 :: b = a' ++ 46 :: b' -> a = a' /\ b = b'.
Proof. apply sep_split_unique. Qed.
Lemma rsplit_dot a b : ~ In 46 b -> rsplit_once (lit ".") (a ++ 46 :: b) = Some (a, b).
Proof.
  intros Hb. apply rsplit_once_exact; [discriminate|reflexivity|].
  intros a' b' E. change (lit ".") with (repeat 46 1) in E. change (a ++ 46 :: b) with (a ++ repeat 46 1 ++ b) in E.
  exact (at_tail_max 46 0 a b a' b' Hb E).
Qed.
Lemma rsplit_dot_tail s a b : rsplit_once (lit ".") s = Some (a, b) -> s = a ++ 46 :: b /\ ~ In 46 b.
Proof.
  intros H. pose proof (rsplit_once_some _ _ _ _ H) as E. split; [exact E|]. intros Hin.
  apply in_split in Hin as [x [y ->]]. cbn in E.
  pose proof (rsplit_once_max _ _ _ _ (a ++ 46 :: x) y H) as M. rewrite E, <- app_assoc in M. specialize (M eq_refl).
  rewrite app_length in M. cbn in M. lia.
Qed.

Lemma components_single n : proper n -> components n = [Normal n].
Proof. intros H. exact (components_render false [n] (Forall_cons _ H (Forall_nil _))). Qed.
Lemma shortest_single n : proper n -> shortest_prefix (length n) 0 n (components n) = n.
Proof.
  intros H. etransitivity; [|apply (firstn_all n)]. apply shortest_prefix_spec; try lia.
  - now rewrite firstn_all.
  - intros j Hj E. rewrite (components_single n H) in E.
    pose proof (prefix_len false [n] (firstn j n) (Forall_cons _ H (Forall_nil _)) E) as L.
    rewrite firstn_length in L. cbn in L. lia.
Qed.
Lemma set_extension_single stem e ext : proper (stem ++ 46 :: e) -> stem <> [] -> ~ In 46 e ->
  path_set_extension (stem ++ 46 :: e) ext = stem ++ 46 :: ext.
Proof.
  intros H Hs He. unfold path_set_extension, path_file_name. rewrite shortest_single by exact H.
  rewrite components_single by exact H. cbn [last_opt].
  unfold split_file_at_dot. rewrite rsplit_dot by exact He. destruct stem as [|c stem]; [easy|]. cbn [fst].
  replace (length ((c :: stem) ++ 46%N :: e) - length ((c :: stem) ++ 46%N :: e) + length (c :: stem))%nat with (length (c :: stem)) by lia.
  rewrite firstn_app, firstn_all, Nat.sub_diag. cbn. rewrite app_nil_r. reflexivity.
Qed.
Lemma extension_single n e : proper n -> path_extension n = Some e <->
  exists stem, stem <> [] /\ n = stem ++ 46 :: e /\ ~ In 46 e.
Proof.
  intros H. unfold path_extension, path_file_name. rewrite components_single by exact H. cbn [last_opt].
  unfold split_file_at_dot. destruct (rsplit_once (lit ".") n) as [[a b]|] eqn:R.
  - apply rsplit_dot_tail in R as [-> Hb]. split.
    + destruct a as [|c a]; cbn [snd]; [discriminate|]. intros [= <-]. exists (c :: a). repeat split; [discriminate|exact Hb].
    + intros (stem & Hs & E & He). apply dot_split_unique in E as [-> ->]; trivial. destruct stem; [easy|reflexivity].
  - split; [discriminate|]. intros (stem & _ & E & _). exfalso. now apply (rsplit_once_none _ _ stem e R).
Qed.

Lemma get_base_spec n : no_slash n -> n <> [] -> sp_base n (get_base n).
Proof.
  intros Hs Hn. unfold sp_base, get_base.
  assert (Short : (length n <= 2)%nat -> forall stem e o w, stem <> [] -> n = stem ++ 46 :: e ->
     In (o, w) [(lit "pd_", lit "pdb"); (lit "ex_", lit "exe"); (lit "dl_", lit "dll")] -> ~ ci e o).
  { intros L stem e o w Hst E Hin Hci. apply ci_length in Hci.
    assert (length o = 3%nat) by (cbn in Hin; destruct Hin as [[= <- <-]|[[= <- <-]|[[= <- <-]|[]]]]; reflexivity).
    rewrite E, app_length in L. cbn [length] in L. lia. }
  destruct (str_eq_dec n [46]) as [->|N1]; [right; split; [apply Short; cbn; lia|reflexivity]|].
  destruct (str_eq_dec n [46; 46]) as [->|N2]; [right; split; [apply Short; cbn; lia|reflexivity]|].
  assert (P : proper n) by (repeat split; trivial).
  assert (D : forall w, In w [lit "pd_"; lit "ex_"; lit "dl_"] -> ~ In 46 w /\ Forall (fun d => d < 65 \/ 90 < d) w).
  { intros w Hw. cbn in Hw. repeat (destruct Hw as [<-|Hw]; [split; [cbn; intuition congruence|cbn; repeat (constructor; [lia|]); constructor]|]). destruct Hw. }
  destruct (path_extension n) as [e|] eqn:X.
  - apply (extension_single n e P) in X as (stem & Hst & -> & He).
    assert (G : forall o w, In (o, w) [(lit "pd_", lit "pdb"); (lit "ex_", lit "exe"); (lit "dl_", lit "dll")] ->
      to_lower e = o -> path_set_extension (stem ++ 46 :: e) w = stem ++ 46 :: w /\ ci e o).
    { intros o w Hin E. split; [now apply set_extension_single|]. apply lower_ci; [|exact E].
      apply D. cbn in Hin. destruct Hin as [[= <- <-]|[[= <- <-]|[[= <- <-]|[]]]]; cbn; auto. }
    destruct (str_eqb (to_lower e) (lit "pd_")) eqn:E1.
    { apply str_eqb_eq in E1. destruct (G (lit "pd_") (lit "pdb") ltac:(cbn; auto) E1) as [-> C]. left.
      exists stem, e, (lit "pd_"), (lit "pdb"). cbn; auto 8. }
    destruct (str_eqb (to_lower e) (lit "ex_")) eqn:E2.
    { apply str_eqb_eq in E2. destruct (G (lit "ex_") (lit "exe") ltac:(cbn; auto) E2) as [-> C]. left.
      exists stem, e, (lit "ex_"), (lit "exe"). cbn; auto 8. }
    destruct (str_eqb (to_lower e) (lit "dl_")) eqn:E3.
    { apply str_eqb_eq in E3. destruct (G (lit "dl_") (lit "dll") ltac:(cbn; auto) E3) as [-> C]. left.
      exists stem, e, (lit "dl_"), (lit "dll"). cbn; auto 8. }
    right. split; [|reflexivity]. intros stem' e' o w Hst' E Hin C.
    assert (Ho : In o [lit "pd_"; lit "ex_"; lit "dl_"]) by (cbn in Hin; destruct Hin as [[= <- <-]|[[= <- <-]|[[= <- <-]|[]]]]; cbn; auto).
    destruct (D o Ho) as [D1 D2]. apply dot_split_unique in E as [-> ->]; trivial; [|eapply ci_no_dot; eauto].
    apply lower_ci in C; [|exact D2]. rewrite C in E1, E2, E3.
    cbn [In] in Ho. destruct Ho as [<-|[<-|[<-|[]]]]; vm_compute in E1, E2, E3; discriminate.
  - right. split; [|reflexivity]. intros stem e o w Hst E Hin C.
    assert (Ho : In o [lit "pd_"; lit "ex_"; lit "dl_"]) by (cbn in Hin; destruct Hin as [[= <- <-]|[[= <- <-]|[[= <- <-]|[]]]]; cbn; auto).
    destruct (D o Ho) as [D1 D2]. assert (path_extension n = Some e) by (apply (extension_single n e P); exists stem; repeat split; trivial; eapply ci_no_dot; eauto).
    congruence.
Qed.
Lemma sym_name_spec n : sp_sym n (sym_file_name n).
Proof.
  unfold sp_sym, sym_file_name.
  assert (W : Forall (fun d => d < 65 \/ 90 < d) (lit "pdb")) by (cbn; repeat (constructor; [lia|]); constructor).
  destruct (rsplit_once (lit ".") n) as [[b e]|] eqn:R.
  - apply rsplit_dot_tail in R as [-> He]. destruct (str_eqb (to_lower e) (lit "pdb")) eqn:E.
    + apply str_eqb_eq in E. left. exists b, e. split; [reflexivity|]. split; [now apply lower_ci|reflexivity].
    + right. split; [|reflexivity]. intros b' e' E' C. apply dot_split_unique in E' as [-> ->]; trivial.
      * apply lower_ci in C; [|exact W]. apply str_eqb_neq in E. congruence.
      * eapply ci_no_dot; [exact C|]. cbn. intuition congruence.
  - right. split; [|reflexivity]. intros b' e' E' C. now apply (rsplit_once_none _ _ b' e' R).
Qed.

Lemma base_no_slash n b : no_slash n -> n <> [] -> sp_base n b -> no_slash b /\ b <> [] /\ length b = length n.
Proof.
  unfold no_slash. intros Hs Hn [(stem & e & o & w & Hst & -> & Hin & C & ->)|[_ ->]]; [|auto].
  assert (~ In 47 w /\ length w = 3%nat /\ length o = 3%nat) as [Hw [L1 L2]]
    by (cbn in Hin; destruct Hin as [[= <- <-]|[[= <- <-]|[[= <- <-]|[]]]]; cbn; repeat split; intuition congruence).
  split; [|split].
  - intros H. apply in_app_or in H as [H|[H|H]]; [|discriminate|tauto]. apply Hs. apply in_or_app. now left.
  - destruct stem; discriminate.
  - apply ci_length in C. rewrite !app_length. cbn [length]. lia.
Qed.
Lemma sym_no_slash n f : no_slash n -> sp_sym n f -> no_slash f.
Proof.
  unfold no_slash. intros Hs [(b & e & -> & C & ->)|[_ ->]] H; apply in_app_or in H as [H|H].
  - apply Hs. apply in_or_app. now left.
  - cbn in H. intuition congruence.
  - tauto.
  - cbn in H. intuition congruence.
Qed.

Lemma store_path n id : no_slash n -> n <> [] -> no_slash id -> id <> [] ->
  exists base f, sp_base n base /\ sp_sym n f /\ no_slash base /\ no_slash f /\
    get_path_for_sym n id = base ++ [47] ++ id ++ [47] ++ f.
Proof.
  intros Hs Hn Hi Hin. exists (get_base n), (sym_file_name n).
  pose proof (get_base_spec n Hs Hn) as B. pose proof (sym_name_spec n) as F.
  destruct (base_no_slash n _ Hs Hn B) as (B1 & B2 & _). pose proof (sym_no_slash n _ Hs F) as F1.
  repeat split; trivial. unfold get_path_for_sym. rewrite (push_nonempty _ _ B2 B1 Hi). exact (push_tail _ _ _ B2 Hin Hi F1).
Qed.

Lemma slash_split_unique (a b a' b' : str) : no_slash a -> no_slash a' -> a ++ 47 :: b = a' ++ 47 :: b' -> a = a' /\ b = b'.
Proof.
  unfold no_slash. revert a'. induction a as [|c a IH]; intros [|c' a'] Ha Ha' E; cbn in E.
  - injection E as ->. auto.
  - injection E as <- _. exfalso. apply Ha'. now left.
  - injection E as -> _. exfalso. apply Ha. now left.
  - injection E as -> E2. destruct (IH a') as [-> ->]; trivial; [intros H; apply Ha; now right|intros H; apply Ha'; now right|auto].
Qed.
Lemma sp_base_sym_inj n n' b f : n <> [] -> n' <> [] -> sp_base n b -> sp_sym n f -> sp_base n' b -> sp_sym n' f -> n = n'.
Proof.
  intros Hn Hn' B F B' F'.
  assert (L : forall m c, sp_base m c -> length c = length m).
  { intros m c [(stem & e & o & w & _ & -> & Hin & C & ->)|[_ ->]]; [|reflexivity].
    apply ci_length in C. rewrite !app_length. cbn [length].
    assert (length w = 3%nat /\ length o = 3%nat) as [L1 L2]
      by (cbn in Hin; destruct Hin as [[= <- <-]|[[= <- <-]|[[= <- <-]|[]]]]; cbn; auto). lia. }
  assert (Q : forall m c x e, sp_base m c -> m = x ++ 46 :: e -> ci e (lit "pdb") -> c = m).
  { intros m c x e [(stem & e' & o & w & _ & E & Hin & C & _)|[_ ->]] Em Ce; [|reflexivity]. exfalso. rewrite Em in E.
    assert (H46 : ~ In 46 e) by (eapply ci_no_dot; [exact Ce|cbn; intuition congruence]).
    assert (H46' : ~ In 46 e') by (eapply ci_no_dot; [exact C|cbn in Hin; destruct Hin as [[= <- <-]|[[= <- <-]|[[= <- <-]|[]]]]; cbn; intuition congruence]).
    apply dot_split_unique in E as [_ ->]; trivial.
    apply lower_ci in Ce; [|cbn; repeat (constructor; [lia|]); constructor].
    apply lower_ci in C; [|cbn in Hin; destruct Hin as [[= <- <-]|[[= <- <-]|[[= <- <-]|[]]]]; cbn; repeat (constructor; [lia|]); constructor].
    rewrite C in Ce. cbn in Hin. destruct Hin as [[= <- <-]|[[= <- <-]|[[= <- <-]|[]]]]; discriminate. }
  pose proof (L _ _ B) as Lb. pose proof (L _ _ B') as Lb'.
  destruct F as [(x & e & -> & C & ->)|[_ ->]]; destruct F' as [(x' & e' & -> & C' & E)|[_ E]].
  - rewrite <- (Q _ _ _ _ B eq_refl C). exact (Q _ _ _ _ B' eq_refl C').
  - apply app_inv_tail in E. subst x. apply ci_length in C. rewrite app_length in *. cbn [length] in *. cbn in C. lia.
  - apply app_inv_tail in E. subst n. apply ci_length in C'. rewrite app_length in *. cbn [length] in *. cbn in C'. lia.
  - now apply app_inv_tail in E.
Qed.
Lemma store_path_inj n id n' id' : no_slash n -> n <> [] -> no_slash id -> id <> [] ->
  no_slash n' -> n' <> [] -> no_slash id' -> id' <> [] ->
  get_path_for_sym n id = get_path_for_sym n' id' -> n = n' /\ id = id'.
Proof.
  intros H1 H2 H3 H4 H5 H6 H7 H8 E.
  destruct (store_path n id H1 H2 H3 H4) as (b & f & B & F & B1 & F1 & E1).
  destruct (store_path n' id' H5 H6 H7 H8) as (b' & f' & B' & F' & B1' & F1' & E2).
  rewrite E1, E2 in E. cbn [app] in E. apply slash_split_unique in E as [-> E]; trivial.
  apply slash_split_unique in E as [-> ->]; trivial. split; [|reflexivity].
  eapply sp_base_sym_inj; [exact H2|exact H6| | | |]; eauto.
Qed.
Lemma get_path_win_nil canon cd name : exists t, get_path canon Win false cd [] name = 92 :: t /\ no_leading Win name t.
Proof. exists (trim_start_by (sepb Win) name). split; [reflexivity|apply trim_start_no_leading]. Qed.
