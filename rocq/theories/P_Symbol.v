From Verif Require Import Base BMap Str M_Names S_Names P_Names M_Path M_Line M_Symbol S_Symbol.

Lemma nfind_dec m k : {s | nfind k m = Some s :> option Symbol} + {nfind k m = None :> option Symbol}.
Proof. destruct (nfind k m); eauto. Qed.

Lemma closest_last m a k s : nsorted m -> (closest m a k s <-> last_below a m = Some (k, s)).
Proof. intros S. symmetry. now apply last_below_spec. Qed.

Lemma inside_exact ck m a : nsorted m ->
  (forall k s, closest m a k s -> sy_rva s + sy_len s < two32) ->
  exists b, is_inside_symbol ck a m = Ok b /\ (b = true <-> sp_inside m a).
Proof.
  intros S H. unfold is_inside_symbol. destruct (last_below a m) as [[k s]|] eqn:E.
  - assert (C : closest m a k s) by now apply closest_last.
    rewrite add32_ok by eauto. simpl. eexists; split; [reflexivity|].
    unfold sp_inside. split.
    + intros Hlt. exists k, s. split; auto. lia.
    + intros (k' & s' & C' & Hlt). apply closest_last in C'; auto. rewrite E in C'; inversion C'; subst. lia.
  - exists false. split; auto. split; [discriminate|]. intros (k & s & C & _).
    apply closest_last in C; auto. congruence.
Qed.
Lemma inside_overflow m a k s : nsorted m -> closest m a k s -> sy_rva s < two32 -> sy_len s < two32 ->
  two32 <= sy_rva s + sy_len s ->
  is_panic (is_inside_symbol true a m) = true /\
  is_inside_symbol false a m = Ok (a <? sy_rva s + sy_len s - two32).
Proof.
  intros S C H1 H2 H3. apply closest_last in C; auto. unfold is_inside_symbol. rewrite C.
  unfold add32, add_w. destruct (N.ltb_spec (sy_rva s + sy_len s) two32); [lia|]. simpl. split; auto.
  f_equal. f_equal. unfold two32 in *. lia.
Qed.
Lemma inside_false m a : exists b, is_inside_symbol false a m = Ok b.
Proof.
  unfold is_inside_symbol. destruct (last_below a m) as [[k s]|]; eauto.
  unfold add32, add_w. destruct (_ <? _); simpl; eauto.
Qed.
Lemma inside_ok ck m a : nsorted m -> ck = false \/ ends_fit m -> exists b, is_inside_symbol ck a m = Ok b.
Proof.
  intros S [->|H]; [apply inside_false|]. destruct (inside_exact ck m a S) as (b & E & _); eauto.
  intros k s (Hk & _). eauto.
Qed.

(** Constants. *)
Lemma skip_constant n : should_skip_symbol n = true <-> sp_constant n.
Proof.
  unfold should_skip_symbol, is_constant_string, is_constant_number, sp_constant. split.
  - intros H. apply orb_true_iff in H as [H|H].
    + apply starts_with_spec in H as (t & ->). exists (lit "??_C"), t. split; auto. now left.
    + destruct (strip_prefix (lit "__") n) as [u|] eqn:E; [|discriminate].
      apply strip_prefix_spec in E. subst n.
      apply orb_true_iff in H as [H|H]; [apply orb_true_iff in H as [H|H]|];
        apply starts_with_spec in H as (t & ->).
      * exists (lit "__real@"), t. split; [right; now left|reflexivity].
      * exists (lit "__xmm@"), t. split; [right; right; now left|reflexivity].
      * exists (lit "__ymm@"), t. split; [right; right; right; now left|reflexivity].
  - intros (p & t & Hp & ->). cbn in Hp.
    destruct Hp as [<-|[<-|[<-|[<-|[]]]]]; reflexivity.
Qed.

(** Publics. *)
Definition renamed (dm : Demangler) (n : str) (s s' : Symbol) : Prop :=
  same_body s s' /\ sy_multiple s' = sy_multiple s /\
  exists w, parse_unknown n = Ok w /\
    (sy_name s' = sy_name s \/ sy_name s' = demangle_str dm (w_name w)) /\
    (sy_param s' = match w_param w with Some k => k | None => sy_param s end).

Inductive pub_step (pl : Platform) (dm : Demangler) (m : Symbols) (p : Pub) : Symbols -> Prop :=
| ps_skip : pub_step pl dm m p m
| ps_multi s : ~ constant_pub p -> nfind (u32 (pb_addr p)) m = Some s -> sy_public s = true ->
    pub_step pl dm m p (ninsert (u32 (pb_addr p)) (set_multiple s) m)
| ps_win s s' n : pl = Win -> pb_name p = Some n -> ~ constant_pub p ->
    nfind (u32 (pb_addr p)) m = Some s -> sy_public s = false ->
    renamed dm n s s' -> pub_step pl dm m p (ninsert (u32 (pb_addr p)) s' m)
| ps_same s : nfind (u32 (pb_addr p)) m = Some s -> sy_public s = false ->
    pub_step pl dm m p (ninsert (u32 (pb_addr p)) s m)
| ps_new parsed : ~ constant_pub p -> nfind (u32 (pb_addr p)) m = None ->
    (forall w, parsed = Some w -> pl = Win /\ exists n, pb_name p = Some n /\ parse_unknown n = Ok w) ->
    (parsed = None -> pl <> Win \/ pb_name p = None) ->
    pub_step pl dm m p (ninsert (u32 (pb_addr p)) (new_public dm parsed p) m).

Lemma not_constant p : match pb_name p with Some n => should_skip_symbol n | None => false end = false <-> ~ constant_pub p.
Proof.
  unfold constant_pub. destruct (pb_name p) as [n|].
  - split.
    + intros H (n' & E & C). inversion E; subst. apply skip_constant in C. congruence.
    + intros H. destruct (should_skip_symbol n) eqn:E; auto. exfalso; apply H. exists n; split; auto. now apply skip_constant.
  - split; auto. intros _ (n & E & _); discriminate.
Qed.

Lemma collect_public_step ck pl dm m p m' : collect_public ck pl dm m p = Ok m' -> pub_step pl dm m p m'.
Proof.
  unfold collect_public. intros H. apply bind_ok in H as (b & _ & H).
  destruct b; [inversion H; subst; constructor|].
  destruct (match pb_name p with Some n => should_skip_symbol n | None => false end) eqn:Ec;
    [inversion H; subst; constructor|].
  apply not_constant in Ec. apply bind_ok in H as (parsed & Hp & H).
  assert (Hw : forall w, parsed = Some w -> pl = Win /\ exists n, pb_name p = Some n /\ parse_unknown n = Ok w).
  { intros w ->. destruct pl; try discriminate. split; auto. destruct (pb_name p) as [n|]; try discriminate.
    exists n; split; auto. apply bind_ok in Hp as (w' & E & H'). congruence. }
  assert (Hnone : parsed = None -> pl <> Win \/ pb_name p = None).
  { intros ->. destruct pl; [left; discriminate..|]. destruct (pb_name p); auto. apply bind_ok in Hp as (w' & _ & E). discriminate. }
  destruct (nfind _ m) as [s|] eqn:E; inversion H; subst; clear H.
  - unfold merge_public. destruct (sy_public s) eqn:Epub; [now apply ps_multi|].
    destruct parsed as [w|]; [|now apply ps_same].
    destruct (Hw w eq_refl) as (-> & n & En & Ew).
    eapply ps_win; eauto. unfold renamed, same_body; simpl. splits; auto.
    exists w; splits; auto. destruct (contains_char _ _); auto.
  - now apply ps_new.
Qed.

Lemma pub_step_sorted pl dm m p m' : nsorted m -> pub_step pl dm m p m' -> nsorted m'.
Proof. intros S H. destruct H; auto using ninsert_sorted. Qed.

Lemma collect_publics_sorted ck pl dm pubs m m' : nsorted m -> collect_publics ck pl dm pubs m = Ok m' -> nsorted m'.
Proof.
  intros S. apply (foldM_inv nsorted); auto. intros s x s' _ Hs H.
  eapply pub_step_sorted; eauto. eapply collect_public_step; eauto.
Qed.

Lemma same_body_refl s : same_body s s. Proof. unfold same_body; auto. Qed.
Lemma same_body_trans s1 s2 s3 : same_body s1 s2 -> same_body s2 s3 -> same_body s1 s3.
Proof. unfold same_body; intros (?&?&?&?&?) (?&?&?&?&?); splits; congruence. Qed.

Lemma pub_kept_refl pl dm k pubs s : pub_kept pl dm k pubs s s.
Proof. unfold pub_kept; splits; auto using same_body_refl; try tauto. Qed.

Lemma str_eq_dec (x y : str) : {x = y} + {x <> y}.
Proof. apply (list_eq_dec N.eq_dec). Qed.

Lemma pubs_at_app k a b : pubs_at k (a ++ b) = pubs_at k a ++ pubs_at k b.
Proof. apply filter_app. Qed.

Lemma pub_kept_trans pl dm k a b s1 s2 s3 : pub_kept pl dm k a s1 s2 -> pub_kept pl dm k b s2 s3 -> pub_kept pl dm k (a ++ b) s1 s3.
Proof.
  intros (A1 & A2 & A3 & A4 & A5 & A6 & A7 & A8) (B1 & B2 & B3 & B4 & B5 & B6 & B7 & B8).
  assert (P : sy_public s2 = sy_public s1) by apply A1. rewrite P in *.
  unfold pub_kept; rewrite pubs_at_app. splits; auto.
  - eapply same_body_trans; eauto.
  - intros H. destruct (A2 H), (B2 H). split; congruence.
  - intros H. rewrite (B3 H); auto.
  - intros H. destruct (A4 H), (B4 H). split; congruence.
  - intros H. apply B6 in H as [H|H]; [apply A6 in H as [H|H]|]; auto;
      right; intros E; apply app_eq_nil in E as (?&?); congruence.
  - intros H. destruct (str_eq_dec (sy_name s3) (sy_name s2)) as [E|E].
    + rewrite E in *. destruct A7 as (p & n & w & H1 & H2); auto. exists p, n, w; split; auto. apply in_or_app; auto.
    + destruct B7 as (p & n & w & H1 & H2); auto. exists p, n, w; split; auto. apply in_or_app; auto.
  - intros H. destruct (N.eq_dec (sy_param s3) (sy_param s2)) as [E|E].
    + rewrite E in *. destruct A8 as (p & n & w & H1 & H2); auto. exists p, n, w; split; auto. apply in_or_app; auto.
    + destruct B8 as (p & n & w & H1 & H2); auto. exists p, n, w; split; auto. apply in_or_app; auto.
Qed.

Lemma pubs_at_one p : pubs_at (u32 (pb_addr p)) [p] = [p].
Proof. unfold pubs_at, u32; simpl. now rewrite N.eqb_refl. Qed.

Lemma pub_step_kept pl dm m p m' k s : nsorted m -> pub_step pl dm m p m' -> nfind k m = Some s ->
  exists s', nfind k m' = Some s' /\ pub_kept pl dm k [p] s s'.
Proof.
  intros S H Hk. destruct H as [|s0 Hc H Hp|s0 s1 n Hpl Hn Hc H Hp Hr|s0 H Hp|parsed Hc H Hw Hwn].
  - exists s; split; auto using pub_kept_refl.
  - rewrite nfind_insert by auto. destruct (N.eqb_spec k (u32 (pb_addr p))) as [->|Hne]; [|exists s; split; auto using pub_kept_refl].
    rewrite H in Hk; inversion Hk; subst s0. exists (set_multiple s); split; auto.
    unfold pub_kept; rewrite pubs_at_one; unfold same_body; simpl. splits; auto; try tauto; try congruence. intros; right; discriminate.
  - rewrite nfind_insert by auto. destruct (N.eqb_spec k (u32 (pb_addr p))) as [->|Hne]; [|exists s; split; auto using pub_kept_refl].
    rewrite H in Hk; inversion Hk; subst s0. exists s1; split; auto.
    destruct Hr as (R1 & R2 & w & R3 & R4 & R5).
    unfold pub_kept; rewrite pubs_at_one. splits; auto; try congruence.
    + rewrite R2; auto.
    + intros Hne. exists p, n, w; splits; auto; [now left|]. tauto.
    + intros Hne. exists p, n, w; splits; auto; [now left|]. destruct (w_param w); congruence.
  - rewrite nfind_insert by auto. destruct (N.eqb_spec k (u32 (pb_addr p))) as [->|Hne].
    + exists s0; split; auto. rewrite H in Hk; inversion Hk; subst. apply pub_kept_refl.
    + exists s; split; auto using pub_kept_refl.
  - rewrite nfind_insert by auto. destruct (N.eqb_spec k (u32 (pb_addr p))) as [->|Hne]; [congruence|].
    exists s; split; auto using pub_kept_refl.
Qed.

Lemma publics_kept ck pl dm pubs m m' k s : nsorted m -> collect_publics ck pl dm pubs m = Ok m' -> nfind k m = Some s ->
  exists s', nfind k m' = Some s' /\ pub_kept pl dm k pubs s s'.
Proof.
  unfold collect_publics. revert m s. induction pubs as [|p pubs IH]; simpl; intros m s S H Hk.
  - inversion H; subst. exists s; split; auto using pub_kept_refl.
  - apply bind_ok in H as (m1 & H1 & H2). apply collect_public_step in H1.
    destruct (pub_step_kept _ _ _ _ _ _ _ S H1 Hk) as (s1 & Hk1 & K1).
    destruct (IH m1 s1) as (s' & Hk' & K2); auto; [eapply pub_step_sorted; eauto|].
    exists s'; split; auto. apply (pub_kept_trans pl dm k [p] pubs s s1 s'); auto.
Qed.


(** New records. *)
Lemma pub_step_new pl dm m p m' k s : nsorted m -> pub_step pl dm m p m' -> nfind k m = None -> nfind k m' = Some s ->
  k = u32 (pb_addr p) /\ pub_new pl dm k [p] s /\ sy_multiple s = false.
Proof.
  intros S H Hn Hs. destruct H as [|s0 Hc H Hp|s0 s1 n Hpl Hnm Hc H Hp Hr|s0 H Hp|parsed Hc H Hw Hwn];
    [congruence|..]; rewrite nfind_insert in Hs by auto;
    destruct (N.eqb_spec k (u32 (pb_addr p))) as [->|Hne]; try congruence.
  inversion Hs; subst s. split; auto. split; [|reflexivity].
  unfold pub_new; rewrite pubs_at_one; simpl. splits; auto; [|discriminate].
  exists p; splits; auto.
  destruct parsed as [w|].
  - destruct (Hw w eq_refl) as (-> & n & Hn' & Hw'). left. exists n, w; splits; auto.
  - destruct (pb_name p) as [n|] eqn:En; [|right; right; auto].
    right; left. exists n. splits; auto. destruct (Hwn eq_refl); [auto|discriminate].
Qed.

Lemma publics_new ck pl dm pubs m m' k s : nsorted m -> collect_publics ck pl dm pubs m = Ok m' ->
  nfind k m = None -> nfind k m' = Some s -> pub_new pl dm k pubs s.
Proof.
  unfold collect_publics. revert m. induction pubs as [|p pubs IH]; simpl; intros m S H Hn Hs.
  - inversion H; subst. congruence.
  - apply bind_ok in H as (m1 & H1 & H2). apply collect_public_step in H1.
    assert (S1 : nsorted m1) by (eapply pub_step_sorted; eauto).
    destruct (nfind k m1) as [s1|] eqn:E1.
    + destruct (pub_step_new _ _ _ _ _ _ _ S H1 Hn E1) as (-> & N1 & Hm).
      destruct (publics_kept _ _ _ _ _ _ _ _ S1 H2 E1) as (s' & Hs' & K).
      rewrite Hs in Hs'; inversion Hs'; subst s'. clear Hs'.
      destruct N1 as (A1 & A2 & A3 & A4 & (p0 & A5 & A6 & A7 & A8) & _).
      destruct K as ((B1 & B2 & B3 & B4 & B5) & B6 & _ & _ & _ & B7 & _).
      destruct (B6 A1) as (B8 & B9).
      unfold pub_new. change (p :: pubs) with ([p] ++ pubs). rewrite pubs_at_app. splits; try congruence.
      * exists p0; splits; auto; [apply in_or_app; auto|congruence|]. rewrite B8, B9. exact A8.
      * intros M. rewrite pubs_at_one. apply B7 in M as [M|M]; [congruence|]. simpl.
        destruct (pubs_at _ pubs); [easy|simpl; lia].
    + destruct (IH m1 S1 H2 E1 Hs) as (A1 & A2 & A3 & A4 & (p0 & A5 & A6) & A7).
      unfold pub_new. change (p :: pubs) with ([p] ++ pubs). rewrite pubs_at_app. splits; auto.
      * exists p0; split; auto. apply in_or_app; auto.
      * intros M. rewrite app_length. specialize (A7 M). lia.
Qed.

(** The containment rule, at the moment a public is processed. *)
Lemma public_inside ck pl dm m p : nsorted m -> ends_fit m -> sp_inside m (pb_addr p mod two32) ->
  collect_public ck pl dm m p = Ok m.
Proof.
  intros S F I. unfold collect_public.
  destruct (inside_exact ck m (u32 (pb_addr p)) S) as (b & -> & Hb). { intros k s (Hk & _); eauto. }
  simpl. replace b with true; auto. symmetry. now apply Hb.
Qed.
Lemma public_constant ck pl dm m p : nsorted m -> ck = false \/ ends_fit m -> constant_pub p ->
  collect_public ck pl dm m p = Ok m.
Proof.
  intros S F I. unfold collect_public.
  destruct (inside_ok ck m (u32 (pb_addr p)) S F) as (b & ->). simpl. destruct b; auto.
  destruct (match pb_name p with Some n => should_skip_symbol n | None => false end) eqn:E; auto.
  apply not_constant in E. contradiction.
Qed.
Lemma public_added ck pl dm m p m' : nsorted m -> ends_fit m -> ~ sp_inside m (pb_addr p mod two32) ->
  ~ constant_pub p -> nfind (pb_addr p mod two32) m = None -> collect_public ck pl dm m p = Ok m' ->
  exists s, m' = ninsert (pb_addr p mod two32) s m /\ sy_public s = true /\ sy_rva s = pb_addr p mod two32 /\
    sy_len s = pb_size p mod two32.
Proof.
  intros S F I C Hn. unfold collect_public.
  destruct (inside_exact ck m (u32 (pb_addr p)) S) as (b & -> & Hb). { intros k s (Hk & _); eauto. }
  simpl. destruct b; [exfalso; apply I; now apply Hb|].
  apply not_constant in C. rewrite C. intros H. apply bind_ok in H as (parsed & _ & H).
  unfold u32 in *. rewrite Hn in H. inversion H; subst. eexists; split; [reflexivity|]. simpl. auto.
Qed.
Lemma publics_app ck pl dm a b m m' : collect_publics ck pl dm (a ++ b) m = Ok m' <->
  exists m1, collect_publics ck pl dm a m = Ok m1 /\ collect_publics ck pl dm b m1 = Ok m'.
Proof. unfold collect_publics. rewrite foldM_app. apply bind_ok. Qed.

(** Only addresses of processed publics change. *)
Lemma publics_frame ck pl dm pubs m m' k : nsorted m -> collect_publics ck pl dm pubs m = Ok m' ->
  pubs_at k pubs = [] -> nfind k m' = nfind k m.
Proof.
  intros S H E. destruct (nfind k m) as [s|] eqn:Ek.
  - destruct (publics_kept _ _ _ _ _ _ _ _ S H Ek) as (s' & Hs' & K).
    rewrite Hs'. f_equal. destruct K as ((B1 & B2 & B3 & B4 & B5) & B6 & B6' & B7 & B8 & B9 & B10 & B11).
    rewrite E in *.
    assert (E1 : sy_name s' = sy_name s) by (destruct (str_eq_dec (sy_name s') (sy_name s)) as [|Hx]; auto; destruct (B10 Hx) as (?&?&?&[]&_)).
    assert (E2 : sy_param s' = sy_param s) by (destruct (N.eq_dec (sy_param s') (sy_param s)) as [|Hx]; auto; destruct (B11 Hx) as (?&?&?&[]&_)).
    assert (E3 : sy_multiple s' = sy_multiple s).
    { destruct (sy_multiple s) eqn:M; auto. destruct (sy_multiple s') eqn:M'; auto. destruct (B9 eq_refl) as [|Hx]; auto; try congruence. }
    destruct s, s'; simpl in *; congruence.
  - destruct (nfind k m') as [s'|] eqn:Es'; auto.
    destruct (publics_new _ _ _ _ _ _ _ _ S H Ek Es') as (_ & _ & _ & _ & (p & Hp & _) & _). rewrite E in Hp; easy.
Qed.


(** With publics in address order no new record is inside its predecessor in
    the final table. *)
Lemma publics_sorted_final ck pl dm pubs m m' k : nsorted m -> ends_fit m -> Forall (fun p => pb_addr p mod two32 + pb_size p mod two32 < two32) pubs ->
  StronglySorted addr32_le pubs -> collect_publics ck pl dm pubs m = Ok m' ->
  nfind k m = None -> nfind k m' <> None -> ~ sp_inside m' k.
Proof.
  intros S F Fp Hs H Hn Hk (k0 & s0 & C & Hlt).
  (* split at the public that creates k *)
  assert (Hx : exists a p b m1 m2, pubs = a ++ p :: b /\ collect_publics ck pl dm a m = Ok m1 /\
     collect_public ck pl dm m1 p = Ok m2 /\ collect_publics ck pl dm b m2 = Ok m' /\
     nfind k m1 = None /\ nfind k m2 <> None).
  { clear F Fp Hs C. revert m S Hn H. induction pubs as [|p pubs IH]; intros m S Hn H.
    - inversion H; subst; congruence.
    - unfold collect_publics in H; simpl in H. apply bind_ok in H as (m2 & H1 & H2).
      destruct (nfind k m2) as [s|] eqn:E.
      + exists [], p, pubs, m, m2. splits; auto. congruence.
      + destruct (IH m2) as (a & q & b & m3 & m4 & -> & G1 & G2 & G3 & G4 & G5); auto.
        { eapply pub_step_sorted; eauto. eapply collect_public_step; eauto. }
        exists (p :: a), q, b, m3, m4. splits; auto. unfold collect_publics; simpl. now rewrite H1. }
  destruct Hx as (a & p & b & m1 & m2 & -> & H1 & H2 & H3 & G1 & G2).
  assert (S1 : nsorted m1) by (eapply collect_publics_sorted; eauto).
  assert (S2 : nsorted m2) by (eapply pub_step_sorted; eauto; eapply collect_public_step; eauto).
  destruct (nfind k m2) as [s|] eqn:E2; [|congruence]. clear G2.
  destruct (pub_step_new _ _ _ _ _ _ _ S1 (collect_public_step _ _ _ _ _ _ H2) G1 E2) as (-> & _).
  assert (F1 : ends_fit m1).
  { intros j w Hj. destruct (nfind j m) as [w0|] eqn:Ej.
    - destruct (publics_kept _ _ _ _ _ _ _ _ S H1 Ej) as (w' & Hw' & K). rewrite Hj in Hw'; inversion Hw'; subst w'.
      destruct K as ((_ & _ & B3 & B4 & _) & _). rewrite B3, B4. eauto.
    - destruct (publics_new _ _ _ _ _ _ _ _ S H1 Ej Hj) as (_ & _ & B3 & _ & (q & Hq & _ & B4 & _) & _).
      rewrite B3, B4. apply filter_In in Hq as (Hq & Hqj). rewrite Forall_forall in Fp.
      assert (Hq' : In q (a ++ p :: b)) by (apply in_or_app; auto). specialize (Fp q Hq'). simpl in Fp. lia. }
  (* not inside when it was added *)
  assert (NI : ~ sp_inside m1 (u32 (pb_addr p))).
  { intros I. rewrite (public_inside ck pl dm m1 p S1 F1 I) in H2. inversion H2; subst. congruence. }
  apply NI. clear NI.
  (* records below k are the same in m1 and m' up to name/param/m *)
  assert (Low : forall j, j < u32 (pb_addr p) -> nfind j m' = nfind j m1).
  { intros j Hj.
    assert (Hb : pubs_at j (p :: b) = []).
    { unfold pubs_at. apply StronglySorted_app_r in Hs. inversion Hs as [|? ? _ Hf]; subst.
      simpl. unfold u32 in Hj. destruct (N.eqb_spec (pb_addr p mod two32) j); [lia|].
      clear - Hf Hj. induction b as [|q b IH]; simpl; auto. inversion Hf; subst.
      destruct (N.eqb_spec (pb_addr q mod two32) j); [unfold addr32_le in *; lia|auto]. }
    assert (Hc : collect_publics ck pl dm (p :: b) m1 = Ok m') by (unfold collect_publics; simpl; rewrite H2; exact H3).
    eapply publics_frame; eauto. }
  destruct C as (C1 & C2 & C3). exists k0, s0. split; auto. split; [rewrite <- Low; auto|]. split; auto.
  intros j w Hj Hjk. eapply C3; eauto. rewrite Low; eauto.
Qed.

Lemma contains_paren n : contains_char (fun c => c =? 40) n = true <-> In 40 n.
Proof.
  unfold contains_char. rewrite existsb_exists. split; [intros (c & I & E); now apply N.eqb_eq in E; subst|]. intros I. exists 40. auto.
Qed.
Lemma public_effect ck pl dm m p m' s : nsorted m -> ends_fit m -> ~ sp_inside m (pb_addr p mod two32) -> ~ constant_pub p ->
  nfind (pb_addr p mod two32) m = Some s -> collect_public ck pl dm m p = Ok m' ->
  exists s', m' = ninsert (pb_addr p mod two32) s' m /\ pub_effect pl dm p s s'.
Proof.
  intros S F NI NC E H. unfold collect_public in H. change (u32 (pb_addr p)) with (pb_addr p mod two32) in H.
  destruct (inside_exact ck m (pb_addr p mod two32) S) as (b & Hb & Ib); [intros k w (C & _); eauto|].
  rewrite Hb in H. cbn [bind] in H. destruct b; [now elim NI; apply Ib|]. apply not_constant in NC. rewrite NC in H.
  apply bind_ok in H as (parsed & Hp & H). rewrite E in H. inversion H; subst m'; clear H. exists (merge_public dm parsed s). split; [reflexivity|].
  unfold merge_public. destruct (sy_public s) eqn:P.
  - apply pe_again; auto. unfold same_body, set_multiple; simpl; auto.
  - destruct parsed as [w|].
    + destruct pl; try discriminate. destruct (pb_name p) as [n|] eqn:En; try discriminate. apply bind_ok in Hp as (w' & Ew & [= ->]).
      eapply pe_win; eauto; cbn [sy_public sy_synthetic sy_rva sy_len sy_source sy_multiple sy_name sy_param].
      * unfold same_body; simpl; auto.
      * intros I. now rewrite (proj2 (contains_paren (sy_name s)) I).
      * intros I. destruct (contains_char (fun c => c =? 40) (sy_name s)) eqn:Q; [|reflexivity]. now elim I; apply contains_paren.
    + apply pe_func; auto. destruct pl; try (left; discriminate). destruct (pb_name p); auto. apply bind_ok in Hp as (w' & _ & Q). discriminate.
Qed.

(** No panic. *)
Lemma parse_unknown_ascii p n : ascii_name p -> pb_name p = Some n -> exists w, parse_unknown n = Ok w.
Proof.
  unfold ascii_name. intros H E. rewrite E in H.
  assert (Hdec : no_punct n \/ ~ no_punct n).
  { unfold no_punct. destruct (in_dec N.eq_dec 58 n); [right; tauto|].
    destruct (in_dec N.eq_dec 40 n); [right; tauto|left; tauto]. }
  destruct Hdec as [Hp|Hp]; [|rewrite parse_unknown_punct by auto; eauto].
  rewrite parse_unknown_plain by auto. pose proof (parse_c_decorated_table n) as T.
  destruct T as [(a & m & _ & ->)|(_ & T)]; eauto.
  destruct n as [|c t]; [rewrite T; eauto|]. replace (127 <? c) with false in T by lia.
  destruct ((c =? 64) || (c =? 95)); [|rewrite T; eauto].
  destruct T as [(? & ? & ? & _ & _ & ->)|(_ & ->)]; eauto.
Qed.

Lemma public_ok ck pl dm m p : nsorted m -> ck = false \/ ends_fit m -> pl <> Win \/ ascii_name p ->
  exists m', collect_public ck pl dm m p = Ok m'.
Proof.
  intros S F A. unfold collect_public. destruct (inside_ok ck m (u32 (pb_addr p)) S F) as (b & ->). simpl.
  destruct b; eauto. destruct (match pb_name p with Some n => should_skip_symbol n | None => false end); eauto.
  assert (exists o, (match pl, pb_name p with Win, Some n => w <- parse_unknown n ;; Ok (Some w) | _, _ => Ok None end) = Ok o) as (o & ->).
  { destruct pl; eauto. destruct (pb_name p) as [n|] eqn:E; eauto.
    destruct A as [A|A]; [congruence|]. destruct (parse_unknown_ascii p n A E) as (w & ->). simpl. eauto. }
  simpl. destruct (nfind _ m); eauto.
Qed.
Lemma pub_step_fit pl dm m p m' : nsorted m -> pub_step pl dm m p m' -> ends_fit m ->
  pb_addr p mod two32 + pb_size p mod two32 < two32 -> ends_fit m'.
Proof.
  intros S H F Hp j w Hj. destruct (nfind j m) as [w0|] eqn:Ej.
  - destruct (pub_step_kept _ _ _ _ _ _ _ S H Ej) as (w' & Hw' & ((_ & _ & B3 & B4 & _) & _)).
    rewrite Hj in Hw'; inversion Hw'; subst w'. rewrite B3, B4. eauto.
  - destruct (pub_step_new _ _ _ _ _ _ _ S H Ej Hj) as (-> & (_ & _ & B3 & _ & (q & Hq & _ & B4 & _) & _) & _).
    rewrite B3, B4. rewrite pubs_at_one in Hq. destruct Hq as [<-|[]]. exact Hp.
Qed.
Lemma publics_ok ck pl dm pubs m : nsorted m ->
  ck = false \/ (ends_fit m /\ Forall (fun p => pb_addr p mod two32 + pb_size p mod two32 < two32) pubs) ->
  pl <> Win \/ Forall ascii_name pubs -> exists m', collect_publics ck pl dm pubs m = Ok m'.
Proof.
  intros S F A. unfold collect_publics.
  destruct (foldM_inv_ok (fun m => nsorted m /\ (ck = false \/ ends_fit m)) (collect_public ck pl dm) pubs m) as (m' & E & _); eauto.
  - intros s p Hin (Hs & Hf).
    destruct (public_ok ck pl dm s p Hs Hf) as (m1 & E).
    { destruct A as [A|A]; auto. right. rewrite Forall_forall in A; auto. }
    exists m1; split; auto. apply collect_public_step in E. split; [eapply pub_step_sorted; eauto|].
    destruct F as [F|(_ & F)]; auto. destruct Hf as [Hf|Hf]; auto. right. eapply pub_step_fit; eauto.
    rewrite Forall_forall in F; auto.
  - split; auto. tauto.
Qed.

(** Constants can be left out of the list. *)
Definition is_constant_pub (p : Pub) : bool := match pb_name p with Some n => should_skip_symbol n | None => false end.
Lemma is_constant_pub_spec p : is_constant_pub p = true <-> constant_pub p.
Proof.
  unfold is_constant_pub. destruct (match pb_name p with Some n => should_skip_symbol n | None => false end) eqn:E.
  - split; auto. intros _. destruct (pb_name p) as [n|] eqn:En; [|discriminate]. exists n; split; auto. now apply skip_constant.
  - apply not_constant in E. split; [discriminate|contradiction].
Qed.
Lemma publics_without_constants ck pl dm (keep : Pub -> bool) pubs m m' :
  (forall p, In p pubs -> keep p = false -> constant_pub p) ->
  collect_publics ck pl dm pubs m = Ok m' -> collect_publics ck pl dm (filter keep pubs) m = Ok m'.
Proof.
  intros K. unfold collect_publics. revert m. induction pubs as [|p pubs IH]; simpl; intros m H; auto.
  apply bind_ok in H as (m1 & H1 & H2).
  destruct (keep p) eqn:E.
  - simpl. rewrite H1. simpl. apply IH; auto. intros; apply K; auto. now right.
  - apply IH; [intros; apply K; auto; now right|].
    assert (C : constant_pub p) by (apply K; auto; now left).
    assert (m1 = m); [|now subst].
    unfold collect_public in H1. apply bind_ok in H1 as (b & _ & H1). destruct b; [congruence|].
    apply is_constant_pub_spec in C. unfold is_constant_pub in C. rewrite C in H1. congruence.
Qed.

(** Placeholders. *)
Lemma or_insert_sorted k s m : nsorted m -> nsorted (or_insert k s m).
Proof. intros S. unfold or_insert. destruct (nfind k m); auto using ninsert_sorted. Qed.
Lemma or_insert_find k s m j : nsorted m ->
  nfind j (or_insert k s m) = match nfind j m with Some w => Some w | None => if j =? k then Some s else None end.
Proof.
  intros S. unfold or_insert. destruct (nfind k m) as [w|] eqn:E.
  - destruct (nfind j m) eqn:Ej; auto. destruct (N.eqb_spec j k); auto. congruence.
  - rewrite nfind_insert by auto. destruct (N.eqb_spec j k) as [->|]; [rewrite E; auto|]. now destruct (nfind j m).
Qed.

Lemma placeholder_step ck name m x m' : collect_placeholder ck name m x = Ok m' ->
  m' = m \/ exists b e, x = Some (b, e) /\ b <= e /\ nfind b m = None /\
    is_inside_symbol ck b m = Ok false /\ m' = ninsert b (mkSymbol name false false true b (e - b) 0 lines_default) m.
Proof.
  unfold collect_placeholder. destruct x as [[b e]|]; [|intros H; inversion H; auto].
  unfold checked_sub32. destruct (N.leb_spec b e); [|intros E; inversion E; auto].
  intros E. apply bind_ok in E as (i & Hi & E). destruct i; [inversion E; auto|].
  destruct (nfind b m) eqn:Eb; inversion E; subst; auto. right. exists b, e; splits; auto.
Qed.
Lemma placeholder_sorted ck name m x m' : nsorted m -> collect_placeholder ck name m x = Ok m' -> nsorted m'.
Proof.
  intros S H. apply placeholder_step in H as [->|(b & e & _ & _ & _ & _ & ->)]; auto using ninsert_sorted.
Qed.
Lemma placeholders_spec ck mn xs m m' : nsorted m -> collect_placeholders ck mn xs m = Ok m' ->
  nsorted m' /\
  (forall k s, nfind k m = Some s -> nfind k m' = Some s) /\
  (forall k s, nfind k m = None -> nfind k m' = Some s ->
     exists e, In (Some (k, e)) xs /\ k <= e /\ placeholder_of mn k e s).
Proof.
  intros S. unfold collect_placeholders. revert m S. induction xs as [|x xs IH]; simpl; intros m S H.
  - inversion H; subst. splits; auto. congruence.
  - apply bind_ok in H as (m1 & H1 & H2). pose proof (placeholder_sorted _ _ _ _ _ S H1) as S1.
    destruct (IH m1 S1 H2) as (A1 & A2 & A3). splits; auto.
    + intros k s Hk. apply A2. apply placeholder_step in H1 as [->|(b & e & _ & _ & Hb & _ & ->)]; auto.
      rewrite nfind_insert by auto. destruct (N.eqb_spec k b); congruence.
    + intros k s Hk Hs. destruct (nfind k m1) as [s1|] eqn:E1.
      * apply placeholder_step in H1 as [->|(b & e & -> & Hbe & Hb & _ & ->)]; [congruence|].
        pose proof (A2 _ _ E1) as E2. rewrite Hs in E2; inversion E2; subst s1.
        rewrite nfind_insert in E1 by auto. destruct (N.eqb_spec k b) as [->|]; [|congruence].
        exists e. inversion E1. split; [now left|]. split; auto. unfold placeholder_of; simpl. splits; auto.
      * destruct (A3 k s E1 Hs) as (e & Hin & R). exists e; split; auto.
Qed.
(** Number of new records. *)
Lemma ninsert_length {V} k (v : V) m : (length (ninsert k v m) <= S (length m))%nat.
Proof.
  unfold ninsert. induction m as [|[k' v'] m IH]; simpl; auto.
  destruct (k <? k'); simpl; [lia|]. destruct (k' <? k); simpl; lia.
Qed.
Lemma placeholders_count ck mn xs m m' : collect_placeholders ck mn xs m = Ok m' ->
  (length m' <= length m + length xs)%nat.
Proof.
  unfold collect_placeholders. revert m. induction xs as [|x xs IH]; simpl; intros m H; [inversion H; lia|].
  apply bind_ok in H as (m1 & H1 & H2). apply IH in H2.
  apply placeholder_step in H1 as [->|(b & e & _ & _ & _ & _ & ->)]; [lia|].
  pose proof (ninsert_length b (mkSymbol (unknown_name mn) false false true b (e - b) 0 lines_default) m). lia.
Qed.
(** At the moment an entry is processed. *)
Lemma placeholder_exact ck mn m b e : nsorted m -> ends_fit m -> b <= e ->
  (sp_inside m b -> collect_placeholder ck (unknown_name mn) m (Some (b, e)) = Ok m) /\
  (nfind b m <> None -> collect_placeholder ck (unknown_name mn) m (Some (b, e)) = Ok m) /\
  (~ sp_inside m b -> nfind b m = None -> exists s, collect_placeholder ck (unknown_name mn) m (Some (b, e)) = Ok (ninsert b s m) /\
     placeholder_of mn b e s).
Proof.
  intros S F H. unfold collect_placeholder, checked_sub32. destruct (N.leb_spec b e); [|lia].
  destruct (inside_exact ck m b S) as (i & -> & Hi). { intros k s (Hk & _); eauto. }
  simpl. splits.
  - intros I. apply Hi in I. now subst.
  - intros I. destruct i; auto. destruct (nfind b m); [reflexivity|congruence].
  - intros I Hn. destruct i; [exfalso; apply I; now apply Hi|]. rewrite Hn. eexists; split; eauto.
    unfold placeholder_of; simpl; splits; auto.
Qed.
Lemma placeholder_bad ck name m b e : e < b -> collect_placeholder ck name m (Some (b, e)) = Ok m.
Proof. intros H. unfold collect_placeholder, checked_sub32. destruct (N.leb_spec b e); [lia|auto]. Qed.
Lemma placeholders_fit ck mn xs m m' : nsorted m -> ends_fit m ->
  (forall b e, In (Some (b, e)) xs -> e < two32) -> collect_placeholders ck mn xs m = Ok m' -> ends_fit m'.
Proof.
  intros S F Hx H k s Hk. destruct (placeholders_spec _ _ _ _ _ S H) as (_ & A2 & A3).
  destruct (nfind k m) as [s0|] eqn:E.
  - rewrite (A2 _ _ E) in Hk. inversion Hk; subst. eauto.
  - destruct (A3 k s E Hk) as (e & Hin & Hle & (_ & _ & _ & _ & -> & -> & _)). apply Hx in Hin. lia.
Qed.
Lemma placeholders_ok ck mn xs m : nsorted m ->
  ck = false \/ (ends_fit m /\ forall b e, In (Some (b, e)) xs -> e < two32) ->
  exists m', collect_placeholders ck mn xs m = Ok m'.
Proof.
  intros S F. unfold collect_placeholders.
  destruct (foldM_inv_ok (fun m => nsorted m /\ (ck = false \/ ends_fit m)) (collect_placeholder ck (unknown_name mn)) xs m) as (m' & E & _); eauto.
  - intros s x Hin (Hs & Hf).
    assert (exists m1, collect_placeholder ck (unknown_name mn) s x = Ok m1) as (m1 & E).
    { unfold collect_placeholder. destruct x as [[b e]|]; eauto. destruct (checked_sub32 e b); eauto.
      destruct (inside_ok ck s b Hs Hf) as (i & ->). simpl. destruct i; eauto. destruct (nfind b s); eauto. }
    exists m1; split; auto. split; [eapply placeholder_sorted; eauto|].
    destruct F as [F|(_ & F)]; auto. destruct Hf as [Hf|Hf]; auto. right.
    eapply (placeholders_fit ck mn [x]); eauto.
    + intros b e [->|[]]; eauto.
    + unfold collect_placeholders; simpl. now rewrite E.
  - split; auto. tauto.
Qed.

(** Sections. *)
Lemma unknown_name_spec n : unknown_name n = sp_unknown n. Proof. reflexivity. Qed.
Lemma add_section_sorted name m h : nsorted m -> nsorted (add_section name m h).
Proof. intros S. unfold add_section. destruct (se_exec h); auto using or_insert_sorted. Qed.
Lemma sections_sorted name secs m : nsorted m -> nsorted (fold_left (add_section name) secs m).
Proof. revert m; induction secs; simpl; auto using add_section_sorted. Qed.

Lemma sections_spec name secs m k : nsorted m ->
  (forall s, nfind k m = Some s -> nfind k (fold_left (add_section name) secs m) = Some s) /\
  (nfind k m = None ->
     match sections_at k secs with
     | [] => nfind k (fold_left (add_section name) secs m) = None
     | h :: _ => exists s, nfind k (fold_left (add_section name) secs m) = Some s /\
                           synthetic_at k (sp_section_name name (se_name h)) s
     end).
Proof.
  revert m; induction secs as [|h secs IH]; simpl; intros m S; [split; auto|].
  specialize (IH (add_section name m h) (add_section_sorted _ _ _ S)) as (I1 & I2).
  assert (Hf : nfind k (add_section name m h) =
    match nfind k m with Some w => Some w | None =>
      if se_exec h && (se_addr h mod two32 =? k) then
        Some (synthetic_public (sp_section_name name (se_name h)) k) else None end).
  { unfold add_section. destruct (se_exec h); simpl; [|now destruct (nfind k m)].
    rewrite or_insert_find by auto. destruct (nfind k m); auto. unfold u32.
    rewrite (N.eqb_sym k). destruct (N.eqb_spec (se_addr h mod two32) k) as [E|]; auto. now rewrite E. }
  split.
  - intros s Hs. apply I1. rewrite Hf, Hs. auto.
  - intros Hn. rewrite Hn in Hf. destruct (se_exec h && (se_addr h mod two32 =? k)) eqn:E.
    + eexists; split; [apply I1; exact Hf|]. unfold synthetic_at; simpl; splits; auto.
    + now apply I2.
Qed.

Lemma last_opt_record m k s : nsorted m -> (last_opt m = Some (k, s) <-> last_record m k s).
Proof.
  intros S. unfold last_record. split.
  - intros H. apply last_opt_some in H as (l & ->).
    split; [apply nfind_In; auto; apply in_or_app; right; now left|].
    intros j w Hj. apply nfind_In in Hj; auto. apply in_app_or in Hj as [Hj|[Hj|[]]]; [|inversion Hj; lia].
    clear - S Hj. induction l as [|x l IH]; simpl in *; [easy|]. inversion S as [|? ? S' F]; subst.
    destruct Hj as [->|Hj]; auto. rewrite Forall_forall in F.
    assert (Hb : blt N.ltb (j, w) (k, s)) by (apply F, in_or_app; right; now left). unfold blt in Hb; simpl in Hb. lia.
  - intros (Hk & Hmax). destruct (last_opt m) as [[k2 s2]|] eqn:E.
    + apply last_opt_some in E as (l & ->).
      assert (H2 : nfind k2 (l ++ [(k2, s2)]) = Some s2) by (apply nfind_In; auto; apply in_or_app; right; now left).
      pose proof (Hmax _ _ H2). apply nfind_In in Hk; auto.
      assert (k <= k2).
      { apply in_app_or in Hk as [Hj|[Hj|[]]]; [|inversion Hj; lia].
        clear - S Hj. induction l as [|x l IH]; simpl in *; [easy|]. inversion S as [|? ? S' F]; subst.
        destruct Hj as [->|Hj]; auto. rewrite Forall_forall in F.
        assert (Hb : blt N.ltb (k, s) (k2, s2)) by (apply F, in_or_app; right; now left). unfold blt in Hb; simpl in Hb. lia. }
      assert (k2 = k) by lia; subst. apply nfind_In in Hk; auto. congruence.
    + apply last_opt_none in E. subst. discriminate.
Qed.
Lemma dummy_spec ck mn m k s : filed m -> last_record m k s -> after_last s < two32 ->
  exists s', append_dummy ck mn m = Ok (ninsert (after_last s) s' m) /\
    nfind (after_last s) m = None /\ synthetic_at (after_last s) (sp_unknown mn) s'.
Proof.
  intros (S & F) L H. unfold append_dummy. pose proof L as L'. apply last_opt_record in L; auto. rewrite L.
  destruct L' as (L1 & L2). destruct (F k s L1) as (E & Hk). unfold after_last in *.
  assert (Hn : nfind (if sy_len s =? 0 then sy_rva s + 1 else sy_rva s + sy_len s) m = None).
  { match goal with |- ?x = None => destruct x as [w|] eqn:Ew end; auto. apply L2 in Ew. exfalso; revert Ew; clear - E. destruct (sy_len s =? 0) eqn:E0; lia. }
  destruct (sy_len s =? 0); rewrite add32_ok by auto; simpl; unfold or_insert; rewrite Hn;
    eexists; (split; [reflexivity|]); split; auto; unfold synthetic_at; simpl; splits; auto.
Qed.
Lemma dummy_empty ck mn : append_dummy ck mn [] = Ok []. Proof. reflexivity. Qed.
Lemma dummy_overflow mn m k s : filed m -> last_record m k s -> sy_len s < two32 -> two32 <= after_last s ->
  is_panic (append_dummy true mn m) = true /\
  exists s', append_dummy false mn m = Ok (or_insert (after_last s - two32) s' m) /\
     synthetic_at (after_last s - two32) (sp_unknown mn) s'.
Proof.
  intros (S & F) L Hl H. unfold append_dummy. pose proof L as L'. apply last_opt_record in L; auto. rewrite L.
  destruct L' as (L1 & L2). destruct (F k s L1) as (E & Hk). unfold after_last in *.
  unfold add32, add_w. destruct (N.eqb_spec (sy_len s) 0).
  - destruct (N.ltb_spec (sy_rva s + 1) two32); [lia|]. simpl. split; auto.
    replace ((sy_rva s + 1) mod two32) with (sy_rva s + 1 - two32) by (unfold two32 in *; lia).
    eexists; split; [reflexivity|]. unfold synthetic_at; simpl; splits; auto.
  - destruct (N.ltb_spec (sy_rva s + sy_len s) two32); [lia|]. simpl. split; auto.
    replace ((sy_rva s + sy_len s) mod two32) with (sy_rva s + sy_len s - two32) by (unfold two32 in *; lia).
    eexists; split; [reflexivity|]. unfold synthetic_at; simpl; splits; auto.
Qed.

(** C12: the filing invariant. *)
Lemma filed_insert k s m : filed m -> sy_rva s = k -> k < two32 -> filed (ninsert k s m).
Proof.
  intros (S & F) E Hk. split; [now apply ninsert_sorted|]. intros j w Hj.
  rewrite nfind_insert in Hj by auto. destruct (N.eqb_spec j k) as [->|]; [inversion Hj; subst; auto|auto].
Qed.
Lemma filed_nil : filed []. Proof. split; [constructor|discriminate]. Qed.
Lemma filed_or_insert k s m : filed m -> sy_rva s = k -> k < two32 -> filed (or_insert k s m).
Proof. intros F E Hk. unfold or_insert. destruct (nfind k m); auto using filed_insert. Qed.
Lemma filed_public ck pl dm m p m' : filed m -> collect_public ck pl dm m p = Ok m' -> filed m'.
Proof.
  intros Fd H. apply collect_public_step in H. pose proof Fd as (S & F).
  destruct H as [|s Hc H Hp|s s' n Hpl Hn Hc H Hp Hr|s H Hp|parsed Hc H Hw Hwn]; auto;
    apply filed_insert; auto using u32_lt; try now apply F.
  - simpl. now apply F.
  - destruct Hr as ((_ & _ & E & _) & _). rewrite E. now apply F.
Qed.
Lemma filed_publics ck pl dm pubs m m' : filed m -> collect_publics ck pl dm pubs m = Ok m' -> filed m'.
Proof. intros F. apply (foldM_inv filed); auto. intros; eapply filed_public; eauto. Qed.
Lemma filed_placeholders ck mn xs m m' : filed m -> (forall b e, In (Some (b, e)) xs -> b < two32) ->
  collect_placeholders ck mn xs m = Ok m' -> filed m'.
Proof.
  intros F Hx. apply (foldM_inv filed); auto. intros s x s' Hin Hs H.
  apply placeholder_step in H as [->|(b & e & -> & _ & _ & _ & ->)]; auto. apply filed_insert; simpl; eauto.
Qed.
Lemma filed_sections ck b mn m m' : filed m -> add_executable_section_symbols ck b mn m = Ok m' -> filed m'.
Proof.
  intros F H. destruct b as [secs| | |]; simpl in H.
  - inversion H; subst; clear H. revert m F. induction secs as [|h secs IH]; simpl; auto.
    intros m F. apply IH. unfold add_section. destruct (se_exec h); auto. apply filed_or_insert; auto using u32_lt.
  - unfold append_dummy in H. destruct (last_opt m) as [[k s]|]; [|inversion H; now subst].
    apply bind_ok in H as (r & Hr & H). inversion H; subst. apply filed_or_insert; auto.
    destruct (sy_len s =? 0); unfold add32, add_w in Hr; destruct (N.ltb_spec (sy_rva s + 1) two32), (N.ltb_spec (sy_rva s + sy_len s) two32), ck;
      inversion Hr; subst; auto; apply N.mod_lt; discriminate.
  - unfold append_dummy in H. destruct (last_opt m) as [[k s]|]; [|inversion H; now subst].
    apply bind_ok in H as (r & Hr & H). inversion H; subst. apply filed_or_insert; auto.
    destruct (sy_len s =? 0); unfold add32, add_w in Hr; destruct (N.ltb_spec (sy_rva s + 1) two32), (N.ltb_spec (sy_rva s + sy_len s) two32), ck;
      inversion Hr; subst; auto; apply N.mod_lt; discriminate.
  - inversion H; now subst.
Qed.
