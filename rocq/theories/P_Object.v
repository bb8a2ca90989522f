(** Proofs about merging. *)
From Verif Require Import Base Sort BMap Str M_Names M_Path M_Line P_Line M_Source S_Source P_Source M_Symbol S_Symbol P_Symbol M_Collector M_Object S_Object.

(** ** File tables *)
Lemma set_nthN_same {A} (l : list A) i x : i < lenN l -> nthN (set_nthN l i x) i = Some x.
Proof. unfold nthN, set_nthN, lenN. intros. apply set_nth_same. lia. Qed.
Lemma set_nthN_other {A} (l : list A) i j x : i <> j -> nthN (set_nthN l i x) j = nthN l j.
Proof. unfold nthN, set_nthN. intros. apply set_nth_other. lia. Qed.
Lemma set_nthN_len {A} (l : list A) i x : lenN (set_nthN l i x) = lenN l.
Proof. unfold lenN, set_nthN. now rewrite set_nth_length. Qed.
Lemma nthN_map {A B} (f : A -> B) l i : nthN (map f l) i = option_map f (nthN l i).
Proof. unfold nthN. now rewrite nth_error_map. Qed.
Lemma lenN_map {A B} (f : A -> B) l : lenN (map f l) = lenN l.
Proof. unfold lenN. now rewrite map_length. Qed.

Lemma merge_fold shown sref oids PO its : forall PS remap,
  (forall p i, In (p, i) sref -> nthN PS i = Some p) ->
  (forall p i, In (p, i) its -> nthN PO i = Some p) -> oids = map shown PO ->
  NoDup (map snd its) -> lenN remap = lenN oids ->
  exists remap' Q, foldM (merge_step sref oids) its (remap, map shown PS) = Ok (remap', map shown (PS ++ Q)) /\
    lenN remap' = lenN oids /\ Q = map fst (filter (fun x => match afind str_eqb (fst x) sref with None => true | _ => false end) its) /\
    (forall p i, In (p, i) its -> exists j, nthN remap' i = Some j /\ nthN (PS ++ Q) j = Some p) /\
    (forall i, ~ In i (map snd its) -> nthN remap' i = nthN remap i).
Proof.
  induction its as [|[p i] its IH]; intros PS remap HS HO Ho ND L.
  - exists remap, []. rewrite app_nil_r. cbn. splits; auto. intros ? ? [].
  - cbn [map snd] in ND. inversion ND as [|? ? N1 N2]; subst.
    assert (Hi : nthN PO i = Some p) by (apply HO; now left).
    assert (Li : i < lenN remap) by (rewrite L, lenN_map; eapply nthN_some_lt; eauto).
    assert (HO' : forall q j, In (q, j) its -> nthN PO j = Some q) by (intros; apply HO; now right).
    cbn [foldM]. unfold merge_step at 1. assert (i <? lenN remap = true) as -> by lia.
    destruct (afind str_eqb p sref) as [a|] eqn:E.
    + cbn [bind]. pose proof E as Hs. apply (afind_In _ str_eqb_eq) in Hs. apply HS in Hs.
      destruct (IH PS (set_nthN remap i a)) as (rm & Q & F & L' & EQ & H1 & H2); auto.
      { now rewrite set_nthN_len. }
      exists rm, Q. splits; auto.
      * cbn [filter fst]. now rewrite E.
      * intros q j [[= <- <-]|H]; [|eauto]. exists a. split.
        -- rewrite H2 by exact N1. now apply set_nthN_same.
        -- rewrite nthN_app1; [exact Hs|]. now apply nthN_some_lt in Hs.
      * intros j Hj. cbn in Hj. rewrite H2 by tauto. apply set_nthN_other. intros ->. tauto.
    + rewrite nthN_map, Hi. cbn [option_map bind].
      destruct (IH (PS ++ [p]) (set_nthN remap i (lenN (map shown PS)))) as (rm & Q & F & L' & EQ & H1 & H2); auto.
      { intros q j H. apply HS in H. rewrite nthN_app1; [exact H|]. now apply nthN_some_lt in H. }
      { now rewrite set_nthN_len. }
      exists rm, (p :: Q). rewrite map_app in F. cbn [map] in F.
      assert (A : PS ++ p :: Q = (PS ++ [p]) ++ Q) by (rewrite <- app_assoc; reflexivity). rewrite A. splits; auto.
      * cbn [filter fst map]. rewrite E. cbn [map fst]. now rewrite <- EQ.
      * intros q j [[= <- <-]|H]; [|eauto]. exists (lenN PS). split.
        -- rewrite H2 by exact N1. rewrite set_nthN_same by exact Li. now rewrite lenN_map.
        -- rewrite nthN_app1 by (rewrite lenN_app, lenN_cons; unfold lenN; cbn; lia).
           rewrite nthN_app2 by lia. rewrite N.sub_diag. reflexivity.
      * intros j Hj. cbn in Hj. rewrite H2 by tauto. apply set_nthN_other. intros ->. tauto.
Qed.

Lemma NoDup_snd_ref (P : list str) ref : NoDup (map fst ref) -> (forall p i, In (p, i) ref <-> nthN P i = Some p) ->
  NoDup (map snd ref).
Proof.
  intros ND H. assert (H' : forall p i, In (p, i) ref -> nthN P i = Some p) by (intros; now apply H). clear H.
  induction ref as [|[p i] ref IH]; cbn; [constructor|]. cbn in ND. inversion ND as [|? ? N1 N2]; subst. constructor.
  - intros Hin. apply in_map_iff in Hin as ([q j] & E & Hin). cbn in E. subst j.
    assert (q = p) by (pose proof (H' p i (or_introl eq_refl)); pose proof (H' q i (or_intror Hin)); congruence). subst.
    apply N1. apply (in_map fst) in Hin. exact Hin.
  - apply IH; auto. intros; apply H'; now right.
Qed.

Definition in_files (o : SrcMap) (i : N) : Prop := i < lenN (sm_ids o).
Definition merged_ids (shown : str -> str) (self other : SrcMap) : list str :=
  match sm_ids other, sm_ids self with
  | [], _ => sm_ids self
  | _, [] => sm_ids other
  | _, _ => sm_ids self ++ map shown (map fst (filter (fun x => match afind str_eqb (fst x) (sm_ref self) with None => true | _ => false end) (sm_ref other)))
  end.
Lemma filter_perm {A} (f : A -> bool) l l' : Permutation l l' -> Permutation (filter f l) (filter f l').
Proof.
  induction 1; cbn; auto.
  - destruct (f x); auto.
  - destruct (f x), (f y); auto. apply perm_swap.
  - etransitivity; eauto.
Qed.
Lemma srcmap_merge_spec shown iter self other : iterates iter -> files_some shown self -> files_ok shown other ->
  exists files o' remap, srcmap_merge (iter (sm_ref other)) self other = Ok (files, o', remap) /\
    files_some shown files /\ Permutation (sm_ids files) (merged_ids shown self other) /\
    (forall i t, nthN (sm_ids self) i = Some t -> nthN (sm_ids files) i = Some t) /\
    (forall i, in_files other i -> exists j, remap_file remap i = Ok j /\ nthN (sm_ids files) j = nthN (sm_ids other) i) /\
    (forall i i' j, in_files other i -> in_files other i' -> remap_file remap i = Ok j -> remap_file remap i' = Ok j -> i = i').
Proof.
  intros It HS (PO & NO & IO & NF & RO). unfold srcmap_merge.
  destruct (sm_ids other) as [|t0 ids0] eqn:EO.
  { exists self, other, None. splits; auto.
    - unfold merged_ids. now rewrite EO.
    - intros i H. unfold in_files in H. rewrite EO in H. unfold lenN in H. cbn in H. lia.
    - cbn. congruence. }
  rewrite <- EO. destruct (sm_ids self) as [|u0 us0] eqn:ES.
  { eexists _, _, None. split; [reflexivity|]. splits.
    - exists PO. cbn. splits; auto; [congruence|]. intros p i H. now apply RO.
    - cbn. unfold merged_ids. now rewrite EO, ES.
    - intros i t H. unfold nthN in H. destruct (N.to_nat i); discriminate.
    - intros i H. exists i. cbn. auto.
    - cbn. congruence. }
  rewrite <- ES. destruct HS as (PS & IS & NS & RS).
  assert (IO' : sm_ids other = map shown PO) by congruence.
  destruct (merge_fold shown (sm_ref self) (sm_ids other) PO (iter (sm_ref other)) PS (repeat 0 (length (sm_ids other))))
    as (rm & Q & F & L & EQ & H1 & _); auto.
  { intros p i H. apply RO. eapply Permutation_in; [apply It|exact H]. }
  { eapply Permutation_NoDup; [apply Permutation_map; symmetry; apply It|]. eapply NoDup_snd_ref; eauto. }
  { unfold lenN. now rewrite repeat_length. }
  rewrite IS. rewrite F. cbn [bind fst snd].
  assert (K : forall i, in_files other i -> exists j p, remap_file (Some rm) i = Ok j /\ nthN PO i = Some p /\ nthN (PS ++ Q) j = Some p).
  { intros i H. unfold in_files in H. rewrite IO', lenN_map in H. apply nthN_lt_some in H as (p & Hp).
    destruct (H1 p i) as (j & Hj & Hp').
    { eapply Permutation_in; [symmetry; apply It|]. now apply RO. }
    exists j, p. cbn. unfold index. rewrite Hj. auto. }
  eexists _, _, _. split; [reflexivity|]. splits.
  - exists (PS ++ Q). cbn. splits; auto. intros p i H. apply RS in H. rewrite nthN_app1; [exact H|]. now apply nthN_some_lt in H.
  - assert (merged_ids shown self other = sm_ids self ++ map shown (map fst (filter (fun x => match afind str_eqb (fst x) (sm_ref self) with None => true | _ => false end) (sm_ref other)))) as -> by (unfold merged_ids; now rewrite EO, ES).
    rewrite IS. cbn [sm_ids]. rewrite map_app. apply Permutation_app_head.
    rewrite EQ. apply Permutation_map, Permutation_map, filter_perm, It.
  - intros i t H. rewrite ?IS in H. cbn. rewrite map_app, nthN_app1; [exact H|]. now apply nthN_some_lt in H.
  - intros i H. destruct (K i H) as (j & p & A & B & C). exists j. split; [exact A|]. cbn. rewrite IO'.
    rewrite !nthN_map. now rewrite B, C.
  - intros i i' j H H' A A'. destruct (K i H) as (? & p & B & C & D). destruct (K i' H') as (? & p' & B' & C' & D').
    assert (x = j) by congruence. assert (x0 = j) by congruence. subst. assert (p' = p) by congruence. subst.
    exact (nthN_NoDup PO i i' p NO C C').
Qed.

(** ** Renumbering one record *)
Lemma mapM_rel {A B} (f : A -> res B) (R : A -> B -> Prop) l :
  (forall x, In x l -> exists y, f x = Ok y /\ R x y) -> exists l', mapM f l = Ok l' /\ Forall2 R l l'.
Proof.
  induction l as [|x l IH]; cbn; intros H; [eauto|].
  destruct (H x) as (y & -> & Ry); [now left|]. destruct IH as (l' & -> & F); [intros; apply H; now right|]. cbn. eauto.
Qed.
Lemma Forall2_map_eq {A B C} (f : A -> C) (g : B -> C) l l' : Forall2 (fun x y => f x = g y) l l' -> map f l = map g l'.
Proof. induction 1; cbn; congruence. Qed.
Lemma Forall2_In_l {A B} (R : A -> B -> Prop) l l' y : Forall2 R l l' -> In y l' -> exists x, In x l /\ R x y.
Proof. induction 1; cbn; [tauto|]. intros [<-|H']; [eauto|]. destruct IHForall2 as (? & ? & ?); eauto. Qed.
Lemma Forall2_NoDup {A B} (R : A -> B -> Prop) l l' : (forall x x' y, In x l -> In x' l -> R x y -> R x' y -> x = x') ->
  Forall2 R l l' -> NoDup l -> NoDup l'.
Proof.
  intros I F. induction F as [|x y l l' Rxy F IH]; intros ND; [constructor|].
  inversion ND as [|? ? N1 N2]; subst. constructor.
  - intros H. destruct (Forall2_In_l _ _ _ _ F H) as (x' & Hx' & R'). apply N1.
    rewrite (I x x' y); auto; [now left|now right].
  - apply IH; auto. intros; eapply I; eauto; now right.
Qed.

Section Remap.
Variables (r m : Obj) (fm : option (list N)) (om : list N).
Hypothesis HF : forall i, in_files (ob_files r) i -> exists j, remap_file fm i = Ok j /\ file_text m j = file_text r i.
Hypothesis HI : forall i i' j, in_files (ob_files r) i -> in_files (ob_files r) i' -> remap_file fm i = Ok j -> remap_file fm i' = Ok j -> i = i'.
Hypothesis HO : forall i t, nthN (ob_origins r) i = Some t -> exists j, nthN om i = Some j /\ nthN (ob_origins m) j = Some t.
Hypothesis HOI : forall i i' j, nthN om i = Some j -> nthN om i' = Some j -> i = i'.

Definition func_ok (s : Symbol) : Prop :=
  (forall l, In l (ls_lines (sy_source s)) -> file_text r (l_file l) <> None) /\
  (forall x, In x (ls_inlines (sy_source s)) -> file_text r (s_file (fst x)) <> None /\ nthN (ob_origins r) (s_origin (fst x)) <> None) /\
  bsorted site_lt (ls_inlines (sy_source s)).

Lemma in_files_text i : file_text r i <> None -> in_files (ob_files r) i.
Proof. unfold file_text, in_files. destruct (nthN (sm_ids (ob_files r)) i) eqn:E; [|congruence]. intros _. eapply nthN_some_lt; eauto. Qed.

Lemma remap_symbol_spec s : func_ok s -> exists s', remap_symbol fm om s = Ok s' /\ same_head (sy_multiple s) s s' /\
  same_source r s m s' /\ (forall l, In l (ls_lines (sy_source s')) -> file_text m (l_file l) <> None) /\
  (forall x, In x (ls_inlines (sy_source s')) -> file_text m (s_file (fst x)) <> None /\ nthN (ob_origins m) (s_origin (fst x)) <> None) /\
  bsorted site_lt (ls_inlines (sy_source s')).
Proof.
  intros (FL & FI & S). unfold remap_symbol.
  destruct (mapM_rel (remap_line fm) (fun l l' => says_line r l = says_line m l' /\ file_text m (l_file l') <> None) (ls_lines (sy_source s)))
    as (ls & -> & F1).
  { intros l Hl. pose proof (FL l Hl) as T. destruct (HF (l_file l) (in_files_text _ T)) as (j & Hj & Hj').
    unfold remap_line. rewrite Hj. cbn. eexists. split; [reflexivity|]. unfold says_line. cbn. rewrite Hj'. auto. }
  destruct (mapM_rel (remap_site fm om) (fun x y => remap_site fm om x = Ok y /\ says_inline r x = says_inline m y /\
      file_text m (s_file (fst y)) <> None /\ nthN (ob_origins m) (s_origin (fst y)) <> None) (ls_inlines (sy_source s)))
    as (is & -> & F2).
  { intros x Hx. destruct (FI x Hx) as (T & O). destruct (HF _ (in_files_text _ T)) as (j & Hj & Hj').
    destruct (nthN (ob_origins r) (s_origin (fst x))) as [t|] eqn:E; [|congruence].
    destruct (HO _ _ E) as (o & Ho & Ho'). unfold remap_site. rewrite Hj. cbn [bind]. unfold index. rewrite Ho. cbn [bind].
    eexists. split; [reflexivity|]. split; [reflexivity|]. unfold says_inline. cbn. rewrite Hj', E, Ho'. splits; congruence. }
  cbn [bind]. eexists. split; [reflexivity|]. cbn.
  assert (ND : NoDup (map fst is)).
  { assert (N0 : NoDup (map fst (ls_inlines (sy_source s)))) by (apply (bsorted_NoDup site_lt site_lt_irrefl); exact S).
    assert (F3 : Forall2 (fun x y => In x (ls_inlines (sy_source s)) /\ remap_site fm om x = Ok y) (ls_inlines (sy_source s)) is).
    { clear - F2. assert (G : forall l, (forall x, In x l -> In x (ls_inlines (sy_source s))) -> forall is,
        Forall2 (fun x y => remap_site fm om x = Ok y /\ says_inline r x = says_inline m y /\
        file_text m (s_file (fst y)) <> None /\ nthN (ob_origins m) (s_origin (fst y)) <> None) l is ->
        Forall2 (fun x y => In x (ls_inlines (sy_source s)) /\ remap_site fm om x = Ok y) l is).
      { intros l Hl is' F. induction F; constructor; [split; [apply Hl; now left|tauto]|]. apply IHF. intros; apply Hl; now right. }
      exact (G _ (fun x H => H) _ F2). }
    assert (F4 : Forall2 (fun a b => exists x y, In x (ls_inlines (sy_source s)) /\ remap_site fm om x = Ok y /\ fst x = a /\ fst y = b)
        (map fst (ls_inlines (sy_source s))) (map fst is)).
    { assert (G : forall I l l', Forall2 (fun x y => In x I /\ remap_site fm om x = Ok y) l l' ->
        Forall2 (fun a b => exists x y, In x I /\ remap_site fm om x = Ok y /\ fst x = a /\ fst y = b) (map fst l) (map fst l')).
      { clear. intros I l l' F. induction F as [|x y l l' (A & B)]; cbn; constructor; auto. exists x, y. auto. }
      exact (G _ _ _ F3). }
    eapply Forall2_NoDup; [|exact F4|exact N0].
    intros a a' b _ _ (x & y & Hx & R1 & <- & <-) (x' & y' & Hx' & R2 & <- & E).
    unfold remap_site in R1, R2. apply bind_ok in R1 as (j & J1 & R1). apply bind_ok in R1 as (o & O1 & [= R1]). subst y.
    apply bind_ok in R2 as (j' & J2 & R2). apply bind_ok in R2 as (o' & O2 & [= R2]). subst y'. cbn in E. injection E as E3 E4 E5 E6. subst.
    unfold index in O1, O2. destruct (nthN om (s_origin (fst x))) eqn:E1; [|discriminate]. destruct (nthN om (s_origin (fst x'))) eqn:E2; [|discriminate].
    injection O1 as O1. injection O2 as O2. subst.
    pose proof (HOI _ _ _ E1 E2) as Eo. pose proof (HI _ _ _ (in_files_text _ (proj1 (FI _ Hx))) (in_files_text _ (proj1 (FI _ Hx'))) J1 J2) as Ef.
    destruct x as [[a1 a2 a3 a4] ?], x' as [[b1 b2 b3 b4] ?]. cbn in *. congruence. }
  pose proof (bcollect_perm site_lt site_lt_irrefl site_lt_trans site_lt_tot is ND) as PB.
  split; [unfold same_head; cbn; auto 10|]. split.
  { split; cbn.
    - apply Forall2_map_eq. eapply Forall2_impl; [|exact F1]. cbn. tauto.
    - rewrite <- PB. assert (map (says_inline r) (ls_inlines (sy_source s)) = map (says_inline m) is) as ->; [|reflexivity].
      apply Forall2_map_eq. eapply Forall2_impl; [|exact F2]. cbn. tauto. }
  splits.
  - intros l Hl. destruct (Forall2_In_l _ _ _ _ F1 Hl) as (? & _ & _ & H). exact H.
  - intros x Hx. apply (Permutation_in _ (Permutation_sym PB)) in Hx.
    destruct (Forall2_In_l _ _ _ _ F2 Hx) as (? & _ & _ & _ & H). exact H.
  - apply bcollect_sorted; [exact site_lt_trans|exact site_lt_tot].
Qed.
End Remap.

(** ** The loop over the right object's records *)
Lemma inside_ext ck k (m m' : Symbols) : nsorted m -> nsorted m' -> (forall j, j < k -> nfind j m = nfind j m') ->
  is_inside_symbol ck k m = is_inside_symbol ck k m'.
Proof.
  intros S S' H. assert (last_below k m = last_below k m') as E.
  { destruct (last_below k m) as [[a s]|] eqn:E.
    - apply last_below_spec in E as (A & B & C); auto. symmetry. apply last_below_spec; auto. rewrite <- H by exact B.
      splits; auto. intros j w Hj L. apply (C j w); auto. now rewrite H.
    - apply last_below_none with (k := k) in S as [S _]. specialize (S E). symmetry. apply last_below_none; auto.
      intros j w Hj. destruct (N.lt_ge_cases j k) as [L|L]; [|exact L]. rewrite <- H in Hj by exact L. apply S in Hj. exact Hj. }
  unfold is_inside_symbol. now rewrite E.
Qed.
Lemma sp_inside_ext k (m m' : Symbols) : (forall j, j < k -> nfind j m = nfind j m') -> sp_inside m k -> sp_inside m' k.
Proof.
  intros H (a & s & (A & B & C) & D). exists a, s. split; [|exact D]. unfold closest. rewrite <- H by exact B. splits; auto.
  intros j w Hj L. rewrite <- H in Hj by exact L. eauto.
Qed.

Section Fold.
Variables (ck : bool) (fm : option (list N)) (om : list N).
Definition rm (s : Symbol) : Symbol := match remap_symbol fm om s with Ok x => x | _ => s end.
Definition step_res (inside : bool) (a : option Symbol) (b : Symbol) : option Symbol :=
  if sy_public b then
    if inside then a
    else match a with
    | Some e => if sy_synthetic b then Some e else if sy_synthetic e then Some b
                else if str_eqb (sy_name e) (sy_name b) then Some e else Some (set_multiple e)
    | None => Some b
    end
  else match a with
  | Some a => if sy_public a then Some (set_multiple (rm b)) else Some (set_multiple a)
  | None => Some (rm b)
  end.

Lemma remap_head s s' : remap_symbol fm om s = Ok s' -> same_head (sy_multiple s) s s'.
Proof.
  unfold remap_symbol. intros H. apply bind_ok in H as (ls & _ & H). apply bind_ok in H as (is & _ & [= <-]).
  unfold same_head. cbn. auto 10.
Qed.
Lemma rm_head s : same_head (sy_multiple s) s (rm s).
Proof. unfold rm. destruct (remap_symbol fm om s) eqn:E; [eapply remap_head; eauto| |]; unfold same_head; auto 10. Qed.

Lemma merge_step_spec syms k b : nsorted syms -> (sy_public b = false -> exists b', remap_symbol fm om b = Ok b') ->
  (ck = false \/ ends_fit syms) ->
  exists syms' inside, merge_symbol ck fm om syms (k, b) = Ok syms' /\ nsorted syms' /\
    is_inside_symbol ck k syms = Ok inside /\
    (forall j, j <> k -> nfind j syms' = nfind j syms) /\ nfind k syms' = step_res inside (nfind k syms) b.
Proof.
  intros S Hb Hf. unfold merge_symbol, step_res.
  destruct (inside_ok ck syms k S Hf) as (ins & Ei). rewrite Ei.
  assert (INS : forall s, exists syms' inside, Ok (ninsert k s syms) = Ok syms' /\ nsorted syms' /\ Ok ins = Ok inside /\
      (forall j, j <> k -> nfind j syms' = nfind j syms) /\ nfind k syms' = Some s /\ inside = ins).
  { intros s. exists (ninsert k s syms), ins. splits; auto; [now apply ninsert_sorted| |now apply nfind_insert_eq].
    intros j Hj. apply nfind_insert_ne; auto. }
  destruct (sy_public b) eqn:Pb.
  - cbn [bind]. destruct ins eqn:Eins; [exists syms, true; auto|].
    destruct (nfind k syms) as [e|] eqn:Ek.
    + destruct (sy_synthetic b); [exists syms, false; rewrite Ek; auto|].
      destruct (sy_synthetic e).
      * destruct (INS b) as (s1 & i1 & A & B & C & D & E & F). subst i1. eauto 8.
      * destruct (str_eqb (sy_name e) (sy_name b)); [exists syms, false; rewrite Ek; auto|].
        destruct (INS (set_multiple e)) as (s1 & i1 & A & B & C & D & E & F). subst i1. eauto 8.
    + destruct (INS b) as (s1 & i1 & A & B & C & D & E & F). subst i1. eauto 8.
  - destruct (Hb eq_refl) as (b' & Eb). assert (rm b = b') as -> by (unfold rm; now rewrite Eb).
    destruct (nfind k syms) as [a|] eqn:Ek.
    + destruct (sy_public a); [rewrite Eb; cbn [bind]|].
      * destruct (INS (set_multiple b')) as (s1 & i1 & A & B & C & D & E & F). subst i1. eauto 8.
      * destruct (INS (set_multiple a)) as (s1 & i1 & A & B & C & D & E & F). subst i1. eauto 8.
    + rewrite Eb. cbn [bind]. destruct (INS b') as (s1 & i1 & A & B & C & D & E & F). subst i1. eauto 8.
Qed.

Lemma step_res_fits inside a b s : step_res inside a b = Some s ->
  (exists t, a = Some t /\ sy_rva s = sy_rva t /\ sy_len s = sy_len t) \/ (sy_rva s = sy_rva b /\ sy_len s = sy_len b).
Proof.
  unfold step_res. destruct (rm_head b) as (_ & _ & _ & _ & R1 & R2 & _).
  destruct (sy_public b), inside, a as [e|]; try discriminate;
    repeat match goal with |- context [if ?c then _ else _] => destruct c end; intros [= <-]; cbn; eauto.
Qed.

Lemma merge_fold_spec R : forall L, nsorted R -> nsorted L ->
  (forall k b, In (k, b) R -> sy_public b = false -> exists b', remap_symbol fm om b = Ok b') ->
  (ck = false \/ (ends_fit L /\ ends_fit R)) ->
  exists M, foldM (merge_symbol ck fm om) R L = Ok M /\ nsorted M /\
    forall k, match nfind k R with
              | None => nfind k M = nfind k L
              | Some b => exists inside, is_inside_symbol ck k M = Ok inside /\ nfind k M = step_res inside (nfind k L) b
              end.
Proof.
  induction R as [|[k b] R IH]; intros L SR SL HR HF.
  - exists L. cbn. auto.
  - unfold nsorted, bsorted in SR. inversion SR as [|? ? SR' FR]; subst.
    assert (KR : forall j, j <= k -> nfind j R = None).
    { intros j Hj. destruct (nfind j R) as [v|] eqn:E; [|reflexivity]. apply nfind_In in E; [|exact SR'].
      rewrite Forall_forall in FR. apply FR in E. unfold blt in E. cbn in E. lia. }
    assert (KC : forall j, nfind j ((k, b) :: R) = if j =? k then Some b else nfind j R).
    { intros j. unfold nfind. cbn. fold (@nfind Symbol). destruct (N.ltb_spec j k) as [H|H].
      - destruct (N.eqb_spec j k); [lia|]. symmetry. apply KR. lia.
      - destruct (N.ltb_spec k j); destruct (N.eqb_spec j k); try lia; reflexivity. }
    cbn [foldM]. destruct (merge_step_spec L k b) as (L1 & ins & E & S1 & Ei & O1 & K1); auto.
    { apply (HR k b). now left. }
    { destruct HF as [|[? ?]]; auto. }
    rewrite E. cbn [bind]. destruct (IH L1) as (M & EM & SM & HM); auto.
    { intros j c Hin. apply (HR j c). now right. }
    { destruct HF as [->|[F1 F2]]; [now left|right]. split.
      - intros j s Hj. destruct (N.eq_dec j k) as [->|Hne].
        + rewrite K1 in Hj. apply step_res_fits in Hj as [(t & Ht & -> & ->)|(-> & ->)]; [eapply F1; eauto|].
          apply (F2 k b). rewrite KC, N.eqb_refl. reflexivity.
        + rewrite O1 in Hj by auto. eapply F1; eauto.
      - intros j s Hj. apply (F2 j s). rewrite KC. destruct (N.eqb_spec j k); [subst; rewrite KR in Hj by lia; discriminate|exact Hj]. }
    exists M. splits; auto. intros j. rewrite KC. destruct (N.eqb_spec j k) as [->|Hne].
    + exists ins. assert (B : forall i, i < k -> nfind i M = nfind i L).
      { intros i Hi. specialize (HM i). rewrite KR in HM by lia. rewrite HM. apply O1. lia. }
      split; [rewrite (inside_ext ck k M L); auto|]. specialize (HM k). rewrite KR in HM by lia. now rewrite HM.
    + specialize (HM j). destruct (nfind j R) as [c|] eqn:Ej.
      * destruct HM as (i2 & ? & ?). exists i2. now rewrite <- (O1 j Hne).
      * now rewrite HM, O1.
Qed.
End Fold.

(** ** Merging two objects *)
Lemma merge_origins_inj l r m ren i i' j : merge_inline_origins l r = (m, ren) -> nthN ren i = Some j -> nthN ren i' = Some j -> i = i'.
Proof.
  intros H A B. assert (C : forall a n i i' j, nthN (countN a n) i = Some j -> nthN (countN a n) i' = Some j -> i = i').
  { clear. intros a n i i' j A B. pose proof (nthN_some_lt _ _ _ A) as LA. pose proof (nthN_some_lt _ _ _ B) as LB.
    unfold lenN in LA, LB. rewrite countN_length in LA, LB. rewrite countN_nth in A, B by lia. assert (a + i = a + i') by congruence. lia. }
  unfold merge_inline_origins in H. destruct r as [|r0 r].
  - injection H as <- <-. unfold nthN in A. destruct (N.to_nat i); discriminate.
  - destruct l as [|l0 l]; injection H as <- <-; [exact (C 0 (S (length r)) _ _ _ A B)|exact (C (lenN (l0 :: l)) (S (length r)) _ _ _ A B)].
Qed.

Lemma nsorted_filed m : filed m -> nsorted m.
Proof. now intros []. Qed.

Lemma same_source_keep (o o' : Obj) s s' : sy_source s' = sy_source s ->
  (forall i t, file_text o i = Some t -> file_text o' i = Some t) ->
  (forall i t, nthN (ob_origins o) i = Some t -> nthN (ob_origins o') i = Some t) ->
  func_ok o s -> same_source o s o' s'.
Proof.
  intros E HF HO (A & B & _). unfold same_source. rewrite E. split.
  - apply map_ext_in. intros l Hl. unfold says_line. apply A in Hl. destruct (file_text o (l_file l)) as [t|] eqn:Et; [|congruence].
    apply HF in Et. now rewrite Et.
  - assert (map (says_inline o) (ls_inlines (sy_source s)) = map (says_inline o') (ls_inlines (sy_source s))) as ->; [|reflexivity].
    apply map_ext_in. intros x Hx. unfold says_inline. apply B in Hx as (T & O).
    destruct (file_text o (s_file (fst x))) as [t|] eqn:Et; [|congruence]. apply HF in Et. rewrite Et.
    destruct (nthN (ob_origins o) (s_origin (fst x))) as [n|] eqn:En; [|congruence]. apply HO in En. now rewrite En.
Qed.
Lemma func_ok_keep (o o' : Obj) s s' : sy_source s' = sy_source s ->
  (forall i t, file_text o i = Some t -> file_text o' i = Some t) ->
  (forall i t, nthN (ob_origins o) i = Some t -> nthN (ob_origins o') i = Some t) ->
  func_ok o s -> func_ok o' s'.
Proof.
  intros E HF HO (A & B & C). unfold func_ok. rewrite E. splits; auto.
  - intros l Hl. apply A in Hl. destruct (file_text o (l_file l)) eqn:Et; [|congruence]. apply HF in Et. congruence.
  - intros x Hx. apply B in Hx as (T & O). split.
    + destruct (file_text o (s_file (fst x))) eqn:Et; [|congruence]. apply HF in Et. congruence.
    + destruct (nthN (ob_origins o) (s_origin (fst x))) eqn:Et; [|congruence]. apply HO in Et. congruence.
Qed.
Lemma same_source_eq o s o' s' s2 : sy_source s2 = sy_source s' -> same_source o s o' s' -> same_source o s o' s2.
Proof. intros E H. unfold same_source. now rewrite E. Qed.

Definition tables_fit (ck : bool) (l r : Obj) : Prop := ck = false \/ (ends_fit (ob_syms l) /\ ends_fit (ob_syms r)).

Lemma merge_into_spec shown ck iter l r : iterates iter -> obj_merged shown l -> obj_ok shown r -> tables_fit ck l r ->
  exists m, merge_into ck iter l r = Ok m /\ obj_merged shown m /\ from_one_of [l; r] m /\
    Permutation (sm_ids (ob_files m)) (merged_ids shown (ob_files l) (ob_files r)) /\
    (forall i t, file_text l i = Some t -> file_text m i = Some t) /\
    (ends_fit (ob_syms l) -> ends_fit (ob_syms r) -> ends_fit (ob_syms m) /\ forall k, merged_at l r m k).
Proof.
  intros It (FL & RL & SL) (FR & RR & SR) HF.
  destruct (srcmap_merge_spec shown iter (ob_files l) (ob_files r) It SL SR) as (files & o' & remap & EM & SF & PF & KF & RF & IF).
  unfold merge_into. rewrite EM. cbn [bind].
  destruct (merge_inline_origins (ob_origins l) (ob_origins r)) as [ors om] eqn:EO.
  destruct (merge_origins_spec _ _ _ _ EO) as ((more & Em) & _ & HO & _).
  set (mk := fun syms => mkObj syms files ors
        (if ob_stripped r then ob_name r else ob_name l) (ob_cpu l) (ob_debug_id l)
        (match ob_code_id l with Some c => Some c | None => ob_code_id r end)
        (ob_pe_name l) (merge_stack (ob_stack l) (ob_stack r)) (ob_stripped l) (ob_platform l)).
  assert (RS : forall syms s, func_ok r s -> exists s', remap_symbol remap om s = Ok s' /\ same_head (sy_multiple s) s s' /\
      same_source r s (mk syms) s' /\ func_ok (mk syms) s').
  { intros syms s Hs. destruct (remap_symbol_spec r (mk syms) remap om RF IF HO) with (s := s) as (s' & A & B & C & D & E & F); auto.
    - intros i i' j. eapply merge_origins_inj; eauto.
    - exists s'. unfold func_ok. auto 10. }
  destruct (merge_fold_spec ck remap om (ob_syms r) (ob_syms l)) as (M & EF & SM & HM); auto using nsorted_filed.
  { intros k b Hin Pb. apply nfind_In in Hin; [|now apply nsorted_filed].
    destruct (RS [] b) as (b' & E & _); eauto. apply (RR k b Hin Pb). }
  rewrite EF. cbn [bind]. change (mkObj M _ _ _ _ _ _ _ _ _ _) with (mk M). exists (mk M). split; [reflexivity|].
  assert (KO : forall i t, nthN (ob_origins l) i = Some t -> nthN (ob_origins (mk M)) i = Some t).
  { intros i t H. cbn. rewrite Em, nthN_app1; [exact H|]. now apply nthN_some_lt in H. }
  assert (KT : forall i t, file_text l i = Some t -> file_text (mk M) i = Some t) by (intros i t; apply KF).
  assert (RMR : forall k b, nfind k (ob_syms r) = Some b -> sy_public b = false ->
      same_head (sy_multiple b) b (rm remap om b) /\ same_source r b (mk M) (rm remap om b) /\ func_ok (mk M) (rm remap om b)).
  { intros k b Hk Pb. destruct (RS M b (RR k b Hk Pb)) as (b' & E & A). unfold rm. rewrite E. exact A. }
  (* where each FUNC comes from *)
  assert (ORI : forall k s, nfind k M = Some s -> sy_public s = false ->
     (exists a, nfind k (ob_syms l) = Some a /\ sy_public a = false /\ sy_source s = sy_source a /\ sy_name s = sy_name a /\ sy_len s = sy_len a) \/
     (exists b, nfind k (ob_syms r) = Some b /\ sy_public b = false /\ sy_source s = sy_source (rm remap om b) /\ sy_name s = sy_name b /\ sy_len s = sy_len b)).
  { intros k s Hs Ps. specialize (HM k). destruct (nfind k (ob_syms r)) as [b|] eqn:Er.
    - destruct HM as (ins & _ & HM). rewrite HM in Hs. unfold step_res in Hs.
      destruct (sy_public b) eqn:Pb.
      + destruct ins; [left; exists s; auto|]. destruct (nfind k (ob_syms l)) as [e|] eqn:El; [|congruence].
        left. destruct (sy_synthetic b); [injection Hs as <-; eauto 8|]. destruct (sy_synthetic e); [congruence|].
        destruct (str_eqb _ _); injection Hs as <-; cbn in Ps |- *; eauto 8.
      + destruct (RMR k b Er Pb) as ((N1 & N2 & N3 & N4 & N5 & N6 & N7) & _).
        destruct (nfind k (ob_syms l)) as [a|] eqn:El.
        * destruct (sy_public a) eqn:Pa; injection Hs as <-.
          -- right. exists b. cbn. auto.
          -- left. exists a. cbn. auto.
        * injection Hs as <-. right. exists b. auto.
    - rewrite HM in Hs. left. exists s. auto. }
  assert (FIL : filed M).
  { split; [exact SM|]. intros k s Hs. specialize (HM k). destruct (nfind k (ob_syms r)) as [b|] eqn:Er.
    - destruct HM as (ins & _ & HM). rewrite HM in Hs. apply step_res_fits in Hs as [(t & Ht & -> & _)|(-> & _)].
      + now apply FL.
      + now apply FR.
    - rewrite HM in Hs. now apply FL. }
  assert (REF : forall k s, nfind k M = Some s -> sy_public s = false -> func_ok (mk M) s).
  { intros k s Hs Ps. destruct (ORI k s Hs Ps) as [(a & A & B & C & _)|(b & A & B & C & _)].
    - eapply (func_ok_keep l); eauto. apply (RL k a A B).
    - destruct (RMR k b A B) as (_ & _ & H). unfold func_ok in *. rewrite C. exact H. }
  split; [|split; [|split; [exact PF|split; [exact KT|]]]].
  - split; [exact FIL|split; [exact REF|exact SF]].
  - intros k s Hs Ps. destruct (ORI k s Hs Ps) as [(a & A & B & C & D & E)|(b & A & B & C & D & E)].
    + exists l, a. splits; auto; [now left|]. apply same_source_keep; auto. apply (RL k a A B).
    + exists r, b. splits; auto; [right; now left|]. eapply same_source_eq; [exact C|]. now apply (RMR k b).
  - intros EL ER.
    assert (EM' : ends_fit M).
    { intros k s Hs. specialize (HM k). destruct (nfind k (ob_syms r)) as [b|] eqn:Er.
      - destruct HM as (ins & _ & HM). rewrite HM in Hs. apply step_res_fits in Hs as [(t & Ht & -> & ->)|(-> & ->)]; [eapply EL|eapply ER]; eauto.
      - rewrite HM in Hs. eapply EL; eauto. }
    split; [exact EM'|]. intros k. unfold merged_at. cbn [ob_syms mk].
    specialize (HM k). destruct (nfind k (ob_syms r)) as [b|] eqn:Er.
    + destruct HM as (ins & Hi & HM).
      destruct (inside_exact ck M k SM) as (b' & Hb' & HX). { intros j s (Hj & _). eauto. }
      assert (b' = ins) by congruence. subst b'. unfold step_res in HM.
      destruct (nfind k (ob_syms l)) as [a|] eqn:El.
      * destruct (sy_public b) eqn:Pb.
        -- split.
           ++ intros Hin. apply HX in Hin. now rewrite Hin in HM.
           ++ intros Hout. assert (ins = false) as -> by (destruct ins; [exfalso; apply Hout; now apply HX|reflexivity]).
              destruct (sy_synthetic b); [exact HM|]. destruct (sy_synthetic a); [exact HM|].
              destruct (str_eqb (sy_name a) (sy_name b)) eqn:En.
              ** apply str_eqb_eq in En. exists a. splits; auto. left. split; [exact En|]. unfold same_head. auto 10.
              ** apply str_eqb_neq in En. exists (set_multiple a). splits; auto. right. split; [exact En|]. unfold same_head. cbn. auto 10.
        -- destruct (RMR k b Er Pb) as ((N1 & N2 & N3 & N4 & N5 & N6 & N7) & SS & _).
           destruct (sy_public a).
           ++ eexists. split; [exact HM|]. split; [unfold same_head; cbn; auto 10|]. eapply same_source_eq; [|exact SS]. reflexivity.
           ++ eexists. split; [exact HM|]. split; [unfold same_head; cbn; auto 10|]. reflexivity.
      * destruct (sy_public b) eqn:Pb.
        -- split.
           ++ intros Hin. apply HX in Hin. now rewrite Hin in HM.
           ++ intros Hout. assert (ins = false) as -> by (destruct ins; [exfalso; apply Hout; now apply HX|reflexivity]). exact HM.
        -- destruct (RMR k b Er Pb) as (N & SS & _). eexists. split; [exact HM|]. split; auto.
    + destruct (nfind k (ob_syms l)); exact HM.
Qed.
