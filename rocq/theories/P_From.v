(** Proofs about processing one object. *)
From Verif Require Import Base Sort BMap Str M_Names M_Path M_Line M_Source M_Symbol M_Collector M_Object
  S_Line S_Names S_Path S_Source S_Symbol S_Collector S_Object P_Line P_Names P_Path P_Source P_Symbol P_Collector P_Walk P_Tree P_Func P_Calls P_Object P_Merge P_Where.

(** *** The last step only adds synthetic PUBLIC records *)
Definition only_synthetic (m m' : Symbols) : Prop :=
  forall k, match nfind k m, nfind k m' with
            | Some s, r => r = Some s
            | None, None => True
            | None, Some s => exists name, synthetic_at k name s
            end.
Lemma or_insert_synthetic k name m : nsorted m -> only_synthetic m (or_insert k (synthetic_public name k) m) /\
  nsorted (or_insert k (synthetic_public name k) m).
Proof.
  intros S. unfold or_insert. destruct (nfind k m) as [s0|] eqn:E.
  - split; auto. intros j. destruct (nfind j m); auto.
  - split; [|now apply ninsert_sorted]. intros j. rewrite nfind_insert by exact S.
    destruct (N.eqb_spec j k) as [->|].
    + rewrite E. exists name. unfold synthetic_at. cbn. splits; auto.
    + destruct (nfind j m); auto.
Qed.
Lemma only_synthetic_trans a b c : only_synthetic a b -> only_synthetic b c -> only_synthetic a c.
Proof.
  intros H1 H2 k. specialize (H1 k). specialize (H2 k).
  destruct (nfind k a) as [s|].
  - rewrite H1 in H2. auto.
  - destruct (nfind k b) as [s|]; [rewrite H2; auto|auto].
Qed.
Lemma only_synthetic_refl m : only_synthetic m m.
Proof. intros k. destruct (nfind k m); auto. Qed.

Lemma dummy_synthetic ck name m m' : nsorted m -> append_dummy ck name m = Ok m' -> only_synthetic m m'.
Proof.
  intros S H. unfold append_dummy in H. destruct (last_opt m) as [[k s]|].
  - apply bind_ok in H as (r & _ & [= <-]). apply or_insert_synthetic, S.
  - inversion H; subst. apply only_synthetic_refl.
Qed.
Lemma sections_synthetic ck b name m m' : nsorted m -> add_executable_section_symbols ck b name m = Ok m' -> only_synthetic m m'.
Proof.
  intros S H. destruct b as [secs| | |]; cbn [add_executable_section_symbols] in H; try (now apply (dummy_synthetic ck name)).
  - inversion H; subst; clear H. revert m S. induction secs as [|h secs IH]; cbn [fold_left]; intros m S; [apply only_synthetic_refl|].
    unfold add_section at 2. destruct (se_exec h); [|auto]. cbn [u32]. 
    match goal with |- context [or_insert ?k (synthetic_public ?n ?k) m] => destruct (or_insert_synthetic k n m S) as (A & B) end.
    eapply only_synthetic_trans; [exact A|]. apply IH, B.
  - inversion H; subst. apply only_synthetic_refl.
Qed.
Lemma sections_ok ck b name m : (ck = false \/ forall k s, nfind k m = Some s -> room (sy_rva s) (sy_len s)) -> nsorted m ->
  exists m', add_executable_section_symbols ck b name m = Ok m'.
Proof.
  intros H S. assert (D : exists m', append_dummy ck name m = Ok m').
  { unfold append_dummy. destruct (last_opt m) as [[k s]|] eqn:E; [|eauto].
    apply last_opt_record in E; [|exact S]. destruct E as (E & _).
    destruct H as [->|H].
    - unfold add32, add_w. destruct (sy_len s =? 0); destruct (_ <? _); cbn; eauto.
    - specialize (H k s E). unfold room in H. destruct (sy_len s =? 0); rewrite add32_ok by lia; cbn; eauto. }
  destruct b; cbn; eauto.
Qed.

(** *** Tables of the functions *)
Lemma table_sorted e f P ns ls : table_of e f P ns ls -> bsorted site_lt (ls_inlines ls).
Proof. intros (evs & H & _). apply finalize_find in H as (S & _). exact S. Qed.

(** What is kept of every FUNC record. *)
Definition good_source (nf no : N) (ls : Lines) : Prop :=
  (forall l, In l (ls_lines ls) -> l_file l < nf) /\
  (forall x, In x (ls_inlines ls) -> s_file (fst x) < nf /\ s_origin (fst x) < no) /\
  bsorted site_lt (ls_inlines ls).
Definition all_good (nf no : N) (m : Symbols) : Prop :=
  forall k s, nfind k m = Some s -> sy_public s = false -> good_source nf no (sy_source s).
Lemma good_empty nf no ls : ls_lines ls = [] -> ls_inlines ls = [] -> good_source nf no ls.
Proof. intros A B. unfold good_source. rewrite A, B. splits; [intros l []|intros x []|constructor]. Qed.
Lemma nth_some {A} (l : list A) i : i < lenN l -> nthN l i <> None.
Proof. intros H E. destruct (nthN_lt_some l i H) as (x & Hx). congruence. Qed.

(** *** The whole of [from_object] *)
Lemma publics_twice ck pl dm a b m m' : (m1 <- collect_publics ck pl dm a m ;; collect_publics ck pl dm b m1) = Ok m' ->
  collect_publics ck pl dm (a ++ b) m = Ok m'.
Proof. intros H. unfold collect_publics in *. now rewrite foldM_app. Qed.

Lemma from_object_inv e pl main mn pe pn o : from_object e pl main mn pe pn = Ok o ->
  exists fs m0 s og m1 mini m2 m3,
    pa_functions main = Some fs /\
    collected (run_cenv e pl main) fs m0 s og /\
    (match pa_exceptions main with Some xs => collect_placeholders (re_ck e) (ph_name mn pn) xs m0 | None => Ok m0 end) = Ok m1 /\
    minidebug (re_ck e) (pa_size main) (pa_unxz main) (pa_secs main) = Ok mini /\
    collect_publics (re_ck e) pl (re_dm e) (pa_publics main ++ mini) m1 = Ok m2 /\
    add_executable_section_symbols (re_ck e) (pa_bytes main) mn m2 = Ok m3 /\
    ob_syms o = m3 /\ ob_files o = src_mapping s /\ ob_origins o = og_names og.
Proof.
  unfold from_object. intros H. destruct (pa_functions main) as [fs|] eqn:Efs; [|discriminate].
  apply bind_ok in H as ([[m0 s] og] & H0 & H). apply bind_ok in H as (_ & _ & H). apply bind_ok in H as (m1 & H1 & H). apply bind_ok in H as (m1' & H2 & H).
  apply bind_ok in H as (mini & H3 & H). apply bind_ok in H as (m2 & H4 & H). apply bind_ok in H as (m3 & H5 & H). inversion H; subst o; clear H.
  exists fs, m0, s, og, m1, mini, m2, m3. cbn [ob_syms ob_files ob_origins]. splits; auto.
  unfold collect_publics in *. rewrite foldM_app, H2. exact H4.
Qed.

Lemma placeholders_opt ck name (xs : option (list (option (N * N)))) m m' : nsorted m ->
  match xs with Some xs => collect_placeholders ck name xs m | None => Ok m end = Ok m' ->
  nsorted m' /\ (forall k s, nfind k m = Some s -> nfind k m' = Some s) /\
  (forall k s, nfind k m = None -> nfind k m' = Some s ->
     exists l e, xs = Some l /\ In (Some (k, e)) l /\ k <= e /\ placeholder_of name k e s).
Proof.
  intros S H. destruct xs as [l|].
  - destruct (placeholders_spec _ _ _ _ _ S H) as (A & B & C). splits; auto. intros k s H1 H2.
    destruct (C k s H1 H2) as (e & D). exists l, e. auto.
  - inversion H; subst. splits; auto. intros; congruence.
Qed.

Lemma from_processed e pl main mn pe pn o : from_object e pl main mn pe pn = Ok o ->
  exists fs mini, pa_functions main = Some fs /\
    minidebug (re_ck e) (pa_size main) (pa_unxz main) (pa_secs main) = Ok mini /\
    forall k, processed_at e pl main mn (ph_name mn pn) fs mini k (nfind k (ob_syms o)).
Proof.
  intros H. destruct (from_object_inv _ _ _ _ _ _ _ H) as (fs & m0 & s & og & m1 & mini & m2 & m3 & F & H0 & H1 & Hm & H2 & H3 & -> & _).
  exists fs, mini. splits; auto. intros k. destruct (funcs_record _ _ _ _ _ H0) as ((S0 & _) & R).
  destruct (placeholders_opt _ _ _ _ _ S0 H1) as (S1 & K1 & N1).
  assert (S2 : nsorted m2).
  { assert (FF : forall a, nsorted a -> forall p b, collect_public (re_ck e) pl (re_dm e) a p = Ok b -> nsorted b)
      by (intros a Sa p b Hb; apply collect_public_step in Hb; eapply pub_step_sorted; eauto).
    apply (foldM_inv nsorted) with (3 := H2); auto. intros a p b _ Sa Hb. exact (FF a Sa p b Hb). }
  pose proof (sections_synthetic _ _ _ _ _ S2 H3 k) as Y. specialize (R k). unfold processed_at.
  destruct (funcs_at k (readable fs)) as [|f rest].
  - destruct (nfind k m2) as [s2|] eqn:E2.
    + rewrite Y. destruct (nfind k m1) as [s1|] eqn:E1.
      * left. destruct (publics_kept _ _ _ _ _ _ _ _ S1 H2 E1) as (s' & E & K). assert (s' = s2) by congruence. subst s'.
        destruct (N1 k s1 R E1) as (xs & b & A1 & A2 & A3 & A4). exists xs, b, s1. auto.
      * right; left. exact (publics_new _ _ _ _ _ _ _ _ S1 H2 E1 E2).
    + destruct (nfind k m3); auto.
  - destruct R as (s0 & R1 & R2). pose proof (K1 k s0 R1) as E1.
    destruct (publics_kept _ _ _ _ _ _ _ _ S1 H2 E1) as (s2 & E2 & K). rewrite E2 in Y. rewrite Y. exists s0. auto.
Qed.

Lemma src_files_ok e kp P s : SrcInv e kp P s -> files_ok (fun p => match se_map e p with Some q => q | None => p end) (src_mapping s).
Proof.
  intros I. exists P. unfold src_mapping. cbn [sm_ids sm_ref]. rewrite (si_ref _ _ _ _ I), (si_ids _ _ _ _ I). splits.
  - apply I.
  - reflexivity.
  - rewrite numbered_fst. apply I.
  - intros p i. apply numbered_In.
Qed.

Lemma from_obj_ok e pl main mn pe pn o : sort_perm (re_sort e) ->
  (forall fs, pa_functions main = Some fs -> consistent (flat_map fun_refs (readable fs))) -> exceptions_u32 main ->
  from_object e pl main mn pe pn = Ok o -> obj_ok (run_shown e) o.
Proof.
  intros US C X H. destruct (from_processed _ _ _ _ _ _ _ H) as (fs' & mini' & F' & _ & PA).
  destruct (from_object_inv _ _ _ _ _ _ _ H) as (fs & m0 & s & og & m1 & mini & m2 & m3 & F & H0 & H1 & Hm & H2 & H3 & E1 & E2 & E3).
  assert (fs' = fs) by congruence. subst fs'. specialize (C fs F).
  destruct (consistent_kp (ce_src (run_cenv e pl main)) _ C) as (kp & K).
  destruct (functions_tables (run_cenv e pl main) fs m0 s og kp US K H0) as (P & ns & I & J & S0 & T).
  destruct (funcs_record _ _ _ _ _ H0) as (F0 & _).
  assert (F1 : filed m1).
  { destruct (pa_exceptions main) as [xs|] eqn:EX; [|inversion H1; now subst].
    apply (filed_placeholders _ _ _ _ _ F0) with (2 := H1). intros b x Hb. exact (proj1 (X xs b x EX Hb)). }
  pose proof (filed_publics _ _ _ _ _ _ F1 H2) as F2. pose proof (filed_sections _ _ _ _ _ F2 H3) as F3.
  unfold obj_ok. rewrite E1, E2. split; [exact F3|]. split; [|exact (src_files_ok _ _ _ _ I)].
  assert (L1 : lenN (sf_ids s) = lenN P) by (rewrite (si_ids _ _ _ _ I); unfold lenN; now rewrite map_length).
  assert (L2 : lenN (og_names og) = lenN ns) by (rewrite (oi_names _ _ _ J); unfold lenN; now rewrite map_length).
  assert (G0 : all_good (lenN (sf_ids s)) (lenN (og_names og)) m0).
  { intros k sym Hk _. specialize (T k). destruct (funcs_at k (readable fs)) as [|f rest]; [congruence|].
    destruct T as (sym' & A & _ & B). assert (sym' = sym) by congruence. subst sym'. destruct (table_refs _ _ _ _ _ B) as (R1 & R2).
    rewrite L1, L2. split; [exact R1|]. split; [intros [x rs] Hx; exact (R2 x rs Hx)|exact (table_sorted _ _ _ _ _ B)]. }
  destruct (placeholders_opt _ _ _ _ _ S0 H1) as (S1 & K1 & N1).
  assert (G1 : all_good (lenN (sf_ids s)) (lenN (og_names og)) m1).
  { intros k sym Hk Pk. destruct (nfind k m0) as [s0|] eqn:Ek.
    - pose proof (K1 k s0 Ek). assert (s0 = sym) by congruence. subst. exact (G0 k sym Ek Pk).
    - destruct (N1 k sym Ek Hk) as (l & x & _ & _ & _ & Q). apply good_empty; apply Q. }
  assert (G2 : all_good (lenN (sf_ids s)) (lenN (og_names og)) m2).
  { intros k sym Hk Pk. destruct (nfind k m1) as [s0|] eqn:Ek.
    - destruct (publics_kept _ _ _ _ _ _ _ _ S1 H2 Ek) as (s' & E' & (B1 & B2 & B3 & B4 & B5) & _). assert (s' = sym) by congruence. subst s'.
      rewrite B5. apply (G1 k s0 Ek). congruence.
    - destruct (publics_new _ _ _ _ _ _ _ _ S1 H2 Ek Hk) as (Q & _). congruence. }
  intros k sym Hk Pk. rewrite E1 in Hk. pose proof (sections_synthetic _ _ _ _ _ (proj1 F2) H3 k) as Y. rewrite Hk in Y.
  destruct (nfind k m2) as [s2|] eqn:Ek.
  - inversion Y; subst s2. destruct (G2 k sym Ek Pk) as (A1 & A2 & A3). unfold file_text. rewrite E2, E3. unfold src_mapping; cbn [sm_ids].
    split; [intros l Hl; apply nth_some, A1, Hl|]. split; [|exact A3]. intros x Hx. destruct (A2 x Hx). split; now apply nth_some.
  - destruct Y as (n & Y). assert (sy_public sym = true) by apply Y. congruence.
Qed.

(** Sizes. *)
Lemma from_room e pl main mn pe pn o fs : pa_functions main = Some fs -> addresses_fit main fs -> exceptions_u32 main ->
  from_object e pl main mn pe pn = Ok o -> forall k s, nfind k (ob_syms o) = Some s -> sy_synthetic s = true /\ sy_public s = true /\ sy_len s = 0 \/ room (sy_rva s) (sy_len s).
Proof.
  intros Ef (A1 & A2 & A3 & A4) X H k s Hk. destruct (from_processed _ _ _ _ _ _ _ H) as (fs' & mini & F' & Hm & PA).
  assert (fs' = fs) by congruence. subst fs'. specialize (PA k). rewrite Hk in PA. unfold processed_at in PA.
  destruct (funcs_at k (readable fs)) as [|f rest] eqn:EF.
  - destruct PA as [(xs & b & s0 & B1 & B2 & B3 & B4 & B5)|[PN|(n & PS)]].
    + right. destruct B5 as ((_ & _ & R1 & R2 & _) & _). rewrite R1, R2. destruct B4 as (_ & _ & _ & _ & -> & -> & _).
      specialize (A2 xs k b B1 B2). unfold room. lia.
    + right. destruct PN as (_ & _ & -> & _ & (p & Hp & _ & -> & _) & _). unfold pubs_at in Hp. apply filter_In in Hp as (Hp & E).
      apply N.eqb_eq in E. rewrite <- E. apply in_app_or in Hp as [Hp|Hp].
      * exact (proj1 (Forall_forall _ _) A3 p Hp).
      * assert (EM : embedded main mini).
        { clear - Hm Hp. revert Hm. generalize (pa_size main) as sz. induction (pa_secs main) as [|[[n a] l] t IH]; cbn [minidebug]; intros sz Hm.
          - inversion Hm; subst. destruct Hp.
          - destruct (match n with Some n0 => str_eqb n0 (lit ".gnu_debugdata") | None => false end); [|eauto].
            apply bind_ok in Hm as (x & _ & Hm). destruct ((a <=? x) && (x <=? sz)); [|discriminate].
            destruct (pa_unxz main a x) as [[pubs|]|] eqn:EU; inversion Hm; subst; try (destruct Hp; fail). exists a, x; auto. }
        exact (proj1 (Forall_forall _ _) (A4 mini EM) p Hp).
    + left. destruct PS as (_ & P1 & P2 & _ & _ & P3 & _). auto.
  - right. destruct PA as (s0 & Fs & (_ & _ & R1 & R2 & _) & _). rewrite R1, R2.
    destruct Fs as (_ & _ & _ & _ & -> & -> & _). assert (I : In f (funcs_at k (readable fs))) by (rewrite EF; now left).
    unfold funcs_at in I. apply filter_In in I as (I & _). exact (proj1 (Forall_forall _ _) A1 f I).
Qed.
Lemma from_ends e pl main mn pe pn o fs : sort_perm (re_sort e) -> consistent (flat_map fun_refs (readable fs)) ->
  pa_functions main = Some fs -> addresses_fit main fs -> exceptions_u32 main ->
  from_object e pl main mn pe pn = Ok o -> ends_fit (ob_syms o).
Proof.
  intros US C Ef A X H k s Hk. destruct (from_obj_ok e pl main mn pe pn o US) as ((_ & FL) & _); auto.
  { intros fs' E. assert (fs' = fs) by congruence. now subst. }
  destruct (FL k s Hk) as (R & L). destruct (from_room _ _ _ _ _ _ _ _ Ef A X H k s Hk) as [(_ & _ & Z)|Z]; [rewrite R, Z; lia|unfold room in Z; lia].
Qed.

Lemma minidebug_ok ck p : debugdata_inside p -> exists mini, minidebug ck (pa_size p) (pa_unxz p) (pa_secs p) = Ok mini /\ (mini = [] \/ embedded p mini).
Proof.
  unfold debugdata_inside. intros H. induction (pa_secs p) as [|[[n a] l] t IH]; cbn [minidebug]; [eauto|].
  destruct (match n with Some n0 => str_eqb n0 (lit ".gnu_debugdata") | None => false end) eqn:E.
  - destruct n as [n|]; [|discriminate]. apply str_eqb_eq in E. subst n. destruct (H a l) as (H1 & H2); [now left|].
    rewrite add64_ok by lia. cbn [bind]. assert ((a <=? a + l) && (a + l <=? pa_size p) = true) as -> by lia.
    destruct (pa_unxz p a (a + l)) as [[pubs|]|] eqn:EU; [|eauto|eauto]. exists pubs. split; auto. right. exists a, (a + l). auto.
  - apply IH. intros a' n' Hin. apply H. now right.
Qed.

Definition roomy (m : Symbols) : Prop := forall k s, nfind k m = Some s -> room (sy_rva s) (sy_len s).
Lemma roomy_ends m : roomy m -> ends_fit m.
Proof. intros H k s E. specialize (H k s E). unfold room in H. lia. Qed.

Lemma from_ok e pl main mn pe pn fs : sort_perm (re_sort e) -> consistent (flat_map fun_refs (readable fs)) ->
  pa_functions main = Some fs -> exceptions_u32 main -> debugdata_inside main ->
  (pl <> Win \/ all_publics ascii_name main) ->
  (re_ck e = false \/ (addresses_fit main fs /\ (re_inl e = false \/ Forall fits (readable fs)))) ->
  mapping_reads e pl main fs ->
  exists o, from_object e pl main mn pe pn = Ok o.
Proof.
  intros US C Ef X DI NA FI MR. unfold from_object. rewrite Ef.
  destruct (functions_ok (run_cenv e pl main) fs US C) as (m0 & s & og & H0); [destruct FI as [|(_ & [|])]; auto|].
  rewrite H0. cbn [bind].
  assert (AM : ask_mapping e s = Ok tt) by (apply ask_ok; intros p i I; destruct (entered_paths _ _ _ _ _ _ _ H0 p i I) as (r & Hr & ->); now apply MR).
  rewrite AM. cbn [bind].
  destruct (funcs_record _ _ _ _ _ H0) as ((S0 & _) & R0).
  assert (R : re_ck e = false \/ roomy m0).
  { destruct FI as [|((A & _) & _)]; auto. right. intros k sym Hk. specialize (R0 k). destruct (funcs_at k (readable fs)) as [|f rest] eqn:EF; [congruence|].
    destruct R0 as (s' & E & Q). assert (s' = sym) by congruence. subst s'. destruct Q as (_ & _ & _ & _ & -> & -> & _).
    assert (I : In f (funcs_at k (readable fs))) by (rewrite EF; now left). apply filter_In in I as (I & _). exact (proj1 (Forall_forall _ _) A f I). }
  assert (H1 : exists m1, match pa_exceptions main with Some xs => collect_placeholders (re_ck e) (ph_name mn pn) xs m0 | None => Ok m0 end = Ok m1).
  { destruct (pa_exceptions main) as [xs|] eqn:EX; [|eauto]. apply placeholders_ok; [exact S0|].
    destruct R as [|R]; auto. right. split; [now apply roomy_ends|]. intros b x Hb. exact (proj2 (X xs b x EX Hb)). }
  destruct H1 as (m1 & H1). unfold ph_name in H1. rewrite H1. cbn [bind].
  destruct (placeholders_opt _ _ _ _ _ S0 H1) as (S1 & K1 & N1).
  assert (R1 : re_ck e = false \/ roomy m1).
  { destruct FI as [|((_ & A & _) & _)]; auto. destruct R as [|R]; auto. right. intros k sym Hk. destruct (nfind k m0) as [s0|] eqn:E.
    - pose proof (K1 k s0 E). assert (s0 = sym) by congruence. subst. exact (R k sym E).
    - destruct (N1 k sym E Hk) as (l & x & EX & Hx & L & Q). destruct Q as (_ & _ & _ & _ & -> & -> & _). specialize (A l k x EX Hx). unfold room. lia. }
  destruct (minidebug_ok (re_ck e) main DI) as (mini & HM & EM). 
  assert (NA' : pl <> Win \/ Forall ascii_name (pa_publics main ++ mini)).
  { destruct NA as [|(N2 & N3)]; auto. right. apply Forall_app. split; auto. destruct EM as [->|EM]; auto. }
  assert (FP : re_ck e = false \/ Forall (fun q => room (pb_addr q mod two32) (pb_size q mod two32)) (pa_publics main ++ mini)).
  { destruct FI as [|((_ & _ & B1 & B2) & _)]; auto. right. apply Forall_app. split; auto. destruct EM as [->|EM]; auto. }
  destruct (publics_ok (re_ck e) pl (re_dm e) (pa_publics main ++ mini) m1 S1) as (m2 & H2); auto.
  { destruct R1 as [|R1], FP as [|FP]; auto. right. split; [now apply roomy_ends|]. eapply Forall_impl; [|exact FP]. unfold room. cbn. intros; lia. }
  unfold collect_publics in H2. rewrite foldM_app in H2. apply bind_ok in H2 as (m1' & H2 & H3).
  assert (H23 : collect_publics (re_ck e) pl (re_dm e) (pa_publics main ++ mini) m1 = Ok m2) by (unfold collect_publics; rewrite foldM_app, H2; exact H3).
  unfold collect_publics. rewrite H2. cbn [bind]. rewrite HM. cbn [bind]. rewrite H3. cbn [bind].
  assert (S2 : nsorted m2).
  { apply (foldM_inv nsorted) with (3 := H23); auto. intros a p b _ Sa Hb. apply collect_public_step in Hb; eapply pub_step_sorted; eauto. }
  assert (R2 : re_ck e = false \/ roomy m2).
  { destruct R1 as [|R1], FP as [|FP]; auto. right. intros k sym Hk. destruct (nfind k m1) as [s0|] eqn:E.
    - destruct (publics_kept _ _ _ _ _ _ _ _ S1 H23 E) as (s' & E' & (B1 & B2 & B3 & B4 & B5) & _). assert (s' = sym) by congruence. subst s'.
      rewrite B3, B4. exact (R1 k s0 E).
    - destruct (publics_new _ _ _ _ _ _ _ _ S1 H23 E Hk) as (_ & _ & -> & _ & (p & Hp & _ & -> & _) & _).
      apply filter_In in Hp as (Hp & Eq). apply N.eqb_eq in Eq. rewrite <- Eq. exact (proj1 (Forall_forall _ _) FP p Hp). }
  destruct (sections_ok (re_ck e) (pa_bytes main) mn m2) as (m3 & H4); auto. rewrite H4. cbn [bind]. eauto.
Qed.

Lemma fresh_ok shown o : fresh shown o -> obj_ok shown o.
Proof.
  intros (e & pl & main & mn & pe & pn & US & C & X & Sh & H).
  destruct (from_obj_ok e pl main mn pe pn o US C X H) as (A & B & (P & P1 & P2 & P3 & P4)).
  split; [exact A|]. split; [exact B|]. exists P. splits; auto. rewrite P2. apply map_ext. exact Sh.
Qed.
