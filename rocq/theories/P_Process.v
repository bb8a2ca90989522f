(** Proofs about the header and the addresses of a processed object. *)
From Verif Require Import Base Sort BMap Str M_Names M_Path M_Line M_Source M_Symbol M_Collector M_Object
  S_Line S_Names S_Path S_Source S_Symbol S_Collector S_Object S_Process P_Line P_Names P_Path P_Source P_Symbol P_Collector P_Walk P_Tree P_Func P_Calls P_Object P_Merge P_From.

(** *** Header *)
Lemma upper_spec c : upper_of c (to_upper c).
Proof.
  unfold upper_of, to_upper. induction c as [|a c IH]; cbn [map]; constructor; [|exact IH]. unfold upper_char.
  destruct ((97 <=? a) && (a <=? 122)) eqn:E; [left|right]; lia.
Qed.
Lemma file_name_after s : after_slash s (file_name_only s).
Proof.
  unfold file_name_only, after_slash. pose proof (join_split c_slash s) as J. pose proof (split_on_pieces (fun c => c =? c_slash) s) as F.
  destruct (last_opt (split_on (fun c => c =? c_slash) s)) as [n|] eqn:E; [|apply last_opt_none in E; now apply split_on_nonempty in E].
  apply last_opt_some in E. destruct E as (l & E). rewrite E in J, F. split.
  - apply Forall_app in F. destruct F as (_ & F). apply Forall_inv in F. intros I. rewrite forallb_forall in F. specialize (F 47 I). discriminate.
  - rewrite <- J. clear. induction l as [|x l IH]; [now left|]. right. cbn [app]. destruct IH as [IH|(d & IH)].
    + exists x. change (join_with c_slash (x :: l ++ [n])) with (match l ++ [n] with [] => x | _ => x ++ c_slash :: join_with c_slash (l ++ [n]) end).
      destruct (l ++ [n]) eqn:E; [now destruct l|]. now rewrite IH.
    + exists (x ++ c_slash :: d). change (join_with c_slash (x :: l ++ [n])) with (match l ++ [n] with [] => x | _ => x ++ c_slash :: join_with c_slash (l ++ [n]) end).
      destruct (l ++ [n]) eqn:E; [now destruct l|]. rewrite IH, <- app_assoc. reflexivity.
Qed.
Lemma cfi_spec main pe : module_cfi main pe (stack_info main pe).
Proof.
  unfold stack_info. destruct pe as [p|].
  - destruct (pa_unwind p) eqn:E; [now constructor|]. destruct (pa_unwind main) eqn:M; constructor; auto; intros q [= <-]; auto.
  - destruct (pa_unwind main) eqn:M; constructor; auto; intros q [=].
Qed.
Lemma from_header e pl main mn pe pn o : from_object e pl main mn pe pn = Ok o ->
  ob_debug_id o = pa_debug_id main /\ ob_cpu o = pa_arch main /\ ob_platform o = pl /\ ob_pe_name o = pn /\
  (ob_stripped o = true <-> pa_debug_info main = false) /\ module_code main pe (ob_code_id o) /\ module_cfi main pe (ob_stack o) /\
  after_slash (match pa_inner main with Some n => n | None => mn end) (ob_name o).
Proof.
  unfold from_object. intros H. destruct (pa_functions main) as [fs|]; [|discriminate].
  apply bind_ok in H as ([[m0 s] og] & _ & H). apply bind_ok in H as (u & _ & H). apply bind_ok in H as (m1 & _ & H). apply bind_ok in H as (m1' & _ & H).
  apply bind_ok in H as (mini & _ & H). apply bind_ok in H as (m2 & _ & H). apply bind_ok in H as (m3 & _ & H). inversion H; subst o; clear H.
  cbn [ob_debug_id ob_cpu ob_platform ob_pe_name ob_stripped ob_code_id ob_stack ob_name]. splits; auto using cfi_spec, file_name_after.
  - now destruct (pa_debug_info main).
  - destruct pe as [p|]; [destruct (pa_code_id p) as [c|] eqn:E; [econstructor; eauto using upper_spec|]|]; (destruct (pa_code_id main) as [c|] eqn:M; cbn [option_map]);
      [eapply mc_main|apply mc_none|eapply mc_main|apply mc_none]; eauto using upper_spec; intros q [=]; subst; auto.
Qed.

(** *** Nothing is lost *)
Lemma inside_true ck a m : nsorted m -> is_inside_symbol ck a m = Ok true -> exists j s, nfind j m = Some s /\ j < a /\ a < sy_rva s + sy_len s.
Proof.
  intros S H. unfold is_inside_symbol in H. destruct (last_below a m) as [[j s]|] eqn:E; [|discriminate].
  apply (closest_last m a j s S) in E. destruct E as (E & L & _). exists j, s. splits; auto. apply bind_ok in H as (x & A & [= H]).
  unfold add32, add_w in A. destruct (N.ltb_spec (sy_rva s + sy_len s) two32); [inversion A; subst; lia|]. destruct ck; [discriminate|]. inversion A; subst.
  assert ((sy_rva s + sy_len s) mod two32 <= sy_rva s + sy_len s) by (apply N.mod_le; discriminate). lia.
Qed.
(** Later tables keep records with their extent. *)
Definition extends (m m' : Symbols) : Prop := forall k s, nfind k m = Some s -> exists s', nfind k m' = Some s' /\ sy_rva s' = sy_rva s /\ sy_len s' = sy_len s.
Lemma extends_refl m : extends m m.
Proof. intros k s H. eauto. Qed.
Lemma extends_trans a b c : extends a b -> extends b c -> extends a c.
Proof. intros H1 H2 k s H. destruct (H1 k s H) as (s1 & A & B & C). destruct (H2 k s1 A) as (s2 & A' & B' & C'). exists s2. splits; auto; congruence. Qed.
Lemma covered_extends m m' k : extends m m' -> covered m k -> covered m' k.
Proof.
  intros X [(s & H)|(j & s & H & A & B)].
  - destruct (X k s H) as (s' & H' & _). left. eauto.
  - destruct (X j s H) as (s' & H' & R & L). right. exists j, s'. rewrite R, L. auto.
Qed.
Lemma publics_extends ck pl dm pubs m m' : nsorted m -> collect_publics ck pl dm pubs m = Ok m' -> extends m m'.
Proof.
  intros S H k s E. destruct (publics_kept _ _ _ _ _ _ _ _ S H E) as (s' & E' & (_ & _ & R & L & _) & _). eauto.
Qed.
Lemma public_covers ck pl dm m p m' : nsorted m -> collect_public ck pl dm m p = Ok m' -> ~ constant_pub p -> covered m' (pb_addr p mod two32).
Proof.
  intros S H N. unfold collect_public in H. apply bind_ok in H as (b & I & H). destruct b.
  - inversion H; subst. right. exact (inside_true _ _ _ S I).
  - apply not_constant in N. rewrite N in H. apply bind_ok in H as (w & _ & H).
    destruct (nfind (u32 (pb_addr p)) m) as [s|] eqn:E; inversion H; subst; left; eexists; apply nfind_insert_eq, S.
Qed.
Lemma publics_cover ck pl dm pubs : forall m m', nsorted m -> collect_publics ck pl dm pubs m = Ok m' ->
  forall p, In p pubs -> ~ constant_pub p -> covered m' (pb_addr p mod two32).
Proof.
  induction pubs as [|q pubs IH]; intros m m' S H p Ip N; [destruct Ip|]. unfold collect_publics in H. cbn [foldM] in H. apply bind_ok in H as (m1 & A & B).
  assert (S1 : nsorted m1) by (eapply pub_step_sorted; [exact S|eapply collect_public_step; exact A]). fold (collect_publics ck pl dm pubs m1) in B.
  destruct Ip as [->|Ip]; [|exact (IH m1 m' S1 B p Ip N)]. apply (covered_extends m1); [exact (publics_extends _ _ _ _ _ _ S1 B)|]. exact (public_covers _ _ _ _ _ _ S A N).
Qed.
Lemma placeholders_extends ck mn xs m m' : nsorted m -> collect_placeholders ck mn xs m = Ok m' -> extends m m'.
Proof. intros S H k s E. destruct (placeholders_spec _ _ _ _ _ S H) as (_ & K & _). exists s. auto. Qed.
Lemma placeholders_cover ck mn xs : forall m m', nsorted m -> collect_placeholders ck mn xs m = Ok m' ->
  forall b e, In (Some (b, e)) xs -> b <= e -> covered m' b.
Proof.
  induction xs as [|x xs IH]; intros m m' S H b e I L; [destruct I|]. unfold collect_placeholders in H. cbn [foldM] in H. apply bind_ok in H as (m1 & A & B).
  pose proof (placeholder_sorted _ _ _ _ _ S A) as S1. fold (collect_placeholders ck mn xs m1) in B.
  destruct I as [->|I]; [|exact (IH m1 m' S1 B b e I L)]. apply (covered_extends m1); [exact (placeholders_extends _ _ _ _ _ S1 B)|].
  unfold collect_placeholder in A. unfold checked_sub32 in A. destruct (N.leb_spec b e); [|lia]. apply bind_ok in A as (i & I & A). destruct i.
  - inversion A; subst. right. exact (inside_true _ _ _ S I).
  - destruct (nfind b m) as [s|] eqn:E; inversion A; subst; left; [eauto|]. eexists. apply nfind_insert_eq, S.
Qed.
Lemma sections_extends ck b mn m m' : nsorted m -> add_executable_section_symbols ck b mn m = Ok m' -> extends m m'.
Proof. intros S H k s E. pose proof (sections_synthetic _ _ _ _ _ S H k) as Y. rewrite E in Y. eauto. Qed.
Lemma mini_spec ck p mini : sizes_u64 p -> minidebug ck (pa_size p) (pa_unxz p) (pa_secs p) = Ok mini -> mini_publics p mini.
Proof.
  intros U H. assert (G : forall l t, pa_secs p = l ++ t -> no_debugdata l -> minidebug ck (pa_size p) (pa_unxz p) t = Ok mini -> mini_publics p mini).
  { clear H. intros l t. revert l. induction t as [|[[n a] len] t IH]; intros l E N H; cbn [minidebug] in H.
    - inversion H; subst. constructor. now rewrite E, app_nil_r.
    - destruct (match n with Some n0 => str_eqb n0 (lit ".gnu_debugdata") | None => false end) eqn:Q.
      + destruct n as [n|]; [|discriminate]. apply str_eqb_eq in Q. subst n. apply bind_ok in H as (x & A & H).
        destruct ((a <=? x) && (x <=? pa_size p)) eqn:B; [|discriminate].
        assert (L : len < two64) by (apply (U (Some (lit ".gnu_debugdata")) a len); rewrite E; apply in_or_app; right; now left).
        assert (X : x = a + len).
        { unfold add64, add_w in A. destruct (N.ltb_spec (a + len) two64); [now inversion A|]. destruct ck; [discriminate|]. inversion A; subst x.
          exfalso. assert ((a + len) mod two64 < two64) by (apply N.mod_lt; discriminate). assert ((a + len) mod two64 = a + len - two64); [|lia].
          symmetry. apply (N.mod_unique (a + len) two64 1 (a + len - two64)); lia. }
        subst x. destruct (pa_unxz p a (a + len)) as [[pubs|]|] eqn:EU; inversion H; subst; [eapply mp_first|eapply mp_bad|eapply mp_bad]; eauto; try lia; intros pubs; congruence.
      + apply (IH (l ++ [(n, a, len)])); [now rewrite <- app_assoc|intros a' n' I|exact H]. apply in_app_or in I as [I|[I|[]]]; [exact (N a' n' I)|].
        inversion I; subst. now rewrite str_eqb_refl in Q. }
  exact (G [] (pa_secs p) eq_refl (fun a n I => I) H).
Qed.
Lemma from_complete e pl main mn pe pn o : sizes_u64 main -> from_object e pl main mn pe pn = Ok o ->
  exists fs mini, pa_functions main = Some fs /\ mini_publics main mini /\
  (forall f, In f (readable fs) -> f_addr f <> 0 -> exists s, nfind (f_addr f mod two32) (ob_syms o) = Some s /\ sy_public s = false) /\
  (forall xs b x, pa_exceptions main = Some xs -> In (Some (b, x)) xs -> b <= x -> covered (ob_syms o) b) /\
  (forall p, In p (pa_publics main ++ mini) -> ~ constant_pub p -> covered (ob_syms o) (pb_addr p mod two32)) /\
  (forall secs h, pa_bytes main = BElf secs -> In h secs -> se_exec h = true -> exists s, nfind (se_addr h mod two32) (ob_syms o) = Some s).
Proof.
  intros U H. destruct (from_processed _ _ _ _ _ _ _ H) as (fs' & mini' & F' & _ & PA).
  destruct (from_object_inv _ _ _ _ _ _ _ H) as (fs & m0 & s & og & m1 & mini & m2 & m3 & F & H0 & H1 & Hm & H2 & H3 & E1 & _).
  assert (fs' = fs) by congruence. subst fs'. exists fs, mini. rewrite E1 in *. destruct (funcs_record _ _ _ _ _ H0) as ((S0 & _) & _).
  destruct (placeholders_opt _ _ _ _ _ S0 H1) as (S1 & _). pose proof (collect_publics_sorted _ _ _ _ _ _ S1 H2) as S2.
  pose proof (publics_extends _ _ _ _ _ _ S1 H2) as X2. pose proof (sections_extends _ _ _ _ _ S2 H3) as X3.
  splits; auto.
  - exact (mini_spec _ _ _ U Hm).
  - intros f Hf NZ. specialize (PA (f_addr f mod two32)). unfold processed_at in PA.
    assert (I : In f (funcs_at (f_addr f mod two32) (readable fs))) by (apply filter_In; split; [exact Hf|]; rewrite N.eqb_refl; destruct (N.eqb_spec (f_addr f) 0); [contradiction|reflexivity]).
    destruct (funcs_at _ _) as [|g rest]; [destruct I|]. destruct (nfind _ m3) as [sym|]; [|destruct PA]. exists sym. split; [reflexivity|].
    destruct PA as (s0 & (_ & Pu & _) & (Pk & _) & _). congruence.
  - intros xs b x EX I L. rewrite EX in H1. apply (covered_extends m1); [exact (extends_trans _ _ _ X2 X3)|]. exact (placeholders_cover _ _ _ _ _ S0 H1 b x I L).
  - intros p I N. apply (covered_extends m2); [exact X3|]. exact (publics_cover _ _ _ _ _ _ S1 H2 p I N).
  - intros secs h B I Xe. rewrite B in H3. cbn [add_executable_section_symbols] in H3. inversion H3; subst m3.
    destruct (sections_spec mn secs m2 (se_addr h mod two32) S2) as (A & C). destruct (nfind (se_addr h mod two32) m2) as [w|] eqn:E; [eauto|]. specialize (C eq_refl).
    assert (J : In h (sections_at (se_addr h mod two32) secs)) by (apply filter_In; split; [exact I|]; now rewrite Xe, N.eqb_refl).
    destruct (sections_at _ secs); [destruct J|]. destruct C as (sym & C & _). eauto.
Qed.

(** *** Synthetic PUBLIC records *)
Lemma dummy_stands ck main mn m m' k s : nsorted m -> (pa_bytes main = BPe \/ pa_bytes main = BPdb) -> append_dummy ck mn m = Ok m' ->
  nfind k m = None -> nfind k m' = Some s -> stands_for main mn m' k s.
Proof.
  intros S B H N E. unfold append_dummy in H. destruct (last_opt m) as [[j w]|] eqn:L; [|inversion H; subst; congruence].
  apply (last_opt_record m j w S) in L. destruct L as (L1 & L2). apply bind_ok in H as (r & A & H). inversion H; subst m'.
  rewrite or_insert_find in E by exact S. rewrite N in E. destruct (N.eqb_spec k r) as [<-|]; [|discriminate]. inversion E; subst s.
  right. split; [exact B|]. split; [unfold synthetic_at; cbn; splits; auto|]. exists j, w. rewrite or_insert_find, L1 by exact S. splits; auto.
  - intros ->. congruence.
  - unfold after_last. revert A. unfold add32, add_w. destruct (sy_len w =? 0); destruct (_ <? _) eqn:Q; try (intros [= <-]; rewrite N.mod_small by lia; reflexivity); destruct ck; try discriminate; intros [= <-]; reflexivity.
  - intros i v. rewrite or_insert_find by exact S. destruct (nfind i m) as [v'|] eqn:Ei; [right; exact (L2 i v' Ei)|]. destruct (N.eqb_spec i k); [now left|discriminate].
Qed.
Lemma from_synthetic e pl main mn pe pn o k s : from_object e pl main mn pe pn = Ok o ->
  nfind k (ob_syms o) = Some s -> sy_public s = true -> sy_synthetic s = true -> stands_for main mn (ob_syms o) k s.
Proof.
  intros H E Pu Sy.
  destruct (from_object_inv _ _ _ _ _ _ _ H) as (fs & m0 & sr & og & m1 & mini & m2 & m3 & F & H0 & H1 & Hm & H2 & H3 & E1 & _). rewrite E1 in *.
  destruct (funcs_record _ _ _ _ _ H0) as ((S0 & _) & R). destruct (placeholders_opt _ _ _ _ _ S0 H1) as (S1 & K1 & N1). pose proof (collect_publics_sorted _ _ _ _ _ _ S1 H2) as S2.
  destruct (nfind k m2) as [s2|] eqn:E2.
  - exfalso. pose proof (sections_synthetic _ _ _ _ _ S2 H3 k) as Y. rewrite E2 in Y. assert (s2 = s) by congruence. subst s2.
    destruct (nfind k m1) as [s1|] eqn:Em1; [|destruct (publics_new _ _ _ _ _ _ _ _ S1 H2 Em1 E2) as (_ & Q & _); congruence].
    destruct (publics_kept _ _ _ _ _ _ _ _ S1 H2 Em1) as (s' & E' & (B1 & B2 & _) & _). assert (s' = s) by congruence. subst s'.
    destruct (nfind k m0) as [s0|] eqn:Em0.
    + specialize (R k). destruct (funcs_at k (readable fs)); [congruence|]. destruct R as (sy & A & (_ & Q & _)). pose proof (K1 k s0 Em0). congruence.
    + destruct (N1 k s1 Em0 Em1) as (l & x & _ & _ & _ & (_ & Q & _)). congruence.
  - destruct (pa_bytes main) as [secs| | |] eqn:B; cbn [add_executable_section_symbols] in H3.
    + inversion H3; subst m3. left. destruct (sections_spec mn secs m2 k S2) as (_ & C). specialize (C E2). destruct (sections_at k secs) as [|h t] eqn:Q; [congruence|].
      destruct C as (s' & C1 & C2). exists secs, h, t. assert (s' = s) by congruence. subst s'. auto.
    + eapply dummy_stands; eauto.
    + eapply dummy_stands; eauto.
    + inversion H3; subst. congruence.
Qed.
(** A PE or PDB with records ends with such a record. *)
Lemma from_trailing e pl main mn pe pn o fs : sort_perm (re_sort e) -> consistent (flat_map fun_refs (readable fs)) -> pa_functions main = Some fs -> addresses_fit main fs -> exceptions_u32 main ->
  from_object e pl main mn pe pn = Ok o -> (pa_bytes main = BPe \/ pa_bytes main = BPdb) -> ob_syms o <> [] ->
  exists k s, last_record (ob_syms o) k s /\ synthetic_at k (sp_unknown mn) s.
Proof.
  intros US Cs Ef A X H B NE. pose proof (from_room _ _ _ _ _ _ _ _ Ef A X H) as RM.
  destruct (from_object_inv _ _ _ _ _ _ _ H) as (fs' & m0 & sr & og & m1 & mini & m2 & m3 & F & H0 & H1 & Hm & H2 & H3 & E1 & _). rewrite E1 in *.
  destruct (funcs_record _ _ _ _ _ H0) as ((S0 & F0) & R). destruct (placeholders_opt _ _ _ _ _ S0 H1) as (S1 & K1 & N1). pose proof (collect_publics_sorted _ _ _ _ _ _ S1 H2) as S2.
  assert (F1 : filed m1).
  { destruct (pa_exceptions main) as [xs|] eqn:EX; [|inversion H1; subst; now split].
    apply (filed_placeholders _ _ _ _ _ (conj S0 F0)) with (2 := H1). intros b x Hb. exact (proj1 (X xs b x EX Hb)). }
  pose proof (filed_publics _ _ _ _ _ _ F1 H2) as F2.
  assert (D : append_dummy (re_ck e) mn m2 = Ok m3) by (destruct B as [B|B]; rewrite B in H3; exact H3).
  destruct (last_opt m2) as [[j w]|] eqn:L; [|apply last_opt_none in L; subst m2; inversion D; subst; now elim NE].
  apply (last_opt_record m2 j w S2) in L. destruct L as (L1 & L2).
  assert (AL : after_last w < two32).
  { pose proof (sections_synthetic _ _ _ _ _ S2 H3 j) as Y. rewrite L1 in Y. destruct (proj2 F2 j w L1) as (Rw & _).
    destruct (RM j w Y) as [(Sy & Pu & _)|Q]; [|unfold room, after_last in *; destruct (sy_len w =? 0); lia].
    exfalso. destruct (nfind j m1) as [s1|] eqn:Em1; [|destruct (publics_new _ _ _ _ _ _ _ _ S1 H2 Em1 L1) as (_ & Q & _); congruence].
    destruct (publics_kept _ _ _ _ _ _ _ _ S1 H2 Em1) as (s' & E' & (B1 & B2 & _) & _). assert (s' = w) by congruence. subst s'.
    destruct (nfind j m0) as [s0|] eqn:Em0.
    - specialize (R j). destruct (funcs_at j (readable fs')); [congruence|]. destruct R as (sy & A' & (_ & Q & _)). pose proof (K1 j s0 Em0). congruence.
    - destruct (N1 j s1 Em0 Em1) as (l & x & _ & _ & _ & (_ & Q & _)). congruence. }
  destruct (dummy_spec (re_ck e) mn m2 j w F2 (conj L1 L2) AL) as (s' & D' & Nn & Sy). assert (E3 : m3 = ninsert (after_last w) s' m2) by congruence. rewrite E3.
  exists (after_last w), s'. split; [|exact Sy]. split; [apply nfind_insert_eq, S2|]. intros i v. rewrite nfind_insert by exact S2. destruct (N.eqb_spec i (after_last w)); [lia|].
  intros Hi. specialize (L2 i v Hi). destruct (proj2 F2 j w L1) as (Rw & _). unfold after_last. destruct (sy_len w =? 0); lia.
Qed.

(** *** The header specifications determine the header *)
Lemma upper_fun c : forall u u', upper_of c u -> upper_of c u' -> u = u'.
Proof.
  induction c as [|a c IH]; intros u u' H H'; inversion H; subst; inversion H'; subst; [reflexivity|]. f_equal; [lia|]. now apply IH.
Qed.
Lemma after_slash_fun s n n' : after_slash s n -> after_slash s n' -> n = n'.
Proof.
  assert (G : forall (d d' n n' : str), ~ In 47 n -> ~ In 47 n' -> d ++ 47 :: n = d' ++ 47 :: n' -> n = n').
  { clear. induction d as [|x d IH]; intros [|y d'] n n' N N' E; cbn [app] in E.
    - now inversion E.
    - inversion E; subst. elim N. apply in_or_app. right. now left.
    - inversion E; subst. elim N'. apply in_or_app. right. now left.
    - inversion E; subst. now apply (IH d' n n' N N'). }
  intros (N & H) (N' & H'). destruct H as [H|(d & H)], H' as [H'|(d' & H')].
  - congruence.
  - elim N. rewrite <- H, H'. apply in_or_app. right. now left.
  - elim N'. rewrite <- H', H. apply in_or_app. right. now left.
  - apply (G d d' n n' N N'). congruence.
Qed.
Lemma header_determined main pe :
  (forall c c', module_code main pe c -> module_code main pe c' -> c = c') /\
  (forall t t', module_cfi main pe t -> module_cfi main pe t' -> t = t') /\
  (forall s n n', after_slash s n -> after_slash s n' -> n = n').
Proof.
  split; [|split; [|exact after_slash_fun]].
  - intros c c' H H'. inversion H; subst; inversion H'; subst; auto; try congruence;
      try (match goal with N : forall p, Some _ = Some p -> _ |- _ => specialize (N _ eq_refl) end; congruence);
      f_equal; eapply upper_fun; eauto; congruence.
  - intros t t' H H'. inversion H; subst; inversion H'; subst; auto; try congruence;
      (match goal with N : forall p, Some _ = Some p -> _ |- _ => specialize (N _ eq_refl) end; congruence).
Qed.
