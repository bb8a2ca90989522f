(** Proofs: what a reader of the written file finds. *)
From Verif Require Import Base Sort BMap Str M_Names M_Path M_Line M_Source M_Symbol M_Collector M_Object
  S_Line S_Source S_Symbol S_Collector S_Object S_Format S_Symbolize P_Line P_Source P_Symbol P_Win P_Collector P_Walk P_Tree P_Func P_Calls
  P_Object P_Merge P_From P_Format.

(** *** Finding the parts of a file *)
Definition no_func (r : Rec) : Prop := match r with RFunc _ _ _ _ _ => False | _ => True end.
Definition no_file (r : Rec) : Prop := match r with RFile _ _ => False | _ => True end.
Definition no_origin (r : Rec) : Prop := match r with ROrigin _ _ => False | _ => True end.
Definition no_body (r : Rec) : Prop := match r with RInline _ _ _ _ _ | RLine _ _ _ _ => False | _ => True end.
Lemma functions_skip k a b : Forall no_func a -> functions_at k (a ++ b) = functions_at k b.
Proof. induction 1 as [|r a N _ IH]; auto. destruct r; cbn in *; auto; easy. Qed.
Lemma file_names_app i a b : file_names i (a ++ b) = file_names i a ++ file_names i b.
Proof. induction a as [|r a IH]; auto. destruct r; cbn; auto. destruct (n =? i); cbn; now rewrite IH. Qed.
Lemma origin_names_app i a b : origin_names i (a ++ b) = origin_names i a ++ origin_names i b.
Proof. induction a as [|r a IH]; auto. destruct r; cbn; auto. destruct (n =? i); cbn; now rewrite IH. Qed.
Lemma file_names_none i a : Forall no_file a -> file_names i a = [].
Proof. induction 1 as [|r a N _ IH]; auto. destruct r; cbn in *; auto; easy. Qed.
Lemma origin_names_none i a : Forall no_origin a -> origin_names i a = [].
Proof. induction 1 as [|r a N _ IH]; auto. destruct r; cbn in *; auto; easy. Qed.
Definition opt_list {A} (x : option A) : list A := match x with Some a => [a] | None => [] end.
Lemma file_names_numbered i n l : file_names i (number_from RFile n l) = if i <? n then [] else opt_list (nthN l (i - n)).
Proof.
  revert n. induction l as [|s l IH]; intros n; cbn [number_from file_names].
  - destruct (i <? n); auto. unfold nthN. now destruct (N.to_nat (i - n)).
  - rewrite IH. destruct (n =? i) eqn:E.
    + assert (n = i) by lia. subst. assert (i <? i + 1 = true) as -> by lia. assert (i <? i = false) as -> by lia. now rewrite N.sub_diag.
    + destruct (i <? n) eqn:E1; [assert (i <? n + 1 = true) as -> by lia; auto|]. assert (i <? n + 1 = false) as -> by lia.
      unfold nthN. replace (N.to_nat (i - n)) with (S (N.to_nat (i - (n + 1)))) by lia. reflexivity.
Qed.
Lemma origin_names_numbered i n l : origin_names i (number_from (fun n s => ROrigin n (origin_text s)) n l) = if i <? n then [] else map origin_text (opt_list (nthN l (i - n))).
Proof.
  revert n. induction l as [|s l IH]; intros n; cbn [number_from origin_names].
  - destruct (i <? n); auto. unfold nthN. now destruct (N.to_nat (i - n)).
  - rewrite IH. destruct (n =? i) eqn:E.
    + assert (n = i) by lia. subst. assert (i <? i + 1 = true) as -> by lia. assert (i <? i = false) as -> by lia. now rewrite N.sub_diag.
    + destruct (i <? n) eqn:E1; [assert (i <? n + 1 = true) as -> by lia; auto|]. assert (i <? n + 1 = false) as -> by lia.
      unfold nthN. replace (N.to_nat (i - n)) with (S (N.to_nat (i - (n + 1)))) by lia. reflexivity.
Qed.
Lemma numbered_all {A B} (Q : B -> Prop) (f : N -> A -> B) n l : (forall i x, Q (f i x)) -> Forall Q (number_from f n l).
Proof. intros H. revert n. induction l; constructor; auto. Qed.
Lemma symbol_records_kind s rs : symbol_records s rs -> exists h t, rs = h :: t /\ no_file h /\ no_origin h /\ no_body h /\
  Forall no_func t /\ Forall no_file t /\ Forall no_origin t.
Proof.
  unfold symbol_records. destruct (sy_public s); [intros ->|intros (inl & _ & _ & ->)]; eexists _, _; (split; [reflexivity|]); splits; try exact I; try (constructor; fail);
    (apply Forall_app; split; apply Forall_forall; intros r Hr; apply in_map_iff in Hr as (x & <- & _); exact I).
Qed.
Lemma per_kind (syms : Symbols) per : Forall2 (fun kv r => symbol_records (snd kv) r) syms per -> Forall no_file (concat per) /\ Forall no_origin (concat per).
Proof.
  induction 1 as [|kv r syms per H _ (I1 & I2)]; cbn [concat]; [split; constructor|].
  destruct (symbol_records_kind _ _ H) as (h & t & -> & A & B & _ & _ & C & D). split; apply Forall_app; split; auto.
Qed.
Lemma body_app a b : (forall r, In r a -> ~ no_body r) -> body (a ++ b) = a ++ body b.
Proof.
  induction a as [|r a IH]; intros H; auto. pose proof (H r (or_introl eq_refl)) as N. assert (IH' := IH (fun x Hx => H x (or_intror Hx))).
  destruct r; cbn in N; try (now elim N); cbn [app body]; now rewrite IH'.
Qed.
Lemma body_stop (syms : Symbols) per tail : Forall2 (fun kv r => symbol_records (snd kv) r) syms per -> body tail = [] -> body (concat per ++ tail) = [].
Proof.
  intros F T. destruct F as [|kv r syms per H F]; auto. destruct (symbol_records_kind _ _ H) as (h & t & -> & A & B & C & _). cbn. destruct h; cbn in *; auto; easy.
Qed.
Lemma filed_all (m : Symbols) : filed m -> nsorted m /\ forall k s, In (k, s) m -> sy_rva s = k.
Proof. intros (S & F). split; auto. intros k s H. apply (F k s). apply nfind_In; auto. Qed.

(** The FUNC block of a record. *)
Lemma per_functions (syms : Symbols) per k s tail : Forall2 (fun kv r => symbol_records (snd kv) r) syms per -> nsorted syms -> (forall j v, In (j, v) syms -> sy_rva v = j) ->
  Forall no_func tail -> body tail = [] ->
  (nfind k syms = None -> functions_at k (concat per ++ tail) = []) /\
  (nfind k syms = Some s -> sy_public s = false -> exists inl, Permutation inl (ls_inlines (sy_source s)) /\
     functions_at k (concat per ++ tail) =
       [(RFunc (sy_multiple s) (sy_rva s) (sy_len s) (sy_param s) (sy_name s), map inline_record inl ++ map line_record (ls_lines (sy_source s)))]).
Proof.
  intros F S R NT BT.
  assert (T0 : functions_at k tail = []) by (rewrite <- (app_nil_r tail); now rewrite functions_skip).
  induction F as [|[j v] r syms per H F IH]; [split; [auto|discriminate]|].
  assert (S' : nsorted syms) by now inversion S. assert (R' : forall j v, In (j, v) syms -> sy_rva v = j) by (intros; apply R; now right).
  destruct (IH S' R') as (I1 & I2). cbn [snd] in H. cbn [concat]. rewrite <- app_assoc.
  assert (Rj : sy_rva v = j) by (apply R; now left).
  assert (Lt : forall i w, In (i, w) syms -> j < i).
  { intros i w Hi. inversion S as [|? ? _ Fa]; subst. pose proof (proj1 (Forall_forall _ _) Fa (i, w) Hi) as Q. apply N.ltb_lt. exact Q. }
  assert (Nk : j = k -> nfind k syms = None).
  { intros <-. destruct (nfind j syms) as [w|] eqn:E; auto. apply nfind_In in E; auto. apply Lt in E. lia. }
  assert (Find : nfind k ((j, v) :: syms) = if j =? k then Some v else nfind k syms).
  { destruct (j =? k) eqn:E.
    - apply nfind_In; auto. left. f_equal. lia.
    - destruct (nfind k syms) as [w|] eqn:E'.
      + apply nfind_In; auto. right. now apply nfind_In.
      + destruct (nfind k ((j, v) :: syms)) as [w|] eqn:E2; auto. apply nfind_In in E2; auto. destruct E2 as [[= -> ->]|E2]; [lia|].
        apply nfind_In in E2; auto. congruence. }
  rewrite Find. unfold symbol_records in H. destruct (sy_public v) eqn:Pv.
  - subst r. cbn [app functions_at]. destruct (j =? k) eqn:E; [|auto]. split; [discriminate|]. intros [= ->]. congruence.
  - destruct H as (inl & Pi & _ & ->). set (B := map inline_record inl ++ map line_record (ls_lines (sy_source v))).
    assert (NB : Forall no_func B) by (unfold B; apply Forall_app; split; apply Forall_forall; intros r Hr; apply in_map_iff in Hr as (x & <- & _); exact I).
    assert (EB : body (B ++ concat per ++ tail) = B).
    { rewrite body_app; [rewrite (body_stop _ _ _ F BT); apply app_nil_r|]. intros r Hr. unfold B in Hr. apply in_app_iff in Hr as [Hr|Hr]; apply in_map_iff in Hr as (x & <- & _); exact (fun z => z). }
    cbn [app functions_at]. rewrite EB, functions_skip by exact NB. rewrite Rj. destruct (j =? k) eqn:E; [|split; auto].
    split; [discriminate|]. intros [= ->] _. exists inl. split; auto. rewrite I1 by (apply Nk; lia). now rewrite Rj.
Qed.
Lemma object_reads extra ls o rs : object_records extra ls o rs -> filed (ob_syms o) ->
  (forall k s, nfind k (ob_syms o) = Some s -> sy_public s = false -> exists inl, Permutation inl (ls_inlines (sy_source s)) /\
     functions_at k rs = [(RFunc (sy_multiple s) k (sy_len s) (sy_param s) (sy_name s), map inline_record inl ++ map line_record (ls_lines (sy_source s)))]) /\
  (forall i, file_names i rs = opt_list (file_text o i)) /\
  (forall i, origin_names i rs = map origin_text (opt_list (nthN (ob_origins o) i))).
Proof.
  intros (per & F & ->) Fl. destruct (filed_all _ Fl) as (S & R). destruct (per_kind _ _ F) as (K1 & K2).
  assert (NT : Forall no_func (map RStack ls)) by (apply Forall_forall; intros r Hr; apply in_map_iff in Hr as (x & <- & _); exact I).
  assert (BT : body (map RStack ls) = []) by (now destruct ls).
  set (h := RModule _ _ _ _ :: _). assert (Eh : exists h1, h = h1 ++ number_from RFile 0 (sm_ids (ob_files o)) ++ number_from (fun n s => ROrigin n (origin_text s)) 0 (ob_origins o) ++ concat per ++ map RStack ls /\
    Forall no_func h1 /\ Forall no_file h1 /\ Forall no_origin h1).
  { exists (RModule (os_word (ob_platform o)) (ob_cpu o) (ob_debug_id o) (ob_name o) :: match ob_code_id o with Some c => [RInfo (code_text c (ob_pe_name o))] | None => [] end ++ map RInfo extra).
    split; [unfold h; cbn [app]; rewrite <- app_assoc; reflexivity|].
    assert (G : forall Q : Rec -> Prop, (forall a b c d, Q (RModule a b c d)) -> (forall t, Q (RInfo t)) ->
      Forall Q (RModule (os_word (ob_platform o)) (ob_cpu o) (ob_debug_id o) (ob_name o) :: match ob_code_id o with Some c => [RInfo (code_text c (ob_pe_name o))] | None => [] end ++ map RInfo extra)).
    { intros Q Q1 Q2. constructor; auto. apply Forall_app. split; [destruct (ob_code_id o); auto|]. apply Forall_forall; intros r Hr; apply in_map_iff in Hr as (x & <- & _); auto. }
    splits; apply G; intros; exact I. }
  destruct Eh as (h1 & -> & N1 & N2 & N3). splits.
  - intros k s Hk P. rewrite functions_skip by exact N1. rewrite functions_skip by (apply numbered_all; intros; exact I). rewrite functions_skip by (apply numbered_all; intros; exact I).
    destruct (per_functions _ _ k s _ F S R NT BT) as (_ & G). destruct (G Hk P) as (inl & A & B). exists inl. split; auto. rewrite B.
    now rewrite (proj1 (proj2 Fl k s Hk)).
  - intros i. rewrite !file_names_app, (file_names_none _ _ N2), file_names_numbered, (file_names_none i _ K1).
    rewrite (file_names_none i (number_from _ _ _)) by (apply numbered_all; intros; exact I).
    rewrite (file_names_none i (map RStack ls)) by (apply Forall_forall; intros r Hr; apply in_map_iff in Hr as (x & <- & _); exact I).
    cbn [app]. assert (i <? 0 = false) as -> by lia. rewrite N.sub_0_r. unfold file_text. now rewrite app_nil_r.
  - intros i. rewrite !origin_names_app, (origin_names_none _ _ N3), origin_names_numbered, (origin_names_none i _ K2).
    rewrite (origin_names_none i (number_from _ _ _)) by (apply numbered_all; intros; exact I).
    rewrite (origin_names_none i (map RStack ls)) by (apply Forall_forall; intros r Hr; apply in_map_iff in Hr as (x & <- & _); exact I).
    cbn [app]. assert (i <? 0 = false) as -> by lia. rewrite N.sub_0_r. now rewrite app_nil_r.
Qed.

(** *** Reading a block *)
Definition cov (a : N) (x : Site * list Range) : bool := existsb (in_range a) (snd x).
Definition site_frame (o : Obj) (x : Site) : option Frame :=
  match file_text o (s_file x), nthN (ob_origins o) (s_origin x) with Some p, Some n => Some (mkFrame (origin_text n) (s_line x) p) | _, _ => None end.
Definition fview (o : Obj) (x : Site) : N * option Frame := (s_depth x, site_frame o x).
Fixpoint vread (d : N) (n : nat) (vs : list (N * option Frame)) : option (list Frame) :=
  match n with
  | O => Some []
  | S n => match filter (fun v => fst v =? d) vs with
           | [v] => match snd v, vread (d + 1) n vs with Some f, Some l => Some (f :: l) | _, _ => None end
           | _ => None
           end
  end.
Lemma filter_map {A B} (f : A -> B) (p : B -> bool) l : filter p (map f l) = map f (filter (fun x => p (f x)) l).
Proof. induction l as [|x l IH]; cbn; auto. destruct (p (f x)); cbn; now rewrite IH. Qed.
Lemma existsb_map {A B} (f : A -> B) (p : B -> bool) l : existsb p (map f l) = existsb (fun x => p (f x)) l.
Proof. induction l as [|x l IH]; cbn; auto. now rewrite IH. Qed.
Lemma perm_filter {A} (p : A -> bool) l l' : Permutation l l' -> Permutation (filter p l) (filter p l').
Proof.
  induction 1; cbn; auto.
  - destruct (p x); auto.
  - destruct (p x), (p y); auto. constructor.
  - etransitivity; eauto.
Qed.
Lemma vread_perm d n l l' : Permutation l l' -> vread d n l = vread d n l'.
Proof.
  intros P. revert d. induction n as [|n IH]; intros d; auto. cbn [vread]. rewrite (IH (d + 1)).
  pose proof (perm_filter (fun v => fst v =? d) _ _ P) as Q. destruct (filter _ l) as [|x [|y t]].
  - apply Permutation_nil in Q. now rewrite Q.
  - apply Permutation_length_1_inv in Q. now rewrite Q.
  - pose proof (Permutation_length Q) as L. destruct (filter _ l') as [|x' [|y' t']]; cbn in L; auto; lia.
Qed.
Section Read.
  Variables (o : Obj) (rs : list Rec).
  Hypothesis FN : forall i, file_names i rs = opt_list (file_text o i).
  Hypothesis ON : forall i, origin_names i rs = map origin_text (opt_list (nthN (ob_origins o) i)).
  Lemma read_frame_view x : read_frame rs (inline_record x) = site_frame o (fst x).
  Proof.
    unfold read_frame, inline_record, site_frame. rewrite FN, ON.
    destruct (file_text o (s_file (fst x))), (nthN (ob_origins o) (s_origin (fst x))); reflexivity.
  Qed.
  Lemma read_stack_view d n xs : read_stack rs d n (map inline_record xs) = vread d n (map (fun x => fview o (fst x)) xs).
  Proof.
    revert d. induction n as [|n IH]; intros d; auto. cbn [read_stack vread]. rewrite !filter_map, IH.
    change (filter (fun x => has_depth d (inline_record x)) xs) with (filter (fun x : Site * list Range => s_depth (fst x) =? d) xs).
    change (filter (fun x => fst (fview o (fst x)) =? d) xs) with (filter (fun x : Site * list Range => s_depth (fst x) =? d) xs).
    destruct (filter _ xs) as [|x [|y t]]; auto. cbn [map]. rewrite read_frame_view. reflexivity.
  Qed.
  Lemma read_inlines_view k r inl lines : functions_at k rs = [(r, map inline_record inl ++ map line_record lines)] ->
    forall a, read_inlines rs k a = vread 0 (length (filter (cov a) inl)) (map (fun x => fview o (fst x)) (filter (cov a) inl)).
  Proof.
    intros E a. unfold read_inlines. rewrite E. cbv zeta. rewrite filter_app, !filter_map.
    assert (filter (fun x => inline_covers a (line_record x)) lines = []) as -> by (clear; induction lines; auto).
    cbn [map]. rewrite app_nil_r.
    assert (filter (fun x => inline_covers a (inline_record x)) inl = filter (cov a) inl) as ->.
    { apply filter_ext. intros x. unfold inline_covers, inline_record, cov. rewrite existsb_map. reflexivity. }
    rewrite read_stack_view, map_length. reflexivity.
  Qed.
End Read.
Definition vline (a : N) (ls : list (N * N * N * option str)) : option (option (N * str)) :=
  match filter (fun l => within a (fst (fst l))) ls with
  | [] => Some None
  | [(_, n, Some p)] => Some (Some (n, p))
  | _ => None
  end.
Lemma read_line_view o rs k r inl lines : (forall i, file_names i rs = opt_list (file_text o i)) ->
  functions_at k rs = [(r, map inline_record inl ++ map line_record lines)] -> forall a, read_line rs k a = vline a (map (says_line o) lines).
Proof.
  intros FN E a. unfold read_line, vline. rewrite E, filter_app, !filter_map.
  assert (filter (fun x => line_covers a (inline_record x)) inl = []) as -> by (clear; induction inl; auto). cbn [map app].
  change (filter (fun x => within a (fst (fst (says_line o x)))) lines) with (filter (fun x => line_covers a (line_record x)) lines).
  destruct (filter _ lines) as [|x [|y t]]; auto; cbn [map line_record].
  - rewrite FN. unfold says_line. now destruct (file_text o (l_file x)).
  - unfold says_line. now destruct (file_text o (l_file x)).
Qed.

(** Two records that say the same are read the same. *)
Definition inline_view (v : N * N * option str * option str * list Range) : N * option Frame :=
  let '(d, l, f, n, _) := v in (d, match f, n with Some p, Some n => Some (mkFrame (origin_text n) l p) | _, _ => None end).
Lemma reads_same ex ex' ls ls' o m rs rs' k s s' : object_records ex ls o rs -> object_records ex' ls' m rs' -> filed (ob_syms o) -> filed (ob_syms m) ->
  nfind k (ob_syms o) = Some s -> nfind k (ob_syms m) = Some s' -> sy_public s = false -> sy_public s' = false -> sy_name s' = sy_name s -> same_source o s m s' ->
  read_name rs' k = read_name rs k /\ forall a, read_inlines rs' k a = read_inlines rs k a /\ read_line rs' k a = read_line rs k a.
Proof.
  intros R R' F F' Hk Hk' P P' En (L & I). destruct (object_reads _ _ _ _ R F) as (A1 & A2 & A3). destruct (object_reads _ _ _ _ R' F') as (B1 & B2 & B3).
  destruct (A1 k s Hk P) as (inl & Pi & E). destruct (B1 k s' Hk' P') as (inl' & Pi' & E'). split; [|intros a; split].
  - unfold read_name. now rewrite E, E', En.
  - rewrite (read_inlines_view o rs A2 A3 _ _ _ _ E), (read_inlines_view m rs' B2 B3 _ _ _ _ E').
    assert (Q : Permutation (map (says_inline m) (filter (cov a) inl')) (map (says_inline o) (filter (cov a) inl))).
    { assert (X : forall w z, map (says_inline w) (filter (cov a) z) = filter (fun v => existsb (in_range a) (snd v)) (map (says_inline w) z)) by (intros; now rewrite filter_map).
      rewrite !X. apply perm_filter. rewrite Pi, Pi'. now symmetry. }
    assert (Y : forall w z, map (fun x : Site * list Range => fview w (fst x)) z = map inline_view (map (says_inline w) z)) by (intros; rewrite map_map; reflexivity).
    rewrite !Y. rewrite (vread_perm _ _ _ _ (Permutation_map inline_view Q)). f_equal. apply Permutation_length in Q. now rewrite !map_length in Q.
  - rewrite (read_line_view o rs _ _ _ _ A2 E), (read_line_view m rs' _ _ _ _ B2 E'). now rewrite L.
Qed.

(** *** The inline stack *)
Lemma cov_count x xs : NoDup (map fst xs) -> In x xs -> forall ls, ls_inlines ls = xs -> ranges_of (fst x) ls = snd x.
Proof.
  intros N Hx ls <-. unfold ranges_of. induction (ls_inlines ls) as [|y t IH]; [easy|]. cbn [map] in N. inversion N as [|? ? Hy Nt]; subst. cbn [flat_map].
  destruct Hx as [->|Hx].
  - assert (sp_site_eqb (fst x) (fst x) = true) as -> by now apply sp_site_eqb_spec.
    assert (E : forall z, In z t -> sp_site_eqb (fst z) (fst x) = false).
    { intros z Hz. destruct (sp_site_eqb (fst z) (fst x)) eqn:Q; auto. apply sp_site_eqb_spec in Q. elim Hy. rewrite <- Q. now apply in_map. }
    assert (flat_map (fun kv : Site * list Range => if sp_site_eqb (fst kv) (fst x) then snd kv else []) t = []) as ->; [|apply app_nil_r].
    clear - E. induction t as [|z t IH]; auto. cbn [flat_map]. rewrite (E z (or_introl eq_refl)), IH; auto. intros w Hw. apply E. now right.
  - assert (sp_site_eqb (fst y) (fst x) = false) as ->; [|cbn [app]; auto].
    destruct (sp_site_eqb (fst y) (fst x)) eqn:Q; auto. apply sp_site_eqb_spec in Q. elim Hy. rewrite Q. now apply in_map.
Qed.
Lemma cov_positive a x : cov a x = true <-> (0 < cover_count a (snd x))%nat.
Proof.
  unfold cov, cover_count. induction (snd x) as [|r l IH]; cbn; [split; [easy|lia]|]. destruct (in_range a r); cbn; [split; auto; lia|exact IH].
Qed.
Lemma ranges_of_none x ls : ~ In x (map fst (ls_inlines ls)) -> ranges_of x ls = [].
Proof.
  unfold ranges_of. induction (ls_inlines ls) as [|y t IH]; auto. intros H. cbn [map In] in H. cbn [flat_map].
  destruct (sp_site_eqb (fst y) x) eqn:E; [apply sp_site_eqb_spec in E; subst; tauto|]. cbn [app]. apply IH. tauto.
Qed.
Lemma sites_depth e s og d st ss : sites_are e s og d st ss -> forall x, In x ss -> d <= s_depth x.
Proof.
  revert d ss. induction st as [|fr st IH]; intros d [|y ss]; cbn; try easy. intros ((D & _) & H) x [<-|Hx]; [lia|]. apply (IH _ _ H) in Hx. lia.
Qed.
Lemma sites_nodup e s og d st ss : sites_are e s og d st ss -> NoDup ss.
Proof.
  revert d ss. induction st as [|fr st IH]; intros d [|y ss]; cbn; try easy; [constructor|]. intros ((D & _) & H). constructor; [|eauto].
  intros Hy. apply (sites_depth _ _ _ _ _ _ H) in Hy. lia.
Qed.
Lemma sites_length e s og d st ss : sites_are e s og d st ss -> length ss = length st.
Proof. revert d ss. induction st as [|fr st IH]; intros d [|y ss]; cbn; try easy. intros (_ & H). f_equal. eauto. Qed.
Lemma vread_sites e s og o d st ss pre : sites_are e s og d st ss -> (forall x, In x pre -> s_depth x < d) ->
  (forall i, file_text o i = nthN (sf_ids s) i) -> (forall i, nthN (ob_origins o) i = nthN (og_names og) i) ->
  vread d (length st) (map (fview o) (pre ++ ss)) = Some (map (frame_text (ce_src e) (ce_dm e)) st).
Proof.
  intros H Hp EF EO. revert d ss pre H Hp. induction st as [|fr st IH]; intros d [|x ss] pre H Hp; cbn in H; try easy.
  destruct H as ((D1 & D2 & D3 & D4) & H). cbn [length vread map].
  assert (E : filter (fun v => fst v =? d) (map (fview o) (pre ++ x :: ss)) = [fview o x]).
  { rewrite filter_map, filter_app. cbn [filter fview fst]. assert (s_depth x =? d = true) as -> by lia.
    assert (G : forall l, (forall y, In y l -> s_depth y <> d) -> filter (fun y : Site => s_depth y =? d) l = []).
    { induction l as [|y l IHl]; intros Hl; auto. cbn [filter]. assert (s_depth y =? d = false) as -> by (specialize (Hl y (or_introl eq_refl)); lia). apply IHl. intros z Hz. apply Hl. now right. }
    rewrite (G pre), (G ss); [reflexivity| |].
    - intros y Hy. apply (sites_depth _ _ _ _ _ _ H) in Hy. lia.
    - intros y Hy. apply Hp in Hy. lia. }
  rewrite E. cbn [fview snd]. unfold site_frame. rewrite EF, EO. unfold file_is in D3. unfold origin_is in D4. rewrite D3, D4.
  replace (pre ++ x :: ss) with ((pre ++ [x]) ++ ss) by (rewrite <- app_assoc; reflexivity).
  rewrite (IH (d + 1) ss (pre ++ [x]) H); [unfold frame_text; now rewrite D2|].
  intros y Hy. apply in_app_iff in Hy as [Hy|[<-|[]]]; [apply Hp in Hy; lia|lia].
Qed.

Lemma stack_read e s og o a st ls inl : NoDup (map fst (ls_inlines ls)) -> Permutation inl (ls_inlines ls) ->
  (forall i, file_text o i = nthN (sf_ids s) i) -> (forall i, nthN (ob_origins o) i = nthN (og_names og) i) ->
  (exists ss, sites_are e s og 0 st ss /\ forall site, cover_count a (ranges_of site ls) = count_occ site_dec ss site) ->
  vread 0 (length (filter (cov a) inl)) (map (fun x => fview o (fst x)) (filter (cov a) inl)) = Some (map (frame_text (ce_src e) (ce_dm e)) st).
Proof.
  intros N P EF EO (ss & H & C). pose proof (perm_filter (cov a) _ _ P) as Q. rewrite (Permutation_length Q).
  rewrite (vread_perm _ _ _ _ (Permutation_map (fun x => fview o (fst x)) Q)). clear inl P Q.
  assert (Pm : Permutation (map fst (filter (cov a) (ls_inlines ls))) ss).
  { apply NoDup_Permutation.
    - clear - N. induction (ls_inlines ls) as [|x t IH]; [constructor|]. cbn [map] in N. inversion N as [|? ? Hx Nt]; subst. cbn [filter]. destruct (cov a x); auto. cbn [map]. constructor; auto.
      intros Hi. apply Hx. apply in_map_iff in Hi as (y & <- & Hy). apply filter_In in Hy as (Hy & _). now apply in_map.
    - exact (sites_nodup _ _ _ _ _ _ H).
    - intros x. rewrite (count_occ_In site_dec ss). rewrite <- C. split.
      + intros Hi. apply in_map_iff in Hi as (y & <- & Hy). apply filter_In in Hy as (Hy & Cy). rewrite (cov_count y _ N Hy ls eq_refl). now apply cov_positive in Cy.
      + intros L. destruct (in_dec site_dec x (map fst (ls_inlines ls))) as [I|I]; [|rewrite (ranges_of_none _ _ I) in L; cbn in L; lia].
        apply in_map_iff in I as (y & <- & Hy). rewrite (cov_count y _ N Hy ls eq_refl) in L. apply in_map. apply filter_In. split; auto. now apply cov_positive. }
  rewrite <- (map_map fst (fview o)), (vread_perm _ _ _ _ (Permutation_map (fview o) Pm)).
  rewrite <- (map_length fst), (Permutation_length Pm), (sites_length _ _ _ _ _ _ H). apply (vread_sites e s og o 0 st ss []); auto. easy.
Qed.

(** *** From the debug info to the reader *)
Lemma from_source e pl main mn pe pn o fs : from_object e pl main mn pe pn = Ok o -> pa_functions main = Some fs ->
  exists m0 s og, collected (run_cenv e pl main) fs m0 s og /\ (forall i, file_text o i = nthN (sf_ids s) i) /\ (forall i, nthN (ob_origins o) i = nthN (og_names og) i) /\
    forall k s0, nfind k m0 = Some s0 -> exists s1, nfind k (ob_syms o) = Some s1 /\ sy_public s1 = sy_public s0 /\ sy_source s1 = sy_source s0 /\
      (pl <> Win -> sy_name s1 = sy_name s0).
Proof.
  intros H Ef. destruct (from_object_inv _ _ _ _ _ _ _ H) as (fs' & m0 & s & og & m1 & mini & m2 & m3 & F & H0 & H1 & Hm & H2 & H3 & E1 & E2 & E3).
  assert (fs' = fs) by congruence. subst fs'. exists m0, s, og. split; [exact H0|]. split; [intros i; unfold file_text; now rewrite E2|]. split; [intros i; now rewrite E3|].
  intros k s0 Hk. destruct (funcs_record _ _ _ _ _ H0) as ((S0 & _) & _). destruct (placeholders_opt _ _ _ _ _ S0 H1) as (S1 & K1 & N1).
  destruct (publics_kept _ _ _ _ _ _ _ _ S1 H2 (K1 k s0 Hk)) as (s2 & Ek & K).
  assert (S2 : nsorted m2).
  { assert (FF : forall a, nsorted a -> forall p b, collect_public (re_ck e) pl (re_dm e) a p = Ok b -> nsorted b)
      by (intros a Sa p b Hb; apply collect_public_step in Hb; eapply pub_step_sorted; eauto).
    apply (foldM_inv nsorted) with (3 := H2); auto. intros a p b _ Sa Hb. exact (FF a Sa p b Hb). }
  pose proof (sections_synthetic _ _ _ _ _ S2 H3 k) as Y. rewrite Ek in Y. exists s2. rewrite E1, Y. split; [reflexivity|].
  destruct K as ((B1 & B2 & B3 & B4 & B5) & _ & _ & Kn & _). split; [now symmetry|]. split; [now symmetry|]. intros P. apply Kn in P. tauto.
Qed.

Lemma pflat_no_calls fid ls prev : inline_calls (pflat fid ls prev) = [].
Proof. revert prev. induction ls as [|l ls IH]; intros prev; auto. cbn [pflat]. destruct (d_line l =? 0); auto. destruct (option_eqb _ _ _); cbn; auto. Qed.
Lemma flat_no_inlines e fs m s o k f rest sym : ce_inl e = false -> sorts_ranges (ce_sort e) -> consistent (flat_map fun_refs (readable fs)) ->
  collected e fs m s o -> funcs_at k (readable fs) = f :: rest -> nfind k m = Some sym -> ls_inlines (sy_source sym) = [].
Proof.
  intros Ei US C H Hf Hk. destruct (collected_table e fs m s o k f rest sym US C H Hf Hk) as (kp & P & ns & I & J & (evs & Hfin & _ & Hev)).
  unfold pevents in Hev. rewrite Ei in Hev.
  specialize (Hev (fidx (ce_src e) P f) (oidx ns) (fidx_agree _ _ _ (si_nodup _ _ _ _ I)) (oidx_agree _ (oi_nodup _ _ _ J))). inversion Hev as [Ev].
  destruct (ls_inlines (sy_source sym)) as [|[x rg] t] eqn:E; auto. destruct (table_site_from _ _ _ _ _ x rg Hfin) as (r & Hr); [rewrite E; now left|].
  rewrite <- Ev, pflat_no_calls in Hr. easy.
Qed.

Section Whole.
  Variables (e : RunEnv) (pl : Platform) (main : Parsed) (mn : str) (pe : option Parsed) (pn : option str) (o : Obj) (fs : list (option Fun)).
  Variables (extra ls : list str) (rs : list Rec) (k : N) (f : Fun) (rest : list Fun).
  Hypotheses (Fs : pa_functions main = Some fs) (US : sorts_ranges (re_sort e)) (C : consistent (flat_map fun_refs (readable fs))) (X : exceptions_u32 main).
  Hypotheses (H : from_object e pl main mn pe pn = Ok o) (W : writable ls o) (Ex : Forall one_line extra) (R : written extra o rs).
  Hypothesis Hf : funcs_at k (readable fs) = f :: rest.
  Lemma whole_records : object_records extra ls o rs.
  Proof.
    destruct W as (A & B & D & E & G). destruct (written_parses extra o ls B A D E Ex G) as (t & rs' & T & P & Q).
    destruct R as (t' & T' & P'). congruence.
  Qed.
  Lemma whole_ok : obj_ok (run_shown e) o.
  Proof.
    apply (from_obj_ok e pl main mn pe pn o); auto; [now apply sorts_perm|]. intros fs' E. assert (fs' = fs) by congruence. now subst.
  Qed.
  Lemma whole_block : exists m0 s og s0 s1 r inl, collected (run_cenv e pl main) fs m0 s og /\ nfind k m0 = Some s0 /\ nfind k (ob_syms o) = Some s1 /\
    from_fun (run_cenv e pl main) f (more rest) s0 /\ sy_source s1 = sy_source s0 /\
    NoDup (map fst (ls_inlines (sy_source s0))) /\ Permutation inl (ls_inlines (sy_source s0)) /\
    functions_at k rs = [(r, map inline_record inl ++ map line_record (ls_lines (sy_source s0)))] /\
    (pl <> Win -> read_name rs k = Some (demangle (re_dm e) (f_name f))) /\
    (forall i, file_text o i = nthN (sf_ids s) i) /\ (forall i, nthN (ob_origins o) i = nthN (og_names og) i) /\
    (forall i, file_names i rs = opt_list (file_text o i)) /\ (forall i, origin_names i rs = map origin_text (opt_list (nthN (ob_origins o) i))).
  Proof.
    destruct (from_source _ _ _ _ _ _ _ _ H Fs) as (m0 & s & og & Co & EF & EO & K). destruct (funcs_record _ _ _ _ _ Co) as (_ & FR).
    specialize (FR k). rewrite Hf in FR. destruct FR as (s0 & Hk0 & Ff). destruct (K k s0 Hk0) as (s1 & Hk1 & P & Es & Nm).
    destruct whole_ok as (Fi & Re & _). destruct (object_reads _ _ _ _ whole_records Fi) as (A1 & A2 & A3).
    assert (P0 : sy_public s0 = false) by apply Ff. destruct (A1 k s1 Hk1) as (inl & Pi & E); [congruence|].
    destruct (Re k s1 Hk1) as (_ & _ & Bs); [congruence|].
    exists m0, s, og, s0, s1. eexists. exists inl. rewrite Es in *. splits; eauto.
    - apply (bsorted_NoDup site_lt site_lt_irrefl). exact Bs.
    - intros Pw. unfold read_name. rewrite E. f_equal. rewrite (Nm Pw). apply Ff.
  Qed.
  Lemma whole_stack : re_inl e = true -> well_formed f ->
    (forall a st lf, frames f a st lf -> read_inlines rs k a = Some (map (frame_text (ce_src (run_cenv e pl main)) (re_dm e)) st)) /\
    (forall a, ~ covers f a -> read_inlines rs k a = Some []).
  Proof.
    intros Ei Wf. destruct whole_block as (m0 & s & og & s0 & s1 & r & inl & Co & K0 & K1 & Ff & Es & Nd & Pi & E & _ & EF & EO & A2 & A3).
    destruct (c14_inlines (run_cenv e pl main) fs m0 s og k f rest s0 Ei US C Co Hf K0 Wf) as (G1 & G2). split.
    - intros a st lf Hfr. rewrite (read_inlines_view o rs A2 A3 _ _ _ _ E). exact (stack_read (run_cenv e pl main) s og o a st (sy_source s0) inl Nd Pi EF EO (G1 a st lf Hfr)).
    - intros a Hn. rewrite (read_inlines_view o rs A2 A3 _ _ _ _ E).
      apply (stack_read (run_cenv e pl main) s og o a [] (sy_source s0) inl Nd Pi EF EO). exists []. split; [exact I|]. intros site. rewrite (G2 a Hn). reflexivity.
  Qed.
  Lemma vline_one a ls0 l i : filter (in_line a) ls0 = [l] -> file_text o (l_file l) = Some i -> vline a (map (says_line o) ls0) = Some (Some (l_num l, i)).
  Proof.
    intros Fl Ft. unfold vline. rewrite filter_map. change (filter (fun x => within a (fst (fst (says_line o x)))) ls0) with (filter (in_line a) ls0). rewrite Fl. cbn [map]. unfold says_line. now rewrite Ft.
  Qed.
  Lemma whole_line : re_inl e = true -> well_formed f -> no_gaps_inside (ce_src (run_cenv e pl main)) f -> f_addr f + f_size f < two32 ->
    forall a st lf, frames f a st lf -> a < f_addr f + f_size f -> read_line rs k a = Some (Some (line_text (ce_src (run_cenv e pl main)) lf)).
  Proof.
    intros Ei Wf Ng Sz a st lf Hfr La. destruct whole_block as (m0 & s & og & s0 & s1 & r & inl & Co & K0 & K1 & Ff & Es & Nd & Pi & E & _ & EF & EO & A2 & A3).
    destruct (c14_line (run_cenv e pl main) fs m0 s og k f rest s0 Ei US C Co Hf K0 Wf Ng Sz a st lf Hfr La) as (l & Fl & En & Fi).
    rewrite (read_line_view o rs _ _ _ _ A2 E). unfold line_text. rewrite <- En. apply vline_one; auto. rewrite EF. exact Fi.
  Qed.
  Lemma whole_exact : re_inl e = true -> well_formed f -> f_addr f + f_size f < two32 ->
    (forall a b lf, starts (same_info (ce_src (run_cenv e pl main))) f b lf -> b <= a -> (forall x y, b < x <= a -> ~ starts (same_info (ce_src (run_cenv e pl main))) f x y) ->
      a < f_addr f + f_size f -> read_line rs k a = Some (Some (line_text (ce_src (run_cenv e pl main)) lf))) /\
    (forall a, (forall x y, x <= a -> ~ starts (same_info (ce_src (run_cenv e pl main))) f x y) -> read_line rs k a = Some None).
  Proof.
    intros Ei Wf Sz. destruct whole_block as (m0 & s & og & s0 & s1 & r & inl & Co & K0 & K1 & Ff & Es & Nd & Pi & E & _ & EF & EO & A2 & A3).
    destruct (c14_exact (run_cenv e pl main) fs m0 s og k f rest s0 Ei US C Co Hf K0 Wf Sz) as (G1 & G2 & _). split.
    - intros a b lf Hb Hle Hn La. destruct (G1 a b lf Hb Hle Hn La) as (l & Fl & En & Fi).
      rewrite (read_line_view o rs _ _ _ _ A2 E). unfold line_text. rewrite <- En. apply vline_one; auto. rewrite EF. exact Fi.
    - intros a Hn. specialize (G2 a Hn). rewrite (read_line_view o rs _ _ _ _ A2 E). unfold vline. rewrite filter_map.
      change (filter (fun x => within a (fst (fst (says_line o x)))) (ls_lines (sy_source s0))) with (filter (in_line a) (ls_lines (sy_source s0))). now rewrite G2.
  Qed.
  Lemma whole_gap : re_inl e = true -> well_formed f -> f_addr f + f_size f < two32 ->
    forall a st lf, frames f a st lf -> a < f_addr f + f_size f ->
    read_line rs k a = Some (Some (line_text (ce_src (run_cenv e pl main)) lf)) \/
    (exists h pre x y post, below f h /\ f_lines h = pre ++ x :: y :: post /\ same_info (ce_src (run_cenv e pl main)) x y /\ dl_end x < d_addr y /\ d_addr y <= a /\
      same_info (ce_src (run_cenv e pl main)) y lf).
  Proof.
    intros Ei Wf Sz a st lf Hfr La. destruct whole_block as (m0 & s & og & s0 & s1 & r & inl & Co & K0 & K1 & Ff & Es & Nd & Pi & E & _ & EF & EO & A2 & A3).
    destruct (c14_gap (run_cenv e pl main) fs m0 s og k f rest s0 Ei US C Co Hf K0 Wf Sz a st lf Hfr La) as [(l & Fl & En & Fi)|G]; [left|right; exact G].
    rewrite (read_line_view o rs _ _ _ _ A2 E). unfold line_text. rewrite <- En. apply vline_one; auto. rewrite EF. exact Fi.
  Qed.
  Lemma whole_self_line : re_inl e = true -> well_formed f -> f_addr f + f_size f < two32 ->
    forall a lf, In lf (f_lines f) -> in_dl a lf -> (forall g, In g (f_inl f) -> ~ covers g a) -> a < f_addr f + f_size f ->
    read_line rs k a = Some (Some (line_text (ce_src (run_cenv e pl main)) lf)).
  Proof.
    intros Ei Wf Sz a lf Hl Ha Hn La. destruct whole_block as (m0 & s & og & s0 & s1 & r & inl & Co & K0 & K1 & Ff & Es & Nd & Pi & E & _ & EF & EO & A2 & A3).
    destruct (c15_line (run_cenv e pl main) fs m0 s og k f rest s0 Ei US C Co Hf K0 Wf Sz a lf Hl Ha Hn La) as (l & Fl & En & Fi).
    rewrite (read_line_view o rs _ _ _ _ A2 E). unfold line_text. rewrite <- En. apply vline_one; auto. rewrite EF. exact Fi.
  Qed.
  Lemma whole_flat : re_inl e = false -> StronglySorted (fun a b => d_addr a <= d_addr b) (f_lines f) -> Forall (fun l => d_addr l < two32) (f_lines f) ->
    f_addr f + f_size f < two32 -> forall a, a < f_addr f + f_size f ->
    read_line rs k a = Some (option_map (line_text (ce_src (run_cenv e pl main))) (flat_line a (f_lines f))).
  Proof.
    intros Ei So Lt Sz a La. destruct whole_block as (m0 & s & og & s0 & s1 & r & inl & Co & K0 & K1 & Ff & Es & Nd & Pi & E & _ & EF & EO & A2 & A3).
    pose proof (c16_lookup (run_cenv e pl main) fs m0 s og k f rest s0 Ei US C Co Hf K0 So Lt Sz a La) as G.
    rewrite (read_line_view o rs _ _ _ _ A2 E). destruct (flat_line a (f_lines f)) as [lf|]; cbn [option_map].
    - destruct G as (l & Fl & En & Fi). unfold line_text. rewrite <- En. apply vline_one; auto. rewrite EF. exact Fi.
    - unfold vline. rewrite filter_map. change (filter (fun x => within a (fst (fst (says_line o x)))) (ls_lines (sy_source s0))) with (filter (in_line a) (ls_lines (sy_source s0))). now rewrite G.
  Qed.
  Lemma whole_flat_inlines : re_inl e = false -> forall a, read_inlines rs k a = Some [].
  Proof.
    intros Ei a. destruct whole_block as (m0 & s & og & s0 & s1 & r & inl & Co & K0 & K1 & Ff & Es & Nd & Pi & E & _ & EF & EO & A2 & A3).
    rewrite (flat_no_inlines (run_cenv e pl main) fs m0 s og k f rest s0 Ei US C Co Hf K0) in Pi. symmetry in Pi. apply Permutation_nil in Pi. subst inl.
    rewrite (read_inlines_view o rs A2 A3 _ _ _ _ E). reflexivity.
  Qed.
  Lemma whole_name : pl <> Win -> read_name rs k = Some (demangle (re_dm e) (f_name f)).
  Proof. destruct whole_block as (m0 & s & og & s0 & s1 & r & inl & Co & K0 & K1 & Ff & Es & Nd & Pi & E & Nm & _). exact Nm. Qed.
  Lemma whole_win : pl = Win -> Forall (fun g => f_addr g = 0 \/ clear_of k (f_addr g mod two32) (f_size g mod two32)) (readable fs) ->
    (forall xs b x, pa_exceptions main = Some xs -> In (Some (b, x)) xs -> clear_of k b (x - b)) ->
    all_publics (fun p => clear_of k (pb_addr p mod two32) (pb_size p mod two32)) main ->
    exists mini nm a mu len b, (mini = [] \/ embedded main mini) /\ functions_at k rs = [(RFunc mu k len a nm, b)] /\
      win_named (re_dm e) (demangle (re_dm e) (f_name f)) 0 (pubs_at k (pa_publics main ++ mini)) nm a.
  Proof.
    intros Ew AF AX (AP & AM). assert (H' := H). destruct (from_object_inv _ _ _ _ _ _ _ H') as (fs' & m0 & s & og & m1 & mini & m2 & m3 & F & H0 & H1 & Hm & H2 & H3 & E1 & E2 & E3).
    assert (fs' = fs) by congruence. subst fs'. destruct (funcs_record _ _ _ _ _ H0) as (F0 & FR).
    assert (FRk := FR k). rewrite Hf in FRk. destruct FRk as (s0 & Hk0 & Ff). destruct (placeholders_opt _ _ _ _ _ (proj1 F0) H1) as (S1 & K1 & N1).
    assert (F1 : filed m1).
    { destruct (pa_exceptions main) as [xs|] eqn:EX; [|inversion H1; subst; exact F0].
      apply (filed_placeholders _ _ _ _ _ F0) with (2 := H1). intros b x Hb. exact (proj1 (X xs b x EX Hb)). }
    assert (A1 : forall j w, nfind j m1 = Some w -> clear_of k j (sy_len w) /\ sy_len w < two32).
    { intros j w Hj. destruct (nfind j m0) as [w0|] eqn:Ej.
      - assert (w0 = w) by (pose proof (K1 j w0 Ej); congruence). subst w0. specialize (FR j). destruct (funcs_at j (readable fs)) as [|g gs] eqn:Eg; [congruence|].
        destruct FR as (w' & Hw' & Fg). assert (w' = w) by congruence. subst w'. destruct Fg as (_ & _ & _ & _ & Er & El & _). rewrite El.
        assert (Ig : In g (funcs_at j (readable fs))) by (rewrite Eg; now left). unfold funcs_at in Ig. apply filter_In in Ig as (Ig & Eq). apply andb_true_iff in Eq as (Nz & Eq). apply N.eqb_eq in Eq.
        rewrite <- Eq. split; [destruct (proj1 (Forall_forall _ _) AF g Ig) as [Z|Z]; [rewrite Z in Nz; discriminate|exact Z]|apply N.mod_lt; discriminate].
      - destruct (N1 j w Ej Hj) as (xs & x & EX & Ix & Le & (_ & _ & _ & _ & _ & El & _)). rewrite El. split; [exact (AX xs j x EX Ix)|]. destruct (X xs j x EX Ix). lia. }
    assert (EM : mini = [] \/ embedded main mini).
    { clear - Hm. revert Hm. generalize (pa_size main) as sz. induction (pa_secs main) as [|[[n a] l] t IH]; cbn [minidebug]; intros sz Hm.
      - left. congruence.
      - destruct (match n with Some n0 => str_eqb n0 (lit ".gnu_debugdata") | None => false end); [|eauto].
        apply bind_ok in Hm as (x & _ & Hm). destruct ((a <=? x) && (x <=? sz)); [|discriminate].
        destruct (pa_unxz main a x) as [[pubs|]|] eqn:EU; inversion Hm; subst; auto. right. exists a, x; auto. }
    assert (AA : Forall (fun p => clear_of k (pb_addr p mod two32) (pb_size p mod two32)) (pa_publics main ++ mini)).
    { apply Forall_app. split; [exact AP|]. destruct EM as [->|EM]; [constructor|exact (AM mini EM)]. }
    assert (P0 : sy_public s0 = false) by apply Ff. rewrite Ew in H2.
    destruct (win_names _ _ k _ m1 m2 s0 F1 A1 AA (K1 k s0 Hk0) P0 H2) as (s2 & Hk2 & Wn).
    assert (F2 : filed m2) by exact (filed_publics _ _ _ _ _ _ F1 H2).
    pose proof (sections_synthetic _ _ _ _ _ (proj1 F2) H3 k) as Y. rewrite Hk2 in Y. rewrite <- E1 in Y.
    destruct (publics_kept _ _ _ _ _ _ _ _ S1 H2 (K1 k s0 Hk0)) as (s2' & Ek & ((B1 & _) & _)). assert (s2' = s2) by congruence. subst s2'.
    destruct whole_ok as (Fi & _). destruct (object_reads _ _ _ _ whole_records Fi) as (R1 & _). destruct (R1 k s2 Y) as (inl & _ & E); [congruence|].
    exists mini, (sy_name s2), (sy_param s2). do 3 eexists. split; [exact EM|]. split; [exact E|].
    assert (En : sy_name s0 = demangle (re_dm e) (f_name f)) by apply Ff. assert (Ep : sy_param s0 = 0) by apply Ff. rewrite <- En, <- Ep. exact Wn.
  Qed.
End Whole.
