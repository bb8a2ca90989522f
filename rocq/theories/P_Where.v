(** Lemmas on where source files are looked for. *)
From Verif Require Import Base BMap Str Utf8 M_Names M_Path M_Source M_Symbol M_Collector M_Object S_Path S_Collector S_Object S_Where P_Path P_Collector.

Lemma located_path canon pl r : located pl r (get_path canon pl false (fr_cdir r) (fr_dir r) (fr_name r)).
Proof.
  unfold get_path. destruct (is_absolute_path pl (fr_dir r)) eqn:A; cbn [negb andb].
  - apply is_absolute_spec in A. destruct A as [A|[-> D]]; [now apply lo_absolute|]. rewrite D. now apply lo_windows.
  - assert (N : ~ (sp_abs pl (fr_dir r) \/ (pl = Win /\ fr_dir r = []))) by (intros H; apply is_absolute_spec in H; congruence).
    destruct (fr_cdir r) eqn:C; cbn [negb]; [now apply lo_alone|]. rewrite <- C. destruct (fr_dir r) eqn:D.
    + apply lo_unix; [intros ->; tauto|congruence|exact D].
    + rewrite <- D. apply lo_below; [|congruence|congruence]. rewrite D. tauto.
Qed.
Lemma located_is canon pl r p : located pl r p -> p = get_path canon pl false (fr_cdir r) (fr_dir r) (fr_name r).
Proof.
  intros H. unfold get_path. assert (T := is_absolute_spec pl (fr_dir r)). destruct H as [A|A|A B C|A B C|A B].
  - now rewrite (proj2 T (or_introl A)).
  - rewrite A. now rewrite andb_false_r.
  - destruct (is_absolute_path pl (fr_dir r)); [exfalso; destruct (proj1 T eq_refl) as [?|[? ?]]; contradiction|]. destruct (fr_cdir r); [contradiction|reflexivity].
  - rewrite C in *. destruct (is_absolute_path pl []).
    + exfalso. destruct (proj1 T eq_refl) as [[(c & t & [=] & _)|(? & _)]|[? ?]]; contradiction.
    + destruct (fr_cdir r); [contradiction|reflexivity].
  - rewrite (proj2 T (or_intror (conj A B))). now rewrite B.
Qed.
Lemma located_unique pl r p q : located pl r p -> located pl r q -> p = q.
Proof. intros H K. rewrite (located_is (fun _ => None) pl r p H). symmetry. now apply located_is. Qed.

(** *** Only the paths of an object matter *)
Section Ext.
  Context (e e' : CEnv) (R : FileRef -> Prop).
  Hypothesis (Hck : ce_ck e' = ce_ck e) (Hdm : ce_dm e' = ce_dm e) (Hinl : ce_inl e' = ce_inl e) (Hsort : ce_sort e' = ce_sort e).
  Hypothesis Hp : forall r, R r -> env_path (ce_src e') r = env_path (ce_src e) r /\ se_map (ce_src e') (env_path (ce_src e) r) = se_map (ce_src e) (env_path (ce_src e) r).
  Lemma get_id_ext r s : R r -> src_get_id (ce_src e') r s = src_get_id (ce_src e) r s.
  Proof using Hp. intros H. destruct (Hp r H) as [A B]. unfold src_get_id. rewrite A. cbv zeta. now rewrite B. Qed.
  Lemma walk_ext depth ls : forall skip inl prev s, (forall l, In l ls -> R (d_file l)) -> walk_lines e' depth ls skip inl prev s = walk_lines e depth ls skip inl prev s.
  Proof using Hp Hck.
    induction ls as [|l t IH]; intros skip inl prev s H; [reflexivity|]. cbn [walk_lines]. rewrite Hck.
    assert (Ht : forall l, In l t -> R (d_file l)) by (intros; apply H; now right).
    destruct (match skip with Some c => d_addr l <? c | None => false end); [now apply IH|].
    destruct (line_end (ce_ck e) l) as [lend|m|m]; cbn [bind]; trivial.
    unfold src_lookup. rewrite get_id_ext by (apply H; now left). destruct (src_get_id (ce_src e) (d_file l) s) as [fake s1].
    destruct (src_get_true_id fake s1) as [fs|m|m]; cbn [bind]; trivial.
    destruct (line_loop _ _ _ _ _ _ _ _) as [[[[c i] p] o]|m|m]; cbn [bind]; trivial. now rewrite IH.
  Qed.
  Lemma rec_ext f : forall depth s o, (forall r, In r (fun_refs f) -> R r) -> collect_rec e' f depth s o = collect_rec e f depth s o.
  Proof using Hp Hck Hdm Hsort.
    induction f as [a sz n ls inls IH] using Fun_ind'. intros depth s o H. cbn [collect_rec fun_refs] in *.
    match goal with |- bind (?g inls [] s o) _ = bind (?h inls [] s o) _ => set (go' := g); set (go := h) end.
    assert (G : forall gs, Forall (fun f => forall depth s o, (forall r, In r (fun_refs f) -> R r) -> collect_rec e' f depth s o = collect_rec e f depth s o) gs ->
      (forall r, In r (flat_map fun_refs gs) -> R r) -> forall irs s o, go' gs irs s o = go gs irs s o).
    { induction gs as [|g t IHg]; intros F Hr irs s0 o0; [reflexivity|]. inversion F as [|? ? Fg Ft]; subst.
      assert (Hg : forall r, In r (fun_refs g) -> R r) by (intros r I; apply Hr; cbn; apply in_or_app; now left).
      assert (Ht : forall r, In r (flat_map fun_refs t) -> R r) by (intros r I; apply Hr; cbn; apply in_or_app; now right).
      unfold go', go. fold go'. fold go. destruct (f_lines g) as [|l0 ls0] eqn:El; [now apply IHg|]. rewrite Hdm, Hck.
      destruct (orig_get_id (ce_dm e) (f_name g) o0) as [oid o1]. destruct (line_ranges _ _ _) as [rs|m|m]; cbn [bind]; trivial. rewrite Fg by exact Hg.
      destruct (collect_rec e g (depth + 1) s0 o1) as [[[ev s2] o2]|m|m]; cbn [bind]; trivial. now rewrite IHg. }
    rewrite G; [|exact IH|intros r I; apply H; apply in_or_app; now right].
    destruct (go inls [] s o) as [[irs [[ev s1] o1]]|m|m]; cbn [bind]; trivial. rewrite Hsort. rewrite walk_ext; [reflexivity|].
    intros l I. apply H. apply in_or_app. left. now apply in_map.
  Qed.
  Lemma flat_ext ls : forall prev s, (forall l, In l ls -> R (d_file l)) -> collect_flat (ce_src e') ls prev s = collect_flat (ce_src e) ls prev s.
  Proof using Hp.
    induction ls as [|l t IH]; intros prev s H; [reflexivity|]. cbn [collect_flat]. assert (Ht : forall l, In l t -> R (d_file l)) by (intros; apply H; now right).
    destruct (d_line l =? 0); [now apply IH|]. rewrite get_id_ext by (apply H; now left). destruct (src_get_id (ce_src e) (d_file l) s) as [file s1].
    destruct (option_eqb info_eqb prev (Some (d_line l, file))); [now apply IH|]. destruct (src_get_true_id file s1) as [ts|m|m]; cbn [bind]; trivial. now rewrite IH.
  Qed.
  Lemma events_ext f s o : (forall r, In r (fun_refs f) -> R r) -> collect_events e' f s o = collect_events e f s o.
  Proof using Hp Hck Hdm Hsort Hinl.
    intros H. unfold collect_events. rewrite Hinl. destruct (ce_inl e); [now apply rec_ext|]. rewrite flat_ext; [reflexivity|].
    intros l I. apply H. destruct f as [a sz n ls inls]. cbn in *. apply in_or_app. left. now apply in_map.
  Qed.
  Lemma function_ext st f : (forall r, In r (fun_refs f) -> R r) -> collect_function e' st f = collect_function e st f.
  Proof using Hp Hck Hdm Hsort Hinl. intros H. unfold collect_function, fun_symbol. destruct st as [[syms s] o]. now rewrite Hck, Hdm, (events_ext f s o H). Qed.
  Lemma functions_ext fs : forall st, (forall r, In r (flat_map fun_refs (readable fs)) -> R r) -> collect_functions e' fs st = collect_functions e fs st.
  Proof using Hp Hck Hdm Hsort Hinl.
    unfold collect_functions. induction fs as [|[f|] t IH]; intros st H; [reflexivity| |].
    - cbn [foldM]. rewrite function_ext; [|intros r I; apply H; cbn; apply in_or_app; now left].
      destruct (collect_function e st f) as [st1|m|m]; cbn [bind]; trivial. apply IH. intros r I. apply H. cbn. apply in_or_app. now right.
    - cbn [foldM bind]. apply IH. exact H.
  Qed.
End Ext.
(** *** The paths that are entered *)
Section Entered.
  Context (e : CEnv) (R : FileRef -> Prop) (Q : str -> Prop).
  Hypothesis (HQ : forall r, R r -> Q (env_path (ce_src e) r)).
  Definition keys_ok (s : Src) : Prop := forall p i, In (p, i) (sf_ref s) -> Q p.
  Lemma get_id_keys r s : R r -> keys_ok s -> keys_ok (snd (src_get_id (ce_src e) r s)).
  Proof using HQ.
    intros H K. unfold src_get_id. destruct (afind key_eqb (fr_key r) (sf_cache s)); [exact K|]. cbv zeta.
    destruct (afind str_eqb (env_path (ce_src e) r) (sf_ref s)); [exact K|]. intros p i I. cbn [snd sf_ref] in I. apply in_app_or in I.
    destruct I as [I|[[= <- <-]|[]]]; [exact (K p i I)|now apply HQ].
  Qed.
  Lemma true_id_keys fake s ts : keys_ok s -> src_get_true_id fake s = Ok ts -> keys_ok (snd ts).
  Proof using. unfold src_get_true_id. intros K H. destruct (nthN (sf_fake s) fake) as [[[id|] name]|]; [| |discriminate]; injection H as <-; exact K. Qed.
  Lemma walk_keys depth ls : forall skip inl prev s q, (forall l, In l ls -> R (d_file l)) -> keys_ok s -> walk_lines e depth ls skip inl prev s = Ok q -> keys_ok (snd q).
  Proof using HQ.
    induction ls as [|l t IH]; intros skip inl prev s q H K E; [injection E as <-; exact K|]. cbn [walk_lines] in E.
    assert (Ht : forall l, In l t -> R (d_file l)) by (intros; apply H; now right).
    destruct (match skip with Some c => d_addr l <? c | None => false end); [exact (IH _ _ _ _ _ Ht K E)|].
    apply bind_ok in E as (lend & _ & E). apply bind_ok in E as (fs & E1 & E). apply bind_ok in E as ([[[c i] p] o] & _ & E). apply bind_ok in E as (r & E2 & E). injection E as <-. cbn [snd].
    apply (IH _ _ _ _ _ Ht) in E2; [exact E2|]. unfold src_lookup in E1. pose proof (get_id_keys (d_file l) s (H l (or_introl eq_refl)) K) as K1.
    destruct (src_get_id (ce_src e) (d_file l) s) as [fake s1]. exact (true_id_keys fake s1 fs K1 E1).
  Qed.
  Lemma rec_keys f : forall depth s o ev s' o', (forall r, In r (fun_refs f) -> R r) -> keys_ok s -> collect_rec e f depth s o = Ok (ev, s', o') -> keys_ok s'.
  Proof using HQ.
    induction f as [a sz n ls inls IH] using Fun_ind'. intros depth s o ev s' o' H K E. cbn [collect_rec fun_refs] in *.
    match type of E with bind (?g inls [] s o) _ = _ => set (go := g) in * end.
    assert (G : forall gs, Forall (fun f => forall depth s o ev s' o', (forall r, In r (fun_refs f) -> R r) -> keys_ok s -> collect_rec e f depth s o = Ok (ev, s', o') -> keys_ok s') gs ->
      (forall r, In r (flat_map fun_refs gs) -> R r) -> forall irs s o irs' ev s' o', keys_ok s -> go gs irs s o = Ok (irs', (ev, s', o')) -> keys_ok s').
    { induction gs as [|g t IHg]; intros F Hr irs s0 o0 irs' ev0 s0' o0' K0 E0; [unfold go in E0; injection E0 as <- <- <- <-; exact K0|]. inversion F as [|? ? Fg Ft]; subst.
      assert (Hg : forall r, In r (fun_refs g) -> R r) by (intros r I; apply Hr; cbn; apply in_or_app; now left).
      assert (Ht : forall r, In r (flat_map fun_refs t) -> R r) by (intros r I; apply Hr; cbn; apply in_or_app; now right).
      unfold go in E0. fold go in E0. destruct (f_lines g) as [|l0 ls0] eqn:El; [exact (IHg Ft Ht _ _ _ _ _ _ _ K0 E0)|].
      destruct (orig_get_id (ce_dm e) (f_name g) o0) as [oid o1]. apply bind_ok in E0 as (rs & _ & E0). apply bind_ok in E0 as ([[ev1 s2] o2] & E1 & E0).
      apply bind_ok in E0 as ([irs1 [[ev2 s3] o3]] & E2 & E0). injection E0 as <- <- <- <-. exact (IHg Ft Ht _ _ _ _ _ _ _ (Fg _ _ _ _ _ _ Hg K0 E1) E2). }
    apply bind_ok in E as ([irs [[ev1 s1] o1]] & E1 & E). apply bind_ok in E as (w & E2 & E). injection E as <- <- <-.
    apply walk_keys in E2; [exact E2|intros l I; apply H; apply in_or_app; left; now apply in_map|].
    apply (G inls IH) with (3 := E1); [intros r I; apply H; apply in_or_app; now right|exact K].
  Qed.
  Lemma flat_keys ls : forall prev s q, (forall l, In l ls -> R (d_file l)) -> keys_ok s -> collect_flat (ce_src e) ls prev s = Ok q -> keys_ok (snd q).
  Proof using HQ.
    induction ls as [|l t IH]; intros prev s q H K E; [injection E as <-; exact K|]. cbn [collect_flat] in E. assert (Ht : forall l, In l t -> R (d_file l)) by (intros; apply H; now right).
    destruct (d_line l =? 0); [exact (IH _ _ _ Ht K E)|]. pose proof (get_id_keys (d_file l) s (H l (or_introl eq_refl)) K) as K1.
    destruct (src_get_id (ce_src e) (d_file l) s) as [file s1]. destruct (option_eqb info_eqb prev (Some (d_line l, file))); [exact (IH _ _ _ Ht K1 E)|].
    apply bind_ok in E as (ts & E1 & E). apply bind_ok in E as (r & E2 & E). injection E as <-. exact (IH _ _ _ Ht (true_id_keys _ _ _ K1 E1) E2).
  Qed.
  Lemma function_keys m s o f m' s' o' : (forall r, In r (fun_refs f) -> R r) -> keys_ok s -> collect_function e (m, s, o) f = Ok (m', s', o') -> keys_ok s'.
  Proof using HQ.
    intros H K E. unfold collect_function in E. destruct (f_addr f =? 0); [injection E as <- <- <-; exact K|].
    assert (V : forall ev s1 o1, collect_events e f s o = Ok (ev, s1, o1) -> keys_ok s1).
    { intros ev s1 o1 Ev. unfold collect_events in Ev. destruct (ce_inl e); [exact (rec_keys f 0 s o ev s1 o1 H K Ev)|]. apply bind_ok in Ev as (r & E1 & Ev). injection Ev as <- <- <-.
      apply flat_keys in E1; [exact E1| |exact K]. intros l I. apply H. destruct f as [a sz n ls inls]. cbn in *. apply in_or_app. left. now apply in_map. }
    destruct (nfind _ m) as [sym|]; [destruct (negb (sy_public sym)); [injection E as <- <- <-; exact K|]|];
      apply bind_ok in E as ([[ev s1] o1] & E1 & E); apply bind_ok in E as (ls & _ & E); injection E as <- <- <-; exact (V _ _ _ E1).
  Qed.
  Lemma functions_keys fs : forall m s o m' s' o', (forall r, In r (flat_map fun_refs (readable fs)) -> R r) -> keys_ok s -> collect_functions e fs (m, s, o) = Ok (m', s', o') -> keys_ok s'.
  Proof using HQ.
    unfold collect_functions. induction fs as [|[f|] t IH]; intros m s o m' s' o' H K E; [injection E as <- <- <-; exact K| |].
    - cbn [foldM] in E. apply bind_ok in E as ([[m1 s1] o1] & E1 & E). apply IH in E; [exact E|intros r I; apply H; cbn; apply in_or_app; now right|].
      apply function_keys in E1; [exact E1|intros r I; apply H; cbn; apply in_or_app; now left|exact K].
    - cbn [foldM bind] in E. exact (IH _ _ _ _ _ _ H K E).
  Qed.
End Entered.
Lemma entered_paths e pl main fs m s o : collect_functions (run_cenv e pl main) fs ([], src_new, orig_new) = Ok (m, s, o) ->
  forall p i, In (p, i) (sf_ref s) -> exists r, In r (flat_map fun_refs (readable fs)) /\ p = env_path (ce_src (run_cenv e pl main)) r.
Proof.
  intros H. apply (functions_keys (run_cenv e pl main) (fun r => In r (flat_map fun_refs (readable fs)))
    (fun p => exists r, In r (flat_map fun_refs (readable fs)) /\ p = env_path (ce_src (run_cenv e pl main)) r)) with (4 := H); eauto. intros p i [].
Qed.
Lemma ask_ok e src : ask_mapping e src = Ok tt <-> forall p i, In (p, i) (sf_ref src) -> is_panic (re_map e p) = false.
Proof.
  unfold ask_mapping. destruct (existsb _ (sf_ref src)) eqn:X; split; try discriminate; auto.
  - apply existsb_exists in X. destruct X as ([p i] & I & X). intros H. cbn [fst] in X. rewrite (H p i I) in X. discriminate.
  - intros _ p i I. destruct (is_panic (re_map e p)) eqn:Y; [|reflexivity]. assert (existsb (fun kv => is_panic (re_map e (fst kv))) (sf_ref src) = true); [|congruence].
    apply existsb_exists. exists (p, i). auto.
Qed.
Lemma ask_mapping_ext e e' src : (forall p i, In (p, i) (sf_ref src) -> re_map e' p = re_map e p) -> ask_mapping e' src = ask_mapping e src.
Proof.
  intros H. unfold ask_mapping. replace (existsb (fun kv => is_panic (re_map e' (fst kv))) (sf_ref src)) with (existsb (fun kv => is_panic (re_map e (fst kv))) (sf_ref src)); [reflexivity|].
  induction (sf_ref src) as [|[p i] t IH]; [reflexivity|]. cbn [existsb fst]. rewrite (H p i) by now left. rewrite IH; [reflexivity|]. intros; eapply H; right; eauto.
Qed.
Lemma from_object_ext e e' pl main mn pe pn : agree_on e e' pl main -> from_object e' pl main mn pe pn = from_object e pl main mn pe pn.
Proof.
  intros (H1 & H2 & H3 & H4 & H5). unfold from_object. destruct (pa_functions main) as [fs|] eqn:F; [|reflexivity]. rewrite H1, H2.
  rewrite (functions_ext (run_cenv e pl main) (run_cenv e' pl main) (fun r => In r (flat_map fun_refs (readable fs)))); auto; try (unfold run_cenv; cbn; congruence).
  - destruct (collect_functions (run_cenv e pl main) fs ([], src_new, orig_new)) as [[[m s] o]|x|x] eqn:C; cbn [bind]; trivial.
    rewrite (ask_mapping_ext e e' s); [reflexivity|]. intros p i I. destruct (entered_paths _ _ _ _ _ _ _ C p i I) as (r & Hr & ->). apply (H5 fs r eq_refl Hr).
  - intros r I. destruct (H5 fs r eq_refl I) as [A B]. split; [exact A|]. change (map_path e' (env_path (ce_src (run_cenv e pl main)) r) = map_path e (env_path (ce_src (run_cenv e pl main)) r)). unfold map_path. now rewrite B.
Qed.

(** *** When the mapping panics *)
Lemma tamed_map e p : map_path (tamed e) p = map_path e p.
Proof. unfold map_path, tamed. cbn [re_map]. destruct (re_map e p); reflexivity. Qed.
Lemma tamed_reads e src : ask_mapping (tamed e) src = Ok tt.
Proof. apply ask_ok. intros p i _. cbn [tamed re_map]. now destruct (re_map e p). Qed.
Lemma from_object_asks e pl main mn pe pn o : from_object (tamed e) pl main mn pe pn = Ok o ->
  exists src, ob_files o = src_mapping src /\ from_object e pl main mn pe pn = (_ <- ask_mapping e src ;; Ok o).
Proof.
  unfold from_object. destruct (pa_functions main) as [fs|]; [|discriminate].
  rewrite (functions_ext (run_cenv e pl main) (run_cenv (tamed e) pl main) (fun _ => True)); auto; cycle 1.
  { intros r _. split; [reflexivity|]. apply tamed_map. }
  destruct (collect_functions (run_cenv e pl main) fs ([], src_new, orig_new)) as [[[m s] og]|x|x]; cbn [bind]; [|discriminate..].
  rewrite tamed_reads. cbn [bind re_ck re_dm tamed]. intros H. exists s. split.
  - do 5 (apply bind_ok in H as (? & _ & H)). injection H as <-. reflexivity.
  - destruct (ask_mapping e s) as [[]|x|x]; cbn [bind]; [exact H|reflexivity..].
Qed.
Lemma mapping_panics e pl main mn pe pn o : from_object (tamed e) pl main mn pe pn = Ok o ->
  ((forall p i, In (p, i) (sm_ref (ob_files o)) -> is_panic (re_map e p) = false) <-> from_object e pl main mn pe pn = Ok o) /\
  ((exists p i, In (p, i) (sm_ref (ob_files o)) /\ is_panic (re_map e p) = true) <-> is_panic (from_object e pl main mn pe pn) = true).
Proof.
  intros H. destruct (from_object_asks _ _ _ _ _ _ _ H) as (s & -> & ->). cbn [src_mapping sm_ref]. pose proof (ask_ok e s) as A.
  unfold ask_mapping in *. destruct (existsb _ (sf_ref s)) eqn:X; cbn [bind is_panic].
  - apply existsb_exists in X. destruct X as ([p i] & I & X). cbn [fst] in X. split; split; auto; try discriminate; eauto. intros K. specialize (K p i I). congruence.
  - split; split; auto; try discriminate. { intros _. now apply A. } intros (p & i & I & Y). destruct A as [A _]. rewrite (A eq_refl p i I) in Y. discriminate.
Qed.
Lemma tamed_ok e pl main mn pe pn o : from_object e pl main mn pe pn = Ok o -> from_object (tamed e) pl main mn pe pn = Ok o.
Proof.
  unfold from_object. destruct (pa_functions main) as [fs|]; [|discriminate].
  rewrite (functions_ext (run_cenv e pl main) (run_cenv (tamed e) pl main) (fun _ => True)); auto; cycle 1.
  { intros r _. split; [reflexivity|]. apply tamed_map. }
  destruct (collect_functions (run_cenv e pl main) fs ([], src_new, orig_new)) as [[[m s] og]|x|x]; cbn [bind]; [|discriminate..].
  rewrite tamed_reads. cbn [bind re_ck re_dm tamed]. destruct (ask_mapping e s); cbn [bind]; (exact (fun H => H) || discriminate).
Qed.
