(** Proofs about the exact line table of a function without inlined calls. *)
From Verif Require Import Base Sort BMap Str M_Names M_Path M_Line S_Line P_Line M_Source S_Source P_Source M_Symbol S_Symbol P_Symbol M_Collector S_Collector P_Collector P_Walk P_Tree P_Func P_Calls.

(** A sorted list is its own stable arrangement. *)
Lemma sorted_classes (l l' : list (N * N * N)) : StronglySorted (fun x y => t_addr x <= t_addr y) l -> StronglySorted (fun x y => t_addr x <= t_addr y) l' ->
  (forall a, filter (fun t => t_addr t =? a) l' = filter (fun t => t_addr t =? a) l) -> l' = l.
Proof.
  revert l'. induction l as [|x l IH]; intros l' S S' H.
  - destruct l' as [|y l']; [reflexivity|]. specialize (H (t_addr y)). cbn [filter] in H. rewrite N.eqb_refl in H. discriminate.
  - destruct l' as [|y l']; [specialize (H (t_addr x)); cbn [filter] in H; rewrite N.eqb_refl in H; discriminate|].
    inversion S as [|? ? S1 F]; inversion S' as [|? ? S1' F']; subst. rewrite Forall_forall in F, F'.
    assert (E : t_addr x = t_addr y).
    { assert (L1 : t_addr y <= t_addr x).
      { assert (I : In x (filter (fun t => t_addr t =? t_addr x) (y :: l'))) by (rewrite H; cbn [filter]; rewrite N.eqb_refl; now left).
        apply filter_In in I as ([ <- |I] & _); [lia|]. exact (F' x I). }
      assert (L2 : t_addr x <= t_addr y).
      { assert (I : In y (filter (fun t => t_addr t =? t_addr y) (x :: l))) by (rewrite <- H; cbn [filter]; rewrite N.eqb_refl; now left).
        apply filter_In in I as ([ <- |I] & _); [lia|]. exact (F y I). }
      lia. }
    assert (y = x). { specialize (H (t_addr x)). cbn [filter] in H. rewrite <- E, N.eqb_refl in H. now injection H. }
    subst y. f_equal. apply IH; auto. intros a. specialize (H a). cbn [filter] in H. destruct (t_addr x =? a); [now injection H|exact H].
Qed.

(** The calls for a run. *)
Definition dcall (fid : FileRef -> N) (d : DLine) : N * N * N := (u32 (d_addr d), u32 (d_line d), fid (d_file d)).
Definition paths_fid (e : SrcEnv) (fid : FileRef -> N) (ls : list DLine) : Prop :=
  forall a b, In a ls -> In b ls -> (fid (d_file a) = fid (d_file b) <-> env_path e (d_file a) = env_path e (d_file b)).
Lemma same_fid e fid ls a b : paths_fid e fid ls -> In a ls -> In b ls ->
  same_place e a b = info_eqb (d_line a, fid (d_file a)) (d_line b, fid (d_file b)).
Proof.
  intros H Ha Hb. unfold same_place, info_eqb; cbn [fst snd]. f_equal. specialize (H a b Ha Hb).
  destruct (N.eqb_spec (fid (d_file a)) (fid (d_file b))) as [E|E].
  - apply str_eqb_eq. tauto.
  - apply str_eqb_neq. tauto.
Qed.
Lemma pflat_runs e fid all : paths_fid e fid all -> forall ls prev, (forall x, In x ls -> In x all) -> (forall p, prev = Some p -> In p all) ->
  inserted_lines (pflat fid ls (option_map (pinfo fid) prev)) = map (dcall fid) (run_starts e prev (filter (fun l => negb (d_line l =? 0)) ls)).
Proof.
  intros H. induction ls as [|l ls IH]; intros prev A Pv; [reflexivity|]. cbn [pflat filter].
  assert (Al : In l all) by (apply A; now left). assert (A' : forall x, In x ls -> In x all) by (intros; apply A; now right).
  destruct (d_line l =? 0); cbn [negb]; [now apply IH|]. cbn [run_starts].
  assert (E : option_eqb info_eqb (option_map (pinfo fid) prev) (Some (d_line l, fid (d_file l))) = match prev with Some p => same_place e p l | None => false end).
  { destruct prev as [p|]; cbn [option_map option_eqb]; [|reflexivity]. unfold pinfo. symmetry. apply (same_fid e fid all); auto. }
  rewrite E. destruct (match prev with Some p => same_place e p l | None => false end); [now apply IH|].
  cbn [inserted_lines map]. unfold dcall at 1. f_equal. change (Some (d_line l, fid (d_file l))) with (option_map (pinfo fid) (Some l)).
  apply IH; auto. now intros p [= <-].
Qed.
Definition uinfo (fid : FileRef -> N) (l : DLine) : N * N := (u32 (d_line l), fid (d_file l)).
Lemma pwalk_runs ck e fid depth all : paths_fid e fid all -> Forall (fun l => d_line l < two32) all -> forall ls prev skip evs,
  lines_ok ls -> (forall l c, In l ls -> skip = Some c -> c <= d_addr l) -> (forall x, In x ls -> In x all) -> (forall p, prev = Some p -> In p all) ->
  pwalk ck fid depth ls skip [] (option_map (uinfo fid) prev) = Ok evs ->
  inserted_lines evs = map (dcall fid) (run_starts e prev ls).
Proof.
  intros H U. rewrite Forall_forall in U. induction ls as [|l ls IH]; intros prev skip evs (S & B) K A Pv; cbn [pwalk]; [now intros [= <-]|].
  inversion S as [|? ? S' F]; inversion B as [|? ? B1 B']; subst. rewrite Forall_forall in F.
  assert (Al : In l all) by (apply A; now left). assert (A' : forall x, In x ls -> In x all) by (intros; apply A; now right).
  assert (match skip with Some c => d_addr l <? c | None => false end = false) as ->.
  { destruct skip as [c|]; [|reflexivity]. specialize (K l c (or_introl eq_refl) eq_refl). lia. }
  destruct B1 as (B1 & B2). rewrite (line_end_ok ck l B2). cbn [bind].
  assert (E : option_eqb info_eqb (option_map (uinfo fid) prev) (Some (u32 (d_line l), fid (d_file l))) = match prev with Some p => same_place e p l | None => false end).
  { destruct prev as [p|]; cbn [option_map option_eqb]; [|reflexivity]. unfold uinfo. rewrite !u32_small by auto. symmetry. apply (same_fid e fid all); auto. }
  assert (L : forall c, c = dl_end l -> lines_ok ls /\ (forall x q, In x ls -> Some c = Some q -> q <= d_addr x)).
  { intros c ->. split; [split; auto|]. intros x q Ix [= <-]. exact (F x Ix). }
  unfold line_loop. replace (d_addr l <? dl_end l) with true by lia. cbn [negb andb]. rewrite E.
  cbn [run_starts].
  destruct (match prev with Some p => same_place e p l | None => false end); cbn [negb bind]; intros G; apply bind_ok in G as (r & G & [= <-]).
  - cbn [app]. exact (IH prev (Some (dl_end l)) r (proj1 (L _ eq_refl)) (proj2 (L _ eq_refl)) A' Pv G).
  - cbn [app inserted_lines map]. unfold dcall at 1. f_equal. change (Some (u32 (d_line l), fid (d_file l))) with (option_map (uinfo fid) (Some l)) in G.
    apply (IH (Some l) (Some (dl_end l)) r (proj1 (L _ eq_refl)) (proj2 (L _ eq_refl)) A'); [now intros p [= <-]|exact G].
Qed.
Lemma run_starts_in e ls : forall prev x, In x (run_starts e prev ls) -> In x ls.
Proof.
  induction ls as [|l ls IH]; intros prev x; cbn [run_starts]; [easy|]. destruct (match prev with Some p => same_place e p l | None => false end).
  - intros I. right. exact (IH _ _ I).
  - intros [ <- |I]; [now left|]. right. exact (IH _ _ I).
Qed.
Lemma run_starts_sorted e ls : forall prev, StronglySorted (fun a b => d_addr a <= d_addr b) ls -> StronglySorted (fun a b => d_addr a <= d_addr b) (run_starts e prev ls).
Proof.
  induction ls as [|l ls IH]; intros prev S; cbn [run_starts]; [constructor|]. inversion S as [|? ? S' F]; subst.
  destruct (match prev with Some p => same_place e p l | None => false end); [now apply IH|]. constructor; [now apply IH|].
  rewrite Forall_forall in *. intros x I. apply F. exact (run_starts_in _ _ _ _ I).
Qed.
Lemma run_starts_differ e ls : forall prev pre a b post, run_starts e prev ls = pre ++ a :: b :: post -> same_place e a b = false.
Proof.
  assert (G : forall ls p b post, run_starts e (Some p) ls = b :: post -> same_place e p b = false).
  { intros l. induction l as [|x l IH]; intros p b post; cbn [run_starts]; [discriminate|]. destruct (same_place e p x) eqn:E; [apply IH|]. intros [= <- _]. exact E. }
  induction ls as [|l ls IH]; intros prev pre a b post; cbn [run_starts]; [now destruct pre|].
  destruct (match prev with Some p => same_place e p l | None => false end); [apply IH|].
  destruct pre as [|q pre]; cbn [app]; intros [= -> Q]; [exact (G _ _ _ _ Q)|exact (IH _ _ _ _ _ Q)].
Qed.
Lemma sorted_filter {A} (R : A -> A -> Prop) p l : StronglySorted R l -> StronglySorted R (filter p l).
Proof.
  induction 1 as [|x l S IH F]; cbn [filter]; [constructor|]. destruct (p x); [|exact IH]. constructor; [exact IH|].
  rewrite Forall_forall in *. intros y I. apply filter_In in I as (I & _). auto.
Qed.
Lemma sorted_calls fid ds : StronglySorted (fun a b => d_addr a <= d_addr b) ds -> Forall (fun d => d_addr d < two32) ds ->
  StronglySorted (fun x y => t_addr x <= t_addr y) (map (dcall fid) ds).
Proof.
  induction 1 as [|d ds S IH F]; intros B; cbn [map]; [constructor|]. inversion B as [|? ? B1 B']; subst. constructor; [now apply IH|].
  rewrite Forall_forall in *. intros t I. apply in_map_iff in I as (x & <- & I). unfold dcall, t_addr; cbn [fst].
  rewrite !u32_small by auto. auto.
Qed.
Lemma fidx_paths e P f : paths_fid e (fidx e P f) (f_lines f).
Proof.
  intros a b Ha Hb. split; [apply fidx_inj; now apply fun_refs_line|]. unfold fidx. now intros ->.
Qed.

(** The finished table when the calls are those of [ds]. *)
Lemma table_exact e f kp P (ns : list Name) s ls ds evs : SrcInv (ce_src e) kp P s ->
  finalize (ce_ck e) (u32 (f_addr f)) (u32 (f_size f)) (build evs) = Ok ls -> Forall (ins_in (lenN P) (lenN ns)) evs ->
  inserted_lines evs = map (dcall (fidx (ce_src e) P f)) ds -> (forall d, In d ds -> In d (f_lines f)) ->
  StronglySorted (fun a b => d_addr a <= d_addr b) ds -> Forall (fun d => d_addr d < two32 /\ d_line d < two32) ds ->
  Forall2 (fun d l => line_is (ce_src e) s d l /\ l_file l = fidx (ce_src e) P f (d_file d)) ds (ls_lines ls).
Proof.
  intros I Hf Hin Hc Hd S B. pose proof (fl_stable _ _ _ _ (finalize_final _ _ _ _ _ Hf)) as (St & Cl). rewrite Hc in Cl.
  assert (B1 : Forall (fun d => d_addr d < two32) ds) by (eapply Forall_impl; [|exact B]; intros d (Q & _); exact Q).
  apply sorted_classes in Cl; [|now apply sorted_calls|exact St].
  assert (G : forall t, In t (map triple (ls_lines ls)) -> snd t < lenN P).
  { intros [[x n] q] J. rewrite Cl, <- Hc in J. exact (ins_line_in _ _ _ _ _ _ Hin J). }
  clear Hc St Hf Hin S B1. revert ds Cl Hd B. induction (ls_lines ls) as [|l t IH]; intros ds Cl Hd B; destruct ds as [|d ds]; try discriminate; constructor.
  - cbn [map] in Cl. injection Cl as E1 E2 E3 _. inversion B as [|? ? (B1 & B2) _]; subst. unfold line_is. rewrite u32_small in E1, E2 by auto.
    split; [|exact E3]. split; [exact E1|]. split; [exact E2|]. apply (low_file e f kp P s I); [exact E3|]. apply (G (triple l)). now left.
  - cbn [map] in Cl. injection Cl as _ _ _ Cl. inversion B; subst. apply IH; auto.
    + intros x J. apply G. now right.
    + intros x J. apply Hd. now right.
Qed.
Lemma flat_exact e fs m s o k f rest sym : ce_inl e = false -> sorts_ranges (ce_sort e) -> consistent (flat_map fun_refs (readable fs)) ->
  collected e fs m s o -> funcs_at k (readable fs) = f :: rest -> nfind k m = Some sym ->
  StronglySorted (fun a b => d_addr a <= d_addr b) (f_lines f) -> Forall (fun l => d_addr l < two32 /\ d_line l < two32) (f_lines f) ->
  exists fid, paths_fid (ce_src e) fid (f_lines f) /\
    Forall2 (fun d l => line_is (ce_src e) s d l /\ l_file l = fid (d_file d)) (run_starts (ce_src e) None (filter (fun l => negb (d_line l =? 0)) (f_lines f))) (ls_lines (sy_source sym)).
Proof.
  intros Ei US C H Hf Hk S B. destruct (collected_table e fs m s o k f rest sym US C H Hf Hk) as (kp & P & ns & I & J & (evs & Hfin & Hin & Hev)).
  unfold pevents in Hev. rewrite Ei in Hev.
  specialize (Hev (fidx (ce_src e) P f) (oidx ns) (fidx_agree _ _ _ (si_nodup _ _ _ _ I)) (oidx_agree _ (oi_nodup _ _ _ J))). injection Hev as Ev.
  assert (IN : forall d, In d (run_starts (ce_src e) None (filter (fun l => negb (d_line l =? 0)) (f_lines f))) -> In d (f_lines f)).
  { intros d X. apply run_starts_in in X. now apply filter_In in X. }
  exists (fidx (ce_src e) P f). split; [apply fidx_paths|].
  eapply (table_exact e f kp P ns s _ _ evs I Hfin Hin); [| exact IN | |].
  - rewrite <- Ev. apply (pflat_runs (ce_src e) _ (f_lines f) (fidx_paths _ _ _) (f_lines f) None); [auto|discriminate].
  - apply run_starts_sorted, sorted_filter, S.
  - rewrite Forall_forall in *. intros d X. apply B, IN, X.
Qed.
Lemma walk_exact e fs m s o k f rest sym : ce_inl e = true -> f_inl f = [] -> sorts_ranges (ce_sort e) -> consistent (flat_map fun_refs (readable fs)) ->
  collected e fs m s o -> funcs_at k (readable fs) = f :: rest -> nfind k m = Some sym ->
  lines_ok (f_lines f) -> Forall (fun l => d_line l < two32) (f_lines f) ->
  exists fid, paths_fid (ce_src e) fid (f_lines f) /\
    Forall2 (fun d l => line_is (ce_src e) s d l /\ l_file l = fid (d_file d)) (run_starts (ce_src e) None (f_lines f)) (ls_lines (sy_source sym)).
Proof.
  intros Ei Nf US C H Hf Hk L B. destruct (collected_table e fs m s o k f rest sym US C H Hf Hk) as (kp & P & ns & I & J & (evs & Hfin & Hin & Hev)).
  unfold pevents in Hev. rewrite Ei in Hev.
  specialize (Hev (fidx (ce_src e) P f) (oidx ns) (fidx_agree _ _ _ (si_nodup _ _ _ _ I)) (oidx_agree _ (oi_nodup _ _ _ J))).
  rewrite prec_eq, Nf in Hev. cbn [pinl bind fst snd] in Hev. apply bind_ok in Hev as (w & Hw & [= Ev]). cbn [app] in Ev. subst w.
  assert (E0 : ce_sort e [] = []). { destruct (US []) as (Pm & _). now apply Permutation_sym, Permutation_nil in Pm. }
  rewrite E0 in Hw. destruct L as (L1 & L2).
  assert (IN : forall d, In d (run_starts (ce_src e) None (f_lines f)) -> In d (f_lines f)) by (intros d X; now apply run_starts_in in X).
  exists (fidx (ce_src e) P f). split; [apply fidx_paths|].
  eapply (table_exact e f kp P ns s _ _ evs I Hfin Hin); [| exact IN | |].
  - eapply (pwalk_runs (ce_ck e) (ce_src e) _ 0 (f_lines f) (fidx_paths _ _ _) B (f_lines f) None None evs); [split; auto|discriminate|auto|discriminate|exact Hw].
  - apply run_starts_sorted. rewrite Forall_forall in L2. revert L1 L2. generalize (f_lines f). induction 1 as [|x l S IH F]; intros Q; constructor.
    + apply IH. intros y Y. apply Q. now right.
    + rewrite Forall_forall in *. intros y Y. specialize (F y Y). specialize (Q x (or_introl eq_refl)). lia.
  - rewrite Forall_forall in *. intros d X. apply IN in X. split; [|now apply B]. destruct (L2 d X). lia.
Qed.
(** No two records in a row say the same. *)
Lemma exact_differ e s fid all ds ls : paths_fid e fid all -> (forall d, In d ds -> In d all) -> Forall2 (fun d l => line_is e s d l /\ l_file l = fid (d_file d)) ds ls ->
  (forall pre a b post, ds = pre ++ a :: b :: post -> same_place e a b = false) ->
  forall pre x y post, ls = pre ++ x :: y :: post -> (l_num x, l_file x) <> (l_num y, l_file y).
Proof.
  intros Pf Hin F D pre x y post ->. apply Forall2_app_inv_r in F as (d1 & d2 & _ & F & ->).
  inversion F as [|a ? d3 ? ((_ & Na & _) & Fa) F1]; subst. inversion F1 as [|b ? d4 ? ((_ & Nb & _) & Fb) F2]; subst.
  assert (Ia : In a all) by (apply Hin, in_or_app; right; now left). assert (Ib : In b all) by (apply Hin, in_or_app; right; right; now left).
  specialize (D d1 a b d4 eq_refl). rewrite (same_fid e fid all a b Pf Ia Ib) in D. intros [= E1 E2].
  assert (info_eqb (d_line a, fid (d_file a)) (d_line b, fid (d_file b)) = true); [|congruence]. apply info_eqb_spec. congruence.
Qed.
Lemma exact_weaken e s (fid : FileRef -> N) ds ls : Forall2 (fun d l => line_is e s d l /\ l_file l = fid (d_file d)) ds ls -> Forall2 (line_is e s) ds ls.
Proof. induction 1 as [|d l ds ls (H & _) F IH]; constructor; assumption. Qed.
