From Verif Require Import Base Sort BMap Str M_Names M_Path M_Line S_Line P_Line M_Source S_Source P_Source M_Symbol S_Symbol P_Symbol M_Collector S_Collector P_Collector P_Walk P_Tree P_Func.

Lemma filter_none {A} (p : A -> bool) l : Forall (fun x => p x = false) l -> filter p l = [].
Proof. induction 1; cbn; auto. now rewrite H. Qed.

(** * Without inlines (C16) *)
Definition lines_sorted (ls : list DLine) : Prop :=
  StronglySorted (fun a b => d_addr a <= d_addr b) ls /\ Forall (fun l => d_addr l < two32) ls.

Lemma last_opt_cons {A} (x : A) l : last_opt (x :: l) = match last_opt l with Some y => Some y | None => Some x end.
Proof. destruct l as [|y l]; [reflexivity|]. cbn [last_opt]. revert y. induction l as [|z l IH]; intros y; [reflexivity|apply IH]. Qed.
Lemma last_opt_none {A} (l : list A) : last_opt l = None -> l = [].
Proof. destruct l as [|x l]; auto. rewrite last_opt_cons. destruct (last_opt l); discriminate. Qed.

Lemma pflat_addrs fid : forall ls prev t, In t (inserted_lines (pflat fid ls prev)) -> exists l, In l ls /\ d_line l <> 0 /\ t = (u32 (d_addr l), u32 (d_line l), fid (d_file l)).
Proof.
  induction ls as [|l ls IH]; intros prev t H; cbn [pflat] in H; [easy|].
  destruct (N.eqb_spec (d_line l) 0) as [|Hz].
  { destruct (IH _ _ H) as (x & Hx & E). exists x; split; auto. now right. }
  destruct (option_eqb _ _ _).
  { destruct (IH _ _ H) as (x & Hx & E). exists x; split; auto. now right. }
  destruct H as [<-|H]; [exists l; splits; auto; now left|]. destruct (IH _ _ H) as (x & Hx & E). exists x; split; auto. now right.
Qed.
Lemma pflat_sorted fid : forall ls prev, lines_sorted ls -> StronglySorted (fun x y => t_addr x <= t_addr y) (inserted_lines (pflat fid ls prev)).
Proof.
  induction ls as [|l ls IH]; intros prev (S & B); cbn [pflat]; [constructor|].
  inversion S as [|? ? S' F]; inversion B as [|? ? B1 B']; subst. assert (lines_sorted ls) by (split; auto).
  destruct (d_line l =? 0); auto. destruct (option_eqb _ _ _); auto. cbn [inserted_lines]. constructor; auto.
  rewrite Forall_forall in *. intros t Ht. destruct (pflat_addrs _ _ _ _ Ht) as (x & Hx & _ & ->). unfold t_addr; cbn.
  rewrite !u32_small by auto. auto.
Qed.
Lemma sorted_best a E b : StronglySorted (fun x y => t_addr x <= t_addr y) E -> is_best a E b ->
  last_opt (filter (fun t => t_addr t <=? a) E) = Some b.
Proof.
  intros S (pre & post & -> & Hle & _ & Hpost). apply StronglySorted_app_r in S. inversion S as [|? ? _ F]; subst. rewrite Forall_forall in F.
  rewrite filter_app. cbn [filter]. replace (t_addr b <=? a) with true by lia.
  replace (filter (fun t => t_addr t <=? a) post) with (@nil (N * N * N)); [apply last_opt_app|].
  symmetry. apply filter_none. rewrite Forall_forall. intros t Ht. specialize (F t Ht). specialize (Hpost t Ht). lia.
Qed.

Definition pinfo (fid : FileRef -> N) (l : DLine) : N * N := (d_line l, fid (d_file l)).
Lemma pflat_last fid a : forall ls prev, lines_sorted ls ->
  (exists t lf, last_opt (filter (fun t => t_addr t <=? a) (inserted_lines (pflat fid ls prev))) = Some t /\
     flat_line a ls = Some lf /\ snd (fst t) = u32 (d_line lf) /\ snd t = fid (d_file lf)) \/
  (filter (fun t => t_addr t <=? a) (inserted_lines (pflat fid ls prev)) = [] /\
     (flat_line a ls = None \/ exists lf, flat_line a ls = Some lf /\ prev = Some (pinfo fid lf))).
Proof.
  unfold flat_line. induction ls as [|l ls IH]; intros prev (S & B); cbn [pflat filter]; [right; auto|].
  inversion S as [|? ? S' F]; inversion B as [|? ? B1 B']; subst. assert (L' : lines_sorted ls) by (split; auto).
  destruct (N.eqb_spec (d_line l) 0) as [Hz|Hz]; cbn [negb andb]; [now apply IH|].
  destruct (N.leb_spec (d_addr l) a) as [Hle|Hgt].
  2:{ right. split.
      - assert (G : forall ls0 prev0, (forall x, In x ls0 -> a < d_addr x /\ d_addr x < two32) ->
          filter (fun t => t_addr t <=? a) (inserted_lines (pflat fid ls0 prev0)) = []).
        { intros ls0 prev0 H. apply filter_none. rewrite Forall_forall. intros t Ht.
          destruct (pflat_addrs _ _ _ _ Ht) as (x & Hx & _ & ->). unfold t_addr; cbn.
          destruct (H x Hx). rewrite u32_small by auto. lia. }
        rewrite Forall_forall in F, B'.
        destruct (option_eqb _ _ _); [apply G; intros x Hx; specialize (F x Hx); specialize (B' x Hx); cbv beta in *; lia|].
        cbn [inserted_lines filter]. unfold t_addr at 1; cbn [fst]. rewrite u32_small by auto. replace (d_addr l <=? a) with false by lia.
        apply G. intros x Hx; specialize (F x Hx); specialize (B' x Hx); cbv beta in *; lia.
      - left. rewrite filter_none; auto. rewrite Forall_forall in *. intros x Hx. specialize (F x Hx). cbv beta in F. lia. }
  rewrite last_opt_cons.
  destruct (option_eqb info_eqb prev (Some (d_line l, fid (d_file l)))) eqn:Ep.
  - assert (prev = Some (pinfo fid l)) as ->.
    { destruct prev as [q|]; [|discriminate]. cbn in Ep. apply info_eqb_spec in Ep. now subst. }
    destruct (IH (Some (pinfo fid l)) L') as [(t & lf & E1 & E2 & E3 & E4)|(E1 & [E2|(lf & E2 & E3)])].
    + left. exists t, lf. rewrite E2. auto.
    + right. split; auto. right. exists l. rewrite E2. auto.
    + right. split; auto. right. exists lf. rewrite E2. auto.
  - cbn [inserted_lines filter]. unfold t_addr at 1; cbn [fst]. rewrite u32_small by auto. replace (d_addr l <=? a) with true by lia.
    rewrite last_opt_cons. left. change (d_line l, fid (d_file l)) with (pinfo fid l).
    destruct (IH (Some (pinfo fid l)) L') as [(t & lf & E1 & E2 & E3 & E4)|(E1 & [E2|(lf & E2 & E3)])].
    + exists t, lf. rewrite E1, E2. auto.
    + rewrite E1, E2. eexists _, l. splits; reflexivity.
    + rewrite E1, E2. eexists _, lf. splits; [reflexivity|reflexivity| |]; cbn; inversion E3 as [[X Y]]; auto.
Qed.

Lemma final_flat e f kp P ns s ls : ce_inl e = false -> SrcInv (ce_src e) kp P s -> NoDup ns -> table_of e f P ns ls ->
  lines_sorted (f_lines f) -> f_addr f + f_size f < two32 -> forall a, a < f_addr f + f_size f ->
  match flat_line a (f_lines f) with
  | Some lf => exists l, filter (in_line a) (ls_lines ls) = [l] /\ l_num l = d_line lf mod two32 /\ file_is (ce_src e) s (l_file l) (d_file lf)
  | None => filter (in_line a) (ls_lines ls) = []
  end.
Proof.
  intros Ei I NDn (evs & Hfin & Hin & Hev) L Hs a Ha. unfold pevents in Hev. rewrite Ei in Hev.
  specialize (Hev (fidx (ce_src e) P f) (oidx ns) (fidx_agree _ _ _ (si_nodup _ _ _ _ I)) (oidx_agree _ NDn)). inversion Hev as [Ev]. clear Hev. symmetry in Ev.
  set (fid := fidx (ce_src e) P f) in *.
  pose proof (pflat_sorted fid (f_lines f) None L) as S. rewrite <- Ev in S.
  destruct (pflat_last fid a (f_lines f) None L) as [(t & lf & E1 & E2 & E3 & E4)|(E1 & [E2|(lf & _ & E3)])]; [| |discriminate].
  - rewrite E2. rewrite <- Ev in E1.
    destruct (lookup_best _ _ _ _ _ a _ Hfin (fn_end_small f Hs) Ha) as (b & l & Hbest & Hl & Et).
    { destruct (filter (fun t => t_addr t <=? a) (inserted_lines evs)) as [|t0 q] eqn:Eq; [discriminate|].
      assert (In t0 (filter (fun t => t_addr t <=? a) (inserted_lines evs))) as Ht by (rewrite Eq; now left).
      apply filter_In in Ht as (Ht & Hta). exists t0; split; auto. lia. }
    pose proof (is_best_in _ _ _ Hbest) as Hb.
    apply sorted_best in Hbest; auto. rewrite E1 in Hbest. inversion Hbest; subst t. rewrite <- Et in *. destruct l; cbn in *.
    eexists; splits; eauto. cbn. eapply low_file; eauto. eapply ins_line_in; eauto.
  - rewrite E2. rewrite <- Ev in E1.
    destruct (finalize_lookup _ _ _ _ _ a Hfin) as [(_ & H)|(b & Hb & _)]; auto. exfalso.
    pose proof (is_best_in _ _ _ Hb) as Hbi. destruct Hb as (_ & _ & _ & Hle & _).
    assert (In b (filter (fun t => t_addr t <=? a) (inserted_lines evs))) as X by (apply filter_In; split; auto; lia).
    rewrite E1 in X. destruct X.
Qed.

(** Records of a finished table stem from calls. *)
Lemma stable_in' l l' t : stable_by_addr l l' -> In t l' -> In t l.
Proof.
  intros (_ & H) Ht. assert (In t (filter (fun x => t_addr x =? t_addr t) l')) as X by (apply filter_In; split; auto; lia).
  rewrite H in X. now apply filter_In in X.
Qed.
Lemma table_line_from ck rva len evs ls l : finalize ck rva len (build evs) = Ok ls -> In l (ls_lines ls) -> In (triple l) (inserted_lines evs).
Proof. intros H Hl. apply finalize_final in H as [St _]. eapply stable_in'; eauto. now apply in_map. Qed.
Lemma inserted_ranges_call s evs r : In r (inserted_ranges sp_site_eqb s evs) -> In (s, r) (inline_calls evs).
Proof.
  induction evs as [|[]]; cbn; auto. destruct (sp_site_eqb _ s) eqn:E; auto. apply sp_site_eqb_spec in E; subst. cbn. intros [->|H]; auto.
Qed.
Lemma table_site_from ck rva len evs ls s rs : finalize ck rva len (build evs) = Ok ls -> In (s, rs) (ls_inlines ls) -> exists r, In (s, r) (inline_calls evs).
Proof.
  intros H Hi. destruct (finalize_find _ _ _ _ _ H) as (S & Hf).
  apply (bfind_In site_lt site_lt_irrefl site_lt_trans site_lt_tot) in Hi; auto.
  specialize (Hf s). rewrite Hi in Hf. destruct (inserted_ranges sp_site_eqb s evs) as [|r q] eqn:E; [contradiction|].
  exists r. apply inserted_ranges_call. rewrite E. now left.
Qed.

Lemma flat_nonzero e f P ns ls : ce_inl e = false -> NoDup P -> NoDup ns -> table_of e f P ns ls ->
  Forall (fun l => d_line l < two32) (f_lines f) -> Forall (fun l => l_num l <> 0) (ls_lines ls).
Proof.
  intros Ei NP NN (evs & Hfin & Hin & Hev) B. unfold pevents in Hev. rewrite Ei in Hev.
  specialize (Hev (fidx (ce_src e) P f) (oidx ns) (fidx_agree _ _ _ NP) (oidx_agree _ NN)). inversion Hev as [Ev]. clear Hev. symmetry in Ev.
  rewrite Forall_forall in *. intros l Hl. apply (table_line_from _ _ _ _ _ _ Hfin) in Hl. rewrite Ev in Hl.
  destruct (pflat_addrs _ _ _ _ Hl) as (x & Hx & Hz & E). unfold triple in E. inversion E as [[E1 E2 E3]]. rewrite E2, u32_small by auto. auto.
Qed.

Lemma table_refs e f P ns ls : table_of e f P ns ls ->
  (forall l, In l (ls_lines ls) -> l_file l < lenN P) /\
  (forall s rs, In (s, rs) (ls_inlines ls) -> s_file s < lenN P /\ s_origin s < lenN ns).
Proof.
  intros (evs & Hfin & Hin & _). split.
  - intros l Hl. apply (table_line_from _ _ _ _ _ _ Hfin) in Hl. destruct l. eapply ins_line_in; eauto.
  - intros s rs H. destruct (table_site_from _ _ _ _ _ _ _ Hfin H) as (r & Hr). apply (ins_call_in _ _ _ (s, r) Hin Hr).
Qed.

(** * Every call stems from an inlined line (C13) *)
Lemma perm_Forall2 {A B} (R : A -> B -> Prop) (m m' : list B) : Permutation m m' -> forall l, Forall2 R l m ->
  exists l', Permutation l l' /\ Forall2 R l' m'.
Proof.
  induction 1 as [|x m m' P IH|x y m|m m' m'' P1 IH1 P2 IH2]; intros l F.
  - inversion F; subst. exists []. auto.
  - inversion F as [|a ? l0 ? Ha Fl]; subst. destruct (IH l0 Fl) as (l' & P' & F'). exists (a :: l'). auto.
  - inversion F as [|a ? l0 ? Ha Fl]; subst. inversion Fl as [|b ? l1 ? Hb Fl1]; subst. exists (b :: a :: l1). split; [apply perm_swap|auto].
  - destruct (IH1 l F) as (l' & P' & F'). destruct (IH2 l' F') as (l'' & P'' & F''). exists l''. split; auto. eapply Permutation_trans; eauto.
Qed.

(** The [add_inline] call for one inline range. *)
Definition call_of_ir (ck : bool) (fid : FileRef -> N) (depth : N) (ls : list DLine) (r : IR) (x : Site * Range) : Prop :=
  (exists l, In l ls /\ fst x = mkSite (i_origin r) depth (u32 (d_line l)) (fid (d_file l))) /\
  exists len, sub64 ck (i_end r) (i_start r) = Ok len /\ snd x = mkRange (u32 (i_start r)) (u32 len).

Lemma loop_calls ck depth ln file lend : forall inl cur prev c I2 p out,
  line_loop ck depth ln file lend inl cur prev = Ok (c, I2, p, out) ->
  exists I1, inl = I1 ++ I2 /\ Forall2 (fun r x => fst x = mkSite (i_origin r) depth ln file /\
    exists len, sub64 ck (i_end r) (i_start r) = Ok len /\ snd x = mkRange (u32 (i_start r)) (u32 len)) I1 (inline_calls out).
Proof.
  induction inl as [|r inl IH]; intros cur prev c I2 p out H; cbn [line_loop] in H.
  - destruct (cur <? lend); inversion H; subst; exists []; (split; [reflexivity|]);
      try match goal with |- context [if ?b then _ else _] => destruct b end; constructor.
  - destruct (cur <? lend); [|inversion H; subst; exists []; split; [reflexivity|constructor]].
    destruct (i_start r <? lend).
    + apply bind_ok in H as (len & Hl & H). apply bind_ok in H as ([[[c' i'] p'] o'] & H1 & H). inversion H; subst.
      destruct (IH _ _ _ _ _ _ H1) as (I1 & -> & F). exists (r :: I1). split; auto.
      rewrite inserted_inlines_app. match goal with |- context [if ?b then _ else _] => destruct b end; cbn; constructor; eauto.
    + inversion H; subst. exists []. split; [reflexivity|]. match goal with |- context [if ?b then _ else _] => destruct b end; constructor.
Qed.
Lemma walk_calls ck fid depth : forall ls skip inl prev out, pwalk ck fid depth ls skip inl prev = Ok out ->
  exists I1 I2, inl = I1 ++ I2 /\ Forall2 (call_of_ir ck fid depth ls) I1 (inline_calls out).
Proof.
  induction ls as [|l ls IH]; intros skip inl prev out H; cbn [pwalk] in H.
  - inversion H; subst. exists [], inl. split; auto. constructor.
  - assert (Mono : forall I o, Forall2 (call_of_ir ck fid depth ls) I o -> Forall2 (call_of_ir ck fid depth (l :: ls)) I o).
    { intros I o. apply Forall2_impl. intros r x ((y & Hy & E) & X). split; auto. exists y. split; auto. now right. }
    destruct (match skip with Some c => d_addr l <? c | None => false end).
    + destruct (IH _ _ _ _ H) as (I1 & I2 & -> & F). exists I1, I2. auto.
    + apply bind_ok in H as (x & _ & H). apply bind_ok in H as ([[[c i] p] o] & Hq & H). apply bind_ok in H as (r & Hr & H). inversion H; subst.
      destruct (loop_calls _ _ _ _ _ _ _ _ _ _ _ _ Hq) as (J1 & -> & F1). destruct (IH _ _ _ _ Hr) as (I1 & I2 & -> & F2).
      exists (J1 ++ I1), I2. split; [now rewrite app_assoc|]. rewrite inserted_inlines_app. apply Forall2_app; auto.
      eapply Forall2_impl; [|exact F1]. cbv beta. intros q y (E & X). split; auto. exists l. split; auto. now left.
Qed.

Definition pcall_for (ck : bool) (fid : FileRef -> N) (oid : Name -> N) (depth : N) (c : Fun * Fun * DLine) (x : Site * Range) : Prop :=
  let '(f, g, l) := c in
  (exists cl, In cl (f_lines f) /\ fst x = mkSite (oid (f_name g)) depth (u32 (d_line cl)) (fid (d_file cl))) /\
  exists en len, line_end ck l = Ok en /\ sub64 ck en (d_addr l) = Ok len /\ snd x = mkRange (u32 (d_addr l)) (u32 len).
Definition at_depth (d : N) (x : Site * Range) : bool := s_depth (fst x) =? d.
Definition calls_ok (e : CEnv) fid oid (f : Fun) (depth : N) (evs : list Ins) : Prop :=
  Forall (fun x => depth <= s_depth (fst x)) (inline_calls evs) /\
  forall d, exists used rest, Permutation (used ++ rest) (calls_at d f) /\
    Forall2 (pcall_for (ce_ck e) fid oid (depth + N.of_nat d)) used (filter (at_depth (depth + N.of_nat d)) (inline_calls evs)) /\
    (well_formed f -> sorts_ranges (ce_sort e) -> rest = []).

Lemma wf_no_lines g : well_formed g -> f_lines g = [] -> forall d, calls_at d g = [].
Proof.
  induction g as [a sz n ls inls IH] using Fun_ind'. intros W E d. inversion W as [? L Nst D Wg]; subst. cbn [f_lines f_inl] in *. subst ls.
  assert (X : forall g, In g inls -> f_lines g = []).
  { intros g Hg. rewrite Forall_forall in Nst. destruct (f_lines g) as [|x q] eqn:Eg; auto. destruct (Nst g Hg x) as (l & [] & _). rewrite Eg; now left. }
  rewrite Forall_forall in IH, Wg. destruct d; cbn [calls_at f_inl].
  - induction inls as [|g inls IHi]; auto. cbn [flat_map]. rewrite (X g) by now left. cbn.
    assert (G : forall l : list Fun, (forall g, In g l -> f_lines g = []) -> flat_map (fun g0 : Fun => map (pair (mkFun a sz n [] (g :: inls), g0)) (f_lines g0)) l = []).
    { induction l as [|h l IHl]; intros H; auto. cbn. rewrite (H h) by now left. cbn. apply IHl. intros; apply H; now right. }
    apply G. intros; apply X; now right.
  - assert (G : forall l : list Fun, (forall g, In g l -> In g inls) -> flat_map (calls_at d) l = []).
    { induction l as [|h l IHl]; intros H; auto. cbn. assert (Hh : In h inls) by (apply H; now left).
      rewrite (IH h Hh (Wg h Hh) (X h Hh) d). cbn. apply IHl. intros; apply H; now right. }
    now apply G.
Qed.

Lemma filter_all {A} (p : A -> bool) l : Forall (fun x => p x = true) l -> filter p l = l.
Proof. induction 1; cbn; auto. now rewrite H, IHForall. Qed.

Lemma rec_calls e fid oid : sort_perm (ce_sort e) -> forall f depth evs, prec e fid oid f depth = Ok evs -> calls_ok e fid oid f depth evs.
Proof.
  intros US. induction f as [a sz n ls inls IH] using Fun_ind'. intros depth evs H.
  set (f := mkFun a sz n ls inls) in *.
  assert (Hw : well_formed f -> sorts_ranges (ce_sort e) -> exists out, Ok evs = Ok out /\ length (filter (at_depth depth) (inline_calls out)) = length (calls_at 0 f)).
  { intros W US'. destruct (tree_spec e fid oid US' f W depth) as (evs0 & E0 & _). exists evs. split; auto. clear evs0 E0.
    inversion W as [? L Nst D Wg]; subst. unfold f in *; cbn [f_lines f_inl] in *. 
    destruct (pinl_spec e fid oid depth inls []) as (evss & E & F); auto.
    { rewrite Forall_forall in *. intros g Hg. now apply tree_spec; auto. }
    destruct (irs_sorted_ok (ce_sort e) oid inls US' D Wg) as (OkI & PI & AI).
    destruct (walk_spec (ce_ck e) fid depth ls None (ce_sort e (irs_of oid inls)) None L OkI) as (out & Ew & W1 & W2 & W3); [|exact I|].
    { rewrite Forall_forall. intros r Hr. apply (Permutation_in _ PI) in Hr.
      apply in_flat_map in Hr as (g & Hg & Hr). apply in_map_iff in Hr as (x & <- & Hx).
      rewrite Forall_forall in Nst. destruct (Nst g Hg x Hx) as (l & Hl & H1 & H2). exists l; auto. }
    rewrite prec_eq in H. cbn [f_inl f_lines] in H. rewrite E in H. cbn [bind fst snd app] in H. rewrite Ew in H. cbn [bind] in H. inversion H; subst evs.
    rewrite inserted_inlines_app, filter_app, app_length.
    assert (Hd : Forall (fun x => depth + 1 <= s_depth (fst x)) (inline_calls (concat evss))).
    { clear - US IH E H Wg. rewrite Forall_forall in IH.
      assert (G : forall gs irs0 irs ev, Forall (fun g => In g inls) gs -> pinl e fid oid depth gs irs0 = Ok (irs, ev) ->
        Forall (fun x => depth + 1 <= s_depth (fst x)) (inline_calls ev)).
      { induction gs as [|g gs IHg]; intros irs0 irs ev Hin Hp; [inversion Hp; constructor|].
        inversion Hin as [|? ? Hg Hgs]; subst. rewrite pinl_cons in Hp. destruct (f_lines g) as [|l0 ls0] eqn:El; [eapply IHg; eauto|].
        apply bind_ok in Hp as (rs & Hr & Hp). apply bind_ok in Hp as (ev1 & He & Hp). apply bind_ok in Hp as ([irs' ev'] & Hq & Hp).
        inversion Hp; subst; clear Hp. cbn [fst snd] in *. rewrite inserted_inlines_app. apply Forall_app; split; [|eapply IHg; eauto].
        apply (IH g Hg (depth + 1) ev1 He). }
      eapply G; [|exact E]. apply Forall_forall. auto. }
    rewrite (filter_none (at_depth depth) (inline_calls (concat evss))).
    2:{ eapply Forall_impl; [|exact Hd]. cbv beta. unfold at_depth. intros; lia. }
    rewrite filter_all.
    2:{ clear - W3. induction W3 as [|r x I calls (l & _ & _ & _ & ->) W3 IH]; constructor; auto. unfold at_depth, call_of; cbn. lia. }
    cbn [length plus calls_at f_inl]. rewrite <- (Forall2_length _ _ _ W3). rewrite (Permutation_length PI). clear.
    generalize (mkFun a sz n ls inls) as top. intros top. unfold irs_of. induction inls as [|g inls IH]; auto. cbn. rewrite !app_length, !map_length. auto. }
  rewrite prec_eq in H. unfold f in H; cbn [f_inl f_lines] in H; fold f in H. apply bind_ok in H as ([irs ev] & Hg & H). cbn [fst snd] in H.
  apply bind_ok in H as (w & Hwk & H). inversion H; subst evs; clear H.
  destruct (walk_calls _ _ _ _ _ _ _ _ Hwk) as (I1 & I2 & EI & FI).
  assert (Dw : Forall (fun x => s_depth (fst x) = depth) (inline_calls w)).
  { clear - FI. induction FI as [|r x I o ((l & _ & E) & _) F IH]; constructor; auto. now rewrite E. }
  (* inner functions *)
  assert (G : forall gs irs0 irs ev, Forall (fun g => In g inls) gs -> pinl e fid oid depth gs irs0 = Ok (irs, ev) ->
    Forall (fun x => depth + 1 <= s_depth (fst x)) (inline_calls ev) /\
    (exists rs, irs = irs0 ++ rs /\
      Forall2 (fun c r => let '(p, g, l) := c in p = f /\ i_start r = d_addr l /\ line_end (ce_ck e) l = Ok (i_end r) /\ i_origin r = oid (f_name g))
        (flat_map (fun g => map (pair (f, g)) (f_lines g)) gs) rs) /\
    forall d, exists used rest, Permutation (used ++ rest) (flat_map (calls_at d) gs) /\
      Forall2 (pcall_for (ce_ck e) fid oid (depth + 1 + N.of_nat d)) used (filter (at_depth (depth + 1 + N.of_nat d)) (inline_calls ev)) /\
      (Forall well_formed gs -> sorts_ranges (ce_sort e) -> rest = [])).
  { clear - IH US. rewrite Forall_forall in IH. induction gs as [|g gs IHg]; intros irs0 irs ev Hin Hp.
    - inversion Hp; subst. splits; [constructor| |].
      + exists []. split; [now rewrite app_nil_r|constructor].
      + intros d. exists [], []. splits; auto. constructor.
    - inversion Hin as [|? ? Hg Hgs]; subst. rewrite pinl_cons in Hp. destruct (f_lines g) as [|l0 ls0] eqn:El.
      + destruct (IHg _ _ _ Hgs Hp) as (A & (rs & B1 & B2) & C). splits; auto.
        * exists rs. split; auto. cbn [flat_map]. rewrite El. exact B2.
        * intros d. destruct (C d) as (used & rest & C1 & C2 & C3). exists used, (rest ++ calls_at d g). splits; auto.
          -- cbn [flat_map]. rewrite app_assoc, C1. apply Permutation_app_comm.
          -- intros W US'. inversion W; subst. rewrite C3, wf_no_lines; auto.
      + rewrite <- El in *. apply bind_ok in Hp as (rs & Hr & Hp). apply bind_ok in Hp as (ev1 & He & Hp). apply bind_ok in Hp as ([irs' ev'] & Hq & Hp).
        inversion Hp; subst; clear Hp. cbn [fst snd] in *. destruct (IHg _ _ _ Hgs Hq) as (A & (rs' & B1 & B2) & C).
        destruct (IH g Hg (depth + 1) ev1 He) as (A1 & C1). splits.
        * rewrite inserted_inlines_app. apply Forall_app; split; auto.
        * exists (rs ++ rs'). split; [now rewrite app_assoc|]. cbn [flat_map]. apply Forall2_app; auto. clear - Hr.
          revert rs Hr. unfold line_ranges. induction (f_lines g) as [|l q IH]; cbn; intros rs H; [inversion H; constructor|].
          apply bind_ok in H as (r & H1 & H). apply bind_ok in H as (rs1 & H2 & H). inversion H; subst. apply bind_ok in H1 as (x & Hx & H1). inversion H1; subst.
          constructor; auto.
        * intros d. destruct (C d) as (used & rest & D1 & D2 & D3). destruct (C1 d) as (used1 & rest1 & F1 & F2 & F3).
          exists (used1 ++ used), (rest1 ++ rest). splits.
          -- cbn [flat_map]. rewrite <- F1, <- D1. rewrite <- !app_assoc. apply Permutation_app_head. rewrite !app_assoc. apply Permutation_app_tail. apply Permutation_app_comm.
          -- rewrite inserted_inlines_app, filter_app. apply Forall2_app; auto.
          -- intros W US'. inversion W; subst. rewrite F3, D3; auto. }
  destruct (G inls [] irs ev (proj2 (Forall_forall _ _) (fun _ h => h)) Hg) as (Dg & (rs & Ers & Frs) & Cg). cbn [app] in Ers. subst rs. clear G.
  split.
  - rewrite inserted_inlines_app. apply Forall_app; split.
    + eapply Forall_impl; [|exact Dg]. cbv beta. intros; lia.
    + eapply Forall_impl; [|exact Dw]. cbv beta. intros; lia.
  - intros [|d].
    + cbn [calls_at]. replace (depth + N.of_nat 0) with depth by lia.
      assert (Ef : filter (at_depth depth) (inline_calls (ev ++ w)) = inline_calls w).
      { rewrite inserted_inlines_app, filter_app, filter_none, filter_all; auto.
        - eapply Forall_impl; [|exact Dw]. cbv beta. unfold at_depth. intros; lia.
        - eapply Forall_impl; [|exact Dg]. cbv beta. unfold at_depth. intros; lia. }
      assert (Pm : Permutation irs (I1 ++ I2)) by (rewrite <- EI; symmetry; apply US).
      destruct (perm_Forall2 _ _ _ Pm _ Frs) as (cs & Pc & Fc).
      apply Forall2_app_inv_r in Fc as (used & rest & Fu & Fr & ->).
      exists used, rest. splits.
      * unfold f; cbn [f_inl]; fold f. now symmetry.
      * rewrite Ef. clear - Fu FI. revert used Fu. induction FI as [|r x I o ((cl & Hcl & E) & len & El & Er) F IH]; intros used Fu.
        -- inversion Fu; constructor.
        -- inversion Fu as [|[[p g] l] ? used' ? (-> & B1 & B2 & B3) Fu']; subst. constructor; auto. cbn. split.
           ++ exists cl. split; [exact Hcl|now rewrite E, B3].
           ++ exists (i_end r), len. rewrite <- B1. auto.
      * intros W US'. destruct (Hw W US') as (out & Eo & Hlen). inversion Eo; subst out. rewrite Ef in Hlen.
        rewrite <- (Forall2_length _ _ _ FI) in Hlen. rewrite <- (Forall2_length _ _ _ Fu) in Hlen.
        apply Permutation_length in Pc. cbn [calls_at] in Hlen. unfold f in Hlen; cbn [f_inl] in Hlen; fold f in Hlen. rewrite app_length in Pc.
        destruct rest; auto. cbn in Pc. lia.
    + cbn [calls_at]. destruct (Cg d) as (used & rest & D1 & D2 & D3). exists used, rest.
      replace (depth + N.of_nat (S d)) with (depth + 1 + N.of_nat d) by lia. splits; auto.
      * rewrite inserted_inlines_app, filter_app, (filter_none _ (inline_calls w)); [now rewrite app_nil_r|].
        eapply Forall_impl; [|exact Dw]. cbv beta. unfold at_depth. intros; lia.
      * intros W US'. apply D3; auto. now inversion W.
Qed.

(** * The finished object *)

Lemma funcs_record e fs m s o : collected e fs m s o ->
  filed m /\
  forall k, match funcs_at k (readable fs) with
            | [] => nfind k m = None
            | f :: rest => exists sym, nfind k m = Some sym /\ from_fun e f (more rest) sym
            end.
Proof.
  intros H. destruct (functions_spec e fs m s o H) as (S & F).
  assert (G : forall k, match funcs_at k (readable fs) with
            | [] => nfind k m = None
            | f :: rest => exists sym, nfind k m = Some sym /\ from_fun e f (more rest) sym
            end).
  { intros k. specialize (F k). destruct (funcs_at k (readable fs)); auto. destruct F as (sym & A & B & _). eauto. }
  split; auto. split; auto. intros k sym Hk. specialize (G k). destruct (funcs_at k (readable fs)) as [|f rest] eqn:E; [congruence|].
  destruct G as (sym' & A & B). rewrite Hk in A. inversion A; subst sym'. destruct B as (_ & _ & _ & _ & B & _).
  assert (In f (funcs_at k (readable fs))) as Hf by (rewrite E; now left). apply filter_In in Hf as (_ & Hf).
  split; [rewrite B; lia|]. pose proof (u32_lt (f_addr f)). unfold u32 in *. lia.
Qed.

Lemma collected_table e fs m s o k f rest sym : sorts_ranges (ce_sort e) -> consistent (flat_map fun_refs (readable fs)) ->
  collected e fs m s o -> funcs_at k (readable fs) = f :: rest -> nfind k m = Some sym ->
  exists kp P ns, SrcInv (ce_src e) kp P s /\ OrigInv (ce_dm e) ns o /\ table_of e f P ns (sy_source sym).
Proof.
  intros US C H Hf Hk. destruct (consistent_kp (ce_src e) _ C) as (kp & K).
  destruct (functions_tables e fs m s o kp (sorts_perm _ US) K H) as (P & ns & I & J & _ & F).
  specialize (F k). rewrite Hf in F. destruct F as (sym' & A & _ & T). rewrite Hk in A. inversion A; subst. exists kp, P, ns. auto.
Qed.

Lemma c14_line e fs m s o k f rest sym : ce_inl e = true -> sorts_ranges (ce_sort e) -> consistent (flat_map fun_refs (readable fs)) ->
  collected e fs m s o -> funcs_at k (readable fs) = f :: rest -> nfind k m = Some sym ->
  well_formed f -> no_gaps_inside (ce_src e) f -> f_addr f + f_size f < two32 ->
  forall a st lf, frames f a st lf -> a < f_addr f + f_size f ->
  exists l, filter (in_line a) (ls_lines (sy_source sym)) = [l] /\ l_num l = d_line lf mod two32 /\ file_is (ce_src e) s (l_file l) (d_file lf).
Proof. intros Ei US C H Hf Hk. destruct (collected_table e fs m s o k f rest sym US C H Hf Hk) as (kp & P & ns & I & J & T). eapply final_line; eauto. Qed.
Lemma c14_exact e fs m s o k f rest sym : ce_inl e = true -> sorts_ranges (ce_sort e) -> consistent (flat_map fun_refs (readable fs)) ->
  collected e fs m s o -> funcs_at k (readable fs) = f :: rest -> nfind k m = Some sym ->
  well_formed f -> f_addr f + f_size f < two32 ->
  (forall a b lf, starts (same_info (ce_src e)) f b lf -> b <= a -> (forall x y, b < x <= a -> ~ starts (same_info (ce_src e)) f x y) -> a < f_addr f + f_size f ->
    exists l, filter (in_line a) (ls_lines (sy_source sym)) = [l] /\ l_num l = d_line lf mod two32 /\ file_is (ce_src e) s (l_file l) (d_file lf)) /\
  (forall a, (forall x y, x <= a -> ~ starts (same_info (ce_src e)) f x y) -> filter (in_line a) (ls_lines (sy_source sym)) = []) /\
  (forall a, covers f a -> exists b lf, b <= a /\ starts (same_info (ce_src e)) f b lf /\ forall x y, b < x <= a -> ~ starts (same_info (ce_src e)) f x y).
Proof. intros Ei US C H Hf Hk W Sz. destruct (collected_table e fs m s o k f rest sym US C H Hf Hk) as (kp & P & ns & I & J & T). eapply final_exact; eauto. Qed.
Lemma c14_gap e fs m s o k f rest sym : ce_inl e = true -> sorts_ranges (ce_sort e) -> consistent (flat_map fun_refs (readable fs)) ->
  collected e fs m s o -> funcs_at k (readable fs) = f :: rest -> nfind k m = Some sym ->
  well_formed f -> f_addr f + f_size f < two32 ->
  forall a st lf, frames f a st lf -> a < f_addr f + f_size f ->
  (exists l, filter (in_line a) (ls_lines (sy_source sym)) = [l] /\ l_num l = d_line lf mod two32 /\ file_is (ce_src e) s (l_file l) (d_file lf)) \/
  (exists h pre x y post, below f h /\ f_lines h = pre ++ x :: y :: post /\ same_info (ce_src e) x y /\ dl_end x < d_addr y /\ d_addr y <= a /\ same_info (ce_src e) y lf).
Proof. intros Ei US C H Hf Hk. destruct (collected_table e fs m s o k f rest sym US C H Hf Hk) as (kp & P & ns & I & J & T). eapply final_gap; eauto. Qed.
Lemma c15_line e fs m s o k f rest sym : ce_inl e = true -> sorts_ranges (ce_sort e) -> consistent (flat_map fun_refs (readable fs)) ->
  collected e fs m s o -> funcs_at k (readable fs) = f :: rest -> nfind k m = Some sym ->
  well_formed f -> f_addr f + f_size f < two32 ->
  forall a lf, In lf (f_lines f) -> in_dl a lf -> (forall g, In g (f_inl f) -> ~ covers g a) -> a < f_addr f + f_size f ->
  exists l, filter (in_line a) (ls_lines (sy_source sym)) = [l] /\ l_num l = d_line lf mod two32 /\ file_is (ce_src e) s (l_file l) (d_file lf).
Proof.
  intros Ei US C H Hf Hk W Hs a lf Hl Ha Hn Hlt. destruct (collected_table e fs m s o k f rest sym US C H Hf Hk) as (kp & P & ns & I & J & T).
  eapply final_self_line; eauto. now constructor.
Qed.
Lemma c14_inlines e fs m s o k f rest sym : ce_inl e = true -> sorts_ranges (ce_sort e) -> consistent (flat_map fun_refs (readable fs)) ->
  collected e fs m s o -> funcs_at k (readable fs) = f :: rest -> nfind k m = Some sym -> well_formed f ->
  (forall a st lf, frames f a st lf ->
    exists ss, sites_are e s o 0 st ss /\ forall site, cover_count a (ranges_of site (sy_source sym)) = count_occ site_dec ss site) /\
  (forall a, ~ covers f a -> forall site, cover_count a (ranges_of site (sy_source sym)) = 0%nat).
Proof.
  intros Ei US C H Hf Hk W. destruct (collected_table e fs m s o k f rest sym US C H Hf Hk) as (kp & P & ns & I & J & T).
  split; [eapply final_inlines; eauto|eapply final_inlines_none; eauto].
Qed.
Lemma c14_stack f a : well_formed f -> covers f a -> exists st lf, frames f a st lf /\
  forall st' lf', frames f a st' lf' -> st' = st /\ lf' = lf.
Proof.
  intros W C. destruct (frames_exist f W a C) as (st & lf & H). exists st, lf. split; auto. intros st' lf' H'.
  destruct (frames_unique f W _ _ _ _ _ H H'). auto.
Qed.

Lemma c16_lookup e fs m s o k f rest sym : ce_inl e = false -> sorts_ranges (ce_sort e) -> consistent (flat_map fun_refs (readable fs)) ->
  collected e fs m s o -> funcs_at k (readable fs) = f :: rest -> nfind k m = Some sym ->
  StronglySorted (fun a b => d_addr a <= d_addr b) (f_lines f) -> Forall (fun l => d_addr l < two32) (f_lines f) ->
  f_addr f + f_size f < two32 -> forall a, a < f_addr f + f_size f ->
  match flat_line a (f_lines f) with
  | Some lf => exists l, filter (in_line a) (ls_lines (sy_source sym)) = [l] /\ l_num l = d_line lf mod two32 /\
                 file_is (ce_src e) s (l_file l) (d_file lf)
  | None => filter (in_line a) (ls_lines (sy_source sym)) = []
  end.
Proof.
  intros Ei US C H Hf Hk S B Hs a Ha. destruct (collected_table e fs m s o k f rest sym US C H Hf Hk) as (kp & P & ns & I & J & T).
  eapply final_flat; eauto; [apply J|split; auto].
Qed.
Lemma c16_nonzero e fs m s o k f rest sym : ce_inl e = false -> sorts_ranges (ce_sort e) -> consistent (flat_map fun_refs (readable fs)) ->
  collected e fs m s o -> funcs_at k (readable fs) = f :: rest -> nfind k m = Some sym ->
  Forall (fun l => d_line l < two32) (f_lines f) -> Forall (fun l => l_num l <> 0) (ls_lines (sy_source sym)).
Proof.
  intros Ei US C H Hf Hk B. destruct (collected_table e fs m s o k f rest sym US C H Hf Hk) as (kp & P & ns & I & J & T).
  eapply flat_nonzero; eauto; [apply I|apply J].
Qed.

Lemma c17_refs e fs m s o : sorts_ranges (ce_sort e) -> consistent (flat_map fun_refs (readable fs)) -> collected e fs m s o ->
  (exists P, NoDup P /\ sf_ids s = map (sp_shown (ce_src e)) P) /\
  forall k sym, nfind k m = Some sym ->
  (forall l, In l (ls_lines (sy_source sym)) -> exists p, nthN (sf_ids s) (l_file l) = Some p) /\
  (forall x rs, In (x, rs) (ls_inlines (sy_source sym)) ->
     (exists p, nthN (sf_ids s) (s_file x) = Some p) /\ exists n, nthN (og_names o) (s_origin x) = Some n).
Proof.
  intros US C H. destruct (consistent_kp (ce_src e) _ C) as (kp & K).
  destruct (functions_tables e fs m s o kp (sorts_perm _ US) K H) as (P & ns & I & J & _ & F).
  assert (L1 : lenN (sf_ids s) = lenN P) by (rewrite (si_ids _ _ _ _ I); unfold lenN; now rewrite map_length).
  assert (L2 : lenN (og_names o) = lenN ns) by (rewrite (oi_names _ _ _ J); unfold lenN; now rewrite map_length).
  split; [exists P; split; apply I|].
  intros k sym Hk. specialize (F k). destruct (funcs_at k (readable fs)) as [|f rest]; [congruence|].
  destruct F as (sym' & A & _ & T). rewrite Hk in A; inversion A; subst sym'. apply table_refs in T as (T1 & T2). split.
  - intros l Hl. apply nthN_lt_some. rewrite L1. auto.
  - intros x rs Hx. destruct (T2 x rs Hx). split; apply nthN_lt_some; [rewrite L1|rewrite L2]; auto.
Qed.

(** C13 on the calls of one function. *)
Lemma Forall2_In_impl {A B} (R R' : A -> B -> Prop) l l' : (forall x y, In x l -> In y l' -> R x y -> R' x y) -> Forall2 R l l' -> Forall2 R' l l'.
Proof.
  intros H F. induction F as [|x y l l' Hxy F IH]; constructor.
  - apply H; auto; now left.
  - apply IH. intros; apply H; auto; now right.
Qed.
Lemma range_len ck l en len : line_end ck l = Ok en -> sub64 ck en (d_addr l) = Ok len -> d_addr l < two64 -> u32 len = dl_size l mod two32.
Proof.
  unfold line_end, sub64, sub_w, add64, add_w, u32. change (match d_size l with Some s => s | None => 1 end) with (dl_size l).
  destruct (N.ltb_spec (d_addr l + dl_size l) two64) as [Ha|Ha].
  - intros [= <-]. destruct (N.leb_spec (d_addr l) (d_addr l + dl_size l)); [|lia]. intros [= <-] _. f_equal. lia.
  - destruct ck; [discriminate|]. intros [= <-]. intros H Hlt.
    pose proof (N.div_mod (d_addr l + dl_size l) two64 ltac:(discriminate)) as D. set (q := (d_addr l + dl_size l) / two64) in *. set (r := (d_addr l + dl_size l) mod two64) in *.
    assert (Hq : 1 <= q). { unfold q. apply N.div_le_lower_bound; [discriminate|lia]. }
    assert (E : forall k, (dl_size l + k * two64) mod two32 = dl_size l mod two32).
    { intros k. replace (k * two64) with ((k * two32) * two32) by (unfold two64, two32; lia). apply N.mod_add. discriminate. }
    destruct (N.leb_spec (d_addr l) r) as [Hr|Hr]; inversion H; subst len.
    + rewrite <- (E 0). replace (dl_size l + 0 * two64) with ((r - d_addr l) + (q * two32) * two32) by (unfold two64, two32 in *; lia).
      symmetry. apply N.mod_add. discriminate.
    + replace (dl_size l) with ((r + two64 - d_addr l) + ((q - 1) * two32) * two32) by (unfold two64, two32 in *; lia).
      symmetry. apply N.mod_add. discriminate.
Qed.
Lemma calls_at_tree : forall d f p g l, In (p, g, l) (calls_at d f) -> In l (tree_lines f).
Proof.
  induction d as [|d IH]; intros f p g l H; cbn [calls_at] in H.
  - apply in_flat_map in H as (h & Hh & H). apply in_map_iff in H as (x & E & Hx). inversion E; subst. eapply tree_lines_inl; eauto. now apply tree_lines_self.
  - apply in_flat_map in H as (h & Hh & H). eapply tree_lines_inl; eauto.
Qed.
Lemma c13_calls e fs m s o f evs s' o' : sorts_ranges (ce_sort e) -> consistent (flat_map fun_refs (readable fs) ++ fun_refs f) ->
  collected e fs m s o -> collect_rec e f 0 s o = Ok (evs, s', o') -> addr64 f ->
  forall d, exists used rest, Permutation (used ++ rest) (calls_at d f) /\
    Forall2 (call_for e s' o' (N.of_nat d)) used (filter (fun x => s_depth (fst x) =? N.of_nat d) (inline_calls evs)) /\
    (well_formed f -> rest = []).
Proof.
  intros US C H Hr A64 d. destruct (consistent_kp (ce_src e) _ C) as (kp & K).
  destruct (functions_tables e fs m s o kp (sorts_perm _ US)) as (P & ns & I & J & _ & _); auto.
  { intros r Hi. apply K. apply in_or_app; auto. }
  destruct (rec_pure e kp (sorts_perm _ US) f 0 P ns s o evs s' o' I J) as (P' & ns' & I' & J' & _ & _ & A & F); auto.
  { intros r Hi. apply K. apply in_or_app; auto. }
  specialize (A (fidx (ce_src e) P' f) (oidx ns') (fidx_agree _ _ _ (si_nodup _ _ _ _ I')) (oidx_agree _ (oi_nodup _ _ _ J'))).
  destruct (rec_calls e _ _ (sorts_perm _ US) f 0 evs A) as (_ & Hc). destruct (Hc d) as (used & rest & C1 & C2 & C3).
  rewrite N.add_0_l in C2. exists used, rest. splits; auto. eapply Forall2_In_impl; [|exact C2].
  intros [[p g] l] x Hu Hx ((cl & Hcl & E) & en & len & El & Es & Er). apply filter_In in Hx as (Hx & _).
  destruct (ins_call_in _ _ _ _ F Hx) as (B1 & B2). rewrite E in B1, B2. cbn in B1, B2. cbn. splits.
  - exists cl. split; auto. rewrite E. unfold site_is; cbn. splits; auto; [now apply (low_file e f kp P' s')|eapply low_origin; eauto].
  - now rewrite Er.
  - rewrite Er. cbn. eapply range_len; eauto. unfold addr64 in A64. rewrite Forall_forall in A64. apply A64.
    eapply (calls_at_tree d). eapply Permutation_in; [exact C1|]. apply in_or_app; left; eauto.
Qed.
