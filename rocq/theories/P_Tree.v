From Verif Require Import Base Sort BMap Str M_Names M_Path M_Line S_Line P_Line M_Source S_Source P_Source M_Symbol M_Collector S_Collector P_Collector P_Walk.

(** * Pairs of a list *)
Lemma FOP_app {A} (R : A -> A -> Prop) l1 l2 : ForallOrdPairs R l1 -> ForallOrdPairs R l2 ->
  (forall x y, In x l1 -> In y l2 -> R x y) -> ForallOrdPairs R (l1 ++ l2).
Proof.
  induction 1 as [|x l1 F FO IH]; intros H2 H; simpl; auto. constructor.
  - apply Forall_app; split; auto. rewrite Forall_forall. intros y Hy. apply H; auto. now left.
  - apply IH; auto. intros; apply H; auto. now right.
Qed.
Lemma FOP_perm {A} (R : A -> A -> Prop) l l' : (forall x y, R x y -> R y x) -> Permutation l l' ->
  ForallOrdPairs R l -> ForallOrdPairs R l'.
Proof.
  intros Sy. induction 1 as [|x l l' P IH|x y l|l l' l'' P1 IH1 P2 IH2]; intros H; auto.
  - inversion H; subst. constructor; auto. eapply Permutation_Forall; eauto.
  - inversion H as [|? ? F H1]; subst. inversion H1 as [|? ? F2 H2]; subst. inversion F; subst.
    constructor; [constructor; auto|constructor; auto].
Qed.

(** * Inline ranges of the inlined functions *)
Definition ir_of (oid : Name -> N) (g : Fun) (l : DLine) : IR := mkIR (d_addr l) (dl_end l) (oid (f_name g)).
Definition irs_of (oid : Name -> N) (gs : list Fun) : list IR := flat_map (fun g => map (ir_of oid g) (f_lines g)) gs.
Definition apart (r q : IR) : Prop := forall a, ~ (in_ir a r /\ in_ir a q).

Lemma line_ranges_ok ck oid g ls : lines_ok ls -> line_ranges ck (oid (f_name g)) ls = Ok (map (ir_of oid g) ls).
Proof.
  intros (_ & F). unfold line_ranges. apply mapM_map. intros l Hl. rewrite Forall_forall in F. destruct (F l Hl).
  rewrite line_end_ok by auto. reflexivity.
Qed.

Lemma lines_apart oid g ls : lines_ok ls -> ForallOrdPairs apart (map (ir_of oid g) ls).
Proof.
  intros (S & _). induction S as [|l ls S IH F]; simpl; constructor; auto.
  rewrite Forall_map. eapply Forall_impl; [|exact F]. cbv beta. intros x Hx a. unfold in_ir, ir_of; simpl. lia.
Qed.
Lemma irs_apart oid gs : ForallOrdPairs disjoint gs -> Forall well_formed gs -> ForallOrdPairs apart (irs_of oid gs).
Proof.
  induction gs as [|g gs IH]; intros D W; simpl; [constructor|].
  inversion D as [|? ? D1 D2]; subst. inversion W as [|? ? W1 W2]; subst. inversion W1; subst.
  apply FOP_app; auto; [now apply lines_apart|].
  intros x y Hx Hy a (Ha & Hb). apply in_map_iff in Hx as (l & <- & Hl).
  apply in_flat_map in Hy as (h & Hh & Hy). apply in_map_iff in Hy as (l2 & <- & Hl2).
  rewrite Forall_forall in D1. apply (D1 h Hh a). split; eexists; eauto.
Qed.
Lemma irs_bounds oid gs : Forall well_formed gs -> Forall (fun r => i_start r < i_end r /\ i_end r < two32) (irs_of oid gs).
Proof.
  intros W. rewrite Forall_forall in *. intros r Hr. apply in_flat_map in Hr as (h & Hh & Hr). apply in_map_iff in Hr as (l & <- & Hl).
  specialize (W h Hh). inversion W as [? (_ & F)]; subst. rewrite Forall_forall in F. apply (F l Hl).
Qed.
Lemma irs_sorted_ok us oid gs : sorts_ranges us -> ForallOrdPairs disjoint gs -> Forall well_formed gs ->
  irs_ok (us (irs_of oid gs)) /\ Permutation (us (irs_of oid gs)) (irs_of oid gs) /\ ForallOrdPairs apart (us (irs_of oid gs)).
Proof.
  intros US D W. destruct (US (irs_of oid gs)) as (P & S).
  assert (F : Forall (fun r => i_start r < i_end r /\ i_end r < two32) (us (irs_of oid gs))).
  { eapply Permutation_Forall; [symmetry; exact P|now apply irs_bounds]. }
  assert (A : ForallOrdPairs apart (us (irs_of oid gs))).
  { eapply FOP_perm; [|symmetry; exact P|now apply irs_apart]. unfold apart. intros x y H a (H1 & H2). apply (H a); auto. }
  splits; auto. split; auto. clear P. revert S F A. generalize (us (irs_of oid gs)). intros I S.
  induction S as [|r l S IH Fs]; intros F A; constructor.
  - inversion F; subst. inversion A; subst. auto.
  - inversion F as [|? ? Hr Fl]; inversion A as [|? ? Ar Al]; subst. rewrite Forall_forall in *. intros q Hq.
    specialize (Fs q Hq). specialize (Ar q Hq (i_start q)). specialize (Fl q Hq). unfold in_ir in Ar. cbv beta in Fs, Fl. lia.
Qed.
Lemma in_irs oid gs a : (exists r, In r (irs_of oid gs) /\ in_ir a r) <-> exists g, In g gs /\ covers g a.
Proof.
  split.
  - intros (r & Hr & Ha). apply in_flat_map in Hr as (g & Hg & Hr). apply in_map_iff in Hr as (l & <- & Hl).
    exists g; split; auto. exists l; auto.
  - intros (g & Hg & l & Hl & Ha). exists (ir_of oid g l). split; auto. apply in_flat_map. exists g; split; auto. now apply in_map.
Qed.
Lemma off_irs us oid gs a : sorts_ranges us -> off (us (irs_of oid gs)) a <-> forall g, In g gs -> ~ covers g a.
Proof.
  intros US. destruct (US (irs_of oid gs)) as (P & _). split.
  - intros H g Hg Hc. destruct (proj2 (in_irs oid gs a)) as (r & Hr & Ha); [eauto|].
    apply (H r); auto. eapply Permutation_in; [symmetry; exact P|exact Hr].
  - intros H r Hr Ha. destruct (proj1 (in_irs oid gs a)) as (g & Hg & Hc).
    + exists r; split; auto. eapply Permutation_in; [exact P|exact Hr].
    + exact (H g Hg Hc).
Qed.

(** * Frames *)
Lemma frames_covers f a st lf : frames f a st lf -> covers f a.
Proof. intros H; inversion H; subst; eexists; eauto. Qed.
Lemma line_unique ls a x y : lines_ok ls -> In x ls -> In y ls -> in_dl a x -> in_dl a y -> x = y.
Proof.
  intros (S & _). induction S as [|l ls S IH F]; [easy|]. rewrite Forall_forall in F. unfold in_dl.
  intros [->|Hx] [->|Hy] Ha Hb; auto.
  - specialize (F y Hy). lia.
  - specialize (F x Hx). lia.
Qed.
Lemma inl_unique gs g h a : ForallOrdPairs disjoint gs -> In g gs -> In h gs -> covers g a -> covers h a -> g = h.
Proof.
  intros D Hg Hh Cg Ch. destruct (ForallOrdPairs_In D g h Hg Hh) as [|[H|H]]; auto; exfalso; apply (H a); auto.
Qed.
Lemma frames_unique f : well_formed f -> forall a st lf st' lf', frames f a st lf -> frames f a st' lf' -> st = st' /\ lf = lf'.
Proof.
  induction f as [ad sz n ls inls IH] using Fun_ind'. intros W a st lf st' lf' H1 H2.
  inversion W as [? L Nst D Wg]; subst. cbn [f_lines f_inl] in *.
  inversion H1 as [? ? l Hl Ha Hn|? g ? l st1 ? Hl Ha Hg Hf]; inversion H2 as [? ? l2 Hl2 Ha2 Hn2|? g2 ? l2 st2 ? Hl2 Ha2 Hg2 Hf2]; subst; cbn [f_lines f_inl] in *.
  - split; auto. eapply line_unique; eauto.
  - exfalso. eapply Hn; eauto. eapply frames_covers; eauto.
  - exfalso. eapply Hn2; eauto. eapply frames_covers; eauto.
  - assert (g = g2) by (eapply inl_unique; eauto; eapply frames_covers; eauto). subst g2.
    assert (l = l2) by (eapply line_unique; eauto). subst l2.
    rewrite Forall_forall in IH, Wg. destruct (IH g Hg (Wg g Hg) _ _ _ _ _ Hf Hf2). subst. auto.
Qed.
Lemma covers_dec g a : {covers g a} + {~ covers g a}.
Proof.
  destruct (existsb (fun l => (d_addr l <=? a) && (a <? dl_end l)) (f_lines g)) eqn:E.
  - left. apply existsb_exists in E as (l & Hl & H). exists l; split; auto. unfold in_dl. lia.
  - right. intros (l & Hl & H). rewrite <- not_true_iff_false in E. apply E. apply existsb_exists. exists l; split; auto. unfold in_dl in H. lia.
Qed.
Lemma one_covers gs a : {g | In g gs /\ covers g a} + {forall g, In g gs -> ~ covers g a}.
Proof.
  induction gs as [|g gs [(h & Hh & Hc)|IH]]; [right; easy|left; exists h; split; auto; now right|].
  destruct (covers_dec g a) as [Hc|Hc]; [left; exists g; split; auto; now left|].
  right. intros h [<-|Hh]; auto.
Qed.
Lemma frames_exist f : well_formed f -> forall a, covers f a -> exists st lf, frames f a st lf.
Proof.
  induction f as [ad sz n ls inls IH] using Fun_ind'. intros W a (l & Hl & Ha).
  inversion W as [? L Nst D Wg]; subst. cbn [f_lines f_inl] in *.
  destruct (one_covers inls a) as [(g & Hg & Hc)|Hn].
  - rewrite Forall_forall in IH, Wg. destruct (IH g Hg (Wg g Hg) a Hc) as (st & lf & Hf).
    exists ((f_name g, l) :: st), lf. econstructor; eauto.
  - exists [], l. constructor; auto.
Qed.

Lemma starts_frames same f : well_formed f -> forall a l, starts same f a l -> exists st, frames f a st l.
Proof.
  induction f as [ad sz n ls inls IH] using Fun_ind'. intros W a l H. inversion W as [? L Nst D Wg]; subst. cbn [f_lines f_inl] in *.
  inversion H as [? ? ? Hf _ _|? g ? ? Hg Hs]; subst; cbn [f_inl] in *; [eauto|].
  rewrite Forall_forall in *. destruct (IH g Hg (Wg g Hg) a l Hs) as (st & Hf).
  destruct (frames_covers _ _ _ _ Hf) as (x & Hx & Ha). destruct (Nst g Hg x Hx) as (l2 & Hl2 & H1 & H2).
  exists ((f_name g, l2) :: st). econstructor; eauto. unfold in_dl in *. cbn [f_lines] in *. lia.
Qed.

Lemma frames_lift f g a st lf : well_formed f -> In g (f_inl f) -> frames g a st lf -> exists st', frames f a st' lf.
Proof.
  intros W Hg Hf. inversion W as [? L Nst D Wg]; subst. destruct (frames_covers _ _ _ _ Hf) as (x & Hx & Ha).
  rewrite Forall_forall in Nst. destruct (Nst g Hg x Hx) as (l & Hl & H1 & H2). exists ((f_name g, l) :: st). econstructor; eauto. unfold in_dl in *. lia.
Qed.
Lemma below_wf f h : below f h -> well_formed f -> well_formed h.
Proof.
  induction 1 as [f g Hg|f g h Hg Hb IH]; intros W; inversion W as [? _ _ _ Wg]; subst; rewrite Forall_forall in Wg; auto.
Qed.
Lemma below_lift f h : below f h -> well_formed f -> forall a st lf, frames h a st lf -> exists st', frames f a st' lf.
Proof.
  induction 1 as [f g Hg|f g h Hg Hb IH]; intros W a st lf Hf; [eapply frames_lift; eauto|].
  destruct (IH (below_wf _ _ (bl_here f g Hg) W) a st lf Hf) as (st1 & H1). eapply frames_lift; eauto.
Qed.
Lemma below_starts same f h : below f h -> forall a l, starts same h a l -> starts same f a l.
Proof. induction 1 as [f g Hg|f g h Hg Hb IH]; intros a l Hs; eapply st_inl; eauto. Qed.
Lemma frames_inner f a st lf : frames f a st lf -> st = [] \/ exists h, below f h /\ frames h a [] lf.
Proof.
  induction 1 as [f a l Hl Ha Hn|f g a l st lf Hl Ha Hg Hf IH]; [now left|]. right.
  destruct IH as [->|(h & Hb & Hh)]; [exists g|exists h]; split; auto; [now apply bl_here|now apply bl_in with g].
Qed.

(** * Counting inline records *)
Definition hits (a : N) (s : Site) (x : Site * Range) : bool := sp_site_eqb (fst x) s && in_range a (snd x).
Definition cnt (a : N) (s : Site) (l : list (Site * Range)) : nat := length (filter (hits a s) l).
Lemma cnt_app a s l1 l2 : cnt a s (l1 ++ l2) = (cnt a s l1 + cnt a s l2)%nat.
Proof. unfold cnt. rewrite filter_app, app_length. reflexivity. Qed.
Lemma cnt_cons a s x l : cnt a s (x :: l) = ((if hits a s x then 1 else 0) + cnt a s l)%nat.
Proof. unfold cnt; cbn [filter]. destruct (hits a s x); reflexivity. Qed.
Lemma cnt_ranges a s evs : cover_count a (inserted_ranges sp_site_eqb s evs) = cnt a s (inserted_inlines evs).
Proof.
  unfold cover_count, cnt. induction evs as [|[ad n f|x r] evs IH]; simpl; auto.
  unfold hits at 1; simpl. destruct (sp_site_eqb x s); simpl; auto. destruct (in_range a r); simpl; auto.
Qed.

Fixpoint psites (fid : FileRef -> N) (oid : Name -> N) (depth : N) (st : list (Name * DLine)) : list Site :=
  match st with
  | [] => []
  | (n, l) :: st => mkSite (oid n) depth (u32 (d_line l)) (fid (d_file l)) :: psites fid oid (depth + 1) st
  end.

Lemma calls_count a s depth fid (ls : list DLine) I calls :
  lines_ok ls ->
  Forall2 (fun r x => exists l, In l ls /\ d_addr l <= i_start r /\ i_end r <= dl_end l /\ x = call_of depth (info fid l) r) I calls ->
  Forall (fun r => i_start r < i_end r /\ i_end r < two32) I ->
  ForallOrdPairs apart I ->
  (off I a -> cnt a s calls = 0%nat) /\
  (forall r l, In r I -> in_ir a r -> In l ls -> in_dl a l ->
     cnt a s calls = if site_dec (mkSite (i_origin r) depth (fst (info fid l)) (snd (info fid l))) s then 1%nat else 0%nat).
Proof.
  intros L. induction 1 as [|r x I calls (l0 & Hl0 & B1 & B2 & ->) F2 IH]; intros B A.
  - split; [reflexivity|]. intros r l [].
  - inversion B as [|? ? Br Bt]; inversion A as [|? ? Ar At]; subst. destruct (IH Bt At) as (IH1 & IH2). clear IH.
    assert (Hr : in_range a (snd (call_of depth (info fid l0) r)) = true <-> in_ir a r).
    { unfold in_range, call_of, in_ir; simpl. lia. }
    rewrite cnt_cons.
    assert (Hmiss : ~ in_ir a r -> hits a s (call_of depth (info fid l0) r) = false).
    { intros Hn. unfold hits. rewrite andb_false_iff. right. apply not_true_iff_false. now rewrite Hr. }
    split.
    + intros Ho. rewrite Hmiss by (apply Ho; now left). apply IH1. intros q Hq. apply Ho. now right.
    + intros q l [<-|Hq] Ha Hl Hal.
      * assert (l0 = l). { eapply line_unique; eauto. unfold in_dl, in_ir in *. lia. } subst l0.
        assert (off I a). { intros p Hp Hap. rewrite Forall_forall in Ar. apply (Ar p Hp a); auto. }
        rewrite IH1 by auto. unfold hits. rewrite (proj2 Hr Ha), andb_true_r. cbn [call_of fst].
        destruct (site_dec _ s) as [->|Hne].
        -- rewrite (proj2 (sp_site_eqb_spec s s) eq_refl). reflexivity.
        -- destruct (sp_site_eqb _ s) eqn:E; [apply sp_site_eqb_spec in E; contradiction|]. reflexivity.
      * rewrite Hmiss; [now apply IH2|]. intros Hb. rewrite Forall_forall in Ar. apply (Ar q Hq a); auto.
Qed.

(** * The whole tree *)
Section Tree.
  Variables (e : CEnv) (fid : FileRef -> N) (oid : Name -> N).
  Hypothesis US : sorts_ranges (ce_sort e).

  Definition emitted (evs : list Ins) (a : N) (i : N * N) : Prop := In (a, fst i, snd i) (inserted_lines evs).
  (** Every emitted line is the innermost line at its address. *)
  Definition t_sound f evs := forall x i, emitted evs x i -> exists st lf, frames f x st lf /\ i = info fid lf.
  Definition t_back f evs := forall a st lf, frames f a st lf ->
    emitted evs a (info fid lf) \/ (1 <= a /\ exists st' lf', frames f (a - 1) st' lf' /\ info fid lf' = info fid lf).
  Definition t_back_root f evs := forall a st lf, frames f a st lf ->
    emitted evs a (info fid lf) \/
    exists b st' lf', b < a /\ frames f b st' lf' /\ info fid lf' = info fid lf /\ forall x, b < x < a -> ~ covers f x.
  Definition t_self f evs := forall a lf, frames f a [] lf ->
    emitted evs a (info fid lf) \/
    exists b lf', b < a /\ frames f b [] lf' /\ info fid lf' = info fid lf /\ forall x, b < x < a -> ~ covers f x.
  Definition t_step f evs := forall a lf, frames f a [] lf ->
    emitted evs a (info fid lf) \/ (1 <= a /\ frames f (a - 1) [] lf) \/
    (a = d_addr lf /\ exists pre l' post, f_lines f = pre ++ l' :: lf :: post /\ info fid l' = info fid lf /\ dl_end l' <= a /\ frames f (dl_end l' - 1) [] l').
  Definition t_count f depth evs :=
    (forall a st lf s, frames f a st lf -> cnt a s (inserted_inlines evs) = count_occ site_dec (psites fid oid depth st) s) /\
    (forall a s, ~ covers f a -> cnt a s (inserted_inlines evs) = 0%nat).
  (** Lines with the same number and file id leave no gap. *)
  Definition idgap (ls : list DLine) : Prop :=
    forall pre x y post, ls = pre ++ x :: y :: post -> info fid x = info fid y -> dl_end x = d_addr y.
  Inductive idgaps : Fun -> Prop :=
  | ig_fun f : Forall (fun g => idgap (f_lines g)) (f_inl f) -> Forall idgaps (f_inl f) -> idgaps f.
  Definition same_id (x y : DLine) : Prop := info fid x = info fid y.
  Definition t_exact f evs := forall x i, emitted evs x i <-> exists lf, starts same_id f x lf /\ i = info fid lf.
  Definition tspec f depth evs :=
    t_exact f evs /\ t_step f evs /\ t_sound f evs /\ t_count f depth evs /\ (idgaps f -> idgap (f_lines f) -> t_back f evs) /\ (idgaps f -> t_back_root f evs) /\ t_self f evs.

  Lemma pinl_spec depth : forall gs irs0, Forall well_formed gs ->
    Forall (fun g => exists evs, prec e fid oid g (depth + 1) = Ok evs /\ tspec g (depth + 1) evs) gs ->
    exists evss, pinl e fid oid depth gs irs0 = Ok (irs0 ++ irs_of oid gs, concat evss) /\
      Forall2 (fun g evs => tspec g (depth + 1) evs) gs evss.
  Proof.
    induction gs as [|g gs IH]; intros irs0 W H.
    - exists []. split; [|constructor]. cbn. now rewrite app_nil_r.
    - inversion W as [|? ? Wg Wgs]; inversion H as [|? ? (ev & Hev & Tg) Hgs]; subst. inversion Wg as [? Lg Ng Dg Wi]; subst.
      rewrite pinl_cons. destruct (f_lines g) as [|l0 ls0] eqn:El.
      + destruct (IH irs0 Wgs Hgs) as (evss & E & F). exists ([] :: evss). split.
        * rewrite E. unfold irs_of. cbn [flat_map]. rewrite El. reflexivity.
        * constructor; auto.
          assert (Nc : forall a, ~ covers g a) by (intros a (l & Hl & _); rewrite El in Hl; destruct Hl).
          assert (Nf : forall a st lf, ~ frames g a st lf) by (intros a st lf Hf; apply frames_covers in Hf; now apply (Nc a)).
          unfold tspec; splits.
          -- intros x i. split; [intros []|]. intros (lf & Hs & _). destruct (starts_frames _ _ Wg _ _ Hs) as (st & Hf). now apply Nf in Hf.
          -- intros a lf Hf. now apply Nf in Hf.
          -- intros x i [].
          -- split; auto. intros a st lf s Hf. now apply Nf in Hf.
          -- intros _ _ a st lf Hf. now apply Nf in Hf.
          -- intros _ a st lf Hf. now apply Nf in Hf.
          -- intros a lf Hf. now apply Nf in Hf.
      + rewrite <- El in *. rewrite line_ranges_ok by auto. cbn [bind]. rewrite Hev. cbn [bind].
        destruct (IH (irs0 ++ map (ir_of oid g) (f_lines g)) Wgs Hgs) as (evss & E & F). rewrite E. cbn [bind fst snd].
        exists (ev :: evss). split; [|constructor; auto]. cbn [concat]. f_equal. f_equal. rewrite <- app_assoc. reflexivity.
  Qed.

  Lemma inner_emitted gs evss x i : In (x, fst i, snd i) (inserted_lines (concat evss)) ->
    forall d, Forall2 (fun g evs => tspec g d evs) gs evss -> exists g evs, In g gs /\ tspec g d evs /\ emitted evs x i.
  Proof.
    intros H d. revert gs H. induction evss as [|ev evss IH]; intros gs H F; [destruct H|].
    inversion F as [|g ? gs' ? Tg F']; subst. cbn [concat] in H. rewrite inserted_lines_app in H. apply in_app_or in H as [H|H].
    - exists g, ev. splits; auto. now left.
    - destruct (IH gs' H F') as (h & ev' & Hh & Th & He). exists h, ev'. splits; auto. now right.
  Qed.
  Lemma inner_has gs evss g d : Forall2 (fun g evs => tspec g d evs) gs evss -> In g gs ->
    exists evs, tspec g d evs /\ forall x i, emitted evs x i -> emitted (concat evss) x i.
  Proof.
    induction 1 as [|h ev gs evss Th F IH]; [easy|]. unfold emitted in *. cbn [concat]. setoid_rewrite inserted_lines_app.
    intros [->|Hg].
    - exists ev. split; auto. intros; apply in_or_app; auto.
    - destruct (IH Hg) as (ev' & T' & H'). exists ev'. split; auto. intros; apply in_or_app; auto.
  Qed.
  Lemma inner_count a s d : forall gs evss, Forall2 (fun g evs => tspec g d evs) gs evss -> ForallOrdPairs disjoint gs ->
    ((forall g, In g gs -> ~ covers g a) -> cnt a s (inserted_inlines (concat evss)) = 0%nat) /\
    (forall g st lf, In g gs -> frames g a st lf -> cnt a s (inserted_inlines (concat evss)) = count_occ site_dec (psites fid oid d st) s).
  Proof.
    induction 1 as [|h ev gs evss (_ & _ & _ & (Tc1 & Tc2) & _) F IH]; intros D.
    - split; [reflexivity|]. intros g st lf [].
    - inversion D as [|? ? D1 D2]; subst. destruct (IH D2) as (IH1 & IH2). cbn [concat]. rewrite inserted_inlines_app, cnt_app.
      rewrite Forall_forall in D1. split.
      + intros H. rewrite Tc2, IH1; auto; [intros; apply H; now right|apply H; now left].
      + intros g st lf [->|Hg] Hf.
        * rewrite (Tc1 _ _ _ _ Hf), IH1; [lia|]. intros q Hq Hc. apply (D1 q Hq a). split; auto. eapply frames_covers; eauto.
        * rewrite (IH2 _ _ _ Hg Hf), Tc2; [lia|]. intros Hc. apply (D1 g Hg a). split; auto. eapply frames_covers; eauto.
  Qed.

  Lemma adjacent_gap ls pre x y post a : lines_ok ls -> ls = pre ++ x :: y :: post -> dl_end x <= a < d_addr y ->
    forall l, In l ls -> ~ in_dl a l.
  Proof.
    intros (S & F) -> Ha l Hl. unfold in_dl. apply in_app_or in Hl as [Hl|[->|[->|Hl]]]; try lia.
    - assert (Hx : dl_end l <= d_addr x).
      { clear - S Hl. induction pre as [|p pre IH]; [destruct Hl|]. inversion S as [|? ? S' Fp]; subst. destruct Hl as [->|Hl]; auto.
        rewrite Forall_forall in Fp. apply Fp. apply in_or_app. right. now left. }
      rewrite Forall_forall in F. assert (In x (pre ++ x :: y :: post)) as Hi by (apply in_or_app; right; now left).
      specialize (F x Hi). cbv beta in F. lia.
    - apply StronglySorted_app_r in S. inversion S as [|? ? S1 F1]; subst. inversion S1 as [|? ? S2 F2]; subst.
      rewrite Forall_forall in F2. specialize (F2 l Hl). rewrite Forall_forall in F.
      assert (In y (pre ++ x :: y :: post)) as Hi by (apply in_or_app; right; right; now left).
      specialize (F y Hi). cbv beta in F. lia.
  Qed.

  Theorem tree_spec f : well_formed f -> forall depth, exists evs, prec e fid oid f depth = Ok evs /\ tspec f depth evs.
  Proof.
    induction f as [ad sz n ls inls IH] using Fun_ind'. intros W depth.
    inversion W as [? L Nst D Wg]; subst. cbn [f_lines f_inl] in *.
    destruct (pinl_spec depth inls []) as (evss & E & F); auto.
    { rewrite Forall_forall in *. intros g Hg. apply IH; auto. }
    destruct (irs_sorted_ok (ce_sort e) oid inls US D Wg) as (OkI & PI & AI).
    destruct (walk_spec (ce_ck e) fid depth ls None (ce_sort e (irs_of oid inls)) None L OkI) as (out & Ew & W1 & W2 & W3); [|exact I|].
    { rewrite Forall_forall. intros r Hr. apply (Permutation_in _ PI) in Hr.
      apply in_flat_map in Hr as (g & Hg & Hr). apply in_map_iff in Hr as (x & <- & Hx).
      rewrite Forall_forall in Nst. destruct (Nst g Hg x Hx) as (l & Hl & H1 & H2). exists l; auto. }
    rewrite prec_eq. cbn [f_inl f_lines]. rewrite E. cbn [bind fst snd app]. rewrite Ew. cbn [bind].
    exists (concat evss ++ out). split; [reflexivity|].
    assert (Off : forall a, off (ce_sort e (irs_of oid inls)) a <-> forall g, In g inls -> ~ covers g a) by (intros; now apply off_irs).
    assert (Lift : forall g a, In g inls -> covers g a -> exists l, In l ls /\ in_dl a l).
    { intros g a Hg (x & Hx & Ha). rewrite Forall_forall in Nst. destruct (Nst g Hg x Hx) as (l & Hl & H1 & H2).
      exists l; split; auto. unfold in_dl in *. cbn [f_lines] in *. lia. }
    assert (Call : forall a st lf, frames (mkFun ad sz n ls inls) a st lf ->
      idgaps (mkFun ad sz n ls inls) -> st <> [] ->
      emitted (concat evss ++ out) a (info fid lf) \/ (1 <= a /\ exists st' lf', frames (mkFun ad sz n ls inls) (a - 1) st' lf' /\ info fid lf' = info fid lf)).
    { intros a st lf Hf Hg Hne. inversion Hf as [|? g ? l st1 ? Hl Ha Hi Hf1]; subst; [contradiction|]. cbn [f_lines f_inl] in *.
      inversion Hg as [? G1 G2]; subst. cbn [f_inl] in *. rewrite Forall_forall in G1, G2.
      destruct (inner_has _ _ _ _ F Hi) as (ev & (_ & _ & _ & _ & Tb & _) & He).
      destruct (Tb (G2 g Hi) (G1 g Hi) a st1 lf Hf1) as [B|(B1 & st' & lf' & B2 & B3)].
      - left. unfold emitted in *. rewrite inserted_lines_app. apply in_or_app; left. now apply He.
      - right. split; auto. destruct (Lift g (a - 1) Hi (frames_covers _ _ _ _ B2)) as (l2 & Hl2 & Ha2).
        exists ((f_name g, l2) :: st'), lf'. split; auto. econstructor; eauto. }
    assert (Self : t_self (mkFun ad sz n ls inls) (concat evss ++ out)).
    { intros a lf Hf. inversion Hf as [? ? l Hl Ha Hn|]; subst; cbn [f_lines f_inl] in *.
      destruct (W2 lf a Hl Ha (proj2 (Off a) Hn)) as [B|[(B1 & B2 & B3)|(-> & [(pre & l' & post & B1 & B2 & B3)|(post & _ & B)])]]; [| | |discriminate].
      + left. unfold emitted. rewrite inserted_lines_app. apply in_or_app; now right.
      + right. exists (a - 1), lf. splits; auto; try lia. constructor; auto. now apply Off.
      + right.
        assert (Hl' : In l' ls) by (rewrite B1; apply in_or_app; right; now left).
        pose proof L as (LS & LF). rewrite Forall_forall in LF. destruct (LF l' Hl').
        assert (dl_end l' <= d_addr lf).
        { rewrite B1 in LS. apply StronglySorted_app_r in LS. inversion LS as [|? ? _ F1]; subst. now inversion F1. }
        exists (dl_end l' - 1), l'. splits; auto; [lia| |].
        * constructor; auto; [unfold in_dl; lia|now apply Off].
        * intros x Hx (l3 & Hl3 & Hx3). cbn [f_lines] in Hl3. eapply (adjacent_gap ls); eauto. lia. }
    assert (Fr : forall a l, In l ls -> in_dl a l /\ off (ce_sort e (irs_of oid inls)) a <-> frames (mkFun ad sz n ls inls) a [] l).
    { intros a l Hl. split.
      - intros (Ha & Ho). constructor; auto. now apply Off.
      - intros Hf. inversion Hf; subst. split; auto. now apply Off. }
    unfold tspec; splits.
    - intros x i. unfold emitted. rewrite inserted_lines_app, in_app_iff. split.
      + intros [Hx|Hx].
        * destruct (inner_emitted _ _ _ _ Hx _ F) as (g & ev & Hg & (Te & _) & He). apply Te in He as (lf & Hs & Ei).
          exists lf. split; auto. now apply st_inl with g.
        * destruct (W1 _ _ _ Hx) as (l & Hl & Ha & Hi & Ho & N1 & N2). exists l. split; [|destruct i; exact Hi]. apply st_own.
          -- apply Fr; auto.
          -- intros (K1 & K2). apply N1. split; auto. apply Fr; auto.
          -- intros (K1 & pre & l' & post & K2 & K3 & K4). apply N2. split; auto. left. exists pre, l', post. cbn [f_lines] in K2. splits; auto.
             apply (Fr (dl_end l' - 1) l'); auto. rewrite K2. apply in_or_app. right. now left.
      + intros (lf & Hs & ->). inversion Hs as [? ? ? Hf N1 N2|? g ? ? Hg Hs1]; subst; cbn [f_inl f_lines] in *.
        * assert (Hl : In lf ls) by (inversion Hf; auto). destruct (proj2 (Fr x lf Hl) Hf) as (Ha & Ho).
          destruct (W2 lf x Hl Ha Ho) as [B|[(B1 & B2 & B3)|(B1 & [(pre & l' & post & B2 & B3 & B4)|(post & _ & B2)])]]; [right; exact B| | |discriminate].
          -- elim N1. split; auto. apply Fr; auto.
          -- elim N2. split; auto. exists pre, l', post. splits; auto. apply Fr; auto.
             ++ rewrite B2. apply in_or_app. right. now left.
             ++ split; auto. destruct L as (LS & LF). rewrite Forall_forall in LF. assert (Hl' : In l' ls) by (rewrite B2; apply in_or_app; right; now left).
                specialize (LF l' Hl'). unfold in_dl. cbv beta in LF. lia.
        * left. destruct (inner_has _ _ _ _ F Hg) as (ev & (Te & _) & He). apply He, Te. eauto.
    - intros a lf Hf. assert (Hl : In lf ls) by (inversion Hf; auto). destruct (proj2 (Fr a lf Hl) Hf) as (Ha & Ho).
      destruct (W2 lf a Hl Ha Ho) as [B|[(B1 & B2 & B3)|(B1 & [(pre & l' & post & B2 & B3 & B4)|(post & _ & B2)])]]; [| | |discriminate].
      + left. unfold emitted. rewrite inserted_lines_app. apply in_or_app; now right.
      + right; left. split; auto. apply Fr; auto.
      + right; right. split; auto. destruct L as (LS & LF). rewrite Forall_forall in LF.
        assert (Hl' : In l' ls) by (rewrite B2; apply in_or_app; right; now left). specialize (LF l' Hl'). cbv beta in LF.
        assert (dl_end l' <= d_addr lf).
        { rewrite B2 in LS. apply StronglySorted_app_r in LS. inversion LS as [|? ? _ F1]; subst. now inversion F1. }
        exists pre, l', post. splits; auto; [lia|]. apply Fr; auto. split; auto. unfold in_dl. lia.
    - intros x i Hx. unfold emitted in Hx. rewrite inserted_lines_app in Hx. apply in_app_or in Hx as [Hx|Hx].
      + destruct (inner_emitted _ _ _ _ Hx _ F) as (g & ev & Hg & (_ & _ & Ts & _) & He).
        destruct (Ts x i He) as (st & lf & Hf & ->). destruct (Lift g x Hg (frames_covers _ _ _ _ Hf)) as (l & Hl & Ha).
        exists ((f_name g, l) :: st), lf. split; auto. econstructor; eauto.
      + destruct (W1 _ _ _ Hx) as (l & Hl & Ha & Hi & Ho & _). exists [], l. split; [|now destruct i].
        constructor; auto. cbn [f_inl]. now apply Off.
    - assert (Cw := fun a s => calls_count a s depth fid ls _ _ L W3 (proj2 OkI) AI).
      split.
      + intros a st lf s Hf. rewrite inserted_inlines_app, cnt_app. destruct (Cw a s) as (C1 & C2). destruct (inner_count a s _ _ _ F D) as (I1 & I2).
        inversion Hf as [? ? l Hl Ha Hn|? g ? l st1 ? Hl Ha Hi Hf1]; subst; cbn [f_lines f_inl] in *.
        * rewrite I1, C1; auto. now apply Off.
        * rewrite (I2 _ _ _ Hi Hf1). cbn [psites count_occ].
          destruct (frames_covers _ _ _ _ Hf1) as (x & Hx & Hax).
          rewrite (C2 (ir_of oid g x) l); auto.
          -- cbn [ir_of i_origin info fst snd]. destruct (site_dec _ s); lia.
          -- eapply Permutation_in; [symmetry; exact PI|]. apply in_flat_map. exists g; split; auto. now apply in_map.
      + intros a s Hn. rewrite inserted_inlines_app, cnt_app. destruct (Cw a s) as (C1 & C2). destruct (inner_count a s _ _ _ F D) as (I1 & I2).
        assert (Hg : forall g, In g inls -> ~ covers g a).
        { intros g Hg Hc. destruct (Lift g a Hg Hc) as (l & Hl & Ha). apply Hn. exists l; auto. }
        rewrite I1, C1; auto. now apply Off.
    - intros Hg Hgap a st lf Hf. destruct st as [|fr st]; [|apply (Call a (fr :: st) lf); auto; discriminate].
      inversion Hf as [? ? l Hl Ha Hn|]; subst; cbn [f_lines f_inl] in *.
      destruct (W2 lf a Hl Ha (proj2 (Off a) Hn)) as [B|[(B1 & B2 & B3)|(-> & [(pre & l' & post & B1 & B2 & B3)|(post & _ & B)])]]; [| | |discriminate].
      + left. unfold emitted. rewrite inserted_lines_app. apply in_or_app; now right.
      + right. split; auto. exists [], lf. split; auto. constructor; auto. now apply Off.
      + right. pose proof (Hgap _ _ _ _ B1 B2) as Hadj.
        assert (Hl' : In l' ls) by (rewrite B1; apply in_or_app; right; now left).
        destruct L as (LS & LF). rewrite Forall_forall in LF. destruct (LF l' Hl').
        split; [lia|]. rewrite <- Hadj. exists [], l'. split; auto. constructor; auto; [unfold in_dl; lia|now apply Off].
    - intros Hg a st lf Hf. destruct st as [|fr st].
      2:{ destruct (Call a (fr :: st) lf) as [B|(B1 & st' & lf' & B2 & B3)]; auto; [discriminate|].
          right. exists (a - 1), st', lf'. splits; auto; [lia|]. intros; lia. }
      destruct (Self a lf Hf) as [B|(b & lf' & B)]; auto. right. exists b, [], lf'. exact B.
    - exact Self.
  Qed.

  (** Every frame comes after a start. *)
  Lemma start_before f : well_formed f -> forall a st lf, frames f a st lf -> exists b l, b <= a /\ starts same_id f b l.
  Proof.
    induction f as [ad sz n ls inls IH] using Fun_ind'. intros W a st lf Hf.
    inversion W as [? L Nst D Wg]; subst. cbn [f_lines f_inl] in *. destruct st as [|fr st].
    - destruct (tree_spec _ W 0) as (evs & _ & Te & _ & _ & _ & _ & _ & Ts). revert lf Hf. induction a as [a IHa] using (well_founded_induction N.lt_wf_0). intros lf Hf.
      destruct (Ts a lf Hf) as [B|(b & lf' & Hb & Hf' & _)].
      + apply Te in B as (l & B & _). exists a, l. split; [lia|exact B].
      + destruct (IHa b Hb lf' Hf') as (c & l & Hc & Hs). exists c, l. split; [lia|exact Hs].
    - inversion Hf as [|? g ? l st1 ? Hl Ha Hi Hf1]; subst; cbn [f_inl] in *. rewrite Forall_forall in IH, Wg.
      destruct (IH g Hi (Wg g Hi) _ _ _ Hf1) as (b & l' & Hb & Hs). exists b, l'. split; auto. now apply st_inl with g.
  Qed.
  (** The best emitted line is the innermost line. *)
  Lemma best_gen (Q : list (Name * DLine) -> Prop) f evs : well_formed f -> t_sound f evs ->
    (forall a st lf, Q st -> frames f a st lf ->
      emitted evs a (info fid lf) \/
      exists b st' lf', b < a /\ Q st' /\ frames f b st' lf' /\ info fid lf' = info fid lf /\ forall x, b < x < a -> ~ covers f x) ->
    forall a st lf, Q st -> frames f a st lf ->
      exists b, b <= a /\ emitted evs b (info fid lf) /\ forall x i, b < x <= a -> ~ emitted evs x i.
  Proof.
    intros W Ts Tb a. induction a as [a IH] using (well_founded_induction N.lt_wf_0). intros st lf HQ Hf.
    destruct (existsb (fun t => t_addr t =? a) (inserted_lines evs)) eqn:E.
    - apply existsb_exists in E as ([[x n] fl] & Hin & Hx). unfold t_addr in Hx; simpl in Hx. assert (x = a) by lia; subst x.
      destruct (Ts a (n, fl) Hin) as (st' & lf' & Hf' & Ei). destruct (frames_unique f W _ _ _ _ _ Hf Hf') as (_ & <-).
      exists a. splits; [lia| |intros; lia]. unfold emitted. rewrite <- Ei. exact Hin.
    - assert (Hno : forall i, ~ emitted evs a i).
      { intros i Hi. rewrite <- not_true_iff_false in E. apply E. apply existsb_exists. eexists; split; [exact Hi|]. unfold t_addr; simpl. lia. }
      destruct (Tb a st lf HQ Hf) as [B|(b & st' & lf' & Hlt & HQ' & Hf' & Ei & Hgap)]; [now apply Hno in B|].
      destruct (IH b Hlt st' lf' HQ' Hf') as (c & Hc & He & Hnone).
      exists c. splits; [lia|congruence|]. intros x i Hx Hi.
      destruct (N.lt_trichotomy x b) as [|[->|]]; [eapply Hnone; eauto; lia|eapply Hnone; eauto; lia|].
      destruct (N.eq_dec x a) as [->|]; [now apply Hno in Hi|]. destruct (Ts x i Hi) as (s2 & l2 & Hf2 & _).
      apply (Hgap x); [lia|]. eapply frames_covers; eauto.
  Qed.
  (** The innermost line is found, or the address comes after a gap. *)
  Lemma wrong_after_gap f depth evs : well_formed f -> prec e fid oid f depth = Ok evs -> tspec f depth evs ->
    forall a st lf, frames f a st lf ->
      (exists b, b <= a /\ emitted evs b (info fid lf) /\ forall x i, b < x <= a -> ~ emitted evs x i) \/
      (exists h pre x y post, below f h /\ f_lines h = pre ++ x :: y :: post /\ same_id x y /\ dl_end x < d_addr y /\ d_addr y <= a /\ same_id y lf).
  Proof.
    intros W _ (Te & Tst & Ts & _) a. induction a as [a IH] using (well_founded_induction N.lt_wf_0). intros st lf Hf.
    destruct (existsb (fun t => t_addr t =? a) (inserted_lines evs)) eqn:E.
    { apply existsb_exists in E as ([[x n] fl] & Hin & Hx). unfold t_addr in Hx; simpl in Hx. assert (x = a) by lia; subst x.
      destruct (Ts a (n, fl) Hin) as (st' & lf' & Hf' & Ei). destruct (frames_unique f W _ _ _ _ _ Hf Hf') as (_ & <-).
      left. exists a. splits; [lia| |intros; lia]. unfold emitted. rewrite <- Ei. exact Hin. }
    assert (Hno : forall i, ~ emitted evs a i).
    { intros i Hi. rewrite <- not_true_iff_false in E. apply E. apply existsb_exists. eexists; split; [exact Hi|]. unfold t_addr; simpl. lia. }
    assert (Back : forall b st' lf', b < a -> frames f b st' lf' -> info fid lf' = info fid lf -> (forall x, b < x < a -> ~ covers f x) ->
      (exists b, b <= a /\ emitted evs b (info fid lf) /\ forall x i, b < x <= a -> ~ emitted evs x i) \/
      (exists h pre x y post, below f h /\ f_lines h = pre ++ x :: y :: post /\ same_id x y /\ dl_end x < d_addr y /\ d_addr y <= a /\ same_id y lf)).
    { intros b st' lf' Hb Hf' Ei Hc. destruct (IH b Hb st' lf' Hf') as [(c & Hc1 & He & Hn)|(h & pre & x & y & post & B1 & B2 & B3 & B4 & B5 & B6)].
      - left. exists c. splits; [lia|congruence|]. intros x i Hx Hi.
        destruct (N.lt_trichotomy x b) as [|[->|]]; [eapply Hn; eauto; lia|eapply Hn; eauto; lia|].
        destruct (N.eq_dec x a) as [->|]; [now apply Hno in Hi|]. destruct (Ts x i Hi) as (s2 & l2 & Hf2 & _). apply (Hc x); [lia|]. eapply frames_covers; eauto.
      - right. exists h, pre, x, y, post. splits; auto; [lia|]. unfold same_id in *. congruence. }
    destruct (frames_inner _ _ _ _ Hf) as [->|(h & Hb & Hh)].
    - destruct (Tst a lf Hf) as [B|[(B1 & B2)|(-> & pre & l' & post & B1 & B2 & B3 & B4)]]; [now apply Hno in B| |].
      + apply (Back (a - 1) [] lf); auto; [lia|intros; lia].
      + inversion W as [? L _ _ _]; subst. pose proof L as (_ & LF). rewrite Forall_forall in LF.
        assert (Hl' : In l' (f_lines f)) by (rewrite B1; apply in_or_app; right; now left). specialize (LF l' Hl'). cbv beta in LF.
        apply (Back (dl_end l' - 1) [] l'); auto; [lia|]. intros x Hx (l3 & Hl3 & Hx3). eapply (adjacent_gap (f_lines f)); eauto. lia.
    - pose proof (below_wf _ _ Hb W) as Wh. destruct (tree_spec h Wh 0) as (evh & _ & Teh & Tsth & _).
      destruct (Tsth a lf Hh) as [B|[(B1 & B2)|(-> & pre & l' & post & B1 & B2 & B3 & B4)]].
      + exfalso. apply Teh in B as (l & Hs & Ei). apply (Hno (info fid l)). apply Te. exists l. split; auto. now apply (below_starts _ _ _ Hb).
      + destruct (below_lift _ _ Hb W _ _ _ B2) as (st' & Hf'). apply (Back (a - 1) st' lf); auto; [lia|intros; lia].
      + destruct (N.eq_dec (dl_end l') (d_addr lf)) as [Eq|Ne].
        * destruct (below_lift _ _ Hb W _ _ _ B4) as (st' & Hf'). inversion Wh as [? L _ _ _]; subst. destruct L as (_ & LF). rewrite Forall_forall in LF.
          assert (Hl' : In l' (f_lines h)) by (rewrite B1; apply in_or_app; right; now left). specialize (LF l' Hl'). cbv beta in LF.
          apply (Back (dl_end l' - 1) st' l'); auto; [lia|intros; lia].
        * right. exists h, pre, l', lf, post. splits; auto; try lia; unfold same_id; auto.
  Qed.
  Lemma best_line f evs : well_formed f -> t_sound f evs -> t_back_root f evs ->
    forall a st lf, frames f a st lf ->
      exists b, b <= a /\ emitted evs b (info fid lf) /\ forall x i, b < x <= a -> ~ emitted evs x i.
  Proof.
    intros W Ts Tb a st lf. apply (best_gen (fun _ => True)); auto. intros a0 st0 lf0 _ Hf.
    destruct (Tb a0 st0 lf0 Hf) as [B|(b & st' & lf' & B)]; auto. right. exists b, st', lf'. tauto.
  Qed.
  Lemma best_self f evs : well_formed f -> t_sound f evs -> t_self f evs ->
    forall a lf, frames f a [] lf ->
      exists b, b <= a /\ emitted evs b (info fid lf) /\ forall x i, b < x <= a -> ~ emitted evs x i.
  Proof.
    intros W Ts Tb a lf. apply (best_gen (fun st => st = [])); auto. intros a0 st0 lf0 -> Hf.
    destruct (Tb a0 lf0 Hf) as [B|(b & lf' & B)]; auto. right. exists b, [], lf'. tauto.
  Qed.
  Lemma best_is f evs : well_formed f -> t_sound f evs -> forall a b lf t, b <= a -> emitted evs b (info fid lf) ->
    (forall x i, b < x <= a -> ~ emitted evs x i) ->
    is_best a (inserted_lines evs) t -> snd (fst t) = fst (info fid lf) /\ snd t = snd (info fid lf).
  Proof.
    intros W Ts a b lf t Hb He Hn (pre & post & Eq & Hle & Hpre & Hpost). destruct t as [[x n] fl]. unfold t_addr in *; cbn [fst snd] in *.
    assert (Ht : emitted evs x (n, fl)) by (unfold emitted; rewrite Eq; apply in_or_app; right; now left).
    assert (x = b).
    { assert (b <= x).
      { unfold emitted in He. rewrite Eq in He. apply in_app_or in He as [He|[He|He]].
        - apply (Hpre _ He); auto. - inversion He; lia. - specialize (Hpost _ He Hb). simpl in Hpost. lia. }
      destruct (N.eq_dec x b); auto. exfalso. apply (Hn x (n, fl)); auto. lia. }
    subst x. destruct (Ts _ _ Ht) as (s1 & l1 & F1 & E1). destruct (Ts _ _ He) as (s2 & l2 & F2 & E2).
    destruct (frames_unique f W _ _ _ _ _ F1 F2) as (_ & <-). rewrite <- E1 in E2. rewrite E2. auto.
  Qed.
End Tree.
