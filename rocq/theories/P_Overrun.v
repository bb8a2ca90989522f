From Verif Require Import Base Sort BMap Str M_Names M_Path M_Line S_Line P_Line M_Source S_Source P_Source M_Symbol S_Symbol P_Symbol M_Collector S_Collector P_Collector P_Walk P_Tree P_Func P_Calls.

(** * One line record, inline ranges at any place *)
Lemma fresh_prev i prev : negb (option_eqb info_eqb prev (Some (fst i, snd i))) = false -> prev = Some i.
Proof.
  destruct prev as [q|]; cbn; [|discriminate]. intros H. f_equal. apply info_eqb_spec. destruct i; cbn in *. now destruct (info_eqb q _).
Qed.
Lemma irs_tail r inl : irs_ok (r :: inl) -> irs_ok inl /\ i_start r < i_end r /\ i_end r < two32 /\ forall q, In q inl -> i_end r <= i_start q.
Proof.
  intros (S & F). inversion S as [|? ? S' Fs]; inversion F as [|? ? (A & B) F']; subst. rewrite Forall_forall in Fs. splits; auto. split; auto.
Qed.

Lemma loop_loose ck depth i lend : lend < two32 -> forall inl cur prev, irs_ok inl ->
  (lend <= cur -> prev = None /\ forall r, In r inl -> cur <= i_start r) ->
  exists I1 I2 c p out, line_loop ck depth (fst i) (snd i) lend inl cur prev = Ok (c, I2, p, out) /\
    inl = I1 ++ I2 /\ lend <= c /\ cur <= c /\ (forall r, In r I1 -> i_start r < lend /\ i_end r <= c) /\ (forall r, In r I2 -> lend <= i_start r) /\
    (c = lend \/ (exists r, In r I1 /\ c = i_end r) \/ (lend <= cur /\ c = cur)) /\
    (forall x j, In (x, fst j, snd j) (inserted_lines out) -> j = i /\ x < lend /\ (cur <= x \/ exists r, In r I1 /\ i_end r <= x)) /\
    (forall a, cur <= a < lend -> off inl a ->
       (exists x, x <= a /\ In (x, fst i, snd i) (inserted_lines out) /\ (forall y, x <= y <= a -> off inl y) /\ (cur <= x \/ exists r, In r I1 /\ i_end r <= x)) \/
       (prev = Some i /\ forall r, In r inl -> a < i_start r)) /\
    (p = None \/ (p = Some i /\ cur < lend /\ c = lend /\ off inl (lend - 1))).
Proof.
  intros Hle. induction inl as [|r inl IH]; intros cur prev Ok1 Hc; cbn [line_loop].
  - destruct (N.ltb_spec cur lend) as [Hlt|Hge].
    + cbn [negb andb]. set (fresh := negb (option_eqb info_eqb prev (Some (fst i, snd i)))).
      assert (Hf : fresh = false -> prev = Some i) by apply fresh_prev.
      exists [], [], lend, (if fresh then Some (fst i, snd i) else prev), (if fresh then [InsLine (u32 cur) (fst i) (snd i)] else []).
      rewrite (u32_small cur) by lia. splits; auto; try lia; try easy.
      * intros x [n g] Hin. destruct fresh; [|easy]. destruct Hin as [E|[]]. inversion E; subst. splits; try lia. now destruct i.
      * intros a Ha _. destruct fresh; [|right; split; [auto|easy]]. left. exists cur. splits; try lia; [now left|intros; easy].
      * right. splits; [|lia|auto|intros ? []]. destruct fresh; [now destruct i|auto].
    + destruct (Hc Hge) as (-> & _). exists [], [], cur, None, []. splits; auto; try lia; try easy.
  - destruct (irs_tail _ _ Ok1) as (Ok2 & Hr1 & Hr2 & Fs).
    destruct (N.ltb_spec cur lend) as [Hlt|Hge].
    2:{ destruct (Hc Hge) as (-> & Hr). exists [], (r :: inl), cur, None, []. splits; auto; try lia; try easy. intros q Hq. specialize (Hr q Hq). lia. }
    set (fresh := negb (negb (cur <? i_start r)) && negb (option_eqb info_eqb prev (Some (fst i, snd i)))).
    assert (Hf : fresh = false -> cur < i_start r -> prev = Some i).
    { unfold fresh. intros H Hx. replace (cur <? i_start r) with true in H by lia. apply fresh_prev. exact H. }
    assert (Hf' : fresh = true -> cur < i_start r).
    { unfold fresh. intros H. apply andb_true_iff in H as (H & _). lia. }
    rewrite (u32_small cur) by lia. rewrite (u32_small (i_start r)) by lia.
    destruct (N.ltb_spec (i_start r) lend) as [Hsl|Hsl].
    + rewrite sub64_ok by lia. cbn [bind]. 
      destruct (IH (i_end r) None Ok2) as (I1 & I2 & c & p & out & E & -> & A1 & A2 & A3 & A5 & A6 & A7 & A8 & A9); [auto|].
      rewrite E. cbn [bind]. exists (r :: I1), I2, c, p. eexists. split; [reflexivity|].
      splits; auto; try lia.
      * intros q [<-|Hq]; [lia|auto].
      * destruct A6 as [->|[(q & Hq & ->)|(B & ->)]]; [auto|right; left; exists q; split; auto; now right|right; left; exists r; split; auto; now left].
      * intros x j Hin. rewrite inserted_lines_app in Hin. apply in_app_or in Hin as [Hin|Hin].
        -- destruct fresh; [|easy]. destruct Hin as [Ei|[]]. destruct j; inversion Ei; subst. splits; try lia. now destruct i.
        -- cbn [inserted_lines] in Hin. destruct (A7 x j Hin) as (-> & B & C). splits; auto. right.
           destruct C as [C|(q & Hq & C)]; [exists r|exists q]; (split; [|exact C]); [now left|now right].
      * intros a Ha Ho. rewrite inserted_lines_app. cbn [inserted_lines].
        destruct (N.lt_ge_cases a (i_start r)) as [Has|Has].
        -- destruct fresh eqn:Ef.
           ++ left. exists cur. splits; [lia|apply in_or_app; left; now left| |left; lia].
              intros y Hy q [<-|Hq]; unfold in_ir; [lia|]. specialize (Fs q Hq). lia.
           ++ right. split; [apply Hf; auto; lia|]. intros q [<-|Hq]; [lia|]. specialize (Fs q Hq). lia.
        -- destruct (N.lt_ge_cases a (i_end r)) as [Hae|Hae]; [exfalso; apply (Ho r); [now left|split; auto]|].
           destruct (A8 a) as [(x & B1 & B2 & B3 & B4)|(B & _)]; [lia|intros q Hq; apply Ho; now right| |discriminate].
           assert (Hx : i_end r <= x).
           { destruct B4 as [B4|(q & Hq & B4)]; [lia|]. assert (i_end r <= i_start q) by (apply Fs; apply in_or_app; now left).
             destruct (A3 q Hq). destruct Ok2 as (_ & F2). rewrite Forall_forall in F2. assert (i_start q < i_end q) by (apply F2; apply in_or_app; now left). lia. }
           left. exists x. splits; auto; [apply in_or_app; now right| |].
           ++ intros y Hy q [<-|Hq]; [unfold in_ir; lia|now apply B3].
           ++ right. exists r. split; [now left|auto].
      * destruct A9 as [->|(-> & B1 & B2 & B3)]; [now left|right]. splits; auto. intros q [<-|Hq]; [unfold in_ir; lia|now apply B3].
    + exists [], (r :: inl), lend, (if fresh then Some (fst i, snd i) else prev), (if fresh then [InsLine cur (fst i) (snd i)] else []).
      assert (Hst : forall q, In q (r :: inl) -> lend <= i_start q) by (intros q [<-|Hq]; [auto|specialize (Fs q Hq); lia]).
      splits; auto; try lia; try easy.
      * intros x [n g] Hin. destruct fresh; [|easy]. destruct Hin as [E|[]]. inversion E; subst. splits; try lia. now destruct i.
      * intros a Ha _. destruct fresh.
        -- left. exists cur. splits; [lia|now left| |left; lia]. intros y Hy q Hq. specialize (Hst q Hq). unfold in_ir. lia.
        -- right. split; [apply Hf; auto; lia|]. intros q Hq. specialize (Hst q Hq). lia.
      * right. splits; [|lia|auto|]. { destruct fresh; [now destruct i|apply Hf; auto; lia]. }
        intros q Hq. specialize (Hst q Hq). unfold in_ir. lia.
Qed.

(** * The walk over a function's lines *)
(** How far the inline ranges that start before the end of a line reach. *)
Definition reaches (J : list IR) (l : DLine) (c : N) : Prop :=
  dl_end l <= c /\ (forall r, In r J -> i_start r < dl_end l -> i_end r <= c) /\
  (c = dl_end l \/ exists r, In r J /\ i_start r < dl_end l /\ c = i_end r).
Definition unskipped (skip : option N) (l : DLine) : Prop := match skip with Some c => c <= d_addr l | None => True end.
Inductive seen (J : list IR) : option N -> list DLine -> DLine -> Prop :=
| se_skip skip l t k : ~ unskipped skip l -> seen J skip t k -> seen J skip (l :: t) k
| se_here skip l t : unskipped skip l -> seen J skip (l :: t) l
| se_next skip l t c k : unskipped skip l -> reaches J l c -> seen J (Some c) t k -> seen J skip (l :: t) k.
Lemma reaches_unique J l c c' : reaches J l c -> reaches J l c' -> c = c'.
Proof.
  intros (A & B & C) (A' & B' & C').
  assert (forall a b, (a = dl_end l \/ exists r, In r J /\ i_start r < dl_end l /\ a = i_end r) -> dl_end l <= b -> (forall r, In r J -> i_start r < dl_end l -> i_end r <= b) -> a <= b) as X.
  { intros a b [->|(r & R1 & R2 & ->)] H1 H2; auto. }
  pose proof (X _ _ C A' B'). pose proof (X _ _ C' A B). lia.
Qed.
Lemma seen_in J skip ls k : seen J skip ls k -> In k ls.
Proof. induction 1; auto; [now right|now left|now right]. Qed.

Definition has (out : list Ins) (x : N) (j : N * N) : Prop := In (x, fst j, snd j) (inserted_lines out).
Lemma has_app a b x j : has (a ++ b) x j <-> has a x j \/ has b x j.
Proof. unfold has. rewrite inserted_lines_app. apply in_app_iff. Qed.

Lemma walk_loose ck fid depth J : forall ls skip inl prev I0, lines_ok ls -> irs_ok inl -> J = I0 ++ inl ->
  (forall r l, In r I0 -> In l ls -> unskipped skip l -> i_end r <= d_addr l) ->
  exists out, pwalk ck fid depth ls skip inl prev = Ok out /\
    (forall x j, has out x j -> exists l, seen J skip ls l /\ j = info fid l) /\
    (forall b x j, has out x j -> (forall l, In l ls -> unskipped skip l -> b <= d_addr l) -> (forall r, In r inl -> b <= i_start r) -> b <= x) /\
    (forall l a, seen J skip ls l -> in_dl a l -> off inl a ->
       (exists x, x <= a /\ has out x (info fid l) /\ (forall y, x <= y <= a -> off inl y) /\ forall y j, x <= y <= a -> has out y j -> j = info fid l) \/
       (prev = Some (info fid l) /\ (forall y j, y <= a -> has out y j -> j = info fid l) /\ forall r, In r inl -> a < i_start r)).
Proof.
  induction ls as [|l ls IH]; intros skip inl prev I0 (LS & LF) OkI HJ H0; cbn [pwalk].
  - exists []. splits; auto; try (intros; now exfalso).
  - inversion LS as [|? ? LS2 Fl]; subst. inversion LF as [|? ? (Hl1 & Hl2) LF2]; subst. rewrite Forall_forall in Fl.
    assert (L2 : lines_ok ls) by (split; auto).
    destruct (match skip with Some c => d_addr l <? c | None => false end) eqn:Sk.
    + assert (Ns : ~ unskipped skip l) by (destruct skip; cbn; [lia|discriminate]).
      destruct (IH skip inl prev I0 L2 OkI eq_refl) as (out & E & A & B & C). { intros r k Hr Hk. apply H0; auto. now right. }
      exists out. splits; auto.
      * intros x j H. destruct (A x j H) as (l' & H1 & H2). exists l'. split; auto. now apply se_skip.
      * intros b x j H Hb. apply (B b x j H). intros l' Hl'. apply Hb. now right.
      * intros l' a S. inversion S; subst; try contradiction. now apply C.
    + assert (Us : unskipped skip l) by (destruct skip; cbn in *; [lia|exact I]).
      rewrite line_end_ok by auto. cbn [bind].
      destruct (loop_loose ck depth (info fid l) (dl_end l) Hl2 inl (d_addr l) prev OkI) as (I1 & I2 & c & p & o & E & -> & A1 & A2 & A3 & A4 & A5 & A6 & A7 & A8); [lia|].
      cbn [info fst snd] in E. rewrite E. cbn [bind].
      assert (Ok2 : irs_ok I2).
      { destruct OkI as (S & F). split; [eapply StronglySorted_app_r; eauto|apply Forall_app in F; tauto]. }
      assert (Lc : forall r, In r I2 -> c <= i_start r).
      { intros r Hr. destruct A5 as [->|[(q & Hq & ->)|(H & _)]]; [auto| |lia]. destruct OkI as (S & _).
        clear - S Hq Hr. induction I1 as [|z I1 IH]; [easy|]. inversion S as [|? ? S' F]; subst. destruct Hq as [<-|Hq]; [|now apply IH].
        rewrite Forall_forall in F. apply F. apply in_or_app. now right. }
      assert (Rc : reaches (I0 ++ I1 ++ I2) l c).
      { split; [exact A1|split].
        - intros r Hr Hs. apply in_app_or in Hr as [Hr|Hr]; [|apply in_app_or in Hr as [Hr|Hr]].
          + specialize (H0 r l Hr (or_introl eq_refl) Us). lia.
          + now destruct (A3 r Hr).
          + specialize (A4 r Hr). lia.
        - destruct A5 as [->|[(q & Hq & ->)|(H & _)]]; [now left| |lia]. right. exists q. destruct (A3 q Hq). splits; auto.
          apply in_or_app. right. apply in_or_app. now left. }
      destruct (IH (Some c) I2 p (I0 ++ I1) L2 Ok2) as (out & Ew & A & B & C); [now rewrite app_assoc| |].
      { intros r k Hr Hk Uk. cbn in Uk. apply in_app_or in Hr as [Hr|Hr]; [|destruct (A3 r Hr); lia].
        specialize (H0 r l Hr (or_introl eq_refl) Us). lia. }
      rewrite Ew. cbn [bind]. exists (o ++ out). split; [reflexivity|].
      assert (Late : forall x j, has out x j -> c <= x).
      { intros x j H. apply (B c x j H); [intros; auto|auto]. }
      splits.
      * intros x j H. apply has_app in H as [H|H].
        -- destruct (A6 x j H) as (-> & _ & _). exists l. split; auto. now apply se_here.
        -- destruct (A x j H) as (l' & H1 & H2). exists l'. split; auto. now apply se_next with c.
      * intros b x j H Hl Hr. apply has_app in H as [H|H].
        -- destruct (A6 x j H) as (_ & _ & [K|(r & Kr & K)]).
           ++ specialize (Hl l (or_introl eq_refl) Us). lia.
           ++ assert (Kr' : In r (I1 ++ I2)) by (apply in_or_app; now left). specialize (Hr r Kr'). destruct OkI as (_ & F). rewrite Forall_forall in F.
              specialize (F r Kr'). cbv beta in F. lia.
        -- specialize (Late x j H). specialize (Hl l (or_introl eq_refl) Us). lia.
      * intros k a Hk Ha Ho. 
        assert (Here : k = l -> (exists x, x <= a /\ has (o ++ out) x (info fid k) /\ (forall y, x <= y <= a -> off (I1 ++ I2) y) /\ forall y j, x <= y <= a -> has (o ++ out) y j -> j = info fid k) \/
           (prev = Some (info fid k) /\ (forall y j, y <= a -> has (o ++ out) y j -> j = info fid k) /\ forall r, In r (I1 ++ I2) -> a < i_start r)).
        { intros ->. unfold in_dl in Ha. destruct (A7 a Ha Ho) as [(x & X1 & X2 & X3 & _)|(X1 & X2)]; [left|right].
          - exists x. splits; auto; [apply has_app; now left|]. intros y j Hy H. apply has_app in H as [H|H]; [now destruct (A6 y j H)|].
            specialize (Late y j H). lia.
          - splits; auto. intros y j Hy H. apply has_app in H as [H|H]; [now destruct (A6 y j H)|]. specialize (Late y j H). lia. }
        inversion Hk as [? ? ? ? Hn Hs E1|? ? ? Hu E1|? ? ? c' ? Hu Hc Hs E1]; subst; [contradiction|now apply Here|].
        pose proof (reaches_unique _ _ _ _ Rc Hc). subst c'. clear Here.
        pose proof (seen_in _ _ _ _ Hs) as Ki.
        assert (Kl : dl_end l <= d_addr k) by auto. unfold in_dl in Ha.
        assert (O1 : forall y, c <= y -> off I2 y -> off (I1 ++ I2) y).
        { intros y Hy Hoff r Hr. apply in_app_or in Hr as [Hr|Hr]; [|now apply Hoff]. destruct (A3 r Hr). unfold in_ir. lia. }
        destruct (C k a Hs Ha) as [(x & X1 & X2 & X3 & X4)|(X1 & X2 & X3)].
        { intros r Hr. apply Ho. apply in_or_app. now right. }
        -- left. exists x. pose proof (Late _ _ X2) as Lx. splits; auto; [apply has_app; now right| |].
           ++ intros y Hy. apply O1; [lia|auto].
           ++ intros y j Hy H. apply has_app in H as [H|H]; [|eauto]. destruct (A6 y j H) as (_ & K & _). lia.
        -- destruct A8 as [->|(-> & B1 & -> & B3)]; [discriminate|].
           assert (Ei : info fid l = info fid k) by congruence. clear X1.
           assert (All : forall y j, y <= a -> has (o ++ out) y j -> j = info fid k).
           { intros y j Hy H. apply has_app in H as [H|H]; [destruct (A6 y j H) as (-> & _); auto|eauto]. }
           assert (Tail : forall y, dl_end l <= y <= a -> off (I1 ++ I2) y).
           { intros y Hy. apply O1; [lia|]. intros r Hr. specialize (X3 r Hr). unfold in_ir. lia. }
           destruct (A7 (dl_end l - 1)) as [(x & Y1 & Y2 & Y3 & _)|(Y1 & Y2)]; [lia|auto| |].
           ++ left. exists x. splits; [lia|apply has_app; left; unfold has; rewrite <- Ei; exact Y2| |intros y j Hy; apply All; lia].
              intros y Hy. destruct (N.le_gt_cases (dl_end l) y); [apply Tail; lia|apply Y3; lia].
           ++ right. splits; [rewrite <- Ei; auto|auto|]. intros r Hr. apply in_app_or in Hr as [Hr|Hr]; [|auto].
              assert (Hr' : In r (I1 ++ I2)) by (apply in_or_app; now left). specialize (Y2 r Hr'). destruct (A3 r Hr). lia.
Qed.

(** * Lines not passed over *)
Lemma reaches_exists J l : exists c, reaches J l c.
Proof.
  unfold reaches. induction J as [|r J (c & A & B & C)].
  - exists (dl_end l). split; [lia|]. split; [easy|now left].
  - destruct (N.lt_ge_cases (i_start r) (dl_end l)) as [Hs|Hs].
    + destruct (N.le_gt_cases (i_end r) c) as [He|He].
      * exists c. split; [auto|]. split; [intros q [<-|Hq] Hq2; auto|]. destruct C as [C|(q & C1 & C2 & C3)]; [now left|right; exists q; splits; auto; now right].
      * exists (i_end r). split; [lia|]. split; [intros q [<-|Hq] Hq2; [lia|specialize (B q Hq Hq2); lia]|]. right. exists r. splits; auto. now left.
    + exists c. split; [auto|]. split; [intros q [<-|Hq] Hq2; [lia|auto]|]. destruct C as [C|(q & C1 & C2 & C3)]; [now left|right; exists q; splits; auto; now right].
Qed.
Definition ir_into (J : list IR) (k l : DLine) : Prop := exists r, In r J /\ i_start r < dl_end k /\ d_addr l < i_end r.
Lemma into_reach J k c l : reaches J k c -> dl_end k <= d_addr l -> ir_into J k l <-> d_addr l < c.
Proof.
  intros (A & B & C) H. split.
  - intros (r & R1 & R2 & R3). specialize (B r R1 R2). lia.
  - intros Hl. destruct C as [C|(r & R1 & R2 & ->)]; [lia|]. exists r. auto.
Qed.
Lemma lines_after pre k ls l : lines_ok (pre ++ k :: ls) -> In l ls -> dl_end k <= d_addr l /\ d_addr k < d_addr l.
Proof.
  intros (S & F) Hl. apply StronglySorted_app_r in S. inversion S as [|? ? _ Fk]; subst. rewrite Forall_forall in Fk. specialize (Fk l Hl).
  apply Forall_app in F as (_ & F). inversion F as [|? ? (K & _) _]; subst. lia.
Qed.

Lemma seen_skips J c mid l post : Forall (fun m => d_addr m < c) mid -> c <= d_addr l -> seen J (Some c) (mid ++ l :: post) l.
Proof. induction 1 as [|m mid Hm F IH]; intros Hl; cbn [app]; [now apply se_here|]. apply se_skip; [cbn; lia|auto]. Qed.
Lemma seen_more J skip ls k : seen J skip ls k -> lines_ok ls -> forall pre mid l post, ls = pre ++ k :: mid ++ l :: post ->
  Forall (ir_into J k) mid -> ~ ir_into J k l -> seen J skip ls l.
Proof.
  induction 1 as [skip h t k Hn Hs IH|skip h t Hu|skip h t c k Hu Hc Hs IH]; intros L pre mid l post E F Nl.
  - destruct pre as [|p pre]; cbn [app] in E; inversion E; subst.
    + apply seen_in in Hs. destruct (lines_after [] _ _ _ L Hs). lia.
    + apply se_skip; auto. apply (IH) with (pre := pre) (mid := mid) (post := post); auto. destruct L as (L1 & L2). inversion L1; inversion L2; subst; split; auto.
  - destruct pre as [|p pre]; cbn [app] in E; inversion E; subst.
    + destruct (reaches_exists J h) as (c & Rc). apply se_next with c; auto. apply seen_skips.
      * rewrite Forall_forall in *. intros m Hm. apply (into_reach J h c m Rc); [apply (lines_after [] _ _ m L), in_or_app; now left|auto].
      * destruct (N.le_gt_cases c (d_addr l)) as [|Hc]; auto. exfalso. apply Nl. apply (into_reach J h c l Rc); [|exact Hc].
        apply (lines_after [] _ _ l L), in_or_app. right. now left.
    + match type of L with lines_ok (?p :: _ ++ _) => destruct (lines_after [] p _ p L); [apply in_or_app; right; now left|lia] end.
  - destruct pre as [|p pre]; cbn [app] in E; inversion E; subst.
    + apply seen_in in Hs. destruct (lines_after [] _ _ _ L Hs). lia.
    + apply se_next with c; auto. apply (IH) with (pre := pre) (mid := mid) (post := post); auto. destruct L as (L1 & L2). inversion L1; inversion L2; subst; split; auto.
Qed.

Section Kept.
  Variables (oid : Name -> N) (us : list IR -> list IR) (f : Fun).
  Hypotheses (US : sorts_ranges us) (L : lines_ok (f_lines f)).
  Let J := us (irs_of oid (f_inl f)).
  Lemma into_runs k l : ir_into J k l <-> runs_into f k l.
  Proof.
    destruct (US (irs_of oid (f_inl f))) as (P & _). split.
    - intros (r & R1 & R2 & R3). apply (Permutation_in _ P) in R1. apply in_flat_map in R1 as (g & Hg & R1). apply in_map_iff in R1 as (x & <- & Hx).
      exists g, x. splits; auto.
    - intros (g & x & Hg & Hx & R2 & R3). exists (ir_of oid g x). splits; auto. apply (Permutation_in _ (Permutation_sym P)). apply in_flat_map. exists g. split; auto.
      now apply in_map.
  Qed.
  Lemma kept_seen l : kept f l -> seen J None (f_lines f) l.
  Proof.
    induction 1 as [l post E|k l pre mid post K IH E F Nl]; [rewrite E; now apply se_here|].
    apply (seen_more J None (f_lines f) k IH L pre mid l post E); [|now rewrite into_runs].
    eapply Forall_impl; [|exact F]. intros m. apply into_runs.
  Qed.
  Lemma seen_kept_from k c ls : forall pre mid, f_lines f = pre ++ k :: mid ++ ls -> kept f k -> reaches J k c -> Forall (runs_into f k) mid ->
    forall l, seen J (Some c) ls l -> kept f l.
  Proof.
    revert k c. induction ls as [|m ls IH]; intros k c pre mid E K Rc F l S; [inversion S|].
    assert (Hm : dl_end k <= d_addr m). { rewrite E in L. apply (lines_after _ _ _ m L), in_or_app. right. now left. }
    assert (Km : unskipped (Some c) m -> kept f m).
    { intros U. eapply kp_next; [exact K|exact E|exact F|]. rewrite <- into_runs, (into_reach J k c m Rc Hm). cbn in U. lia. }
    inversion S as [? ? ? ? Hn Hs|? ? ? Hu|? ? ? c' ? Hu Hc Hs]; subst.
    - apply (IH k c pre (mid ++ [m])); auto; [rewrite <- app_assoc; exact E|]. apply Forall_app. split; auto. constructor; [|constructor].
      rewrite <- into_runs, (into_reach J k c m Rc Hm). cbn in Hn. lia.
    - auto.
    - apply (IH m c' (pre ++ k :: mid) []); auto. rewrite <- app_assoc. exact E.
  Qed.
  Lemma seen_kept l : seen J None (f_lines f) l -> kept f l.
  Proof.
    intros S. remember (f_lines f) as ls0 eqn:E in S. symmetry in E. destruct ls0 as [|h t]; inversion S as [? ? ? ? Hn Hs|? ? ? Hu|? ? ? c' ? Hu Hc Hs]; subst.
    - now elim Hn.
    - eapply kp_first; eauto.
    - apply (seen_kept_from h c' t [] []); auto. eapply kp_first; eauto.
  Qed.
End Kept.

(** * The finished table *)
Lemma loose_fits f : loosely_formed f -> fits f.
Proof.
  intros ((_ & L) & _ & W). destruct f as [a sz n ls inls]. unfold fits. cbn [tree_lines f_lines f_inl] in *. apply Forall_app; split.
  - eapply Forall_impl; [|exact L]. cbv beta. intros x (_ & H). exact H.
  - rewrite Forall_forall in *. intros l Hl. apply in_flat_map in Hl as (g & Hg & Hl). pose proof (wf_fits _ (W g Hg)) as X. unfold fits in X. rewrite Forall_forall in X. auto.
Qed.

Lemma loose_events e fid oid f : sorts_ranges (ce_sort e) -> loosely_formed f ->
  exists evs, prec e fid oid f 0 = Ok evs /\
    (forall x j, has evs x j -> (exists l, kept f l /\ j = info fid l) \/ (exists g st l, In g (f_inl f) /\ frames g x st l /\ j = info fid l)) /\
    (forall l a, kept f l -> in_dl a l -> (forall g, In g (f_inl f) -> ~ covers g a) ->
       exists x, x <= a /\ has evs x (info fid l) /\ forall y j, x <= y <= a -> has evs y j -> j = info fid l).
Proof.
  intros US (L & D & W). destruct f as [ad sz n ls inls]. cbn [f_lines f_inl] in *.
  destruct (pinl_spec e fid oid 0 inls []) as (evss & E & F); auto.
  { rewrite Forall_forall in *. intros g Hg. apply tree_spec; auto. }
  destruct (irs_sorted_ok (ce_sort e) oid inls US D W) as (OkI & PI & AI).
  destruct (walk_loose (ce_ck e) fid 0 _ ls None _ None [] L OkI eq_refl) as (out & Ew & A & B & C); [easy|].
  rewrite prec_eq. cbn [f_inl f_lines]. rewrite E. cbn [bind fst snd app]. rewrite Ew. cbn [bind].
  exists (concat evss ++ out). split; [reflexivity|].
  assert (Inner : forall x j, has (concat evss) x j -> exists g st l, In g inls /\ frames g x st l /\ j = info fid l).
  { intros x j H. destruct (inner_emitted fid oid _ _ _ _ H _ F) as (g & evs & Hg & Tg & He). destruct Tg as (_ & _ & Ts & _).
    destruct (Ts x j He) as (st & lf & Hf & ->). exists g, st, lf. auto. }
  split.
  - intros x j H. apply has_app in H as [H|H]; [right; auto|left]. destruct (A x j H) as (l & S & ->). exists l. split; auto.
    exact (seen_kept oid (ce_sort e) (mkFun ad sz n ls inls) US L l S).
  - intros l a K Ha Hn. pose proof (kept_seen oid (ce_sort e) (mkFun ad sz n ls inls) US L l K) as S. cbn [f_lines f_inl app] in S.
    destruct (C l a S Ha) as [(x & X1 & X2 & X3 & X4)|(X & _)]; [now apply off_irs| |discriminate].
    exists x. splits; auto; [apply has_app; now right|]. intros y j Hy H. apply has_app in H as [H|H]; [exfalso|eauto].
    destruct (Inner y j H) as (g & st & lf & Hg & Hf & _). apply frames_covers in Hf. pose proof (X3 y Hy) as O. rewrite off_irs in O by auto. exact (O g Hg Hf).
Qed.

Lemma frames_tree g : forall a st l, frames g a st l -> In l (tree_lines g).
Proof.
  intros a st l H. induction H as [f a l Hl Ha Hn|f g a l st lf Hl Ha Hg Hf IH]; [now apply tree_lines_self|]. now apply (tree_lines_inl f g).
Qed.
Lemma c15_loose e fs m s o k f rest sym : ce_inl e = true -> sorts_ranges (ce_sort e) -> consistent (flat_map fun_refs (readable fs)) ->
  collected e fs m s o -> funcs_at k (readable fs) = f :: rest -> nfind k m = Some sym -> loosely_formed f ->
  (f_addr f + f_size f < two32 -> forall a lf, kept f lf -> in_dl a lf -> (forall g, In g (f_inl f) -> ~ covers g a) -> a < f_addr f + f_size f ->
   exists l, filter (in_line a) (ls_lines (sy_source sym)) = [l] /\ l_num l = d_line lf mod two32 /\ file_is (ce_src e) s (l_file l) (d_file lf)) /\
  (forall l, In l (ls_lines (sy_source sym)) -> exists lf, l_num l = d_line lf mod two32 /\ file_is (ce_src e) s (l_file l) (d_file lf) /\
     (kept f lf \/ exists g, In g (f_inl f) /\ In lf (tree_lines g) /\ covers g (l_rva l))).
Proof.
  intros Ei US C H Hf Hk W. destruct (collected_table e fs m s o k f rest sym US C H Hf Hk) as (kp & P & ns & I & J & T).
  set (ls := sy_source sym) in *. destruct (final_events e f kp P ns s o ls I J T) as (evs & Hfin & Hin & Hev).
  unfold pevents in Hev. rewrite Ei in Hev.
  destruct (loose_events e (fid e f P) (oid ns) f US W) as (evs' & Hev' & A & B). rewrite Hev in Hev'. inversion Hev'; subst evs'.
  split.
  - intros Hs a lf Kf Ha Hn La. destruct (B lf a Kf Ha Hn) as (x & X1 & X2 & X3).
    destruct (lookup_best _ _ _ _ _ a _ Hfin (fn_end_small f Hs) La) as (t & l & Hbest & Hl & Et). { eexists; split; [exact X2|]. exact X1. }
    pose proof (is_best_in _ _ _ Hbest) as Hi. destruct Hbest as (pre & post & Eq & Hle & Hpre & Hpost).
    assert (Hx : x <= t_addr t).
    { unfold has in X2. rewrite Eq in X2. apply in_app_or in X2 as [X2|[X2|X2]]; [|rewrite X2; unfold t_addr; cbn; lia|].
      - specialize (Hpre _ X2). unfold t_addr in Hpre at 1 3. cbn in Hpre. now apply Hpre.
      - specialize (Hpost _ X2). unfold t_addr in Hpost at 1 2. cbn in Hpost. unfold t_addr in *. specialize (Hpost X1). lia. }
    destruct t as [[y n] fl]. unfold t_addr in *. cbn [fst] in *.
    assert (Ej : (n, fl) = info (fid e f P) lf) by (apply (X3 y); [lia|exact Hi]).
    unfold triple in Et. injection Et as E1 E2 E3. exists l. unfold info in Ej. injection Ej as E4 E5. splits; auto.
    + rewrite E2, E4. reflexivity.
    + eapply low_file; eauto; [rewrite E3; exact E5|]. rewrite E3. eapply ins_line_in; eauto.
  - intros l Hl. pose proof (table_line_from _ _ _ _ _ _ Hfin Hl) as Ht. unfold triple in Ht.
    pose proof (ins_line_in _ _ _ _ _ _ Hin Ht) as Lo.
    assert (Fl : forall lf, (l_num l, l_file l) = info (fid e f P) lf -> l_num l = d_line lf mod two32 /\ file_is (ce_src e) s (l_file l) (d_file lf)).
    { intros lf E. unfold info in E. injection E as E1 E2. split; [exact E1|]. eapply low_file; eauto. }
    destruct (A (l_rva l) (l_num l, l_file l) Ht) as [(lf & Kf & E)|(g & st & lf & Hg & Fr & E)]; destruct (Fl lf E) as (F1 & F2); exists lf; splits; auto.
    right. exists g. splits; auto; [eapply frames_tree; eauto|eapply frames_covers; eauto].
Qed.

Lemma runs_into_dec f k l : {runs_into f k l} + {~ runs_into f k l}.
Proof.
  destruct (existsb (fun g => existsb (fun x => (d_addr x <? dl_end k) && (d_addr l <? dl_end x)) (f_lines g)) (f_inl f)) eqn:E.
  - left. apply existsb_exists in E as (g & Hg & E). apply existsb_exists in E as (x & Hx & E). exists g, x. splits; auto; lia.
  - right. intros (g & x & Hg & Hx & A & B). rewrite <- not_true_iff_false in E. apply E. apply existsb_exists. exists g. split; auto.
    apply existsb_exists. exists x. split; auto. lia.
Qed.
(** A line that no call crosses at its start is not passed over. *)
Lemma uncrossed_kept f l : lines_ok (f_lines f) -> In l (f_lines f) ->
  (forall g x, In g (f_inl f) -> In x (f_lines g) -> ~ (d_addr x < d_addr l /\ d_addr l < dl_end x)) -> kept f l.
Proof.
  intros L Hl U. apply in_split in Hl as (pre & post & E).
  assert (Step : forall rest k p mid, kept f k -> f_lines f = p ++ k :: mid ++ rest ++ l :: post -> Forall (runs_into f k) mid -> kept f l).
  { induction rest as [|m rest IH]; intros k p mid K Ek F.
    - eapply kp_next; [exact K|exact Ek|exact F|]. intros (g & x & Hg & Hx & A & B). apply (U g x Hg Hx). split; auto.
      rewrite Ek in L. assert (dl_end k <= d_addr l) by (apply (lines_after _ _ _ l L), in_or_app; right; now left). lia.
    - destruct (runs_into_dec f k m) as [R|R].
      + apply (IH k p (mid ++ [m])); auto; [rewrite <- app_assoc; exact Ek|]. apply Forall_app. auto.
      + apply (IH m (p ++ k :: mid) []); auto; [|rewrite <- app_assoc; exact Ek]. eapply kp_next; [exact K|exact Ek|exact F|exact R]. }
  destruct pre as [|h pre]; [eapply kp_first; exact E|]. apply (Step pre h [] []); auto. eapply kp_first; exact E.
Qed.
Lemma crossed_dec f l : {exists g x, In g (f_inl f) /\ In x (f_lines g) /\ d_addr x < d_addr l < dl_end x} +
  {~ exists g x, In g (f_inl f) /\ In x (f_lines g) /\ d_addr x < d_addr l < dl_end x}.
Proof.
  destruct (existsb (fun g => existsb (fun x => (d_addr x <? d_addr l) && (d_addr l <? dl_end x)) (f_lines g)) (f_inl f)) eqn:E.
  - left. apply existsb_exists in E as (g & Hg & E). apply existsb_exists in E as (x & Hx & E). exists g, x. splits; auto; lia.
  - right. intros (g & x & Hg & Hx & A & B). rewrite <- not_true_iff_false in E. apply E. apply existsb_exists. exists g. split; auto.
    apply existsb_exists. exists x. split; auto. lia.
Qed.
