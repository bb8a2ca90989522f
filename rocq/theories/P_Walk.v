From Verif Require Import Base Sort BMap Str M_Names M_Path M_Line S_Line P_Line M_Source S_Source P_Source M_Symbol M_Collector S_Collector P_Collector.

Definition info (fid : FileRef -> N) (l : DLine) : N * N := (u32 (d_line l), fid (d_file l)).
Definition in_ir (a : N) (r : IR) : Prop := i_start r <= a < i_end r.
Definition off (inl : list IR) (a : N) : Prop := forall r, In r inl -> ~ in_ir a r.
Definition irs_ok (inl : list IR) : Prop :=
  StronglySorted (fun a b => i_end a <= i_start b) inl /\ Forall (fun r => i_start r < i_end r /\ i_end r < two32) inl.
Notation inserted_inlines := inline_calls.
Lemma inserted_inlines_app a b : inserted_inlines (a ++ b) = inserted_inlines a ++ inserted_inlines b.
Proof. induction a as [|[] a IH]; simpl; auto. now rewrite IH. Qed.

Lemma line_end_ok ck l : dl_end l < two32 -> line_end ck l = Ok (dl_end l).
Proof. intros H. unfold line_end, dl_end, dl_size in *. apply add64_ok. unfold two32, two64 in *. lia. Qed.
Lemma info_eqb_spec a b : info_eqb a b = true <-> a = b.
Proof. destruct a, b; unfold info_eqb; simpl. split; [intros; f_equal; lia|intros [= -> ->]; lia]. Qed.

Definition call_of (depth : N) (i : N * N) (r : IR) : Site * Range :=
  (mkSite (i_origin r) depth (fst i) (snd i), mkRange (i_start r) (i_end r - i_start r)).

Lemma loop_spec ck depth i lend : lend < two32 -> forall inl cur prev, cur <= lend -> irs_ok inl ->
  Forall (fun r => cur <= i_start r) inl -> Forall (fun r => i_start r < lend -> i_end r <= lend) inl ->
  exists I1 I2 p out, line_loop ck depth (fst i) (snd i) lend inl cur prev = Ok (lend, I2, p, out) /\
    inl = I1 ++ I2 /\ (cur < lend -> Forall (fun r => i_start r < lend) I1 /\ Forall (fun r => lend <= i_start r) I2) /\
    (forall x n f, In (x, n, f) (inserted_lines out) -> (n, f) = i /\ cur <= x < lend /\ off I1 x /\
       ~ (cur < x /\ off I1 (x - 1)) /\ ~ (x = cur /\ prev = Some i)) /\
    (forall a, cur <= a < lend -> off I1 a ->
       In (a, fst i, snd i) (inserted_lines out) \/ (cur < a /\ off I1 (a - 1)) \/ (a = cur /\ prev = Some i)) /\
    inserted_inlines out = map (call_of depth i) I1 /\
    (cur < lend -> (p = None /\ ~ off I1 (lend - 1)) \/ (p = Some i /\ off I1 (lend - 1))) /\
    (cur = lend -> I1 = [] /\ p = prev).
Proof.
  intros Hle. induction inl as [|r inl IH]; intros cur prev Hc Ok1 Hs He; cbn [line_loop].
  - destruct (N.ltb_spec cur lend) as [Hlt|Hge].
    + set (fresh := negb (option_eqb info_eqb prev (Some (fst i, snd i)))).
      exists [], [], (if fresh then Some (fst i, snd i) else prev), (if fresh then [InsLine (u32 cur) (fst i) (snd i)] else []).
      assert (Hf : fresh = false -> prev = Some i).
      { unfold fresh. destruct prev as [q|]; simpl; [|discriminate]. intros H. f_equal.
        apply info_eqb_spec. destruct i; simpl in *. now destruct (info_eqb q _). }
      assert (Hg : fresh = true -> prev <> Some i).
      { unfold fresh. intros H ->. cbn [option_eqb] in H. rewrite (proj2 (info_eqb_spec i (fst i, snd i))) in H; [discriminate|now destruct i]. }
      rewrite (u32_small cur) by lia. splits; auto; try lia.
      * intros x n f Hin. destruct fresh; [|easy]. destruct Hin as [E|[]]. inversion E; subst. splits; try lia; [now destruct i|intros ? []|intros (_ & K); now apply Hg].
      * intros a Ha _. destruct (N.eq_dec a cur) as [->|]; [|right; left; split; [lia|intros ? []]].
        destruct fresh; [left; now left|right; right; auto].
      * destruct fresh; reflexivity.
      * intros _. right. split; [|intros ? []]. destruct fresh; [now destruct i|auto].
    + assert (cur = lend) by lia; subst cur. exists [], [], prev, []. splits; auto; try lia; easy.
  - inversion Hs as [|? ? Hs1 Hs2]; subst. inversion He as [|? ? He1 He2]; subst.
    destruct Ok1 as (S1 & F1). inversion S1 as [|? ? S2 Fs]; subst. inversion F1 as [|? ? (Hr1 & Hr2) F2]; subst.
    assert (Ok2 : irs_ok inl) by (split; auto).
    destruct (N.ltb_spec cur lend) as [Hlt|Hge].
    2:{ assert (cur = lend) by lia; subst cur. exists [], (r :: inl), prev, []. splits; auto; try lia; easy. }
    set (fresh := negb (negb (cur <? i_start r)) && negb (option_eqb info_eqb prev (Some (fst i, snd i)))).
    assert (Hf : fresh = false -> cur < i_start r -> prev = Some i).
    { unfold fresh. intros H Hx. replace (cur <? i_start r) with true in H by lia. simpl in H.
      destruct prev as [q|]; simpl in H; [|discriminate]. f_equal. apply info_eqb_spec. destruct i; simpl in *. now destruct (info_eqb q _). }
    assert (Hf' : fresh = true -> cur < i_start r).
    { unfold fresh. intros H. apply andb_true_iff in H as (H & _). lia. }
    assert (Hg : fresh = true -> prev <> Some i).
    { unfold fresh. intros H ->. apply andb_true_iff in H as (_ & H). cbn [option_eqb] in H. rewrite (proj2 (info_eqb_spec i (fst i, snd i))) in H; [discriminate|now destruct i]. }
    rewrite (u32_small cur) by lia. rewrite (u32_small (i_start r)) by lia.
    destruct (N.ltb_spec (i_start r) lend) as [Hsl|Hsl].
    + rewrite sub64_ok by lia. cbn [bind]. rewrite (u32_small (i_end r - i_start r)) by lia.
      specialize (He1 Hsl).
      destruct (IH (i_end r) None) as (I1 & I2 & p & out & E & -> & A1 & A2 & A3 & A4 & A5 & A6); auto.
      rewrite E. cbn [bind]. exists (r :: I1), I2, p, ((if fresh then [InsLine cur (fst i) (snd i)] else []) ++ InsInline (mkSite (i_origin r) depth (fst i) (snd i)) (mkRange (i_start r) (i_end r - i_start r)) :: out).
      assert (Offt : forall a, a < i_end r -> off I1 a).
      { intros a Ha q Hq (Hq1 & _). rewrite Forall_forall in Fs. assert (i_end r <= i_start q) by (apply Fs, in_or_app; auto). lia. }
      assert (Offh : forall a, i_end r <= a -> off I1 a -> off (r :: I1) a).
      { intros a Ha Ho q [<-|Hq]; [unfold in_ir; lia|now apply Ho]. }
      assert (Offb : forall a, a < i_start r -> off (r :: I1) a).
      { intros a Ha q [<-|Hq]; [unfold in_ir; lia|apply Offt; auto; lia]. }
      splits; auto.
      * intros _. destruct (N.eq_dec (i_end r) lend) as [He0|He0].
        { destruct (A6 He0) as (-> & _). simpl in *. split; [now constructor|].
          rewrite Forall_forall in *. intros x Hx. specialize (Fs x Hx). lia. }
        destruct A1 as (A1 & A1'); [lia|]. split; auto.
      * intros x n f Hin. rewrite inserted_lines_app in Hin. apply in_app_or in Hin as [Hin|Hin].
        -- destruct fresh; [|easy]. destruct Hin as [Ei|[]]. inversion Ei; subst. specialize (Hf' eq_refl).
           splits; try lia; [now destruct i|now apply Offb|intros (_ & K); now apply Hg].
        -- simpl in Hin. destruct (A2 x n f Hin) as (B1 & B2 & B3 & B4 & _). splits; auto; try lia; [apply Offh; auto; lia|].
           intros (_ & K). destruct (N.eq_dec x (i_end r)) as [->|Hx]; [apply (K r); [now left|unfold in_ir; lia]|].
           apply B4. split; [lia|]. intros q Hq. apply K. now right.
      * intros a Ha Ho. rewrite inserted_lines_app. simpl inserted_lines at 2.
        destruct (N.lt_ge_cases a (i_start r)) as [Has|Has].
        -- destruct (N.eq_dec a cur) as [->|].
           ++ destruct fresh eqn:Ef; [left; simpl; now left|]. right; right; auto.
           ++ right; left. split; [lia|]. apply Offb; lia.
        -- destruct (N.lt_ge_cases a (i_end r)) as [Hae|Hae]; [exfalso; apply (Ho r); [now left|split; auto]|].
           destruct (A3 a) as [B|[(B1 & B2)|(B1 & B2)]]; [lia|intros q Hq; apply Ho; now right| | |].
           ++ left. apply in_or_app; now right.
           ++ right; left. split; [lia|]. apply Offh; auto; lia.
           ++ discriminate.
      * rewrite inserted_inlines_app. simpl. rewrite A4. destruct fresh; reflexivity.
      * intros _. destruct (N.eq_dec (i_end r) lend) as [He0|He0].
        { destruct (A6 He0) as (_ & ->). left. split; auto. intros K. apply (K r); [now left|unfold in_ir; lia]. }
        destruct A5 as [(-> & B)|(-> & B)]; auto; [lia| |].
        { left. split; auto. intros K. apply B. intros q Hq. apply K. now right. }
        right. split; auto. apply Offh; auto; lia.
      * lia.
    + exists [], (r :: inl), (if fresh then Some (fst i, snd i) else prev), (if fresh then [InsLine cur (fst i) (snd i)] else []).
      splits; auto.
      * intros _. split; auto. constructor; auto. rewrite Forall_forall in *. intros x Hx. specialize (Fs x Hx). lia.
      * intros x n f Hin. destruct fresh; [|easy]. destruct Hin as [E|[]]. inversion E; subst. splits; try lia; [now destruct i|intros ? []|intros (_ & K); now apply Hg].
      * intros a Ha _. destruct (N.eq_dec a cur) as [->|]; [|right; left; split; [lia|intros ? []]].
        destruct fresh eqn:Ef; [left; now left|right; right; split; auto]. apply Hf; auto; lia.
      * destruct fresh; reflexivity.
      * intros _. right. split; [|intros ? []]. destruct fresh eqn:Ef; [now destruct i|apply Hf; auto; lia].
      * lia.
Qed.

(** The whole walk over one function's lines. *)
Definition in_one (ls : list DLine) (r : IR) : Prop := exists l, In l ls /\ d_addr l <= i_start r /\ i_end r <= dl_end l.

Lemma walk_spec ck fid depth : forall ls skip inl prev, lines_ok ls -> irs_ok inl -> Forall (in_one ls) inl ->
  match skip with Some c => Forall (fun l => c <= d_addr l) ls | None => True end ->
  exists out, pwalk ck fid depth ls skip inl prev = Ok out /\
    (forall x n f, In (x, n, f) (inserted_lines out) -> exists l, In l ls /\ in_dl x l /\ (n, f) = info fid l /\ off inl x /\
       ~ (1 <= x /\ in_dl (x - 1) l /\ off inl (x - 1)) /\
       ~ (x = d_addr l /\
         ((exists pre l' post, ls = pre ++ l' :: l :: post /\ info fid l' = info fid l /\ off inl (dl_end l' - 1)) \/
          (exists post, ls = l :: post /\ prev = Some (info fid l))))) /\
    (forall l a, In l ls -> in_dl a l -> off inl a ->
       In (a, fst (info fid l), snd (info fid l)) (inserted_lines out) \/
       (1 <= a /\ in_dl (a - 1) l /\ off inl (a - 1)) \/
       (a = d_addr l /\
         ((exists pre l' post, ls = pre ++ l' :: l :: post /\ info fid l' = info fid l /\ off inl (dl_end l' - 1)) \/
          (exists post, ls = l :: post /\ prev = Some (info fid l))))) /\
    Forall2 (fun r x => exists l, In l ls /\ d_addr l <= i_start r /\ i_end r <= dl_end l /\ x = call_of depth (info fid l) r)
      inl (inserted_inlines out).
Proof.
  induction ls as [|l ls IH]; intros skip inl prev (LS & LF) OkI Hin Hskip; cbn [pwalk].
  - exists []. splits; auto; try easy. destruct inl as [|r inl]; [constructor|]. inversion Hin as [|? ? (x & [] & _)].
  - inversion LS as [|? ? LS2 Fl]; subst. inversion LF as [|? ? (Hl1 & Hl2) LF2]; subst.
    assert (Hsk : match skip with Some c => d_addr l <? c | None => false end = false).
    { destruct skip as [c|]; auto. inversion Hskip; subst. lia. }
    rewrite Hsk, line_end_ok by auto. cbn [bind].
    assert (Hafter : forall x, In x ls -> dl_end l <= d_addr x) by now rewrite Forall_forall in Fl.
    destruct (loop_spec ck depth (info fid l) (dl_end l) Hl2 inl (d_addr l) prev) as (I1 & I2 & p & out & E & -> & A1 & A2 & A3 & A4 & A5 & A6); auto; [lia| | |].
    { rewrite Forall_forall in *. intros r Hr. destruct (Hin r Hr) as (x & [<-|Hx] & Hx1 & Hx2); auto. specialize (Fl x Hx). lia. }
    { rewrite Forall_forall in *. intros r Hr Hrl. destruct (Hin r Hr) as (x & [<-|Hx] & Hx1 & Hx2); auto. specialize (Fl x Hx). lia. }
    destruct (A1 Hl1) as (B1 & B2). clear A1 A6.
    destruct OkI as (OS & OF). pose proof (StronglySorted_app_r _ _ _ OS) as OS2. apply Forall_app in OF as (OF1 & OF2).
    apply Forall_app in Hin as (Hin1 & Hin2).
    assert (H1l : Forall (fun r => d_addr l <= i_start r /\ i_end r <= dl_end l) I1).
    { rewrite Forall_forall in *. intros r Hr. specialize (B1 r Hr). destruct (Hin1 r Hr) as (x & [<-|Hx] & Hx1 & Hx2); auto. specialize (Hafter x Hx). lia. }
    destruct (IH (Some (dl_end l)) I2 p) as (out2 & E2 & C1 & C2 & C3).
    { split; auto. } { split; auto. }
    { rewrite Forall_forall in *. intros r Hr. specialize (B2 r Hr). destruct (Hin2 r Hr) as (x & [<-|Hx] & Hx1 & Hx2); [|exists x; auto].
      specialize (OF2 r Hr). cbv beta in OF2. lia. }
    { now rewrite Forall_forall. }
    unfold info in E. cbn [fst snd] in E. rewrite E. cbn [bind]. rewrite E2. cbn [bind]. exists (out ++ out2). split; [reflexivity|].
    assert (Off1 : forall a, dl_end l <= a -> off I1 a).
    { intros a Ha r Hr. rewrite Forall_forall in H1l. specialize (H1l r Hr). unfold in_ir. lia. }
    assert (Off2 : forall a, a < dl_end l -> off I2 a).
    { intros a Ha r Hr. rewrite Forall_forall in B2. specialize (B2 r Hr). unfold in_ir. cbv beta in B2. lia. }
    assert (OffA : forall a, off I1 a -> off I2 a -> off (I1 ++ I2) a).
    { intros a Ha Hb r Hr. apply in_app_or in Hr as [Hr|Hr]; auto. }
    splits.
    + intros x n f Hx. rewrite inserted_lines_app in Hx. apply in_app_or in Hx as [Hx|Hx].
      * destruct (A2 x n f Hx) as (D1 & D2 & D3 & D4 & D5). exists l. splits; auto; [now left|apply OffA; auto; apply Off2; lia| |].
        -- intros (K1 & (K2 & _) & K3). apply D4. split; [lia|]. intros r Hr. apply K3, in_or_app; auto.
        -- intros (K1 & [(pre & l' & post & K2 & _ & _)|(post & _ & K2)]); [|now apply D5].
           assert (Hi : In l ls).
           { destruct pre as [|q pre]; cbn [app] in K2; injection K2 as _ ->; [now left|]. apply in_or_app. right. right. now left. }
           specialize (Hafter _ Hi). lia.
      * destruct (C1 x n f Hx) as (l2 & D1 & D2 & D3 & D4 & D5 & D6). exists l2. splits; auto; [now right| | |].
        -- apply OffA; auto. apply Off1. destruct D2 as (D2 & _). specialize (Hafter _ D1). lia.
        -- intros (K1 & K2 & K3). apply D5. splits; auto. intros r Hr. apply K3, in_or_app; auto.
        -- intros (K1 & [(pre & l' & post & K2 & K3 & K4)|(post & K2 & _)]).
           ++ apply D6. split; auto. destruct pre as [|q pre]; cbn [app] in K2; injection K2 as <- ->.
              ** right. exists post. split; auto. destruct (A5 Hl1) as [(_ & B)|(-> & _)]; [|now rewrite K3].
                 elim B. intros r Hr. apply K4, in_or_app; auto.
              ** left. exists pre, l', post. splits; auto. intros r Hr. apply K4, in_or_app; auto.
           ++ injection K2 as -> _. specialize (Hafter _ D1). lia.
    + intros l2 a Hl2' Ha Ho.
      assert (Ho1 : off I1 a) by (intros r Hr; apply Ho, in_or_app; auto).
      assert (Ho2 : off I2 a) by (intros r Hr; apply Ho, in_or_app; auto).
      rewrite inserted_lines_app. destruct Hl2' as [<-|Hl2'].
      * destruct (A3 a Ha Ho1) as [D|[(D1 & D2)|(D1 & D2)]].
        -- left. apply in_or_app; auto.
        -- right; left. unfold in_dl in *. splits; try lia. apply OffA; auto. apply Off2; lia.
        -- right; right. split; auto. right. exists ls. auto.
      * destruct (C2 l2 a Hl2' Ha Ho2) as [D|[(D1 & D2 & D3)|(D1 & [(pre & l' & post & D2 & D3 & D4)|(post & D2 & D3)])]].
        -- left. apply in_or_app; auto.
        -- right; left. splits; auto. apply OffA; auto. apply Off1. destruct D2 as (D2 & _). specialize (Hafter _ Hl2'). lia.
        -- right; right. split; auto. left. exists (l :: pre), l', post. splits; [now rewrite D2|auto|]. apply OffA; auto.
           apply Off1. assert (Hl' : In l' ls) by (rewrite D2; apply in_or_app; right; now left).
           specialize (Hafter _ Hl'). rewrite Forall_forall in LF2. specialize (LF2 l' Hl'). cbv beta in LF2. lia.
        -- right; right. split; auto. left. exists [], l, post. splits; [now rewrite D2| |].
           ++ destruct (A5 Hl1) as [(-> & _)|(-> & _)]; [discriminate|]. congruence.
           ++ destruct (A5 Hl1) as [(-> & _)|(_ & D4)]; [discriminate|]. apply OffA; auto. apply Off2; lia.
    + rewrite inserted_inlines_app. apply Forall2_app.
      * rewrite A4. clear - H1l. induction I1 as [|r I1 IH1]; simpl; [constructor|]. inversion H1l as [|? ? (X & Y) ?]; subst. constructor; auto.
        exists l. splits; auto.
      * eapply Forall2_impl; [|exact C3]. cbv beta. intros r x (l2 & D1 & D2). exists l2. split; auto. now right.
Qed.
