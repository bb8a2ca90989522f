From Verif Require Import Base Sort BMap Str M_Names M_Path M_Line S_Line P_Line M_Source S_Source P_Source M_Symbol S_Symbol P_Symbol M_Collector S_Collector P_Collector P_Walk P_Tree.

(** * Index functions *)
Section Index.
  Context {A : Type} (dec : forall x y : A, {x = y} + {x <> y}).
  Fixpoint idx (l : list A) (x : A) : N :=
    match l with [] => 0 | y :: t => if dec x y then 0 else 1 + idx t x end.
  Lemma nthN_cons_succ (y : A) t i : nthN (y :: t) (1 + i) = nthN t i.
  Proof. unfold nthN. replace (N.to_nat (1 + i)) with (S (N.to_nat i)) by lia. reflexivity. Qed.
  Lemma idx_some l x i : idx l x = i -> i < lenN l -> nthN l i = Some x.
  Proof.
    revert i. induction l as [|y t IH]; cbn [idx]; intros i E Hi; [unfold lenN in Hi; simpl in Hi; lia|].
    destruct (dec x y) as [->|Hn]; [subst; reflexivity|]. subst i. rewrite nthN_cons_succ. apply IH; auto.
    rewrite lenN_cons in Hi. lia.
  Qed.
  Lemma idx_in l x : In x l -> nthN l (idx l x) = Some x.
  Proof.
    induction l as [|y t IH]; [easy|]. cbn [idx In]. intros H. destruct (dec x y) as [->|Hn]; [reflexivity|].
    rewrite nthN_cons_succ. apply IH. destruct H; [congruence|auto].
  Qed.
  Lemma idx_nodup l m x i : NoDup l -> nthN l i = Some x -> idx (l ++ m) x = i.
  Proof.
    intros ND. revert i. induction ND as [|y t Hy ND IH]; intros i H; [destruct (N.to_nat i) eqn:E; unfold nthN in H; rewrite E in H; discriminate|].
    cbn [app idx]. destruct (dec x y) as [->|Hn].
    - destruct (N.eq_dec i 0) as [->|Hi]; auto. replace i with (1 + (i - 1)) in H by lia. rewrite nthN_cons_succ in H.
      apply nthN_In in H. contradiction.
    - destruct (N.eq_dec i 0) as [->|Hi]; [inversion H; congruence|]. replace i with (1 + (i - 1)) in H by lia. rewrite nthN_cons_succ in H.
      rewrite (IH _ H). lia.
  Qed.
End Index.

Definition fidx (e : SrcEnv) (P : list str) (f : Fun) (r : FileRef) : N :=
  idx P_Symbol.str_eq_dec (P ++ map (env_path e) (fun_refs f)) (env_path e r).
Definition oidx (ns : list Name) (n : Name) : N := idx name_eq_dec ns n.
Lemma fidx_agree e P f : NoDup P -> fagree e P (fidx e P f).
Proof. intros ND r i H. now apply idx_nodup. Qed.
Lemma oidx_agree ns : NoDup ns -> oagree ns (oidx ns).
Proof. intros ND r i H. unfold oidx. rewrite <- (app_nil_r ns). now apply idx_nodup. Qed.
Lemma fidx_inj e P f r r' : In r (fun_refs f) -> In r' (fun_refs f) -> fidx e P f r = fidx e P f r' -> env_path e r = env_path e r'.
Proof.
  intros H H' E. unfold fidx in E.
  assert (X : forall r, In r (fun_refs f) -> nthN (P ++ map (env_path e) (fun_refs f)) (idx P_Symbol.str_eq_dec (P ++ map (env_path e) (fun_refs f)) (env_path e r)) = Some (env_path e r)).
  { intros q Hq. apply idx_in. apply in_or_app; right. now apply in_map. }
  pose proof (X r H) as A. pose proof (X r' H') as B. rewrite E in A. congruence.
Qed.
Lemma fidx_low e P f r : fidx e P f r < lenN P -> nthN P (fidx e P f r) = Some (env_path e r).
Proof.
  intros H. rewrite <- (nthN_app1 P (map (env_path e) (fun_refs f))) by auto.
  eapply idx_some; [reflexivity|]. rewrite lenN_app. lia.
Qed.
Lemma oidx_low ns n : oidx ns n < lenN ns -> nthN ns (oidx ns n) = Some n.
Proof. intros H. eapply idx_some; [reflexivity|auto]. Qed.

(** * Gaps in terms of file numbers *)
Lemma fun_refs_line f l : In l (f_lines f) -> In (d_file l) (fun_refs f).
Proof. destruct f; cbn. intros. apply in_or_app; left. now apply in_map. Qed.
Lemma fun_refs_inl f g r : In g (f_inl f) -> In r (fun_refs g) -> In r (fun_refs f).
Proof. destruct f; cbn. intros. apply in_or_app; right. apply in_flat_map; eauto. Qed.
Lemma gaps_ids e P top : forall f, (forall r, In r (fun_refs f) -> In r (fun_refs top)) -> no_gaps_inside e f -> idgaps (fidx e P top) f.
Proof.
  induction f as [a sz n ls inls IH] using Fun_ind'. intros Hr H. inversion H as [? H1 H2]; subst. cbn [f_inl] in *.
  assert (Hg : forall g, In g inls -> forall r, In r (fun_refs g) -> In r (fun_refs top)).
  { intros g Hg r Hi. apply Hr. eapply fun_refs_inl; eauto. }
  constructor; cbn [f_inl]; rewrite Forall_forall in *.
  - intros g Hin pre x y post E Hi. apply (H1 g Hin pre x y post E).
    assert (Hx : In x (f_lines g)) by (rewrite E; apply in_or_app; right; now left).
    assert (Hy : In y (f_lines g)) by (rewrite E; apply in_or_app; right; right; now left).
    unfold info in Hi. inversion Hi as [[E1 E2]]. split; [exact E1|].
    eapply fidx_inj; [| |exact E2]; eapply Hg; eauto using fun_refs_line.
  - intros g Hin. apply IH; eauto.
Qed.

Lemma starts_impl (s1 s2 : DLine -> DLine -> Prop) : forall f, (forall x y, In (d_file x) (fun_refs f) -> In (d_file y) (fun_refs f) -> s2 x y -> s1 x y) ->
  forall a l, starts s1 f a l -> starts s2 f a l.
Proof.
  induction f as [ad sz n ls inls IH] using Fun_ind'. intros Hs a l H.
  inversion H as [? ? ? Hf N1 N2|? g ? ? Hg H1]; subst; cbn [f_inl] in *.
  - apply st_own; auto. intros (K1 & pre & l' & post & K2 & K3 & K4). apply N2. split; auto. exists pre, l', post. splits; auto. cbn [f_lines] in K2.
    apply Hs; auto; apply fun_refs_line; cbn [f_lines]; rewrite K2; apply in_or_app; right; [now left|right; now left].
  - apply st_inl with g; auto. rewrite Forall_forall in IH. apply IH; auto. intros x y Hx Hy. apply Hs; eapply fun_refs_inl; eauto.
Qed.
Lemma starts_ids e P f a l : starts (same_id (fidx e P f)) f a l <-> starts (same_info e) f a l.
Proof.
  split; apply starts_impl; intros x y Hx Hy.
  - intros (E1 & E2). unfold same_id, info, u32, fidx. rewrite E1, E2. reflexivity.
  - intros E. unfold same_id, info in E. injection E as E1 E2. split; [exact E1|]. eapply fidx_inj; eauto.
Qed.

(** * Bounds of the calls (with 32-bit lines) *)
Lemma loop_bounds ck depth ln file lend : forall inl cur prev, (ck = false \/ Forall (fun r => i_start r <= i_end r /\ i_end r < two32) inl) ->
  exists c I1 I2 p out, line_loop ck depth ln file lend inl cur prev = Ok (c, I2, p, out) /\ inl = I1 ++ I2 /\
    (Forall (fun r => i_start r <= i_end r /\ i_end r < two32) inl -> Forall sp_ins_ok out).
Proof.
  induction inl as [|r inl IH]; intros cur prev H; cbn [line_loop].
  - destruct (cur <? lend).
    + eexists _, [], _, _, _. splits; [reflexivity|reflexivity|]. intros _. forall_if. apply u32_lt.
    + eexists _, [], _, _, _. splits; [reflexivity|reflexivity|]. constructor.
  - destruct (cur <? lend); [|eexists _, [], _, _, _; splits; [reflexivity|reflexivity|constructor]].
    destruct (i_start r <? lend).
    + assert (exists len, sub64 ck (i_end r) (i_start r) = Ok len /\ (i_start r <= i_end r -> len = i_end r - i_start r)) as (len & El & Hl).
      { destruct H as [->|H].
        - unfold sub64, sub_w. destruct (N.leb_spec (i_start r) (i_end r)); eexists; split; eauto; intros; lia.
        - inversion H as [|? ? (H1 & H2) ?]; subst. rewrite sub64_ok by auto. eauto. }
      rewrite El. cbn [bind].
      destruct (IH (i_end r) None) as (c & I1 & I2 & p & out & E & -> & F).
      { destruct H as [->|H]; auto. right. now inversion H. }
      rewrite E. cbn [bind]. eexists _, (r :: I1), I2, _, _. splits; [reflexivity|reflexivity|].
      intros Hf. inversion Hf as [|? ? (H1 & H2) H3]; subst. apply Forall_app; split.
      * forall_if. apply u32_lt.
      * constructor; auto. cbn. unfold range_fits; cbn. rewrite Hl by auto. rewrite !u32_small by (unfold two32 in *; lia). unfold two32 in *; lia.
    + eexists _, [], _, _, _. splits; [reflexivity|reflexivity|]. intros _. forall_if. apply u32_lt.
Qed.

Definition safe (ck : bool) (l : list DLine) : Prop := ck = false \/ Forall (fun x => dl_end x < two32) l.
Lemma line_end_safe ck l : (ck = false \/ dl_end l < two32) -> exists x, line_end ck l = Ok x /\ (dl_end l < two32 -> x = dl_end l).
Proof.
  intros [->|H].
  - unfold line_end, add64, add_w. destruct (N.ltb_spec (d_addr l + match d_size l with Some s => s | None => 1 end) two64) as [Hl|Hl].
    + eexists; split; eauto.
    + eexists; split; eauto. unfold dl_end, dl_size, two32, two64 in *. lia.
  - exists (dl_end l). split; auto. now apply line_end_ok.
Qed.

Lemma walk_ok e kp depth : forall ls skip inl prev P s, SrcInv (ce_src e) kp P s ->
  (forall l, In l ls -> kp (fr_key (d_file l)) = env_path (ce_src e) (d_file l)) ->
  safe (ce_ck e) ls -> (ce_ck e = false \/ Forall (fun r => i_start r <= i_end r /\ i_end r < two32) inl) ->
  exists evs P' s', walk_lines e depth ls skip inl prev s = Ok (evs, s') /\ SrcInv (ce_src e) kp P' s' /\
    (Forall (fun r => i_start r <= i_end r /\ i_end r < two32) inl -> Forall sp_ins_ok evs).
Proof.
  induction ls as [|l ls IH]; intros skip inl prev P s I K Sf Si; cbn [walk_lines].
  - exists [], P, s. splits; auto.
  - assert (K' : forall l, In l ls -> kp (fr_key (d_file l)) = env_path (ce_src e) (d_file l)) by (intros; apply K; now right).
    assert (Sf' : safe (ce_ck e) ls) by (destruct Sf as [|Sf]; [now left|right; now inversion Sf]).
    destruct (match skip with Some c => d_addr l <? c | None => false end).
    + eapply IH; eauto.
    + destruct (line_end_safe (ce_ck e) l) as (x & -> & _). { destruct Sf as [|Sf]; auto. right. now inversion Sf. }
      cbn [bind]. destruct (lookup_inv (ce_src e) kp P s (d_file l) I (K l (or_introl eq_refl))) as (i & P1 & s1 & -> & I1 & _).
      cbn [bind fst snd]. destruct (loop_bounds (ce_ck e) depth (u32 (d_line l)) i x inl (d_addr l) prev Si) as (c & J1 & J2 & p & out & -> & -> & F).
      cbn [bind]. destruct (IH (Some c) J2 p P1 s1 I1 K' Sf') as (evs & P2 & s2 & -> & I2 & F2).
      { destruct Si as [Si|Si]; [now left|right]. now apply Forall_app in Si. }
      cbn [bind fst snd]. exists (out ++ evs), P2, s2. splits; auto. intros Hf. apply Forall_app; split; auto.
      apply F2. now apply Forall_app in Hf.
Qed.

Lemma ranges_ok ck oid ls : safe ck ls -> exists rs, line_ranges ck oid ls = Ok rs /\
  (Forall (fun x => dl_end x < two32) ls -> Forall (fun r => i_start r <= i_end r /\ i_end r < two32) rs).
Proof.
  unfold line_ranges. induction ls as [|l ls IH]; intros Sf; cbn [mapM]; [exists []; split; auto|].
  destruct (line_end_safe ck l) as (x & -> & Hx). { destruct Sf as [|Sf]; auto. right. now inversion Sf. }
  cbn [bind]. destruct IH as (rs & -> & F). { destruct Sf as [|Sf]; [now left|right; now inversion Sf]. }
  cbn [bind]. eexists; split; [reflexivity|]. intros H. inversion H; subst. constructor; auto. cbn. rewrite Hx by auto.
  unfold dl_end in *. lia.
Qed.

Lemma tree_lines_self f l : In l (f_lines f) -> In l (tree_lines f).
Proof. destruct f; cbn. intros. apply in_or_app; auto. Qed.
Lemma tree_lines_inl f g l : In g (f_inl f) -> In l (tree_lines g) -> In l (tree_lines f).
Proof. destruct f; cbn. intros. apply in_or_app; right. apply in_flat_map; eauto. Qed.

Definition tsafe (ck : bool) (f : Fun) : Prop := ck = false \/ fits f.
Lemma rec_ok e kp : sort_perm (ce_sort e) -> forall f depth P ns s o,
  SrcInv (ce_src e) kp P s -> OrigInv (ce_dm e) ns o ->
  (forall r, In r (fun_refs f) -> kp (fr_key r) = env_path (ce_src e) r) -> tsafe (ce_ck e) f ->
  exists evs P' ns' s' o', collect_rec e f depth s o = Ok (evs, s', o') /\ SrcInv (ce_src e) kp P' s' /\ OrigInv (ce_dm e) ns' o' /\
    (fits f -> Forall sp_ins_ok evs).
Proof.
  intros US. induction f as [a sz n ls inls IH] using Fun_ind'. intros depth P ns s o I J K Sf.
  rewrite collect_rec_eq. cbn [f_inl f_lines].
  assert (G : forall gs irs0 P ns s o, Forall (fun g => In g inls) gs ->
    SrcInv (ce_src e) kp P s -> OrigInv (ce_dm e) ns o ->
    (ce_ck e = false \/ Forall (fun r => i_start r <= i_end r /\ i_end r < two32) irs0) ->
    exists irs ev P' ns' s' o', cinl e depth gs irs0 s o = Ok (irs, (ev, s', o')) /\
    SrcInv (ce_src e) kp P' s' /\ OrigInv (ce_dm e) ns' o' /\
    (ce_ck e = false \/ Forall (fun r => i_start r <= i_end r /\ i_end r < two32) irs) /\
    (fits (mkFun a sz n ls inls) -> Forall sp_ins_ok ev /\
       (Forall (fun r => i_start r <= i_end r /\ i_end r < two32) irs0 -> Forall (fun r => i_start r <= i_end r /\ i_end r < two32) irs))).
  { clear P ns s o I J. induction gs as [|g gs IHg]; intros irs0 P ns s o Hin I J Ho.
    - exists irs0, [], P, ns, s, o. splits; auto.
    - inversion Hin as [|? ? Hg Hgs]; subst. rewrite cinl_cons. destruct (f_lines g) as [|l0 ls0] eqn:El.
      { eapply IHg; eauto. }
      rewrite <- El. clear El l0 ls0.
      destruct (orig_inv (ce_dm e) ns o (f_name g) J) as (oid & ns1 & o1 & -> & J1 & _).
      assert (Fg : fits (mkFun a sz n ls inls) -> fits g).
      { unfold fits. rewrite !Forall_forall. intros H x Hx. apply H. eapply tree_lines_inl; eauto. }
      assert (Sg : tsafe (ce_ck e) g) by (destruct Sf; [now left|right; auto]).
      assert (Fl : fits g -> Forall (fun x => dl_end x < two32) (f_lines g)).
      { unfold fits. rewrite !Forall_forall. intros H x Hx. apply H. now apply tree_lines_self. }
      destruct (ranges_ok (ce_ck e) oid (f_lines g)) as (rs & -> & Fr). { destruct Sg; [now left|right; auto]. }
      cbn [bind]. rewrite Forall_forall in IH.
      destruct (IH g Hg (depth + 1) P ns1 s o1) as (ev & P2 & ns2 & s2 & o2 & -> & I2 & J2 & F2); auto.
      { intros r Hr. apply K. eapply (fun_refs_inl (mkFun a sz n ls inls)); eauto. }
      cbn [bind]. destruct (IHg (irs0 ++ rs) P2 ns2 s2 o2 Hgs I2 J2) as (irs & ev' & P3 & ns3 & s3 & o3 & -> & I3 & J3 & S3 & F3).
      { destruct Ho as [|Ho]; [now left|]. destruct Sg as [|Sg]; [now left|]. right. apply Forall_app; split; auto. }
      cbn [bind]. exists irs, (ev ++ ev'), P3, ns3, s3, o3. splits; auto. intros Hf. destruct (F3 Hf) as (F3a & F3b). split.
      + apply Forall_app; split; auto.
      + intros H0. apply F3b. apply Forall_app; split; auto. }
  destruct (G inls [] P ns s o (proj2 (Forall_forall _ _) (fun _ h => h)) I J (or_intror (Forall_nil _))) as (irs & ev & P1 & ns1 & s1 & o1 & -> & I1 & J1 & S1 & F1).
  cbn [bind].
  assert (Ps : forall Q : IR -> Prop, Forall Q irs -> Forall Q (ce_sort e irs)).
  { intros Q. apply Permutation_Forall. symmetry. apply US. }
  destruct (walk_ok e kp depth ls None (ce_sort e irs) None P1 s1 I1) as (ev2 & P2 & s2 & -> & I2 & F2).
  { intros l Hl. apply K. apply (fun_refs_line (mkFun a sz n ls inls)). exact Hl. }
  { destruct Sf as [|Sf]; [now left|right]. unfold fits in Sf. cbn in Sf. now apply Forall_app in Sf. }
  { destruct S1 as [|S1]; [now left|right; auto]. }
  cbn [bind fst snd]. exists (ev ++ ev2), P2, ns1, s2, o1. splits; auto.
  intros Hf. destruct (F1 Hf) as (F1a & F1b). apply Forall_app; split; auto.
Qed.

Lemma flat_bounds fid : forall ls prev, Forall sp_ins_ok (pflat fid ls prev).
Proof.
  induction ls as [|l ls IH]; intros prev; cbn [pflat]; [constructor|].
  destruct (d_line l =? 0); auto. destruct (option_eqb _ _ _); auto. constructor; auto. cbn. apply u32_lt.
Qed.

Lemma events_ok e kp : sort_perm (ce_sort e) -> forall f P ns s o,
  SrcInv (ce_src e) kp P s -> OrigInv (ce_dm e) ns o ->
  (forall r, In r (fun_refs f) -> kp (fr_key r) = env_path (ce_src e) r) -> (ce_inl e = false \/ tsafe (ce_ck e) f) ->
  exists evs P' ns' s' o', collect_events e f s o = Ok (evs, s', o') /\ SrcInv (ce_src e) kp P' s' /\ OrigInv (ce_dm e) ns' o' /\
    (ce_inl e = false \/ fits f -> Forall sp_ins_ok evs).
Proof.
  intros US f P ns s o I J K Sf. unfold collect_events. destruct (ce_inl e) eqn:Ei.
  - destruct Sf as [|Sf]; [discriminate|].
    destruct (rec_ok e kp US f 0 P ns s o I J K Sf) as (evs & P' & ns' & s' & o' & H1 & H2 & H3 & H4).
    exists evs, P', ns', s', o'. splits; auto. intros [|H]; [discriminate|auto].
  - destruct (flat_pure (ce_src e) kp (f_lines f) None P s I) as (ev' & P' & s1 & -> & I' & X & A & F); [|trivial|].
    { intros l Hl. apply K. now apply fun_refs_line. }
    cbn [bind fst snd]. exists ev', P', ns, s1, o. splits; auto. intros _.
    rewrite <- (A (fidx (ce_src e) P' f)) by (apply fidx_agree; apply I'). apply flat_bounds.
Qed.

(** C55, function part: collecting never panics. *)
Lemma functions_ok e fs : sort_perm (ce_sort e) -> consistent (flat_map fun_refs (readable fs)) ->
  (ce_ck e = false \/ ce_inl e = false \/ Forall fits (readable fs)) ->
  exists m s o, collect_functions e fs ([], src_new, orig_new) = Ok (m, s, o).
Proof.
  intros US C Sf. destruct (consistent_kp (ce_src e) _ C) as (kp & K).
  assert (Hok : forall f, In f (readable fs) -> (forall r, In r (fun_refs f) -> kp (fr_key r) = env_path (ce_src e) r)).
  { intros f Hf r Hr. apply K. apply in_flat_map; eauto. }
  assert (Hsf : forall f, In f (readable fs) -> ce_ck e = false \/ ce_inl e = false \/ fits f).
  { intros f Hf. destruct Sf as [|[|Sf]]; auto. rewrite Forall_forall in Sf. auto. }
  clear C K Sf.
  assert (G : forall m s o P ns, SrcInv (ce_src e) kp P s -> OrigInv (ce_dm e) ns o ->
    exists m' s' o', collect_functions e fs (m, s, o) = Ok (m', s', o')).
  2:{ eapply G; [apply src_new_inv|apply orig_new_inv]. }
  unfold collect_functions. induction fs as [|[f|] fs IH]; intros m s o P ns I J; cbn [foldM]; [eauto| |].
  - assert (IH' := IH (fun g Hg => Hok g (or_intror Hg)) (fun g Hg => Hsf g (or_intror Hg))). clear IH.
    specialize (Hok f (or_introl eq_refl)). specialize (Hsf f (or_introl eq_refl)).
    unfold collect_function. destruct (f_addr f =? 0); [cbn [bind]; eapply IH'; eauto|].
    destruct (events_ok e kp US f P ns s o I J Hok) as (ev & P' & ns' & s' & o' & Ec & I' & J' & F).
    { unfold tsafe. tauto. }
    destruct (finalize_ok (ce_ck e) (u32 (f_addr f)) (u32 (f_size f)) ev) as (ls & El).
    { destruct Hsf as [|Hsf]; auto. }
    destruct (nfind _ m) as [sym|]; [destruct (negb _)|]; rewrite ?Ec; cbn [bind]; rewrite ?El; cbn [bind]; eapply IH'; eauto.
  - cbn [bind]. eapply IH; eauto.
Qed.

(** Bounds for the stateless collection. *)
Lemma pwalk_bounds ck fid depth : forall ls skip inl prev evs,
  Forall (fun r => i_start r <= i_end r /\ i_end r < two32) inl -> pwalk ck fid depth ls skip inl prev = Ok evs -> Forall sp_ins_ok evs.
Proof.
  induction ls as [|l ls IH]; intros skip inl prev evs Hi H; cbn [pwalk] in H; [inversion H; constructor|].
  destruct (match skip with Some c => d_addr l <? c | None => false end); [eapply IH; eauto|].
  apply bind_ok in H as (x & _ & H).
  destruct (loop_bounds ck depth (u32 (d_line l)) (fid (d_file l)) x inl (d_addr l) prev (or_intror Hi)) as (c & J1 & J2 & p & out & E & -> & F).
  rewrite E in H. cbn [bind] in H. apply bind_ok in H as (r & Hr & H). inversion H; subst. apply Forall_app; split; auto.
  eapply IH; [|exact Hr]. now apply Forall_app in Hi.
Qed.
Lemma prec_bounds e fid oid : sort_perm (ce_sort e) -> forall f depth evs, fits f -> prec e fid oid f depth = Ok evs -> Forall sp_ins_ok evs.
Proof.
  intros US. induction f as [a sz n ls inls IH] using Fun_ind'. intros depth evs Hf H.
  rewrite prec_eq in H. cbn [f_inl f_lines] in H. apply bind_ok in H as ([irs ev] & Hg & H). cbn [fst snd] in H.
  apply bind_ok in H as (w & Hw & H). inversion H; subst; clear H.
  assert (G : forall gs irs0 irs ev, Forall (fun g => In g inls) gs -> pinl e fid oid depth gs irs0 = Ok (irs, ev) ->
    Forall (fun r => i_start r <= i_end r /\ i_end r < two32) irs0 ->
    Forall (fun r => i_start r <= i_end r /\ i_end r < two32) irs /\ Forall sp_ins_ok ev).
  { clear Hg Hw w irs ev. induction gs as [|g gs IHg]; intros irs0 irs ev Hin Hp H0.
    - inversion Hp; subst; auto.
    - inversion Hin as [|? ? Hg Hgs]; subst. rewrite pinl_cons in Hp. destruct (f_lines g) as [|l0 ls0] eqn:El; [eapply IHg; eauto|].
      rewrite <- El in Hp. apply bind_ok in Hp as (rs & Hr & Hp). apply bind_ok in Hp as (ev1 & He & Hp).
      apply bind_ok in Hp as ([irs' ev'] & Hq & Hp). inversion Hp; subst; clear Hp. cbn [fst snd] in *.
      assert (Fg : fits g). { unfold fits in *. rewrite !Forall_forall in *. intros x Hx. apply Hf. eapply tree_lines_inl; eauto. }
      assert (Fl : Forall (fun x => dl_end x < two32) (f_lines g)).
      { unfold fits in Fg. rewrite !Forall_forall in *. intros x Hx. apply Fg. now apply tree_lines_self. }
      destruct (ranges_ok (ce_ck e) (oid (f_name g)) (f_lines g) (or_intror Fl)) as (rs' & E & Fr). rewrite Hr in E; inversion E; subst rs'.
      destruct (IHg (irs0 ++ rs) irs ev' Hgs Hq) as (A & B); [apply Forall_app; split; auto|]. split; auto.
      apply Forall_app; split; auto. rewrite Forall_forall in IH. eapply IH; eauto. }
  destruct (G inls [] irs ev (proj2 (Forall_forall _ _) (fun _ h => h)) Hg (Forall_nil _)) as (A & B).
  apply Forall_app; split; auto. eapply pwalk_bounds; [|exact Hw]. eapply Permutation_Forall; [symmetry; apply US|exact A].
Qed.

(** * Finished tables *)
Lemma fn_end_small f : f_addr f + f_size f < two32 -> fn_end (u32 (f_addr f)) (u32 (f_size f)) = Some (f_addr f + f_size f).
Proof. intros H. rewrite !u32_small by lia. unfold fn_end. destruct (N.ltb_spec (f_addr f + f_size f) two32); [reflexivity|lia]. Qed.

Lemma wf_lines f : well_formed f -> Forall (fun l => dl_end l < two32) (f_lines f).
Proof. intros W; inversion W as [? L N1 D1 W1]; subst; destruct L as (_ & F). eapply Forall_impl; [|exact F]. cbv beta; tauto. Qed.
Lemma wf_fits f : well_formed f -> fits f.
Proof.
  induction f as [a sz n ls inls IH] using Fun_ind'. intros W. inversion W as [? L N1 D1 Wg]; subst. cbn [f_lines f_inl] in *.
  unfold fits. cbn [tree_lines]. apply Forall_app; split; [exact (wf_lines _ W)|].
  rewrite Forall_forall in *. intros l Hl. apply in_flat_map in Hl as (g & Hg & Hl).
  specialize (IH g Hg (Wg g Hg)). unfold fits in IH. rewrite Forall_forall in IH. auto.
Qed.

(** Lookup of an address in a finished table when lines exist at or before it. *)
Lemma lookup_best ck rva len is ls a e : finalize ck rva len (build is) = Ok ls ->
  fn_end rva len = Some e -> a < e -> (exists t, In t (inserted_lines is) /\ t_addr t <= a) ->
  exists b l, is_best a (inserted_lines is) b /\ filter (in_line a) (ls_lines ls) = [l] /\ triple l = b.
Proof.
  intros H He Ha (t & Ht & Hta). destruct (finalize_lookup ck rva len is ls a H) as [(Hn & _)|(b & Hb & [(Hbe & l & Hl & Et)|(Hbe & _)])].
  - specialize (Hn t Ht). lia.
  - exists b, l. auto.
  - exfalso. apply Hbe. right. eauto.
Qed.

Lemma is_best_in a l b : is_best a l b -> In b l.
Proof. intros (pre & post & -> & _). apply in_or_app; right; now left. Qed.

Lemma ins_line_in nf no evs x n f : Forall (ins_in nf no) evs -> In (x, n, f) (inserted_lines evs) -> f < nf.
Proof.
  induction 1 as [|i evs Hi F IH]; [easy|]. destruct i; simpl; auto. intros [E|H]; auto. inversion E; subst; auto.
Qed.
Lemma ins_call_in nf no evs x : Forall (ins_in nf no) evs -> In x (inline_calls evs) -> s_file (fst x) < nf /\ s_origin (fst x) < no.
Proof.
  induction 1 as [|i evs Hi F IH]; [easy|]. destruct i; simpl; auto. intros [<-|H]; auto.
Qed.

Section Final.
  Variables (e : CEnv) (f : Fun) (kp : Key -> str) (P : list str) (ns : list Name) (s : Src) (o : Orig) (ls : Lines).
  Hypotheses (US : sorts_ranges (ce_sort e)) (I : SrcInv (ce_src e) kp P s) (J : OrigInv (ce_dm e) ns o) (T : table_of e f P ns ls).

  Lemma low_file i r : i = fidx (ce_src e) P f r -> i < lenN P -> file_is (ce_src e) s i r.
  Proof.
    intros -> H. unfold file_is. rewrite (si_ids _ _ _ _ I). unfold nthN. rewrite nth_error_map.
    pose proof (fidx_low _ _ _ _ H) as E. unfold nthN in E. now rewrite E.
  Qed.
  Lemma low_origin i n : i = oidx ns n -> i < lenN ns -> origin_is (ce_dm e) o i n.
  Proof.
    intros -> H. unfold origin_is. rewrite (oi_names _ _ _ J). unfold nthN. rewrite nth_error_map.
    pose proof (oidx_low _ _ H) as E. unfold nthN in E. now rewrite E.
  Qed.
  Definition fid := fidx (ce_src e) P f.
  Definition oid := oidx ns.

  Lemma final_events : exists evs, finalize (ce_ck e) (u32 (f_addr f)) (u32 (f_size f)) (build evs) = Ok ls /\
    Forall (ins_in (lenN P) (lenN ns)) evs /\ pevents e fid oid f = Ok evs.
  Proof.
    destruct T as (evs & H1 & H2 & H3). exists evs. splits; auto. apply H3; [apply fidx_agree, I|apply oidx_agree, J].
  Qed.

  (** The innermost line. *)
  Lemma final_line : ce_inl e = true -> well_formed f -> no_gaps_inside (ce_src e) f -> f_addr f + f_size f < two32 ->
    forall a st lf, frames f a st lf -> a < f_addr f + f_size f ->
    exists l, filter (in_line a) (ls_lines ls) = [l] /\ l_num l = d_line lf mod two32 /\ file_is (ce_src e) s (l_file l) (d_file lf).
  Proof.
    intros Ei W G Hs a st lf Hf Ha. destruct final_events as (evs & Hfin & Hin & Hev).
    unfold pevents in Hev. rewrite Ei in Hev.
    destruct (tree_spec e fid oid US f W 0) as (evs' & Hev' & _ & _ & Ts & _ & _ & Tr & _). rewrite Hev in Hev'. inversion Hev'; subst evs'.
    specialize (Tr (gaps_ids _ P f f (fun _ h => h) G)).
    destruct (best_line fid f evs W Ts Tr a st lf Hf) as (b & Hb & He & Hnone).
    destruct (lookup_best _ _ _ _ _ a _ Hfin (fn_end_small f Hs) Ha) as (t & l & Hbest & Hl & Et).
    { eexists; split; [exact He|]. exact Hb. }
    destruct (best_is fid f evs W Ts a b lf t Hb He Hnone Hbest) as (E1 & E2). destruct t as [[x n] fl]. unfold triple in Et. inversion Et; subst.
    cbn [fst snd info] in E1, E2. exists l. splits; auto. apply low_file; auto.
    eapply ins_line_in; [exact Hin|]. apply is_best_in in Hbest. exact Hbest.
  Qed.

  (** Exactly the lines. *)
  Lemma final_exact : ce_inl e = true -> well_formed f -> f_addr f + f_size f < two32 ->
    (forall a b lf, starts (same_info (ce_src e)) f b lf -> b <= a -> (forall x y, b < x <= a -> ~ starts (same_info (ce_src e)) f x y) -> a < f_addr f + f_size f ->
      exists l, filter (in_line a) (ls_lines ls) = [l] /\ l_num l = d_line lf mod two32 /\ file_is (ce_src e) s (l_file l) (d_file lf)) /\
    (forall a, (forall x y, x <= a -> ~ starts (same_info (ce_src e)) f x y) -> filter (in_line a) (ls_lines ls) = []) /\
    (forall a, covers f a -> exists b lf, b <= a /\ starts (same_info (ce_src e)) f b lf /\ forall x y, b < x <= a -> ~ starts (same_info (ce_src e)) f x y).
  Proof.
    intros Ei W Hs. destruct final_events as (evs & Hfin & Hin & Hev).
    unfold pevents in Hev. rewrite Ei in Hev.
    destruct (tree_spec e fid oid US f W 0) as (evs' & Hev' & Te & _ & Ts & _). rewrite Hev in Hev'. inversion Hev'; subst evs'. clear Hev'.
    assert (To : forall x y, starts (same_info (ce_src e)) f x y -> emitted evs x (info fid y)).
    { intros x y Hx. apply Te. exists y. split; auto. now apply starts_ids. }
    assert (From : forall x i, emitted evs x i -> exists y, starts (same_info (ce_src e)) f x y /\ i = info fid y).
    { intros x i Hx. apply Te in Hx as (y & Hy & ->). exists y. split; auto. now apply starts_ids in Hy. }
    splits.
    - intros a b lf Hb Hle Hn Ha. pose proof (To _ _ Hb) as He.
      destruct (lookup_best _ _ _ _ _ a _ Hfin (fn_end_small f Hs) Ha) as (t & l & Hbest & Hl & Et).
      { eexists; split; [exact He|]. exact Hle. }
      assert (Hnone : forall x i, b < x <= a -> ~ emitted evs x i).
      { intros x i Hx Hi. apply From in Hi as (y & Hy & _). now apply (Hn x y). }
      destruct (best_is fid f evs W Ts a b lf t Hle He Hnone Hbest) as (E1 & E2). destruct t as [[x n] fl]. unfold triple in Et. inversion Et; subst.
      cbn [fst snd info] in E1, E2. exists l. splits; auto. apply low_file; auto.
      eapply ins_line_in; [exact Hin|]. apply is_best_in in Hbest. exact Hbest.
    - intros a Hn. destruct (finalize_lookup _ _ _ _ _ a Hfin) as [(_ & E)|(b & Hb & _)]; [exact E|].
      pose proof (is_best_in _ _ _ Hb) as Hi. destruct b as [[x n] fl]. destruct (From x (n, fl) Hi) as (y & Hy & _).
      destruct Hb as (pre & post & _ & Hle & _). exfalso. apply (Hn x y); auto.
    - intros a Hc. destruct (frames_exist f W a Hc) as (st & lf & Hf).
      destruct (start_before e fid oid US f W a st lf Hf) as (c & l & Hc1 & Hc2). apply starts_ids in Hc2.
      destruct (finalize_lookup _ _ _ _ _ a Hfin) as [(Hno & _)|(b & Hb & _)].
      { specialize (Hno _ (To _ _ Hc2)). unfold t_addr in Hno. cbn [fst] in Hno. lia. }
      pose proof (is_best_in _ _ _ Hb) as Hi. destruct b as [[x n] fl]. destruct (From x (n, fl) Hi) as (y & Hy & _).
      destruct Hb as (pre & post & Eq & Hle & Hpre & Hpost). unfold t_addr in *; cbn [fst snd] in *. exists x, y. splits; auto.
      intros x' y' Hx' Hs'. apply To in Hs'. unfold emitted in Hs'. rewrite Eq in Hs'. apply in_app_or in Hs' as [H1|[H1|H1]].
      + specialize (Hpre _ H1). cbn [fst] in Hpre. lia.
      + inversion H1; lia.
      + specialize (Hpost _ H1). cbn [fst] in Hpost. lia.
  Qed.

  Lemma final_gap : ce_inl e = true -> well_formed f -> f_addr f + f_size f < two32 ->
    forall a st lf, frames f a st lf -> a < f_addr f + f_size f ->
    (exists l, filter (in_line a) (ls_lines ls) = [l] /\ l_num l = d_line lf mod two32 /\ file_is (ce_src e) s (l_file l) (d_file lf)) \/
    (exists h pre x y post, below f h /\ f_lines h = pre ++ x :: y :: post /\ same_info (ce_src e) x y /\ dl_end x < d_addr y /\ d_addr y <= a /\ same_info (ce_src e) y lf).
  Proof.
    intros Ei W Hs a st lf Hf Ha. destruct final_events as (evs & Hfin & Hin & Hev).
    unfold pevents in Hev. rewrite Ei in Hev.
    destruct (tree_spec e fid oid US f W 0) as (evs' & Hev' & T'). rewrite Hev in Hev'. inversion Hev'; subst evs'.
    destruct (wrong_after_gap e fid oid US f 0 evs W Hev T' a st lf Hf) as [(b & Hb & He & Hnone)|(h & pre & x & y & post & B1 & B2 & B3 & B4 & B5 & B6)].
    - left. destruct T' as (_ & _ & Ts & _). destruct (lookup_best _ _ _ _ _ a _ Hfin (fn_end_small f Hs) Ha) as (t & l & Hbest & Hl & Et).
      { eexists; split; [exact He|]. exact Hb. }
      destruct (best_is fid f evs W Ts a b lf t Hb He Hnone Hbest) as (E1 & E2). destruct t as [[x n] fl]. unfold triple in Et. inversion Et; subst.
      cbn [fst snd info] in E1, E2. exists l. splits; auto. apply low_file; auto.
      eapply ins_line_in; [exact Hin|]. apply is_best_in in Hbest. exact Hbest.
    - right. exists h, pre, x, y, post.
      assert (Rh : forall l, In l (f_lines h) -> In (d_file l) (fun_refs f)).
      { intros l Hl. apply fun_refs_line in Hl. clear - B1 Hl. induction B1 as [f g Hg|f g h Hg Hb IH]; eapply fun_refs_inl; eauto. }
      assert (Rl : In (d_file lf) (fun_refs f)).
      { clear - Hf. induction Hf as [f a l Hl Ha Hn|f g a l st lf Hl Ha Hg Hf IH]; [now apply fun_refs_line|eapply fun_refs_inl; eauto]. }
      assert (Cv : forall u v, In (d_file u) (fun_refs f) -> In (d_file v) (fun_refs f) -> same_id fid u v -> same_info (ce_src e) u v).
      { intros u v Hu Hv Eu. unfold same_id, info in Eu. injection Eu as E1 E2. split; [exact E1|]. eapply fidx_inj; eauto. }
      splits; auto; apply Cv; auto; apply Rh; rewrite B2; apply in_or_app; right; [now left|right; now left|right; now left].
  Qed.

  (** The caller's own lines (C15). *)
  Lemma final_self_line : ce_inl e = true -> well_formed f -> f_addr f + f_size f < two32 ->
    forall a lf, frames f a [] lf -> a < f_addr f + f_size f ->
    exists l, filter (in_line a) (ls_lines ls) = [l] /\ l_num l = d_line lf mod two32 /\ file_is (ce_src e) s (l_file l) (d_file lf).
  Proof.
    intros Ei W Hs a lf Hf Ha. destruct final_events as (evs & Hfin & Hin & Hev).
    unfold pevents in Hev. rewrite Ei in Hev.
    destruct (tree_spec e fid oid US f W 0) as (evs' & Hev' & _ & _ & Ts & _ & _ & _ & Tr). rewrite Hev in Hev'. inversion Hev'; subst evs'.
    destruct (best_self fid f evs W Ts Tr a lf Hf) as (b & Hb & He & Hnone).
    destruct (lookup_best _ _ _ _ _ a _ Hfin (fn_end_small f Hs) Ha) as (t & l & Hbest & Hl & Et).
    { eexists; split; [exact He|]. exact Hb. }
    destruct (best_is fid f evs W Ts a b lf t Hb He Hnone Hbest) as (E1 & E2). destruct t as [[x n] fl]. unfold triple in Et. inversion Et; subst.
    cbn [fst snd info] in E1, E2. exists l. splits; auto. apply low_file; auto.
    eapply ins_line_in; [exact Hin|]. apply is_best_in in Hbest. exact Hbest.
  Qed.

  Lemma ranges_of_find site : 
    bsorted site_lt (ls_inlines ls) ->
    ranges_of site ls = match bfind site_lt site (ls_inlines ls) with Some rs => rs | None => [] end.
  Proof.
    unfold ranges_of. generalize (ls_inlines ls). intros m S.
    assert (HI : forall rs, In (site, rs) m <-> bfind site_lt site m = Some rs).
    { intros; symmetry; apply bfind_In; auto using site_lt_irrefl, site_lt_tot. exact site_lt_trans. }
    pose proof (bsorted_NoDup site_lt site_lt_irrefl m S) as ND.
    assert (Hz : forall m', ~ In site (map fst m') -> flat_map (fun kv : Site * list Range => if sp_site_eqb (fst kv) site then snd kv else []) m' = []).
    { induction m' as [|[k v] m' IH]; simpl; intros H; auto. destruct (sp_site_eqb k site) eqn:E; [apply sp_site_eqb_spec in E; tauto|]. simpl. apply IH. tauto. }
    destruct (bfind site_lt site m) as [rs|].
    - assert (Hin : In (site, rs) m) by now apply HI. clear HI S. induction m as [|[k v] m IH]; [destruct Hin|].
      simpl in *. inversion ND; subst. destruct Hin as [E|Hin].
      + inversion E; subst. rewrite (proj2 (sp_site_eqb_spec site site) eq_refl). rewrite Hz by auto. apply app_nil_r.
      + destruct (sp_site_eqb k site) eqn:E; [|now apply IH]. apply sp_site_eqb_spec in E; subst. exfalso. apply H1. apply in_map_iff. exists (site, rs); auto.
    - apply Hz. intros H. apply in_map_iff in H as ([k v] & <- & H). apply HI in H. discriminate.
  Qed.

  Lemma final_counts evs : Forall sp_ins_ok evs -> finalize (ce_ck e) (u32 (f_addr f)) (u32 (f_size f)) (build evs) = Ok ls ->
    forall a site, cover_count a (ranges_of site ls) = cnt a site (inline_calls evs).
  Proof.
    intros Hok Hfin a site. rewrite <- cnt_ranges.
    destruct (finalize_find _ _ _ _ _ Hfin) as (S & Hf). rewrite ranges_of_find by auto. specialize (Hf site).
    destruct (finalize_ranges _ _ _ _ _ Hok Hfin) as (_ & _ & Hr).
    destruct (bfind site_lt site (ls_inlines ls)) as [rs|] eqn:E.
    - apply Hr. apply bfind_In in E; auto using site_lt_irrefl, site_lt_tot. exact site_lt_trans.
    - destruct (inserted_ranges sp_site_eqb site evs); [reflexivity|contradiction].
  Qed.

  Lemma wf_events_ok evs : well_formed f -> prec e fid oid f 0 = Ok evs -> Forall sp_ins_ok evs.
  Proof. intros W H. eapply prec_bounds; eauto; [now apply sorts_perm|now apply wf_fits]. Qed.

  Lemma final_inlines : ce_inl e = true -> well_formed f ->
    forall a st lf, frames f a st lf ->
    exists ss, sites_are e s o 0 st ss /\ forall site, cover_count a (ranges_of site ls) = count_occ site_dec ss site.
  Proof.
    intros Ei W a st lf Hf. destruct final_events as (evs & Hfin & Hin & Hev).
    unfold pevents in Hev. rewrite Ei in Hev.
    destruct (tree_spec e fid oid US f W 0) as (evs' & Hev' & _ & _ & _ & (Tc & _) & _). rewrite Hev in Hev'. inversion Hev'; subst evs'.
    exists (psites fid oid 0 st). split.
    - assert (Hb : forall site, In site (psites fid oid 0 st) -> s_file site < lenN P /\ s_origin site < lenN ns).
      { intros site Hs. apply (count_occ_In site_dec) in Hs. rewrite <- (Tc _ _ _ site Hf) in Hs.
        unfold cnt in Hs. destruct (filter (hits a site) (inline_calls evs)) as [|x t] eqn:E; [simpl in Hs; lia|].
        assert (In x (filter (hits a site) (inline_calls evs))) as Hx by (rewrite E; now left).
        apply filter_In in Hx as (Hx & Hh). unfold hits in Hh. apply andb_true_iff in Hh as (Hh & _). apply sp_site_eqb_spec in Hh. subst site.
        eapply ins_call_in; eauto. }
      clear Tc Hf. revert Hb. generalize 0 as d. induction st as [|[n l] st IH]; intros d Hb; cbn [psites sites_are]; auto.
      split; [|apply IH; intros; apply Hb; now right].
      destruct (Hb _ (or_introl eq_refl)) as (B1 & B2). cbn in B1, B2. unfold site_is; cbn. splits; auto.
      + now apply low_file. + now apply low_origin.
    - intros site. rewrite (final_counts evs (wf_events_ok evs W Hev) Hfin). now apply Tc with (lf := lf).
  Qed.
  Lemma final_inlines_none : ce_inl e = true -> well_formed f ->
    forall a, ~ covers f a -> forall site, cover_count a (ranges_of site ls) = 0%nat.
  Proof.
    intros Ei W a Hn site. destruct final_events as (evs & Hfin & Hin & Hev).
    unfold pevents in Hev. rewrite Ei in Hev.
    destruct (tree_spec e fid oid US f W 0) as (evs' & Hev' & _ & _ & _ & (_ & Tc) & _). rewrite Hev in Hev'. inversion Hev'; subst evs'.
    rewrite (final_counts evs (wf_events_ok evs W Hev) Hfin); auto.
  Qed.
End Final.
