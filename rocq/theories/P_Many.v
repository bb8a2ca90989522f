(** Merging any number of modules in any order. *)
From Verif Require Import Base BMap Str M_Path M_Line M_Source M_Symbol M_Collector M_Object S_Source S_Symbol S_Collector S_Object
  P_Line P_Source P_Symbol P_Collector P_Object P_From P_Merge P_Chain S_Format P_Format S_Many.

Definition indexed (f : SrcMap) : Prop := forall p i, In (p, i) (sm_ref f) -> i < lenN (sm_ids f).
Definition linked (o : Obj) : Prop := filed (ob_syms o) /\ refs_ok o /\ indexed (ob_files o).

Lemma afind_In {V} k (v : V) l : afind str_eqb k l = Some v -> In (k, v) l.
Proof.
  induction l as [|[k' v'] l IH]; cbn; [discriminate|]. destruct (str_eqb k k') eqn:E.
  - apply str_eqb_eq in E. intros [= ->]. subst. now left.
  - intros H. right. auto.
Qed.
Lemma set_nthN_Forall {A} (P : A -> Prop) (l : list A) i x : Forall P l -> P x -> Forall P (set_nthN l i x).
Proof.
  intros F H. apply Forall_forall. intros y Hy. apply In_nth_error in Hy as (n & Hn).
  assert (E : nthN (set_nthN l i x) (N.of_nat n) = Some y) by (unfold nthN; now rewrite Nat2N.id).
  destruct (N.eq_dec i (N.of_nat n)) as [Ei|Ne]; [subst i|].
  - assert (L : N.of_nat n < lenN l) by (apply nthN_some_lt in E; now rewrite set_nthN_len in E). rewrite set_nthN_same in E by exact L. now injection E as <-.
  - rewrite set_nthN_other in E by exact Ne. rewrite Forall_forall in F. apply F. unfold nthN in E. eapply nth_error_In; eauto.
Qed.

Lemma step_fold (self other : SrcMap) : indexed self -> forall it remap ids, (forall p i, In (p, i) it -> i < lenN (sm_ids other)) ->
  lenN remap = lenN (sm_ids other) -> lenN (sm_ids self) <= lenN ids -> Forall (fun j => j < lenN ids) remap ->
  exists remap' more, foldM (merge_step (sm_ref self) (sm_ids other)) it (remap, ids) = Ok (remap', ids ++ more) /\
    lenN remap' = lenN (sm_ids other) /\ Forall (fun j => j < lenN (ids ++ more)) remap'.
Proof.
  intros IS. induction it as [|[p i] it IH]; intros remap ids HI HL LE F; [exists remap, []; rewrite app_nil_r; auto|].
  cbn [foldM]. pose proof (HI p i (or_introl eq_refl)) as Li. cbn [merge_step]. rewrite HL. replace (i <? lenN (sm_ids other)) with true by lia.
  destruct (afind str_eqb p (sm_ref self)) as [a|] eqn:Ea.
  - cbn [bind]. apply IH; auto; [intros q j H; apply (HI q j); now right|now rewrite set_nthN_len|]. apply set_nthN_Forall; auto.
    apply afind_In in Ea. apply IS in Ea. lia.
  - destruct (nthN_lt_some _ _ Li) as (t & Et). rewrite Et. cbn [bind].
    destruct (IH (set_nthN remap i (lenN ids)) (ids ++ [t])) as (rm & more & A & B & C).
    + intros q j H; apply (HI q j); now right.
    + now rewrite set_nthN_len.
    + unfold lenN in *. rewrite app_length. cbn. lia.
    + apply set_nthN_Forall; [|unfold lenN; rewrite app_length; cbn; lia]. eapply Forall_impl; [|exact F]. intros j H. cbv beta in *.
      unfold lenN in *. rewrite app_length. cbn. lia.
    + exists rm, (t :: more). rewrite <- app_assoc in A, C. cbn [app] in A, C. auto.
Qed.
Lemma srcmap_merge_weak iter self other : iterates iter -> indexed self -> indexed other ->
  exists files o' remap, srcmap_merge (iter (sm_ref other)) self other = Ok (files, o', remap) /\ indexed files /\
    (forall i t, nthN (sm_ids self) i = Some t -> nthN (sm_ids files) i = Some t) /\
    (forall i, in_files other i -> exists j, remap_file remap i = Ok j /\ in_files files j).
Proof.
  intros It IS IO. unfold srcmap_merge. destruct (sm_ids other) as [|t0 ids0] eqn:EO.
  { exists self, other, None. splits; auto. intros i H. unfold in_files in H. rewrite EO in H. unfold lenN in H. cbn in H. lia. }
  rewrite <- EO. destruct (sm_ids self) as [|u0 us0] eqn:ES.
  { eexists _, _, None. split; [reflexivity|]. splits.
    - intros p i H. cbn in *. now apply IO in H.
    - intros i t H. unfold nthN in H. destruct (N.to_nat i); discriminate.
    - intros i H. exists i. split; [reflexivity|exact H]. }
  rewrite <- ES. destruct (step_fold self other IS (iter (sm_ref other)) (repeat 0 (length (sm_ids other))) (sm_ids self)) as (rm & more & A & B & C).
  - intros p i H. apply (IO p i). eapply Permutation_in; [apply It|exact H].
  - unfold lenN. now rewrite repeat_length.
  - lia.
  - apply Forall_forall. intros j H. apply repeat_spec in H as ->. rewrite ES. unfold lenN. cbn. lia.
  - rewrite A. cbn [bind fst snd]. eexists _, _, _. split; [reflexivity|]. splits.
    + intros p i H. cbn in *. apply IS in H. unfold lenN in *. rewrite app_length. lia.
    + intros i t H. cbn. rewrite nthN_app1; [exact H|]. now apply nthN_some_lt in H.
    + intros i H. unfold in_files in H. rewrite <- B in H. apply nthN_lt_some in H as (j & Hj). exists j. cbn. unfold index. rewrite Hj. split; [reflexivity|].
      unfold in_files. cbn [sm_ids]. rewrite Forall_forall in C. apply C. unfold nthN in Hj. eapply nth_error_In; eauto.
Qed.

Section Remap.
Variables (r m : Obj) (fm : option (list N)) (om : list N).
Hypothesis HF : forall i, in_files (ob_files r) i -> exists j, remap_file fm i = Ok j /\ in_files (ob_files m) j.
Hypothesis HO : forall i t, nthN (ob_origins r) i = Some t -> exists j, nthN om i = Some j /\ nthN (ob_origins m) j = Some t.
Lemma text_in i : in_files (ob_files m) i -> file_text m i <> None.
Proof. unfold in_files, file_text. intros H. apply nthN_lt_some in H as (t & ->). discriminate. Qed.
Lemma remap_symbol_weak s : func_ok r s -> exists s', remap_symbol fm om s = Ok s' /\ same_head (sy_multiple s) s s' /\ kept_source r s m s' /\ func_ok m s'.
Proof.
  intros (FL & FI & S). unfold remap_symbol.
  destruct (mapM_rel (remap_line fm) (fun l l' => bare_line l = bare_line l' /\ file_text m (l_file l') <> None) (ls_lines (sy_source s))) as (ls & -> & F1).
  { intros l Hl. destruct (HF (l_file l) (in_files_text r _ (FL l Hl))) as (j & Hj & Hj'). unfold remap_line. rewrite Hj. cbn. eexists. split; [reflexivity|].
    cbn. split; [reflexivity|now apply text_in]. }
  destruct (mapM_rel (remap_site fm om) (fun x y => bare_inline r x = bare_inline m y /\ file_text m (s_file (fst y)) <> None /\
      nthN (ob_origins m) (s_origin (fst y)) <> None) (ls_inlines (sy_source s))) as (is & -> & F2).
  { intros x Hx. destruct (FI x Hx) as (T & O). destruct (HF _ (in_files_text r _ T)) as (j & Hj & Hj').
    destruct (nthN (ob_origins r) (s_origin (fst x))) as [t|] eqn:E; [|congruence].
    destruct (HO _ _ E) as (o & Ho & Ho'). unfold remap_site. rewrite Hj. cbn [bind]. unfold index. rewrite Ho. cbn [bind].
    eexists. split; [reflexivity|]. unfold bare_inline. cbn. rewrite E, Ho'. splits; try congruence. now apply text_in. }
  cbn [bind]. eexists. split; [reflexivity|]. split; [unfold same_head; cbn; auto 10|].
  assert (IN : forall x, In x (bcollect site_lt is) -> exists y, In y (ls_inlines (sy_source s)) /\ bare_inline r y = bare_inline m x /\
      file_text m (s_file (fst x)) <> None /\ nthN (ob_origins m) (s_origin (fst x)) <> None).
  { intros x Hx. apply bcollect_In in Hx. destruct (Forall2_In_l _ _ _ _ F2 Hx) as (y & Hy & A & B & C). exists y. auto. }
  split; [split; cbn [sy_source ls_lines ls_inlines]|unfold func_ok; cbn [sy_source ls_lines ls_inlines]; splits].
  - symmetry. apply Forall2_map_eq. eapply Forall2_impl; [|exact F1]. cbn. tauto.
  - intros x Hx. destruct (IN x Hx) as (y & A & B & _). exists y. auto.
  - intros l Hl. destruct (Forall2_In_l _ _ _ _ F1 Hl) as (? & _ & _ & H). exact H.
  - intros x Hx. destruct (IN x Hx) as (y & A & B & C). exact C.
  - apply bcollect_sorted; [exact site_lt_trans|exact site_lt_tot].
Qed.
End Remap.

Lemma kept_source_keep (o o' : Obj) s s' : sy_source s' = sy_source s ->
  (forall i t, nthN (ob_origins o) i = Some t -> nthN (ob_origins o') i = Some t) -> func_ok o s -> kept_source o s o' s'.
Proof.
  intros E HO (_ & B & _). unfold kept_source. rewrite E. split; [reflexivity|]. intros x Hx. exists x. split; [exact Hx|].
  unfold bare_inline. destruct (B x Hx) as (_ & O). destruct (nthN (ob_origins o) (s_origin (fst x))) as [n|] eqn:En; [|congruence]. apply HO in En. now rewrite En.
Qed.
Lemma kept_source_eq o s o' s' s2 : sy_source s2 = sy_source s' -> kept_source o s o' s' -> kept_source o s o' s2.
Proof. intros E. unfold kept_source. now rewrite E. Qed.
Lemma kept_source_trans o s o1 s1 o2 s2 : kept_source o s o1 s1 -> kept_source o1 s1 o2 s2 -> kept_source o s o2 s2.
Proof.
  intros (A & B) (C & D). split; [congruence|]. intros x Hx. destruct (D x Hx) as (y & Hy & Ey). destruct (B y Hy) as (z & Hz & Ez). exists z. split; [exact Hz|congruence].
Qed.
Lemma same_head_mult s s' b : same_head b s s' -> b = sy_multiple s'.
Proof. unfold same_head. intuition congruence. Qed.
Lemma head_multiple b s s' : same_head b s s' -> same_head true s (set_multiple s').
Proof. unfold same_head. cbn. tauto. Qed.

Lemma merge_into_weak ck iter l r : iterates iter -> linked l -> linked r -> tables_fit ck l r ->
  exists m, merge_into ck iter l r = Ok m /\ linked m /\ records_from [l; r] m /\
    (forall k, has_func m k -> has_func l k \/ has_func r k) /\
    (no_placeholder l -> forall k, has_func l k \/ has_func r k -> has_func m k) /\ (ends_fit (ob_syms l) -> ends_fit (ob_syms r) -> ends_fit (ob_syms m)).
Proof.
  intros It (FL & RL & SL) (FR & RR & SR) HF.
  destruct (srcmap_merge_weak iter (ob_files l) (ob_files r) It SL SR) as (files & o' & remap & EM & SF & KF & RF).
  pose proof (fun m => merge_into_filed ck iter l r m FL FR) as MF. unfold merge_into.
  destruct (merge_inline_origins (ob_origins l) (ob_origins r)) as [ors om] eqn:EO.
  destruct (merge_origins_spec _ _ _ _ EO) as ((more & Em) & _ & HO & _).
  set (mk := fun syms => mkObj syms files ors
        (if ob_stripped r then ob_name r else ob_name l) (ob_cpu l) (ob_debug_id l)
        (match ob_code_id l with Some c => Some c | None => ob_code_id r end)
        (ob_pe_name l) (merge_stack (ob_stack l) (ob_stack r)) (ob_stripped l) (ob_platform l)).
  assert (RS : forall syms s, func_ok r s -> exists s', remap_symbol remap om s = Ok s' /\ same_head (sy_multiple s) s s' /\
      kept_source r s (mk syms) s' /\ func_ok (mk syms) s').
  { intros syms s Hs. exact (remap_symbol_weak r (mk syms) remap om RF HO s Hs). }
  destruct (merge_fold_spec ck remap om (ob_syms r) (ob_syms l)) as (M & EF & SM & HM); auto using nsorted_filed.
  { intros k b Hin Pb. apply nfind_In in Hin; [|now apply nsorted_filed]. destruct (RS [] b) as (b' & E & _); eauto. apply (RR k b Hin Pb). }
  rewrite EM. cbn [bind]. rewrite EF. cbn [bind]. change (mkObj M _ _ _ _ _ _ _ _ _ _) with (mk M). exists (mk M). split; [reflexivity|].
  assert (KO : forall i t, nthN (ob_origins l) i = Some t -> nthN (ob_origins (mk M)) i = Some t).
  { intros i t H. cbn. rewrite Em, nthN_app1; [exact H|]. now apply nthN_some_lt in H. }
  assert (KT : forall i t, file_text l i = Some t -> file_text (mk M) i = Some t) by (intros i t; apply KF).
  assert (RMR : forall k b, nfind k (ob_syms r) = Some b -> sy_public b = false ->
      same_head (sy_multiple b) b (rm remap om b) /\ kept_source r b (mk M) (rm remap om b) /\ func_ok (mk M) (rm remap om b)).
  { intros k b Hk Pb. destruct (RS M b (RR k b Hk Pb)) as (b' & E & A). unfold rm. rewrite E. exact A. }
  assert (LK : forall k a s, nfind k (ob_syms l) = Some a -> sy_source s = sy_source a -> same_head (sy_multiple s) a s ->
      (sy_public s = false -> func_ok (mk M) s) /\ exists o s0, In o [l; r] /\ nfind k (ob_syms o) = Some s0 /\ same_head (sy_multiple s) s0 s /\
        (sy_public s = false -> kept_source o s0 (mk M) s)).
  { intros k a s Ha Es Hs. assert (P : sy_public a = sy_public s) by (unfold same_head in Hs; intuition congruence). split.
    - intros Ps. apply func_ok_keep with l a; auto. apply (RL k a Ha). congruence.
    - exists l, a. splits; auto; [now left|]. intros Ps. apply kept_source_keep; auto. apply (RL k a Ha). congruence. }
  assert (RK : forall k b s, nfind k (ob_syms r) = Some b -> (sy_public b = true -> s = b) -> (sy_public b = false -> sy_source s = sy_source (rm remap om b)) -> same_head (sy_multiple s) b s ->
      (sy_public s = false -> func_ok (mk M) s) /\ exists o s0, In o [l; r] /\ nfind k (ob_syms o) = Some s0 /\ same_head (sy_multiple s) s0 s /\
        (sy_public s = false -> kept_source o s0 (mk M) s)).
  { intros k b s Hb Ep Es Hs. assert (P : sy_public b = sy_public s) by (unfold same_head in Hs; intuition congruence). split.
    - intros Ps. rewrite Ps in P. destruct (RMR k b Hb P) as (_ & _ & F). specialize (Es P). unfold func_ok in *. now rewrite Es.
    - exists r, b. splits; auto; [right; now left|]. intros Ps. rewrite Ps in P. destruct (RMR k b Hb P) as (_ & F & _). eapply kept_source_eq; [exact (Es P)|exact F]. }
  assert (SH : forall s, same_head (sy_multiple s) s s) by (intros; unfold same_head; auto 10).
  assert (ALL : forall k s, nfind k M = Some s -> (sy_public s = false -> func_ok (mk M) s) /\ exists o s0, In o [l; r] /\ nfind k (ob_syms o) = Some s0 /\
      same_head (sy_multiple s) s0 s /\ (sy_public s = false -> kept_source o s0 (mk M) s)).
  { intros k s Hs. specialize (HM k). destruct (nfind k (ob_syms r)) as [b|] eqn:Er; [|rewrite HM in Hs; eapply LK; eauto].
    destruct HM as (ins & _ & HM). rewrite HM in Hs. unfold step_res in Hs. pose proof (rm_head remap om b) as RH.
    pose proof (same_head_mult _ _ _ RH) as RM.
    destruct (sy_public b) eqn:Pb.
    - destruct ins; [eapply LK; eauto|]. destruct (nfind k (ob_syms l)) as [e|] eqn:El.
      + destruct (sy_synthetic b); [injection Hs as <-; eapply LK; eauto|]. destruct (sy_synthetic e); [injection Hs as <-; eapply RK; eauto; congruence|].
        destruct (str_eqb _ _); injection Hs as <-; eapply LK; eauto. unfold same_head; cbn; auto 10.
      + injection Hs as <-. eapply RK; eauto. congruence.
    - destruct (nfind k (ob_syms l)) as [e|] eqn:El.
      + destruct (sy_public e) eqn:Pe; injection Hs as <-.
        * eapply RK; eauto; [congruence|]. eapply head_multiple; eauto.
        * eapply LK; eauto. unfold same_head; cbn; auto 10.
      + injection Hs as <-. eapply RK; eauto; [congruence|]. now rewrite <- RM. }
  assert (FN : no_placeholder l -> forall k, (has_func l k \/ has_func r k) -> has_func (mk M) k).
  { intros NS k H. unfold has_func at 1. cbn [mk ob_syms]. specialize (HM k). destruct (nfind k (ob_syms r)) as [b|] eqn:Er.
    - destruct HM as (ins & _ & ->). unfold step_res. destruct (rm_head remap om b) as (_ & RP & _).
      destruct (sy_public b) eqn:Pb.
      + destruct H as [(a & Ha & Pa)|(b' & Hb & Pb')]; [|congruence]. rewrite Ha. destruct ins; [eauto|].
        destruct (sy_synthetic b); [eauto|]. rewrite (NS k a Ha Pa). destruct (str_eqb _ _); eexists; split; try reflexivity; cbn; auto.
      + destruct (nfind k (ob_syms l)) as [a|] eqn:El; [destruct (sy_public a) eqn:Pa|]; eexists; (split; [reflexivity|]); cbn; congruence.
    - rewrite HM. destruct H as [(a & Ha & Pa)|(b' & Hb & Pb')]; [eauto|congruence]. }
  split; [split; [|split]|split; [|split; [|split]]].
  - apply (MF (mk M)). unfold merge_into. rewrite EM. cbn [bind]. rewrite EO, EF. reflexivity.
  - intros k s Hs Ps. exact (proj1 (ALL k s Hs) Ps).
  - exact SF.
  - intros k s Hs. exact (proj2 (ALL k s Hs)).
  - intros k (s & Hs & Ps). destruct (ALL k s Hs) as (_ & o & s0 & Ho & Hk & Hh & _). assert (sy_public s0 = false) by (unfold same_head in Hh; intuition congruence).
    destruct Ho as [<-|[<-|[]]]; [left|right]; exists s0; auto.
  - exact FN.
  - intros EL ER k s Hs. destruct (ALL k s Hs) as (_ & o & s0 & Ho & Hk & (_ & _ & _ & _ & -> & -> & _) & _). destruct Ho as [<-|[<-|[]]]; [exact (EL k s0 Hk)|exact (ER k s0 Hk)].
Qed.

Lemma fresh_linked shown o : fresh shown o -> linked o.
Proof.
  intros F. destruct (fresh_ok shown o F) as (A & B & P & _ & E & _ & R). split; [exact A|split; [exact B|]].
  intros p i H. apply R in H. rewrite E, lenN_map. eapply nthN_some_lt; eauto.
Qed.
Definition fits (ck : bool) (o : Obj) : Prop := ck = false \/ ends_fit (ob_syms o).
Lemma merge_linked ck iter x y : iterates iter -> linked x -> linked y -> ob_debug_id x = ob_debug_id y -> fits ck x -> fits ck y ->
  exists m, merge_objects ck iter x y = Ok m /\ linked m /\ fits ck m /\ records_from [x; y] m /\
    (forall k, has_func m k -> has_func x k \/ has_func y k) /\
    (no_placeholder x -> no_placeholder y -> forall k, has_func x k \/ has_func y k -> has_func m k).
Proof.
  intros It Lx Ly E Fx Fy. rewrite merge_objects_eq by exact E.
  assert (T : forall l r, fits ck l -> fits ck r -> tables_fit ck l r) by (intros l r [|] [|]; unfold tables_fit; auto).
  assert (SW : forall m, records_from [y; x] m -> records_from [x; y] m).
  { intros m H k s Hs. destruct (H k s Hs) as (o & s0 & Ho & R). exists o, s0. split; [cbn in *; tauto|exact R]. }
  destruct (larger_cases x y) as [[-> ->]|[-> ->]].
  - destruct (merge_into_weak ck iter x y It Lx Ly (T _ _ Fx Fy)) as (m & A & B & C & D & D' & F). exists m. splits; auto.
    destruct Fx, Fy; [now left|now left|now left|right; auto].
  - destruct (merge_into_weak ck iter y x It Ly Lx (T _ _ Fy Fx)) as (m & A & B & C & D & D' & F). exists m. splits; auto.
    + destruct Fx, Fy; [now left|now left|now left|right; auto].
    + intros k H. apply D in H. tauto.
    + intros _ N k H. apply D'; tauto.
Qed.
Lemma records_from_trans a b x y m : records_from a x -> records_from b y -> records_from [x; y] m -> records_from (a ++ b) m.
Proof.
  intros Ha Hb H k s Hs. destruct (H k s Hs) as (o & s1 & Ho & H1 & Hh & Hk).
  assert (G : exists o0 s0, In o0 (a ++ b) /\ nfind k (ob_syms o0) = Some s0 /\ same_head (sy_multiple s1) s0 s1 /\ (sy_public s1 = false -> kept_source o0 s0 o s1)).
  { destruct Ho as [<-|[<-|[]]]; [destruct (Ha k s1 H1) as (o0 & s0 & I0 & R)|destruct (Hb k s1 H1) as (o0 & s0 & I0 & R)]; exists o0, s0; (split; [apply in_or_app; auto|exact R]). }
  destruct G as (o0 & s0 & I0 & F0 & Hh0 & Hk0). exists o0, s0. unfold same_head in *. splits; try tauto; try intuition congruence.
  intros P. assert (sy_public s1 = false) by intuition congruence. eapply kept_source_trans; eauto.
Qed.
Lemma records_no_placeholder os m : Forall no_placeholder os -> records_from os m -> no_placeholder m.
Proof.
  intros F R k s Hs Ps. destruct (R k s Hs) as (o & s0 & Ho & H0 & Hh & _). rewrite Forall_forall in F. unfold same_head in Hh.
  assert (sy_synthetic s0 = false) by (apply (F o Ho k s0 H0); intuition congruence). intuition congruence.
Qed.
Lemma merged_facts ck iter id os m : iterates iter -> Forall (same_module ck id) os -> merged_from ck iter os m ->
  linked m /\ ob_debug_id m = id /\ fits ck m /\ records_from os m /\ (forall k, has_func m k -> exists o, In o os /\ has_func o k) /\
  (Forall no_placeholder os -> forall k o, In o os -> has_func o k -> has_func m k).
Proof.
  intros It F H. induction H as [o|a b x y m Ha IHa Hb IHb E].
  - inversion F as [|? ? ((shown & Fr) & I & Fi) _]; subst. splits; auto.
    + now apply (fresh_linked shown).
    + intros k s Hs. exists o, s. splits; auto; [now left|unfold same_head; auto 10|]. intros P. split; [reflexivity|]. intros x Hx. exists x. auto.
    + intros k Hk. exists o. split; [now left|exact Hk].
    + intros _ k o' [<-|[]]. auto.
  - apply Forall_app in F as (Fa & Fb). destruct (IHa Fa) as (A1 & A2 & A3 & A4 & A5 & A6). destruct (IHb Fb) as (B1 & B2 & B3 & B4 & B5 & B6).
    destruct (merge_linked ck iter x y It A1 B1) as (m' & E' & C1 & C2 & C3 & C4 & C5); [congruence|auto|auto|]. rewrite E in E'. injection E' as <-. splits; auto.
    + pose proof (merge_fields _ _ _ _ _ E) as Mf. cbv zeta in Mf. destruct Mf as (Mf & _). congruence.
    + eapply records_from_trans; eauto.
    + intros k Hk. destruct (C4 k Hk) as [Hx|Hx]; [destruct (A5 k Hx) as (o & Ho & Hf)|destruct (B5 k Hx) as (o & Ho & Hf)]; exists o; (split; [apply in_or_app; auto|exact Hf]).
    + intros NP k o Ho Hf. apply Forall_app in NP as (Na & Nb). pose proof (records_no_placeholder _ _ Na A4). pose proof (records_no_placeholder _ _ Nb B4).
      apply C5; auto. apply in_app_or in Ho as [Ho|Ho]; [left; eapply A6|right; eapply B6]; eauto.
Qed.
Lemma merged_total ck iter id a b x y : iterates iter -> Forall (same_module ck id) a -> Forall (same_module ck id) b ->
  merged_from ck iter a x -> merged_from ck iter b y -> exists m, merge_objects ck iter x y = Ok m.
Proof.
  intros It Fa Fb Ha Hb. destruct (merged_facts ck iter id a x It Fa Ha) as (A1 & A2 & A3 & _). destruct (merged_facts ck iter id b y It Fb Hb) as (B1 & B2 & B3 & _).
  destruct (merge_linked ck iter x y It A1 B1) as (m & E & _); [congruence|auto|auto|]. eauto.
Qed.
Lemma merged_writable ck iter os m : merged_from ck iter os m -> forall lss, Forall2 writable lss os -> exists ls, Permutation ls (concat lss) /\ writable ls m.
Proof.
  induction 1 as [o|a b x y m Ha IHa Hb IHb E]; intros lss F.
  - inversion F as [|l ? ? ? W F']; subst. inversion F'; subst. exists l. cbn. rewrite app_nil_r. auto.
  - apply Forall2_app_inv_r in F as (la & lb & F1 & F2 & ->). destruct (IHa la F1) as (l1 & P1 & W1). destruct (IHb lb F2) as (l2 & P2 & W2).
    destruct (writable_merge _ _ _ _ _ _ _ W1 W2 E) as (l & P & W). exists l. split; [|exact W]. rewrite P, P1, P2, concat_app. reflexivity.
Qed.

(** *** Modules of the same sources *)
Lemma from_one_of_pair a b x y m : from_one_of a x -> from_one_of b y -> from_one_of [x; y] m -> from_one_of (a ++ b) m.
Proof.
  intros Ha Hb H k s Hs Ps. destruct (H k s Hs Ps) as (o & s1 & [<-|[<-|[]]] & A & B & C & D & E).
  - destruct (Ha k s1 A B) as (o2 & s2 & I2 & A2 & B2 & C2 & D2 & E2). exists o2, s2. splits; auto; [apply in_or_app; now left|congruence|congruence|].
    eapply same_source_trans; eauto.
  - destruct (Hb k s1 A B) as (o2 & s2 & I2 & A2 & B2 & C2 & D2 & E2). exists o2, s2. splits; auto; [apply in_or_app; now right|congruence|congruence|].
    eapply same_source_trans; eauto.
Qed.
Lemma merged_same_sources ck iter shown os m : iterates iter -> Forall (fresh shown) os -> Forall (fun o => ck = false \/ ends_fit (ob_syms o)) os ->
  (forall o o', In o os -> In o' os -> same_paths o o') -> merged_from ck iter os m ->
  obj_ok shown m /\ (ck = false \/ ends_fit (ob_syms m)) /\ from_one_of os m /\ (forall o, In o os -> same_paths m o).
Proof.
  intros It F L SP H. induction H as [o|a b x y m Ha IHa Hb IHb E].
  - inversion F; subst. inversion L; subst. splits; auto using fresh_ok, from_one_of_self. intros o' [<-|[]] p. reflexivity.
  - apply Forall_app in F as (Fa & Fb). apply Forall_app in L as (La & Lb).
    destruct IHa as (A1 & A2 & A3 & A4); auto. { intros; apply SP; apply in_or_app; auto. }
    destruct IHb as (B1 & B2 & B3 & B4); auto. { intros; apply SP; apply in_or_app; auto. }
    assert (NE : forall os z, merged_from ck iter os z -> exists o, In o os).
    { clear. induction 1 as [o|a b x y m _ (o & Ho) _ _ _]; [exists o; now left|]. exists o. apply in_or_app. now left. }
    destruct (NE _ _ Ha) as (oa & Ia). destruct (NE _ _ Hb) as (ob & Ib).
    assert (SXY : same_paths x y).
    { intros p. rewrite (A4 oa Ia p), (B4 ob Ib p). apply SP; apply in_or_app; auto. }
    pose proof (merge_fields _ _ _ _ _ E) as (D1 & D2 & _).
    destruct (merge_step_ok shown ck iter x y It (obj_ok_merged _ _ A1) B1) as (m' & M1 & M2 & M3 & M4 & M5).
    + congruence.
    + right. eapply ok_indexed; eauto.
    + destruct A2 as [|A2]; [now left|]. destruct B2 as [|B2]; [now left|]. right; auto.
    + assert (m' = m) by congruence. subst m'. destruct (same_paths_step _ _ _ _ _ _ M1 A1 B1 M4 SXY) as (I1 & I2).
      splits.
      * eapply indexed_ok; eauto.
      * destruct A2 as [|A2]; [now left|]. destruct B2 as [|B2]; [now left|]. right; auto.
      * eapply from_one_of_pair; eauto.
      * intros o Ho p. rewrite <- (I2 p), (A4 oa Ia p). apply SP; [apply in_or_app; now left|exact Ho].
Qed.

(** *** Two ways of merging the same files *)
Lemma made_modules ck iter proc files d os o : made_from ck iter proc files d os -> (In o os <-> module_of proc files (ob_debug_id d) o).
Proof.
  intros (_ & A & B & _). split; [intros H; exact (A o H)|]. intros (f & F & P & E). eauto.
Qed.
Lemma two_ways ck iter proc files d os d' os' : iterates iter -> made_from ck iter proc files d os -> made_from ck iter proc files d' os' -> ob_debug_id d' = ob_debug_id d ->
  Forall (same_module ck (ob_debug_id d)) os -> Forall (same_module ck (ob_debug_id d')) os' ->
  ((forall o, module_of proc files (ob_debug_id d) o -> no_placeholder o) -> forall k, has_func d k <-> has_func d' k) /\
  (forall k a b, nfind k (ob_syms d) = Some a -> sy_public a = false -> nfind k (ob_syms d') = Some b -> sy_public b = false ->
     one_func proc files (ob_debug_id d) k -> same_func a b /\ map bare_line (ls_lines (sy_source a)) = map bare_line (ls_lines (sy_source b))).
Proof.
  intros It M M' E F F'. pose proof (fun o => made_modules _ _ _ _ _ _ o M) as I. pose proof (fun o => made_modules _ _ _ _ _ _ o M') as I'. rewrite E in I'.
  destruct (merged_facts _ _ _ _ _ It F (proj1 M)) as (_ & _ & _ & A3 & A4 & A5).
  destruct (merged_facts _ _ _ _ _ It F' (proj1 M')) as (_ & _ & _ & B3 & B4 & B5). split.
  - intros NP k. split; intros H.
    + destruct (A4 k H) as (o & Ho & Hf). apply (B5 (proj2 (Forall_forall _ _) (fun o Ho => NP o (proj1 (I' o) Ho))) k o); auto. apply I', I, Ho.
    + destruct (B4 k H) as (o & Ho & Hf). apply (A5 (proj2 (Forall_forall _ _) (fun o Ho => NP o (proj1 (I o) Ho))) k o); auto. apply I, I', Ho.
  - intros k a b Ha Pa Hb Pb U. destruct (A3 k a Ha) as (o & s0 & Io & O1 & O2 & O3). destruct (B3 k b Hb) as (p & s1 & Ip & P1 & P2 & P3).
    specialize (O3 Pa). specialize (P3 Pb). unfold same_head in O2, P2. destruct O2 as (X1 & X2 & X3 & X4 & X5 & X6 & X7), P2 as (Y1 & Y2 & Y3 & Y4 & Y5 & Y6 & Y7).
    assert (o = p). { apply U; [now apply I|now apply I'|exists s0; split; [exact O1|congruence]|exists s1; split; [exact P1|congruence]]. }
    subst p. assert (s1 = s0) by congruence. subst s1. split; [unfold same_func; splits; congruence|]. destruct O3 as (-> & _), P3 as (-> & _). reflexivity.
Qed.
Lemma two_ways_sources ck iter proc files d os d' os' shown : iterates iter -> made_from ck iter proc files d os -> made_from ck iter proc files d' os' -> ob_debug_id d' = ob_debug_id d ->
  (forall o, module_of proc files (ob_debug_id d) o -> fresh shown o /\ (ck = false \/ ends_fit (ob_syms o))) ->
  (forall o p, module_of proc files (ob_debug_id d) o -> module_of proc files (ob_debug_id d) p -> same_paths o p) ->
  forall k a b, nfind k (ob_syms d) = Some a -> sy_public a = false -> nfind k (ob_syms d') = Some b -> sy_public b = false ->
    one_func proc files (ob_debug_id d) k -> same_source d a d' b.
Proof.
  intros It M M' E FR SP k a b Ha Pa Hb Pb U.
  pose proof (fun o => made_modules _ _ _ _ _ _ o M) as I. pose proof (fun o => made_modules _ _ _ _ _ _ o M') as I'. rewrite E in I'.
  assert (G : forall d os, (forall o, In o os -> module_of proc files (ob_debug_id d) o) -> made_from ck iter proc files d os -> ob_debug_id d = ob_debug_id d' -> from_one_of os d).
  { intros q qs J Q Eq. destruct (merged_same_sources ck iter shown qs q It) as (_ & _ & R & _); [| | |exact (proj1 Q)|exact R].
    - apply Forall_forall. intros o Ho. apply FR. rewrite <- E, <- Eq. now apply J.
    - apply Forall_forall. intros o Ho. apply FR. rewrite <- E, <- Eq. now apply J.
    - intros o p Ho Hp. apply SP; rewrite <- E, <- Eq; now apply J. }
  destruct (G d os (fun o => proj1 (I o)) M (eq_sym E) k a Ha Pa) as (o & s0 & Io & O1 & O2 & _ & _ & O3).
  destruct (G d' os') with (k := k) (s := b) as (p & s1 & Ip & P1 & P2 & _ & _ & P3); auto. { intros q Hq. rewrite E. now apply I'. }
  assert (o = p). { apply U; [now apply I|now apply I'|exists s0; auto|exists s1; auto]. }
  subst p. assert (s1 = s0) by congruence. subst s1. eapply same_source_trans; [apply same_source_sym; exact O3|exact P3].
Qed.
