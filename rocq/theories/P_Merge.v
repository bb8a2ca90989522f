(** Proofs about merging, continued: whole merges and chains of merges. *)
From Verif Require Import Base Sort BMap Str M_Names M_Path M_Line P_Line M_Source S_Source P_Source M_Symbol S_Symbol P_Symbol M_Collector M_Object S_Object P_Object.

Lemma files_ok_some shown f : files_ok shown f -> files_some shown f.
Proof. intros (P & A & B & C & D). exists P. splits; auto. intros p i H. now apply D. Qed.
Lemma obj_ok_merged shown o : obj_ok shown o -> obj_merged shown o.
Proof. intros (A & B & C). split; [exact A|split; [exact B|now apply files_ok_some]]. Qed.

Lemma larger_cases x y : (larger x y = x /\ smaller x y = y) \/ (larger x y = y /\ smaller x y = x).
Proof. unfold larger, smaller. destruct (_ <? _); auto. Qed.

Lemma merge_objects_eq ck iter x y : ob_debug_id x = ob_debug_id y ->
  merge_objects ck iter x y = merge_into ck iter (larger x y) (smaller x y).
Proof.
  intros E. unfold merge_objects, larger, smaller. rewrite E, str_eqb_refl. cbn. destruct (_ <? _); reflexivity.
Qed.

(** *** No errors but the debug id *)
Definition noerr {A} (r : res A) : Prop := forall e, r <> Err e.
Lemma noerr_bind {A B} (r : res A) (f : A -> res B) : noerr r -> (forall a, noerr (f a)) -> noerr (bind r f).
Proof. intros H1 H2 e. destruct r; cbn; [apply H2|intros _; exact (H1 e0 eq_refl)|discriminate]. Qed.
Lemma noerr_ok {A} (a : A) : noerr (Ok a). Proof. intros e; discriminate. Qed.
Lemma noerr_foldM {S A} (f : S -> A -> res S) l : (forall s x, noerr (f s x)) -> forall s, noerr (foldM f l s).
Proof. intros H. induction l as [|x l IH]; cbn; intros s; [apply noerr_ok|]. apply noerr_bind; auto. Qed.
Lemma noerr_mapM {A B} (f : A -> res B) l : (forall x, noerr (f x)) -> noerr (mapM f l).
Proof. intros H. induction l as [|x l IH]; cbn; [apply noerr_ok|]. apply noerr_bind; auto. intros a. apply noerr_bind; auto. intros; apply noerr_ok. Qed.
Lemma noerr_index m i : noerr (index m i).
Proof. unfold index. destruct (nthN m i); intros e; discriminate. Qed.
Lemma noerr_remap_file fm i : noerr (remap_file fm i).
Proof. destruct fm; [apply noerr_index|apply noerr_ok]. Qed.
Lemma noerr_remap fm om s : noerr (remap_symbol fm om s).
Proof.
  unfold remap_symbol. apply noerr_bind.
  - apply noerr_mapM. intros l. apply noerr_bind; [apply noerr_remap_file|intros; apply noerr_ok].
  - intros ls. apply noerr_bind; [|intros; apply noerr_ok]. apply noerr_mapM. intros l. unfold remap_site.
    apply noerr_bind; [apply noerr_remap_file|]. intros. apply noerr_bind; [apply noerr_index|intros; apply noerr_ok].
Qed.
Lemma noerr_inside ck k m : noerr (is_inside_symbol ck k m).
Proof.
  unfold is_inside_symbol. destruct (last_below k m) as [[? s]|]; [|apply noerr_ok]. apply noerr_bind; [|intros; apply noerr_ok].
  unfold add32, add_w. destruct (_ <? _); [apply noerr_ok|]. destruct ck; intros e; discriminate.
Qed.
Lemma noerr_merge_into ck iter l r : noerr (merge_into ck iter l r).
Proof.
  unfold merge_into. apply noerr_bind.
  - unfold srcmap_merge. destruct (sm_ids (ob_files r)); [apply noerr_ok|]. destruct (sm_ids (ob_files l)); [apply noerr_ok|].
    apply noerr_bind; [|intros; apply noerr_ok]. apply noerr_foldM. intros [rm ids] [p i]. unfold merge_step.
    destruct (afind str_eqb p (sm_ref (ob_files l))); destruct (_ <? _); try destruct (nthN _ _); intros e; discriminate.
  - intros [[f o'] rm]. destruct (merge_inline_origins _ _). apply noerr_bind; [|intros; apply noerr_ok].
    apply noerr_foldM. intros s [k b]. unfold merge_symbol. destruct (sy_public b).
    + apply noerr_bind; [apply noerr_inside|]. intros []; [apply noerr_ok|]. destruct (nfind k s); [|apply noerr_ok].
      repeat match goal with |- context [if ?c then _ else _] => destruct c end; apply noerr_ok.
    + destruct (nfind k s) as [a|]; [destruct (sy_public a)|]; try apply noerr_ok; (apply noerr_bind; [apply noerr_remap|intros; apply noerr_ok]).
Qed.
Lemma merge_refuses ck iter x y : (exists e, merge_objects ck iter x y = Err e) <-> ob_debug_id x <> ob_debug_id y.
Proof.
  unfold merge_objects. destruct (str_eqb (ob_debug_id x) (ob_debug_id y)) eqn:E; cbn [negb].
  - apply str_eqb_eq in E. split; [|congruence]. intros (e & H). exfalso.
    destruct (_ <? _); exact (noerr_merge_into _ _ _ _ _ H).
  - apply str_eqb_neq in E. split; eauto.
Qed.
Lemma merge_same_id ck iter x y m : merge_objects ck iter x y = Ok m -> ob_debug_id x = ob_debug_id y.
Proof.
  unfold merge_objects. destruct (str_eqb (ob_debug_id x) (ob_debug_id y)) eqn:E; cbn [negb]; [|discriminate]. intros _. now apply str_eqb_eq.
Qed.

(** *** The other fields *)
Lemma merge_fields ck iter x y m : merge_objects ck iter x y = Ok m ->
  let l := larger x y in let r := smaller x y in
  ob_debug_id m = ob_debug_id x /\ ob_debug_id m = ob_debug_id y /\
  ob_cpu m = ob_cpu l /\ ob_platform m = ob_platform l /\ ob_pe_name m = ob_pe_name l /\ ob_stripped m = ob_stripped l /\
  ob_name m = (if ob_stripped r then ob_name r else ob_name l) /\
  ob_code_id m = match ob_code_id l with Some c => Some c | None => ob_code_id r end /\
  ob_stack m = merge_stack (ob_stack l) (ob_stack r) /\
  exists more, ob_origins m = ob_origins l ++ more.
Proof.
  intros H. pose proof (merge_same_id _ _ _ _ _ H) as E. rewrite merge_objects_eq in H by exact E. cbn zeta.
  unfold merge_into in H. apply bind_ok in H as ([[f o'] rm] & _ & H).
  destruct (merge_inline_origins (ob_origins (larger x y)) (ob_origins (smaller x y))) as [ors om] eqn:EO.
  apply bind_ok in H as (syms & _ & [= <-]). cbn. destruct (merge_origins_spec _ _ _ _ EO) as (M & _). revert M. clear EO.
  destruct (larger_cases x y) as [[-> ->]|[-> ->]]; rewrite ?E; intros M; splits; auto.
Qed.
Lemma merge_stack_spec a b : both_stacks a b (merge_stack a b).
Proof.
  unfold both_stacks, merge_stack. destruct a as [|a0 a]; [left; auto|]. destruct b as [|b0 b]; [right; left; auto|].
  right; right. split; [discriminate|split; [discriminate|]]. unfold ends_with_char.
  destruct (last_opt (a0 :: a)) as [c|] eqn:E.
  - apply last_opt_some in E as (t & E). destruct (N.eqb_spec c c_nl) as [->|Hc].
    + left. split; [exists t; exact E|reflexivity].
    + right. split.
      * intros (t' & E'). rewrite E' in E. apply app_inj_tail in E as (_ & E). subst c. apply Hc. reflexivity.
      * rewrite <- app_assoc. reflexivity.
  - apply last_opt_none in E. discriminate.
Qed.

(** *** Two fresh objects *)
Lemma merge_two shown ck iter x y : iterates iter -> obj_ok shown x -> obj_ok shown y -> ob_debug_id x = ob_debug_id y -> tables_fit ck x y ->
  exists m, merge_objects ck iter x y = Ok m /\ obj_merged shown m /\ from_one_of [x; y] m /\
    Permutation (sm_ids (ob_files m)) (merged_ids shown (ob_files (larger x y)) (ob_files (smaller x y))) /\
    (forall i t, file_text (larger x y) i = Some t -> file_text m i = Some t) /\
    (ends_fit (ob_syms x) -> ends_fit (ob_syms y) -> ends_fit (ob_syms m) /\ forall k, merged_at (larger x y) (smaller x y) m k).
Proof.
  intros It Ox Oy E T. rewrite merge_objects_eq by exact E. destruct (larger_cases x y) as [[-> ->]|[-> ->]].
  - destruct (merge_into_spec shown ck iter x y It) as (m & A & B & C & P & KT & D); auto using obj_ok_merged. exists m. auto 10.
  - destruct (merge_into_spec shown ck iter y x It) as (m & A & B & C & P & KT & D); auto using obj_ok_merged.
    { destruct T as [|[? ?]]; [now left|right; auto]. }
    exists m. splits; auto. intros k s Hs Ps. destruct (C k s Hs Ps) as (o & s0 & [<-|[<-|[]]] & R); [exists y|exists x]; exists s0; (split; [cbn; auto|exact R]).
Qed.

(** *** Iteration order *)
Lemma same_source_sym o s o' s' : same_source o s o' s' -> same_source o' s' o s.
Proof. intros [A B]. split; auto using Permutation_sym. Qed.
Lemma same_source_trans o s o' s' o2 s2 : same_source o s o' s' -> same_source o' s' o2 s2 -> same_source o s o2 s2.
Proof. intros [A B] [C D]. split; [congruence|etransitivity; eauto]. Qed.
Lemma same_source_refl o s : same_source o s o s.
Proof. split; reflexivity. Qed.
Lemma same_head_trans2 f s a b : same_head f s a -> same_head f s b -> same_head (sy_multiple a) a b.
Proof. unfold same_head. intuition congruence. Qed.
Lemma sp_inside_equiv (m m' : Obj) k : (forall j, j < k -> rec_equiv m m' (nfind j (ob_syms m)) (nfind j (ob_syms m'))) ->
  sp_inside (ob_syms m) k -> sp_inside (ob_syms m') k.
Proof.
  intros H (j & s & (A & B & C) & D). pose proof (H j B) as E. rewrite A in E. unfold rec_equiv in E.
  destruct (nfind j (ob_syms m')) as [s'|] eqn:A'; [|destruct E]. destruct E as ((_ & _ & _ & _ & E1 & E2 & _) & _).
  exists j, s'. split; [|lia]. unfold closest. splits; auto. intros i w Hi L. pose proof (H i L) as E. rewrite Hi in E. unfold rec_equiv in E.
  destruct (nfind i (ob_syms m)) as [w'|] eqn:Ei; [|destruct E]. eauto.
Qed.
Lemma rec_equiv_sym m m' a b : rec_equiv m m' a b -> rec_equiv m' m b a.
Proof.
  destruct a as [s|], b as [s'|]; cbn; auto. intros (A & B). unfold same_head in *. destruct A as (A1 & A2 & A3 & A4 & A5 & A6 & A7).
  rewrite A2. split; [splits; congruence|]. destruct (sy_public s); auto using same_source_sym.
Qed.
(** A source kept from object [l] says the same in both results. *)
Lemma same_kept (l m m' : Obj) a s s' : same_source l a m s -> same_source l a m' s' -> same_source m s m' s'.
Proof. intros A B. eapply same_source_trans; [apply same_source_sym; exact A|exact B]. Qed.


Lemma sp_inside_dec (m : Symbols) k : nsorted m -> sp_inside m k \/ ~ sp_inside m k.
Proof.
  intros S. destruct (last_below k m) as [[j s]|] eqn:E.
  - apply last_below_spec in E; [|exact S]. fold (closest m k j s) in E. destruct (N.lt_ge_cases k (sy_rva s + sy_len s)) as [L|L].
    + left. exists j, s. auto.
    + right. intros (j' & s' & C & D). destruct C as (C1 & C2 & C3), E as (E1 & E2 & E3).
      assert (j' = j) by (pose proof (C3 j s E1 E2); pose proof (E3 j' s' C1 C2); lia). subst. assert (s' = s) by congruence. subst. lia.
  - right. intros (j & s & (C1 & C2 & C3) & _). apply (last_below_none k m S) with (j := j) (w := s) in E; [lia|exact C1].
Qed.

Lemma merged_at_equiv (l r m m' : Obj) : nsorted (ob_syms m) ->
  (forall k a s, nfind k (ob_syms l) = Some a -> sy_public a = false -> sy_source s = sy_source a -> same_source l a m s) ->
  (forall k a s, nfind k (ob_syms l) = Some a -> sy_public a = false -> sy_source s = sy_source a -> same_source l a m' s) ->
  (forall k, merged_at l r m k) -> (forall k, merged_at l r m' k) ->
  forall k, rec_equiv m m' (nfind k (ob_syms m)) (nfind k (ob_syms m')).
Proof.
  intros SM K K' M M' k. induction k as [k IH] using (well_founded_induction N.lt_wf_0).
  assert (I1 : sp_inside (ob_syms m) k -> sp_inside (ob_syms m') k) by (apply sp_inside_equiv; auto).
  assert (I2 : sp_inside (ob_syms m') k -> sp_inside (ob_syms m) k) by (apply sp_inside_equiv; intros; apply rec_equiv_sym; auto).
  assert (D : sp_inside (ob_syms m) k /\ sp_inside (ob_syms m') k \/ ~ sp_inside (ob_syms m) k /\ ~ sp_inside (ob_syms m') k).
  { destruct (sp_inside_dec (ob_syms m) k SM); tauto. }
  pose proof (M k) as Mk. pose proof (M' k) as Mk'. unfold merged_at in Mk, Mk'.
  assert (RF : forall s, (sy_public s = false -> same_source m s m' s) -> rec_equiv m m' (Some s) (Some s)).
  { intros s H. cbn. split; [unfold same_head; auto 10|]. destruct (sy_public s); auto. }
  assert (KS : forall a s s', nfind k (ob_syms l) = Some a -> same_head (sy_multiple s) s s' -> sy_public s = sy_public a ->
      sy_source s = sy_source a -> sy_source s' = sy_source a -> rec_equiv m m' (Some s) (Some s')).
  { intros a s s' Ha Hh Hp H1 H2. cbn. split; [exact Hh|]. destruct (sy_public s) eqn:Ps; [congruence|].
    eapply (same_kept l); [eapply K; eauto|eapply K'; eauto]. }
  assert (KK : forall a, nfind k (ob_syms l) = Some a -> rec_equiv m m' (Some a) (Some a)).
  { intros a Ha. eapply KS; eauto. unfold same_head; auto 10. }
  assert (KR : forall f b s s', sy_public b = false -> same_head f b s -> same_head f b s' -> same_source r b m s -> same_source r b m' s' ->
      rec_equiv m m' (Some s) (Some s')).
  { intros f b s s' Pb H1 H2 S1 S2. cbn. split; [eapply same_head_trans2; eauto|].
    assert (sy_public s = false) as -> by (destruct H1 as (_ & H1 & _); congruence). eapply same_kept; eauto. }
  destruct (nfind k (ob_syms l)) as [a|] eqn:El; destruct (nfind k (ob_syms r)) as [b|] eqn:Er.
  - destruct (sy_public b) eqn:Pb.
    + destruct Mk as [A B], Mk' as [A' B']. destruct D as [[D D']|[D D']].
      * rewrite (A D), (A' D'). auto.
      * specialize (B D). specialize (B' D'). destruct (sy_synthetic b); [rewrite B, B'; auto|].
        destruct (sy_synthetic a); [rewrite B, B'; apply RF; congruence|].
        destruct B as (s & -> & E1 & C1), B' as (s' & -> & E2 & C2).
        assert (exists f, same_head f a s /\ same_head f a s') as (f & H1 & H2) by (destruct C1 as [[? ?]|[? ?]], C2 as [[? ?]|[? ?]]; try contradiction; eauto).
        eapply KS; eauto; [eapply same_head_trans2; eauto|]. destruct H1 as (_ & H1 & _). exact H1.
    + destruct (sy_public a).
      * destruct Mk as (s & -> & H1 & S1), Mk' as (s' & -> & H2 & S2). eapply KR; eauto.
      * destruct Mk as (s & -> & H1 & S1), Mk' as (s' & -> & H2 & S2). eapply KS; eauto; [eapply same_head_trans2; eauto|].
        destruct H1 as (_ & H1 & _). exact H1.
  - rewrite Mk, Mk'. auto.
  - destruct (sy_public b) eqn:Pb.
    + destruct Mk as [A B], Mk' as [A' B']. destruct D as [[D D']|[D D']].
      * rewrite (A D), (A' D'). exact Logic.I.
      * rewrite (B D), (B' D'). apply RF. congruence.
    + destruct Mk as (s & -> & H1 & S1), Mk' as (s' & -> & H2 & S2). eapply KR; eauto.
  - rewrite Mk, Mk'. exact Logic.I.
Qed.

(** Everything but file numbers and symbols is independent of the iteration order. *)
Lemma merge_other_fields ck iter iter' x y m m' : merge_objects ck iter x y = Ok m -> merge_objects ck iter' x y = Ok m' ->
  ob_origins m = ob_origins m' /\ ob_name m = ob_name m' /\ ob_cpu m = ob_cpu m' /\ ob_debug_id m = ob_debug_id m' /\
  ob_code_id m = ob_code_id m' /\ ob_pe_name m = ob_pe_name m' /\ ob_stack m = ob_stack m' /\ ob_stripped m = ob_stripped m' /\
  ob_platform m = ob_platform m'.
Proof.
  intros H H'. pose proof (merge_same_id _ _ _ _ _ H) as E. rewrite merge_objects_eq in H, H' by exact E.
  unfold merge_into in H, H'. apply bind_ok in H as ([[f o'] rm] & _ & H). apply bind_ok in H' as ([[f' o2] rm'] & _ & H').
  destruct (merge_inline_origins (ob_origins (larger x y)) (ob_origins (smaller x y))) as [ors om] eqn:EO.
  apply bind_ok in H as (syms & _ & [= <-]). apply bind_ok in H' as (syms' & _ & [= <-]). cbn. auto 20.
Qed.

Lemma obj_ok_larger shown x y : obj_ok shown x -> obj_ok shown y -> obj_ok shown (larger x y).
Proof. unfold larger. destruct (_ <? _); auto. Qed.

Lemma merge_iter_order shown ck iter iter' x y : iterates iter -> iterates iter' -> obj_ok shown x -> obj_ok shown y ->
  ob_debug_id x = ob_debug_id y -> ends_fit (ob_syms x) -> ends_fit (ob_syms y) ->
  exists m m', merge_objects ck iter x y = Ok m /\ merge_objects ck iter' x y = Ok m' /\
    (forall k, rec_equiv m m' (nfind k (ob_syms m)) (nfind k (ob_syms m'))) /\
    Permutation (sm_ids (ob_files m)) (sm_ids (ob_files m')) /\
    ob_origins m = ob_origins m' /\ ob_name m = ob_name m' /\ ob_cpu m = ob_cpu m' /\ ob_debug_id m = ob_debug_id m' /\
    ob_code_id m = ob_code_id m' /\ ob_pe_name m = ob_pe_name m' /\ ob_stack m = ob_stack m' /\ ob_platform m = ob_platform m'.
Proof.
  intros I I' Ox Oy E Fx Fy.
  destruct (merge_two shown ck iter x y I Ox Oy E) as (m & A & B & C & P & KT & D); [right; auto|].
  destruct (merge_two shown ck iter' x y I' Ox Oy E) as (m' & A' & B' & C' & P' & KT' & D'); [right; auto|].
  destruct (D Fx Fy) as (_ & M). destruct (D' Fx Fy) as (_ & M'). exists m, m'.
  pose proof (merge_fields _ _ _ _ _ A) as Fm. pose proof (merge_fields _ _ _ _ _ A') as Fm'. cbn zeta in Fm, Fm'.
  destruct Fm as (_ & _ & _ & _ & _ & _ & _ & _ & _ & more & Om). destruct Fm' as (_ & _ & _ & _ & _ & _ & _ & _ & _ & more' & Om').
  destruct (obj_ok_larger shown x y Ox Oy) as (_ & RL & _).
  assert (ND : forall n more, ob_origins n = ob_origins (larger x y) ++ more -> forall i t, nthN (ob_origins (larger x y)) i = Some t -> nthN (ob_origins n) i = Some t).
  { intros n mo En i t H. rewrite En, nthN_app1; [exact H|]. now apply nthN_some_lt in H. }
  destruct (merge_other_fields _ _ _ _ _ _ _ A A') as (F1 & F2 & F3 & F4 & F5 & F6 & F7 & F8 & F9).
  splits; auto.
  - apply (merged_at_equiv (larger x y) (smaller x y)); auto.
    + apply B.
    + intros k a s Ha Pa Es. apply same_source_keep; eauto. apply (RL k a Ha Pa).
    + intros k a s Ha Pa Es. apply same_source_keep; eauto. apply (RL k a Ha Pa).
  - rewrite P, P'. reflexivity.
Qed.

(** *** Chains of merges *)
Lemma from_one_of_trans os acc o m : from_one_of os acc -> from_one_of [acc; o] m -> from_one_of (os ++ [o]) m.
Proof.
  intros H1 H2 k s Hs Ps. destruct (H2 k s Hs Ps) as (o1 & s1 & [<-|[<-|[]]] & A & B & C & D & E).
  - destruct (H1 k s1 A B) as (o2 & s2 & I2 & A2 & B2 & C2 & D2 & E2). exists o2, s2. splits; auto; [apply in_or_app; now left|congruence|congruence|].
    eapply same_source_trans; eauto.
  - exists o, s1. splits; auto. apply in_or_app. right. now left.
Qed.
Lemma from_one_of_self o : from_one_of [o] o.
Proof. intros k s A B. exists o, s. splits; auto; [now left|apply same_source_refl]. Qed.


(** *** Real functions *)
Lemma left_kept shown ck iter x y m : merge_objects ck iter x y = Ok m -> obj_ok shown x -> obj_ok shown y ->
  (forall i t, file_text (larger x y) i = Some t -> file_text m i = Some t) ->
  forall k a s, nfind k (ob_syms (larger x y)) = Some a -> sy_public a = false -> sy_source s = sy_source a -> same_source (larger x y) a m s.
Proof.
  intros A Ox Oy KT k a s Ha Pa Es. destruct (merge_fields _ _ _ _ _ A) as (_ & _ & _ & _ & _ & _ & _ & _ & _ & more & Om).
  destruct (obj_ok_larger shown x y Ox Oy) as (_ & RL & _). apply same_source_keep; auto.
  - intros i t H. rewrite Om, nthN_app1; [exact H|]. now apply nthN_some_lt in H.
  - apply (RL k a Ha Pa).
Qed.
Lemma real_func_kept shown ck iter x y k : iterates iter -> obj_ok shown x -> obj_ok shown y -> ob_debug_id x = ob_debug_id y ->
  ends_fit (ob_syms x) -> ends_fit (ob_syms y) ->
  (forall s, nfind k (ob_syms (larger x y)) = Some s -> sy_public s = false -> sy_synthetic s = false) ->
  (exists o s, (o = x \/ o = y) /\ real_func o k s) ->
  exists m s, merge_objects ck iter x y = Ok m /\ real_func m k s /\
    exists o s0, (o = x \/ o = y) /\ real_func o k s0 /\ sy_name s = sy_name s0 /\ sy_len s = sy_len s0 /\ same_source o s0 m s.
Proof.
  intros It Ox Oy E Fx Fy NS (o & s0 & Ho & R0).
  destruct (merge_two shown ck iter x y It Ox Oy E) as (m & A & B & C & P & KT & D); [right; auto|].
  destruct (D Fx Fy) as (_ & M). specialize (M k). unfold merged_at in M.
  pose proof (left_kept shown ck iter x y m A Ox Oy KT k) as LK.
  assert (Lxy : larger x y = x \/ larger x y = y) by (destruct (larger_cases x y) as [[-> _]|[-> _]]; auto).
  assert (Sxy : smaller x y = x \/ smaller x y = y) by (destruct (larger_cases x y) as [[_ ->]|[_ ->]]; auto).
  assert (R0' : real_func (larger x y) k s0 \/ real_func (smaller x y) k s0).
  { destruct (larger_cases x y) as [[-> ->]|[-> ->]]; destruct Ho as [->| ->]; auto. }
  exists m. unfold real_func in R0'.
  destruct (nfind k (ob_syms (larger x y))) as [a|] eqn:El.
  - destruct (sy_public a) eqn:Pa.
    + destruct R0' as [(E0 & F0 & _)|(E0 & F0 & G0)]; [congruence|]. rewrite E0 in M. rewrite F0 in M.
      destruct M as (s & Hs & (N1 & N2 & N3 & N4 & N5 & N6 & N7) & SS). exists s. unfold real_func. splits; auto; try congruence.
      exists (smaller x y), s0. splits; auto.
    + pose proof (NS a eq_refl Pa) as Na.
      assert (KEEP : forall s, nfind k (ob_syms m) = Some s -> (exists f, same_head f a s) -> sy_source s = sy_source a ->
        exists s, merge_objects ck iter x y = Ok m /\ real_func m k s /\
          exists o s0, (o = x \/ o = y) /\ real_func o k s0 /\ sy_name s = sy_name s0 /\ sy_len s = sy_len s0 /\ same_source o s0 m s).
      { intros s Hs (f & N1 & N2 & N3 & N4 & N5 & N6 & N7) Es. exists s. unfold real_func. splits; auto; try congruence.
        exists (larger x y), a. splits; auto. }
      assert (SH : same_head (sy_multiple a) a a) by (unfold same_head; auto 10).
      destruct (nfind k (ob_syms (smaller x y))) as [b|] eqn:Er; [|eapply KEEP; eauto].
      destruct (sy_public b).
      * destruct M as [M1 M2]. destruct (sp_inside_dec (ob_syms m) k) as [I|I]; [apply B| |].
        -- eapply KEEP; eauto.
        -- specialize (M2 I). destruct (sy_synthetic b); [eapply KEEP; eauto|]. rewrite Na in M2.
           destruct M2 as (s & Hs & Es & [[_ H]|[_ H]]); eapply KEEP; eauto.
      * destruct M as (s & Hs & H & Es). eapply KEEP; eauto.
  - destruct R0' as [(E0 & F0 & _)|(E0 & F0 & G0)]; [congruence|]. rewrite E0, F0 in M.
    destruct M as (s & Hs & (N1 & N2 & N3 & N4 & N5 & N6 & N7) & SS). exists s. unfold real_func. splits; auto; try congruence.
    exists (smaller x y), s0. splits; auto.
Qed.

Lemma placeholder_wins shown ck iter x y k a : iterates iter -> obj_ok shown x -> obj_ok shown y -> ob_debug_id x = ob_debug_id y ->
  ends_fit (ob_syms x) -> ends_fit (ob_syms y) ->
  nfind k (ob_syms (larger x y)) = Some a -> sy_public a = false -> sy_synthetic a = true ->
  (exists b, real_func (smaller x y) k b) ->
  exists m s, merge_objects ck iter x y = Ok m /\ nfind k (ob_syms m) = Some s /\ same_head true a s /\ sy_source s = sy_source a.
Proof.
  intros It Ox Oy E Fx Fy Ea Pa Sa (b & Eb & Pb & Sb).
  destruct (merge_two shown ck iter x y It Ox Oy E) as (m & A & B & C & P & KT & D); [right; auto|].
  destruct (D Fx Fy) as (_ & M). specialize (M k). unfold merged_at in M. rewrite Ea, Eb, Pb, Pa in M. destruct M as (s & M). eauto.
Qed.

(** *** Any merge that succeeds gives a properly filed table *)
Lemma remap_rva fm om s s' : remap_symbol fm om s = Ok s' -> sy_rva s' = sy_rva s.
Proof. unfold remap_symbol. intros H. apply bind_ok in H as (ls & _ & H). apply bind_ok in H as (is & _ & [= <-]). reflexivity. Qed.
Lemma merge_symbol_filed ck fm om k b m m' : filed m -> sy_rva b = k -> k < two32 -> merge_symbol ck fm om m (k, b) = Ok m' -> filed m'.
Proof.
  intros F E L H. unfold merge_symbol in H.
  assert (K : forall a, nfind k m = Some a -> filed (ninsert k (set_multiple a) m)).
  { intros a Ha. apply filed_insert; auto. cbn. now apply F. }
  destruct (sy_public b).
  - apply bind_ok in H as (i & _ & H). destruct i; [inversion H; now subst|].
    destruct (nfind k m) as [a|]; [|inversion H; subst; now apply filed_insert].
    destruct (sy_synthetic b); [inversion H; now subst|]. destruct (sy_synthetic a); [inversion H; subst; now apply filed_insert|].
    destruct (str_eqb (sy_name a) (sy_name b)); inversion H; subst; auto.
  - destruct (nfind k m) as [a|].
    + destruct (sy_public a).
      * apply bind_ok in H as (s & Hs & [= <-]). apply filed_insert; auto. cbn. now rewrite (remap_rva _ _ _ _ Hs).
      * inversion H; subst; auto.
    + apply bind_ok in H as (s & Hs & [= <-]). apply filed_insert; auto. now rewrite (remap_rva _ _ _ _ Hs).
Qed.
Lemma merge_into_filed ck iter l r m : filed (ob_syms l) -> filed (ob_syms r) -> merge_into ck iter l r = Ok m -> filed (ob_syms m).
Proof.
  intros FL (SR & FR) H. unfold merge_into in H. apply bind_ok in H as ([[f o'] rm] & _ & H).
  destruct (merge_inline_origins (ob_origins l) (ob_origins r)) as [ors om]. apply bind_ok in H as (syms & H & [= <-]). cbn [ob_syms].
  revert H. apply (foldM_inv filed); [|exact FL]. intros s [k b] s' Hin Fs H. apply (nfind_In _ _ _ SR) in Hin.
  destruct (FR k b Hin). eapply merge_symbol_filed; eauto.
Qed.
Lemma merge_filed ck iter x y m : filed (ob_syms x) -> filed (ob_syms y) -> merge_objects ck iter x y = Ok m -> filed (ob_syms m).
Proof.
  intros Fx Fy H. pose proof (merge_same_id _ _ _ _ _ H) as E. rewrite merge_objects_eq in H by exact E.
  destruct (larger_cases x y) as [[E1 E2]|[E1 E2]]; rewrite E1, E2 in H; [exact (merge_into_filed _ _ _ _ _ Fx Fy H)|exact (merge_into_filed _ _ _ _ _ Fy Fx H)].
Qed.
Lemma merge_all_filed ck iter os : forall acc m, filed (ob_syms acc) -> Forall (fun o => filed (ob_syms o)) os -> merge_all ck iter acc os = Ok m -> filed (ob_syms m).
Proof.
  induction os as [|o os IH]; cbn [merge_all]; intros acc m FA FO H; [inversion H; now subst|].
  inversion FO as [|? ? F1 F2]; subst. apply bind_ok in H as (m1 & H1 & H2). exact (IH m1 m (merge_filed _ _ _ _ _ FA F1 H1) F2 H2).
Qed.

(** *** An object merged with itself *)
Lemma twice_inserted (m : Symbols) k v : nsorted m -> nfind k m = Some v -> ninsert k v m = m.
Proof.
  intros S H. apply nsorted_ext; [now apply ninsert_sorted|exact S|]. intros j. rewrite nfind_insert by exact S.
  destruct (N.eqb_spec j k) as [-> |]; [symmetry; exact H|reflexivity].
Qed.
Lemma twice_seen_idem s : seen_twice (seen_twice s) = seen_twice s.
Proof. unfold seen_twice. destruct (sy_public s) eqn:E; [now rewrite E|reflexivity]. Qed.
Lemma twice_public s : sy_public (seen_twice s) = sy_public s.
Proof. unfold seen_twice. destruct (sy_public s) eqn:E; [exact E|reflexivity]. Qed.
Lemma twice_step ck fm om k s m m' : nsorted m -> (nfind k m = Some s \/ nfind k m = Some (seen_twice s)) ->
  merge_symbol ck fm om m (k, s) = Ok m' -> m' = ninsert k (seen_twice s) m.
Proof.
  intros S F. unfold merge_symbol. destruct (sy_public s) eqn:P.
  - assert (T : seen_twice s = s) by (unfold seen_twice; now rewrite P).
    assert (F' : nfind k m = Some s) by (destruct F as [F|F]; congruence). rewrite T, (twice_inserted m k s S F').
    destruct (is_inside_symbol ck k m) as [[|]| |]; cbn [bind]; try discriminate; [now intros [= <-]|].
    rewrite F'. rewrite str_eqb_refl. destruct (sy_synthetic s); now intros [= <-].
  - assert (exists a, nfind k m = Some a /\ sy_public a = false /\ set_multiple a = seen_twice s) as (a & Fa & Pa & Ta).
    { destruct F as [F|F]; [exists s|exists (seen_twice s)]; (split; [exact F|]); unfold seen_twice, set_multiple; rewrite P; cbn; rewrite ?P; auto. }
    rewrite Fa, Pa, Ta. now intros [= <-].
Qed.
Lemma twice_fold ck fm om l : forall m m', nsorted m -> (forall k s, In (k, s) l -> nfind k m = Some s \/ nfind k m = Some (seen_twice s)) -> NoDup (map fst l) ->
  foldM (merge_symbol ck fm om) l m = Ok m' ->
  nsorted m' /\ forall k, nfind k m' = if existsb (N.eqb k) (map fst l) then option_map seen_twice (nfind k m) else nfind k m.
Proof.
  induction l as [|[k s] l IH]; intros m m' S F ND; cbn [foldM].
  - intros [= <-]. split; [exact S|reflexivity].
  - intros H. destruct (merge_symbol ck fm om m (k, s)) as [m1| |] eqn:E; try discriminate. cbn [bind] in H.
    apply twice_step in E; [|exact S|apply F; now left]. subst m1. inversion ND as [|x y N1 N2]; subst.
    destruct (IH (ninsert k (seen_twice s) m) m') as (S' & A); auto.
    + now apply ninsert_sorted.
    + intros k' s' I. rewrite nfind_insert by exact S. destruct (N.eqb_spec k' k) as [-> |]; [|apply F; now right].
      exfalso. apply N1. apply in_map_iff. now exists (k, s').
    + split; [exact S'|]. intros j. rewrite A, nfind_insert by exact S. cbn [map existsb fst]. destruct (N.eqb_spec j k) as [-> |]; cbn [orb]; [|reflexivity].
      assert (nfind k m = Some s \/ nfind k m = Some (seen_twice s)) as G by (apply F; now left).
      assert (existsb (N.eqb k) (map fst l) = false) as ->.
      { apply Bool.not_true_iff_false. rewrite existsb_exists. intros (y & Iy & Ey). apply N.eqb_eq in Ey. now subst y. }
      destruct G as [-> | ->]; cbn [option_map]; now rewrite ?twice_seen_idem.
Qed.
Lemma twice_files iter sref ids : NoDup (map fst sref) -> (forall kv, In kv iter -> In kv sref) -> forall st st',
  foldM (merge_step sref ids) iter st = Ok st' -> snd st' = snd st.
Proof.
  intros ND. induction iter as [|[p i] t IH]; intros I st st'; cbn [foldM]; [now intros [= <-]|]. unfold merge_step at 1. destruct st as [re out].
  assert (I1 : In (p, i) sref) by (apply I; now left). assert (I2 : forall kv, In kv t -> In kv sref) by (intros kv J; apply I; now right). clear I.
  rewrite (afind_unique _ str_eqb_eq p sref i ND I1).
  destruct (i <? lenN re); [|discriminate]. cbn [bind]. intros H. now rewrite (IH I2 _ _ H).
Qed.
Lemma twice_srcmap iter f x y z : iterates iter -> NoDup (map fst (sm_ref f)) -> srcmap_merge (iter (sm_ref f)) f f = Ok (x, y, z) -> x = f.
Proof.
  intros It ND. unfold srcmap_merge. destruct (sm_ids f) as [|q qs] eqn:E; [now intros [= <- _ _]|].
  intros H. destruct (foldM (merge_step (sm_ref f) (q :: qs)) (iter (sm_ref f)) (repeat 0 (length (q :: qs)), q :: qs)) as [st| |] eqn:G; try discriminate.
  cbn [bind] in H. injection H as <- _ _. apply twice_files in G; [|exact ND|]. 2:{ intros kv I. eapply Permutation_in; [apply It|exact I]. }
  rewrite G. cbn [snd]. rewrite <- E. now destruct f.
Qed.
Lemma twice_origins l : fst (merge_inline_origins l l) = l ++ l.
Proof. unfold merge_inline_origins. now destruct l. Qed.
Lemma merge_twice shown ck iter o m : iterates iter -> obj_ok shown o -> merge_objects ck iter o o = Ok m ->
  (forall k, nfind k (ob_syms m) = option_map seen_twice (nfind k (ob_syms o))) /\
  ob_files m = ob_files o /\ ob_origins m = ob_origins o ++ ob_origins o.
Proof.
  intros It ((FS & _) & _ & (P & _ & _ & ND & _)). unfold merge_objects. rewrite str_eqb_refl, N.ltb_irrefl. cbn [negb]. unfold merge_into.
  intros H. destruct (srcmap_merge (iter (sm_ref (ob_files o))) (ob_files o) (ob_files o)) as [[[x y] z]| |] eqn:E; try discriminate. cbn [bind] in H.
  apply twice_srcmap in E; [|exact It|exact ND]. subst x.
  pose proof (twice_origins (ob_origins o)) as O. destruct (merge_inline_origins (ob_origins o) (ob_origins o)) as [og om]. cbn [fst] in O.
  destruct (foldM (merge_symbol ck z om) (ob_syms o) (ob_syms o)) as [sy| |] eqn:G; try discriminate. cbn [bind] in H. injection H as <-. cbn [ob_syms ob_files ob_origins].
  apply twice_fold in G; [|exact FS| |apply nsorted_NoDup, FS].
  2:{ intros k s I. left. now apply nfind_In. }
  split; [|split; [reflexivity|exact O]]. intros k. rewrite (proj2 G k). destruct (existsb (N.eqb k) (map fst (ob_syms o))) eqn:X; [reflexivity|].
  destruct (nfind k (ob_syms o)) as [s|] eqn:F; [|reflexivity]. exfalso. apply nfind_In in F; [|exact FS].
  assert (existsb (N.eqb k) (map fst (ob_syms o)) = true); [|congruence]. apply existsb_exists. exists k. split; [|apply N.eqb_refl].
  apply in_map_iff. now exists (k, s).
Qed.
