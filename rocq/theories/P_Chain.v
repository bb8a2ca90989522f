(** Proofs about merging one object after the other, whatever their sizes. *)
From Verif Require Import Base Sort BMap Str M_Names M_Path M_Line P_Line M_Source S_Source P_Source M_Symbol S_Symbol P_Symbol M_Collector M_Object S_Object P_Object P_Merge.

(** *** Path indexes *)
Lemma ref_snd_NoDup (P : list str) ref : NoDup (map fst ref) -> (forall p i, In (p, i) ref -> nthN P i = Some p) -> NoDup (map snd ref).
Proof.
  intros ND H. induction ref as [|[p i] ref IH]; cbn; [constructor|]. cbn in ND. inversion ND as [|? ? N1 N2]; subst. constructor.
  - intros Hin. apply in_map_iff in Hin as ([q j] & E & Hin). cbn in E. subst j.
    assert (q = p) by (pose proof (H p i (or_introl eq_refl)); pose proof (H q i (or_intror Hin)); congruence). subst.
    apply N1. apply (in_map fst) in Hin. exact Hin.
  - apply IH; auto. intros; apply H; now right.
Qed.
Lemma files_some_ok shown f : files_some shown f -> (length (sm_ids f) <= length (sm_ref f))%nat -> files_ok shown f.
Proof.
  intros (P & E & ND & H) L. rewrite E, map_length in L.
  pose proof (ref_snd_NoDup P _ ND H) as NS.
  assert (I : incl (map N.of_nat (seq 0 (length P))) (map snd (sm_ref f))).
  { apply NoDup_length_incl; [exact NS|rewrite !map_length, seq_length; exact L|].
    intros i Hi. apply in_map_iff in Hi as ([p j] & <- & Hj). apply H in Hj. apply nthN_some_lt in Hj. unfold lenN in Hj. cbn.
    apply in_map_iff. exists (N.to_nat j). split; [lia|]. apply in_seq. lia. }
  assert (B : forall p i, nthN P i = Some p -> In (p, i) (sm_ref f)).
  { intros p i Hp. pose proof (nthN_some_lt _ _ _ Hp) as Li. unfold lenN in Li. assert (Hi : In i (map snd (sm_ref f))).
    { apply I. apply in_map_iff. exists (N.to_nat i). split; [lia|]. apply in_seq. lia. }
    apply in_map_iff in Hi as ([q j] & Ej & Hj). cbn in Ej. subst j. pose proof (H _ _ Hj). congruence. }
  exists P. splits; auto; [|intros p i; split; auto].
  apply NoDup_nth_error. intros i j Hi Ej. destruct (nth_error P i) as [p|] eqn:Ep; [|apply nth_error_None in Ep; lia].
  assert (A1 : In (p, N.of_nat i) (sm_ref f)) by (apply B; unfold nthN; now rewrite Nat2N.id).
  assert (A2 : In (p, N.of_nat j) (sm_ref f)) by (apply B; unfold nthN; rewrite Nat2N.id; congruence).
  assert (U : forall (l : list (str * N)) p i j, NoDup (map fst l) -> In (p, i) l -> In (p, j) l -> i = j).
  { clear. induction l as [|[q n] l IH]; intros p i j N A B; [destruct A|]. cbn in N. inversion N as [|? ? N1 N2]; subst.
    destruct A as [A|A], B as [B|B].
    - congruence.
    - exfalso. apply N1. apply (in_map fst) in B. cbn in B. congruence.
    - exfalso. apply N1. apply (in_map fst) in A. cbn in A. congruence.
    - eauto. }
  pose proof (U _ _ _ _ ND A1 A2). lia.
Qed.
Lemma indexed_ok shown o : obj_merged shown o -> all_indexed o -> obj_ok shown o.
Proof. intros (A & B & C) L. split; [exact A|split; [exact B|]]. now apply files_some_ok. Qed.
Lemma ok_indexed shown o : obj_ok shown o -> all_indexed o.
Proof.
  intros (_ & _ & (P & N1 & E & N2 & H)). unfold all_indexed. rewrite E, map_length.
  rewrite <- (map_length fst). apply NoDup_incl_length; [exact N1|]. intros p Hp.
  apply In_nth_error in Hp as (i & Hi). assert (In (p, N.of_nat i) (sm_ref (ob_files o))) by (apply H; unfold nthN; now rewrite Nat2N.id).
  apply (in_map fst) in H0. exact H0.
Qed.
Lemma ok_indexed_text shown o i : obj_ok shown o -> file_text o i <> None -> indexed o i.
Proof.
  intros (_ & _ & (P & _ & E & _ & H)) T. unfold file_text in T. rewrite E, nthN_map in T.
  destruct (nthN P i) as [p|] eqn:Ep; [|cbn in T; congruence]. exists p. now apply H.
Qed.

(** *** Chains in which the index stays usable *)
Lemma merge_step_ok shown ck iter acc o : iterates iter -> obj_merged shown acc -> obj_ok shown o -> ob_debug_id o = ob_debug_id acc ->
  lenN (ob_syms o) < lenN (ob_syms acc) \/ all_indexed acc -> tables_fit ck acc o ->
  exists m, merge_objects ck iter acc o = Ok m /\ obj_merged shown m /\ from_one_of [acc; o] m /\
    Permutation (sm_ids (ob_files m)) (merged_ids shown (ob_files (larger acc o)) (ob_files (smaller acc o))) /\
    (ends_fit (ob_syms acc) -> ends_fit (ob_syms o) -> ends_fit (ob_syms m)).
Proof.
  intros It OA OO E S T. rewrite merge_objects_eq by congruence. destruct (N.lt_ge_cases (lenN (ob_syms o)) (lenN (ob_syms acc))) as [L|L].
  - unfold larger, smaller. assert (lenN (ob_syms o) <? lenN (ob_syms acc) = true) as -> by lia.
    destruct (merge_into_spec shown ck iter acc o It OA OO T) as (m & A & B & C & P & KT & D). exists m. splits; auto. intros; now apply D.
  - unfold larger, smaller. assert (lenN (ob_syms o) <? lenN (ob_syms acc) = false) as -> by lia.
    destruct S as [S|S]; [lia|].
    destruct (merge_into_spec shown ck iter o acc It) as (m & A & B & C & P & KT & D); auto using obj_ok_merged, indexed_ok.
    { destruct T as [|[? ?]]; [now left|right; auto]. }
    exists m. splits; auto; [|intros; now apply D].
    intros k s Hs Ps. destruct (C k s Hs Ps) as (x & s0 & [<-|[<-|[]]] & R); [exists o|exists acc]; exists s0; (split; [cbn; auto|exact R]).
Qed.
Lemma merge_chained shown ck iter : iterates iter -> forall os acc hist, obj_merged shown acc -> from_one_of hist acc ->
  Forall (obj_ok shown) os -> Forall (fun o => ob_debug_id o = ob_debug_id acc) os ->
  (ck = false \/ (ends_fit (ob_syms acc) /\ Forall (fun o => ends_fit (ob_syms o)) os)) -> chained ck iter acc os ->
  exists m, merge_all ck iter acc os = Ok m /\ obj_merged shown m /\ from_one_of (hist ++ os) m.
Proof.
  intros It. induction os as [|o os IH]; intros acc hist OA HA FO FD FF G.
  - exists acc. rewrite app_nil_r. cbn. auto.
  - cbn [chained] in G. destruct G as (L & G). inversion FO as [|? ? O1 O2]; subst. inversion FD as [|? ? D1 D2]; subst.
    cbn [merge_all].
    destruct (merge_step_ok shown ck iter acc o It OA O1 D1 L) as (m & A & B & C & _ & D).
    { destruct FF as [|[? F]]; [now left|right]. inversion F; subst. auto. }
    rewrite A. cbn [bind]. pose proof (merge_fields _ _ _ _ _ A) as (Dm & _).
    destruct (IH m (hist ++ [o])) as (m2 & A2 & B2 & C2); auto.
    + eapply from_one_of_trans; eauto.
    + eapply Forall_impl; [|exact D2]. cbn. intros; congruence.
    + destruct FF as [|[FA F]]; [now left|right]. inversion F; subst. split; [now apply D|assumption].
    + exists m2. rewrite <- app_assoc in C2. auto.
Qed.

(** *** Objects of the same sources *)
Lemma merge_ref ck iter x y m : merge_objects ck iter x y = Ok m ->
  sm_ref (ob_files m) = (match sm_ids (ob_files (smaller x y)), sm_ids (ob_files (larger x y)) with
                         | [], _ => sm_ref (ob_files (larger x y))
                         | _, [] => sm_ref (ob_files (smaller x y))
                         | _, _ => sm_ref (ob_files (larger x y)) end).
Proof.
  intros H. assert (E : ob_debug_id x = ob_debug_id y).
  { pose proof (merge_fields _ _ _ _ _ H) as (A & B & _). congruence. }
  rewrite (merge_objects_eq _ _ _ _ E) in H. unfold merge_into in H. apply bind_ok in H as ([[f o'] rm'] & F & H).
  destruct (merge_inline_origins _ _) as [ors om]. apply bind_ok in H as (syms & _ & [= <-]). cbn [ob_files].
  unfold srcmap_merge in F. destruct (sm_ids (ob_files (smaller x y))); [injection F as <- _ _; reflexivity|].
  destruct (sm_ids (ob_files (larger x y))); [injection F as <- _ _; reflexivity|].
  apply bind_ok in F as (st & _ & [= <- _ _]). reflexivity.
Qed.
Lemma filter_none {A} (f : A -> bool) l : (forall x, In x l -> f x = false) -> filter f l = [].
Proof. induction l as [|x l IH]; cbn; intros H; [reflexivity|]. rewrite (H x) by now left. apply IH. intros; apply H; now right. Qed.
Lemma afind_fst (p : str) ref : In p (map fst ref) -> (exists i : N, afind str_eqb p ref = Some i).
Proof.
  induction ref as [|[q i] ref IH]; cbn; [tauto|]. intros [->|H]; [rewrite str_eqb_refl; eauto|]. destruct (str_eqb p q); eauto.
Qed.
Lemma same_paths_step shown ck iter acc o m : merge_objects ck iter acc o = Ok m -> obj_ok shown acc -> obj_ok shown o ->
  Permutation (sm_ids (ob_files m)) (merged_ids shown (ob_files (larger acc o)) (ob_files (smaller acc o))) ->
  same_paths acc o -> all_indexed m /\ same_paths acc m.
Proof.
  intros M OA OO P SP. pose proof (merge_ref _ _ _ _ _ M) as R. pose proof (ok_indexed _ _ OA) as LA. pose proof (ok_indexed _ _ OO) as LO.
  unfold all_indexed in *. apply Permutation_length in P. rewrite P. unfold merged_ids, same_paths in *.
  assert (X : forall a b : Obj, (forall p, In p (map fst (sm_ref (ob_files a))) <-> In p (map fst (sm_ref (ob_files b)))) ->
     filter (fun x : str * N => match afind str_eqb (fst x) (sm_ref (ob_files a)) with None => true | _ => false end) (sm_ref (ob_files b)) = []).
  { intros a b H. apply filter_none. intros [p i] Hp. cbn. destruct (afind_fst p (sm_ref (ob_files a))) as (j & ->); [|reflexivity].
    apply H. apply (in_map fst) in Hp. exact Hp. }
  destruct (larger_cases acc o) as [[El Es]|[El Es]]; rewrite El, Es in *; rewrite R;
    repeat match goal with |- context [match sm_ids ?x with _ => _ end] => destruct (sm_ids x) eqn:?; cbn [length] in * end;
    rewrite ?app_length, ?X by (intros; first [apply SP|symmetry; apply SP]); cbn [map length]; split; try lia; intros; try tauto; try apply SP; symmetry; apply SP.
Qed.
Lemma same_paths_chained shown ck iter : iterates iter -> forall os acc, obj_ok shown acc -> Forall (obj_ok shown) os ->
  Forall (fun o => ob_debug_id o = ob_debug_id acc) os -> (ck = false \/ (ends_fit (ob_syms acc) /\ Forall (fun o => ends_fit (ob_syms o)) os)) ->
  Forall (same_paths acc) os -> chained ck iter acc os.
Proof.
  intros It. induction os as [|o os IH]; intros acc OA FO FD FF FS; cbn [chained]; [exact I|].
  inversion FO as [|? ? O1 O2]; subst. inversion FD as [|? ? D1 D2]; subst. inversion FS as [|? ? S1 S2]; subst.
  pose proof (ok_indexed _ _ OA) as LA. split; [now right|]. intros m M.
  destruct (merge_step_ok shown ck iter acc o It (obj_ok_merged _ _ OA) O1 D1 (or_intror LA)) as (m' & A & B & C & P & D).
  { destruct FF as [|[? F]]; [now left|right]. inversion F; subst. auto. }
  assert (m' = m) by congruence. subst m'. destruct (same_paths_step _ _ _ _ _ _ M OA O1 P S1) as (Lm & Sm).
  pose proof (merge_fields _ _ _ _ _ M) as (Dm & _). apply IH; auto.
  - eapply indexed_ok; eauto.
  - eapply Forall_impl; [|exact D2]. cbn. intros; congruence.
  - destruct FF as [|[FA F]]; [now left|right]. inversion F; subst. split; [now apply D|assumption].
  - eapply Forall_impl; [|exact S2]. intros a Ha p. rewrite <- (Ha p). symmetry. apply Sm.
Qed.

(** *** Any two objects, even when files are missing from the index *)
Lemma srcmap_merge_any shown iter l r : iterates iter -> files_some shown (ob_files l) -> files_some shown (ob_files r) ->
  exists files o' remap, srcmap_merge (iter (sm_ref (ob_files r))) (ob_files l) (ob_files r) = Ok (files, o', remap) /\
    files_some shown files /\
    (forall i t, nthN (sm_ids (ob_files l)) i = Some t -> nthN (sm_ids files) i = Some t) /\
    (forall i, in_files (ob_files r) i -> exists j, remap_file remap i = Ok j /\
       (indexed r i \/ sm_ids (ob_files l) = [] -> nthN (sm_ids files) j = nthN (sm_ids (ob_files r)) i) /\
       (~ indexed r i -> sm_ids (ob_files l) <> [] -> nthN (sm_ids files) j = nthN (sm_ids (ob_files l)) 0) /\
       nthN (sm_ids files) j <> None).
Proof.
  intros It HS HO. destruct HO as (PO & IO & NF & RO). unfold srcmap_merge.
  assert (TX : forall i, in_files (ob_files r) i -> nthN (sm_ids (ob_files r)) i <> None).
  { intros i H. apply nthN_lt_some in H as (p & ->). discriminate. }
  destruct (sm_ids (ob_files r)) as [|t0 ids0] eqn:EO.
  { exists (ob_files l), (ob_files r), None. splits; auto. intros i H. unfold in_files in H. rewrite EO in H. unfold lenN in H. cbn in H. lia. }
  rewrite <- EO in TX |- *. destruct (sm_ids (ob_files l)) as [|u0 us0] eqn:ES.
  { eexists _, _, None. split; [reflexivity|]. splits.
    - exists PO. cbn. splits; auto. congruence.
    - intros i t H. unfold nthN in H. destruct (N.to_nat i); discriminate.
    - intros i H. exists i. cbn. splits; auto. congruence. }
  rewrite <- ES. destruct HS as (PS & IS & NS & RS).
  assert (IO' : sm_ids (ob_files r) = map shown PO) by congruence.
  destruct (merge_fold shown (sm_ref (ob_files l)) (sm_ids (ob_files r)) PO (iter (sm_ref (ob_files r))) PS (repeat 0 (length (sm_ids (ob_files r)))))
    as (rm & Q & F & L & EQ & H1 & H2); auto.
  { intros p i H. apply RO. eapply Permutation_in; [apply It|exact H]. }
  { eapply Permutation_NoDup; [apply Permutation_map; symmetry; apply It|]. eapply ref_snd_NoDup; eauto. }
  { unfold lenN. now rewrite repeat_length. }
  rewrite IS. rewrite F. cbn [bind fst snd].
  assert (Z : nthN (map shown (PS ++ Q)) 0 = nthN (map shown PS) 0 /\ nthN (map shown PS) 0 <> None).
  { rewrite map_app, <- IS, ES. cbn. split; [reflexivity|discriminate]. }
  eexists _, _, _. split; [reflexivity|]. splits.
  - exists (PS ++ Q). cbn. splits; auto. intros p i H. apply RS in H. rewrite nthN_app1; [exact H|]. now apply nthN_some_lt in H.
  - intros i t H. cbn. rewrite map_app, nthN_app1; [exact H|]. now apply nthN_some_lt in H.
  - intros i Hi. pose proof Hi as Li. unfold in_files in Li.
    destruct (in_dec N.eq_dec i (map snd (sm_ref (ob_files r)))) as [D|D].
    + apply in_map_iff in D as ([p i'] & E & D). cbn in E. subst i'.
      destruct (H1 p i) as (j & Hj & Hp). { eapply Permutation_in; [symmetry; apply It|exact D]. }
      assert (T : nthN (map shown (PS ++ Q)) j = nthN (sm_ids (ob_files r)) i).
      { rewrite IO', !nthN_map. rewrite Hp. apply RO in D. now rewrite D. }
      exists j. cbn. unfold index. rewrite Hj. splits; auto.
      * intros N. exfalso. apply N. exists p. exact D.
      * rewrite T. now apply TX.
    + assert (Hj : nthN rm i = Some 0).
      { rewrite H2.
        - unfold nthN, lenN in *. rewrite nth_error_repeat by lia. reflexivity.
        - intros H. apply D. eapply Permutation_in; [|exact H]. apply Permutation_map, It. }
      exists 0. cbn [remap_file]. unfold index. rewrite Hj. cbn [sm_ids]. destruct Z as [Z1 Z2]. splits; auto.
      * intros [(p & Hp)|H]; [exfalso; apply D; apply (in_map snd) in Hp; exact Hp|]. rewrite <- IS, ES in H. discriminate.
      * congruence.
Qed.

Lemma bcollect_in (x : Site * list Range) : forall l m, In x (fold_left (fun m kv => binsert site_lt (fst kv) (snd kv) m) l m) -> In x l \/ In x m.
Proof.
  induction l as [|[k v] l IH]; cbn; intros m H; [now right|]. apply IH in H as [H|H]; [auto|].
  assert (G : forall m, In x (binsert site_lt k v m) -> x = (k, v) \/ In x m).
  { clear. induction m as [|[k' v'] m IH]; cbn; [intuition|].
    destruct (site_lt k k'); cbn; [intuition|]. destruct (site_lt k' k); cbn; intuition. }
  apply G in H as [->|H]; auto.
Qed.
Section RemapAny.
Variables (r m : Obj) (fm : option (list N)) (om : list N) (R : N -> N -> Prop).
Hypothesis HF : forall i, in_files (ob_files r) i -> exists j, remap_file fm i = Ok j /\ R i j /\ file_text m j <> None.
Hypothesis HO : forall i t, nthN (ob_origins r) i = Some t -> exists j, nthN om i = Some j /\ nthN (ob_origins m) j = Some t.
Lemma remap_symbol_any s : func_ok r s -> exists s', remap_symbol fm om s = Ok s' /\ same_head (sy_multiple s) s s' /\
  Forall2 (fun a b => l_rva b = l_rva a /\ l_len b = l_len a /\ l_num b = l_num a /\ R (l_file a) (l_file b)) (ls_lines (sy_source s)) (ls_lines (sy_source s')) /\
  (forall y, In y (ls_inlines (sy_source s')) -> exists x, In x (ls_inlines (sy_source s)) /\
     s_depth (fst y) = s_depth (fst x) /\ s_line (fst y) = s_line (fst x) /\ snd y = snd x /\
     nthN (ob_origins m) (s_origin (fst y)) = nthN (ob_origins r) (s_origin (fst x)) /\ R (s_file (fst x)) (s_file (fst y))) /\
  func_ok m s'.
Proof.
  intros (FL & FI & S). unfold remap_symbol.
  destruct (mapM_rel (remap_line fm) (fun l l' => (l_rva l' = l_rva l /\ l_len l' = l_len l /\ l_num l' = l_num l /\ R (l_file l) (l_file l')) /\
      file_text m (l_file l') <> None) (ls_lines (sy_source s))) as (ls & -> & F1).
  { intros l Hl. pose proof (FL l Hl) as T. destruct (HF (l_file l) (in_files_text _ _ T)) as (j & Hj & Rj & Tj).
    unfold remap_line. rewrite Hj. cbn. eexists. split; [reflexivity|]. cbn. auto. }
  destruct (mapM_rel (remap_site fm om) (fun x y => (s_depth (fst y) = s_depth (fst x) /\ s_line (fst y) = s_line (fst x) /\ snd y = snd x /\
      nthN (ob_origins m) (s_origin (fst y)) = nthN (ob_origins r) (s_origin (fst x)) /\ R (s_file (fst x)) (s_file (fst y))) /\
      file_text m (s_file (fst y)) <> None /\ nthN (ob_origins m) (s_origin (fst y)) <> None) (ls_inlines (sy_source s)))
    as (is & -> & F2).
  { intros x Hx. destruct (FI x Hx) as (T & O). destruct (HF _ (in_files_text _ _ T)) as (j & Hj & Rj & Tj).
    destruct (nthN (ob_origins r) (s_origin (fst x))) as [t|] eqn:E; [|congruence].
    destruct (HO _ _ E) as (o & Ho & Ho'). unfold remap_site. rewrite Hj. cbn [bind]. unfold index. rewrite Ho. cbn [bind].
    eexists. split; [reflexivity|]. cbn. rewrite Ho'. splits; auto; congruence. }
  cbn [bind]. eexists. split; [reflexivity|]. split; [unfold same_head; cbn; auto 10|]. cbn.
  assert (IN : forall y, In y (bcollect site_lt is) -> In y is).
  { intros y Hy. apply bcollect_in in Hy as [Hy|[]]. exact Hy. }
  split; [|split].
  - eapply Forall2_impl; [|exact F1]. cbn. tauto.
  - intros y Hy. apply IN in Hy. destruct (Forall2_In_l _ _ _ _ F2 Hy) as (x & Hx & G & _). exists x. auto.
  - split; [|split]; cbn.
    + intros l Hl. destruct (Forall2_In_l _ _ _ _ F1 Hl) as (? & _ & _ & H). exact H.
    + intros x Hx. apply IN in Hx. destruct (Forall2_In_l _ _ _ _ F2 Hx) as (? & _ & _ & H). exact H.
    + apply bcollect_sorted; [exact site_lt_trans|exact site_lt_tot].
Qed.
End RemapAny.

Lemma merge_into_any shown ck iter l r : iterates iter -> obj_merged shown l -> obj_merged shown r -> tables_fit ck l r ->
  exists m, merge_into ck iter l r = Ok m /\ obj_merged shown m /\
    (forall k s, nfind k (ob_syms m) = Some s -> sy_public s = false ->
       (exists a, nfind k (ob_syms l) = Some a /\ sy_public a = false /\ sy_name s = sy_name a /\ sy_len s = sy_len a /\
          sy_source s = sy_source a /\ same_source l a m s) \/
       (exists b, nfind k (ob_syms r) = Some b /\ sy_public b = false /\ sy_name s = sy_name b /\ sy_len s = sy_len b /\ moved_source l r m b s)) /\
    (forall i t, nthN (ob_origins l) i = Some t -> nthN (ob_origins m) i = Some t) /\
    (ends_fit (ob_syms l) -> ends_fit (ob_syms r) -> ends_fit (ob_syms m)).
Proof.
  intros It (FL & RL & SL) (FR & RR & SR) HF.
  destruct (srcmap_merge_any shown iter l r It SL SR) as (files & o' & remap & EM & SF & KF & RF).
  unfold merge_into. rewrite EM. cbn [bind].
  destruct (merge_inline_origins (ob_origins l) (ob_origins r)) as [ors om] eqn:EO.
  destruct (merge_origins_spec _ _ _ _ EO) as ((more & Em) & _ & HO & _).
  set (mk := fun syms => mkObj syms files ors
        (if ob_stripped r then ob_name r else ob_name l) (ob_cpu l) (ob_debug_id l)
        (match ob_code_id l with Some c => Some c | None => ob_code_id r end)
        (ob_pe_name l) (merge_stack (ob_stack l) (ob_stack r)) (ob_stripped l) (ob_platform l)).
  assert (RS : forall syms s, func_ok r s -> exists s', remap_symbol remap om s = Ok s' /\ same_head (sy_multiple s) s s' /\
      moved_source l r (mk syms) s s' /\ func_ok (mk syms) s').
  { intros syms s Hs. destruct (remap_symbol_any r (mk syms) remap om (file_after l r (mk syms))) with (s := s) as (s' & A & B & C & D & E); auto.
    - intros i Hi. destruct (RF i Hi) as (j & J1 & J2 & J3 & J4). exists j. split; [exact J1|]. split; [|exact J4]. split; [exact J2|split; [exact J3|exact J4]].
    - exists s'. split; [exact A|]. split; [exact B|]. split; [split; [exact C|exact D]|exact E]. }
  destruct (merge_fold_spec ck remap om (ob_syms r) (ob_syms l)) as (M & EF & SM & HM); auto using nsorted_filed.
  { intros k b Hin Pb. apply nfind_In in Hin; [|now apply nsorted_filed].
    destruct (RS [] b) as (b' & E & _); eauto. apply (RR k b Hin Pb). }
  rewrite EF. cbn [bind]. change (mkObj M _ _ _ _ _ _ _ _ _ _) with (mk M). exists (mk M). split; [reflexivity|].
  assert (KO : forall i t, nthN (ob_origins l) i = Some t -> nthN (ob_origins (mk M)) i = Some t).
  { intros i t H. cbn. rewrite Em, nthN_app1; [exact H|]. now apply nthN_some_lt in H. }
  assert (KT : forall i t, file_text l i = Some t -> file_text (mk M) i = Some t) by (intros i t; apply KF).
  assert (RMR : forall k b, nfind k (ob_syms r) = Some b -> sy_public b = false ->
      same_head (sy_multiple b) b (rm remap om b) /\ moved_source l r (mk M) b (rm remap om b) /\ func_ok (mk M) (rm remap om b)).
  { intros k b Hk Pb. destruct (RS M b (RR k b Hk Pb)) as (b' & E & A). unfold rm. rewrite E. exact A. }
  assert (ORI : forall k s, nfind k M = Some s -> sy_public s = false ->
     (exists a, nfind k (ob_syms l) = Some a /\ sy_public a = false /\ sy_source s = sy_source a /\ sy_name s = sy_name a /\ sy_len s = sy_len a) \/
     (exists b, nfind k (ob_syms r) = Some b /\ sy_public b = false /\ sy_source s = sy_source (rm remap om b) /\ sy_name s = sy_name b /\ sy_len s = sy_len b)).
  { intros k s Hs Ps. specialize (HM k). destruct (nfind k (ob_syms r)) as [b|] eqn:Er.
    - destruct HM as (ins & _ & HM). rewrite HM in Hs. unfold step_res in Hs.
      destruct (sy_public b) eqn:Pb.
      + destruct ins; [left; exists s; auto|]. destruct (nfind k (ob_syms l)) as [e|] eqn:El; [|congruence].
        left. destruct (sy_synthetic b); [injection Hs as <-; eauto 8|]. destruct (sy_synthetic e); [congruence|].
        destruct (str_eqb _ _); injection Hs as <-; cbn in Ps |- *; eauto 8.
      + destruct (RMR k b Er Pb) as ((N1 & N2 & N3 & N4 & N5 & N6 & N7) & _).
        destruct (nfind k (ob_syms l)) as [a|] eqn:El.
        * destruct (sy_public a) eqn:Pa; injection Hs as <-.
          -- right. exists b. cbn. auto.
          -- left. exists a. cbn. auto.
        * injection Hs as <-. right. exists b. auto.
    - rewrite HM in Hs. left. exists s. auto. }
  assert (FIL : filed M).
  { split; [exact SM|]. intros k s Hs. specialize (HM k). destruct (nfind k (ob_syms r)) as [b|] eqn:Er.
    - destruct HM as (ins & _ & HM). rewrite HM in Hs. apply step_res_fits in Hs as [(t & Ht & -> & _)|(-> & _)].
      + now apply FL.
      + now apply FR.
    - rewrite HM in Hs. now apply FL. }
  split; [|split; [|split; [exact KO|]]].
  - split; [exact FIL|split; [|exact SF]]. intros k s Hs Ps. destruct (ORI k s Hs Ps) as [(a & A & B & C & _)|(b & A & B & C & _)].
    + eapply (func_ok_keep l); eauto. apply (RL k a A B).
    + destruct (RMR k b A B) as (_ & _ & H). unfold func_ok in *. rewrite C. exact H.
  - intros k s Hs Ps. destruct (ORI k s Hs Ps) as [(a & A & B & C & D & E)|(b & A & B & C & D & E)].
    + left. exists a. splits; auto. apply same_source_keep; auto. apply (RL k a A B).
    + right. exists b. splits; auto. destruct (RMR k b A B) as (_ & H & _). unfold moved_source in *. rewrite C. exact H.
  - intros EL ER k s Hs. specialize (HM k). cbn [ob_syms mk] in Hs. destruct (nfind k (ob_syms r)) as [b|] eqn:Er.
    + destruct HM as (ins & _ & HM). rewrite HM in Hs. apply step_res_fits in Hs as [(t & Ht & -> & ->)|(-> & ->)]; [eapply EL|eapply ER]; eauto.
    + rewrite HM in Hs. eapply EL; eauto.
Qed.

(** *** Chains of any objects *)
Lemma places_self o : places_from_one_of [o] o.
Proof. intros k s A B. exists o, s. splits; auto; [now left|]. intros y Hy. exists y. auto. Qed.
Lemma merge_any shown ck iter acc o : iterates iter -> obj_merged shown acc -> obj_merged shown o -> ob_debug_id o = ob_debug_id acc -> tables_fit ck acc o ->
  exists m, merge_objects ck iter acc o = Ok m /\ obj_merged shown m /\
    (forall k s, nfind k (ob_syms m) = Some s -> sy_public s = false ->
       (exists a, nfind k (ob_syms (larger acc o)) = Some a /\ sy_public a = false /\ sy_name s = sy_name a /\ sy_len s = sy_len a /\
          same_source (larger acc o) a m s) \/
       (exists b, nfind k (ob_syms (smaller acc o)) = Some b /\ sy_public b = false /\ sy_name s = sy_name b /\ sy_len s = sy_len b /\
          moved_source (larger acc o) (smaller acc o) m b s)) /\
    places_from_one_of [acc; o] m /\
    (ends_fit (ob_syms acc) -> ends_fit (ob_syms o) -> ends_fit (ob_syms m)).
Proof.
  intros It OA OO E T. rewrite merge_objects_eq by congruence.
  assert (G : forall l r, obj_merged shown l -> obj_merged shown r -> tables_fit ck l r -> (forall x, In x [l; r] -> In x [acc; o]) ->
    exists m, merge_into ck iter l r = Ok m /\ obj_merged shown m /\
    (forall k s, nfind k (ob_syms m) = Some s -> sy_public s = false ->
       (exists a, nfind k (ob_syms l) = Some a /\ sy_public a = false /\ sy_name s = sy_name a /\ sy_len s = sy_len a /\
          same_source l a m s) \/
       (exists b, nfind k (ob_syms r) = Some b /\ sy_public b = false /\ sy_name s = sy_name b /\ sy_len s = sy_len b /\
          moved_source l r m b s)) /\
    places_from_one_of [acc; o] m /\ (ends_fit (ob_syms l) -> ends_fit (ob_syms r) -> ends_fit (ob_syms m))).
  { clear - It. intros l r Ol Or T I. destruct (merge_into_any shown ck iter l r It Ol Or T) as (m & A & B & C & D & F).
    exists m. split; [exact A|]. split; [exact B|]. split; [|split; [|exact F]].
    - intros k s Hs Ps. destruct (C k s Hs Ps) as [(a & A1 & A2 & A3 & A4 & A5 & A6)|H]; [left; exists a; auto 6|right; exact H].
    - intros k s Hs Ps. destruct (C k s Hs Ps) as [(a & A1 & A2 & A3 & A4 & A5 & A6)|(b & A1 & A2 & A3 & A4 & A5)].
      + exists l, a. splits; auto; [apply I; now left|now rewrite A5|]. intros y Hy. exists y. rewrite A5 in Hy. splits; auto.
        destruct Ol as (_ & RL & _). destruct (RL k a A1 A2) as (_ & H & _). apply H in Hy as (_ & Hy).
        destruct (nthN (ob_origins l) (s_origin (fst y))) eqn:Eo; [|congruence]. now apply D.
      + exists r, b. destruct A5 as (L1 & L2). splits; auto; [apply I; right; now left| |].
        * symmetry. apply Forall2_map_eq. eapply Forall2_impl; [|exact L1]. intros x y (X1 & X2 & X3 & _). unfold says_place. congruence.
        * intros y Hy. destruct (L2 y Hy) as (x & Hx & X1 & X2 & X3 & X4 & _). exists x. auto. }
  destruct (larger_cases acc o) as [[-> ->]|[-> ->]].
  - destruct (G acc o OA OO T) as (m & H); [cbn; tauto|]. exists m. exact H.
  - destruct (G o acc OO OA) as (m & A & B & C & D & F); [destruct T as [|[? ?]]; [now left|right; auto]|cbn; tauto|]. exists m. splits; auto.
Qed.
Lemma places_trans hist acc o m : places_from_one_of hist acc -> places_from_one_of [acc; o] m -> places_from_one_of (hist ++ [o]) m.
Proof.
  intros HA HM k s Hs Ps. destruct (HM k s Hs Ps) as (x & s1 & [<-|[<-|[]]] & A & B & C & D & E & F).
  - destruct (HA k s1 A B) as (y & s2 & G1 & G2 & G3 & G4 & G5 & G6 & G7).
    exists y, s2. splits; auto; try congruence; [apply in_or_app; now left|].
    intros z Hz. destruct (F z Hz) as (w & Hw & W1 & W2 & W3 & W4). destruct (G7 w Hw) as (v & Hv & V1 & V2 & V3 & V4). exists v. splits; congruence.
  - exists o, s1. splits; auto. apply in_or_app. right. now left.
Qed.
Lemma merge_all_any shown ck iter : iterates iter -> forall os acc hist, obj_merged shown acc -> places_from_one_of hist acc ->
  Forall (obj_merged shown) os -> Forall (fun o => ob_debug_id o = ob_debug_id acc) os ->
  (ck = false \/ (ends_fit (ob_syms acc) /\ Forall (fun o => ends_fit (ob_syms o)) os)) ->
  exists m, merge_all ck iter acc os = Ok m /\ obj_merged shown m /\ places_from_one_of (hist ++ os) m /\ ob_debug_id m = ob_debug_id acc /\
    (ends_fit (ob_syms acc) -> Forall (fun o => ends_fit (ob_syms o)) os -> ends_fit (ob_syms m)).
Proof.
  intros It. induction os as [|o os IH]; intros acc hist OA HA FO FD FF.
  - exists acc. rewrite app_nil_r. cbn. auto.
  - inversion FO as [|? ? O1 O2]; subst. inversion FD as [|? ? D1 D2]; subst. cbn [merge_all].
    destruct (merge_any shown ck iter acc o It OA O1 D1) as (m & A & B & _ & C & D).
    { destruct FF as [|[? F]]; [now left|right]. inversion F; subst. auto. }
    rewrite A. cbn [bind]. pose proof (merge_fields _ _ _ _ _ A) as (Dm & _).
    destruct (IH m (hist ++ [o])) as (m2 & A2 & B2 & C2 & D3 & E2); auto.
    + eapply places_trans; eauto.
    + eapply Forall_impl; [|exact D2]. cbn. intros; congruence.
    + destruct FF as [|[FA F]]; [now left|right]. inversion F; subst. split; [now apply D|assumption].
    + exists m2. rewrite <- app_assoc in C2. splits; auto; [congruence|]. intros EA EF. inversion EF; subst. apply E2; auto.
Qed.
