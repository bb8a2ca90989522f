(** Several files end to end. *)
From Verif Require Import Base BMap Str M_Path M_Line M_Source M_Symbol M_Collector M_Object M_Fs M_Cache M_Store M_Input M_Sched M_Cli M_Many
  S_Source S_Symbol S_Collector S_Object S_Format S_Sched S_Many P_Object P_From P_Merge P_Format P_Sched P_Run P_Ends P_Many.

Lemma fresh_from e pl main mn pe pn o ps : sort_perm (re_sort e) -> sane ps -> parsed_from ps main -> from_object e pl main mn pe pn = Ok o -> fresh (run_shown e) o.
Proof. intros S P F H. destruct (P main F) as (A & B). exists e, pl, main, mn, pe, pn. auto 10. Qed.

Lemma next_ok {A B} (r : FS * res A) (f : FS -> A -> FS * res B) b : snd (next r f) = Ok b -> exists fs a, r = (fs, Ok a) /\ snd (f fs a) = Ok b.
Proof. destruct r as [fs [a|m|m]]; cbn; [eauto|discriminate|discriminate]. Qed.

Lemma info_fresh x e fs buf path name arch server o : sort_perm (re_sort e) -> sane (ex_ps x) ->
  snd (get_object_info x e fs buf path name arch server) = Ok o -> exists shown, fresh shown o.
Proof.
  intros S P H. assert (S' : sort_perm (re_sort (plain_env e))) by exact S. unfold get_object_info in H. destruct (ps_peek (ex_ps x) buf).
  - cbn in H. unfold from_elf in H. destruct (ps_object (ex_ps x) buf) as [p|] eqn:E; [|discriminate].
    assert (PF : parsed_from (ex_ps x) p) by (exists buf; auto). exact (ex_intro (fun shown => fresh shown o) _ (fresh_from _ _ _ _ _ _ _ _ S P PF H)).
  - cbn in H. unfold get_pdb_object_info in H. destruct (ps_pdb (ex_ps x) buf) as [p|] eqn:E; [|discriminate]. apply bind_ok in H as (r & _ & H).
    assert (PF : parsed_from (ex_ps x) (pd_obj p)) by (exists buf; right; right; left; eauto).
    destruct r as [[n b]|]; [destruct (ps_pe (ex_ps x) b); [|discriminate]|]; exact (ex_intro (fun shown => fresh shown o) _ (fresh_from _ _ _ _ _ _ _ _ S P PF H)).
  - assert (G : snd (fs, get_pe_object_info x e buf name) = Ok o -> exists shown, fresh shown o).
    { cbn. unfold get_pe_object_info. destruct (ps_pe (ex_ps x) buf) as [p|] eqn:E; [|discriminate]. intros H'.
      assert (PF : parsed_from (ex_ps x) (pf_obj p)) by (exists buf; right; left; eauto). exact (ex_intro (fun shown => fresh shown o) _ (fresh_from _ _ _ _ _ _ _ _ S' P PF H')). }
    unfold get_pe_pdb_object_info in H. destruct (bind (get_sym_servers _ _ _ _) _) as [[[[[pe d] n]|] fs']|m|m]; [|exact (G H)|exact (G H)|discriminate].
    destruct (ps_pdb (ex_ps x) d) as [p|] eqn:E; [|exact (G H)].
    assert (PF : parsed_from (ex_ps x) (pd_obj p)) by (exists d; right; right; left; eauto).
    destruct (from_pdb e p n (Some name) (Some pe)) eqn:E2; cbn in H; [|exact (G H)|discriminate]. injection H as ->. exact (ex_intro (fun shown => fresh shown o) _ (fresh_from _ _ _ _ _ _ _ _ S P PF E2)).
  - cbn in H. unfold from_macho in H. destruct (ps_archive (ex_ps x) buf) as [l|] eqn:E; [|discriminate]. apply bind_ok in H as (p & Hp & H).
    destruct p as [p|]; [|discriminate].
    assert (PF : parsed_from (ex_ps x) p); [|exact (ex_intro (fun shown => fresh shown o) _ (fresh_from _ _ _ _ _ _ _ _ S P PF H))]. exists buf. right; right; right. exists l.
    assert (G : Ok (option_map snd (find (fun o => fst o =? arch) (filter_map (fun o => o) l))) = Ok (Some p) -> exists a, In (Some (a, p)) l).
    { clear. intros [= H]. destruct (find _ _) as [[a q]|] eqn:F; [|discriminate]. injection H as ->. apply find_some in F as (F & _). exists a.
      induction l as [|[y|] l IH]; cbn in F; [easy| |]; [destruct F as [->|F]; [now left|right; auto]|right; auto]. }
    assert (G' : exists a, In (Some (a, p)) l); [|destruct G' as (a & Ha); eauto].
    unfold select_object in Hp. destruct l as [|[[a q]|] [|z l]]; try discriminate; auto. injection Hp as ->. exists a. now left.
  - discriminate.
Qed.
Lemma job_fresh x e m arch inl fs f o : sort_perm (re_sort e) -> sane (ex_ps x) -> snd (get_job x e m arch inl fs f) = Ok o -> exists shown, fresh shown o.
Proof.
  intros S P H. unfold get_job in H. apply next_ok in H as (fs1 & n & _ & H). apply next_ok in H as (fs2 & b & _ & H). eapply info_fresh; [| |exact H]; auto.
Qed.

Lemma F2_length {A B} (R : A -> B -> Prop) l l' : Forall2 R l l' -> length l = length l'.
Proof. induction 1; cbn; congruence. Qed.
Section Order.
Variables (ck : bool) (iter : list (str * N) -> list (str * N)) (proc : str -> res Obj) (st : Obj -> res unit -> Prop).
Let S := dump_sys ck iter proc st.
Lemma order_merged g m : merge_in_order S g m -> exists os, Forall2 (fun f o => proc f = Ok o) g os /\ merged_from ck iter os m /\ Forall (fun o => ob_debug_id o = ob_debug_id m) os.
Proof.
  induction 1 as [f d P|f d g prev m M IH P K E].
  - exists [d]. splits; [constructor; [exact P|constructor]|constructor|constructor; [reflexivity|constructor]].
  - destruct IH as (os & F & MF & ID). exists (d :: os). cbn in K, E. pose proof (merge_fields _ _ _ _ _ E) as Mf. cbv zeta in Mf. destruct Mf as (I1 & I2 & _). splits.
    + constructor; auto.
    + apply (mf_two ck iter [d] os d prev m); auto. constructor.
    + constructor; [now symmetry|]. rewrite I2. exact ID.
Qed.
Lemma made files m g : merge_in_order S g m -> Permutation g (group S files (ob_debug_id m)) -> exists os, made_from ck iter proc files m os.
Proof.
  intros M P. destruct (order_merged g m M) as (os & F & MF & ID). exists os. split; [exact MF|]. splits.
  - intros o Ho. destruct (Forall2_In_l _ _ _ _ F Ho) as (f & Hf & Pf). exists f. rewrite Forall_forall in ID. splits; auto.
    apply (Permutation_in _ P) in Hf. unfold group in Hf. now apply filter_In in Hf.
  - intros f o Hf Pf E. assert (Hg : In f g).
    { apply (Permutation_in _ (Permutation_sym P)). unfold group. apply filter_In. split; [exact Hf|]. unfold has_key. cbn. rewrite Pf, E. apply str_eqb_refl. }
    clear - F Hg Pf. induction F as [|f' o' g os H F IH]; [easy|]. destruct Hg as [->|Hg]; [left; congruence|right; auto].
  - rewrite <- (F2_length _ _ _ F). rewrite (Permutation_length P). unfold group, has_key. reflexivity.
Qed.
End Order.

Section Works.
Variables (ck : bool) (iter : list (str * N) -> list (str * N)) (proc : str -> res Obj) (st : Obj -> res unit -> Prop) (files : list str).
Let S := dump_sys ck iter proc st.
Lemma dump_kept : key_kept S.
Proof. intros x y m _ E. cbn in E. pose proof (merge_fields _ _ _ _ _ E) as Mf. cbv zeta in Mf. now destruct Mf. Qed.
(** Two runs. *)
Lemma order_unique g g' m m' k : pairs proc files -> Permutation g (group S files k) -> Permutation g' (group S files k) ->
  merge_in_order S g m -> merge_in_order S g' m' -> m = m'.
Proof.
  intros PA P P' M M'. destruct (PA k) as (L & D). change (files_of proc k files) with (group S files k) in L, D.
  assert (LG : length g = length (group S files k)) by now apply Permutation_length. assert (LG' : length g' = length (group S files k)) by now apply Permutation_length.
  assert (ONE : forall f d, merge_in_order S [f] d -> proc f = Ok d).
  { intros f d H. inversion H as [? ? Q|? ? ? ? ? Q]; subst; [exact Q|inversion Q]. }
  assert (TWO : forall f h d, merge_in_order S [f; h] d -> exists a b, proc f = Ok a /\ proc h = Ok b /\ ob_debug_id a = ob_debug_id b /\ merge_objects ck iter a b = Ok d).
  { intros f h d H. inversion H as [|? a ? b ? Q R K E]; subst. apply ONE in Q. exists a, b. auto. }
  destruct (group S files k) as [|f1 [|f2 [|f3 l]]] eqn:GE; cbn [length] in *; [..|lia].
  - apply Permutation_sym, Permutation_nil in P. subst g. inversion M.
  - apply Permutation_sym, Permutation_length_1_inv in P. apply Permutation_sym, Permutation_length_1_inv in P'. subst g g'. apply ONE in M, M'. congruence.
  - apply Permutation_sym, Permutation_length_2_inv in P. apply Permutation_sym, Permutation_length_2_inv in P'.
    assert (SY : forall a b : Obj, ob_debug_id a = ob_debug_id b -> lenN (ob_syms a) <> lenN (ob_syms b) -> merge_objects ck iter a b = merge_objects ck iter b a).
    { intros a b E N. rewrite !merge_objects_eq by congruence. unfold larger, smaller.
      destruct (lenN (ob_syms b) <? lenN (ob_syms a)) eqn:L1, (lenN (ob_syms a) <? lenN (ob_syms b)) eqn:L2; try lia; reflexivity. }
    assert (EQ : exists r, forall h d, (h = [f1; f2] \/ h = [f2; f1]) -> merge_in_order S h d -> r = Ok d).
    { destruct (proc f1) as [o1| |] eqn:P1; [|exists (Panic ""); intros h d [ -> | -> ] H; apply TWO in H as (a & b & X & Y & _); congruence..].
      destruct (proc f2) as [o2| |] eqn:P2; [|exists (Panic ""); intros h d [ -> | -> ] H; apply TWO in H as (a & b & X & Y & _); congruence..].
      exists (merge_objects ck iter o1 o2). intros h d [ -> | -> ] H; apply TWO in H as (a & b & X & Y & K & E).
      - congruence.
      - assert (a = o2) by congruence. assert (b = o1) by congruence. subst a b. rewrite SY; [exact E|now symmetry|]. exact (D f1 f2 o1 o2 eq_refl P1 P2). }
    destruct EQ as (r & EQ). pose proof (EQ g m P M). pose proof (EQ g' m' P' M'). congruence.
Qed.
Lemma runs_agree jobs jobs' s s' : pairs proc files -> (1 <= jobs)%nat -> (1 <= jobs')%nat ->
  reach S (Nat.min jobs (length files)) (start jobs files) s -> complete s -> exits_ok s ->
  reach S (Nat.min jobs' (length files)) (start jobs' files) s' -> complete s' -> exits_ok s' -> Permutation (stored s) (stored s').
Proof.
  intros PA J J' R C X R' C' X'.
  assert (IN : forall jobs jobs' s s', (1 <= jobs)%nat -> (1 <= jobs')%nat ->
    reach S (Nat.min jobs (length files)) (start jobs files) s ->
    reach S (Nat.min jobs' (length files)) (start jobs' files) s' -> complete s' -> exits_ok s' -> forall d, In d (stored s) -> In d (stored s')).
  { clear - PA. intros jobs jobs' s s' J J' R R' C' X' d Hd. destruct (at_most_once S jobs files s dump_kept R) as (_ & A). destruct (A d Hd) as (g & M & P).
    assert (NE : exists f, In f g) by (destruct g as [|f g]; [inversion M|exists f; now left]). destruct NE as (f & Hf).
    apply (Permutation_in _ P) in Hf. pose proof Hf as Hf2. unfold group in Hf2. apply filter_In in Hf2 as (Ff & Kf).
    destruct (exactly_once_any S jobs' files s' dump_kept (or_introl J') R' C' X') as (_ & B). destruct (B f Ff) as (o & m & g' & Po & Hm & Km & M' & P').
    unfold has_key in Kf. rewrite Po in Kf. apply str_eqb_eq in Kf. rewrite Kf in P'. rewrite (order_unique g g' d m _ PA P P' M M'). exact Hm. }
  assert (ND : forall jobs s, reach S (Nat.min jobs (length files)) (start jobs files) s -> NoDup (stored s)).
  { clear. intros jobs s R. destruct (at_most_once S jobs files s dump_kept R) as (A & _). eapply NoDup_map_inv; eauto. }
  apply NoDup_Permutation; eauto. intros d. split; [eapply (IN jobs jobs')|eapply (IN jobs' jobs)]; eauto.
Qed.
Hypothesis FR : forall f o, In f files -> proc f = Ok o -> exists shown, fresh shown o.
Lemma dump_merges : iterates iter -> (forall f o, In f files -> proc f = Ok o -> ck = false \/ ends_fit (ob_syms o)) -> merges S files.
Proof.
  intros It G. exists (fun d => exists os, Forall (same_module ck (ob_debug_id d)) os /\ merged_from ck iter os d). split.
  - intros f d F P. cbn in P. exists [d]. split; [|constructor]. constructor; [|constructor]. split; [exact (FR f d F P)|]. split; [reflexivity|exact (G f d F P)].
  - intros x y (a & Fa & Ma) (b & Fb & Mb) K. cbn in K |- *. rewrite <- K in Fb. destruct (merged_total ck iter _ a b x y It Fa Fb Ma Mb) as (m & E). exists m. split; [exact E|].
    exists (a ++ b). pose proof (merge_fields _ _ _ _ _ E) as Mf. cbv zeta in Mf. destruct Mf as (-> & _). split; [now apply Forall_app|]. econstructor; eauto.
Qed.
Lemma dump_works : iterates iter -> good_input ck proc st files -> works S files.
Proof.
  intros It (G & ST). unfold works. splits.
  - intros f F. destruct (G f F) as (o & P & _). exists o. exact P.
  - apply dump_merges; [exact It|]. intros f o F P. destruct (G f F) as (o' & P' & Fi). congruence.
  - exact ST.
Qed.
Lemma made_same m os : good_input ck proc st files -> made_from ck iter proc files m os -> Forall (same_module ck (ob_debug_id m)) os.
Proof.
  intros (G & _) (_ & A & _). apply Forall_forall. intros o Ho. destruct (A o Ho) as (f & Hf & Pf & E). destruct (G f Hf) as (o' & P' & Fi).
  assert (o' = o) by congruence. subst o'. split; [exact (FR f o Hf Pf)|auto].
Qed.
End Works.
