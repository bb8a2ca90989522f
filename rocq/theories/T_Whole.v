(** Theorems C83 and C84: the program on several files, from the arguments to the
    files in the store, and how its runs end. *)
From Verif Require Import Base BMap Str Utf8 M_Path M_Line M_Source M_Symbol M_Collector M_Object M_Fs M_Cache M_Store M_Input M_Sched M_Cli M_Args M_Many M_Shared M_Main
  S_Path S_Fs S_Symbol S_Collector S_Object S_Store S_Sched S_Many S_Shared S_Cli S_Main S_Whole P_Fs P_Store P_Sched P_Run P_Ends P_Shared P_Path P_Progress P_Cli P_Main
  T_Object T_Sched T_Input T_Cli T_Many T_Shared T_Main.
From Verif Require P_Several.

(** ** C48, C84: how runs end *)
(** When every file can be processed and storing works, and there are two workers
    or only one module, some schedule completes the run. *)
Theorem C48_can_complete : forall I (S : Sys I) jobs files, key_kept S -> works S files -> files <> [] -> (1 <= jobs)%nat ->
  (2 <= Nat.min jobs (length files))%nat \/ ~ two_groups S files ->
  exists s, reach S (Nat.min jobs (length files)) (start jobs files) s /\ complete s /\ exits_ok s.
Proof.
  intros I S jobs files KK W NE J1 J. destruct (can_complete S jobs files KK W NE J1 J) as (s & Ca & C & X). exists s. splits; [eapply calm_reach; eauto|exact C|exact X].
Qed.
Print Assumptions C48_can_complete.
(** With workers that store at the same time, too, there is no run without end:
    sooner or later nothing can be done. *)
Theorem C84_finite : forall u jobs (files : list str) (ks : nat -> Work), ~ (forall i, exists drain t, (forall l, Permutation (drain l) (map snd l)) /\
  work_step u (Nat.min jobs (length files)) drain t (ks i) = Some (ks (S i))).
Proof.
  intros u jobs files ks H.
  assert (X : forall k, Acc (may_follow u (Nat.min jobs (length files))) k -> forall i, ks i <> k).
  { induction 1 as [k _ IH]. intros i E. apply (IH (ks (S i))) with (i := S i); [|reflexivity]. rewrite <- E. apply H. }
  now apply (X (ks O) (follow_wf u jobs files (ks O)) O).
Qed.
Print Assumptions C84_finite.
(** And then either the program has ended, having stored a module for every file
    (C80_complete), or it hangs: a single worker waits for itself, or the
    counter of files was got wrong (C48, C50), or there are no workers. *)
Theorem C84_stuck : forall u jobs files fs0 R dir w k, sort_perm (re_sort (u_env u)) -> sane (ex_ps (u_ext u)) -> iterates (u_iter u) ->
  steady u files fs0 R -> w_fs w = fs0 ->
  u_out u = OStore dir -> dir <> [] -> (forall l, os_may (u_os u) l = true) -> (forall d, candidate u files fs0 d -> storable u dir R d) -> all_read u files fs0 ->
  worked u (Nat.min jobs (length files)) (work_start w jobs files) k ->
  (forall drain t, (forall l, Permutation (drain l) (map snd l)) -> work_step u (Nat.min jobs (length files)) drain t k = None) ->
  (complete (k_threads k) /\ exits_ok (k_threads k)) \/
  (~ ended (k_threads k) /\ k_world k = set_fs w (w_fs (k_world k)) /\
   (s_workers (k_threads k) = [] \/ length (s_workers (k_threads k)) = 1%nat \/ stored (k_threads k) = [])).
Proof.
  intros u jobs files fs0 R dir w k SP SA It ST E OUT DIR MAY CAN G W N.
  destruct (C80_store u jobs files fs0 R dir w k ST E OUT DIR MAY CAN W) as (L & _ & O1 & O2).
  assert (RS : reach (several_sys (u_ext u) (u_env u) (u_iter u) (u_map u) (u_arch u) (u_inl u) fs0 (fun _ r => r = Ok tt)) (Nat.min jobs (length files)) (start jobs files) (k_threads k)).
  { eapply (proj1 (C80_threads u jobs files fs0 R w k (fun r => r = Ok tt) ST E W eq_refl _)). Unshelve. intros d r X. now destruct (L d r X). }
  assert (GI : good_input (re_ck (u_env u)) (fun f => snd (u_job u fs0 f)) (fun _ r => r = Ok tt) files) by (split; [exact G|intros; reflexivity]).
  destruct (C63_works (u_ext u) (u_env u) (u_iter u) (u_map u) (u_arch u) (u_inl u) fs0 (fun _ r => r = Ok tt) files SP SA It GI) as (KK & WK).
  assert (DE : ended (k_threads k) \/ ~ ended (k_threads k)) by (unfold ended; destruct (s_main (k_threads k)); auto; right; intros [X|X]; discriminate).
  destruct DE as [EN|EN]; [left; exact (complete_ok _ jobs files _ KK WK RS EN)|right].
  assert (B : blocked (several_sys (u_ext u) (u_env u) (u_iter u) (u_map u) (u_arch u) (u_inl u) fs0 (fun _ r => r = Ok tt)) (Nat.min jobs (length files)) (k_threads k)).
  { apply (stuck_blocked u jobs files fs0 R w ST E (fun r => r = Ok tt) k W); [|exact EN]. intros k' (drain & t & P & H). rewrite (N drain t P) in H. discriminate. }
  splits; [exact EN| |].
  - destruct (k_world k) as [f1 o1 e1]. cbn [w_out w_err] in O1, O2. subst o1 e1. reflexivity.
  - destruct (blocked_causes _ jobs files _ KK WK RS B) as [(X & _)|[(m & ms & X & _)|(_ & _ & _ & _ & _ & X)]]; auto. right. left. now rewrite X.
Qed.
Print Assumptions C84_stuck.

(** ** C83: the program *)
Lemma jobs_unique m c j : jobs_asked m c j -> j = num_jobs (ma_cpus m) (ar_jobs (cm_args c)).
Proof. intros [H|(H & ->)]; symmetry; [now apply jobs_number|now apply jobs_default]. Qed.
Lemma program_several m argv w v n c p a out : asks_several m argv (w_fs w) c p a out ->
  let jobs := N.to_nat (num_jobs (ma_cpus m) (ar_jobs (cm_args c))) in let files := ar_files (cm_args c) in
  program m argv w v n <-> exists k, worked (used m c p a out) (Nat.min jobs (length files)) (work_start w jobs files) k /\ v = k_world k /\
    ((complete (k_threads k) /\ n = 0%N) \/ (s_main (k_threads k) = MPanic /\ n = 101%N)).
Proof.
  intros (G & L2 & L & X & Ho & Ea & Em). cbv zeta. destruct (ar_files (cm_args c)) as [|f [|g t]] eqn:F; try (cbn in L2; lia).
  rewrite (C75_several m argv w c f g t v n G F L X out Ho). split.
  - intros H. inversion H as [r E N|q E N|q b k E Ec W M|q b k E Ec W M]; subst; cbn [config_of cf_map cf_arch] in *.
    + elim (N p). exact Em.
    + congruence.
    + assert (q = p) by congruence. subst q. assert (b = a) by congruence. subst b. exists k. splits; [exact W|reflexivity|]. left. split; [exact M|reflexivity].
    + assert (q = p) by congruence. subst q. assert (b = a) by congruence. subst b. exists k. splits; [exact W|reflexivity|]. right. split; [exact M|reflexivity].
  - intros (k & W & -> & [(M & ->)|(M & ->)]).
    + change 0%N with (exit_code (Ok tt)). apply (sv_done _ _ _ _ _ _ p a); [exact Em|exact Ea|exact W|exact M].
    + change 101%N with (exit_code (Panic "called `Result::unwrap()` on an `Err` value")). apply (sv_panic _ _ _ _ _ _ p a); [exact Em|exact Ea|exact W|exact M].
Qed.
(** A run that has ended has processed every file. *)
Lemma whole_end u jobs files fs0 R w k fs1 : sort_perm (re_sort (u_env u)) -> sane (ex_ps (u_ext u)) -> iterates (u_iter u) -> (1 <= jobs)%nat -> (2 <= length files)%nat ->
  steady u files fs0 R -> w_fs w = fs0 -> all_read u files fs0 -> (forall d r, In (d, r) (h_log (s_shared (k_threads k))) -> r = Ok tt) ->
  worked u (Nat.min jobs (length files)) (work_start w jobs files) k -> ended (k_threads k) -> partly u files fs0 (k_threads k) fs1 -> processed u files fs0 fs1.
Proof.
  intros SP SA It J L2 ST E G L W EN PA.
  assert (RS : reach (several_sys (u_ext u) (u_env u) (u_iter u) (u_map u) (u_arch u) (u_inl u) fs0 (fun _ r => r = Ok tt)) (Nat.min jobs (length files)) (start jobs files) (k_threads k)).
  { eapply (proj1 (C80_threads u jobs files fs0 R w k (fun r => r = Ok tt) ST E W eq_refl _)). Unshelve. exact L. }
  assert (GI : good_input (re_ck (u_env u)) (fun f => snd (u_job u fs0 f)) (fun _ r => r = Ok tt) files) by (split; [exact G|intros; reflexivity]).
  destruct (C63_stored (u_ext u) (u_env u) (u_iter u) (u_map u) (u_arch u) (u_inl u) fs0 (fun _ r => r = Ok tt) jobs files (k_threads k) SP SA It J GI RS EN) as (_ & _ & _ & AF).
  destruct files as [|f fl]; [cbn in L2; lia|]. destruct (G f (or_introl eq_refl)) as (o & Po & _). destruct (AF f o (or_introl eq_refl) Po) as (d & Hd & _).
  eapply partly_all; [exact PA|]. left. exact Hd.
Qed.
(** Several files and [--store]: if the program ends its status is 0, and for every
    file the store has the text of the module made of it and the other files
    with its debug id; nothing else has changed but what processing the files
    makes (downloads) and directories above the files in the store. *)
Theorem C83_store : forall m argv w v n c p a dir R, let u := used m c p a (OStore dir) in let files := ar_files (cm_args c) in
  asks_several m argv (w_fs w) c p a (OStore dir) -> dir <> [] -> sort_perm (re_sort (ma_env m)) -> sane (ex_ps (ma_ext m)) -> iterates (ma_iter m) ->
  (forall l, os_may (u_os u) l = true) -> steady u files (w_fs w) R -> (forall d, candidate u files (w_fs w) d -> storable u dir R d) -> all_read u files (w_fs w) ->
  program m argv w v n ->
  n = 0%N /\ w_out v = w_out w /\ w_err v = w_err w /\
  (forall f o, In f files -> snd (u_job u (w_fs w) f) = Ok o -> exists d l text, candidate u files (w_fs w) d /\ ob_debug_id d = ob_debug_id o /\
     stored_at (u_os u) dir d l /\ fmt_object (info_of m c) d = Ok text /\ file_has (u_os u) text v l) /\
  exists fs1, R fs1 /\ processed u files (w_fs w) fs1 /\ forall l, fs_get (w_fs v) l <> fs_get fs1 l -> exists d t x, candidate u files (w_fs w) d /\ stored_at (u_os u) dir d t /\ t = x ++ l /\
    (x <> [] -> fs_get fs1 l = None /\ fs_get (w_fs v) l = Some NDir).
Proof.
  intros m argv w v n c p a dir R u files A DIR SP SA It MAY ST CAN G P. pose proof A as (_ & L2 & _). apply (program_several m argv w v n c p a (OStore dir) A) in P. cbv zeta in P. fold u files in P, L2.
  set (jobs := N.to_nat (num_jobs (ma_cpus m) (ar_jobs (cm_args c)))) in *. destruct P as (k & W & -> & Q).
  assert (EN : ended (k_threads k)) by (destruct Q as [(Q & _)|(Q & _)]; [left|right]; exact Q).
  pose proof (C80_store u jobs files (w_fs w) R dir w k ST eq_refl eq_refl DIR MAY CAN W) as (L & (fs1 & R1 & PA & OS) & O1 & O2).
  assert (J : (1 <= jobs)%nat).
  { destruct jobs as [|j]; [|lia]. exfalso.
    assert (RS : reach (several_sys (u_ext u) (u_env u) (u_iter u) (u_map u) (u_arch u) (u_inl u) (w_fs w) (fun _ r => r = Ok tt)) (Nat.min 0 (length files)) (start 0 files) (k_threads k)).
    { eapply (proj1 (C80_threads u 0 files (w_fs w) R w k (fun r => r = Ok tt) ST eq_refl W eq_refl _)). Unshelve. intros d r X. now destruct (L d r X). }
    now apply (none_blocks _ _ _ RS L2). }
  destruct (C80_complete u jobs files (w_fs w) R dir w k SP SA It J ST eq_refl eq_refl DIR MAY CAN G W EN) as (C & _ & F).
  splits; [|exact O1|exact O2|exact F|].
  - destruct Q as [(_ & ->)|(Q & _)]; [reflexivity|]. unfold complete in C. rewrite C in Q. discriminate.
  - exists fs1. split; [exact R1|]. split. { eapply whole_end; eauto. intros d r Y. now destruct (L d r Y). } intros l Nl. pose proof (worked_basic u jobs files (w_fs w) R ST w k eq_refl W) as B. destruct (OS l) as [H|[(H1 & H2 & d & t & x & Bd & Sd & Et & Nx)|(d & Bd & Sd & Nd)]]; [contradiction| |].
    + exists d, t, x. splits; auto. eapply begun_candidate; eauto.
    + exists d, l, []. splits; auto; [eapply begun_candidate; eauto|easy].
Qed.
Print Assumptions C83_store.
(** With two workers or only one module, there is such an end. *)
Theorem C83_can_end : forall m argv w c p a dir R j, let u := used m c p a (OStore dir) in let files := ar_files (cm_args c) in
  asks_several m argv (w_fs w) c p a (OStore dir) -> dir <> [] -> sort_perm (re_sort (ma_env m)) -> sane (ex_ps (ma_ext m)) -> iterates (ma_iter m) ->
  (forall l, os_may (u_os u) l = true) -> steady u files (w_fs w) R -> (forall d, candidate u files (w_fs w) d -> storable u dir R d) -> all_read u files (w_fs w) ->
  jobs_asked m c j ->
  (2 <= j)%N \/ (1 <= j)%N /\ (forall f g o o', In f files -> In g files -> snd (u_job u (w_fs w) f) = Ok o -> snd (u_job u (w_fs w) g) = Ok o' -> ob_debug_id o = ob_debug_id o') ->
  exists v, program m argv w v 0.
Proof.
  intros m argv w c p a dir R j u files A DIR SP SA It MAY ST CAN G JA JJ. pose proof A as (_ & L2 & _). fold files in L2. apply jobs_unique in JA.
  set (jobs := N.to_nat (num_jobs (ma_cpus m) (ar_jobs (cm_args c)))).
  assert (ANS : forall k, worked u (Nat.min jobs (length files)) (work_start w jobs files) k -> forall d r, In (d, r) (h_log (s_shared (k_threads k))) -> r = Ok tt).
  { intros k W d r X. destruct (C80_store u jobs files (w_fs w) R dir w k ST eq_refl eq_refl DIR MAY CAN W) as (L & _). now destruct (L d r X). }
  assert (GI : good_input (re_ck (u_env u)) (fun f => snd (u_job u (w_fs w) f)) (fun _ r => r = Ok tt) files) by (split; [exact G|intros; reflexivity]).
  destruct (C63_works (u_ext u) (u_env u) (u_iter u) (u_map u) (u_arch u) (u_inl u) (w_fs w) (fun _ r => r = Ok tt) files SP SA It GI) as (KK & WK).
  destruct (can_end u jobs files (w_fs w) R w ST eq_refl ANS WK) as (k & W & C & _).
  - intros X. rewrite X in L2. cbn in L2. lia.
  - unfold jobs. rewrite <- JA. lia.
  - destruct JJ as [JJ|(_ & JJ)]; [left; unfold jobs; rewrite <- JA; lia|right]. intros (f1 & d1 & f2 & d2 & F1 & F2 & P1 & P2 & N). apply N. exact (JJ f1 f2 d1 d2 F1 F2 P1 P2).
  - exists (k_world k). apply (program_several m argv w _ _ c p a (OStore dir) A). exists k. splits; [exact W|reflexivity|]. left. split; [exact C|reflexivity].
Qed.
Print Assumptions C83_can_end.
Lemma only_file ck iter proc files d os f o : files_of proc (ob_debug_id o) files = [f] -> proc f = Ok o -> ob_debug_id d = ob_debug_id o -> made_from ck iter proc files d os -> d = o.
Proof.
  intros U P E (M & A & _ & Len). rewrite E in Len. unfold files_of in U. rewrite U in Len. destruct os as [|x [|y os]]; try discriminate. apply merged_single in M. subst d.
  destruct (A x (or_introl eq_refl)) as (g & Fg & Pg & Eg). assert (In g [f]) as [->|[]]; [|congruence]. rewrite <- U. apply filter_In. split; [exact Fg|]. rewrite Pg, E. apply str_eqb_refl.
Qed.
Lemma sp_sym_unique n f g : sp_sym n f -> sp_sym n g -> f = g.
Proof.
  intros [(b & e & E & C & ->)|(N & ->)] [(b' & e' & E' & C' & ->)|(N' & ->)]; trivial.
  - rewrite E in E'. apply dot_split_unique in E' as [-> _]; [reflexivity| |]; eapply ci_no_dot; eauto; vm_compute; intuition discriminate.
  - exfalso. exact (N' _ _ E C).
  - exfalso. exact (N _ _ E' C').
Qed.
Lemma sp_base_unique n f g : sp_base n f -> sp_base n g -> f = g.
Proof.
  intros [(b & e & o & t & B & E & I & C & ->)|(N & ->)] [(b' & e' & o' & t' & B' & E' & I' & C' & ->)|(N' & ->)]; trivial.
  - assert (D : forall o t, In (o, t) [(lit "pd_", lit "pdb"); (lit "ex_", lit "exe"); (lit "dl_", lit "dll")] -> ~ In 46%N o)
      by (intros ? ? [X|[X|[X|[]]]]; injection X as <- <-; vm_compute; intuition discriminate).
    rewrite E in E'. apply dot_split_unique in E' as [-> ->]; [|eapply ci_no_dot; eauto|eapply ci_no_dot; eauto]. f_equal. f_equal.
    assert (o = o') as ->; [|].
    + destruct I as [X|[X|[X|[]]]], I' as [X'|[X'|[X'|[]]]]; injection X as <- <-; injection X' as <- <-; trivial; exfalso;
        (apply lower_ci in C; [|cbn; repeat (constructor; [lia|]); constructor]); (apply lower_ci in C'; [|cbn; repeat (constructor; [lia|]); constructor]); rewrite C in C'; vm_compute in C'; discriminate.
    + destruct I as [X|[X|[X|[]]]], I' as [X'|[X'|[X'|[]]]]; injection X as X1 X2; injection X' as X1' X2'; rewrite <- X1 in X1'; try (vm_compute in X1'; discriminate); congruence.
  - exfalso. exact (N' _ _ _ _ B E I C).
  - exfalso. exact (N _ _ _ _ B' E' I' C').
Qed.
(** A file whose debug id no other file has: the file in the store is, byte for
    byte, that of a run of the program for this file alone. *)
Theorem C83_as_alone : forall m argv w v n c p a dir R f o argv1 c1 v1, let u := used m c p a (OStore dir) in let files := ar_files (cm_args c) in
  asks_several m argv (w_fs w) c p a (OStore dir) -> dir <> [] -> sort_perm (re_sort (ma_env m)) -> sane (ex_ps (ma_ext m)) -> iterates (ma_iter m) -> healthy (u_os u) ->
  (forall l, os_may (u_os u) l = true) -> steady u files (w_fs w) R -> (forall d, candidate u files (w_fs w) d -> storable u dir R d) -> all_read u files (w_fs w) ->
  In f files -> snd (u_job u (w_fs w) f) = Ok o -> files_of (fun g => snd (u_job u (w_fs w) g)) (ob_debug_id o) files = [f] ->
  command (ma_target m) argv1 = Got c1 -> same_but_one c f c1 ->
  program m argv w v n -> program m argv1 w v1 0 ->
  exists l data, stored_at (u_os u) dir o l /\ fs_get (w_fs v) l = Some (NFile data) /\ fs_get (w_fs v1) l = Some (NFile data).
Proof.
  intros m argv w v n c p a dir R f o argv1 c1 v1 u files A DIR SP SA It He MAY ST CAN G Ff Pf U G1 S1 P P1.
  destruct (C83_store m argv w v n c p a dir R A DIR SP SA It MAY ST CAN G P) as (_ & _ & _ & F & _).
  destruct (F f o Ff Pf) as (d & l & text & (os & Md) & Ed & Sd & Td & Hd). pose proof Md as Cd. apply (only_file _ _ _ _ _ _ f o) in Md; [subst d|exact U|exact Pf|exact Ed].
  assert (Pr : proper (ob_name o) /\ proper (ob_debug_id o)) by (destruct (CAN o) as (X1 & X2 & _); [now exists os|auto]).
  destruct A as (_ & _ & L & X & Ho & Ea & Em). destruct S1 as (F1 & E1 & E2 & E3 & E4 & E5 & E6 & E7 & E8 & E9 & E10 & E11 & E12 & E13 & E14 & E15).
  apply output_unique in Ho.
  inversion P1 as [| |c' f' w1 n1 G' F' M|c' f' g' t' s' G' F' |c' f' g' t' info level w1 n1 G' F' |c' f' g' t' info out jobs level w1 n1 G' F']; subst; try congruence.
  assert (c' = c1) by congruence. subst c'. assert (f' = f) by congruence. subst f'.
  assert (Cf : config_of m (w_fs w) c1 (select_output (ar_output (cm_args c1)) (ar_store (cm_args c1))) = mkConfig (OStore dir) None None None (Some a) (cm_check_cfi c) (cm_inlines c) (Ok p)).
  { unfold config_of. rewrite E1, E2, E6, E7, E8, E9, E10, E11, Ea, <- Ho. f_equal. rewrite <- Em. unfold path_mapping. now rewrite E12, E13, E14, E15. }
  assert (Lf : forall fs o', load_file (ma_ext m) (ma_env m) (mkConfig (OStore dir) None None None (Some a) (cm_check_cfi c) (cm_inlines c) (Ok p)) (w_fs w) f = (fs, Ok o') -> o' = o).
  { intros fs o' Hl. rewrite <- (C63_as_alone (ma_ext m) (ma_env m) (OStore dir) (cm_check_cfi c) p a (cm_inlines c) (w_fs w) f) in Hl. unfold u_job in Pf. cbn [u used u_ext u_env u_map u_arch u_inl] in Pf. rewrite Hl in Pf. cbn in Pf. congruence. }
  destruct (C62_success (ma_version m) (ma_cpus m) (ma_ext m) (ma_env m) (ma_arch_name m) (config_of m (w_fs w) c1) (cm_args c1) w f v1 He) as (_ & fs & o' & text' & Hl & Ht & D); auto.
  - congruence.
  - intros fs o' Hl. rewrite Cf in Hl. apply Lf in Hl. now subst o'.
  - rewrite E2. unfold select_output in Ho. destruct (ar_output (cm_args c)), (ar_store (cm_args c)); congruence.
  - rewrite Cf in Hl. apply Lf in Hl. subst o'. rewrite E1, E2, <- Ho in D. destruct D as (D & _). destruct (D DIR) as (l' & Sl & Hl').
    rewrite E3, E4 in Ht. change (fmt_object (info_of m c) o = Ok text') in Ht. assert (text' = text) by congruence. subst text'.
    exists l, (encode text). splits; [exact Sd|exact Hd|]. assert (l' = l); [|subst l'; exact Hl'].
    destruct Sd as (b & s & B1 & B2 & ->), Sl as (b' & s' & B1' & B2' & ->). now rewrite (sp_sym_unique _ _ _ B2 B2'), (sp_base_unique _ _ _ B1 B1').
Qed.
Print Assumptions C83_as_alone.
(** Several files and no output option (or [-o -] and the like): if the program
    ends its status is 0, and it has printed the texts of the modules, one for
    each debug id, one after the other in some order -- provided that none is
    longer than the buffer of the writer (C81). *)
Theorem C81_program_partial : forall m argv w v n c p a fo R, let u := used m c p a (OFile fo) in let files := ar_files (cm_args c) in
  asks_several m argv (w_fs w) c p a (OFile fo) -> (forall q, fo <> FPath q) -> sort_perm (re_sort (ma_env m)) -> sane (ex_ps (ma_ext m)) -> iterates (ma_iter m) ->
  steady u files (w_fs w) R -> (forall d, candidate u files (w_fs w) d -> printable u d) -> all_read u files (w_fs w) ->
  (forall d text, candidate u files (w_fs w) d -> fmt_object (info_of m c) d = Ok text -> (lenN (encode text) < 8192)%N) ->
  program m argv w v n ->
  n = 0%N /\ R (w_fs v) /\ processed u files (w_fs w) (w_fs v) /\ other_of fo v = other_of fo w /\
  exists ds ts, stream_of fo v = stream_of fo w ++ concat (map encode ts) /\ Forall2 (fun d t => fmt_object (info_of m c) d = Ok t) ds ts /\
    NoDup (map ob_debug_id ds) /\ (forall d, In d ds -> candidate u files (w_fs w) d) /\
    (forall f o, In f files -> snd (u_job u (w_fs w) f) = Ok o -> exists d, In d ds /\ ob_debug_id d = ob_debug_id o).
Proof.
  intros m argv w v n c p a fo R u files A NP SP SA It ST CAN G SH P. pose proof A as (_ & L2 & _). apply (program_several m argv w v n c p a (OFile fo) A) in P. cbv zeta in P. fold u files in P, L2.
  set (jobs := N.to_nat (num_jobs (ma_cpus m) (ar_jobs (cm_args c)))) in *. destruct P as (k & W & -> & Q).
  assert (EN : ended (k_threads k)) by (destruct Q as [(Q & _)|(Q & _)]; [left|right]; exact Q).
  destruct (C81_pieces u jobs files (w_fs w) R fo w k ST eq_refl eq_refl NP CAN W) as (R1 & PA & O1 & ps & _ & _ & L).
  assert (RS : reach (several_sys (u_ext u) (u_env u) (u_iter u) (u_map u) (u_arch u) (u_inl u) (w_fs w) (fun _ r => r = Ok tt)) (Nat.min jobs (length files)) (start jobs files) (k_threads k)).
  { eapply (proj1 (C80_threads u jobs files (w_fs w) R w k (fun r => r = Ok tt) ST eq_refl W eq_refl _)). Unshelve. intros d r X. now destruct (L d r X). }
  assert (J : (1 <= jobs)%nat) by (destruct jobs as [|j]; [exfalso; now apply (none_blocks _ _ _ RS L2)|lia]).
  assert (GI : good_input (re_ck (u_env u)) (fun f => snd (u_job u (w_fs w) f)) (fun _ r => r = Ok tt) files) by (split; [exact G|intros; reflexivity]).
  destruct (C63_works (u_ext u) (u_env u) (u_iter u) (u_map u) (u_arch u) (u_inl u) (w_fs w) (fun _ r => r = Ok tt) files SP SA It GI) as (KK & WK).
  destruct (complete_ok _ jobs files _ KK WK RS EN) as (C & X).
  destruct (C63_stored (u_ext u) (u_env u) (u_iter u) (u_map u) (u_arch u) (u_inl u) (w_fs w) (fun _ r => r = Ok tt) jobs files (k_threads k) SP SA It J GI RS EN) as (_ & ND & MF & AF).
  destruct (C81_whole_partial u jobs files (w_fs w) R fo w k ST eq_refl eq_refl NP CAN SH W) as (ds & ts & Pd & F & S).
  { intros x Hx. now rewrite (X x Hx). }
  splits; [|exact R1|eapply whole_end; eauto; intros d r Y; now destruct (L d r Y)|exact O1|].
  - destruct Q as [(_ & ->)|(Q & _)]; [reflexivity|]. unfold complete in C. rewrite C in Q. discriminate.
  - exists ds, ts. splits; [exact S|exact F| | |].
    + eapply Permutation_NoDup; [|exact ND]. apply Permutation_map. now symmetry.
    + intros d Hd. apply MF. now apply (Permutation_in _ Pd).
    + intros f o Ff Po. destruct (AF f o Ff Po) as (d & Hd & Ed). exists d. split; [|exact Ed]. apply (Permutation_in _ (Permutation_sym Pd)). exact Hd.
Qed.
Print Assumptions C81_program_partial.
(** Full statement: without the bound on the texts; false by C81_whole_refuted. *)

(** *** Examples *)
(** The two files of C80, with the arguments of the program. *)
Definition wm_m : Machine := mkMachine (lit "x86_64") (lit "2.3") 2 (u_ext vx_store) ix_env (fun _ => true) (fun _ _ => None) (fun v => v) (fun _ => None) (fun s => if str_eqb s (lit "x86_64") then Some 0%N else None)
  dec (fun l => l) (fun _ => []).
Definition wm_argv : list str := map lit ["/b"; "/c"; "--store"; "/s"; "--check-cfi"; "--inlines"; "--no-generator"]%string.
Definition wm_args (files : list str) (store : option str) : Cmd :=
  mkCmd (mkArgs files None store (lit "error") [] false [] true) None None None (lit "x86_64") true true None None None None.
Definition wm_c : Cmd := wm_args vx_files (Some (lit "/s")).
Definition wm_p : str -> res (option str) := fun _ => Ok None.
Lemma wm_asks : asks_several wm_m wm_argv vx_fs wm_c wm_p 0 (OStore (lit "/s")).
Proof. unfold asks_several. splits; [vm_compute; reflexivity|cbn; lia|reflexivity|constructor|reflexivity|reflexivity|reflexivity]. Qed.
Lemma wm_used : used wm_m wm_c wm_p 0 (OStore (lit "/s")) = vx_store.
Proof. reflexivity. Qed.
Lemma wm_read : all_read vx_store vx_files vx_fs.
Proof.
  intros f Ff. destruct C80_ex_hypotheses as (_ & _ & _ & _ & _ & H). destruct (H f Ff) as (o & P & E). exists o. auto.
Qed.
(** What C83 asks for holds, and so the program ends with both files in the store. *)
Example C83_ex : asks_several wm_m wm_argv vx_fs wm_c wm_p 0 (OStore (lit "/s")) /\ sort_perm (re_sort (ma_env wm_m)) /\ sane (ex_ps (ma_ext wm_m)) /\ iterates (ma_iter wm_m) /\ healthy (u_os vx_store) /\
  steady vx_store vx_files vx_fs (eq vx_fs) /\ (forall d, candidate vx_store vx_files vx_fs d -> storable vx_store (lit "/s") (eq vx_fs) d) /\ all_read vx_store vx_files vx_fs /\ jobs_asked wm_m wm_c 2 /\
  (exists v, program wm_m wm_argv vx_w v 0) /\
  forall v n, program wm_m wm_argv vx_w v n -> n = 0%N /\ exists t, fmt_object [] (vx_at (lit "/c")) = Ok t /\ fs_get (w_fs v) (rev [lit "s"; lit "c"; lit "CD"; lit "c.sym"]) = Some (NFile (encode t)).
Proof.
  assert (J : jobs_asked wm_m wm_c 2) by (right; split; [intros n (_ & ds & [<- |X] & Y); [discriminate Y|discriminate X]|reflexivity]).
  splits; [apply wm_asks|apply mx_sorts|exact mx_sane|intros l; reflexivity|intros l; reflexivity|apply vx_steady|apply vx_storable|apply wm_read|exact J| |].
  - apply (C83_can_end wm_m wm_argv vx_w wm_c wm_p 0 (lit "/s") (eq vx_fs) 2); [apply wm_asks|discriminate|apply mx_sorts|exact mx_sane|intros l; reflexivity|reflexivity|apply vx_steady|apply vx_storable|apply wm_read|exact J|left; lia].
  - intros v n P. destruct (C83_store wm_m wm_argv vx_w v n wm_c wm_p 0 (lit "/s") (eq vx_fs) wm_asks) as (E & _ & _ & F & _); [discriminate|apply mx_sorts|exact mx_sane|intros l; reflexivity|reflexivity|apply vx_steady|apply vx_storable|apply wm_read|exact P|].
    split; [exact E|]. destruct (F (lit "/c") (vx_at (lit "/c"))) as (d & l & t & C & Ed & Sd & Ft & H); [right; now left|apply (vx_job (fun _ => []) [] (OStore (lit "/s"))); right; now left|].
    apply (vx_candidate (fun _ => []) [] (OStore (lit "/s"))) in C as (g & [<- |[<- |[]]] & ->); [exfalso; revert Ed; vm_compute; discriminate|].
    exists t. split; [exact Ft|]. unfold file_has in H. destruct Sd as (b & s & B1 & B2 & ->).
    assert (Eb : b = lit "c") by (apply (sp_base_unique (lit "c")); [exact B1|]; change (lit "c") with (get_base (lit "c")) at 2; apply get_base_spec; [intros [X|[]]; discriminate|discriminate]).
    assert (Es : s = lit "c.sym") by (apply (sp_sym_unique (lit "c")); [exact B2|]; change (lit "c.sym") with (sym_file_name (lit "c")); apply sym_name_spec). subst b s. exact H.
Qed.
(** One of the files alone. *)
Definition wm_argv1 : list str := map lit ["/b"; "--store"; "/s"; "--check-cfi"; "--inlines"; "--no-generator"]%string.
Example C83_ex_alone : command (ma_target wm_m) wm_argv1 = Got (wm_args [lit "/b"] (Some (lit "/s"))) /\ same_but_one wm_c (lit "/b") (wm_args [lit "/b"] (Some (lit "/s"))) /\
  files_of (fun g => snd (u_job vx_store vx_fs g)) (ob_debug_id (vx_at (lit "/b"))) vx_files = [lit "/b"] /\ exists v1, program wm_m wm_argv1 vx_w v1 0.
Proof.
  splits; [vm_compute; reflexivity|unfold same_but_one; splits; reflexivity|vm_compute; reflexivity|].
  eexists. apply (pr_one _ _ _ (wm_args [lit "/b"] (Some (lit "/s"))) (lit "/b")); [vm_compute; reflexivity|reflexivity|vm_compute; reflexivity].
Qed.
(** To standard output. *)
Definition wm_argv2 : list str := map lit ["/b"; "/c"; "--check-cfi"; "--inlines"; "--no-generator"]%string.
Definition wm_c2 : Cmd := wm_args vx_files None.
Definition wm_out : Setup := vx_u (fun _ => []) [] (OFile FStdout).
Definition wm_printed : Work := wgos wm_out 2 [(vx_all, 200)]%nat vx_start.
Example C81_ex_program : asks_several wm_m wm_argv2 vx_fs wm_c2 wm_p 0 (OFile FStdout) /\ used wm_m wm_c2 wm_p 0 (OFile FStdout) = wm_out /\ steady wm_out vx_files vx_fs (eq vx_fs) /\
  (forall d, candidate wm_out vx_files vx_fs d -> printable wm_out d) /\ all_read wm_out vx_files vx_fs /\
  (forall d text, candidate wm_out vx_files vx_fs d -> fmt_object (info_of wm_m wm_c2) d = Ok text -> (lenN (encode text) < 8192)%N) /\
  exists v t1 t2, program wm_m wm_argv2 vx_w v 0 /\ fmt_object [] (vx_at (lit "/b")) = Ok t1 /\ fmt_object [] (vx_at (lit "/c")) = Ok t2 /\ w_out v = lit "> " ++ encode t1 ++ encode t2.
Proof.
  assert (A : asks_several wm_m wm_argv2 vx_fs wm_c2 wm_p 0 (OFile FStdout)) by (unfold asks_several; splits; [vm_compute; reflexivity|cbn; lia|reflexivity|constructor|reflexivity|reflexivity|reflexivity]).
  splits; [exact A|reflexivity|apply vx_steady| | | |].
  - intros d C. apply vx_candidate in C as (f & Ff & ->). split; [|intros _]; destruct Ff as [<- |[<- |[]]]; try (vm_compute; discriminate); eexists; vm_compute; reflexivity.
  - intros f Ff. destruct (wm_read f Ff) as (o & P & E). exists o. split; [|exact E]. unfold wm_out. rewrite vx_job by exact Ff. unfold vx_store in P. rewrite vx_job in P by exact Ff. exact P.
  - intros d text C F. apply vx_candidate in C as (f & Ff & ->). change (info_of wm_m wm_c2) with (@nil str) in F.
    assert (Q : match fmt_object [] (vx_at f) with Ok t => (lenN (encode t) <? 8192)%N | _ => false end = true) by (destruct Ff as [<- |[<- |[]]]; vm_compute; reflexivity).
    rewrite F in Q. lia.
  - exists (k_world wm_printed), (match fmt_object [] (vx_at (lit "/b")) with Ok t => t | _ => [] end), (match fmt_object [] (vx_at (lit "/c")) with Ok t => t | _ => [] end).
    split; [|splits; vm_compute; reflexivity].
    apply (program_several wm_m wm_argv2 vx_w _ _ wm_c2 wm_p 0 (OFile FStdout) A). exists wm_printed. splits; [apply wgos_worked; constructor|reflexivity|]. left. split; [vm_compute; reflexivity|reflexivity].
Qed.
Example C48_ex_can_complete : key_kept demo /\ works demo demo_files /\ (2 <= Nat.min 2 (length demo_files))%nat.
Proof. splits; [apply demo_kept|apply demo_two|cbn; lia]. Qed.
(** Two workers: the run ends and nothing can be done any more. One worker: it
    waits for itself before anything is stored. *)
Definition wm_stuck : Work := wgos vx_store 1 [([Main; Worker 0], 200)]%nat (work_start vx_w 1 vx_files).
Example C84_ex : worked vx_store 2 vx_start vx_end /\ complete (k_threads vx_end) /\ (forall drain t, work_step vx_store 2 drain t vx_end = None) /\
  worked vx_store 1 (work_start vx_w 1 vx_files) wm_stuck /\ ~ ended (k_threads wm_stuck) /\ length (s_workers (k_threads wm_stuck)) = 1%nat /\ stored (k_threads wm_stuck) = [] /\ (forall drain t, work_step vx_store 1 drain t wm_stuck = None).
Proof.
  splits; [apply wgos_worked, wgos_worked; constructor|vm_compute; reflexivity| |apply wgos_worked; constructor|intros [X|X]; vm_compute in X; discriminate|vm_compute; reflexivity|vm_compute; reflexivity|].
  - intros drain [|[|[|[|i]]]]; vm_compute; reflexivity.
  - intros drain [|[|[|i]]]; vm_compute; reflexivity.
Qed.
