(** Theorems C81 and C82 for the program: when all files have one debug id, and
    that printing can end. *)
From Verif Require Import Base BMap Str Utf8 M_Path M_Line M_Source M_Symbol M_Collector M_Object M_Fs M_Cache M_Store M_Input M_Sched M_Cli M_Args M_Many M_Shared M_Main
  S_Path S_Fs S_Cache S_Symbol S_Collector S_Object S_Format S_Store S_Sched S_Many S_Shared S_Cli S_Main S_Whole S_Plain P_Fs P_Object P_Merge P_Format P_Many P_Shared P_Ends P_Run P_Progress P_Several P_Plain
  T_Format T_Store T_Many T_Shared T_Whole T_Plain.

(** ** C82: one module *)
Lemma delivered_same os text out d w fs1 v v' : same_world v v' -> delivered os text out d (mkWorld fs1 (w_out w) (w_err w)) v' -> delivered os text out d w v.
Proof.
  intros (F & O & E) D. assert (Q : forall l, file_has os text v' l -> file_has os text v l) by (intros l; unfold file_has; now rewrite F).
  assert (FD : forall f, file_done os text f (mkWorld fs1 (w_out w) (w_err w)) v' -> file_done os text f w v).
  { intros [p| |]; unfold file_done; cbn [w_out w_err]; rewrite O, E; intros D'; [destruct D' as (? & ? & ?); auto|exact D'|exact D']. }
  assert (SD : forall dir, store_done os text dir d v' -> store_done os text dir d v) by (intros dir H N; destruct (H N) as (l & H1 & H2); eauto).
  destruct out as [f|dir|f dir]; unfold delivered in *; cbn [w_out w_err] in D; [now apply FD| |destruct D; auto]. destruct D as (D1 & D2 & D3). rewrite O, E. auto.
Qed.
Lemma delivers u R d fs1 out err : (forall l, os_may (u_os u) l = true) -> healthy (u_os u) -> deliverable u R d -> R fs1 -> exists w', store (u_os u) (u_extra u) (u_out u) (u_check u) d (mkWorld fs1 out err) = (w', Ok tt).
Proof.
  intros MAY He (Q1 & Q2 & (text & Q3) & Q4 & Q5) R1. destruct (Q5 fs1 R1) as (Q6 & Q7 & Q8). apply (C44_succeeds (u_os u) (u_extra u) (u_out u) (u_check u) d _ text); auto.
Qed.
Lemma one_candidate u files fs0 : one_id u files fs0 -> forall d e, candidate u files fs0 d -> candidate u files fs0 e -> ob_debug_id d = ob_debug_id e.
Proof.
  intros ONE d e (os & M & A & _) (os' & M' & A' & _). destruct os as [|o os]; [now apply merged_nonempty in M|]. destruct os' as [|o' os']; [now apply merged_nonempty in M'|].
  destruct (A o (or_introl eq_refl)) as (f & Ff & P & <-), (A' o' (or_introl eq_refl)) as (g & Fg & P' & <-). exact (ONE f g o o' Ff Fg P P').
Qed.
(** Several files that all have one debug id, any output: when the program ends
    its status is 0, the text of the module made of all of them is complete at
    each destination, and at most directories above the one in the store are new. *)
Theorem C82_program_partial : forall m argv w v n c p a out R, let u := used m c p a out in let files := ar_files (cm_args c) in
  asks_several m argv (w_fs w) c p a out -> sort_perm (re_sort (ma_env m)) -> sane (ex_ps (ma_ext m)) -> iterates (ma_iter m) -> healthy (u_os u) -> (forall l, os_may (u_os u) l = true) ->
  steady u files (w_fs w) R -> one_id u files (w_fs w) ->
  (forall d, candidate u files (w_fs w) d -> deliverable u R d) -> all_read u files (w_fs w) ->
  program m argv w v n ->
  n = 0%N /\ exists d os text fs1, made_from (re_ck (ma_env m)) (ma_iter m) (fun f => snd (u_job u (w_fs w) f)) files d os /\
    (forall f o, In f files -> snd (u_job u (w_fs w) f) = Ok o -> In o os) /\ fmt_object (info_of m c) d = Ok text /\ delivered (u_os u) text out d w v /\ R fs1 /\ processed u files (w_fs w) fs1 /\
    forall l, ~ file_target (u_os u) out l -> ~ store_target (u_os u) out d l -> fs_get (w_fs v) l = fs_get fs1 l \/
      fs_get fs1 l = None /\ fs_get (w_fs v) l = Some NDir /\ exists t k, store_target (u_os u) out d t /\ t = k ++ l /\ k <> [].
Proof.
  intros m argv w v n c p a out R u files A SP SA It He MAY ST ONE' CAN G P. pose proof (one_candidate u files (w_fs w) ONE') as ONE. pose proof A as (_ & L2 & _). apply (program_several m argv w v n c p a out A) in P. cbv zeta in P. fold u files in P, L2.
  set (jobs := N.to_nat (num_jobs (ma_cpus m) (ar_jobs (cm_args c)))) in *. destruct P as (k & W & -> & Q).
  assert (EN : ended (k_threads k)) by (destruct Q as [(Q & _)|(Q & _)]; [left|right]; exact Q).
  assert (L : forall d r, In (d, r) (h_log (s_shared (k_threads k))) -> r = Ok tt).
  { intros d r X. destruct (C82_one_module u jobs files (w_fs w) R w k ST eq_refl He ONE W d r X) as (_ & Cd & fs1 & R1 & PA & S). destruct (delivers u R d fs1 (w_out w) (w_err w) MAY He (CAN d Cd) R1) as (w' & E). rewrite E in S. now destruct S. }
  assert (RS : reach (several_sys (u_ext u) (u_env u) (u_iter u) (u_map u) (u_arch u) (u_inl u) (w_fs w) (fun _ r => r = Ok tt)) (Nat.min jobs (length files)) (start jobs files) (k_threads k)).
  { eapply (proj1 (C80_threads u jobs files (w_fs w) R w k (fun r => r = Ok tt) ST eq_refl W eq_refl _)). Unshelve. intros d r X. now apply (L d). }
  assert (J : (1 <= jobs)%nat) by (destruct jobs as [|j]; [exfalso; now apply (none_blocks _ _ _ RS L2)|lia]).
  assert (GI : good_input (re_ck (u_env u)) (fun f => snd (u_job u (w_fs w) f)) (fun _ r => r = Ok tt) files) by (split; [exact G|intros; reflexivity]).
  destruct (C63_works (u_ext u) (u_env u) (u_iter u) (u_map u) (u_arch u) (u_inl u) (w_fs w) (fun _ r => r = Ok tt) files SP SA It GI) as (KK & WK).
  destruct (complete_ok _ jobs files _ KK WK RS EN) as (C & X).
  destruct (C63_stored (u_ext u) (u_env u) (u_iter u) (u_map u) (u_arch u) (u_inl u) (w_fs w) (fun _ r => r = Ok tt) jobs files (k_threads k) SP SA It J GI RS EN) as (_ & ND & MF & AF).
  split. { destruct Q as [(_ & ->)|(Q & _)]; [reflexivity|]. unfold complete in C. rewrite C in Q. discriminate. }
  assert (IN0 : exists f, In f files) by (destruct files as [|f fl]; [cbn in L2; lia|exists f; now left]). destruct IN0 as (f0 & F0). destruct (G f0 F0) as (o0 & P0 & _).
  destruct (AF f0 o0 F0 P0) as (d & Hd & Ed). unfold stored in Hd. apply in_map_iff in Hd as ((d', r) & Y & Lg). cbn in Y. subst d'. pose proof (L d r Lg) as ->.
  destruct (C82_one_module u jobs files (w_fs w) R w k ST eq_refl He ONE W d _ Lg) as (_ & Cd & fs1 & R1 & PA & S). destruct (delivers u R d fs1 (w_out w) (w_err w) MAY He (CAN d Cd) R1) as (w' & E). rewrite E in S. destruct S as (_ & SW).
  destruct (CAN d Cd) as (Q1 & Q2 & (text & Q3) & _). pose proof Cd as (os & Md). exists d, os, text, fs1. splits; [exact Md| |exact Q3| |exact R1|exact PA|].
  - intros f o Ff Pf. destruct Md as (MM & MI & MA & _). apply (MA f o Ff Pf). destruct (AF f o Ff Pf) as (e & He' & <-). apply ONE; [|exact Cd]. now apply MF.
  - eapply delivered_same; [exact SW|]. eapply C44_complete; [exact Q1|exact Q2|exact He|exact Q3|exact E].
  - intros l N1 N2. destruct SW as (SF & _). rewrite (SF l). exact (C44_nothing_else _ _ _ _ _ _ _ _ l Q1 Q2 E N1 N2).
Qed.
Print Assumptions C82_program_partial.
(** Full statement: without the hypothesis on the debug ids; false by
    C82_one_text_refuted. *)
(** It can end, even with one worker. *)
Theorem C82_can_end : forall m argv w c p a out R j, let u := used m c p a out in let files := ar_files (cm_args c) in
  asks_several m argv (w_fs w) c p a out -> sort_perm (re_sort (ma_env m)) -> sane (ex_ps (ma_ext m)) -> iterates (ma_iter m) -> healthy (u_os u) -> (forall l, os_may (u_os u) l = true) ->
  steady u files (w_fs w) R -> one_id u files (w_fs w) ->
  (forall d, candidate u files (w_fs w) d -> deliverable u R d) -> all_read u files (w_fs w) ->
  jobs_asked m c j -> (1 <= j)%N -> exists v, program m argv w v 0.
Proof.
  intros m argv w c p a out R j u files A SP SA It He MAY ST ONE' CAN G JA JJ. pose proof (one_candidate u files (w_fs w) ONE') as ONE. pose proof A as (_ & L2 & _). fold files in L2. apply jobs_unique in JA.
  set (jobs := N.to_nat (num_jobs (ma_cpus m) (ar_jobs (cm_args c)))).
  assert (ANS : forall k, worked u (Nat.min jobs (length files)) (work_start w jobs files) k -> forall d r, In (d, r) (h_log (s_shared (k_threads k))) -> r = Ok tt).
  { intros k W d r X. destruct (C82_one_module u jobs files (w_fs w) R w k ST eq_refl He ONE W d r X) as (_ & Cd & fs1 & R1 & PA & S).
    destruct (delivers u R d fs1 (w_out w) (w_err w) MAY He (CAN d Cd) R1) as (w' & E). rewrite E in S. now destruct S. }
  assert (GI : good_input (re_ck (u_env u)) (fun f => snd (u_job u (w_fs w) f)) (fun _ r => r = Ok tt) files) by (split; [exact G|intros; reflexivity]).
  destruct (C63_works (u_ext u) (u_env u) (u_iter u) (u_map u) (u_arch u) (u_inl u) (w_fs w) (fun _ r => r = Ok tt) files SP SA It GI) as (KK & WK).
  destruct (can_end u jobs files (w_fs w) R w ST eq_refl ANS WK) as (k & W & C & _).
  - intros X. rewrite X in L2. cbn in L2. lia.
  - unfold jobs. rewrite <- JA. lia.
  - right. intros (f1 & d1 & f2 & d2 & F1 & F2 & P1 & P2 & N). apply N. exact (ONE' f1 f2 d1 d2 F1 F2 P1 P2).
  - exists (k_world k). apply (program_several m argv w _ _ c p a out A). exists k. splits; [exact W|reflexivity|]. left. split; [exact C|reflexivity].
Qed.
Print Assumptions C82_can_end.
(** ** C81: there is an end *)
Theorem C81_can_end : forall m argv w c p a fo R j, let u := used m c p a (OFile fo) in let files := ar_files (cm_args c) in
  asks_several m argv (w_fs w) c p a (OFile fo) -> (forall q, fo <> FPath q) -> sort_perm (re_sort (ma_env m)) -> sane (ex_ps (ma_ext m)) -> iterates (ma_iter m) ->
  steady u files (w_fs w) R -> (forall d, candidate u files (w_fs w) d -> printable u d) -> all_read u files (w_fs w) -> jobs_asked m c j ->
  (2 <= j)%N \/ (1 <= j)%N /\ (forall f g o o', In f files -> In g files -> snd (u_job u (w_fs w) f) = Ok o -> snd (u_job u (w_fs w) g) = Ok o' -> ob_debug_id o = ob_debug_id o') ->
  exists v, program m argv w v 0.
Proof.
  intros m argv w c p a fo R j u files A NP SP SA It ST CAN G JA JJ. pose proof A as (_ & L2 & _). fold files in L2. apply jobs_unique in JA.
  set (jobs := N.to_nat (num_jobs (ma_cpus m) (ar_jobs (cm_args c)))).
  assert (ANS : forall k, worked u (Nat.min jobs (length files)) (work_start w jobs files) k -> forall d r, In (d, r) (h_log (s_shared (k_threads k))) -> r = Ok tt).
  { intros k W d r X. destruct (C81_pieces u jobs files (w_fs w) R fo w k ST eq_refl eq_refl NP CAN W) as (_ & _ & _ & ps & _ & _ & L). now destruct (L d r X). }
  assert (GI : good_input (re_ck (u_env u)) (fun f => snd (u_job u (w_fs w) f)) (fun _ r => r = Ok tt) files) by (split; [exact G|intros; reflexivity]).
  destruct (C63_works (u_ext u) (u_env u) (u_iter u) (u_map u) (u_arch u) (u_inl u) (w_fs w) (fun _ r => r = Ok tt) files SP SA It GI) as (KK & WK).
  destruct (can_end u jobs files (w_fs w) R w ST eq_refl ANS WK) as (k & W & C & _).
  - intros X. rewrite X in L2. cbn in L2. lia.
  - unfold jobs. rewrite <- JA. lia.
  - destruct JJ as [JJ|(_ & JJ)]; [left; unfold jobs; rewrite <- JA; lia|right]. intros (f1 & d1 & f2 & d2 & F1 & F2 & P1 & P2 & N). apply N. exact (JJ f1 f2 d1 d2 F1 F2 P1 P2).
  - exists (k_world k). apply (program_several m argv w _ _ c p a (OFile fo) A). exists k. splits; [exact W|reflexivity|]. left. split; [exact C|reflexivity].
Qed.
Print Assumptions C81_can_end.

(** *** Examples *)
(** The two files of C82, with the arguments of the program and one job. *)
Definition vo_argv : list str := map lit ["/b"; "/c"; "-o"; "/o.sym"; "-j"; "1"; "--check-cfi"; "--inlines"; "--no-generator"]%string.
Definition vo_c : Cmd := mkCmd (mkArgs vx_files (Some (lit "/o.sym")) None (lit "error") (lit "1") false [] true) None None None (lit "x86_64") true true None None None None.
Definition vo_out : Output := OFile (FPath (lit "/o.sym")).
Lemma vo_asks : asks_several wm_m vo_argv vx_fs1 vo_c wm_p 0 vo_out.
Proof. unfold asks_several. splits; [vm_compute; reflexivity|cbn; lia|reflexivity|apply Forall_nil|right; split; [discriminate|reflexivity]|reflexivity|reflexivity]. Qed.
Lemma vo_ids f o : In f vx_files -> snd (u_job vx_file vx_fs1 f) = Ok o -> ob_debug_id o = lit "AB".
Proof.
  intros Ff P. assert (X : match snd (u_job vx_file vx_fs1 f) with Ok o => str_eqb (ob_debug_id o) (lit "AB") | _ => false end = true) by (destruct Ff as [<- |[<- |[]]]; vm_compute; reflexivity).
  rewrite P in X. now apply str_eqb_eq.
Qed.
Lemma vo_plain f : In f vx_files -> exists o ls, snd (u_job vx_file vx_fs1 f) = Ok o /\ plain_module true ls o.
Proof.
  intros F. exists (match snd (u_job vx_file vx_fs1 f) with Ok o => o | _ => vx_at (lit "/b") end), [lit "CFI INIT 10 20 x"]. split; [destruct F as [<- |[<- |[]]]; vm_compute; reflexivity|].
  assert (W1 : one_word (lit "x86_64")) by (split; vm_compute; intuition discriminate).
  assert (W2 : one_word (lit "AB")) by (split; vm_compute; intuition discriminate).
  destruct F as [<- |[<- |[]]]; unfold plain_module; (splits; [vm_compute; intuition discriminate|vm_compute; intuition discriminate| | | | ]);
    try (vm_compute; reflexivity); try (apply names_check; vm_compute; reflexivity); try (intros _; vm_compute; discriminate);
    (eapply head_check; try (vm_compute; reflexivity); auto; apply bytes_line_ok; reflexivity).
Qed.
Example C82_ex_program : asks_several wm_m vo_argv vx_fs1 vo_c wm_p 0 vo_out /\ used wm_m vo_c wm_p 0 vo_out = vx_file /\ steady vx_file vx_files vx_fs1 (eq vx_fs1) /\
  one_id vx_file vx_files vx_fs1 /\ (forall d, candidate vx_file vx_files vx_fs1 d -> deliverable vx_file (eq vx_fs1) d) /\ all_read vx_file vx_files vx_fs1 /\ jobs_asked wm_m vo_c 1 /\
  (exists v, program wm_m vo_argv vx_w1 v 0) /\
  forall v n, program wm_m vo_argv vx_w1 v n -> n = 0%N /\ exists d t, ob_debug_id d = lit "AB" /\ fmt_object [] d = Ok t /\ fs_get (w_fs v) [lit "o.sym"] = Some (NFile (encode t)).
Proof.
  destruct C82_ex as (ST & He & _).
  assert (ONE : one_id vx_file vx_files vx_fs1) by (intros f g o o' Ff Fg P P'; now rewrite (vo_ids f o Ff P), (vo_ids g o' Fg P')).
  assert (CAN : forall d, candidate vx_file vx_files vx_fs1 d -> deliverable vx_file (eq vx_fs1) d).
  { intros d (os & M). destruct (plain_texts vx_file vx_files vx_fs1 true [] d os mx_sorts mx_sane M vo_plain) as (Q1 & Q2 & Q3 & lss & ls & text & rs & _ & _ & Ft & _); [constructor|].
    unfold deliverable. splits; [exact Q1|exact Q2|now exists text|exact Q3|]. intros fs <-. splits; [|intros l X; contradiction|intros l t k _ X; contradiction].
    intros l ->. exists (lit "o.sym"), []. splits; [vm_compute; reflexivity|reflexivity|vm_compute; discriminate]. }
  assert (AR : all_read vx_file vx_files vx_fs1) by (intros f [<- |[<- |[]]]; eexists; (split; [vm_compute; reflexivity|right; apply fits_dec; [vm_compute; reflexivity|vm_compute; repeat constructor]])).
  assert (J : jobs_asked wm_m vo_c 1) by (left; split; [vm_compute; reflexivity|exists (lit "1"); split; [now left|vm_compute; reflexivity]]).
  splits; [apply vo_asks|reflexivity|exact ST|exact ONE|exact CAN|exact AR|exact J| |].
  - apply (C82_can_end wm_m vo_argv vx_w1 vo_c wm_p 0 vo_out (eq vx_fs1) 1); [apply vo_asks|apply mx_sorts|exact mx_sane|intros l; reflexivity|exact He|reflexivity|exact ST|exact ONE|exact CAN|exact AR|exact J|lia].
  - intros v n P. destruct (C82_program_partial wm_m vo_argv vx_w1 v n vo_c wm_p 0 vo_out (eq vx_fs1) vo_asks) as (E & d & os & t & fs1 & M & _ & Ft & (D & _) & _); [apply mx_sorts|exact mx_sane|intros l; reflexivity|exact He|reflexivity|exact ST|exact ONE|exact CAN|exact AR|exact P|].
    split; [exact E|]. exists d, t. splits; [|exact Ft|exact D]. destruct M as (M & A & _). destruct os as [|o os]; [now apply merged_nonempty in M|]. destruct (A o (or_introl eq_refl)) as (f & Ff & Pf & <-). now apply (vo_ids f).
Qed.
