(** Theorems C86: the program on several files, some of which cannot be processed. *)
From Verif Require Import Base BMap Str Utf8 M_Path M_Line M_Source M_Symbol M_Collector M_Object M_Fs M_Cache M_Store M_Input M_Sched M_Cli M_Args M_Many M_Shared M_Main
  S_Path S_Fs S_Symbol S_Collector S_Object S_Store S_Sched S_Many S_Shared S_Cli S_Main S_Whole S_Failing P_Fs P_Store P_Sched P_Run P_Ends P_Shared P_Path P_Progress P_Cli P_Main
  T_Object T_Sched T_Input T_Cli T_Many T_Shared T_Main T_Whole.
From Verif Require P_Several P_Plain.

Lemma unread_no u fs f : unread u fs f = true -> forall o, snd (u_job u fs f) <> Ok o.
Proof. unfold unread. intros H o E. now rewrite E in H. Qed.
Lemma failing_unbegun u jobs files fs0 R w k f : steady u files fs0 R -> w_fs w = fs0 -> In f files -> unread u fs0 f = true ->
  worked u (Nat.min jobs (length files)) (work_start w jobs files) k -> forall d, ~ begun (k_threads k) d.
Proof.
  intros ST E Ff U W d B. pose proof (worked_basic u jobs files fs0 R ST w k E W) as Ba.
  destruct (begun_merged _ _ _ _ _ (sys_kept u fs0 (fun _ => True)) (b_reach _ _ _ _ _ _ Ba) B) as (_ & _ & _ & A). destruct (A f Ff) as (o & P). exact (unread_no u fs0 f U o P).
Qed.
Lemma flying_begun (s : St Obj) i d : flying s i d -> begun s d.
Proof. intros H. right. exists i. exact H. Qed.
Lemma failing_quiet u jobs files fs0 R w k f : steady u files fs0 R -> w_fs w = fs0 -> In f files -> unread u fs0 f = true ->
  worked u (Nat.min jobs (length files)) (work_start w jobs files) k -> w_out (k_world k) = w_out w /\ w_err (k_world k) = w_err w.
Proof.
  intros ST E Ff U W. induction W as [|k k' drain t W IH P H]; [auto|].
  pose proof (failing_unbegun u jobs files fs0 R w k f ST E Ff U W) as N. apply work_moved in H; [|exact P].
  destruct H as [dr t' s' P' NF NG H|dr i g s' P' En H|i d F Eb|i d a rest r w' q F Eb Ea|dr i d r s' P' F Eb H]; cbn [k_world] in *;
    [exact IH|exact IH|exfalso; apply (N d); eapply flying_begun; eauto..].
Qed.
Definition any_sys (u : Setup) (fs : FS) : Sys Obj := several_sys (u_ext u) (u_env u) (u_iter u) (u_map u) (u_arch u) (u_inl u) fs (fun _ _ => True).
Lemma any_reach u jobs files fs0 R w k : steady u files fs0 R -> w_fs w = fs0 -> worked u (Nat.min jobs (length files)) (work_start w jobs files) k ->
  reach (any_sys u fs0) (Nat.min jobs (length files)) (start jobs files) (k_threads k).
Proof. intros ST E W. exact (b_reach _ _ _ _ _ _ (worked_basic u jobs files fs0 R ST w k E W)). Qed.
Lemma any_kept u fs : key_kept (any_sys u fs).
Proof. apply P_Several.dump_kept. Qed.
Lemma any_merges u files fs : sort_perm (re_sort (u_env u)) -> sane (ex_ps (u_ext u)) -> iterates (u_iter u) -> others_fit u fs files -> merges (any_sys u fs) files.
Proof.
  intros SP SA It G. apply P_Several.dump_merges; auto. intros f o _ P. exact (P_Several.job_fresh (u_ext u) (u_env u) (u_map u) (u_arch u) (u_inl u) fs f o SP SA P).
Qed.
Lemma failing_cnt u files fs : cnt (fails (any_sys u fs)) files = length (failing u fs files).
Proof. reflexivity. Qed.

Lemma filter_len {A} (g : A -> bool) l : (length (filter g l) <= length l)%nat.
Proof. induction l as [|x l IH]; [reflexivity|]. cbn. destruct (g x); cbn; lia. Qed.

(** ** C86 *)
(** If there is a file for which there is no module, nothing is written whatever
    the other files are: neither to the store, nor to the file or stream of
    [--output]. What has been downloaded stays. *)
Theorem C86_nothing : forall m argv w v n c p a out R, let u := used m c p a out in let files := ar_files (cm_args c) in
  asks_several m argv (w_fs w) c p a out -> steady u files (w_fs w) R -> failing u (w_fs w) files <> [] -> program m argv w v n ->
  w_out v = w_out w /\ w_err v = w_err w /\ R (w_fs v) /\ exists l rest, Permutation (l ++ rest) files /\ w_fs v = after u (w_fs w) l.
Proof.
  intros m argv w v n c p a out R u files A ST NE P. apply (program_several m argv w v n c p a out A) in P. cbv zeta in P. fold u files in P.
  set (jobs := N.to_nat (num_jobs (ma_cpus m) (ar_jobs (cm_args c)))) in *. destruct P as (k & W & -> & _).
  destruct (failing u (w_fs w) files) as [|f l] eqn:E; [easy|]. assert (F : In f files /\ unread u (w_fs w) f = true) by (apply (filter_In (unread u (w_fs w))); change (In f (failing u (w_fs w) files)); rewrite E; now left).
  destruct F as (Ff & U). pose proof (failing_unbegun u jobs files (w_fs w) R w k f ST eq_refl Ff U W) as NB.
  destruct (failing_quiet u jobs files (w_fs w) R w k f ST eq_refl Ff U W) as (O1 & O2). pose proof (worked_basic u jobs files (w_fs w) R ST w k eq_refl W) as B.
  splits; [exact O1|exact O2|exact (b_fs _ _ _ _ _ _ B NB)|]. destruct (taken_partly _ _ _ _ _ k _ B (b_taken _ _ _ _ _ _ B NB)) as (l' & rest & P & Ef & _). exists l', rest. auto.
Qed.
Print Assumptions C86_nothing.
(** If one of them made its worker panic and none gave an error, the status is 101. *)
Theorem C86_panic : forall m argv w v n c p a out R f s, let u := used m c p a out in let files := ar_files (cm_args c) in
  asks_several m argv (w_fs w) c p a out -> sort_perm (re_sort (ma_env m)) -> sane (ex_ps (ma_ext m)) -> iterates (ma_iter m) -> steady u files (w_fs w) R -> others_fit u (w_fs w) files ->
  In f files -> snd (u_job u (w_fs w) f) = Panic s -> (forall g e, In g files -> snd (u_job u (w_fs w) g) <> Err e) -> program m argv w v n -> n = 101%N.
Proof.
  intros m argv w v n c p a out R f s u files A SP SA It ST OF Ff Pf NE P. pose proof A as (_ & L2 & _). apply (program_several m argv w v n c p a out A) in P. cbv zeta in P. fold u files in P, L2.
  set (jobs := N.to_nat (num_jobs (ma_cpus m) (ar_jobs (cm_args c)))) in *. destruct P as (k & W & -> & [(C & ->)|(_ & ->)]); [exfalso|reflexivity].
  pose proof (any_reach u jobs files (w_fs w) R w k ST eq_refl W) as RS.
  assert (J : (1 <= jobs)%nat) by (destruct jobs as [|j]; [exfalso; destruct (none_blocks _ _ _ RS L2) as (X & _); apply X; now left|lia]).
  refine (failing_panics (any_sys u (w_fs w)) jobs files (k_threads k) (any_kept _ _) (any_merges u files (w_fs w) SP SA It OF) NE _ J RS C).
  rewrite failing_cnt. assert (I : In f (failing u (w_fs w) files)) by (apply filter_In; split; [exact Ff|unfold unread; now rewrite Pf]). destruct (failing u (w_fs w) files); [destruct I|cbn; lia].
Qed.
Print Assumptions C86_panic.
(** If none panics and there is one that gives an error, the program ends only if
    all workers have met such a file; then its status is 0. *)
Theorem C86_errors : forall m argv w v n c p a out R j, let u := used m c p a out in let files := ar_files (cm_args c) in
  asks_several m argv (w_fs w) c p a out -> sort_perm (re_sort (ma_env m)) -> sane (ex_ps (ma_ext m)) -> iterates (ma_iter m) -> steady u files (w_fs w) R -> others_fit u (w_fs w) files ->
  (forall g e, In g files -> snd (u_job u (w_fs w) g) <> Panic e) -> failing u (w_fs w) files <> [] -> jobs_asked m c j -> program m argv w v n ->
  n = 0%N /\ (1 <= j)%N /\ ((j <= N.of_nat (length (failing u (w_fs w) files)))%N \/ failing u (w_fs w) files = files).
Proof.
  intros m argv w v n c p a out R j u files A SP SA It ST OF NP NE JA P. pose proof A as (_ & L2 & _). apply (program_several m argv w v n c p a out A) in P. cbv zeta in P. fold u files in P, L2. apply jobs_unique in JA.
  set (jobs := N.to_nat (num_jobs (ma_cpus m) (ar_jobs (cm_args c)))) in *. destruct P as (k & W & -> & Q).
  pose proof (any_reach u jobs files (w_fs w) R w k ST eq_refl W) as RS. pose proof (any_merges u files (w_fs w) SP SA It OF) as MG.
  assert (F1 : (1 <= cnt (fails (any_sys u (w_fs w))) files)%nat) by (rewrite failing_cnt; destruct (failing u (w_fs w) files); [easy|cbn; lia]).
  assert (J : (1 <= jobs)%nat) by (destruct jobs as [|i]; [exfalso; destruct (none_blocks _ _ _ RS L2) as (X & _); apply X; destruct Q as [(Q & _)|(Q & _)]; [now left|now right]|lia]).
  destruct Q as [(C & ->)|(C & ->)].
  - splits; [reflexivity|lia|]. pose proof (early_complete _ jobs files _ (any_kept _ _) MG F1 RS C) as Le. rewrite failing_cnt in Le.
    destruct (Nat.le_gt_cases jobs (length files)) as [H|H]; [left; lia|right]. assert (Le' : (length files <= length (failing u (w_fs w) files))%nat) by lia. clear - Le'. unfold failing in *.
    induction files as [|f l IH]; [reflexivity|]. cbn [filter] in *. pose proof (filter_len (unread u (w_fs w)) l). destruct (unread u (w_fs w) f); cbn [length] in *; [f_equal; apply IH; lia|lia].
  - exfalso. pose proof (reach_joined _ _ _ _ RS) as JO. unfold joined in JO. rewrite C in JO. exact (no_panic_exit _ jobs files _ (any_kept _ _) MG F1 NP RS JO).
Qed.
Print Assumptions C86_errors.

(** *** Examples *)
(** Two readable files, one that is no object file, and one that is not there. *)
Definition fx_fs : FS := [([lit "b"], NFile (lit "E2AB")); ([lit "c"], NFile (lit "E3PCD")); ([lit "e"], NFile (lit "?"))].
Definition fx_w : World := mkWorld fx_fs (lit "> ") [].
Definition fx_argv (files : list string) (jobs : string) : list str := map lit files ++ map lit ["--store"; "/s"; "--check-cfi"; "--inlines"; "--no-generator"; "-j"; jobs]%string.
Definition fx_c (files : list string) (jobs : string) : Cmd := mkCmd (mkArgs (map lit files) None (Some (lit "/s")) (lit "error") (lit jobs) false [] true) None None None (lit "x86_64") true true None None None None.
Lemma fx_asks files jobs : command (ma_target wm_m) (fx_argv files jobs) = Got (fx_c files jobs) -> (2 <= length files)%nat -> asks_several wm_m (fx_argv files jobs) fx_fs (fx_c files jobs) wm_p 0 (OStore (lit "/s")).
Proof. intros G L. unfold asks_several. splits; [exact G|cbn [fx_c cm_args ar_files]; now rewrite map_length|reflexivity|constructor|reflexivity|reflexivity|reflexivity]. Qed.
Lemma fx_steady files : steady vx_store files fx_fs (eq fx_fs).
Proof. apply P_Plain.steady_plain. intros h X. discriminate X. Qed.
Lemma fx_fit files : (forall f, In f files -> In f (map lit ["/b"; "/c"; "/e"; "/zz"]%string)) -> others_fit vx_store fx_fs files.
Proof.
  intros H f o Ff P. right. apply H in Ff. destruct Ff as [<- |[<- |[<- |[<- |[]]]]]; vm_compute in P; try discriminate P; injection P as <-; (apply fits_dec; [vm_compute; reflexivity|vm_compute; repeat constructor]).
Qed.
Definition fx_end (files : list string) (nj : nat) : Work := wgos vx_store nj [([Main; Worker 0; Worker 1], 200)]%nat (work_start fx_w nj (map lit files)).
Definition fx_argv1 : list str := map lit ["/e"; "--store"; "/s"; "--check-cfi"; "--inlines"; "--no-generator"; "-j"; "1"]%string.
(** A failure can go unnoticed: with one job the program ends with status 0 and has
    written nothing, although there is a file that gives status 1 when it is alone. *)
Theorem C86_silent_refuted : exists m argv w c p a dir f argv1 c1, let u := used m c p a (OStore dir) in let files := ar_files (cm_args c) in
  asks_several m argv (w_fs w) c p a (OStore dir) /\ steady u files (w_fs w) (eq (w_fs w)) /\ In f files /\ (exists e, snd (u_job u (w_fs w) f) = Err e) /\
  (exists g o, In g files /\ snd (u_job u (w_fs w) g) = Ok o) /\ program m argv w w 0 /\
  command (ma_target m) argv1 = Got c1 /\ same_but_one c f c1 /\ program m argv1 w w 1.
Proof.
  exists wm_m, (fx_argv ["/e"; "/b"]%string "1"), fx_w, (fx_c ["/e"; "/b"]%string "1"), wm_p, 0%N, (lit "/s"), (lit "/e"), fx_argv1, (fx_c ["/e"]%string "1").
  assert (A : asks_several wm_m (fx_argv ["/e"; "/b"]%string "1") fx_fs (fx_c ["/e"; "/b"]%string "1") wm_p 0 (OStore (lit "/s"))) by (apply fx_asks; [vm_compute; reflexivity|cbn; lia]).
  cbv zeta. splits.
  - exact A.
  - apply fx_steady.
  - now left.
  - eexists. vm_compute. reflexivity.
  - exists (lit "/b"). eexists. split; [right; now left|vm_compute; reflexivity].
  - apply (program_several wm_m _ fx_w _ _ _ wm_p 0 (OStore (lit "/s")) A). exists (fx_end ["/e"; "/b"]%string 1). splits; [apply wgos_worked; constructor|vm_compute; reflexivity|]. left. split; [vm_compute; reflexivity|reflexivity].
  - vm_compute. reflexivity.
  - unfold same_but_one. splits; reflexivity.
  - apply (pr_one _ _ _ (fx_c ["/e"]%string "1") (lit "/e")); [vm_compute; reflexivity|reflexivity|vm_compute; reflexivity].
Qed.
Print Assumptions C86_silent_refuted.
(** With two jobs it never ends. *)
Theorem C86_hangs_refuted : exists m argv w c p a dir f, let u := used m c p a (OStore dir) in let files := ar_files (cm_args c) in
  asks_several m argv (w_fs w) c p a (OStore dir) /\ steady u files (w_fs w) (eq (w_fs w)) /\ In f files /\ (exists e, snd (u_job u (w_fs w) f) = Err e) /\ forall v n, ~ program m argv w v n.
Proof.
  exists wm_m, (fx_argv ["/e"; "/b"]%string "2"), fx_w, (fx_c ["/e"; "/b"]%string "2"), wm_p, 0%N, (lit "/s"), (lit "/e").
  assert (A : asks_several wm_m (fx_argv ["/e"; "/b"]%string "2") fx_fs (fx_c ["/e"; "/b"]%string "2") wm_p 0 (OStore (lit "/s"))) by (apply fx_asks; [vm_compute; reflexivity|cbn; lia]).
  cbv zeta. splits; [exact A|apply fx_steady|now left|eexists; vm_compute; reflexivity|]. intros v n P.
  destruct (C86_errors wm_m _ fx_w v n _ wm_p 0 (OStore (lit "/s")) (eq fx_fs) 2 A) as (_ & _ & [X|X]); [apply mx_sorts|exact mx_sane|intros l; reflexivity|apply fx_steady| | | | |exact P| |].
  - apply fx_fit. intros f [<- |[<- |[]]]; vm_compute; tauto.
  - intros g e [<- |[<- |[]]]; vm_compute; discriminate.
  - vm_compute. discriminate.
  - left. split; [reflexivity|]. exists (lit "2"). split; [now left|vm_compute; reflexivity].
  - vm_compute in X. now apply X.
  - apply (f_equal (@length str)) in X. vm_compute in X. discriminate.
Qed.
Print Assumptions C86_hangs_refuted.
(** A file that is not there: the status is 101 whatever the schedule, and the
    program can end. *)
Example C86_ex_panic : let files := map lit ["/zz"; "/b"]%string in
  asks_several wm_m (fx_argv ["/zz"; "/b"]%string "2") fx_fs (fx_c ["/zz"; "/b"]%string "2") wm_p 0 (OStore (lit "/s")) /\ steady vx_store files fx_fs (eq fx_fs) /\ others_fit vx_store fx_fs files /\
  (exists s, snd (u_job vx_store fx_fs (lit "/zz")) = Panic s) /\ (forall g e, In g files -> snd (u_job vx_store fx_fs g) <> Err e) /\
  (exists v, program wm_m (fx_argv ["/zz"; "/b"]%string "2") fx_w v 101) /\ forall v n, program wm_m (fx_argv ["/zz"; "/b"]%string "2") fx_w v n -> n = 101%N /\ v = fx_w.
Proof.
  cbv zeta. set (files := map lit ["/zz"; "/b"]%string).
  assert (A : asks_several wm_m (fx_argv ["/zz"; "/b"]%string "2") fx_fs (fx_c ["/zz"; "/b"]%string "2") wm_p 0 (OStore (lit "/s"))) by (apply fx_asks; [vm_compute; reflexivity|cbn; lia]).
  assert (OF : others_fit vx_store fx_fs files) by (apply fx_fit; intros f [<- |[<- |[]]]; vm_compute; tauto).
  assert (PE : exists s, snd (u_job vx_store fx_fs (lit "/zz")) = Panic s) by (eexists; vm_compute; reflexivity).
  assert (NE : forall g e, In g files -> snd (u_job vx_store fx_fs g) <> Err e) by (intros g e [<- |[<- |[]]]; vm_compute; discriminate).
  splits; [exact A|apply fx_steady|exact OF|exact PE|exact NE| |].
  - exists (k_world (fx_end ["/zz"; "/b"]%string 2)). apply (program_several wm_m _ fx_w _ _ _ wm_p 0 (OStore (lit "/s")) A). exists (fx_end ["/zz"; "/b"]%string 2).
    splits; [apply wgos_worked; constructor|reflexivity|]. right. split; [vm_compute; reflexivity|reflexivity].
  - intros v n P. destruct PE as (s & PE). split.
    + eapply (C86_panic wm_m _ fx_w v n _ wm_p 0 (OStore (lit "/s")) (eq fx_fs) (lit "/zz") s A); [apply mx_sorts|exact mx_sane|intros l; reflexivity|apply fx_steady|exact OF|now left|exact PE|exact NE|exact P].
    + destruct (C86_nothing wm_m _ fx_w v n _ wm_p 0 (OStore (lit "/s")) (eq fx_fs) A) as (O1 & O2 & F & _); [apply fx_steady|vm_compute; discriminate|exact P|]. destruct v as [x y z]. cbn in *. subst. reflexivity.
Qed.
