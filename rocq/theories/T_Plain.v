(** Theorems C80 and C83 in a simple setting: nothing is downloaded and the store is
    new. *)
From Verif Require Import Base BMap Str Utf8 M_Path M_Line M_Source M_Symbol M_Collector M_Object M_Fs M_Cache M_Store M_Input M_Sched M_Cli M_Args M_Many M_Shared M_Main
  S_Path S_Fs S_Cache S_Symbol S_Collector S_Object S_Format S_Store S_Sched S_Many S_Shared S_Cli S_Main S_Whole S_Plain P_Fs P_Object P_Merge P_Format P_Many P_Shared P_Several P_Plain
  T_Format T_Many T_Shared T_Whole.

(** Without symbol servers processing changes nothing, as C80 to C84 ask. *)
Theorem C80_steady : forall u files fs0, no_servers (u_ext u) fs0 -> steady u files fs0 (eq fs0).
Proof. exact steady_plain. Qed.
Print Assumptions C80_steady.

(** The modules of the files can be written. *)
Lemma plain_writable u fs0 check ls f o : sort_perm (re_sort (u_env u)) -> sane (ex_ps (u_ext u)) -> snd (u_job u fs0 f) = Ok o -> plain_module check ls o -> writable ls o.
Proof.
  intros SP SA P (_ & _ & C1 & C2 & C3 & _). destruct (job_fresh (u_ext u) (u_env u) (u_map u) (u_arch u) (u_inl u) fs0 f o SP SA P) as (shown & Fr). now apply (C31_fresh_writable shown).
Qed.
Lemma plain_texts u files fs0 check extra d os : sort_perm (re_sort (u_env u)) -> sane (ex_ps (u_ext u)) -> made_from (re_ck (u_env u)) (u_iter u) (fun f => snd (u_job u fs0 f)) files d os ->
  (forall f, In f files -> exists o ls, snd (u_job u fs0 f) = Ok o /\ plain_module check ls o) -> Forall one_line extra ->
  proper (ob_name d) /\ proper (ob_debug_id d) /\ (check = true -> ob_stack d <> []) /\
  exists lss ls text rs, Forall2 writable lss os /\ Permutation ls (concat lss) /\ fmt_object extra d = Ok text /\ parse_file text = Some rs /\ object_records extra ls d rs.
Proof.
  intros SP SA M H X. pose proof M as (MF & IN & _ & _).
  assert (EACH : forall o, In o os -> exists ls, plain_module check ls o /\ writable ls o /\ ob_debug_id o = ob_debug_id d).
  { intros o Ho. destruct (IN o Ho) as (f & Ff & Pf & Ef). destruct (H f Ff) as (o' & ls & P' & Pl). assert (o = o') by congruence. subst o'. exists ls. splits; auto. now apply (plain_writable u fs0 check ls f o). }
  destruct (each_has (fun ls o => writable ls o) os) as (lss & F). { intros o Ho. destruct (EACH o Ho) as (ls & _ & W & _). eauto. }
  destruct (C63_written _ _ _ _ _ _ lss extra M F X) as (ls & text & rs & P1 & P2 & P3 & P4). splits.
  - apply (merged_name proper _ _ _ _ MF). intros o Ho. destruct (EACH o Ho) as (ls' & (Q & _) & _). exact Q.
  - destruct os as [|o os']; [now apply merged_nonempty in MF|]. destruct (EACH o (or_introl eq_refl)) as (ls' & (_ & Q & _) & _ & <-). exact Q.
  - intros C. apply (merged_stack _ _ _ _ MF). intros o Ho. destruct (EACH o Ho) as (ls' & (_ & _ & _ & _ & _ & Q) & _). auto.
  - exists lss, ls, text, rs. auto.
Qed.
Lemma plain_storable u files fs0 dir : sort_perm (re_sort (u_env u)) -> sane (ex_ps (u_ext u)) -> new_store (u_os u) dir fs0 -> Forall one_line (u_extra u) ->
  (forall f, In f files -> exists o ls, snd (u_job u fs0 f) = Ok o /\ plain_module (u_check u) ls o) -> forall d, candidate u files fs0 d -> storable u dir (eq fs0) d.
Proof.
  intros SP SA NW OL PM d (os & M). destruct (plain_texts u files fs0 (u_check u) (u_extra u) d os SP SA M PM OL) as (Q1 & Q2 & Q3 & lss & ls & text & rs & _ & _ & Ft & _).
  unfold storable. splits; [exact Q1|exact Q2|now exists text|exact Q3|]. intros fs l <- Sd. now apply (room_new _ _ _ _ _ NW Sd).
Qed.

(** Several files whose modules can be written, no symbol servers, a store in
    which there is nothing yet: when the program ends its status is 0; for every
    file the store has a text that reads as the records of the module made of the
    files with its debug id; outside of the store at most directories above it are
    new. *)
Theorem C83_plain : forall m argv w v n c p a dir, let u := used m c p a (OStore dir) in let files := ar_files (cm_args c) in let info := info_of m c in
  asks_several m argv (w_fs w) c p a (OStore dir) -> dir <> [] -> sort_perm (re_sort (ma_env m)) -> sane (ex_ps (ma_ext m)) -> iterates (ma_iter m) ->
  (forall l, os_may (u_os u) l = true) -> no_servers (ma_ext m) (w_fs w) -> new_store (u_os u) dir (w_fs w) -> Forall one_line info ->
  all_read u files (w_fs w) -> (forall f, In f files -> exists o ls, snd (u_job u (w_fs w) f) = Ok o /\ plain_module (cm_check_cfi c) ls o) ->
  program m argv w v n ->
  n = 0 /\ w_out v = w_out w /\ w_err v = w_err w /\
  (forall f o, In f files -> snd (u_job u (w_fs w) f) = Ok o -> exists d os lss ls l text rs,
     made_from (re_ck (ma_env m)) (ma_iter m) (fun f => snd (u_job u (w_fs w) f)) files d os /\ In o os /\
     stored_at (u_os u) dir d l /\ fs_get (w_fs v) l = Some (NFile (encode text)) /\
     Forall2 writable lss os /\ Permutation ls (concat lss) /\ parse_file text = Some rs /\ object_records info ls d rs) /\
  (forall l, (forall k, l <> k ++ locate (os_cwd (u_os u)) dir) -> fs_get (w_fs v) l = fs_get (w_fs w) l \/
     fs_get (w_fs w) l = None /\ fs_get (w_fs v) l = Some NDir /\ exists k, locate (os_cwd (u_os u)) dir = k ++ l).
Proof.
  intros m argv w v n c p a dir u files info A DIR SP SA It MAY NS NW OL G PM P.
  assert (ST : steady u files (w_fs w) (eq (w_fs w))) by now apply C80_steady.
  assert (CAN : forall d, candidate u files (w_fs w) d -> storable u dir (eq (w_fs w)) d) by now apply plain_storable.
  destruct (C83_store m argv w v n c p a dir (eq (w_fs w)) A DIR SP SA It MAY ST CAN G P) as (E & O1 & O2 & F & fs1 & <- & _ & OS). splits; auto.
  - intros f o Ff Pf. destruct (F f o Ff Pf) as (d & l & text & (os & M) & Ed & Sd & Ft & Hd).
    destruct (plain_texts u files (w_fs w) (cm_check_cfi c) info d os SP SA M PM OL) as (_ & _ & _ & lss & ls & text' & rs & F2 & Pm & Ft' & Pf' & Or). change (info_of m c) with info in Ft. assert (text' = text) by congruence. subst text'.
    exists d, os, lss, ls, l, text, rs. splits; auto. destruct M as (_ & _ & AL & _). apply (AL f o); auto.
  - intros l NL. destruct (option_node_dec (fs_get (w_fs v) l) (fs_get (w_fs w) l)) as [X|X]; [now left|right].
    destruct (OS l X) as (d & t & x & _ & (b & s & _ & _ & ->) & Et & Nx).     change ([s; ob_debug_id d; b] ++ locate (os_cwd (u_os u)) dir = x ++ l) in Et.
    destruct (app_eq_app _ _ _ _ Et) as (z & [(E1 & E2)|(E1 & E2)]); [exfalso; now apply (NL z)|].
    destruct Nx as (Y1 & Y2). { intros ->. apply (NL [s; ob_debug_id d; b]). symmetry. exact Et. } splits; auto. now exists z.
Qed.
Print Assumptions C83_plain.
(** It can end. *)
Theorem C83_plain_ends : forall m argv w c p a dir j, let u := used m c p a (OStore dir) in let files := ar_files (cm_args c) in
  asks_several m argv (w_fs w) c p a (OStore dir) -> dir <> [] -> sort_perm (re_sort (ma_env m)) -> sane (ex_ps (ma_ext m)) -> iterates (ma_iter m) ->
  (forall l, os_may (u_os u) l = true) -> no_servers (ma_ext m) (w_fs w) -> new_store (u_os u) dir (w_fs w) -> Forall one_line (info_of m c) ->
  all_read u files (w_fs w) -> (forall f, In f files -> exists o ls, snd (u_job u (w_fs w) f) = Ok o /\ plain_module (cm_check_cfi c) ls o) ->
  jobs_asked m c j -> 2 <= j -> exists v, program m argv w v 0.
Proof.
  intros m argv w c p a dir j u files A DIR SP SA It MAY NS NW OL G PM J J2. apply (C83_can_end m argv w c p a dir (eq (w_fs w)) j); auto; [now apply C80_steady|now apply plain_storable].
Qed.
Print Assumptions C83_plain_ends.

(** Example: the two files of C83. *)
Lemma px_new : new_store (u_os vx_store) (lit "/s") vx_fs.
Proof.
  split.
  - intros k K. change (locate (os_cwd (u_os vx_store)) (lit "/s")) with [lit "s"]. assert (L : forall a, k ++ [lit "s"] <> [a]) by (intros a X; apply (f_equal (@length str)) in X; rewrite app_length in X; destruct k; cbn in X; [easy|lia]).
    change vx_fs with (fs_set (fs_set [] [lit "c"] (NFile (lit "E3PCD"))) [lit "b"] (NFile (lit "E2AB"))).
    rewrite !fs_get_other by (intros X; symmetry in X; now apply L in X). destruct (k ++ [lit "s"]) eqn:X; [now destruct k|reflexivity].
  - intros k up d E. change (locate (os_cwd (u_os vx_store)) (lit "/s")) with [lit "s"] in E. destruct k as [|x k].
    + cbn in E. subst up. discriminate.
    + cbn in E. injection E as _ E. symmetry in E. apply app_eq_nil in E as (_ & ->). discriminate.
Qed.
Lemma px_plain f : In f vx_files -> exists o ls, snd (u_job vx_store vx_fs f) = Ok o /\ plain_module true ls o.
Proof.
  intros F. exists (vx_at f), [lit "CFI INIT 10 20 x"]. split; [now apply vx_job|].
  assert (W1 : one_word (lit "x86_64")) by (split; vm_compute; intuition discriminate).
  assert (W2 : one_word (lit "AB")) by (split; vm_compute; intuition discriminate).
  assert (W3 : one_word (lit "CD")) by (split; vm_compute; intuition discriminate).
  destruct F as [<- |[<- |[]]]; unfold plain_module; (splits; [vm_compute; intuition discriminate|vm_compute; intuition discriminate| | | | ]);
    try (vm_compute; reflexivity); try (apply names_check; vm_compute; reflexivity); try (intros _; vm_compute; discriminate);
    (eapply head_check; try (vm_compute; reflexivity); auto; apply bytes_line_ok; reflexivity).
Qed.
Example C83_ex_plain : no_servers (ma_ext wm_m) vx_fs /\ new_store (u_os vx_store) (lit "/s") vx_fs /\ Forall one_line (info_of wm_m wm_c) /\ all_read vx_store vx_files vx_fs /\
  (forall f, In f vx_files -> exists o ls, snd (u_job vx_store vx_fs f) = Ok o /\ plain_module true ls o) /\ (exists v, program wm_m wm_argv vx_w v 0) /\
  forall v n, program wm_m wm_argv vx_w v n -> n = 0 /\ exists l ls text rs, stored_at (u_os vx_store) (lit "/s") (vx_at (lit "/c")) l /\
    fs_get (w_fs v) l = Some (NFile (encode text)) /\ parse_file text = Some rs /\ object_records [] ls (vx_at (lit "/c")) rs.
Proof.
  assert (J : jobs_asked wm_m wm_c 2) by (right; split; [intros n (_ & ds & [<- |X] & Y); [discriminate Y|discriminate X]|reflexivity]).
  assert (NS : no_servers (ma_ext wm_m) vx_fs) by (intros h X; discriminate X).
  assert (OL : Forall one_line (info_of wm_m wm_c)) by constructor.
  splits; [exact NS|apply px_new|exact OL|apply wm_read|apply px_plain| |].
  - apply (C83_plain_ends wm_m wm_argv vx_w wm_c wm_p 0 (lit "/s") 2); [apply wm_asks|discriminate|apply mx_sorts|exact mx_sane|intros l; reflexivity|reflexivity|exact NS|apply px_new|exact OL|apply wm_read|apply px_plain|exact J|lia].
  - intros v n P. destruct (C83_plain wm_m wm_argv vx_w v n wm_c wm_p 0 (lit "/s") wm_asks) as (E & _ & _ & F & _); [discriminate|apply mx_sorts|exact mx_sane|intros l; reflexivity|reflexivity|exact NS|apply px_new|exact OL|apply wm_read|apply px_plain|exact P|].
    split; [exact E|]. destruct (F (lit "/c") (vx_at (lit "/c"))) as (d & os & lss & ls & l & text & rs & M & Io & Sd & H & _ & _ & Pf & Or); [right; now left|apply (vx_job (fun _ => []) [] (OStore (lit "/s"))); right; now left|].
    assert (C : candidate vx_store vx_files vx_fs d) by now exists os. assert (d = vx_at (lit "/c")) as ->.
    { apply (vx_candidate (fun _ => []) [] (OStore (lit "/s"))) in C as (g & [<- |[<- |[]]] & ->); [exfalso|reflexivity]. destruct M as (_ & IN & _). destruct (IN _ Io) as (_ & _ & _ & X). revert X. vm_compute. discriminate. }
    exists l, ls, text, rs. splits; auto.
Qed.
