(** Theorem C88 for several files: running the program again leaves the files as
    they are. *)
From Verif Require Import Base Str Utf8 M_Path M_Source M_Symbol M_Object M_Fs M_Cache M_Store M_Input M_Sched M_Cli M_Args M_Mapping M_Many M_Shared M_Main
  S_Path S_Fs S_Cache S_Symbol S_Collector S_Object S_Format S_Store S_Input S_Sched S_Many S_Shared S_Cli S_Main S_Whole S_Plain S_Again S_Grown P_Fs P_Store P_Input P_Many P_Shared P_Several P_Plain P_Again
  T_Input T_Mapping T_Many T_Shared T_Whole T_Plain T_Main T_Again T_Grown.

Lemma made_ext ck iter proc proc' files d os : (forall f, In f files -> proc' f = proc f) -> made_from ck iter proc files d os -> made_from ck iter proc' files d os.
Proof.
  intros E (M & A & B & L). unfold made_from. splits; [exact M| | |].
  - intros o Io. destruct (A o Io) as (f & Ff & P & Q). exists f. rewrite E by exact Ff. auto.
  - intros f o Ff P. rewrite E in P by exact Ff. exact (B f o Ff P).
  - rewrite L. f_equal. apply filter_ext_in. intros f Ff. now rewrite E.
Qed.
(** Several files, each with a debug id of its own, and [--store]; no symbol
    servers, no rules for paths, and nothing is stored where input files are
    looked for: the second run ends like the first and changes nothing. *)
Theorem C88_several : forall m argv w v v' n n' c p a dir, let u := used m c p a (OStore dir) in let files := ar_files (cm_args c) in
  asks_several m argv (w_fs w) c p a (OStore dir) -> cm_map_file c = None -> cm_src c = None -> cm_dest c = None ->
  dir <> [] -> sort_perm (re_sort (ma_env m)) -> sane (ex_ps (ma_ext m)) -> iterates (ma_iter m) -> (forall l, os_may (u_os u) l = true) ->
  Forall proper (os_cwd (u_os u)) -> tree (w_fs w) -> no_servers (ma_ext m) (w_fs w) -> (forall f, In f files -> exists d, input_at (ma_ext m) (w_fs w) f d) ->
  (forall f o, In f files -> snd (u_job u (w_fs w) f) = Ok o -> files_of (fun g => snd (u_job u (w_fs w) g)) (ob_debug_id o) files = [f]) ->
  (forall g o l, In g files -> snd (u_job u (w_fs w) g) = Ok o -> stored_at (u_os u) dir o l ->
     (forall f d, In f files -> input_at (ma_ext m) (w_fs w) f d -> ~ looked_at (ma_ext m) f d l) /\ forall h k, ex_home (ma_ext m) = Some h -> l <> k ++ config_at (ex_os (ma_ext m)) h) ->
  (forall d, candidate u files (w_fs w) d -> storable u dir (eq (w_fs w)) d) -> all_read u files (w_fs w) ->
  program m argv w v n -> program m argv v v' n' ->
  n = 0%N /\ n' = 0%N /\ same_fs (w_fs v') (w_fs v) /\ w_out v' = w_out v /\ w_err v' = w_err v.
Proof.
  intros m argv w v v' n n' c p a dir u files A R1 R2 R3 DIR SP SA It MAY CW TR NS IN OWN AP CAN G P P'.
  destruct (C83_store m argv w v n c p a dir (eq (w_fs w)) A DIR SP SA It MAY (C80_steady u files (w_fs w) NS) CAN G P) as (N0 & _ & _ & F & fs1 & <- & _ & OS).
  assert (TV : tree (w_fs v)) by (destruct (C89_program _ _ _ _ _ P) as ((_ & _ & T) & _); now apply T).
  (* the modules are those of the files *)
  assert (MO : forall d, candidate u files (w_fs w) d -> exists f, In f files /\ snd (u_job u (w_fs w) f) = Ok d).
  { intros d (os & M). pose proof M as (MF & MI & _). destruct os as [|o os]; [now apply merged_nonempty in MF|]. destruct (MI o (or_introl eq_refl)) as (f & Ff & Pf & Ef).
    assert (d = o) by (apply (only_file _ _ _ _ _ _ f o (OWN f o Ff Pf) Pf (eq_sym Ef) M)). subst d. eauto. }
  assert (ONE : forall d f o, candidate u files (w_fs w) d -> In f files -> snd (u_job u (w_fs w) f) = Ok o -> ob_debug_id d = ob_debug_id o -> d = o).
  { intros d f o (os & M) Ff Pf Ed. exact (only_file _ _ _ _ _ _ f o (OWN f o Ff Pf) Pf Ed M). }
  assert (K : forall d l, candidate u files (w_fs w) d -> stored_at (u_os u) dir d l -> exists text, fmt_object (info_of m c) d = Ok text /\ fs_get (w_fs v) l = Some (NFile (encode text))).
  { intros d l Cd Sd. destruct (MO d Cd) as (f & Ff & Pf). destruct (F f d Ff Pf) as (d' & l' & text & Cd' & Ed & Sd' & Ft & Hd). assert (d' = d) by now apply (ONE d' f d). subst d'.
    destruct (CAN d Cd) as (Pn & _). rewrite (stored_unique _ _ _ _ _ Pn Sd Sd'). eauto. }
  assert (NV : no_servers (ma_ext m) (w_fs v)).
  { intros h Eh. destruct (option_node_dec (fs_get (w_fs v) (config_at (ex_os (ma_ext m)) h)) (fs_get (w_fs w) (config_at (ex_os (ma_ext m)) h))) as [E|E]; [rewrite E; now apply NS|exfalso].
    destruct (OS _ E) as (d & t & x & Cd & Sd & Et & _). destruct (MO d Cd) as (g & Fg & Pg). destruct (AP g d t Fg Pg Sd) as (_ & Q). exact (Q h x Eh Et). }
  assert (JOB : forall f, In f files -> u_job u (w_fs v) f = (w_fs v, snd (u_job u (w_fs w) f))).
  { intros f Ff. destruct (IN f Ff) as (d & ID).
    assert (SF : same_files (looked_at (ma_ext m) f d) (w_fs w) (w_fs v)).
    { intros l b Ll. destruct (option_node_dec (fs_get (w_fs v) l) (fs_get (w_fs w) l)) as [E|E]; [now rewrite E|]. destruct (OS _ E) as (dd & t & x & Cd & Sd & Et & Nx). destruct x as [|y x].
      - exfalso. cbn in Et. subst t. destruct (MO dd Cd) as (g & Fg & Pg). destruct (AP g dd l Fg Pg Sd) as (Q & _). exact (Q f d Ff ID Ll).
      - destruct (Nx ltac:(discriminate)) as (X1 & X2). rewrite X1, X2. split; discriminate. }
    unfold u_job. cbn [u used u_ext u_env u_map u_arch u_inl]. rewrite !(C63_as_alone _ _ (OStore dir) (cm_check_cfi c)).
    apply (again_load (ma_ext m) (w_fs w) (w_fs v) f d CW SF ID); unfold local_only; splits; trivial. }
  assert (CE : forall d, candidate u files (w_fs v) d <-> candidate u files (w_fs w) d).
  { intros d. split; intros (os & M); exists os; (eapply made_ext; [|exact M]); intros f Ff; cbn beta; rewrite (JOB f Ff); reflexivity. }
  assert (CV : forall d, candidate u files (w_fs v) d -> storable u dir (eq (w_fs v)) d).
  { intros d Cd. apply CE in Cd. pose proof (CAN d Cd) as (S1 & S2 & S3 & S4 & _). unfold storable. splits; trivial. intros fs l <- Sd. destruct (K d l Cd Sd) as (text & _ & Gl). split; [|split].
    - intros ->. discriminate.
    - congruence.
    - intros k up b E Nk. rewrite E in Gl. rewrite (tree_up _ k up _ TV Nk Gl). discriminate. }
  assert (AV : asks_several m argv (w_fs v) c p a (OStore dir)).
  { destruct A as (A1 & A2 & A3 & A4 & A5 & A6 & A7). unfold asks_several. splits; trivial. now rewrite (no_rules_same m (w_fs w) (w_fs v) c R1 R2 R3). }
  assert (GV : all_read u files (w_fs v)) by (intros f Ff; rewrite (JOB f Ff); exact (G f Ff)).
  destruct (C83_store m argv v v' n' c p a dir (eq (w_fs v)) AV DIR SP SA It MAY (C80_steady u files (w_fs v) NV) CV GV P') as (N1 & O1 & O2 & F' & fs1 & <- & _ & OS'). splits; trivial.
  intros l. destruct (option_node_dec (fs_get (w_fs v') l) (fs_get (w_fs v) l)) as [E|E]; [exact E|exfalso]. destruct (OS' l E) as (d & t & x & Cd & Sd & Et & Nx). apply CE in Cd. destruct (K d t Cd Sd) as (text & Ft & Gt).
  destruct x as [|y x].
  - cbn in Et. subst t. apply E. rewrite Gt. destruct (MO d Cd) as (f & Ff & Pf). destruct (F' f d Ff) as (d' & l' & text' & Cd' & Ed & Sd' & Ft' & Hd); [fold u; now rewrite (JOB f Ff)|]. apply CE in Cd'.
    assert (d' = d) by now apply (ONE d' f d). subst d'. destruct (CAN d Cd) as (Pn & _). rewrite (stored_unique _ _ _ _ _ Pn Sd Sd'). assert (text' = text) by congruence. subst text'. exact Hd.
  - destruct (Nx ltac:(discriminate)) as (X & _). rewrite Et in Gt. rewrite (tree_up _ (y :: x) l _ TV ltac:(discriminate) Gt) in X. discriminate.
Qed.
Print Assumptions C88_several.

(** Example: the two files of C83. *)
Lemma rp_proper k : k = lit "b" \/ k = lit "c" -> proper k.
Proof. intros [-> | ->]; unfold proper; splits; vm_compute; intuition discriminate. Qed.
Lemma rp_tree : tree vx_fs.
Proof.
  intros k l x X. assert (A : afind loc_eqb (k :: l) vx_fs <> None) by (intros A; change (fs_get vx_fs (k :: l)) with (afind loc_eqb (k :: l) vx_fs) in X; congruence).
  apply afind_in in A as (y & [Y|[Y|[]]]); injection Y as _ <- _; reflexivity.
Qed.
Definition rp_raw (k : str) : list N := if str_eqb k (lit "b") then lit "E2AB" else lit "E3PCD".
Lemma rp_file f : In f vx_files -> exists k, last_name f k /\ locate (os_cwd (ex_os (ma_ext wm_m))) f = [k] /\ fs_get vx_fs [k] = Some (NFile (rp_raw k)) /\ unpacked (ex_cab (ma_ext wm_m)) (rp_raw k) k (rp_raw k) /\
  ps_peek (ex_ps (ma_ext wm_m)) (rp_raw k) = FmtElf /\ ps_pe (ex_ps (ma_ext wm_m)) (rp_raw k) = None.
Proof.
  intros [<- |[<- |[]]]; [exists (lit "b")|exists (lit "c")]; (splits; [split; [apply rp_proper; auto|right; now exists []]|vm_compute; reflexivity|vm_compute; reflexivity|left; split; reflexivity|vm_compute; reflexivity|vm_compute; reflexivity]).
Qed.
Example C88_ex_several : exists v, program wm_m wm_argv vx_w v 0 /\ ~ same_fs (w_fs v) (w_fs vx_w) /\ forall v' n, program wm_m wm_argv v v' n -> n = 0%N /\ same_fs (w_fs v') (w_fs v).
Proof.
  destruct C83_ex as (_ & _ & _ & _ & _ & _ & _ & _ & _ & (v & P) & SOME). exists v. split; [exact P|]. split.
  { intros S. destruct (SOME v 0%N P) as (_ & t & _ & Gt). rewrite S in Gt. vm_compute in Gt. discriminate. }
  intros v' n P'. destruct (C88_several wm_m wm_argv vx_w v v' 0 n wm_c wm_p 0 (lit "/s") wm_asks) as (_ & E & S & _); try reflexivity; [discriminate|apply mx_sorts|exact mx_sane|intros l; reflexivity|..|exact P|exact P'|auto].
  all: try exact wm_read; try exact vx_storable; try exact rp_tree.
  - repeat constructor; try discriminate; vm_compute; intuition discriminate.
  - intros h X. discriminate X.
  - intros f Ff. destruct (rp_file f Ff) as (k & L & El & Gf & U & _ & Np). exists (rp_raw k). split; [exists k, (rp_raw k); rewrite El; auto|]. intros pe recorded r Q. congruence.
  - intros f o Ff Pf. change (used wm_m wm_c wm_p 0 (OStore (lit "/s"))) with vx_store in *. unfold vx_store in Pf. cbn [w_fs vx_w] in Pf. rewrite vx_job in Pf by exact Ff. injection Pf as <-. destruct Ff as [<- |[<- |[]]]; vm_compute; reflexivity.
  - intros g o l Fg Pg (b & s & _ & _ & ->). split; [|intros h k X; discriminate X]. intros f d Ff ((k & raw & L & Gf & U) & _) LA. destruct (rp_file f Ff) as (k' & L' & El & Gf' & U' & Pk & Np).
    assert (k' = k). { destruct (last_name_push _ _ L) as (q & Eq). rewrite Eq, locate_push in El by exact (proj1 L). congruence. } subst k'. rewrite El in Gf. change (fs_get vx_fs [k] = Some (NFile raw)) in Gf. assert (raw = rp_raw k) by congruence. subst raw.
    assert (d = rp_raw k) by exact (unpacked_fun _ _ _ _ _ U U'). subst d. destruct LA as [X|[(X & _)|(X & _)]]; [|congruence..]. rewrite El in X. discriminate.
Qed.
(** Two files with one debug id: the second run can add a file to the store,
    because the workers get to merge them in the other order and the module then
    has the name of the other file (C64). *)
Definition rp_fs : FS := [([lit "a"], NFile (lit "E1AB")); ([lit "b"], NFile (lit "E2AB"))].
Definition rp_files : list str := [lit "/a"; lit "/b"].
Definition rp_w : World := mkWorld rp_fs [] [].
Definition rp_argv : list str := map lit ["/a"; "/b"; "--store"; "/s"; "--check-cfi"; "--inlines"; "--no-generator"]%string.
Definition rp_c : Cmd := wm_args rp_files (Some (lit "/s")).
Definition rp_first : Work := wgos vx_store 2 [([Worker 0; Worker 1; Main], 200)]%nat (work_start rp_w 2 rp_files).
Definition rp_second : Work := wgos vx_store 2 [([Main], 2); ([Worker 0], 1); ([Worker 1], 1); ([Worker 1; Worker 0; Main], 200)]%nat (work_start (k_world rp_first) 2 rp_files).
Theorem C88_shared_id_refuted : exists m argv w v v' c p a dir, let u := used m c p a (OStore dir) in let files := ar_files (cm_args c) in
  asks_several m argv (w_fs w) c p a (OStore dir) /\ cm_map_file c = None /\ cm_src c = None /\ cm_dest c = None /\
  sort_perm (re_sort (ma_env m)) /\ sane (ex_ps (ma_ext m)) /\ iterates (ma_iter m) /\ (forall l, os_may (u_os u) l = true) /\ healthy (u_os u) /\
  tree (w_fs w) /\ no_servers (ma_ext m) (w_fs w) /\ new_store (u_os u) dir (w_fs w) /\ all_read u files (w_fs w) /\
  program m argv w v 0 /\ program m argv v v' 0 /\ ~ same_fs (w_fs v') (w_fs v).
Proof.
  exists wm_m, rp_argv, rp_w, (k_world rp_first), (k_world rp_second), rp_c, wm_p, 0%N, (lit "/s"). cbv zeta.
  assert (A : forall fs, asks_several wm_m rp_argv fs rp_c wm_p 0 (OStore (lit "/s"))) by (intros fs; unfold asks_several; splits; [vm_compute; reflexivity|cbn; lia|reflexivity|constructor|reflexivity|reflexivity|reflexivity]).
  splits; [apply A|reflexivity..|apply mx_sorts|exact mx_sane|intros l; reflexivity|reflexivity|intros l; reflexivity| |intros h X; discriminate X| | | | |].
  - intros k l x X. assert (Q : afind loc_eqb (k :: l) rp_fs <> None) by (change (afind loc_eqb (k :: l) rp_fs = Some x) in X; congruence).
    apply afind_in in Q as (y & [Y|[Y|[]]]); injection Y as _ <- _; reflexivity.
  - split.
    + intros k K. change (fs_get rp_fs (k ++ [lit "s"]) = None).
      destruct (fs_get rp_fs (k ++ [lit "s"])) as [x|] eqn:X; [exfalso|reflexivity]. destruct k as [|z k]; [easy|]. assert (Q : afind loc_eqb ((z :: k) ++ [lit "s"]) rp_fs <> None) by (intros Q; change (fs_get rp_fs ((z :: k) ++ [lit "s"])) with (afind loc_eqb ((z :: k) ++ [lit "s"]) rp_fs) in X; congruence).
      apply afind_in in Q as (y & [Y|[Y|[]]]); injection Y as _ Y _; now destruct k.
    + intros k up d E. change ([lit "s"] = k ++ up) in E. destruct k as [|x k].
      * cbn in E. subst up. discriminate.
      * cbn in E. injection E as _ E. symmetry in E. apply app_eq_nil in E as (_ & ->). discriminate.
  - intros f [<- |[<- |[]]]; (eexists; split; [vm_compute; reflexivity|right; apply fits_dec; [vm_compute; reflexivity|vm_compute; repeat constructor]]).
  - apply (program_several wm_m rp_argv rp_w _ _ rp_c wm_p 0 (OStore (lit "/s")) (A _)). exists rp_first. splits; [apply wgos_worked; constructor|reflexivity|]. left. split; [vm_compute; reflexivity|reflexivity].
  - apply (program_several wm_m rp_argv (k_world rp_first) _ _ rp_c wm_p 0 (OStore (lit "/s")) (A _)). exists rp_second. splits; [apply wgos_worked; constructor|reflexivity|]. left. split; [vm_compute; reflexivity|reflexivity].
  - intros S. specialize (S [lit "b.sym"; lit "AB"; lit "b"; lit "s"]). vm_compute in S. discriminate.
Qed.
Print Assumptions C88_shared_id_refuted.
