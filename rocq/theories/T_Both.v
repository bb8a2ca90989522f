(** Theorems C80, C81 and C83 with two outputs: a symbol store and a stream
    ([--store] with [-o -]) or a file. *)
From Verif Require Import Base BMap Str Utf8 M_Path M_Line M_Source M_Symbol M_Collector M_Object M_Fs M_Cache M_Store M_Input M_Sched M_Cli M_Args M_Many M_Shared M_Main
  S_Path S_Fs S_Cache S_Symbol S_Collector S_Object S_Format S_Store S_Sched S_Many S_Shared S_Cli S_Main S_Whole P_Fs P_Object P_Merge P_Format P_Many P_Shared P_Both P_Ends P_Run P_Progress P_Several
  T_Format T_Store T_Many T_Shared T_Whole.

(** At any time of any run: storing has not failed; every module that has been
    stored is complete in its file, and its pieces on the stream are its text. *)
Theorem C80_both : forall u jobs files fs0 R fo dir w k, steady u files fs0 R -> w_fs w = fs0 ->
  u_out u = OBoth fo dir -> (forall p, fo <> FPath p) -> dir <> [] -> (forall l, os_may (u_os u) l = true) -> (forall d, candidate u files fs0 d -> storable u dir R d) ->
  worked u (Nat.min jobs (length files)) (work_start w jobs files) k ->
  (exists fs1, R fs1 /\ partly u files fs0 (k_threads k) fs1 /\ only_stores (u_os u) dir (k_threads k) fs1 (w_fs (k_world k))) /\ other_of fo (k_world k) = other_of fo w /\
  exists ps, stream_of fo (k_world k) = stream_of fo w ++ concat (map snd ps) /\
    (forall p, In p ps -> exists d, begun (k_threads k) d /\ fst p = ob_debug_id d) /\
    forall d r, In (d, r) (h_log (s_shared (k_threads k))) -> r = Ok tt /\ candidate u files fs0 d /\ exists l text, stored_at (u_os u) dir d l /\ fmt_object (u_extra u) d = Ok text /\
      file_has (u_os u) text (k_world k) l /\ concat (pieces_of (ob_debug_id d) ps) = encode text /\ ((lenN (encode text) < 8192)%N -> pieces_of (ob_debug_id d) ps = [encode text]).
Proof.
  intros u jobs files fs0 R fo dir w k ST E OUT S DIR MAY CAN W.
  destruct (both_store u jobs files fs0 R fo dir ST OUT S DIR MAY CAN w k E W) as (k1 & [B1 (fs1 & R1 & K1 & F1) _ L1 _] & [T1 E1 _]). apply (taken_partly _ _ _ _ _ _ _ B1) in K1.
  destruct (both_stream u jobs files fs0 R fo dir ST OUT S DIR MAY CAN w k E W) as (k2 & ps & [_ _ (O1 & O2) _ L2 A] & [T2 _ X1 X2 _]).
  rewrite T1, E1 in *. rewrite T2 in *. splits; [exists fs1; splits; [exact R1|exact K1|exact F1]|now destruct fo; cbn [other_of] in *; congruence|].
  exists ps. splits; [now destruct fo; cbn [stream_of] in *; congruence|exact A|]. intros d r X. destruct (L1 d r X) as (-> & l & text & Ft & Sl & Hl), (L2 d _ X) as (_ & text' & Ft' & Pc).
  assert (text' = text) by (cbn [with_out u_extra] in *; congruence). subst text'. splits; [reflexivity| |].
  - eapply (begun_candidate (with_out u (OStore dir))); [exact B1|]. rewrite T1. left. unfold stored. apply in_map_iff. exists (d, Ok tt). auto.
  - exists l, text. rewrite Pc. splits; [exact Sl|exact Ft|exact Hl|apply chunks_all|intros; now apply chunks_one].
Qed.
Print Assumptions C80_both.

(** Several files, [--store] and a stream: when the program ends its status is
    0; for every file the store has the text of its module; printed are, for each
    debug id, the same texts one after the other in some order, provided that none
    is longer than the buffer of the writer. *)
Theorem C83_both_partial : forall m argv w v n c p a fo dir R, let u := used m c p a (OBoth fo dir) in let files := ar_files (cm_args c) in
  asks_several m argv (w_fs w) c p a (OBoth fo dir) -> (forall q, fo <> FPath q) -> dir <> [] -> sort_perm (re_sort (ma_env m)) -> sane (ex_ps (ma_ext m)) -> iterates (ma_iter m) ->
  (forall l, os_may (u_os u) l = true) -> steady u files (w_fs w) R -> (forall d, candidate u files (w_fs w) d -> storable u dir R d) -> all_read u files (w_fs w) ->
  program m argv w v n ->
  n = 0%N /\ other_of fo v = other_of fo w /\
  (exists fs1, R fs1 /\ processed u files (w_fs w) fs1 /\ forall l, fs_get (w_fs v) l <> fs_get fs1 l -> exists d t x, candidate u files (w_fs w) d /\ stored_at (u_os u) dir d t /\ t = x ++ l /\
     (x <> [] -> fs_get fs1 l = None /\ fs_get (w_fs v) l = Some NDir)) /\
  exists ds ts, Forall2 (fun d t => fmt_object (info_of m c) d = Ok t /\ exists l, stored_at (u_os u) dir d l /\ file_has (u_os u) t v l) ds ts /\
    NoDup (map ob_debug_id ds) /\ (forall d, In d ds -> candidate u files (w_fs w) d) /\
    (forall f o, In f files -> snd (u_job u (w_fs w) f) = Ok o -> exists d, In d ds /\ ob_debug_id d = ob_debug_id o) /\
    ((forall d text, candidate u files (w_fs w) d -> fmt_object (info_of m c) d = Ok text -> (lenN (encode text) < 8192)%N) -> stream_of fo v = stream_of fo w ++ concat (map encode ts)).
Proof.
  intros m argv w v n c p a fo dir R u files A NP DIR SP SA It MAY ST CAN G P. pose proof A as (_ & L2 & _). apply (program_several m argv w v n c p a (OBoth fo dir) A) in P. cbv zeta in P. fold u files in P, L2.
  set (jobs := N.to_nat (num_jobs (ma_cpus m) (ar_jobs (cm_args c)))) in *. destruct P as (k & W & -> & Q).
  assert (EN : ended (k_threads k)) by (destruct Q as [(Q & _)|(Q & _)]; [left|right]; exact Q).
  destruct (C80_both u jobs files (w_fs w) R fo dir w k ST eq_refl eq_refl NP DIR MAY CAN W) as ((fs1 & R1 & PA & OS) & O1 & ps & _ & _ & L).
  assert (RS : reach (several_sys (u_ext u) (u_env u) (u_iter u) (u_map u) (u_arch u) (u_inl u) (w_fs w) (fun _ r => r = Ok tt)) (Nat.min jobs (length files)) (start jobs files) (k_threads k)).
  { eapply (proj1 (C80_threads u jobs files (w_fs w) R w k (fun r => r = Ok tt) ST eq_refl W eq_refl _)). Unshelve. intros d r X. now destruct (L d r X). }
  assert (J : (1 <= jobs)%nat) by (destruct jobs as [|j]; [exfalso; now apply (none_blocks _ _ _ RS L2)|lia]).
  assert (GI : good_input (re_ck (u_env u)) (fun f => snd (u_job u (w_fs w) f)) (fun _ r => r = Ok tt) files) by (split; [exact G|intros; reflexivity]).
  destruct (C63_works (u_ext u) (u_env u) (u_iter u) (u_map u) (u_arch u) (u_inl u) (w_fs w) (fun _ r => r = Ok tt) files SP SA It GI) as (KK & WK).
  destruct (complete_ok _ jobs files _ KK WK RS EN) as (C & X).
  destruct (C63_stored (u_ext u) (u_env u) (u_iter u) (u_map u) (u_arch u) (u_inl u) (w_fs w) (fun _ r => r = Ok tt) jobs files (k_threads k) SP SA It J GI RS EN) as (_ & ND & MF & AF).
  splits; [|exact O1| |].
  - destruct Q as [(_ & ->)|(Q & _)]; [reflexivity|]. unfold complete in C. rewrite C in Q. discriminate.
  - exists fs1. split; [exact R1|]. split. { eapply whole_end; eauto. intros d r Y. now destruct (L d r Y). } intros l Nl. pose proof (worked_basic u jobs files (w_fs w) R ST w k eq_refl W) as B. destruct (OS l) as [H|[(H1 & H2 & d & t & x & Bd & Sd & Et & Nx)|(d & Bd & Sd & Nd)]]; [contradiction| |].
    + exists d, t, x. splits; auto. eapply begun_candidate; eauto.
    + exists d, l, []. splits; auto; [eapply begun_candidate; eauto|easy].
  - assert (KEPT : forall ds ts, Forall2 (fun d t => fmt_object (info_of m c) d = Ok t) ds ts -> (forall d, In d ds -> In d (stored (k_threads k))) ->
      Forall2 (fun d t => fmt_object (info_of m c) d = Ok t /\ exists l, stored_at (u_os u) dir d l /\ file_has (u_os u) t (k_world k) l) ds ts).
    { induction 1 as [|d t ds ts Ft F IH]; intros I; constructor; [|apply IH; intros e He; apply I; now right]. split; [exact Ft|].
      specialize (I d (or_introl eq_refl)). unfold stored in I. apply in_map_iff in I as ([d' r] & Ed & I). cbn in Ed. subst d'. destruct (L d r I) as (_ & _ & l & text & Sl & Ft' & H & _).
      change (u_extra u) with (info_of m c) in Ft'. assert (text = t) by congruence. subst text. eauto. }
    assert (ALL : exists ts, Forall2 (fun d t => fmt_object (info_of m c) d = Ok t) (stored (k_threads k)) ts).
    { assert (Y : forall ds, (forall d, In d ds -> In d (stored (k_threads k))) -> exists ts, Forall2 (fun d t => fmt_object (info_of m c) d = Ok t) ds ts); [|now apply Y].
      induction ds as [|d ds IH]; intros I; [exists []; constructor|]. destruct IH as (ts & F); [intros e He; apply I; now right|].
      specialize (I d (or_introl eq_refl)). unfold stored in I. apply in_map_iff in I as ([d' r] & Ed & I). cbn in Ed. subst d'. destruct (L d r I) as (_ & _ & l & text & _ & Ft & _). exists (text :: ts). now constructor. }
    destruct (both_stream u jobs files (w_fs w) R fo dir ST eq_refl NP DIR MAY CAN w k eq_refl W) as (k2 & ps2 & I2 & [T2 _ X1 X2 _]).
    assert (SHORT : (forall d text, In d (stored (k_threads k)) -> fmt_object (info_of m c) d = Ok text -> (lenN (encode text) < 8192)%N) ->
      exists ds ts, Permutation ds (stored (k_threads k)) /\ Forall2 (fun d t => fmt_object (info_of m c) d = Ok t) ds ts /\ stream_of fo (k_world k) = stream_of fo w ++ concat (map encode ts)).
    { intros SH. destruct (stream_short _ jobs files (w_fs w) R fo NP (can_print u files (w_fs w) R fo dir CAN) w k2 ps2 I2) as (ds & ts & Pd & F & Sq).
      - rewrite T2. intros x Hx. now rewrite (X x Hx).
      - rewrite T2. exact SH.
      - rewrite T2 in Pd. exists ds, ts. splits; [exact Pd|exact F|]. rewrite <- Sq. now destruct fo; cbn [stream_of]; congruence. }
    assert (DEC : (forall d text, In d (stored (k_threads k)) -> fmt_object (info_of m c) d = Ok text -> (lenN (encode text) < 8192)%N) \/
      exists d text, In d (stored (k_threads k)) /\ fmt_object (info_of m c) d = Ok text /\ ~ (lenN (encode text) < 8192)%N).
    { generalize (stored (k_threads k)). clear. induction l as [|d ds [IH|(d' & t' & I & IH)]]; [left; intros ? ? []| |right; exists d', t'; split; [now right|exact IH]].
      destruct (fmt_object (info_of m c) d) as [t|e|q] eqn:Ft.
      - destruct (lenN (encode t) <? 8192)%N eqn:Lt; [left; intros d' t' [<- |I] F'; [assert (t' = t) by congruence; subst t'; lia|exact (IH d' t' I F')]|right; exists d, t; splits; [now left|exact Ft|lia]].
      - left. intros d' t' [<- |I] F'; [congruence|exact (IH d' t' I F')].
      - left. intros d' t' [<- |I] F'; [congruence|exact (IH d' t' I F')]. }
    assert (FIN : forall ds ts, Permutation ds (stored (k_threads k)) -> Forall2 (fun d t => fmt_object (info_of m c) d = Ok t) ds ts ->
      ((forall d text, candidate u files (w_fs w) d -> fmt_object (info_of m c) d = Ok text -> (lenN (encode text) < 8192)%N) -> stream_of fo (k_world k) = stream_of fo w ++ concat (map encode ts)) ->
      exists ds ts, Forall2 (fun d t => fmt_object (info_of m c) d = Ok t /\ exists l, stored_at (u_os u) dir d l /\ file_has (u_os u) t (k_world k) l) ds ts /\
        NoDup (map ob_debug_id ds) /\ (forall d, In d ds -> candidate u files (w_fs w) d) /\
        (forall f o, In f files -> snd (u_job u (w_fs w) f) = Ok o -> exists d, In d ds /\ ob_debug_id d = ob_debug_id o) /\
        ((forall d text, candidate u files (w_fs w) d -> fmt_object (info_of m c) d = Ok text -> (lenN (encode text) < 8192)%N) -> stream_of fo (k_world k) = stream_of fo w ++ concat (map encode ts))).
    { intros ds ts Pd F Sq. exists ds, ts. splits; [|eapply Permutation_NoDup; [apply Permutation_map; symmetry; exact Pd|exact ND]| | |exact Sq].
      - apply KEPT; [exact F|]. intros d Hd. now apply (Permutation_in _ Pd).
      - intros d Hd. apply MF. now apply (Permutation_in _ Pd).
      - intros f o Ff Po. destruct (AF f o Ff Po) as (d & Hd & Ed). exists d. split; [|exact Ed]. apply (Permutation_in _ (Permutation_sym Pd)). exact Hd. }
    destruct DEC as [SH|(d & text & I & Ft & NS)].
    + destruct (SHORT SH) as (ds & ts & Pd & F & Sq). eapply FIN; eauto.
    + destruct ALL as (ts & F). eapply FIN; [apply Permutation_refl|exact F|]. intros SH. elim NS. apply (SH d); [|exact Ft]. now apply MF.
Qed.
Print Assumptions C83_both_partial.
(** Full statement: without the bound on the texts printed; false by
    C81_whole_refuted. *)
(** There is such an end. *)
Theorem C83_both_ends : forall m argv w c p a fo dir R j, let u := used m c p a (OBoth fo dir) in let files := ar_files (cm_args c) in
  asks_several m argv (w_fs w) c p a (OBoth fo dir) -> (forall q, fo <> FPath q) -> dir <> [] -> sort_perm (re_sort (ma_env m)) -> sane (ex_ps (ma_ext m)) -> iterates (ma_iter m) ->
  (forall l, os_may (u_os u) l = true) -> steady u files (w_fs w) R -> (forall d, candidate u files (w_fs w) d -> storable u dir R d) -> all_read u files (w_fs w) ->
  jobs_asked m c j ->
  (2 <= j)%N \/ (1 <= j)%N /\ (forall f g o o', In f files -> In g files -> snd (u_job u (w_fs w) f) = Ok o -> snd (u_job u (w_fs w) g) = Ok o' -> ob_debug_id o = ob_debug_id o') ->
  exists v, program m argv w v 0.
Proof.
  intros m argv w c p a fo dir R j u files A NP DIR SP SA It MAY ST CAN G JA JJ. pose proof A as (_ & L2 & _). fold files in L2. apply jobs_unique in JA.
  set (jobs := N.to_nat (num_jobs (ma_cpus m) (ar_jobs (cm_args c)))).
  assert (ANS : forall k, worked u (Nat.min jobs (length files)) (work_start w jobs files) k -> forall d r, In (d, r) (h_log (s_shared (k_threads k))) -> r = Ok tt).
  { intros k W d r X. destruct (C80_both u jobs files (w_fs w) R fo dir w k ST eq_refl eq_refl NP DIR MAY CAN W) as (_ & _ & ps & _ & _ & L). now destruct (L d r X). }
  assert (GI : good_input (re_ck (u_env u)) (fun f => snd (u_job u (w_fs w) f)) (fun _ r => r = Ok tt) files) by (split; [exact G|intros; reflexivity]).
  destruct (C63_works (u_ext u) (u_env u) (u_iter u) (u_map u) (u_arch u) (u_inl u) (w_fs w) (fun _ r => r = Ok tt) files SP SA It GI) as (KK & WK).
  destruct (can_end u jobs files (w_fs w) R w ST eq_refl ANS WK) as (k & W & C & _).
  - intros X. rewrite X in L2. cbn in L2. lia.
  - unfold jobs. rewrite <- JA. lia.
  - destruct JJ as [JJ|(_ & JJ)]; [left; unfold jobs; rewrite <- JA; lia|right]. intros (f1 & d1 & f2 & d2 & F1 & F2 & P1 & P2 & N). apply N. exact (JJ f1 f2 d1 d2 F1 F2 P1 P2).
  - exists (k_world k). apply (program_several m argv w _ _ c p a (OBoth fo dir) A). exists k. splits; [exact W|reflexivity|]. left. split; [exact C|reflexivity].
Qed.
Print Assumptions C83_both_ends.

(** ** The other output is a file *)
(** The workers share the file named by -o, which can become a mixture of texts
    (C82); the store is as without it, if the file is not at a place that the store
    needs. *)
Theorem C80_both_file : forall u jobs files fs0 R p dir w k, let x := locate (os_cwd (u_os u)) p in steady u files fs0 R -> w_fs w = fs0 ->
  u_out u = OBoth (FPath p) dir -> dir <> [] -> (forall l, os_may (u_os u) l = true) -> (forall d, candidate u files fs0 d -> storable u dir R d) ->
  (forall fs, R fs -> room fs x) -> (forall d l y, candidate u files fs0 d -> stored_at (u_os u) dir d l -> l <> y ++ x) ->
  worked u (Nat.min jobs (length files)) (work_start w jobs files) k ->
  (forall d r, In (d, r) (h_log (s_shared (k_threads k))) -> r = Ok tt /\ candidate u files fs0 d /\
     exists l text, stored_at (u_os u) dir d l /\ fmt_object (u_extra u) d = Ok text /\ file_has (u_os u) text (k_world k) l) /\
  (exists fs1 fs2, R fs1 /\ partly u files fs0 (k_threads k) fs1 /\ only_stores (u_os u) dir (k_threads k) fs1 fs2 /\ forall l, l <> x -> fs_get (w_fs (k_world k)) l = fs_get fs2 l) /\
  w_out (k_world k) = w_out w /\ w_err (k_world k) = w_err w.
Proof.
  intros u jobs files fs0 R p dir w k x ST E OUT DIR MAY CAN ROOM APART W.
  destruct (both_file u jobs files fs0 R p dir ST OUT DIR MAY CAN ROOM APART w k E W) as (k1 & [B1 (fs1 & R1 & K1 & OS) _ L1 (O1 & O2)] & [T _ OF _ X1 X2 _ _]). apply (taken_partly _ _ _ _ _ _ _ B1) in K1.
  rewrite T in *. splits; [|exists fs1, (w_fs (k_world k1)); splits; [exact R1|exact K1|exact OS|intros l N; symmetry; now apply OF]|congruence|congruence].
  intros d r X. assert (C : candidate u files fs0 d). { eapply (begun_candidate (with_out u (OStore dir))); [exact B1|]. rewrite T. left. unfold stored. apply in_map_iff. exists (d, r). auto. }
  destruct (L1 d r X) as (-> & l & text & Ft & Sl & Hl). splits; [reflexivity|exact C|]. exists l, text. splits; [exact Sl|exact Ft|]. unfold file_has. rewrite <- OF; [exact Hl|]. exact (APART d l [] C Sl).
Qed.
Print Assumptions C80_both_file.
Theorem C83_both_file : forall m argv w v n c p a q dir R, let u := used m c p a (OBoth (FPath q) dir) in let files := ar_files (cm_args c) in let x := locate (os_cwd (u_os u)) q in
  asks_several m argv (w_fs w) c p a (OBoth (FPath q) dir) -> dir <> [] -> sort_perm (re_sort (ma_env m)) -> sane (ex_ps (ma_ext m)) -> iterates (ma_iter m) ->
  (forall l, os_may (u_os u) l = true) -> steady u files (w_fs w) R -> (forall d, candidate u files (w_fs w) d -> storable u dir R d) -> all_read u files (w_fs w) ->
  (forall fs, R fs -> room fs x) -> (forall d l y, candidate u files (w_fs w) d -> stored_at (u_os u) dir d l -> l <> y ++ x) ->
  program m argv w v n ->
  n = 0%N /\ w_out v = w_out w /\ w_err v = w_err w /\
  (forall f o, In f files -> snd (u_job u (w_fs w) f) = Ok o -> exists d l text, candidate u files (w_fs w) d /\ ob_debug_id d = ob_debug_id o /\
     stored_at (u_os u) dir d l /\ fmt_object (info_of m c) d = Ok text /\ file_has (u_os u) text v l) /\
  exists fs1, R fs1 /\ processed u files (w_fs w) fs1 /\ forall l, l <> x -> fs_get (w_fs v) l <> fs_get fs1 l -> exists d t y, candidate u files (w_fs w) d /\ stored_at (u_os u) dir d t /\ t = y ++ l /\
    (y <> [] -> fs_get fs1 l = None /\ fs_get (w_fs v) l = Some NDir).
Proof.
  intros m argv w v n c p a q dir R u files x A DIR SP SA It MAY ST CAN G ROOM APART P. pose proof A as (_ & L2 & _). apply (program_several m argv w v n c p a (OBoth (FPath q) dir) A) in P. cbv zeta in P. fold u files in P, L2.
  set (jobs := N.to_nat (num_jobs (ma_cpus m) (ar_jobs (cm_args c)))) in *. destruct P as (k & W & -> & Q).
  assert (EN : ended (k_threads k)) by (destruct Q as [(Q & _)|(Q & _)]; [left|right]; exact Q).
  destruct (C80_both_file u jobs files (w_fs w) R q dir w k ST eq_refl eq_refl DIR MAY CAN ROOM APART W) as (L & (fs1 & fs2 & R1 & PA & OS & OF) & O1 & O2).
  assert (RS : reach (several_sys (u_ext u) (u_env u) (u_iter u) (u_map u) (u_arch u) (u_inl u) (w_fs w) (fun _ r => r = Ok tt)) (Nat.min jobs (length files)) (start jobs files) (k_threads k)).
  { eapply (proj1 (C80_threads u jobs files (w_fs w) R w k (fun r => r = Ok tt) ST eq_refl W eq_refl _)). Unshelve. intros d r X. now destruct (L d r X). }
  assert (J : (1 <= jobs)%nat) by (destruct jobs as [|j]; [exfalso; now apply (none_blocks _ _ _ RS L2)|lia]).
  assert (GI : good_input (re_ck (u_env u)) (fun f => snd (u_job u (w_fs w) f)) (fun _ r => r = Ok tt) files) by (split; [exact G|intros; reflexivity]).
  destruct (C63_works (u_ext u) (u_env u) (u_iter u) (u_map u) (u_arch u) (u_inl u) (w_fs w) (fun _ r => r = Ok tt) files SP SA It GI) as (KK & WK).
  destruct (complete_ok _ jobs files _ KK WK RS EN) as (C & X).
  destruct (C63_stored (u_ext u) (u_env u) (u_iter u) (u_map u) (u_arch u) (u_inl u) (w_fs w) (fun _ r => r = Ok tt) jobs files (k_threads k) SP SA It J GI RS EN) as (_ & ND & MF & AF).
  splits; [|exact O1|exact O2| |].
  - destruct Q as [(_ & ->)|(Q & _)]; [reflexivity|]. unfold complete in C. rewrite C in Q. discriminate.
  - intros f o Ff Po. destruct (AF f o Ff Po) as (d & Hd & Ed). unfold stored in Hd. apply in_map_iff in Hd as ([d' r] & Y & Lg). cbn in Y. subst d'. destruct (L d r Lg) as (_ & Cd & l & text & Sl & Ft & H). exists d, l, text. splits; auto.
  - exists fs1. split; [exact R1|]. split. { eapply whole_end; eauto. intros d r Y. now destruct (L d r Y). } intros l Nx Nl. rewrite (OF l Nx) in *. pose proof (worked_basic u jobs files (w_fs w) R ST w k eq_refl W) as B. destruct (OS l) as [H|[(H1 & H2 & d & t & y & Bd & Sd & Et & Ny)|(d & Bd & Sd & Nd)]]; [contradiction| |].
    + exists d, t, y. splits; auto. eapply begun_candidate; eauto.
    + exists d, l, []. splits; auto; [eapply begun_candidate; eauto|easy].
Qed.
Print Assumptions C83_both_file.
(** There is such an end. *)
Theorem C83_both_file_ends : forall m argv w c p a q dir R j, let u := used m c p a (OBoth (FPath q) dir) in let files := ar_files (cm_args c) in let x := locate (os_cwd (u_os u)) q in
  asks_several m argv (w_fs w) c p a (OBoth (FPath q) dir) -> dir <> [] -> sort_perm (re_sort (ma_env m)) -> sane (ex_ps (ma_ext m)) -> iterates (ma_iter m) ->
  (forall l, os_may (u_os u) l = true) -> steady u files (w_fs w) R -> (forall d, candidate u files (w_fs w) d -> storable u dir R d) -> all_read u files (w_fs w) ->
  (forall fs, R fs -> room fs x) -> (forall d l y, candidate u files (w_fs w) d -> stored_at (u_os u) dir d l -> l <> y ++ x) ->
  jobs_asked m c j ->
  (2 <= j)%N \/ (1 <= j)%N /\ (forall f g o o', In f files -> In g files -> snd (u_job u (w_fs w) f) = Ok o -> snd (u_job u (w_fs w) g) = Ok o' -> ob_debug_id o = ob_debug_id o') ->
  exists v, program m argv w v 0.
Proof.
  intros m argv w c p a q dir R j u files x A DIR SP SA It MAY ST CAN G ROOM APART JA JJ. pose proof A as (_ & L2 & _). fold files in L2. apply jobs_unique in JA.
  set (jobs := N.to_nat (num_jobs (ma_cpus m) (ar_jobs (cm_args c)))).
  assert (ANS : forall k, worked u (Nat.min jobs (length files)) (work_start w jobs files) k -> forall d r, In (d, r) (h_log (s_shared (k_threads k))) -> r = Ok tt).
  { intros k W d r X. destruct (C80_both_file u jobs files (w_fs w) R q dir w k ST eq_refl eq_refl DIR MAY CAN ROOM APART W) as (L & _). now destruct (L d r X). }
  assert (GI : good_input (re_ck (u_env u)) (fun f => snd (u_job u (w_fs w) f)) (fun _ r => r = Ok tt) files) by (split; [exact G|intros; reflexivity]).
  destruct (C63_works (u_ext u) (u_env u) (u_iter u) (u_map u) (u_arch u) (u_inl u) (w_fs w) (fun _ r => r = Ok tt) files SP SA It GI) as (KK & WK).
  destruct (can_end u jobs files (w_fs w) R w ST eq_refl ANS WK) as (k & W & C & _).
  - intros X. rewrite X in L2. cbn in L2. lia.
  - unfold jobs. rewrite <- JA. lia.
  - destruct JJ as [JJ|(_ & JJ)]; [left; unfold jobs; rewrite <- JA; lia|right]. intros (f1 & d1 & f2 & d2 & F1 & F2 & P1 & P2 & N). apply N. exact (JJ f1 f2 d1 d2 F1 F2 P1 P2).
  - exists (k_world k). apply (program_several m argv w _ _ c p a (OBoth (FPath q) dir) A). exists k. splits; [exact W|reflexivity|]. left. split; [exact C|reflexivity].
Qed.
Print Assumptions C83_both_file_ends.

(** *** Examples *)
(** Example: the two files of C83. *)
Definition bo_argv : list str := map lit ["/b"; "/c"; "-o"; "-"; "--store"; "/s"; "--check-cfi"; "--inlines"; "--no-generator"]%string.
Definition bo_c : Cmd := mkCmd (mkArgs vx_files (Some (lit "-")) (Some (lit "/s")) (lit "error") [] false [] true) None None None (lit "x86_64") true true None None None None.
Definition bo_u : Setup := vx_u (fun _ => []) [] (OBoth FStdout (lit "/s")).
Definition bo_end : Work := wgos bo_u 2 (vx_both ++ [([Worker 1], 2); ([Worker 0], 2); ([Worker 1], 1); (vx_all, 100)])%nat vx_start.
Example C83_ex_both : asks_several wm_m bo_argv vx_fs bo_c wm_p 0 (OBoth FStdout (lit "/s")) /\ used wm_m bo_c wm_p 0 (OBoth FStdout (lit "/s")) = bo_u /\ steady bo_u vx_files vx_fs (eq vx_fs) /\
  (forall d, candidate bo_u vx_files vx_fs d -> storable bo_u (lit "/s") (eq vx_fs) d) /\ all_read bo_u vx_files vx_fs /\ jobs_asked wm_m bo_c 2 /\
  exists v t1 t2, program wm_m bo_argv vx_w v 0 /\ fmt_object [] (vx_at (lit "/b")) = Ok t1 /\ fmt_object [] (vx_at (lit "/c")) = Ok t2 /\
    (w_out v = lit "> " ++ encode t1 ++ encode t2 \/ w_out v = lit "> " ++ encode t2 ++ encode t1) /\
    fs_get (w_fs v) (rev [lit "s"; lit "b"; lit "AB"; lit "b.sym"]) = Some (NFile (encode t1)) /\ fs_get (w_fs v) (rev [lit "s"; lit "c"; lit "CD"; lit "c.sym"]) = Some (NFile (encode t2)).
Proof.
  assert (A : asks_several wm_m bo_argv vx_fs bo_c wm_p 0 (OBoth FStdout (lit "/s"))) by (unfold asks_several; splits; [vm_compute; reflexivity|cbn; lia|reflexivity|apply Forall_nil|left; split; reflexivity|reflexivity|reflexivity]).
  splits; [exact A|reflexivity|apply vx_steady|exact vx_storable| | |].
  - intros f Ff. destruct (wm_read f Ff) as (o & P & E). exists o. split; [|exact E]. unfold bo_u. rewrite vx_job by exact Ff. unfold vx_store in P. rewrite vx_job in P by exact Ff. exact P.
  - right; split; [intros n (_ & ds & [<- |X] & Y); [discriminate Y|discriminate X]|reflexivity].
  - exists (k_world bo_end), (match fmt_object [] (vx_at (lit "/b")) with Ok t => t | _ => [] end), (match fmt_object [] (vx_at (lit "/c")) with Ok t => t | _ => [] end).
    split; [|splits; [vm_compute; reflexivity|vm_compute; reflexivity|first [left; vm_compute; reflexivity|right; vm_compute; reflexivity]|vm_compute; reflexivity|vm_compute; reflexivity]].
    apply (program_several wm_m bo_argv vx_w _ _ bo_c wm_p 0 (OBoth FStdout (lit "/s")) A). exists bo_end. splits; [apply wgos_worked; constructor|reflexivity|]. left. split; [vm_compute; reflexivity|reflexivity].
Qed.
(** With -o /o.sym: the store is complete, the file a mixture. *)
Definition bf_argv : list str := map lit ["/b"; "/c"; "-o"; "/o.sym"; "--store"; "/s"; "--check-cfi"; "--inlines"; "--no-generator"]%string.
Definition bf_c : Cmd := mkCmd (mkArgs vx_files (Some (lit "/o.sym")) (Some (lit "/s")) (lit "error") [] false [] true) None None None (lit "x86_64") true true None None None None.
Definition bf_out : Output := OBoth (FPath (lit "/o.sym")) (lit "/s").
Definition bf_u : Setup := vx_u (fun _ => []) [] bf_out.
Definition bf_end : Work := wgos bf_u 2 (vx_both ++ [([Worker 1; Worker 0], 6); ([Worker 1], 2); ([Worker 0], 2); ([Worker 1], 1); (vx_all, 100)])%nat vx_start.
Example C83_ex_both_file : asks_several wm_m bf_argv vx_fs bf_c wm_p 0 bf_out /\ used wm_m bf_c wm_p 0 bf_out = bf_u /\ steady bf_u vx_files vx_fs (eq vx_fs) /\
  (forall d, candidate bf_u vx_files vx_fs d -> storable bf_u (lit "/s") (eq vx_fs) d) /\ all_read bf_u vx_files vx_fs /\ jobs_asked wm_m bf_c 2 /\
  (forall fs, eq vx_fs fs -> room fs [lit "o.sym"]) /\ (forall d l y, candidate bf_u vx_files vx_fs d -> stored_at (u_os bf_u) (lit "/s") d l -> l <> y ++ [lit "o.sym"]) /\
  exists v t1 t2 b, program wm_m bf_argv vx_w v 0 /\ fmt_object [] (vx_at (lit "/b")) = Ok t1 /\ fmt_object [] (vx_at (lit "/c")) = Ok t2 /\
    fs_get (w_fs v) (rev [lit "s"; lit "b"; lit "AB"; lit "b.sym"]) = Some (NFile (encode t1)) /\ fs_get (w_fs v) (rev [lit "s"; lit "c"; lit "CD"; lit "c.sym"]) = Some (NFile (encode t2)) /\
    fs_get (w_fs v) [lit "o.sym"] = Some (NFile b).
Proof.
  assert (A : asks_several wm_m bf_argv vx_fs bf_c wm_p 0 bf_out) by (unfold asks_several; splits; [vm_compute; reflexivity|cbn; lia|reflexivity|apply Forall_nil|right; split; [discriminate|reflexivity]|reflexivity|reflexivity]).
  splits; [exact A|reflexivity|apply vx_steady|exact vx_storable| | | | |].
  - intros f Ff. destruct (wm_read f Ff) as (o & P & E). exists o. split; [|exact E]. unfold bf_u. rewrite vx_job by exact Ff. unfold vx_store in P. rewrite vx_job in P by exact Ff. exact P.
  - right; split; [intros n (_ & ds & [<- |X] & Y); [discriminate Y|discriminate X]|reflexivity].
  - intros fs <-. exists (lit "o.sym"), []. splits; [reflexivity|reflexivity|vm_compute; discriminate].
  - intros d l y _ (b & s & _ & _ & ->) E. apply (f_equal (fun l => last l [])) in E. rewrite last_last in E. vm_compute in E. discriminate.
  - exists (k_world bf_end), (match fmt_object [] (vx_at (lit "/b")) with Ok t => t | _ => [] end), (match fmt_object [] (vx_at (lit "/c")) with Ok t => t | _ => [] end), (match fs_get (w_fs (k_world bf_end)) [lit "o.sym"] with Some (NFile b) => b | _ => [] end).
    split; [|splits; vm_compute; reflexivity].
    apply (program_several wm_m bf_argv vx_w _ _ bf_c wm_p 0 bf_out A). exists bf_end. splits; [apply wgos_worked; constructor|reflexivity|]. left. split; [vm_compute; reflexivity|reflexivity].
Qed.
