(** Theorems C80 to C82: workers that share the file system and the streams. *)
From Verif Require Import Base BMap Str Utf8 M_Path M_Line M_Source M_Symbol M_Collector M_Object M_Fs M_Cache M_Store M_Input M_Sched M_Cli M_Many M_Shared
  S_Path S_Fs S_Symbol S_Collector S_Object S_Store S_Sched S_Many S_Shared P_Fs P_Store P_Sched P_Run P_Ends P_Shared T_Object T_Sched T_Input T_Many.
From Verif Require P_Several P_Many.

(** A scheduler for examples: [n] steps of the first thread of [order] that can go
    on, and so on. *)
Fixpoint wgo (u : Setup) (nj : nat) (order : list Thread) (fuel : nat) (k : Work) : Work :=
  match fuel with
  | O => k
  | S n =>
      match filter (fun o => match o with Some _ => true | None => false end) (map (fun t => work_step u nj (map snd) t k) order) with
      | Some k' :: _ => wgo u nj order n k'
      | _ => k
      end
  end.
Definition wgos (u : Setup) (nj : nat) (l : list (list Thread * nat)) (k : Work) : Work := fold_left (fun k p => wgo u nj (fst p) (snd p) k) l k.
Lemma wgo_worked u nj order fuel k0 k : worked u nj k0 k -> worked u nj k0 (wgo u nj order fuel k).
Proof.
  revert k. induction fuel as [|n IH]; intros k W; cbn [wgo]; [exact W|].
  destruct (filter _ _) as [|[k'|] l] eqn:E; auto. apply IH.
  assert (H : In (Some k') (map (fun t => work_step u nj (map snd) t k) order)) by (apply (filter_In (fun o => match o with Some _ => true | None => false end)); rewrite E; now left).
  apply in_map_iff in H. destruct H as (t & Ht & _). eapply worked_step; [exact W|reflexivity|exact Ht].
Qed.
Lemma wgos_worked u nj l k0 k : worked u nj k0 k -> worked u nj k0 (wgos u nj l k).
Proof. revert k. induction l as [|p l IH]; intros k W; [exact W|]. cbn. apply IH. now apply wgo_worked. Qed.

Definition vx_fs : FS := [([lit "b"], NFile (lit "E2AB")); ([lit "c"], NFile (lit "E3PCD"))].
Definition vx_files : list str := [lit "/b"; lit "/c"].
Definition vx_u (cuts : list N -> list N) (extra : list str) (out : Output) : Setup :=
  mkSetup (mkExt mx_ps (M_Cache.mkCEnv (mkOs [lit "w"; lit "home"] (fun _ => true) (fun d => d) cuts) ix_cab (fun _ => true)) (mkNet (fun _ => None) (fun _ => None)) (fun l => l) None)
    ix_env (fun l => l) (fun _ => Ok None) 0 true extra out true.
Definition vx_w : World := mkWorld vx_fs (lit "> ") [].
Definition vx_start : Work := work_start vx_w 2 vx_files.
(** Both workers are about to store. *)
Definition vx_both : list (list Thread * nat) := [([Main], 10); ([Worker 0], 20); ([Worker 1], 1); ([Worker 0], 3)]%nat.
Definition vx_all : list Thread := [Main; Worker 0; Worker 1].
Lemma vx_steady cuts extra out : steady (vx_u cuts extra out) vx_files vx_fs (eq vx_fs).
Proof.
  split; [reflexivity|]. intros fs f <- [<- |[<- |[]]]; (split; [vm_compute; reflexivity|reflexivity]).
Qed.
Definition vx_at (f : str) : Obj := match snd (u_job (vx_u (fun _ => []) [] (OFile FStdout)) vx_fs f) with Ok o => o | _ => ox_a end.
Lemma vx_job cuts extra out f : In f vx_files -> snd (u_job (vx_u cuts extra out) vx_fs f) = Ok (vx_at f).
Proof. intros [<- |[<- |[]]]; vm_compute; reflexivity. Qed.
Lemma merged_nonempty ck iter os d : merged_from ck iter os d -> os <> [].
Proof. induction 1 as [o|a b x y m A IA B IB E]; [discriminate|]. intros X. apply app_eq_nil in X. tauto. Qed.
Lemma merged_single ck iter o d : merged_from ck iter [o] d -> d = o.
Proof.
  intros M. remember [o] as os eqn:E. destruct M as [x|a b x y m A B _]; [congruence|]. apply merged_nonempty in A, B. destruct a as [|? [|? ?]], b; try easy.
Qed.
Lemma vx_candidate cuts extra out d : candidate (vx_u cuts extra out) vx_files vx_fs d -> exists f, In f vx_files /\ d = vx_at f.
Proof.
  intros (os & M & A & _ & L). destruct os as [|o os]; [now apply merged_nonempty in M|]. destruct (A o (or_introl eq_refl)) as (f & Ff & P & E). exists f. split; [exact Ff|].
  rewrite (vx_job cuts extra out f Ff) in P. injection P as <-. destruct os as [|x os]; [now apply merged_single in M|]. exfalso. cbn [length] in L.
  assert (Q : (length (filter (fun g => match snd (u_job (vx_u cuts extra out) vx_fs g) with Ok o => str_eqb (ob_debug_id o) (ob_debug_id d) | _ => false end) vx_files) <= 1)%nat); [|lia].
  rewrite <- E. destruct Ff as [<- |[<- |[]]]; vm_compute; lia.
Qed.

(** ** C80: the symbol store *)
(** No file is processed once storing has begun, and the threads do what they do
    when nothing changes the file system (so that C46-C50 and C63-C66 hold):
    [T] is what is known of the answers of [store]. *)
Theorem C80_threads : forall u jobs files fs0 R w k (T : res unit -> Prop), steady u files fs0 R -> w_fs w = fs0 ->
  worked u (Nat.min jobs (length files)) (work_start w jobs files) k ->
  T (Ok tt) -> (forall d r, In (d, r) (h_log (s_shared (k_threads k))) -> T r) ->
  reach (several_sys (u_ext u) (u_env u) (u_iter u) (u_map u) (u_arch u) (u_inl u) fs0 (fun _ r => T r)) (Nat.min jobs (length files)) (start jobs files) (k_threads k) /\
  forall i f d, nth_error (s_workers (k_threads k)) i = Some (WGet f) -> ~ begun (k_threads k) d.
Proof.
  intros u jobs files fs0 R w k T ST E W TO L. split; [eapply worked_reach; eauto|].
  intros i f d H. exact (get_unbegun u jobs files fs0 _ _ i f (b_reach _ _ _ _ _ _ (worked_basic u jobs files fs0 R ST w k E W)) H d).
Qed.
Print Assumptions C80_threads.
(** When the process has ended nothing goes on, whatever the workers were at. *)
Theorem C80_over : forall u nj drain t k k', ended (k_threads k) -> work_step u nj drain t k <> Some k'.
Proof.
  intros u nj drain t k k' EN H. unfold work_step in H. assert (N : forall S c t, thread_step S nj c t (k_threads k) = None) by (intros; unfold thread_step; destruct EN as [-> | ->]; reflexivity).
  destruct t as [|i]; rewrite ?N in H; [discriminate|]. destruct (nth_error _ i) as [[]|]; rewrite ?N in H; try discriminate; destruct EN as [EN|EN]; rewrite EN in H; discriminate.
Qed.
Print Assumptions C80_over.
(** A module that is stored without interruption is stored as by [store] (C41-C44). *)
Theorem C80_alone : forall os extra out check d w, healthy os ->
  let '(acts, r) := store_plan os extra out check d in
  same_world (fst (run_plan os w acts r)) (fst (store os extra out check d w)) /\ snd (run_plan os w acts r) = snd (store os extra out check d w).
Proof.
  intros os extra out check d w H. pose proof (store_alone os extra out check d w H) as S. cbv zeta in S. destruct (store_plan os extra out check d) as [acts r]. exact S.
Qed.
Print Assumptions C80_alone.
(** At any time of any run: storing has not failed, every module that has been
    stored is complete in its file, and nothing else has changed but files and
    directories of modules that are being stored. *)
Theorem C80_store : forall u jobs files fs0 R dir w k, steady u files fs0 R -> w_fs w = fs0 ->
  u_out u = OStore dir -> dir <> [] -> (forall l, os_may (u_os u) l = true) -> (forall d, candidate u files fs0 d -> storable u dir R d) ->
  worked u (Nat.min jobs (length files)) (work_start w jobs files) k ->
  (forall d r, In (d, r) (h_log (s_shared (k_threads k))) -> r = Ok tt /\ candidate u files fs0 d /\
     exists l text, stored_at (u_os u) dir d l /\ fmt_object (u_extra u) d = Ok text /\ file_has (u_os u) text (k_world k) l) /\
  (exists fs1, R fs1 /\ partly u files fs0 (k_threads k) fs1 /\ only_stores (u_os u) dir (k_threads k) fs1 (w_fs (k_world k))) /\
  w_out (k_world k) = w_out w /\ w_err (k_world k) = w_err w.
Proof.
  intros u jobs files fs0 R dir w k ST E OUT DIR MAY CAN W. destruct (worked_in u jobs files fs0 R dir ST OUT DIR MAY CAN w k E W) as [B (fs1 & F1 & F2 & F3) D L O]. splits; [|exists fs1; splits; [exact F1|eapply taken_partly; eauto|exact F3]|apply O|apply O].
  intros d r X. destruct (L d r X) as (L1 & l & text & L2 & L3 & L4). splits; [exact L1| |exists l, text; splits; auto].
  eapply begun_candidate; [exact B|]. left. unfold stored. apply in_map_iff. exists (d, r). auto.
Qed.
Print Assumptions C80_store.
(** A run that ends has stored a module for every file. *)
Theorem C80_complete : forall u jobs files fs0 R dir w k, sort_perm (re_sort (u_env u)) -> sane (ex_ps (u_ext u)) -> iterates (u_iter u) -> (1 <= jobs)%nat ->
  steady u files fs0 R -> w_fs w = fs0 ->
  u_out u = OStore dir -> dir <> [] -> (forall l, os_may (u_os u) l = true) -> (forall d, candidate u files fs0 d -> storable u dir R d) ->
  (forall f, In f files -> exists o, snd (u_job u fs0 f) = Ok o /\ (re_ck (u_env u) = false \/ ends_fit (ob_syms o))) ->
  worked u (Nat.min jobs (length files)) (work_start w jobs files) k -> ended (k_threads k) ->
  complete (k_threads k) /\ exits_ok (k_threads k) /\
  forall f o, In f files -> snd (u_job u fs0 f) = Ok o -> exists d l text, candidate u files fs0 d /\ ob_debug_id d = ob_debug_id o /\
    stored_at (u_os u) dir d l /\ fmt_object (u_extra u) d = Ok text /\ file_has (u_os u) text (k_world k) l.
Proof.
  intros u jobs files fs0 R dir w k SP SA It J ST E OUT DIR MAY CAN G W EN.
  destruct (C80_store u jobs files fs0 R dir w k ST E OUT DIR MAY CAN W) as (L & _).
  assert (RS : reach (several_sys (u_ext u) (u_env u) (u_iter u) (u_map u) (u_arch u) (u_inl u) fs0 (fun _ r => r = Ok tt)) (Nat.min jobs (length files)) (start jobs files) (k_threads k)).
  { eapply (proj1 (C80_threads u jobs files fs0 R w k (fun r => r = Ok tt) ST E W eq_refl _)). Unshelve. intros d r X. now destruct (L d r X). }
  assert (GI : good_input (re_ck (u_env u)) (fun f => snd (u_job u fs0 f)) (fun _ r => r = Ok tt) files) by (split; [exact G|intros; reflexivity]).
  destruct (C63_works (u_ext u) (u_env u) (u_iter u) (u_map u) (u_arch u) (u_inl u) fs0 (fun _ r => r = Ok tt) files SP SA It GI) as (KK & WK).
  destruct (complete_ok _ jobs files _ KK WK RS EN) as (C & X). splits; auto.
  intros f o Ff P. destruct (exactly_once_any _ jobs files _ KK (or_introl J) RS C X) as (_ & Q). destruct (Q f Ff) as (o' & m & g & Po & Hm & Km & _).
  change (snd (u_job u fs0 f) = Ok o') in Po. rewrite P in Po. injection Po as <-. unfold stored in Hm. apply in_map_iff in Hm as ([m' r] & Em & Hm). cbn in Em. subst m'.
  destruct (L m r Hm) as (_ & Cm & l & text & S1 & S2 & S3). exists m, l, text. splits; auto.
Qed.
Print Assumptions C80_complete.
(** Example: two workers, two modules, both of them under way; and at the end. *)
Definition vx_store : Setup := vx_u (fun _ => []) [] (OStore (lit "/s")).
Lemma vx_storable d : candidate vx_store vx_files vx_fs d -> storable vx_store (lit "/s") (eq vx_fs) d.
Proof.
  intros C. apply vx_candidate in C as (f & Ff & ->). assert (Pr : forall c, c <> 46 -> c <> 47 -> proper [c]) by (intros c N1 N2; unfold proper; splits; [discriminate|congruence|discriminate|intros [H|[]]; congruence]).
  unfold storable. splits.
  - destruct Ff as [<- |[<- |[]]]; apply Pr; vm_compute; discriminate.
  - destruct Ff as [<- |[<- |[]]]; unfold proper; splits; vm_compute; try discriminate; intros H; repeat destruct H as [H|H]; try discriminate; exact H.
  - destruct Ff as [<- |[<- |[]]]; eexists; vm_compute; reflexivity.
  - intros _. destruct Ff as [<- |[<- |[]]]; vm_compute; discriminate.
  - intros fs l <- (b & fn & _ & _ & ->). change (locate (os_cwd (u_os vx_store)) (lit "/s")) with [lit "s"].
    assert (N : forall up, fs_get vx_fs (up ++ [lit "s"]) = None).
    { intros up. unfold vx_fs.
      destruct up as [|x up]; [reflexivity|]. unfold fs_get. cbn [app afind]. destruct (up ++ [lit "s"]) eqn:Z; [now destruct up|]. cbn [loc_eqb list_eqb]. now rewrite !andb_false_r. }
    unfold room_below. splits; [discriminate|change (fs_get vx_fs ([fn; ob_debug_id (vx_at f); b] ++ [lit "s"]) <> Some NDir); rewrite N; discriminate|].
    intros k up x E K. destruct up as [|y up] using rev_ind; [discriminate|]. clear IHup.
    assert (y = lit "s"). { change (fn :: ob_debug_id (vx_at f) :: b :: [lit "s"]) with ([fn; ob_debug_id (vx_at f); b] ++ [lit "s"]) in E. rewrite app_assoc in E. apply app_inj_tail in E. symmetry. apply E. }
    subst y. rewrite N. discriminate.
Qed.
Definition vx_mid : Work := wgos vx_store 2 (vx_both ++ [([Worker 1], 3); ([Worker 0], 4)])%nat vx_start.
Definition vx_end : Work := wgos vx_store 2 [(vx_all, 100)]%nat vx_mid.
Example C80_ex : worked vx_store 2 vx_start vx_mid /\ worked vx_store 2 vx_start vx_end /\ ended (k_threads vx_end) /\ h_log (s_shared (k_threads vx_mid)) = [] /\
  map (fun w => match w with WDump _ => true | _ => false end) (s_workers (k_threads vx_mid)) = [true; true] /\
  length (stored (k_threads vx_end)) = 2%nat /\
  fs_get (w_fs (k_world vx_mid)) (rev [lit "s"; lit "c"; lit "CD"; lit "c.sym"]) = Some (NFile []) /\
  (exists t, fmt_object [] (vx_at (lit "/b")) = Ok t /\ fs_get (w_fs (k_world vx_end)) (rev [lit "s"; lit "b"; lit "AB"; lit "b.sym"]) = Some (NFile (encode t))) /\
  (exists t, fmt_object [] (vx_at (lit "/c")) = Ok t /\ fs_get (w_fs (k_world vx_end)) (rev [lit "s"; lit "c"; lit "CD"; lit "c.sym"]) = Some (NFile (encode t))).
Proof.
  splits; try (vm_compute; reflexivity).
  - apply wgos_worked. constructor.
  - apply wgos_worked, wgos_worked. constructor.
  - left. vm_compute. reflexivity.
  - eexists. split; vm_compute; reflexivity.
  - eexists. split; vm_compute; reflexivity.
Qed.
(** The process ends because one worker could not open its file, while the other
    one was about to store. *)
Definition vx_nowhere : Setup := vx_u (fun _ => []) [] (OFile (FPath (lit "/gone/o.sym"))).
Definition vx_over : Work := wgos vx_nowhere 2 (vx_both ++ [([Worker 0], 10); ([Worker 1], 1); (vx_all, 10)])%nat vx_start.
Example C80_ex_over : worked vx_nowhere 2 vx_start vx_over /\ s_main (k_threads vx_over) = MPanic /\
  exists d, nth_error (s_workers (k_threads vx_over)) 0 = Some (WDump d) \/ nth_error (s_workers (k_threads vx_over)) 1 = Some (WDump d).
Proof. splits; [unfold vx_over; apply wgos_worked; apply worked_start|vm_compute; reflexivity|]. eexists. right. vm_compute. reflexivity. Qed.
Example C80_ex_hypotheses : sort_perm (re_sort (u_env vx_store)) /\ sane (ex_ps (u_ext vx_store)) /\ steady vx_store vx_files vx_fs (eq vx_fs) /\
  (forall d, candidate vx_store vx_files vx_fs d -> storable vx_store (lit "/s") (eq vx_fs) d) /\ candidate vx_store vx_files vx_fs (vx_at (lit "/b")) /\
  (forall f, In f vx_files -> exists o, snd (u_job vx_store vx_fs f) = Ok o /\ ends_fit (ob_syms o)).
Proof.
  splits; [apply mx_sorts|exact mx_sane|apply vx_steady|apply vx_storable| |].
  - exists [vx_at (lit "/b")]. split; [constructor|]. splits.
    + intros o [<- |[]]. exists (lit "/b"). splits; [now left|apply vx_job; now left|reflexivity].
    + intros f o [<- |[<- |[]]] P E; unfold vx_store in P; rewrite vx_job in P by (cbn; auto); injection P as <-; [now left|]. exfalso. revert E. vm_compute. discriminate.
    + vm_compute. reflexivity.
  - intros f [<- |[<- |[]]]; eexists; (split; [vm_compute; reflexivity|apply fits_dec; [vm_compute; reflexivity|vm_compute; repeat constructor]]).
Qed.

(** ** C81: standard output *)
(** What is printed is made of pieces, each of one module; the pieces of a module
    that has been stored are its text, and there is only one if the text is
    shorter than the buffer of the writer (8192 bytes). *)
Theorem C81_pieces : forall u jobs files fs0 R fo w k, steady u files fs0 R -> w_fs w = fs0 ->
  u_out u = OFile fo -> (forall p, fo <> FPath p) -> (forall d, candidate u files fs0 d -> printable u d) ->
  worked u (Nat.min jobs (length files)) (work_start w jobs files) k ->
  R (w_fs (k_world k)) /\ partly u files fs0 (k_threads k) (w_fs (k_world k)) /\ other_of fo (k_world k) = other_of fo w /\
  exists ps, stream_of fo (k_world k) = stream_of fo w ++ concat (map snd ps) /\
    (forall p, In p ps -> exists d, begun (k_threads k) d /\ fst p = ob_debug_id d) /\
    forall d r, In (d, r) (h_log (s_shared (k_threads k))) -> r = Ok tt /\ exists text, fmt_object (u_extra u) d = Ok text /\
      concat (pieces_of (ob_debug_id d) ps) = encode text /\ (lenN (encode text) < 8192 -> pieces_of (ob_debug_id d) ps = [encode text]).
Proof.
  intros u jobs files fs0 R fo w k ST E OUT S CAN W. destruct (worked_stream u jobs files fs0 R fo ST OUT S CAN w k E W) as (ps & [B (F1 & F2) (O1 & O2) D L A]). splits; auto; [eapply taken_partly; eauto|].
  exists ps. splits; auto. intros d r X. destruct (L d r X) as (L1 & text & L2 & L3). split; [exact L1|]. exists text. rewrite L3. splits; [exact L2|apply chunks_all|intros; now apply chunks_one].
Qed.
Print Assumptions C81_pieces.
(** Short texts come out one after the other in some order. *)
Theorem C81_whole_partial : forall u jobs files fs0 R fo w k, steady u files fs0 R -> w_fs w = fs0 ->
  u_out u = OFile fo -> (forall p, fo <> FPath p) -> (forall d, candidate u files fs0 d -> printable u d) ->
  (forall d text, candidate u files fs0 d -> fmt_object (u_extra u) d = Ok text -> lenN (encode text) < 8192) ->
  worked u (Nat.min jobs (length files)) (work_start w jobs files) k -> none_storing (k_threads k) ->
  exists ds ts, Permutation ds (stored (k_threads k)) /\ Forall2 (fun d t => fmt_object (u_extra u) d = Ok t) ds ts /\
    stream_of fo (k_world k) = stream_of fo w ++ concat (map encode ts).
Proof.
  intros u jobs files fs0 R fo w k ST E OUT S CAN SH W N. destruct (worked_stream u jobs files fs0 R fo ST OUT S CAN w k E W) as (ps & I). eapply stream_short; eauto.
  intros d text X. apply SH. eapply begun_candidate; [apply I|]. now left.
Qed.
Print Assumptions C81_whole_partial.
(** Longer texts need not: full statement and a run without errors that
    contradicts it. *)
Definition infix (a b : list N) : Prop := exists x y, b = x ++ a ++ y.
Fixpoint infixb (a b : list N) : bool := starts_with a b || match b with [] => false | _ :: t => infixb a t end.
Lemma infixb_of a b : infix a b -> infixb a b = true.
Proof.
  intros (x & y & ->). induction x as [|c x IH]; cbn [app infixb].
  - assert (H : starts_with a (a ++ y) = true). { unfold starts_with. induction a as [|c a IH]; [reflexivity|]. cbn [app strip_prefix]. now rewrite N.eqb_refl. } destruct (a ++ y); cbn [infixb]; now rewrite H.
  - rewrite IH. apply orb_true_r.
Qed.
Definition vx_long : list str := [repeat 65 (N.to_nat 9000)].
Definition vx_print : Setup := vx_u (fun _ => [5000]) vx_long (OFile FStdout).
Definition vx_split : Work := wgos vx_print 2 (vx_both ++ [([Worker 1], 2); ([Worker 0], 10); (vx_all, 100)])%nat vx_start.
Theorem C81_whole_refuted : exists u jobs files w k d text, steady u files (w_fs w) (eq (w_fs w)) /\ u_out u = OFile FStdout /\
  (forall d, candidate u files (w_fs w) d -> printable u d) /\
  worked u (Nat.min jobs (length files)) (work_start w jobs files) k /\ complete (k_threads k) /\ exits_ok (k_threads k) /\
  In (d, Ok tt) (h_log (s_shared (k_threads k))) /\ fmt_object (u_extra u) d = Ok text /\ ~ infix (encode text) (w_out (k_world k)).
Proof.
  exists vx_print, 2%nat, vx_files, vx_w, vx_split, (vx_at (lit "/c")), (match fmt_object vx_long (vx_at (lit "/c")) with Ok t => t | _ => [] end).
  splits; [apply vx_steady|reflexivity| |apply wgos_worked; constructor|vm_compute; reflexivity| | |vm_compute; reflexivity|].
  - intros d C. apply vx_candidate in C as (f & Ff & ->). split; [|intros _]; destruct Ff as [<- |[<- |[]]]; try (vm_compute; discriminate); eexists; vm_compute; reflexivity.
  - intros x H. vm_compute in H. destruct H as [<- |[<- |[]]]; reflexivity.
  - vm_compute. auto.
  - intros H. apply infixb_of in H. revert H. vm_compute. discriminate.
Qed.
Print Assumptions C81_whole_refuted.
Definition vx_short : Work := wgos (vx_u (fun _ => [50; 30]) [lit "GIT 1"] (OFile FStdout)) 2 (vx_both ++ [([Worker 1], 1); ([Worker 0], 10); (vx_all, 100)])%nat vx_start.
Definition vx_git : Setup := vx_u (fun _ => [50; 30]) [lit "GIT 1"] (OFile FStdout).
Example C81_ex : steady vx_git vx_files vx_fs (eq vx_fs) /\ (forall d, candidate vx_git vx_files vx_fs d -> printable vx_git d) /\
  (forall d text, candidate vx_git vx_files vx_fs d -> fmt_object (u_extra vx_git) d = Ok text -> lenN (encode text) < 8192) /\
  worked vx_git 2 vx_start vx_short /\ ended (k_threads vx_short) /\ none_storing (k_threads vx_short) /\
  exists t1 t2, fmt_object [lit "GIT 1"] (vx_at (lit "/b")) = Ok t1 /\ fmt_object [lit "GIT 1"] (vx_at (lit "/c")) = Ok t2 /\ w_out (k_world vx_short) = lit "> " ++ encode t1 ++ encode t2.
Proof.
  splits; [apply vx_steady| | |apply wgos_worked; constructor|left; vm_compute; reflexivity|intros x H; vm_compute in H; destruct H as [<- |[<- |[]]]; exact I|].
  - intros d C. apply vx_candidate in C as (f & Ff & ->). split; [|intros _]; destruct Ff as [<- |[<- |[]]]; try (vm_compute; discriminate); eexists; vm_compute; reflexivity.
  - intros d text C F. apply vx_candidate in C as (f & Ff & ->). assert (Q : match fmt_object (u_extra vx_git) (vx_at f) with Ok t => lenN (encode t) <? 8192 | _ => false end = true) by (destruct Ff as [<- |[<- |[]]]; vm_compute; reflexivity).
    rewrite F in Q. lia.
  - eexists. eexists. splits; vm_compute; reflexivity.
Qed.

(** ** C82: one output file *)
(** When all files have one debug id the module is stored as if there were no
    other threads, whatever the output. *)
Theorem C82_one_module : forall u jobs files fs0 R w k, steady u files fs0 R -> w_fs w = fs0 -> healthy (u_os u) ->
  (forall d e, candidate u files fs0 d -> candidate u files fs0 e -> ob_debug_id d = ob_debug_id e) ->
  worked u (Nat.min jobs (length files)) (work_start w jobs files) k ->
  forall d r, In (d, r) (h_log (s_shared (k_threads k))) -> h_log (s_shared (k_threads k)) = [(d, r)] /\ candidate u files fs0 d /\ exists fs1, R fs1 /\ processed u files fs0 fs1 /\
    let '(w', q) := store (u_os u) (u_extra u) (u_out u) (u_check u) d (mkWorld fs1 (w_out w) (w_err w)) in r = q /\ same_world (k_world k) w'.
Proof.
  intros u jobs files fs0 R w k ST E H ONE W d r X. destruct (worked_alone u jobs files fs0 R ST ONE H w k E W) as [B S D L]. destruct (L d r X) as (L1 & fs1 & R1 & K1 & L2 & L3). splits; auto.
  - eapply begun_candidate; [exact B|]. left. unfold stored. apply in_map_iff. exists (d, r). auto.
  - exists fs1. split; [exact R1|]. split. { eapply partly_all; [eapply taken_partly; eauto|]. left. unfold stored. apply in_map_iff. exists (d, r). eauto. }
    unfold stored_alone in L2, L3. destruct (store _ _ _ _ _ _) as [w' q]. auto.
Qed.
Print Assumptions C82_one_module.
(** With two modules the file named by -o can be a mixture of their texts,
    although every worker is content: here the text of one of them followed by
    what the other one has after as many bytes. *)
Definition vx_file : Setup := vx_u (fun _ => []) [] (OFile (FPath (lit "/o.sym"))).
Definition vx_mixed : Work := wgos vx_file 2 (vx_both ++ [([Worker 1], 2); ([Worker 0], 2); ([Worker 1], 1); (vx_all, 100)])%nat vx_start.
Theorem C82_one_text_refuted : exists u jobs files w k p bytes, steady u files (w_fs w) (eq (w_fs w)) /\ u_out u = OFile (FPath p) /\ healthy (u_os u) /\
  worked u (Nat.min jobs (length files)) (work_start w jobs files) k /\ complete (k_threads k) /\ exits_ok (k_threads k) /\
  (forall d r, In (d, r) (h_log (s_shared (k_threads k))) -> r = Ok tt) /\ stored (k_threads k) <> [] /\
  fs_get (w_fs (k_world k)) (locate (os_cwd (u_os u)) p) = Some (NFile bytes) /\
  (forall d text, In d (stored (k_threads k)) -> fmt_object (u_extra u) d = Ok text -> bytes <> encode text) /\
  exists d e text text', In d (stored (k_threads k)) /\ In e (stored (k_threads k)) /\ fmt_object (u_extra u) d = Ok text /\ fmt_object (u_extra u) e = Ok text' /\
    (lenN (encode text) < lenN (encode text')) /\ bytes = encode text ++ skipn (length (encode text)) (encode text').
Proof.
  exists vx_file, 2%nat, vx_files, vx_w, vx_mixed, (lit "/o.sym"), (match fs_get (w_fs (k_world vx_mixed)) [lit "o.sym"] with Some (NFile b) => b | _ => [] end).
  splits; [apply vx_steady|reflexivity|intros l; reflexivity|apply wgos_worked; constructor|vm_compute; reflexivity| | | |vm_compute; reflexivity| |].
  - intros x H. vm_compute in H. destruct H as [<- |[<- |[]]]; reflexivity.
  - intros d r H. pose proof (in_map snd _ _ H) as Q. cbn [snd] in Q. clear H. revert Q. vm_compute. intros Q. destruct Q as [<- |[<- |[]]]; reflexivity.
  - vm_compute. discriminate.
  - assert (ES : stored (k_threads vx_mixed) = [vx_at (lit "/b"); vx_at (lit "/c")]) by (vm_compute; reflexivity). rewrite ES.
    assert (Q : forall d bytes, (exists t, fmt_object [] d = Ok t /\ str_eqb bytes (encode t) = false) -> forall text, fmt_object [] d = Ok text -> bytes <> encode text).
    { intros d bytes (t & T1 & T2) text F ->. rewrite T1 in F. injection F as <-. now rewrite (proj2 (str_eqb_eq _ _) eq_refl) in T2. }
    intros d text [<- |[<- |[]]]; apply Q; eexists; (split; vm_compute; reflexivity).
  - exists (vx_at (lit "/b")), (vx_at (lit "/c")). do 2 eexists. assert (ES : stored (k_threads vx_mixed) = [vx_at (lit "/b"); vx_at (lit "/c")]) by (vm_compute; reflexivity). rewrite ES.
    splits; [now left|right; now left|vm_compute; reflexivity|vm_compute; reflexivity|vm_compute; reflexivity|vm_compute; reflexivity].
Qed.
Print Assumptions C82_one_text_refuted.
(** Example: two files with one debug id. *)
Definition vx_fs1 : FS := [([lit "b"], NFile (lit "E2AB")); ([lit "c"], NFile (lit "E3PAB"))].
Definition vx_w1 : World := mkWorld vx_fs1 (lit "> ") [].
Definition vx_one : Work := wgos vx_file 2 [(vx_all, 200)]%nat (work_start vx_w1 2 vx_files).
Example C82_ex : steady vx_file vx_files vx_fs1 (eq vx_fs1) /\ healthy (u_os vx_file) /\
  (forall d e, candidate vx_file vx_files vx_fs1 d -> candidate vx_file vx_files vx_fs1 e -> ob_debug_id d = ob_debug_id e) /\
  worked vx_file 2 (work_start vx_w1 2 vx_files) vx_one /\ complete (k_threads vx_one) /\
  exists d t, h_log (s_shared (k_threads vx_one)) = [(d, Ok tt)] /\ fmt_object [] d = Ok t /\ fs_get (w_fs (k_world vx_one)) [lit "o.sym"] = Some (NFile (encode t)).
Proof.
  splits; [|intros l; reflexivity| |apply wgos_worked; constructor|vm_compute; reflexivity|].
  - split; [reflexivity|]. intros fs f <- [<- |[<- |[]]]; (split; [vm_compute; reflexivity|reflexivity]).
  - assert (Q : forall d, candidate vx_file vx_files vx_fs1 d -> ob_debug_id d = lit "AB"); [|intros d e D E; now rewrite (Q d D), (Q e E)].
    intros d (os & M & A & _). destruct os as [|o os]; [now apply merged_nonempty in M|]. destruct (A o (or_introl eq_refl)) as (f & Ff & P & <-).
    assert (X : match snd (u_job vx_file vx_fs1 f) with Ok o => str_eqb (ob_debug_id o) (lit "AB") | _ => false end = true) by (destruct Ff as [<- |[<- |[]]]; vm_compute; reflexivity).
    rewrite P in X. now apply str_eqb_eq.
  - eexists. eexists. splits; vm_compute; reflexivity.
Qed.
