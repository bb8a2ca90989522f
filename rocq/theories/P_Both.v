(** Several files with both outputs: a symbol store and a stream. A run is, as far as
    the file system goes, one without the stream and, as far as the stream goes, one
    without the store. *)
From Verif Require Import Base Str Utf8 M_Path M_Source M_Symbol M_Object M_Fs M_Cache M_Store M_Input M_Sched M_Cli M_Many M_Shared
  S_Fs S_Store S_Sched S_Many S_Shared P_Fs P_Store P_Sched P_Run P_Shared.
From Verif Require P_Several.

(** The same but for the output. *)
Definition with_out (u : Setup) (out : Output) : Setup := mkSetup (u_ext u) (u_env u) (u_iter u) (u_map u) (u_arch u) (u_inl u) (u_extra u) out (u_check u).
Definition on_fs (a : Act) : bool := match a with AOut _ | AErr _ => false | _ => true end.
Definition part (b : bool) (p : Plan) : Plan := (filter (fun a => Bool.eqb (on_fs a) b) (fst p), snd p).
Lemma part_writes b p cs : forall off, filter (fun a => Bool.eqb (on_fs a) b) (file_writes p off cs) = if b then file_writes p off cs else [].
Proof. induction cs as [|c cs IH]; intros off; cbn [file_writes filter on_fs]; [now destruct b|]. rewrite IH. now destruct b. Qed.
Lemma part_stream b fo cs : (forall p, fo <> FPath p) -> filter (fun a => Bool.eqb (on_fs a) b) (match fo with FPath p => file_writes p 0 cs | FStdout => map AOut cs | FStderr => map AErr cs end) =
  if b then [] else match fo with FPath p => file_writes p 0 cs | FStdout => map AOut cs | FStderr => map AErr cs end.
Proof.
  intros S. destruct fo as [p| |]; [now elim (S p)| |]; (induction cs as [|c cs IH]; cbn [map filter on_fs]; [now destruct b|rewrite IH; now destruct b]).
Qed.
Lemma part_sym_file b os extra p o : part b (sym_plan os extra (FPath p) o) = if b then sym_plan os extra (FPath p) o else ([], snd (sym_plan os extra (FPath p) o)).
Proof. unfold part, sym_plan. destruct (fmt_object extra o); cbn [fst snd app filter on_fs]; destruct b; cbn [Bool.eqb]; rewrite ?part_writes; reflexivity. Qed.
Lemma part_sym_stream b os extra fo o : (forall p, fo <> FPath p) -> part b (sym_plan os extra fo o) = if b then ([], snd (sym_plan os extra fo o)) else sym_plan os extra fo o.
Proof.
  intros S. unfold part, sym_plan. destruct (fmt_object extra o); cbn [fst snd]; destruct fo as [p| |]; try (now elim (S p)); cbn [app]; try (now destruct b).
  - rewrite (part_stream b FStdout) by discriminate. now destruct b.
  - rewrite (part_stream b FStderr) by discriminate. now destruct b.
Qed.
Lemma part_then b p q : part b (plan_then p q) = plan_then (part b p) (part b q).
Proof. destruct p as [a [x|e|m]]; unfold part, plan_then; cbn [fst snd]; [now rewrite filter_app|reflexivity..]. Qed.
Lemma sym_result os extra fo fo' o : snd (sym_plan os extra fo o) = snd (sym_plan os extra fo' o).
Proof. unfold sym_plan. now destruct (fmt_object extra o). Qed.

Section Both.
Variables (u : Setup) (jobs : nat) (files : list str) (fs0 : FS) (R : FS -> Prop) (fo : FileOutput) (dir : str).
Hypothesis ST : steady u files fs0 R.
Hypothesis OUT : u_out u = OBoth fo dir.
Hypothesis STREAM : forall p, fo <> FPath p.
Hypothesis DIR : dir <> [].
Hypothesis MAY : forall l, os_may (u_os u) l = true.
Hypothesis CAN : forall d, candidate u files fs0 d -> storable u dir R d.
Let nj := Nat.min jobs (length files).
Let u1 := with_out u (OStore dir).
Let u2 := with_out u (OFile fo).

Lemma plan_fs d : u_plan u1 d = part true (u_plan u d).
Proof.
  unfold u_plan, u1, with_out, u_os. cbn [u_ext u_extra u_out u_check]. rewrite OUT. unfold store_plan. destruct (_ && _); [reflexivity|]. rewrite part_then. cbn [output_store output_file].
  rewrite part_sym_stream by exact STREAM. unfold sym_store_path. destruct dir as [|c t] eqn:E; [easy|]. rewrite <- E.
  destruct (path_parent _); [|reflexivity]. rewrite part_then, part_sym_file. change (part true ([ADirs s], Ok tt)) with ([ADirs s], @Ok unit tt). set (f := FPath _).
  unfold plan_then. cbn [fst snd app]. rewrite (sym_result _ _ fo f). destruct (snd (sym_plan (ex_os (u_ext u)) (u_extra u) f d)) as [[]|e|m] eqn:Er; cbn [fst snd]; rewrite ?Er; cbn [fst snd]; reflexivity.
Qed.
Lemma plan_stream d : snd (u_plan u1 d) = Ok tt -> u_plan u2 d = part false (u_plan u d).
Proof.
  unfold u_plan, u1, u2, with_out, u_os. cbn [u_ext u_extra u_out u_check]. rewrite OUT. unfold store_plan. destruct (_ && _); [discriminate|]. rewrite part_then. cbn [output_store output_file].
  rewrite part_sym_stream by exact STREAM. unfold sym_store_path. destruct dir as [|c t] eqn:E; [easy|]. rewrite <- E.
  destruct (path_parent _); [|discriminate]. rewrite part_then, part_sym_file. change (part false ([ADirs s], Ok tt)) with (@nil Act, @Ok unit tt). set (f := FPath _).
  unfold plan_then. cbn [fst snd app]. destruct (snd (sym_plan (ex_os (u_ext u)) (u_extra u) f d)) as [[]|e|m] eqn:Er; cbn [fst snd]; rewrite ?Er; cbn [fst snd]; [|discriminate..]. intros _.
  reflexivity.
Qed.

(** Without the stream. *)
Record like_store (k k1 : Work) : Prop := mkLikeStore {
  ls_threads : k_threads k1 = k_threads k;
  ls_fs : w_fs (k_world k1) = w_fs (k_world k);
  ls_busy : forall i, k_busy k1 i = option_map (part true) (k_busy k i)
}.
Lemma act_fs w w1 a : w_fs w1 = w_fs w -> on_fs a = true -> snd (act_step (u_os u) w1 a) = snd (act_step (u_os u) w a) /\ w_fs (fst (act_step (u_os u) w1 a)) = w_fs (fst (act_step (u_os u) w a)) /\
  w_out (fst (act_step (u_os u) w a)) = w_out w /\ w_err (fst (act_step (u_os u) w a)) = w_err w.
Proof.
  intros E A. destruct a; try discriminate; cbn [act_step]; rewrite E.
  - destruct (create_dir_all _ _ _); cbn; auto.
  - destruct (file_create _ _ _); cbn; auto.
  - destruct (fs_get _ _) as [[]|]; cbn; auto.
Qed.
Lemma act_stream w w1 a : on_fs a = false -> w_out w1 = w_out w -> w_err w1 = w_err w -> snd (act_step (u_os u) w a) = Ok tt /\ snd (act_step (u_os u) w1 a) = Ok tt /\ w_fs (fst (act_step (u_os u) w a)) = w_fs w /\ w_fs (fst (act_step (u_os u) w1 a)) = w_fs w1 /\
  w_out (fst (act_step (u_os u) w1 a)) = w_out (fst (act_step (u_os u) w a)) /\ w_err (fst (act_step (u_os u) w1 a)) = w_err (fst (act_step (u_os u) w a)).
Proof. intros A E1 E2. destruct a; try discriminate; cbn; rewrite E1, E2; splits; reflexivity. Qed.
Lemma moved_store k k' k1 : moved u jobs files k k' -> like_store k k1 -> exists k1', (k1' = k1 \/ moved u1 jobs files k1 k1') /\ like_store k' k1'.
Proof.
  intros M [T F B]. destruct M as [drain t s' P NF NG H|drain i f s' P En H|i d Fl Eb|i d a rest r w' q Fl Eb Ea|drain i d r s' P Fl Eb H].
  - eexists. split; [right; apply (mv_quiet u1 jobs files k1 drain t s' P)|].
    + rewrite T. exact NF.
    + rewrite T. exact NG.
    + rewrite T, F. exact H.
    + constructor; cbn [k_threads k_world k_busy]; auto.
  - eexists. split; [right; apply (mv_get u1 jobs files k1 drain i f s' P)|].
    + rewrite T. exact En.
    + rewrite T, F. exact H.
    + constructor; cbn [k_threads k_world k_busy]; auto. cbn [set_fs w_fs]. rewrite F. reflexivity.
  - eexists. split; [right; apply (mv_begin u1 jobs files k1 i d)|].
    + now rewrite T.
    + now rewrite B, Eb.
    + constructor; cbn [k_threads k_world k_busy]; auto. intros j. unfold set_busy. destruct (j =? i)%nat; [|apply B]. cbn [option_map]. now rewrite plan_fs.
  - destruct (on_fs a) eqn:Oa.
    + destruct (act_step (u_os u) (k_world k1) a) as [w1' q1] eqn:E1. pose proof (act_fs (k_world k) (k_world k1) a F Oa) as (Q1 & Q2 & _). rewrite E1, Ea in Q1, Q2. cbn [fst snd] in Q1, Q2. subst q1.
      exists (mkWork w1' (k_threads k1) (set_busy (k_busy k1) i (Some (match q with Ok _ => (filter (fun a => Bool.eqb (on_fs a) true) rest, r) | _ => ([], q) end)))). split.
      * right. eapply mv_act; [rewrite T; exact Fl| |exact E1]. rewrite B, Eb. unfold part. cbn [option_map fst snd filter]. rewrite Oa. reflexivity.
      * constructor; cbn [k_threads k_world k_busy]; auto. intros j. unfold set_busy. destruct (j =? i)%nat; [|apply B]. cbn [option_map]. destruct q; reflexivity.
    + exists k1. split; [now left|]. pose proof (act_stream (k_world k) (k_world k) a Oa eq_refl eq_refl) as (Q1 & _ & Q2 & _). rewrite Ea in Q1, Q2. cbn [fst snd] in Q1, Q2. subst q.
      constructor; cbn [k_threads k_world k_busy]; auto; [congruence|]. intros j. unfold set_busy. destruct (Nat.eqb_spec j i) as [->|N]; [|apply B]. rewrite B, Eb. unfold part. cbn [option_map fst snd filter]. rewrite Oa. reflexivity.
  - eexists. split; [right; eapply (mv_finish u1 jobs files k1 drain i d r s' P)|].
    + now rewrite T.
    + now rewrite B, Eb.
    + rewrite T, F. exact H.
    + constructor; cbn [k_threads k_world k_busy]; auto. intros j. unfold set_busy. destruct (j =? i)%nat; [reflexivity|apply B].
Qed.
Lemma both_store w k : w_fs w = fs0 -> worked u nj (work_start w jobs files) k -> exists k1, in_store u1 jobs files fs0 R dir w k1 /\ like_store k k1.
Proof.
  intros E. induction 1 as [|k k' drain t W IH P H].
  - exists (work_start w jobs files). split; [|constructor; reflexivity]. eapply (worked_in u1 jobs files fs0 R dir ST eq_refl DIR MAY CAN w _ E). constructor.
  - destruct IH as (k1 & I & L). apply work_moved in H; [|exact P]. destruct (moved_store _ _ _ H L) as (k1' & [->|M] & L'); [eauto|].
    exists k1'. split; [|exact L']. eapply (moved_in u1 jobs files fs0 R dir ST eq_refl DIR MAY CAN); eauto.
Qed.
(** So nothing fails. *)
Lemma both_ok w k i pl : w_fs w = fs0 -> worked u nj (work_start w jobs files) k -> k_busy k i = Some pl -> snd pl = Ok tt.
Proof.
  intros E W Eb. destruct (both_store w k E W) as (k1 & I & [T F B]). assert (Q : k_busy k1 i = Some (part true pl)) by now rewrite B, Eb.
  destruct (b_busy _ _ _ _ _ _ (in_basic _ _ _ _ _ _ _ _ I) i) as (d & Fl); [congruence|].
  destruct (in_doing _ _ _ _ _ _ _ _ I i d _ Fl Q) as (p & q & l & text & _ & _ & _ & _ & _ & S). cbv zeta in S.
  destruct S as [S|[(S & _)|(a & b & _ & S & _)]]; apply (f_equal snd) in S; exact S.
Qed.

(** Without the store. *)
Record like_stream (k k2 : Work) : Prop := mkLikeStream {
  lt_threads : k_threads k2 = k_threads k;
  lt_fs : (forall d, ~ begun (k_threads k) d) -> w_fs (k_world k2) = w_fs (k_world k);
  lt_out : w_out (k_world k2) = w_out (k_world k);
  lt_err : w_err (k_world k2) = w_err (k_world k);
  lt_busy : forall i, k_busy k2 i = option_map (part false) (k_busy k i)
}.
Lemma other_fs nj' c t s fs fs' : (forall i f, t = Worker i -> nth_error (s_workers s) i <> Some (WGet f)) -> thread_step (u_sys u fs) nj' c t s = thread_step (u_sys u2 fs') nj' c t s.
Proof. intros NG. apply step_same; [reflexivity..|]. intros i f -> X. now elim (NG i f eq_refl). Qed.
Lemma moved_streamed w k k' k2 drain t : w_fs w = fs0 -> worked u nj (work_start w jobs files) k -> (forall l, Permutation (drain l) (map snd l)) -> work_step u nj drain t k = Some k' -> like_stream k k2 ->
  exists k2', (k2' = k2 \/ moved u2 jobs files k2 k2') /\ like_stream k' k2'.
Proof.
  intros E W P0 St [T F O1 O2 B]. pose proof (worked_step u nj _ k k' drain t W P0 St) as W'. apply work_moved in St; [|exact P0]. clear P0 drain t.
  pose proof (worked_basic u jobs files fs0 R ST w k E W) as Ba. pose proof (worked_basic u jobs files fs0 R ST w k' E W') as Ba'.
  pose proof (fun i pl => both_ok w k' i pl E W') as OKS.
  destruct St as [drain t s' P NF NG H|drain i f s' P En H|i d Fl Eb|i d a rest r w' q Fl Eb Ea|drain i d r s' P Fl Eb H].
  - eexists. split; [right; apply (mv_quiet u2 jobs files k2 drain t s' P)|].
    + rewrite T. exact NF.
    + rewrite T. exact NG.
    + rewrite T. rewrite <- (other_fs _ _ _ _ (w_fs (k_world k))) by exact NG. exact H.
    + pose proof (thread_quiet _ _ _ _ _ _ H NF) as Lg. constructor; cbn [k_threads k_world k_busy]; auto. intros N. apply F. intros d [X|(i & X)]; apply (N d); [left; now rewrite (stored_same _ _ Lg)|right; exists i].
      apply (thread_keeps _ _ _ _ _ _ i d H); [|exact X]. intros ->. now apply (NF i d eq_refl).
  - pose proof (get_unbegun u jobs files fs0 _ _ _ _ (b_reach _ _ _ _ _ _ Ba) En) as NB. specialize (F NB). eexists. split; [right; apply (mv_get u2 jobs files k2 drain i f s' P)|].
    + rewrite T. exact En.
    + rewrite T, F. exact H.
    + constructor; cbn [k_threads k_world k_busy]; auto. intros _. cbn [set_fs w_fs]. rewrite F. reflexivity.
  - eexists. split; [right; apply (mv_begin u2 jobs files k2 i d)|].
    + now rewrite T.
    + now rewrite B, Eb.
    + constructor; cbn [k_threads k_world k_busy]; auto. intros j. unfold set_busy. destruct (j =? i)%nat; [|apply B]. cbn [option_map]. rewrite plan_stream; [reflexivity|].
      rewrite plan_fs. cbn [part snd]. apply (OKS i). cbn [k_busy]. unfold set_busy. now rewrite Nat.eqb_refl.
  - assert (q = Ok tt) as ->. { specialize (OKS i). cbn [k_busy] in OKS. unfold set_busy in OKS. rewrite Nat.eqb_refl in OKS. specialize (OKS _ eq_refl). destruct q as [[]|e|m]; [reflexivity|discriminate OKS..]. }
    assert (NB : ~ forall d, ~ begun (k_threads k) d) by (intros N; apply (N d); right; exists i; exact Fl).
    destruct (on_fs a) eqn:Oa.
    + exists k2. split; [now left|]. pose proof (act_fs (k_world k) (k_world k) a eq_refl Oa) as (_ & _ & Q1 & Q2). rewrite Ea in Q1, Q2. cbn [fst snd] in Q1, Q2.
      constructor; cbn [k_threads k_world k_busy]; auto; [intros N; now elim NB|congruence|congruence|]. intros j. unfold set_busy. destruct (Nat.eqb_spec j i) as [->|N]; [|apply B]. rewrite B, Eb. unfold part. cbn [option_map fst snd filter]. rewrite Oa. reflexivity.
    + destruct (act_step (u_os u) (k_world k2) a) as [w2' q2] eqn:E2. pose proof (act_stream (k_world k) (k_world k2) a Oa O1 O2) as (Q1 & Q2 & Q3 & Q4 & Q5 & Q6). rewrite E2, Ea in *. cbn [fst snd] in *. subst q2.
      exists (mkWork w2' (k_threads k2) (set_busy (k_busy k2) i (Some (filter (fun a => Bool.eqb (on_fs a) false) rest, r)))). split.
      * right. eapply (mv_act u2 jobs files k2 i d a _ r w2' (Ok tt)); [rewrite T; exact Fl| |exact E2]. rewrite B, Eb. unfold part. cbn [option_map fst snd filter]. rewrite Oa. reflexivity.
      * constructor; cbn [k_threads k_world k_busy]; auto; [intros N; now elim NB|]. intros j. unfold set_busy. destruct (j =? i)%nat; [|apply B]. reflexivity.
  - eexists. split; [right; eapply (mv_finish u2 jobs files k2 drain i d r s' P)|].
    + now rewrite T.
    + now rewrite B, Eb.
    + rewrite T. rewrite <- (other_fs _ _ _ _ (w_fs (k_world k))); [exact H|]. intros j f [= <-]. eapply flying_get; eauto.
    + destruct (thread_finish _ _ _ _ _ _ _ H Fl) as (L & _). constructor; cbn [k_threads k_world k_busy]; auto.
      * intros N. elim (N d). left. unfold stored. rewrite L, map_app. apply in_or_app. right. now left.
      * intros j. unfold set_busy. destruct (j =? i)%nat; [reflexivity|apply B].
Qed.
Lemma can_print d : candidate u2 files fs0 d -> printable u2 d.
Proof. intros C. destruct (CAN d C) as (_ & _ & T & N & _). split; [exact T|exact N]. Qed.
Lemma both_stream w k : w_fs w = fs0 -> worked u nj (work_start w jobs files) k -> exists k2 ps, in_stream u2 jobs files fs0 R fo w k2 ps /\ like_stream k k2.
Proof.
  intros E. induction 1 as [|k k' drain t W IH P H].
  - exists (work_start w jobs files). destruct (worked_stream u2 jobs files fs0 R fo ST eq_refl STREAM can_print w (work_start w jobs files) E) as (ps & I); [constructor|]. exists ps. split; [exact I|constructor; reflexivity].
  - destruct IH as (k2 & ps & I & L). destruct (moved_streamed w k k' k2 drain t E W P H L) as (k2' & [->|M] & L'); [eauto|].
    destruct (moved_stream u2 jobs files fs0 R fo ST eq_refl STREAM can_print w k2 k2' ps I M) as (ps' & I'). eauto.
Qed.
End Both.

(** ** The other output is a file *)
Definition off (x : Loc) (fs gs : FS) : Prop := forall y, y <> x -> fs_get gs y = fs_get fs y.
Lemma off_set x fs gs l n : off x fs gs -> off x (fs_set fs l n) (fs_set gs l n).
Proof.
  intros H y Ny. destruct l as [|a l]; [|destruct (list_eq_dec str_eq_dec (a :: l) y) as [<-|N]].
  - destruct y as [|b y]; [reflexivity|]. rewrite !fs_get_other by discriminate. now apply H.
  - now rewrite !fs_get_same by discriminate.
  - rewrite !fs_get_other by exact N. now apply H.
Qed.
Lemma mkdirs_off os x l : forall fs gs, (forall k, l <> k ++ x) -> off x fs gs ->
  match mkdirs os fs l, mkdirs os gs l with Some a, Some b => off x a b /\ fs_get a x = fs_get fs x | None, None => True | _, _ => False end.
Proof.
  induction l as [|n l IH]; intros fs gs N H; cbn [mkdirs]; [auto|]. rewrite (H (n :: l)) by (apply (N [])). destruct (fs_get fs (n :: l)) as [[d|]|]; [exact I|auto|].
  specialize (IH fs gs (fun k E => N (n :: k) (f_equal (cons n) E)) H). destruct (mkdirs os fs l), (mkdirs os gs l); try contradiction; [|exact I]. destruct IH as (IH1 & IH2).
  destruct (os_may os (n :: l)); [|exact I]. split; [now apply off_set|]. rewrite fs_get_other by (apply (N [])). exact IH2.
Qed.
Lemma create_off os x p fs gs : (forall k, locate (os_cwd os) p <> k ++ x) -> off x fs gs ->
  match file_create os fs p, file_create os gs p with Some a, Some b => off x a b /\ fs_get a x = fs_get fs x | None, None => True | _, _ => False end.
Proof.
  intros N H. unfold file_create. destruct (locate (os_cwd os) p) as [|n up]; [exact I|]. rewrite (H up), (H (n :: up)) by (apply (N []) || (intros E; apply (N [n]); cbn; now rewrite E)).
  destruct (fs_get fs up) as [[d|]|]; [exact I| |exact I].
  destruct (fs_get fs (n :: up)) as [[d|]|]; [|exact I|]; (destruct (os_may os (n :: up)); [|exact I]; split; [now apply off_set|apply fs_get_other, (N [])]).
Qed.

Section BothFile.
Variables (u : Setup) (jobs : nat) (files : list str) (fs0 : FS) (R : FS -> Prop) (p : str) (dir : str).
Hypothesis ST : steady u files fs0 R.
Hypothesis OUT : u_out u = OBoth (FPath p) dir.
Hypothesis DIR : dir <> [].
Hypothesis MAY : forall l, os_may (u_os u) l = true.
Hypothesis CAN : forall d, candidate u files fs0 d -> storable u dir R d.
Let os := u_os u.
Let x := locate (os_cwd os) p.
Hypothesis ROOM : forall fs, R fs -> room fs x.
Hypothesis APART : forall d l k, candidate u files fs0 d -> stored_at os dir d l -> l <> k ++ x.
Let nj := Nat.min jobs (length files).
Let u1 := with_out u (OStore dir).

Definition mine (a : Act) : bool := match a with ADirs _ => true | ACreate s | AWrite s _ _ => negb (str_eqb s p) | _ => false end.
Definition mypart (pl : Plan) : Plan := (filter mine (fst pl), snd pl).
Lemma writes_all s cs : s <> p -> forall o, filter mine (file_writes s o cs) = file_writes s o cs.
Proof.
  intros N. induction cs as [|c cs IH]; intros o; cbn [file_writes filter mine]; [reflexivity|]. destruct (str_eqb s p) eqn:E; [apply str_eqb_eq in E; contradiction|]. cbn [negb]. now rewrite IH.
Qed.
Lemma writes_none cs : forall o, filter mine (file_writes p o cs) = [].
Proof. induction cs as [|c cs IH]; intros o; cbn [file_writes filter mine]; [reflexivity|]. rewrite str_eqb_refl. cbn [negb]. apply IH. Qed.
Lemma file_plan d : candidate u files fs0 d -> u_plan u1 d = mypart (u_plan u d).
Proof.
  intros C. destruct (plan_shape u1 files fs0 R dir eq_refl DIR CAN d C) as (s & q & l & text & Ft & At & Ls & Lq & Nl & Ep). rewrite Ep.
  assert (Ns : s <> p) by (intros ->; apply (APART d l [] C At); symmetry; exact Ls).
  unfold u_plan, u1, with_out, u_os in Ep. cbn [u_ext u_extra u_out u_check] in Ep. unfold u_plan, u_os. rewrite OUT. unfold store_plan in *. cbn [output_store output_file] in *. destruct (_ && _); [discriminate|].
  revert Ep. set (A := match sym_store_path dir d with Some _ => _ | None => _ end). destruct A as [aa ar]. unfold plan_then at 1. cbn [fst snd]. rewrite app_nil_r. intros Ep.
  assert (ar = Ok tt /\ aa = ADirs q :: ACreate s :: file_writes s 0 (chunks (u_os u1) (encode text))) as (-> & ->). { destruct ar as [[]|e|m]; injection Ep as Ep; [auto|discriminate..]. }
  unfold plan_then. cbn [fst snd]. unfold sym_plan. cbn [u_extra u1 with_out] in Ft. rewrite Ft. cbn [fst snd]. unfold mypart. cbn [fst snd app filter mine].
  destruct (str_eqb s p) eqn:E; [apply str_eqb_eq in E; contradiction|]. cbn [negb]. rewrite filter_app, writes_all by exact Ns. cbn [filter mine]. rewrite str_eqb_refl. cbn [negb]. rewrite writes_none, app_nil_r. reflexivity.
Qed.

Record like_file (k k1 : Work) : Prop := mkLikeFile {
  lf_threads : k_threads k1 = k_threads k;
  lf_fs : (forall d, ~ begun (k_threads k) d) -> w_fs (k_world k1) = w_fs (k_world k);
  lf_off : off x (w_fs (k_world k)) (w_fs (k_world k1));
  lf_x : fs_get (w_fs (k_world k)) x <> Some NDir;
  lf_out : w_out (k_world k1) = w_out (k_world k);
  lf_err : w_err (k_world k1) = w_err (k_world k);
  lf_busy : forall i, k_busy k1 i = option_map mypart (k_busy k i);
  lf_files : forall i pl a, k_busy k i = Some pl -> In a (fst pl) -> on_fs a = true
}.
(** The directory of the file is there. *)
Lemma up_there s fs1 fs gs n up : R fs1 -> only_stores os dir s fs1 gs -> (forall d, begun s d -> candidate u files fs0 d) -> off x fs gs -> x = n :: up -> fs_get fs up = Some NDir.
Proof.
  intros R1 F BC O E. destruct (ROOM fs1 R1) as (n' & up' & E' & U & _). rewrite E in E'. injection E' as <- <-. rewrite <- O by (rewrite E; intros Y; apply (f_equal (@length str)) in Y; cbn [length] in Y; lia).
  destruct (F up) as [G|[(G & _)|(d & B & At & G)]]; [congruence|congruence|]. exfalso. destruct (CAN d (BC d B)) as (_ & _ & _ & _ & RB). destruct (RB fs1 up R1 At) as (_ & RB1 & _). contradiction.
Qed.
Lemma plan_on_fs d a : candidate u files fs0 d -> In a (fst (u_plan u d)) -> on_fs a = true.
Proof.
  intros C. unfold u_plan, store_plan. rewrite OUT. cbn [output_store output_file]. destruct (_ && _); [intros []|].
  assert (W : forall s cs o, forall a, In a (file_writes s o cs) -> on_fs a = true) by (induction cs as [|c cs IH]; intros o b; [intros []|cbn [file_writes]; intros [<- |H]; [reflexivity|exact (IH _ _ H)]]).
  assert (Sy : forall s b, In b (fst (sym_plan (u_os u) (u_extra u) (FPath s) d)) -> on_fs b = true).
  { intros s b. unfold sym_plan. destruct (fmt_object (u_extra u) d); cbn [fst app]; (intros [<- |H]; [reflexivity|]); [eapply W; eauto|destruct H..]. }
  assert (Th : forall p q, (forall b, In b (fst p) -> on_fs b = true) -> (forall b, In b (fst q) -> on_fs b = true) -> forall b, In b (fst (plan_then p q)) -> on_fs b = true).
  { intros [p1 p2] [q1 q2] H1 H2 b. unfold plan_then. cbn [fst snd] in *. destruct p2; cbn [fst]; [|apply H1..]. intros I. apply in_app_iff in I as [I|I]; auto. }
  apply Th; [|apply Sy]. destruct (sym_store_path dir d); [|intros b []]. destruct (path_parent s); [|intros b []]. apply Th; [intros b [<- |[]]; reflexivity|apply Sy].
Qed.
Lemma moved_file w k k' k1 : w_fs w = fs0 -> basic u jobs files fs0 R k -> basic u jobs files fs0 R k' -> in_store u1 jobs files fs0 R dir w k1 -> moved u jobs files k k' -> like_file k k1 ->
  exists k1', (k1' = k1 \/ moved u1 jobs files k1 k1') /\ like_file k' k1'.
Proof.
  intros E Ba Ba' I M [T F O X O1 O2 B PF]. pose proof I as [B1 (fs1 & R1 & _ & OS) D _ _].
  destruct M as [drain t s' P NF NG H|drain i f s' P En H|i d Fl Eb|i d a rest r w' q Fl Eb Ea|drain i d r s' P Fl Eb H].
  - eexists. split; [right; apply (mv_quiet u1 jobs files k1 drain t s' P)|].
    + rewrite T. exact NF.
    + rewrite T. exact NG.
    + rewrite T. rewrite <- H. apply step_same; [reflexivity..|]. intros i f -> Y. now elim (NG i f eq_refl).
    + pose proof (thread_quiet _ _ _ _ _ _ H NF) as Lg. constructor; cbn [k_threads k_world k_busy]; auto. intros N. apply F. intros d [Y|(i & Y)]; apply (N d); [left; now rewrite (stored_same _ _ Lg)|right; exists i].
      apply (thread_keeps _ _ _ _ _ _ i d H); [|exact Y]. intros ->. now apply (NF i d eq_refl).
  - pose proof (get_unbegun u jobs files fs0 _ _ _ _ (b_reach _ _ _ _ _ _ Ba) En) as NB. pose proof (F NB) as F'. pose proof (b_fs _ _ _ _ _ _ Ba NB) as RK.
    assert (Hf : In f files) by (destruct (reach_given _ _ _ _ _ (b_reach _ _ _ _ _ _ Ba)) as (_ & _ & G & _); apply G; eapply nth_error_In; eauto).
    eexists. split; [right; apply (mv_get u1 jobs files k1 drain i f s' P)|].
    + rewrite T. exact En.
    + rewrite T, F'. exact H.
    + constructor; cbn [k_threads k_world k_busy set_fs w_fs w_out w_err]; auto.
      * intros _. rewrite F'. reflexivity.
      * rewrite F'. intros y _. reflexivity.
      * destruct ST as (_ & ST2). destruct (ROOM (fst (u_job u (w_fs (k_world k)) f))) as (_ & _ & _ & _ & Z); [now apply ST2|exact Z].
  - pose proof (begun_candidate u jobs files fs0 R k d Ba (or_intror (ex_intro _ i Fl))) as C. eexists. split; [right; apply (mv_begin u1 jobs files k1 i d)|].
    + now rewrite T.
    + now rewrite B, Eb.
    + constructor; cbn [k_threads k_world k_busy]; auto.
      * intros j. unfold set_busy. destruct (j =? i)%nat; [|apply B]. cbn [option_map]. now rewrite file_plan.
      * intros j pl a. unfold set_busy. destruct (j =? i)%nat; [|apply PF]. intros [= <-]. now apply plan_on_fs.
  - pose proof (begun_candidate u jobs files fs0 R k d Ba (or_intror (ex_intro _ i Fl))) as C.
    assert (NB : ~ forall d, ~ begun (k_threads k) d) by (intros N; apply (N d); right; exists i; exact Fl).
    assert (PF' : forall j pl b, set_busy (k_busy k) i (Some (match q with Ok _ => (rest, r) | _ => ([], q) end)) j = Some pl -> In b (fst pl) -> on_fs b = true).
    { intros j pl b. unfold set_busy. destruct (j =? i)%nat; [|apply PF]. intros [= <-] Ib. apply (PF i _ b Eb). cbn [fst]. right. destruct q; [exact Ib|destruct Ib..]. }
    destruct (mine a) eqn:Oa.
    + assert (Q : k_busy k1 i = Some (a :: filter mine rest, r)) by (rewrite B, Eb; unfold mypart; cbn [option_map fst snd filter]; now rewrite Oa).
      destruct (act_step os (k_world k1) a) as [w1' q1] eqn:E1. rewrite <- T in Fl. pose proof (D i d _ Fl Q) as (s & qq & l & text & Ft & At & Ls & Lq & Nl & S). cbv zeta in S.
      assert (NX : forall k, l <> k ++ x) by (intros kk; eapply APART; eauto).
      assert (LOC : q1 = q /\ off x (w_fs w') (w_fs w1') /\ fs_get (w_fs w') x = fs_get (w_fs (k_world k)) x /\ w_out w1' = w_out w' /\ w_err w1' = w_err w').
      { assert (Sa : a = ADirs qq \/ a = ACreate s \/ exists o c, a = AWrite s o c).
        { destruct S as [S|[(S & _)|(y & z & _ & S & _)]]; [injection S as -> _ _; auto|injection S as -> _ _; auto|]. destruct z as [|c z]; [discriminate|]. injection S as -> _ _. eauto. }
        change (u_os u) with os in Ea. destruct Sa as [->|[->|(o & c & ->)]]; cbn [act_step] in E1, Ea.
        - assert (NX' : forall kk, locate (os_cwd os) qq <> kk ++ x). { intros kk Y. change (os_cwd os) with (os_cwd (u_os u1)) in Y. rewrite Lq in Y. destruct l as [|n l]; [easy|]. cbn [tl] in Y. apply (NX (n :: kk)). now rewrite Y. }
          unfold create_dir_all in E1, Ea. pose proof (mkdirs_off os x _ _ _ NX' O) as Mk. destruct (mkdirs os (w_fs (k_world k)) _), (mkdirs os (w_fs (k_world k1)) _); try contradiction; injection E1 as <- <-; injection Ea as <- <-; cbn [set_fs w_fs w_out w_err]; [destruct Mk; splits; auto|splits; auto].
        - assert (NX' : forall kk, locate (os_cwd os) s <> kk ++ x) by (intros kk Y; change (os_cwd os) with (os_cwd (u_os u1)) in Y; rewrite Ls in Y; now apply (NX kk)).
          pose proof (create_off os x s _ _ NX' O) as Mk. destruct (file_create os (w_fs (k_world k)) s), (file_create os (w_fs (k_world k1)) s); try contradiction; injection E1 as <- <-; injection Ea as <- <-; cbn [set_fs w_fs w_out w_err]; [destruct Mk; splits; auto|splits; auto].
        - change (os_cwd os) with (os_cwd (u_os u1)) in E1, Ea. rewrite Ls in E1, Ea. assert (Lx : l <> x) by (apply (NX [])). rewrite (O l Lx) in E1.
          destruct (fs_get (w_fs (k_world k)) l) as [[old|]|]; injection E1 as <- <-; injection Ea as <- <-; cbn [set_fs w_fs w_out w_err]; splits; auto; [now apply off_set|now apply fs_get_other]. }
      destruct LOC as (-> & LO & LX & Lo & Le).
      exists (mkWork w1' (k_threads k1) (set_busy (k_busy k1) i (Some (match q with Ok _ => (filter mine rest, r) | _ => ([], q) end)))). split.
      * right. eapply mv_act; [exact Fl|exact Q|exact E1].
      * constructor; cbn [k_threads k_world k_busy]; auto; [intros N; now elim NB|congruence|]. intros j. unfold set_busy. destruct (j =? i)%nat; [|apply B]. cbn [option_map]. destruct q; reflexivity.
    + exists k1. split; [now left|].
      assert (LOC : q = Ok tt /\ off x (w_fs w') (w_fs (k_world k1)) /\ fs_get (w_fs w') x <> Some NDir /\ w_out w' = w_out (k_world k) /\ w_err w' = w_err (k_world k)).
      { destruct (ROOM fs1 R1) as (n & up & Ex & _ & _).
        assert (SO : forall c, off x (fs_set (w_fs (k_world k)) x (NFile c)) (w_fs (k_world k1))) by (intros c y Ny; rewrite fs_get_other by congruence; now apply O).
        assert (SX : forall c, fs_get (fs_set (w_fs (k_world k)) x (NFile c)) x <> Some NDir) by (intros c; rewrite fs_get_same by (rewrite Ex; discriminate); discriminate).
        change (u_os u) with os in Ea. destruct a as [s|s|s o c|c|c]; cbn [mine] in Oa; try discriminate.
        - apply negb_false_iff, str_eqb_eq in Oa. subst s. cbn [act_step] in Ea. unfold file_create in Ea. fold x in Ea.
          assert (U : fs_get (w_fs (k_world k)) up = Some NDir). { apply (up_there (k_threads k1) fs1 _ (w_fs (k_world k1)) n up R1 OS); auto. intros e Be. eapply (begun_candidate u1); [exact B1|exact Be]. }
          pose proof X as X'. rewrite Ex in Ea, X'. rewrite U in Ea. rewrite <- Ex in Ea, X'.
          destruct (fs_get (w_fs (k_world k)) x) as [[old|]|]; [|now elim X'|]; unfold os in Ea; rewrite MAY in Ea; injection Ea as <- <-; cbn [set_fs w_fs w_out w_err]; splits; auto.
        - apply negb_false_iff, str_eqb_eq in Oa. subst s. cbn [act_step] in Ea. fold x in Ea.
          destruct (fs_get (w_fs (k_world k)) x) as [[old|]|] eqn:Gx; injection Ea as <- <-; cbn [set_fs w_fs w_out w_err]; splits; auto; congruence.
        - specialize (PF i _ (AOut c) Eb (or_introl eq_refl)). discriminate.
        - specialize (PF i _ (AErr c) Eb (or_introl eq_refl)). discriminate. }
      destruct LOC as (-> & LO & LX & Lo & Le). constructor; cbn [k_threads k_world k_busy]; auto; [intros N; now elim NB|congruence|congruence|].
      intros j. unfold set_busy. destruct (Nat.eqb_spec j i) as [->|N]; [|apply B]. rewrite B, Eb. unfold mypart. cbn [option_map fst snd filter]. rewrite Oa. reflexivity.
  - eexists. split; [right; eapply (mv_finish u1 jobs files k1 drain i d r s' P)|].
    + now rewrite T.
    + now rewrite B, Eb.
    + rewrite T. rewrite <- H. apply step_same; [reflexivity..|]. intros j f [= <-] Y. now elim (flying_get _ _ _ f Fl).
    + destruct (thread_finish _ _ _ _ _ _ _ H Fl) as (L & _). constructor; cbn [k_threads k_world k_busy]; auto.
      * intros N. elim (N d). left. unfold stored. rewrite L, map_app. apply in_or_app. right. now left.
      * intros j. unfold set_busy. destruct (j =? i)%nat; [reflexivity|apply B].
      * intros j pl a. unfold set_busy. destruct (j =? i)%nat; [discriminate|apply PF].
Qed.
Lemma both_file w k : w_fs w = fs0 -> worked u nj (work_start w jobs files) k -> exists k1, in_store u1 jobs files fs0 R dir w k1 /\ like_file k k1.
Proof.
  intros E. induction 1 as [|k k' drain t W IH P H].
  - exists (work_start w jobs files). split; [eapply (worked_in u1 jobs files fs0 R dir ST eq_refl DIR MAY CAN w _ E); constructor|]. constructor; cbn [work_start k_threads k_world k_busy]; auto.
    + intros y _. reflexivity.
    + rewrite E. destruct (ROOM fs0) as (_ & _ & _ & _ & Z); [apply ST|exact Z].
    + discriminate.
  - destruct IH as (k1 & I & L). pose proof (worked_basic u jobs files fs0 R ST w k E W) as Ba. pose proof (worked_basic u jobs files fs0 R ST w k' E (worked_step _ _ _ _ _ _ _ W P H)) as Ba'.
    apply work_moved in H; [|exact P]. destruct (moved_file w k k' k1 E Ba Ba' I H L) as (k1' & [->|M] & L'); [eauto|].
    exists k1'. split; [|exact L']. eapply (moved_in u1 jobs files fs0 R dir ST eq_refl DIR MAY CAN); eauto.
Qed.
End BothFile.
