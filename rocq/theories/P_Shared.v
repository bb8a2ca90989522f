(** Several files that share the file system. *)
From Verif Require Import Base Str Utf8 M_Path M_Source M_Symbol M_Object M_Fs M_Cache M_Store M_Input M_Sched M_Cli M_Many M_Shared
  S_Fs S_Store S_Sched S_Many S_Shared P_Fs P_Store P_Sched P_Run.
From Verif Require P_Several.

(** ** What is written at once *)
Lemma emit_sum b n : b <= 8192 -> let '(ws, b') := buf_emit b n in b' <= 8192 /\ fold_right N.add 0 ws + b' = b + n.
Proof.
  intros H. unfold buf_emit, buf_capacity. destruct (n <? 8192 - b) eqn:E1; [cbn; lia|].
  destruct (8192 - b <? n) eqn:E2; destruct (8192 <=? n) eqn:E3; cbn [fold_right app]; lia.
Qed.
Lemma emits_sum cuts : forall total b, b <= 8192 -> fold_right N.add 0 (buf_emits cuts total b) = b + total.
Proof.
  assert (A : forall l r, fold_right N.add 0 (l ++ r) = fold_right N.add 0 l + fold_right N.add 0 r) by (induction l as [|x l IH]; intros r; cbn [app fold_right]; [lia|rewrite IH; lia]).
  induction cuts as [|c cuts IH]; intros total b H; cbn [buf_emits].
  - pose proof (emit_sum b total H) as E. destruct (buf_emit b total) as [ws b']. rewrite A. cbn [fold_right]. lia.
  - pose proof (emit_sum b (N.min c total) H) as E. destruct (buf_emit b (N.min c total)) as [ws b']. rewrite A, IH by lia. lia.
Qed.
Lemma cut_up_all sizes : forall data, fold_right N.add 0 sizes = lenN data -> concat (cut_up sizes data) = data.
Proof.
  induction sizes as [|n t IH]; intros data E; cbn [fold_right cut_up concat] in *.
  - destruct data; [reflexivity|unfold lenN in E; cbn in E; lia].
  - rewrite IH; [apply firstn_skipn|]. unfold lenN in *. rewrite skipn_length. lia.
Qed.
Lemma chunks_all os data : concat (chunks os data) = data.
Proof. unfold chunks. apply cut_up_all. rewrite emits_sum; lia. Qed.
(** A text that fits the buffer is written at once. *)
Lemma chunks_one os data : lenN data < 8192 -> chunks os data = [data].
Proof.
  intros H. unfold chunks. assert (E : forall cuts total b, b + total < 8192 -> buf_emits cuts total b = [b + total]).
  { induction cuts as [|c cuts IH]; intros total b L; cbn [buf_emits].
    - unfold buf_emit, buf_capacity. destruct (total <? 8192 - b) eqn:E1; [reflexivity|lia].
    - unfold buf_emit, buf_capacity. destruct (N.min c total <? 8192 - b) eqn:E1; [|lia]. cbn [app]. rewrite IH by lia. f_equal. lia. }
  rewrite E by lia. cbn [cut_up]. rewrite firstn_all2 by (unfold lenN in *; lia). reflexivity.
Qed.

(** ** Worlds up to the representation of the file system *)
Lemma fs_set_same fs gs l n : same_fs fs gs -> same_fs (fs_set fs l n) (fs_set gs l n).
Proof. intros H x. unfold fs_set. destruct x as [|y x]; [reflexivity|]. specialize (H (y :: x)). cbn [fs_get afind] in *. destruct (loc_eqb (y :: x) l); [reflexivity|exact H]. Qed.

Lemma same_fs_refl fs : same_fs fs fs.
Proof. intros l. reflexivity. Qed.
Lemma same_world_refl w : same_world w w.
Proof. split; [apply same_fs_refl|auto]. Qed.
Lemma same_world_trans a b c : same_world a b -> same_world b c -> same_world a c.
Proof. intros (F & O & E) (F' & O' & E'). split; [intros l; now rewrite F|split; congruence]. Qed.
Lemma set_twice fs l a b : same_fs (fs_set (fs_set fs l a) l b) (fs_set fs l b).
Proof. intros x. unfold fs_set. destruct x as [|y x]; [reflexivity|]. cbn [fs_get afind]. destruct (loc_eqb (y :: x) l); reflexivity. Qed.
Lemma mkdirs_same os l : forall fs gs, same_fs fs gs ->
  match mkdirs os fs l, mkdirs os gs l with Some a, Some b => same_fs a b | None, None => True | _, _ => False end.
Proof.
  induction l as [|n l IH]; intros fs gs H; cbn [mkdirs]; [exact H|]. rewrite (H (n :: l)). destruct (fs_get gs (n :: l)) as [[d|]|]; [exact I|exact H|].
  specialize (IH fs gs H). destruct (mkdirs os fs l), (mkdirs os gs l); try contradiction; [|exact I]. destruct (os_may os (n :: l)); [now apply fs_set_same|exact I].
Qed.
Lemma create_same os p fs gs : same_fs fs gs -> match file_create os fs p, file_create os gs p with Some a, Some b => same_fs a b | None, None => True | _, _ => False end.
Proof.
  intros H. unfold file_create. destruct (locate (os_cwd os) p) as [|n up]; [exact I|]. rewrite (H up), (H (n :: up)).
  destruct (fs_get gs up) as [[d|]|]; [exact I| |exact I]. destruct (fs_get gs (n :: up)) as [[d|]|]; [|exact I|]; (destruct (os_may os (n :: up)); [now apply fs_set_same|exact I]).
Qed.
Lemma act_same os a v w : same_world v w -> same_world (fst (act_step os v a)) (fst (act_step os w a)) /\ snd (act_step os v a) = snd (act_step os w a).
Proof.
  intros H. pose proof H as (F & O & E). destruct a as [p|p|p off data|data|data]; cbn [act_step].
  - unfold create_dir_all. pose proof (mkdirs_same os (locate (os_cwd os) p) _ _ F) as M. destruct (mkdirs os (w_fs v) _), (mkdirs os (w_fs w) _); try contradiction; cbn [fst snd]; auto.
    split; [|reflexivity]. split; [exact M|cbn; auto].
  - pose proof (create_same os p _ _ F) as M. destruct (file_create os (w_fs v) p), (file_create os (w_fs w) p); try contradiction; cbn [fst snd]; auto.
    split; [|reflexivity]. split; [exact M|cbn; auto].
  - cbn [fst snd]. split; [|reflexivity]. rewrite (F (locate (os_cwd os) p)). destruct (fs_get (w_fs w) _) as [[old|]|]; auto. split; [|cbn; auto]. cbn [w_fs set_fs]. now apply fs_set_same.
  - cbn [fst snd]. split; [|reflexivity]. split; [exact F|cbn; split; congruence].
  - cbn [fst snd]. split; [|reflexivity]. split; [exact F|cbn; split; congruence].
Qed.
Lemma run_same os acts : forall r v w, same_world v w -> same_world (fst (run_plan os v acts r)) (fst (run_plan os w acts r)) /\ snd (run_plan os v acts r) = snd (run_plan os w acts r).
Proof.
  induction acts as [|a t IH]; intros r v w H; cbn [run_plan]; [auto|]. pose proof (act_same os a v w H) as (A & B).
  destruct (act_step os v a) as [v' q], (act_step os w a) as [w' q']. cbn [fst snd] in A, B. subst q'. destruct q; cbn [fst snd]; auto.
Qed.
Lemma run_app os a : forall b r w, run_plan os w (a ++ b) r = match run_plan os w a (Ok tt) with (w, Ok _) => run_plan os w b r | (w, q) => (w, q) end.
Proof.
  induction a as [|x a IH]; intros b r w; cbn [app run_plan]; [reflexivity|]. destruct (act_step os w x) as [w' [[]|m|m]]; [apply IH|reflexivity..].
Qed.
Lemma run_then os a b w : run_plan os w (fst (plan_then a b)) (snd (plan_then a b)) =
  match run_plan os w (fst a) (snd a) with (w, Ok _) => run_plan os w (fst b) (snd b) | (w, q) => (w, q) end.
Proof.
  destruct a as [a [[]|m|m]]; unfold plan_then; cbn [fst snd]; [apply run_app| |].
  - generalize w. induction a as [|x a IH]; intros v; cbn [run_plan]; [reflexivity|]. destruct (act_step os v x) as [v' [[]|n|n]]; [apply IH|reflexivity..].
  - generalize w. induction a as [|x a IH]; intros v; cbn [run_plan]; [reflexivity|]. destruct (act_step os v x) as [v' [[]|n|n]]; [apply IH|reflexivity..].
Qed.

(** ** A plan without interruption is [store] *)
Lemma write_at_end data old : write_at (lenN old) data old = old ++ data.
Proof.
  destruct data as [|x data]; [now rewrite app_nil_r|]. unfold write_at, lenN. rewrite Nat2N.id, firstn_all, Nat.sub_diag. cbn [repeat app]. rewrite skipn_all2 by lia. now rewrite app_nil_r.
Qed.
Lemma run_writes os p cs : forall old w r, fs_get (w_fs w) (locate (os_cwd os) p) = Some (NFile old) -> locate (os_cwd os) p <> [] ->
  exists w', run_plan os w (file_writes p (lenN old) cs) r = (w', r) /\ same_world w' (set_fs w (fs_set (w_fs w) (locate (os_cwd os) p) (NFile (old ++ concat cs)))).
Proof.
  induction cs as [|c cs IH]; intros old w r G Ne; cbn [file_writes run_plan concat].
  - exists w. split; [reflexivity|]. rewrite app_nil_r. split; [|cbn; auto]. intros x. cbn [w_fs set_fs].
    destruct (list_eq_dec str_eq_dec (locate (os_cwd os) p) x) as [<-|N]; [now rewrite fs_get_same|now rewrite fs_get_other].
  - cbn [act_step]. rewrite G. rewrite write_at_end.
    set (w1 := set_fs w (fs_set (w_fs w) (locate (os_cwd os) p) (NFile (old ++ c)))).
    destruct (IH (old ++ c) w1 r) as (w' & E & S); [cbn [w1 set_fs w_fs]; now apply fs_get_same|exact Ne|].
    rewrite lenN_app in E. rewrite E. exists w'. split; [reflexivity|]. eapply same_world_trans; [exact S|]. rewrite <- app_assoc.
    split; [|cbn; auto]. cbn [w1 set_fs w_fs]. apply set_twice.
Qed.
Lemma run_stream os (mk : list N -> Act) (put : World -> list N -> World) cs : (forall w d, act_step os w (mk d) = (put w d, Ok tt)) ->
  (forall w a b, put (put w a) b = put w (a ++ b)) -> (forall w, put w [] = w) -> forall w r, run_plan os w (map mk cs) r = (put w (concat cs), r).
Proof.
  intros A B C. induction cs as [|c cs IH]; intros w r; cbn [map run_plan concat]; [now rewrite C|]. rewrite A, IH, B. reflexivity.
Qed.
Lemma create_nonempty os fs p gs : file_create os fs p = Some gs -> locate (os_cwd os) p <> [] /\ fs_get gs (locate (os_cwd os) p) = Some (NFile []) /\ gs = fs_set fs (locate (os_cwd os) p) (NFile []).
Proof. intros H. destruct (file_create_spec _ _ _ _ H) as (A & -> & _). split; [exact A|]. split; [now apply fs_get_same|reflexivity]. Qed.
Lemma sym_alone os extra fo o w : healthy os ->
  same_world (fst (run_plan os w (fst (sym_plan os extra fo o)) (snd (sym_plan os extra fo o)))) (fst (write_sym os extra fo o w)) /\
  snd (run_plan os w (fst (sym_plan os extra fo o)) (snd (sym_plan os extra fo o))) = snd (write_sym os extra fo o w).
Proof.
  intros H. unfold sym_plan, write_sym. destruct fo as [p| |].
  - destruct (file_create os (w_fs w) p) as [fs1|] eqn:C.
    + destruct (create_nonempty _ _ _ _ C) as (Ne & G & Ef). destruct (fmt_object extra o) as [text|m|m]; cbn [fst snd app run_plan act_step]; rewrite C; [|split; [apply same_world_refl|reflexivity]..].
      destruct (run_writes os p (chunks os (encode text)) [] (set_fs w fs1) (Ok tt)) as (w' & E & S); [exact G|exact Ne|]. change (lenN (@nil N)) with 0 in E. rewrite E. cbn [fst snd].
      unfold buf_write. rewrite H, (proj2 (str_eqb_eq _ _) eq_refl). cbn [fst snd]. split; [|reflexivity]. rewrite chunks_all in S. cbn [app] in S. exact S.
    + destruct (fmt_object extra o) as [text|m|m]; cbn [fst snd app run_plan act_step]; rewrite C; split; try reflexivity; apply same_world_refl.
  - destruct (fmt_object extra o) as [text|m|m]; cbn [fst snd app run_plan]; [|split; [apply same_world_refl|reflexivity]..].
    rewrite (run_stream os AOut (fun w d => mkWorld (w_fs w) (w_out w ++ d) (w_err w))); [|reflexivity|intros; cbn; now rewrite app_assoc|intros [? ? ?]; cbn; now rewrite app_nil_r].
    rewrite chunks_all. split; [apply same_world_refl|reflexivity].
  - destruct (fmt_object extra o) as [text|m|m]; cbn [fst snd app run_plan]; [|split; [apply same_world_refl|reflexivity]..].
    rewrite (run_stream os AErr (fun w d => mkWorld (w_fs w) (w_out w) (w_err w ++ d))); [|reflexivity|intros; cbn; now rewrite app_assoc|intros [? ? ?]; cbn; now rewrite app_nil_r].
    rewrite chunks_all. split; [apply same_world_refl|reflexivity].
Qed.
Lemma store_alone os extra out ck o w : healthy os -> let p := store_plan os extra out ck o in
  same_world (fst (run_plan os w (fst p) (snd p))) (fst (store os extra out ck o w)) /\ snd (run_plan os w (fst p) (snd p)) = snd (store os extra out ck o w).
Proof.
  intros H. cbv zeta. unfold store_plan, store. destruct (ck && _); [split; [apply same_world_refl|reflexivity]|]. rewrite run_then. unfold andThen.
  match goal with |- context [run_plan os w (fst ?a) (snd ?a)] => set (A := a) end.
  match goal with |- context [fst (match snd ?b with _ => _ end)] => set (B := b) end.
  assert (K : same_world (fst (run_plan os w (fst A) (snd A))) (fst B) /\ snd (run_plan os w (fst A) (snd A)) = snd B).
  { subst A B. destruct (output_store out o) as [p|]; [|split; [apply same_world_refl|reflexivity]]. unfold write_store. destruct (path_parent p) as [d|]; [|split; [apply same_world_refl|reflexivity]].
    rewrite run_then. cbn [fst snd run_plan act_step]. destruct (create_dir_all os (w_fs w) d) as [fs1|]; [|split; [apply same_world_refl|reflexivity]]. now apply sym_alone. }
  destruct (run_plan os w (fst A) (snd A)) as [w1 q], B as [w2 q']. cbn [fst snd] in K |- *. destruct K as (K & <-). destruct q as [[]|m|m]; [|split; [exact K|reflexivity]..].
  destruct (output_file out) as [f|]; [|split; [exact K|reflexivity]].
  destruct (run_same os (fst (sym_plan os extra f o)) (snd (sym_plan os extra f o)) _ _ K) as (R1 & R2). destruct (sym_alone os extra f o w2 H) as (S1 & S2).
  split; [eapply same_world_trans; eassumption|congruence].
Qed.

(** ** The threads *)
Section Threads.
Context {I : Type}.
Implicit Types (S : Sys I) (s : St I).
Lemma step_same S S' nj c t s : sy_key S = sy_key S' -> sy_merge S = sy_merge S' ->
  (forall i f, t = Worker i -> nth_error (s_workers s) i = Some (WGet f) -> sy_proc S f = sy_proc S' f) -> thread_step S nj c t s = thread_step S' nj c t s.
Proof.
  intros K M P. unfold thread_step. destruct (s_main s); try reflexivity; (destruct t as [|i]; [reflexivity|]; destruct (nth_error (s_workers s) i) as [w|] eqn:E; [|reflexivity];
    destruct w; cbn [worker_step]; rewrite ?K, ?M; try reflexivity; rewrite (P i f eq_refl E); reflexivity).
Qed.
(** Files that are worked on are among those given. *)
Definition given (files : list str) s : Prop :=
  (forall l f, s_main s = MSend l -> In f l -> In f files) /\ (forall f, In (MGet f) (h_queue (s_shared s)) -> In f files) /\
  (forall f, In (WGet f) (s_workers s) -> In f files) /\
  (forall ms f, In (WSend ms) (s_workers s) -> ~ In (MGet f) ms).
Lemma In_swap {A} (x y z : A) a b : In x (a ++ y :: b) -> x = y \/ In x (a ++ z :: b).
Proof. rewrite !in_app_iff. cbn [In]. intuition. Qed.
Lemma thread_given S nj c t s s' files : legal S c -> thread_step S nj c t s = Some s' -> given files s -> given files s'.
Proof.
  intros L H (A & B & C & D). unfold thread_step in H.
  assert (W : forall i w h w', nth_error (s_workers s) i = Some w -> worker_step S nj c (s_shared s) w = Some (h, w') ->
    s' = mkSt h (set_nth (s_workers s) i w') (s_main s) -> given files s').
  { intros i w h w' E Hw ->. destruct (set_nth_split _ _ _ w' E) as (a & b & Es & Sn & _). rewrite Sn. clear Sn. assert (Iw : In w (s_workers s)) by (rewrite Es; apply in_elt).
    assert (Q : (forall f, In (MGet f) (h_queue h) -> In (MGet f) (h_queue (s_shared s)) \/ (exists ms, In (WSend ms) (s_workers s) /\ In (MGet f) ms)) /\
      (forall f, w' = WGet f -> In (MGet f) (h_queue (s_shared s))) /\ (forall ms f, w' = WSend ms -> In (MGet f) ms -> exists ms', In (WSend ms') (s_workers s) /\ In (MGet f) ms')).
    { assert (Rp : forall f n, ~ In (MGet f) (repeat (@MStop I) n)) by (intros f n H0; apply repeat_spec in H0; discriminate).
      assert (Dp : forall f (l : list I), ~ In (MGet f) (map MDump l)) by (intros f l H0; apply in_map_iff in H0 as (? & ? & _); discriminate).
      destruct w; cbn [worker_step] in Hw.
      - destruct (h_queue (s_shared s)) as [|m q] eqn:Eq; [discriminate|]. injection Hw as <- <-. cbn [h_queue set_queue]. splits.
        + intros f Hf. left. now right.
        + intros f Hf. destruct m; try discriminate. injection Hf as ->. now left.
        + intros ms f Hf. destruct m; discriminate.
      - destruct (sy_proc S f); injection Hw as <- <-; splits; auto; intros; discriminate.
      - destruct (h_lock (s_shared s)); [discriminate|]. destruct (h_poisoned (s_shared s)); [injection Hw as <- <-; splits; auto; intros; discriminate|].
        destruct (rfind _ _); [destruct (sy_merge _ _ _)|]; injection Hw as <- <-; splits; auto; intros; discriminate.
      - destruct n; [injection Hw as <- <-; splits; auto; intros; discriminate|]. destruct (full _ _); [discriminate|]. injection Hw as <- <-. splits; try (intros; discriminate).
        intros f Hf. cbn [push set_queue h_queue] in Hf. apply in_app_iff in Hf as [Hf|[Hf|[]]]; [auto|discriminate].
      - injection Hw as <- <-. splits; auto; intros ? ?; try intros ?; destruct (_ =? _); discriminate.
      - injection Hw as <- <-. splits; auto; intros; discriminate.
      - destruct (h_lock (s_shared s)); [discriminate|]. destruct (h_poisoned (s_shared s)); [injection Hw as <- <-; splits; auto; intros; discriminate|].
        assert (X : (h_queue h = h_queue (s_shared s)) /\ ((exists d, w' = WOnly d) \/ exists l, w' = WSend (map MDump l ++ repeat MStop nj))).
        { destruct (h_results (s_shared s)) as [|[? d] [|? ?]]; injection Hw as <- <-; (split; [reflexivity|]); eauto. }
        destruct X as (-> & [(d & ->)|(l & ->)]); splits; auto; try (intros; discriminate). intros ms f [= <-] Hf. apply in_app_iff in Hf as [Hf|Hf]; [now apply Dp in Hf|now apply Rp in Hf].
      - destruct (ch_store c d); injection Hw as <- <-; splits; auto; try (intros; discriminate). intros ms f [= <-] Hf. now apply Rp in Hf.
      - destruct ms as [|m ms]; [injection Hw as <- <-; splits; auto; intros; discriminate|]. destruct (full _ _); [discriminate|]. injection Hw as <- <-. splits.
        + intros f Hf. cbn [push set_queue h_queue] in Hf. apply in_app_iff in Hf as [Hf|[Hf|[]]]; [auto|]. subst m. right. exists (MGet f :: ms). split; [exact Iw|now left].
        + intros; discriminate.
        + intros ms' f [= <-] Hf. exists (m :: ms). split; [exact Iw|now right].
      - injection Hw as <- <-. splits; auto; intros ? ?; try intros ?; destruct (ch_store c d); discriminate.
      - discriminate. }
    destruct Q as (Q1 & Q2 & Q3). unfold given; splits; cbn [s_main s_shared s_workers].
    - exact A.
    - intros f Hf. destruct (Q1 f Hf) as [G|(ms & G1 & G2)]; [auto|now elim (D ms f G1)].
    - intros f Hf. destruct (In_swap _ _ w _ _ Hf) as [Hf'|Hf']; [apply B; apply Q2; auto|apply C; now rewrite Es].
    - intros ms f Hf Hm. destruct (In_swap _ _ w _ _ Hf) as [Hf'|Hf']; [destruct (Q3 ms f (eq_sym Hf') Hm) as (ms' & G1 & G2); now elim (D ms' f G1)|rewrite <- Es in Hf'; now elim (D ms f Hf')]. }
  assert (Mn : forall h m', main_step nj (s_shared s) (s_workers s) (s_main s) = Some (h, m') -> s' = mkSt h (s_workers s) m' -> given files s').
  { intros h m' Hm ->. unfold main_step in Hm. destruct (s_main s) as [[|f fs]|k| |] eqn:Em.
    - injection Hm as <- <-. unfold given; splits; auto; cbn; intros; discriminate.
    - destruct (full _ _); [discriminate|]. injection Hm as <- <-. unfold given; splits; cbn [s_main s_shared s_workers push set_queue h_queue]; auto.
      + intros fs' g [= <-] Hg. apply (A _ g eq_refl). now right.
      + intros g Hg. apply in_app_iff in Hg as [Hg|[Hg|[]]]; [auto|]. injection Hg as <-. apply (A _ f eq_refl). now left.
    - assert (X : h = s_shared s /\ (m' = MDone \/ m' = MPanic \/ m' = MJoin (Datatypes.S k))).
      { destruct (nth_error (s_workers s) k) as [[]|]; try discriminate; [destruct x|]; injection Hm as <- <-; auto. }
      destruct X as (-> & X). unfold given; splits; auto; cbn [s_main]; intros ? ? E; destruct X as [->|[->| ->]]; discriminate.
    - discriminate.
    - discriminate. }
  destruct (s_main s) eqn:Em; try discriminate; (destruct t as [|i];
    [destruct (main_step _ _ _ _) as [[h m']|] eqn:E; [|discriminate]; injection H as <-; eapply Mn; reflexivity
    |destruct (nth_error (s_workers s) i) as [w|] eqn:E; [|discriminate]; destruct (worker_step S nj c (s_shared s) w) as [[h w']|] eqn:E2; [|discriminate]; injection H as <-; eapply W; [exact E|exact E2|reflexivity]]).
Qed.
Lemma reach_given S nj jobs files s : reach S nj (start jobs files) s -> given files s.
Proof.
  induction 1 as [|s s' R IH (c & t & L & H)].
  - unfold given, start. cbn [s_main s_shared s_workers h_queue]. splits; [intros fs f [= <-]; auto|intros f []|intros f H; apply repeat_spec in H; discriminate|intros ms f H; apply repeat_spec in H; discriminate].
  - eapply thread_given; eauto.
Qed.
(** A worker that is storing can finish. *)
Definition storing (w : WState I) (d : I) : Prop := w = WOnly d \/ w = WDump d.
Definition alive s : Prop := match s_main s with MDone | MPanic => False | _ => True end.
Lemma set_nth_get (ws : list (WState I)) i j w' : (i < length ws)%nat -> nth_error (set_nth ws i w') j = if (j =? i)%nat then Some w' else nth_error ws j.
Proof.
  revert i j. induction ws as [|x ws IH]; intros i j L; [cbn in L; lia|]. destruct i as [|i]; destruct j as [|j]; cbn [set_nth nth_error Nat.eqb]; try reflexivity. apply IH. cbn in L. lia.
Qed.
(** A step of another thread leaves a worker alone. *)
Lemma thread_other S nj c t s s' j : thread_step S nj c t s = Some s' -> t <> Worker j -> nth_error (s_workers s') j = nth_error (s_workers s) j.
Proof.
  unfold thread_step. intros H N. destruct (s_main s); try discriminate; (destruct t as [|i];
    [destruct (main_step _ _ _ _) as [[h m']|]; [|discriminate]; injection H as <-; reflexivity
    |destruct (nth_error (s_workers s) i) as [w|] eqn:E; [|discriminate]; destruct (worker_step S nj c (s_shared s) w) as [[h w']|]; [|discriminate]; injection H as <-; cbn [s_workers];
     rewrite set_nth_get by (apply nth_error_Some; congruence); destruct (Nat.eqb_spec j i); [congruence|reflexivity]]).
Qed.
Definition flying s i d : Prop := nth_error (s_workers s) i = Some (WOnly d) \/ nth_error (s_workers s) i = Some (WDump d).
Lemma flying_fun s i d d' : flying s i d -> flying s i d' -> d = d'.
Proof. unfold flying. intros [H|H] [H'|H']; congruence. Qed.
(** What a step does to the log. *)
Lemma thread_quiet S nj c t s s' : thread_step S nj c t s = Some s' -> (forall i d, t = Worker i -> ~ flying s i d) -> h_log (s_shared s') = h_log (s_shared s).
Proof.
  unfold thread_step. intros H N. destruct (s_main s) eqn:Em; try discriminate; (destruct t as [|i];
    [destruct (main_step _ _ _ _) as [[h m']|] eqn:E; [|discriminate]; injection H as <-
    |destruct (nth_error (s_workers s) i) as [w|] eqn:En; [|discriminate]; destruct (worker_step S nj c (s_shared s) w) as [[h w']|] eqn:E; [|discriminate]; injection H as <-]);
    cbn [s_shared].
  1,3: unfold main_step in E; repeat (match goal with H : context [match ?x with _ => _ end] |- _ => destruct x end; try discriminate); injection E as <- <-; reflexivity.
  all: assert (NF : forall d, w <> WOnly d /\ w <> WDump d) by (intros d; split; intros ->; apply (N i d eq_refl); unfold flying; auto);
    destruct w; cbn [worker_step] in E; try (now elim (proj1 (NF d))); try (now elim (proj2 (NF d)));
    repeat (match goal with H : context [match ?x with _ => _ end] |- _ => destruct x end; try discriminate); try discriminate; injection E as <- <-; reflexivity.
Qed.
Lemma thread_finish S nj c i s s' d : thread_step S nj c (Worker i) s = Some s' -> flying s i d ->
  h_log (s_shared s') = h_log (s_shared s) ++ [(d, ch_store c d)] /\ forall e, ~ flying s' i e.
Proof.
  unfold thread_step. intros H F. assert (Q : exists w h w', nth_error (s_workers s) i = Some w /\ worker_step S nj c (s_shared s) w = Some (h, w') /\ s_shared s' = h /\ s_workers s' = set_nth (s_workers s) i w').
  { destruct (s_main s); try discriminate; destruct (nth_error (s_workers s) i) as [w|] eqn:E; try discriminate; destruct (worker_step S nj c (s_shared s) w) as [[h w']|] eqn:Ew; try discriminate; injection H as <-; eauto 8. }
  destruct Q as (w & h & w' & E & Ew & -> & Es). clear H.
  assert (X : h_log h = h_log (s_shared s) ++ [(d, ch_store c d)] /\ forall e, w' <> WOnly e /\ w' <> WDump e).
  { destruct F as [F|F]; rewrite F in E; injection E as <-; cbn [worker_step] in Ew; destruct (ch_store c d); injection Ew as <- <-; (split; [reflexivity|]); intros x; split; discriminate. }
  destruct X as (X1 & X2). split; [exact X1|]. intros e Fe. unfold flying in Fe. rewrite Es in Fe. rewrite set_nth_get in Fe by (apply nth_error_Some; destruct F as [F|F]; congruence).
  rewrite Nat.eqb_refl in Fe. destruct (X2 e) as (X3 & X4). destruct Fe as [Fe|Fe]; injection Fe as Fe; auto.
Qed.
(** No other step lets a worker stop storing. *)
Lemma thread_keeps S nj c t s s' i d : thread_step S nj c t s = Some s' -> t <> Worker i -> flying s' i d <-> flying s i d.
Proof. intros H N. unfold flying. rewrite (thread_other _ _ _ _ _ _ i H N). reflexivity. Qed.


Lemma flying_mods s i d : flying s i d -> In d (flat_map w_mods (s_workers s)).
Proof. intros H. apply in_flat_map. destruct H as [H|H]; apply nth_error_In in H; eexists; (split; [exact H|]); now left. Qed.
Lemma begun_mods s d : begun s d -> In d (mods s).
Proof.
  intros [H|(i & H)]; unfold mods; rewrite !in_app_iff; [tauto|]. right. left. eapply flying_mods; eauto.
Qed.
Lemma begun_sent S nj files s mf nl sent d : inv S nj files s mf nl sent -> begun s d -> sent = true.
Proof.
  intros Inv B. destruct sent; [reflexivity|]. destruct (i_unsent _ _ _ _ _ _ _ Inv eq_refl) as (U & _). apply app_eq_nil in U as (U1 & U). apply app_eq_nil in U as (U2 & U3).
  destruct B as [B|(i & B)]; [rewrite U3 in B; destruct B|]. apply flying_mods in B. rewrite U1 in B. destruct B.
Qed.
Lemma begun_merged S jobs files s d : key_kept S -> reach S (Nat.min jobs (length files)) (start jobs files) s -> begun s d -> all_merged S files s.
Proof.
  intros KK R B. destruct (reach_inv S jobs files s KK R) as (mf & nl & sent & Inv). pose proof (begun_sent _ _ _ _ _ _ _ _ Inv B). subst sent. eapply merged_all; eauto.
Qed.
Lemma begun_made S jobs files s d : key_kept S -> reach S (Nat.min jobs (length files)) (start jobs files) s -> begun s d ->
  exists g, merge_in_order S g d /\ Permutation g (group S files (sy_key S d)).
Proof.
  intros KK R B. destruct (reach_inv S jobs files s KK R) as (mf & nl & sent & Inv). pose proof (begun_sent _ _ _ _ _ _ _ _ Inv B). subst sent.
  destruct (sent_all _ _ _ _ _ _ Inv) as (-> & A & B' & C & D & E & F).
  pose proof (i_mods _ _ _ _ _ _ _ Inv eq_refl) as M. rewrite Forall_forall in M. destruct (M d (begun_mods _ _ B)) as (g & G1 & G2).
  exists g. split; [exact G1|]. apply same_perm. intros P. rewrite G2. unfold group. rewrite cnt_filter. symmetry. eapply none_left; eauto.
Qed.
Lemma two_flying (P : I -> bool) ws : forall i j d e, i <> j -> (nth_error ws i = Some (WOnly d) \/ nth_error ws i = Some (WDump d)) -> (nth_error ws j = Some (WOnly e) \/ nth_error ws j = Some (WDump e)) ->
  P d = true -> P e = true -> (2 <= cnt P (flat_map w_mods ws))%nat.
Proof.
  assert (One : forall (ws : list (WState I)) j e, (nth_error ws j = Some (WOnly e) \/ nth_error ws j = Some (WDump e)) -> P e = true -> (1 <= cnt P (flat_map w_mods ws))%nat).
  { clear ws. intros ws j e H E. apply (cnt_In P e); [|exact E]. apply in_flat_map. destruct H as [H|H]; apply nth_error_In in H; eexists; (split; [exact H|]); now left. }
  induction ws as [|w ws IH]; intros i j d e N Hi Hj Pd Pe; [destruct i; destruct Hi; discriminate|]. cbn [flat_map]. rewrite cnt_app.
  assert (Hd : forall x, (Some w = Some (WOnly x) \/ Some w = Some (WDump x)) -> P x = true -> (1 <= cnt P (w_mods w))%nat).
  { intros x [H|H] X; injection H as ->; cbn [w_mods]; rewrite cnt_cons, X; cbn; lia. }
  destruct i as [|i]; destruct j as [|j]; cbn [nth_error] in Hi, Hj; [congruence|specialize (Hd d Hi Pd); specialize (One ws j e Hj Pe); lia|specialize (Hd e Hj Pe); specialize (One ws i d Hi Pd); lia|].
  specialize (IH i j d e ltac:(congruence) Hi Hj Pd Pe). lia.
Qed.
Lemma flying_apart S jobs files s i j d e : key_kept S -> reach S (Nat.min jobs (length files)) (start jobs files) s -> flying s i d -> flying s j e -> i <> j -> sy_key S d <> sy_key S e.
Proof.
  intros KK R A B N E. destruct (reach_inv S jobs files s KK R) as (mf & nl & sent & Inv). pose proof (i_once _ _ _ _ _ _ _ Inv (sy_key S d)) as O.
  unfold mods in O. rewrite !cnt_app in O. pose proof (two_flying (keyed S (sy_key S d)) (s_workers s) i j d e N A B (proj2 (keyed_iff _ _ _) eq_refl) (proj2 (keyed_iff _ _ _) (eq_sym E))). lia.
Qed.
Lemma logged_apart S jobs files s i d e : key_kept S -> reach S (Nat.min jobs (length files)) (start jobs files) s -> flying s i d -> In e (stored s) -> sy_key S d <> sy_key S e.
Proof.
  intros KK R A B E. destruct (reach_inv S jobs files s KK R) as (mf & nl & sent & Inv). pose proof (i_once _ _ _ _ _ _ _ Inv (sy_key S d)) as O.
  unfold mods in O. rewrite !cnt_app in O. pose proof (cnt_In (keyed S (sy_key S d)) d _ (flying_mods _ _ _ A) (proj2 (keyed_iff _ _ _) eq_refl)).
  pose proof (cnt_In (keyed S (sy_key S d)) e _ B (proj2 (keyed_iff _ _ _) (eq_sym E))). lia.
Qed.
(** *** Files that wait for processing *)
Definition gets (q : list (Msg I)) : list str := flat_map (fun m => match m with MGet f => [f] | _ => [] end) q.
Definition w_todo (w : WState I) : list str := match w with WGet f => [f] | WSend ms => gets ms | _ => [] end.
Definition todo (s : St I) : list str := m_files (s_main s) ++ gets (h_queue (s_shared s)) ++ flat_map w_todo (s_workers s).
Lemma gets_app a b : gets (a ++ b) = gets a ++ gets b. Proof. apply flat_map_app. Qed.
Lemma gets_dumps (l : list I) : gets (map MDump l) = []. Proof. induction l; auto. Qed.
Lemma gets_stops n : gets (repeat MStop n) = []. Proof. induction n; auto. Qed.
Lemma worker_todo S nj c h w h' w' : worker_step S nj c h w = Some (h', w') ->
  Permutation (gets (h_queue h) ++ w_todo w) (match w with WGet f => [f] | _ => [] end ++ gets (h_queue h') ++ w_todo w').
Proof.
  intros E. destruct w; cbn [worker_step] in E.
  - destruct (h_queue h) as [|m q]; [discriminate|]. injection E as <- <-. cbn [h_queue set_queue w_todo app]. destruct m; cbn [gets flat_map app]; rewrite ?app_nil_r; auto. apply Permutation_cons_append.
  - destruct (sy_proc S f); injection E as <- <-; cbn [w_todo app]; rewrite app_nil_r; symmetry; apply Permutation_cons_append.
  - repeat (match goal with H : context [match ?x with _ => _ end] |- _ => destruct x end; try discriminate); injection E as <- <-; reflexivity.
  - destruct n; [|destruct (full _ _); [discriminate|]]; injection E as <- <-; cbn [w_todo app push set_queue set_lock h_queue]; rewrite ?gets_app; cbn [gets flat_map]; now rewrite ?app_nil_r.
  - injection E as <- <-. now destruct (h_counter h =? 1).
  - injection E as <- <-. reflexivity.
  - destruct (h_lock h); [discriminate|]. destruct (h_poisoned h); [injection E as <- <-; reflexivity|].
    assert (Q : forall l, gets (map MDump (ch_drain c l) ++ repeat MStop nj) = []) by (intros l; now rewrite gets_app, gets_dumps, gets_stops).
    destruct (h_results h) as [|[k d] [|x l]]; injection E as <- <-; cbn [w_todo app]; rewrite ?Q; reflexivity.
  - destruct (ch_store c d); injection E as <- <-; cbn [w_todo app]; rewrite ?gets_stops; reflexivity.
  - destruct ms as [|m ms]; [|destruct (full _ _); [discriminate|]]; injection E as <- <-; cbn [w_todo app push set_queue set_lock h_queue]; rewrite ?gets_app; [reflexivity|].
    cbn [gets flat_map]. rewrite app_nil_r, <- app_assoc. reflexivity.
  - destruct (ch_store c d); injection E as <- <-; reflexivity.
  - discriminate.
Qed.
Lemma thread_todo S nj c t s s' : thread_step S nj c t s = Some s' ->
  (forall i f, t = Worker i -> nth_error (s_workers s) i = Some (WGet f) -> Permutation (todo s) (f :: todo s')) /\
  ((forall i f, t = Worker i -> nth_error (s_workers s) i <> Some (WGet f)) -> Permutation (todo s) (todo s')).
Proof.
  intros H. assert (Wk : forall i w h w', nth_error (s_workers s) i = Some w -> worker_step S nj c (s_shared s) w = Some (h, w') -> s' = mkSt h (set_nth (s_workers s) i w') (s_main s) ->
    Permutation (todo s) (match w with WGet f => [f] | _ => [] end ++ todo s')).
  { intros i w h w' E Ew ->. destruct (set_nth_split _ _ _ w' E) as (a & b & Es & Sn & _). unfold todo. cbn [s_main s_shared s_workers]. rewrite Sn, Es, !flat_map_app. cbn [flat_map].
    pose proof (worker_todo _ _ _ _ _ _ _ Ew) as P. set (g := match w with WGet f => [f] | _ => [] end) in *.
    transitivity (m_files (s_main s) ++ (gets (h_queue (s_shared s)) ++ w_todo w) ++ flat_map w_todo a ++ flat_map w_todo b).
    - apply Permutation_app_head. rewrite <- app_assoc. apply Permutation_app_head. apply Permutation_app_swap_app.
    - rewrite P. transitivity (g ++ m_files (s_main s) ++ (gets (h_queue h) ++ w_todo w') ++ flat_map w_todo a ++ flat_map w_todo b).
      + rewrite <- !app_assoc. apply Permutation_app_swap_app.
      + apply Permutation_app_head, Permutation_app_head. rewrite <- !app_assoc. apply Permutation_app_head. apply Permutation_app_swap_app. }
  unfold thread_step in H. destruct t as [|i].
  - split; [discriminate|]. intros _. assert (X : exists h m', main_step nj (s_shared s) (s_workers s) (s_main s) = Some (h, m') /\ s' = mkSt h (s_workers s) m').
    { destruct (s_main s); try discriminate; (destruct (main_step _ _ _ _) as [[h m']|]; [|discriminate]; injection H as <-; eauto). }
    destruct X as (h & m' & E & ->). unfold todo. cbn [s_main s_shared s_workers]. unfold main_step in E. destruct (s_main s) as [[|f fs]|n| |]; try discriminate.
    + injection E as <- <-. reflexivity.
    + destruct (full _ _); [discriminate|]. injection E as <- <-. cbn [m_files push set_queue h_queue]. rewrite gets_app. cbn [gets flat_map]. cbn [app].
      transitivity (fs ++ f :: gets (h_queue (s_shared s)) ++ flat_map w_todo (s_workers s)); [apply Permutation_middle|]. apply Permutation_app_head. rewrite <- app_assoc. cbn [app]. apply Permutation_middle.
    + destruct (nth_error (s_workers s) n) as [[]|]; try discriminate; [destruct x|]; injection E as <- <-; reflexivity.
  - assert (X : exists w h w', nth_error (s_workers s) i = Some w /\ worker_step S nj c (s_shared s) w = Some (h, w') /\ s' = mkSt h (set_nth (s_workers s) i w') (s_main s)).
    { destruct (s_main s) eqn:Em; try discriminate; (destruct (nth_error (s_workers s) i) as [w|]; [|discriminate]; destruct (worker_step S nj c (s_shared s) w) as [[h w']|] eqn:Ew; [|discriminate]; injection H as <-; exists w, h, w'; auto). }
    destruct X as (w & h & w' & E & Ew & Es). pose proof (Wk i w h w' E Ew Es) as P. split.
    + intros j f [= <-] Ef. rewrite E in Ef. injection Ef as ->. exact P.
    + intros N. specialize (N i). destruct w; try exact P. now elim (N f eq_refl).
Qed.
End Threads.

(** ** Runs *)
Lemma partly_all u files fs0 s fs1 d : partly u files fs0 s fs1 -> begun s d -> processed u files fs0 fs1.
Proof. intros (l & rest & P & E & B) X. rewrite (B d X), app_nil_r in P. exists l. auto. Qed.
Section Work.
Variables (u : Setup) (jobs : nat) (files : list str) (fs0 : FS) (R : FS -> Prop).
Hypothesis ST : steady u files fs0 R.
Let nj := Nat.min jobs (length files).
Let sys (T : res unit -> Prop) : Sys Obj := several_sys (u_ext u) (u_env u) (u_iter u) (u_map u) (u_arch u) (u_inl u) fs0 (fun _ r => T r).

(** The kinds of steps. *)
Inductive moved (k : Work) : Work -> Prop :=
| mv_quiet drain t s' : (forall l, Permutation (drain l) (map snd l)) -> (forall i d, t = Worker i -> ~ flying (k_threads k) i d) ->
    (forall i f, t = Worker i -> nth_error (s_workers (k_threads k)) i <> Some (WGet f)) ->
    thread_step (u_sys u (w_fs (k_world k))) nj (answer drain (Ok tt)) t (k_threads k) = Some s' -> moved k (mkWork (k_world k) s' (k_busy k))
| mv_get drain i f s' : (forall l, Permutation (drain l) (map snd l)) -> nth_error (s_workers (k_threads k)) i = Some (WGet f) ->
    thread_step (u_sys u (w_fs (k_world k))) nj (answer drain (Ok tt)) (Worker i) (k_threads k) = Some s' ->
    moved k (mkWork (set_fs (k_world k) (fst (u_job u (w_fs (k_world k)) f))) s' (k_busy k))
| mv_begin i d : flying (k_threads k) i d -> k_busy k i = None -> moved k (mkWork (k_world k) (k_threads k) (set_busy (k_busy k) i (Some (u_plan u d))))
| mv_act i d a rest r w' q : flying (k_threads k) i d -> k_busy k i = Some (a :: rest, r) -> act_step (u_os u) (k_world k) a = (w', q) ->
    moved k (mkWork w' (k_threads k) (set_busy (k_busy k) i (Some (match q with Ok _ => (rest, r) | _ => ([], q) end))))
| mv_finish drain i d r s' : (forall l, Permutation (drain l) (map snd l)) -> flying (k_threads k) i d -> k_busy k i = Some ([], r) ->
    thread_step (u_sys u (w_fs (k_world k))) nj (answer drain r) (Worker i) (k_threads k) = Some s' -> moved k (mkWork (k_world k) s' (set_busy (k_busy k) i None)).
Lemma work_moved k k' drain t : (forall l, Permutation (drain l) (map snd l)) -> work_step u nj drain t k = Some k' -> moved k k'.
Proof.
  intros P H. unfold work_step in H. destruct t as [|i].
  - destruct (thread_step _ _ _ _ _) as [s'|] eqn:E; [|discriminate]. injection H as <-. eapply mv_quiet; eauto; discriminate.
  - destruct (nth_error (s_workers (k_threads k)) i) as [w|] eqn:En.
    + assert (Fl : forall d, w = WOnly d \/ w = WDump d ->
        match s_main (k_threads k) with MDone | MPanic => None | _ =>
          match k_busy k i with None => Some (mkWork (k_world k) (k_threads k) (set_busy (k_busy k) i (Some (u_plan u d))))
          | Some (a :: rest, r) => let '(w', q) := act_step (u_os u) (k_world k) a in Some (mkWork w' (k_threads k) (set_busy (k_busy k) i (Some (match q with Ok _ => (rest, r) | _ => ([], q) end))))
          | Some ([], r) => match thread_step (u_sys u (w_fs (k_world k))) nj (answer drain r) (Worker i) (k_threads k) with Some s' => Some (mkWork (k_world k) s' (set_busy (k_busy k) i None)) | None => None end end end = Some k' -> moved k k').
      { clear H. intros d Hd H. assert (F : flying (k_threads k) i d) by (unfold flying; rewrite En; destruct Hd as [->| ->]; auto).
        destruct (k_busy k i) as [[[|a rest] r]|] eqn:Eb.
        - assert (Q : exists s', thread_step (u_sys u (w_fs (k_world k))) nj (answer drain r) (Worker i) (k_threads k) = Some s' /\ k' = mkWork (k_world k) s' (set_busy (k_busy k) i None)).
          { destruct (s_main (k_threads k)); try discriminate; (destruct (thread_step _ _ _ _ _) as [s'|]; [|discriminate]; injection H as <-; eauto). }
          destruct Q as (s' & E & ->). eapply mv_finish; eauto.
        - destruct (act_step (u_os u) (k_world k) a) as [w' q] eqn:Ea. assert (k' = mkWork w' (k_threads k) (set_busy (k_busy k) i (Some (match q with Ok _ => (rest, r) | _ => ([], q) end)))) as -> by (destruct (s_main (k_threads k)); congruence).
          eapply mv_act; eauto.
        - assert (k' = mkWork (k_world k) (k_threads k) (set_busy (k_busy k) i (Some (u_plan u d)))) as -> by (destruct (s_main (k_threads k)); congruence). now apply mv_begin. }
      destruct w; try (apply (Fl _ (or_introl eq_refl) H)); try (apply (Fl _ (or_intror eq_refl) H));
        (destruct (thread_step _ _ _ _ _) as [s'|] eqn:E; [|discriminate]; injection H as <-);
        try (eapply mv_get; eauto; fail);
        (eapply mv_quiet; [exact P| | |exact E]; intros j y [= <-]; unfold flying; rewrite En; [intros [X|X]; discriminate|discriminate]).
    + destruct (thread_step _ _ _ _ _) as [s'|] eqn:E; [|discriminate]. injection H as <-.
      eapply mv_quiet; [exact P| | |exact E]; intros j y [= <-]; unfold flying; rewrite En; [intros [X|X]; discriminate|discriminate].
Qed.

(** What the processing of the files that no longer wait makes of [fs0]. *)
Definition taken (s : St Obj) (fs1 : FS) : Prop := exists l, Permutation (l ++ todo s) files /\ fs1 = after u fs0 l.
Lemma taken_quiet S' c t s s' fs1 : thread_step S' nj c t s = Some s' -> (forall i f, t = Worker i -> nth_error (s_workers s) i <> Some (WGet f)) -> taken s fs1 -> taken s' fs1.
Proof. intros H N (l & P & E). exists l. split; [|exact E]. rewrite <- P. apply Permutation_app_head. symmetry. now apply (thread_todo _ _ _ _ _ _ H). Qed.
Lemma taken_get S' c i f s s' fs1 : thread_step S' nj c (Worker i) s = Some s' -> nth_error (s_workers s) i = Some (WGet f) -> taken s fs1 -> taken s' (fst (u_job u fs1 f)).
Proof.
  intros H E (l & P & ->). exists (l ++ [f]). split; [|unfold after; now rewrite fold_left_app]. rewrite <- P, <- app_assoc. apply Permutation_app_head. cbn [app]. symmetry.
  exact (proj1 (thread_todo _ _ _ _ _ _ H) i f eq_refl E).
Qed.
(** The threads do what they do when the file system does not change. *)
Record basic (k : Work) : Prop := mkBasic {
  b_reach : reach (sys (fun _ => True)) nj (start jobs files) (k_threads k);
  b_fs : (forall d, ~ begun (k_threads k) d) -> R (w_fs (k_world k));
  b_busy : forall i, k_busy k i <> None -> exists d, flying (k_threads k) i d;
  b_taken : (forall d, ~ begun (k_threads k) d) -> taken (k_threads k) (w_fs (k_world k))
}.
Lemma sys_kept T : key_kept (sys T).
Proof. apply P_Several.dump_kept. Qed.
Lemma step_sys (T : res unit -> Prop) c i t s : (forall l, Permutation (ch_drain c l) (map snd l)) -> (forall d, T (ch_store c d)) -> given files s -> R i ->
  forall s', thread_step (u_sys u i) nj c t s = Some s' -> step (sys T) nj s s'.
Proof.
  intros P Q (_ & _ & G & _) Ri s' H. exists c, t. split; [split; [exact P|exact Q]|]. rewrite <- H. symmetry. apply step_same; [reflexivity..|].
  intros j f _ E. destruct ST as (_ & ST2). cbn. destruct (ST2 i f Ri) as (_ & X); [|exact X]. apply G. eapply nth_error_In; eauto.
Qed.
Lemma step_sys' (T : res unit -> Prop) c fs t s : (forall l, Permutation (ch_drain c l) (map snd l)) -> (forall d, T (ch_store c d)) ->
  (forall i f, t = Worker i -> nth_error (s_workers s) i <> Some (WGet f)) -> forall s', thread_step (u_sys u fs) nj c t s = Some s' -> step (sys T) nj s s'.
Proof.
  intros P Q G s' H. exists c, t. split; [split; [exact P|exact Q]|]. rewrite <- H. symmetry. apply step_same; [reflexivity..|]. intros j f -> E. now elim (G j f eq_refl).
Qed.
Lemma get_unbegun T s i f : reach (sys T) nj (start jobs files) s -> nth_error (s_workers s) i = Some (WGet f) -> forall d, ~ begun s d.
Proof.
  intros RS E d B. destruct (begun_merged _ _ _ _ _ (sys_kept T) RS B) as (_ & _ & W & _). specialize (W _ (nth_error_In _ _ E)). exact W.
Qed.
Lemma flying_get (s : St Obj) i d f : flying s i d -> nth_error (s_workers s) i <> Some (WGet f).
Proof. intros [H|H]; congruence. Qed.
Lemma stored_same (s s' : St Obj) : h_log (s_shared s') = h_log (s_shared s) -> stored s' = stored s.
Proof. unfold stored. now intros ->. Qed.
Lemma moved_basic k k' : basic k -> moved k k' -> basic k'.
Proof.
  intros [B1 B2 B3 B4] M. destruct M as [drain t s' P NF NG H|drain i f s' P En H|i d F Eb|i d a rest r w' q F Eb Ea|drain i d r s' P F Eb H].
  - assert (L := thread_quiet _ _ _ _ _ _ H NF). constructor; cbn [k_threads k_world k_busy].
    + eapply reach_step; [exact B1|]. eapply step_sys'; [..|exact H]; auto.
    + intros N. apply B2. intros d [X|(i & X)]; [apply (N d); left; now rewrite (stored_same _ _ L)|].
      apply (N d). right. exists i. apply (thread_keeps _ _ _ _ _ _ i d H); [|exact X]. intros ->. now apply (NF i d eq_refl).
    + intros i Hi. destruct (B3 i Hi) as (d & X). exists d. apply (thread_keeps _ _ _ _ _ _ i d H); [|exact X]. intros ->. now apply (NF i d eq_refl).
    + intros N. eapply taken_quiet; [exact H|exact NG|]. apply B4. intros d [X|(i & X)]; [apply (N d); left; now rewrite (stored_same _ _ L)|].
      apply (N d). right. exists i. apply (thread_keeps _ _ _ _ _ _ i d H); [|exact X]. intros ->. now apply (NF i d eq_refl).
  - pose proof (get_unbegun _ _ _ _ B1 En) as NB. specialize (B2 NB). specialize (B4 NB). destruct ST as (_ & ST2). pose proof (reach_given _ _ _ _ _ B1) as G.
    assert (Hf : In f files) by (destruct G as (_ & _ & G & _); apply G; eapply nth_error_In; eauto).
    constructor; cbn [k_threads k_world k_busy].
    + eapply reach_step; [exact B1|]. eapply step_sys; [..|exact B2|exact H]; auto.
    + intros _. cbn [set_fs w_fs]. now apply ST2.
    + intros j Hj. destruct (B3 j Hj) as (d & X). elim (NB d). right. eauto.
    + intros _. cbn [set_fs w_fs]. eapply taken_get; eauto.
  - constructor; cbn [k_threads k_world k_busy]; [exact B1|exact B2| |exact B4]. intros j Hj. unfold set_busy in Hj. destruct (Nat.eqb_spec j i) as [E|E]; [subst j; eauto|auto].
  - constructor; cbn [k_threads k_world k_busy]; [exact B1| | |].
    + intros N. elim (N d). right. eauto.
    + intros j Hj. unfold set_busy in Hj. destruct (Nat.eqb_spec j i) as [E|E]; [subst j; eauto|auto].
    + intros N. elim (N d). right. eauto.
  - destruct (thread_finish _ _ _ _ _ _ _ H F) as (L & NF). constructor; cbn [k_threads k_world k_busy].
    + eapply reach_step; [exact B1|]. eapply step_sys'; [..|exact H]; auto. intros j f [= <-]. eapply flying_get; eauto.
    + intros N. elim (N d). left. unfold stored. rewrite L, map_app. apply in_or_app. right. now left.
    + intros j Hj. unfold set_busy in Hj. destruct (Nat.eqb_spec j i) as [E|Nj]; [easy|]. destruct (B3 j Hj) as (e & X). exists e.
      apply (thread_keeps _ _ _ _ _ _ j e H); [congruence|exact X].
    + intros N. elim (N d). left. unfold stored. rewrite L, map_app. apply in_or_app. right. now left.
Qed.
Lemma start_unbegun d : ~ begun (@start Obj jobs files) d.
Proof. intros [[]|(i & [H|H])]; cbn [start s_workers] in H; apply nth_error_In, repeat_spec in H; discriminate. Qed.
Lemma start_taken w : w_fs w = fs0 -> taken (start jobs files) (w_fs w).
Proof.
  intros ->. exists []. split; [|reflexivity]. unfold todo, start. cbn [s_main s_shared s_workers m_files h_queue gets flat_map app].
  assert (Q : forall n, flat_map (@w_todo Obj) (repeat WIdle n) = []) by (induction n; auto). rewrite Q, app_nil_r. reflexivity.
Qed.
Lemma taken_partly k fs1 : basic k -> taken (k_threads k) fs1 -> partly u files fs0 (k_threads k) fs1.
Proof.
  intros B (l & P & E). exists l, (todo (k_threads k)). splits; auto. intros d X.
  destruct (begun_merged _ _ _ _ _ (sys_kept (fun _ => True)) (b_reach k B) X) as (M1 & M2 & M3 & _). destruct (reach_given _ _ _ _ _ (b_reach k B)) as (_ & _ & _ & G).
  assert (Gt : forall q, (forall f, ~ In (@MGet Obj f) q) -> gets q = []).
  { induction q as [|m q IH]; intros H; [reflexivity|]. cbn [gets flat_map]. fold (gets q). rewrite IH by (intros f Hf; apply (H f); now right). destruct m; try reflexivity. elim (H f). now left. }
  unfold todo. rewrite (Gt _ M2). assert (Em : m_files (s_main (k_threads k)) = []) by (destruct (s_main (k_threads k)) as [fs| | |]; cbn; auto). rewrite Em. cbn [app].
  assert (Q : forall ws, (forall w, In w ws -> w_todo w = []) -> flat_map (@w_todo Obj) ws = []).
  { induction ws as [|w ws IH]; intros H; [reflexivity|]. cbn [flat_map]. rewrite (H w (or_introl eq_refl)). apply IH. intros x Hx. apply H. now right. }
  apply Q. intros w Hw. specialize (M3 w Hw). destruct w; try reflexivity; [destruct M3|]. cbn [w_todo]. apply Gt. intros f. exact (G ms f Hw).
Qed.
Lemma start_basic w : w_fs w = fs0 -> basic (work_start w jobs files).
Proof. intros E. constructor; cbn [work_start k_threads k_world k_busy]; [constructor|intros _; rewrite E; apply ST|easy|intros _; now apply start_taken]. Qed.
Lemma worked_basic w k : w_fs w = fs0 -> worked u nj (work_start w jobs files) k -> basic k.
Proof. intros E. induction 1 as [|k k' drain t W IH P H]; [now apply start_basic|]. eapply moved_basic; [exact IH|]. eapply work_moved; eauto. Qed.
(** With answers in [T]. *)
Lemma worked_reach (T : res unit -> Prop) w k : w_fs w = fs0 -> worked u nj (work_start w jobs files) k -> T (Ok tt) -> (forall d r, In (d, r) (h_log (s_shared (k_threads k))) -> T r) ->
  reach (sys T) nj (start jobs files) (k_threads k).
Proof.
  intros E W TO. induction W as [|k k' drain t W IH P H]; intros L; [constructor|].
  pose proof (worked_basic w k E W) as B. apply work_moved in H; [|exact P]. clear P drain t.
  destruct H as [drain t s' P NF NG H|drain i f s' P En H|i d F Eb|i d a rest r w' q F Eb Ea|drain i d r s' P F Eb H]; cbn [k_threads k_world k_busy] in *.
  - eapply reach_step; [apply IH|eapply step_sys'; [..|exact H]; auto]. rewrite <- (thread_quiet _ _ _ _ _ _ H NF). exact L.
  - pose proof (get_unbegun _ _ _ _ (b_reach k B) En) as NB.
    eapply reach_step; [apply IH|eapply step_sys; [..|exact H]; auto; [eapply reach_given; apply B|now apply B]].
    rewrite <- (thread_quiet _ _ _ _ _ _ H); [exact L|]. intros j e [= <-] X. apply (NB e). right. eauto.
  - auto.
  - auto.
  - destruct (thread_finish _ _ _ _ _ _ _ H F) as (L' & _). rewrite L' in L. eapply reach_step; [apply IH|eapply step_sys'; [..|exact H]; auto].
    + intros e x X. apply (L e). apply in_or_app. now left.
    + cbn. intros _. apply (L d). apply in_or_app. right. now left.
    + intros j f [= <-]. eapply flying_get; eauto.
Qed.
End Work.

(** ** The store *)
Section InStore.
Variables (u : Setup) (jobs : nat) (files : list str) (fs0 : FS) (R : FS -> Prop) (dir : str).
Hypothesis ST : steady u files fs0 R.
Hypothesis OUT : u_out u = OStore dir.
Hypothesis DIR : dir <> [].
Hypothesis MAY : forall l, os_may (u_os u) l = true.
Hypothesis CAN : forall d, candidate u files fs0 d -> storable u dir R d.
Let nj := Nat.min jobs (length files).
Let os := u_os u.

Lemma at_length d l : stored_at os dir d l -> length l = (3 + length (locate (os_cwd os) dir))%nat.
Proof. intros (b & f & _ & _ & ->). reflexivity. Qed.
Lemma at_apart d e l : stored_at os dir d l -> stored_at os dir e l -> ob_debug_id d = ob_debug_id e.
Proof. intros (b & f & _ & _ & ->) (b' & f' & _ & _ & E). congruence. Qed.
Lemma plan_shape d : candidate u files fs0 d -> exists p q l text, fmt_object (u_extra u) d = Ok text /\ stored_at os dir d l /\ locate (os_cwd os) p = l /\ locate (os_cwd os) q = tl l /\ l <> [] /\
  u_plan u d = (ADirs q :: ACreate p :: file_writes p 0 (chunks os (encode text)), Ok tt).
Proof.
  intros C. destruct (CAN d C) as (Pn & Pi & (text & Ft) & Ck & _).
  assert (Ep : exists p, sym_store_path dir d = Some p) by (unfold sym_store_path; destruct dir; [easy|eauto]). destruct Ep as (p & Ep).
  destruct (store_loc os dir d p Pn Pi Ep) as (_ & At & q & Eq & Lq & Ln). exists p, q, (locate (os_cwd os) p), text. splits; auto.
  unfold u_plan, store_plan. rewrite OUT. cbn [output_store output_file]. rewrite Ep, Eq. unfold sym_plan. rewrite Ft.
  assert (Ec : u_check u && match ob_stack d with [] => true | _ => false end = false).
  { destruct (u_check u); [|reflexivity]. cbn. specialize (Ck eq_refl). destruct (ob_stack d); [easy|reflexivity]. }
  rewrite Ec. unfold plan_then. cbn [fst snd]. cbn [app]. now rewrite app_nil_r.
Qed.

Definition doing (fs : FS) (d : Obj) (pl : Plan) : Prop := exists p q l text,
  fmt_object (u_extra u) d = Ok text /\ stored_at os dir d l /\ locate (os_cwd os) p = l /\ locate (os_cwd os) q = tl l /\ l <> [] /\
  let cs := chunks os (encode text) in
  (pl = (ADirs q :: ACreate p :: file_writes p 0 cs, Ok tt) \/
   (pl = (ACreate p :: file_writes p 0 cs, Ok tt) /\ fs_get fs (tl l) = Some NDir) \/
   (exists a b, cs = a ++ b /\ pl = (file_writes p (lenN (concat a)) b, Ok tt) /\ fs_get fs l = Some (NFile (concat a)))).
Definition done (fs : FS) (d : Obj) : Prop := exists l text, fmt_object (u_extra u) d = Ok text /\ stored_at os dir d l /\ fs_get fs l = Some (NFile (encode text)).
Record in_store (w0 : World) (k : Work) : Prop := mkInStore {
  in_basic : basic u jobs files fs0 R k;
  in_fs : exists fs1, R fs1 /\ taken u files fs0 (k_threads k) fs1 /\ only_stores os dir (k_threads k) fs1 (w_fs (k_world k));
  in_doing : forall i d pl, flying (k_threads k) i d -> k_busy k i = Some pl -> doing (w_fs (k_world k)) d pl;
  in_log : forall d r, In (d, r) (h_log (s_shared (k_threads k))) -> r = Ok tt /\ done (w_fs (k_world k)) d;
  in_out : w_out (k_world k) = w_out w0 /\ w_err (k_world k) = w_err w0
}.
Lemma begun_candidate k d : basic u jobs files fs0 R k -> begun (k_threads k) d -> candidate u files fs0 d.
Proof.
  intros B H. destruct (begun_made _ _ _ _ _ (sys_kept u fs0 _) (b_reach _ _ _ _ _ _ B) H) as (g & M & P). eapply P_Several.made; eauto.
Qed.
(** What a step of the worker with target [l] does to the others. *)
Definition touches (fs fs' : FS) (l : Loc) : Prop := forall x,
  fs_get fs' x = fs_get fs x \/ (fs_get fs x = None /\ fs_get fs' x = Some NDir /\ exists k, l = k ++ x /\ k <> []) \/ (x = l /\ fs_get fs' x <> Some NDir).
Lemma touches_keeps fs fs' l x n : touches fs fs' l -> x <> l -> fs_get fs x = Some n -> fs_get fs' x = Some n.
Proof. intros T N G. destruct (T x) as [E|[(E & _)|(E & _)]]; congruence. Qed.
Lemma tl_apart d e l l' : stored_at os dir d l -> stored_at os dir e l' -> tl l' <> l.
Proof. intros A B E. apply at_length in A, B. rewrite <- E in A. destruct l'; cbn [tl length] in *; lia. Qed.
Lemma touches_doing fs fs' l d e pl : touches fs fs' l -> stored_at os dir d l -> ob_debug_id d <> ob_debug_id e -> doing fs e pl -> doing fs' e pl.
Proof.
  intros T A N (p & q & le & text & F & Ae & Lp & Lq & Ne & S). exists p, q, le, text. splits; auto. cbv zeta in *.
  destruct S as [S|[(S & G)|(a & b & C & S & G)]]; [now left|right; left|right; right].
  - split; [exact S|]. eapply touches_keeps; eauto. eapply tl_apart; eauto.
  - exists a, b. splits; auto. eapply touches_keeps; eauto. intros ->. apply N. eapply at_apart; eauto.
Qed.
Lemma touches_done fs fs' l d e : touches fs fs' l -> stored_at os dir d l -> ob_debug_id d <> ob_debug_id e -> done fs e -> done fs' e.
Proof.
  intros T A N (le & text & F & Ae & G). exists le, text. splits; auto. eapply touches_keeps; eauto. intros ->. apply N. eapply at_apart; eauto.
Qed.
Lemma touches_only s fs1 fs fs' l d : touches fs fs' l -> stored_at os dir d l -> begun s d -> only_stores os dir s fs1 fs -> only_stores os dir s fs1 fs'.
Proof.
  intros T A B F x. destruct (T x) as [E|[(E1 & E2 & k & E3 & E4)|(-> & E)]].
  - rewrite E. apply F.
  - destruct (F x) as [G|[(_ & G & _)|(e & Be & Ae & G)]].
    + right. left. splits; [congruence|exact E2|]. exists d, l, k. auto.
    + congruence.
    + exfalso. apply at_length in A, Ae. rewrite E3, app_length in A. destruct k; [easy|cbn [length] in A; lia].
  - right. right. eauto.
Qed.
(** Nothing is in the way. *)
Lemma way_free s fs1 fs d l : R fs1 -> only_stores os dir s fs1 fs -> candidate u files fs0 d -> stored_at os dir d l ->
  fs_get fs l <> Some NDir /\ forall k up x, l = k ++ up -> k <> [] -> fs_get fs up <> Some (NFile x).
Proof.
  intros R1 F C A. destruct (CAN d C) as (_ & _ & _ & _ & RB). destruct (RB fs1 l R1 A) as (_ & RB1 & RB2). split.
  - destruct (F l) as [G|[(_ & _ & e & t & k & _ & Ae & E & K)|(e & _ & _ & G)]]; [congruence| |exact G].
    apply at_length in A, Ae. rewrite E, app_length in Ae. destruct k; [easy|cbn [length] in Ae; lia].
  - intros k up x E K G. destruct (F up) as [G'|[(_ & G' & _)|(e & _ & Ae & _)]]; [rewrite G' in G; now apply (RB2 k up x)|congruence|].
    apply at_length in A, Ae. rewrite E, app_length in A. destruct k; [easy|cbn [length] in A; lia].
Qed.
Lemma act_doing s fs1 w d a rest r w' q : R fs1 -> only_stores os dir s fs1 (w_fs w) -> candidate u files fs0 d -> doing (w_fs w) d (a :: rest, r) -> act_step os w a = (w', q) ->
  (exists l, stored_at os dir d l /\ touches (w_fs w) (w_fs w') l) /\ w_out w' = w_out w /\ w_err w' = w_err w /\ q = Ok tt /\ doing (w_fs w') d (rest, r).
Proof.
  intros R1 F C (p & qq & l & text & Ft & A & Lp & Lq & Ln & S) E. cbv zeta in S. destruct (way_free _ _ _ _ _ R1 F C A) as (W1 & W2).
  assert (Ll : exists n up, l = n :: up) by (destruct l; [easy|eauto]). destruct Ll as (n & up & El).
  destruct S as [S|[(S & G)|(x & b & Cx & S & G)]].
  - injection S as -> -> ->. cbn [act_step] in E. unfold create_dir_all in E. rewrite Lq, El in E. cbn [tl] in E.
    destruct (mkdirs_ok os MAY up (w_fs w)) as (fs' & M). { intros k v y -> . apply (W2 (n :: k)); [now rewrite El|discriminate]. }
    rewrite M in E. injection E as <- <-. destruct (mkdirs_spec _ _ _ _ M) as (D & D2). cbn [set_fs w_fs w_out w_err]. splits; auto.
    + exists l. split; [exact A|]. intros y. destruct (D y) as [D'|(D1 & D3 & k & D4)]; [now left|right; left]. splits; auto. exists (n :: k). split; [now rewrite El, D4|discriminate].
    + exists p, qq, l, text. splits; auto. right. left. split; [reflexivity|]. now rewrite El.
  - injection S as -> -> ->. cbn [act_step] in E. unfold file_create in E. rewrite Lp, El in E. rewrite El in G, W1. cbn [tl] in G. rewrite G in E.
    assert (E' : (set_fs w (fs_set (w_fs w) l (NFile [])), Ok tt) = (w', q)). { rewrite El. destruct (fs_get (w_fs w) (n :: up)) as [[|]|]; [rewrite MAY in E; exact E|easy|rewrite MAY in E; exact E]. }
    clear E. injection E' as <- <-. cbn [set_fs w_fs w_out w_err]. splits; auto.
    + exists l. split; [exact A|]. intros y. destruct (list_eq_dec str_eq_dec l y) as [<-|N]; [right; right|left; now rewrite fs_get_other]. split; [reflexivity|]. rewrite fs_get_same by exact Ln. discriminate.
    + exists p, qq, l, text. splits; auto. right. right. exists [], (chunks os (encode text)). splits; auto. now rewrite fs_get_same.
  - destruct b as [|c b]; [discriminate|]. cbn [file_writes] in S. injection S as -> -> ->. cbn [act_step] in E. rewrite Lp, G, write_at_end in E. injection E as <- <-. cbn [set_fs w_fs w_out w_err]. splits; auto.
    + exists l. split; [exact A|]. intros y. destruct (list_eq_dec str_eq_dec l y) as [<-|N]; [right; right|left; now rewrite fs_get_other]. split; [reflexivity|]. rewrite fs_get_same by exact Ln. discriminate.
    + exists p, qq, l, text. splits; auto. right. right. exists (x ++ [c]), b. splits.
      * now rewrite <- app_assoc.
      * rewrite concat_app. cbn [concat]. rewrite app_nil_r. f_equal. f_equal. unfold lenN. rewrite app_length. lia.
      * rewrite fs_get_same by exact Ln. rewrite concat_app. cbn [concat]. now rewrite app_nil_r.
Qed.
Lemma only_more s s' fs1 fs : (forall d, begun s d -> begun s' d) -> only_stores os dir s fs1 fs -> only_stores os dir s' fs1 fs.
Proof. intros M F l. destruct (F l) as [G|[(G1 & G2 & d & t & k & G3 & G4)|(d & G1 & G2)]]; [now left|right; left; splits; eauto 8|right; right; eauto]. Qed.
Lemma moved_in w0 k k' : in_store w0 k -> moved u jobs files k k' -> in_store w0 k'.
Proof.
  intros [B (fs1 & R1 & K1 & F) D L O] M. pose proof (moved_basic u jobs files fs0 R ST k k' B M) as B'.
  destruct M as [drain t s' P NF NG H|drain i f s' P En H|i d Fl Eb|i d a rest r w' q Fl Eb Ea|drain i d r s' P Fl Eb H].
  - pose proof (thread_quiet _ _ _ _ _ _ H NF) as Lg. assert (Kp : forall i d, flying (k_threads k) i d -> flying s' i d).
    { intros i d X. apply (thread_keeps _ _ _ _ _ _ i d H); [|exact X]. intros ->. now apply (NF i d eq_refl). }
    constructor; cbn [k_threads k_world k_busy] in *; auto.
    + exists fs1. splits; [exact R1|eapply taken_quiet; eauto|]. eapply only_more; [|exact F]. intros d [X|(i & X)]; [left; now rewrite (stored_same _ _ Lg)|right; exists i; now apply Kp].
    + intros i d pl X Y. apply (D i); [|exact Y]. destruct (b_busy _ _ _ _ _ _ B i) as (e & Z); [congruence|]. pose proof (Kp i e Z) as Z'. now rewrite (flying_fun _ _ _ _ X Z').
    + now rewrite Lg.
  - pose proof (get_unbegun u jobs files fs0 _ _ _ _ (b_reach _ _ _ _ _ _ B) En) as NB.
    assert (NF : forall j d, Worker i = Worker j -> ~ flying (k_threads k) j d) by (intros j d _ X; apply (NB d); right; exists j; exact X).
    pose proof (thread_quiet _ _ _ _ _ _ H NF) as Lg. assert (NB' : forall d, ~ begun s' d).
    { intros d [X|(j & X)]; [apply (NB d); left; now rewrite <- (stored_same _ _ Lg)|]. destruct (Nat.eq_dec j i) as [->|N].
      - revert H X. clear - En. unfold thread_step. rewrite En. cbn [worker_step].
        intros H X. assert (Q : exists w', (forall d, w' <> WOnly d /\ w' <> WDump d) /\ s_workers s' = set_nth (s_workers (k_threads k)) i w').
        { destruct (s_main (k_threads k)); try discriminate; destruct (sy_proc _ f); injection H as <-; eexists; (split; [|reflexivity]); intros; split; discriminate. }
        destruct Q as (w' & Q1 & Q2). rewrite Q2, set_nth_get, Nat.eqb_refl in X by (apply nth_error_Some; congruence). destruct (Q1 d) as (Q3 & Q4). destruct X as [X|X]; injection X as X; auto.
      - apply (NB d). right. exists j. apply (thread_keeps _ _ _ _ _ _ j d H); [congruence|exact X]. }
    constructor; cbn [k_threads k_world k_busy set_fs w_fs w_out w_err] in *; auto.
    + exists (fst (u_job u (w_fs (k_world k)) f)). splits; [apply B'; cbn [k_threads]; exact NB'|exact (b_taken _ _ _ _ _ _ B' NB')|]. intros l. now left.
    + intros j d pl X _. elim (NB' d). right. exists j. exact X.
    + intros d r X. elim (NB' d). left. unfold stored. apply in_map_iff. exists (d, r). auto.
  - constructor; cbn [k_threads k_world k_busy] in *; auto.
    + exists fs1. auto.
    + intros j e pl X Y. unfold set_busy in Y. destruct (Nat.eqb_spec j i) as [E|E]; [subst j|now apply (D j)]. injection Y as <-. rewrite (flying_fun _ _ _ _ X Fl).
      destruct (plan_shape d) as (p & q & l & text & A1 & A2 & A3 & A4 & A5 & A6); [eapply begun_candidate; [exact B|right; exists i; exact Fl]|].
      exists p, q, l, text. splits; auto.
  - pose proof (begun_candidate _ _ B (or_intror (ex_intro _ i Fl))) as C. pose proof (D i d _ Fl Eb) as Dd.
    destruct (act_doing _ _ _ _ _ _ _ _ _ R1 F C Dd Ea) as ((l & A & T) & O1 & O2 & -> & Dd').
    constructor; cbn [k_threads k_world k_busy] in *; auto.
    + exists fs1. splits; [exact R1|exact K1|]. eapply touches_only; eauto. right. exists i. exact Fl.
    + intros j e pl X Y. unfold set_busy in Y. destruct (Nat.eqb_spec j i) as [E|E].
      * subst j. injection Y as <-. now rewrite (flying_fun _ _ _ _ X Fl).
      * eapply touches_doing; [exact T|exact A| |now apply (D j)]. eapply (flying_apart _ _ _ _ i j d e (sys_kept u fs0 _) (b_reach _ _ _ _ _ _ B)); auto.
    + intros e x X. destruct (L e x X) as (L1 & L2). split; [exact L1|]. eapply touches_done; [exact T|exact A| |exact L2].
      apply (logged_apart _ _ _ _ i d e (sys_kept u fs0 _) (b_reach _ _ _ _ _ _ B) Fl). unfold stored. apply in_map_iff. exists (e, x). auto.
    + destruct O. split; congruence.
  - destruct (thread_finish _ _ _ _ _ _ _ H Fl) as (Lg & NF). cbn [answer ch_store] in Lg. pose proof (D i d _ Fl Eb) as (p & q & l & text & A1 & A2 & A3 & A4 & A5 & S). cbv zeta in S.
    constructor; cbn [k_threads k_world k_busy] in *; auto.
    + exists fs1. splits; [exact R1|eapply taken_quiet; [exact H| |exact K1]; intros j f [= <-]; eapply flying_get; eauto|]. eapply only_more; [|exact F]. unfold begun, stored. rewrite Lg, map_app. intros e [X|(j & X)]; [left; apply in_or_app; now left|].
      destruct (Nat.eq_dec j i) as [->|N]; [left; apply in_or_app; right; left; cbn; eapply flying_fun; eauto|right; exists j; apply (thread_keeps _ _ _ _ _ _ j e H); [congruence|exact X]].
    + intros j e pl X Y. unfold set_busy in Y. destruct (Nat.eqb_spec j i) as [E|E]; [discriminate|]. apply (D j); [|exact Y]. apply (thread_keeps _ _ _ _ _ _ j e H); [congruence|exact X].
    + intros e x X. rewrite Lg in X. apply in_app_iff in X as [X|[X|[]]]; [now apply L|]. injection X as <- <-.
      destruct S as [S|[(S & _)|(a & b & S1 & S2 & S3)]]; [discriminate|discriminate|]. destruct b as [|c b]; [|discriminate]. injection S2 as ->. split; [reflexivity|].
      exists l, text. splits; auto. rewrite app_nil_r in S1. rewrite S3, <- S1, chunks_all. reflexivity.
Qed.
Lemma worked_in w k : w_fs w = fs0 -> worked u nj (work_start w jobs files) k -> in_store w k.
Proof.
  intros E. induction 1 as [|k k' drain t W IH P H].
  - constructor; cbn [work_start k_threads k_world k_busy]; auto.
    + now apply start_basic.
    + exists (w_fs w). splits; [rewrite E; apply ST|now apply start_taken|intros l; now left].
    + discriminate.
    + intros d r [].
  - eapply moved_in; [exact IH|]. eapply work_moved; eauto.
Qed.
End InStore.

(** ** Streams *)
Section Stream.
Variables (u : Setup) (jobs : nat) (files : list str) (fs0 : FS) (R : FS -> Prop) (fo : FileOutput).
Hypothesis ST : steady u files fs0 R.
Hypothesis OUT : u_out u = OFile fo.
Hypothesis STREAM : forall p, fo <> FPath p.
Hypothesis CAN : forall d, candidate u files fs0 d -> printable u d.
Let nj := Nat.min jobs (length files).
Let os := u_os u.
Definition put_of (c : list N) : Act := match fo with FStderr => AErr c | _ => AOut c end.
Lemma put_step w c : exists w', act_step os w (put_of c) = (w', Ok tt) /\ w_fs w' = w_fs w /\ stream_of fo w' = stream_of fo w ++ c /\ other_of fo w' = other_of fo w.
Proof. unfold put_of. destruct fo as [p| |]; [now elim (STREAM p)|..]; cbn; eexists; (split; [reflexivity|]); cbn; auto. Qed.
Lemma stream_shape d : candidate u files fs0 d -> exists text, fmt_object (u_extra u) d = Ok text /\ u_plan u d = (map put_of (chunks os (encode text)), Ok tt).
Proof.
  intros C. destruct (CAN d C) as ((text & Ft) & Ck). exists text. split; [exact Ft|]. unfold u_plan, store_plan. rewrite OUT. cbn [output_store output_file]. unfold sym_plan. rewrite Ft.
  assert (Ec : u_check u && match ob_stack d with [] => true | _ => false end = false).
  { destruct (u_check u); [|reflexivity]. cbn. specialize (Ck eq_refl). destruct (ob_stack d); [easy|reflexivity]. }
  rewrite Ec. unfold plan_then, put_of. cbn [fst snd app]. destruct fo as [p| |]; [now elim (STREAM p)|..]; reflexivity.
Qed.
Definition printing (ps : list (str * list N)) (d : Obj) (pl : option Plan) : Prop :=
  match pl with
  | None => pieces_of (ob_debug_id d) ps = []
  | Some pl => exists text a b, fmt_object (u_extra u) d = Ok text /\ chunks os (encode text) = a ++ b /\ pl = (map put_of b, Ok tt) /\ pieces_of (ob_debug_id d) ps = a
  end.
Record in_stream (w0 : World) (k : Work) (ps : list (str * list N)) : Prop := mkInStream {
  is_basic : basic u jobs files fs0 R k;
  is_fs : R (w_fs (k_world k)) /\ taken u files fs0 (k_threads k) (w_fs (k_world k));
  is_out : stream_of fo (k_world k) = stream_of fo w0 ++ concat (map snd ps) /\ other_of fo (k_world k) = other_of fo w0;
  is_doing : forall i d, flying (k_threads k) i d -> printing ps d (k_busy k i);
  is_log : forall d r, In (d, r) (h_log (s_shared (k_threads k))) -> r = Ok tt /\ exists text, fmt_object (u_extra u) d = Ok text /\ pieces_of (ob_debug_id d) ps = chunks os (encode text);
  is_all : forall p, In p ps -> exists d, begun (k_threads k) d /\ fst p = ob_debug_id d
}.
Lemma pieces_none id ps : (forall p, In p ps -> fst p <> id) -> pieces_of id ps = [].
Proof.
  unfold pieces_of. induction ps as [|p ps IH]; intros H; [reflexivity|]. cbn [filter]. destruct (str_eqb (fst p) id) eqn:E; [apply str_eqb_eq in E; now elim (H p (or_introl eq_refl))|]. apply IH. intros q Q. apply H. now right.
Qed.
Lemma pieces_app id a b : pieces_of id (a ++ b) = pieces_of id a ++ pieces_of id b.
Proof. unfold pieces_of. now rewrite filter_app, map_app. Qed.
Lemma pieces_one id id' c : pieces_of id [(id', c)] = if str_eqb id' id then [c] else [].
Proof. unfold pieces_of. cbn [filter fst]. destruct (str_eqb id' id); reflexivity. Qed.
Lemma moved_stream w0 k k' ps : in_stream w0 k ps -> moved u jobs files k k' -> exists ps', in_stream w0 k' ps'.
Proof.
  intros [B (F & K1) O D L A] M. pose proof (moved_basic u jobs files fs0 R ST k k' B M) as B'.
  destruct M as [drain t s' P NF NG H|drain i f s' P En H|i d Fl Eb|i d a rest r w' q Fl Eb Ea|drain i d r s' P Fl Eb H].
  - pose proof (thread_quiet _ _ _ _ _ _ H NF) as Lg. exists ps. assert (Kp : forall i d, flying (k_threads k) i d -> flying s' i d).
    { intros i d X. apply (thread_keeps _ _ _ _ _ _ i d H); [|exact X]. intros ->. now apply (NF i d eq_refl). }
    constructor; cbn [k_threads k_world k_busy] in *; auto.
    + split; [exact F|]. eapply taken_quiet; eauto.
    + intros i d X. destruct (k_busy k i) as [pl|] eqn:Eb.
      * destruct (b_busy _ _ _ _ _ _ B i) as (e & Z); [congruence|]. pose proof (Kp i e Z) as Z'. rewrite (flying_fun _ _ _ _ X Z'). rewrite <- Eb. now apply D.
      * assert (Dec : flying (k_threads k) i d \/ ~ exists e, flying (k_threads k) i e).
        { destruct (nth_error (s_workers (k_threads k)) i) as [w|] eqn:En; [|right; intros (e & [Y|Y]); congruence].
          destruct w; try (right; intros (e & [Y|Y]); rewrite En in Y; discriminate); left.
          - assert (Z : flying (k_threads k) i d0) by (left; exact En). now rewrite (flying_fun _ _ _ _ X (Kp i _ Z)).
          - assert (Z : flying (k_threads k) i d0) by (right; exact En). now rewrite (flying_fun _ _ _ _ X (Kp i _ Z)). }
        destruct Dec as [Dec|Dec]; [rewrite <- Eb; now apply D|]. apply pieces_none. intros p Hp E. destruct (A p Hp) as (e & Be & Ee). rewrite E in Ee.
        destruct Be as [Be|(j & Be)].
        -- apply (logged_apart _ _ _ _ i d e (sys_kept u fs0 _) (b_reach _ _ _ _ _ _ B') X); [|exact Ee]. cbn [k_threads]. now rewrite (stored_same _ _ Lg).
        -- apply (flying_apart _ _ _ _ i j d e (sys_kept u fs0 _) (b_reach _ _ _ _ _ _ B') X (Kp j e Be)); [|exact Ee]. intros <-. apply Dec. exists e. exact Be.
    + now rewrite Lg.
    + intros p Hp. destruct (A p Hp) as (d & Bd & Ed). exists d. split; [|exact Ed]. destruct Bd as [Bd|(i & Bd)]; [left; now rewrite (stored_same _ _ Lg)|right; exists i; now apply Kp].
  - pose proof (get_unbegun u jobs files fs0 _ _ _ _ (b_reach _ _ _ _ _ _ B) En) as NB.
    assert (NF : forall j d, Worker i = Worker j -> ~ flying (k_threads k) j d) by (intros j d _ X; apply (NB d); right; exists j; exact X).
    pose proof (thread_quiet _ _ _ _ _ _ H NF) as Lg. assert (NP : ps = []). { destruct ps as [|p ps]; [reflexivity|]. destruct (A p (or_introl eq_refl)) as (d & X & _). now elim (NB d). } subst ps.
    assert (NK : forall j, k_busy k j = None). { intros j. destruct (k_busy k j) eqn:Ej; [|reflexivity]. destruct (b_busy _ _ _ _ _ _ B j) as (e & X); [congruence|]. elim (NB e). right. exists j. exact X. }
    exists []. constructor; cbn [k_threads k_world k_busy set_fs w_fs w_out w_err] in *; auto.
    + split; [|eapply taken_get; eauto]. destruct ST as (_ & ST2). apply ST2; [exact F|]. pose proof (reach_given _ _ _ _ _ (b_reach _ _ _ _ _ _ B)) as (_ & _ & G & _). apply G. eapply nth_error_In; eauto.
    + intros j d X. rewrite NK. reflexivity.
    + now rewrite Lg.
    + intros p [].
  - exists ps. constructor; cbn [k_threads k_world k_busy] in *; auto. intros j e X. unfold set_busy. destruct (Nat.eqb_spec j i) as [E|E]; [subst j|now apply (D j)]. rewrite (flying_fun _ _ _ _ X Fl).
    destruct (stream_shape d) as (text & A1 & A2); [eapply begun_candidate; [exact B|right; exists i; exact Fl]|]. specialize (D i d Fl). rewrite Eb in D. exists text, [], (chunks os (encode text)). splits; auto.
  - pose proof (D i d Fl) as Dd. rewrite Eb in Dd. destruct Dd as (text & x & y & D1 & D2 & D3 & D4). destruct y as [|c y]; [discriminate|]. cbn [map] in D3. injection D3 as -> -> ->.
    destruct (put_step (k_world k) c) as (w2 & P1 & P2 & P3 & P4). fold os in Ea. rewrite P1 in Ea. injection Ea as <- <-. exists (ps ++ [(ob_debug_id d, c)]).
    constructor; cbn [k_threads k_world k_busy] in *; auto.
    + rewrite P2. auto.
    + destruct O as (O1 & O2). split; [|congruence]. rewrite P3, O1, map_app, concat_app. cbn [map concat snd]. rewrite app_nil_r. now rewrite app_assoc.
    + intros j e X. unfold set_busy. destruct (Nat.eqb_spec j i) as [E|E].
      * subst j. rewrite (flying_fun _ _ _ _ X Fl). exists text, (x ++ [c]), y. splits; auto.
        -- now rewrite <- app_assoc.
        -- rewrite pieces_app, pieces_one, D4. now rewrite (proj2 (str_eqb_eq _ _) eq_refl).
      * specialize (D j e X). assert (Np : ob_debug_id d <> ob_debug_id e). { eapply (flying_apart _ _ _ _ i j d e (sys_kept u fs0 _) (b_reach _ _ _ _ _ _ B)); auto. }
        assert (Ep : pieces_of (ob_debug_id e) (ps ++ [(ob_debug_id d, c)]) = pieces_of (ob_debug_id e) ps).
        { rewrite pieces_app, pieces_one. destruct (str_eqb (ob_debug_id d) (ob_debug_id e)) eqn:Q; [apply str_eqb_eq in Q; contradiction|apply app_nil_r]. }
        unfold printing in *. rewrite Ep. exact D.
    + intros e z X. destruct (L e z X) as (L1 & t & L2 & L3). split; [exact L1|]. exists t. split; [exact L2|].
      assert (Np : ob_debug_id d <> ob_debug_id e). { apply (logged_apart _ _ _ _ i d e (sys_kept u fs0 _) (b_reach _ _ _ _ _ _ B) Fl). unfold stored. apply in_map_iff. exists (e, z). auto. }
      rewrite pieces_app, pieces_one. destruct (str_eqb (ob_debug_id d) (ob_debug_id e)) eqn:Q; [apply str_eqb_eq in Q; contradiction|]. rewrite app_nil_r. exact L3.
    + intros p Hp. apply in_app_iff in Hp as [Hp|[<-|[]]]; [now apply A|]. exists d. split; [right; exists i; exact Fl|reflexivity].
  - destruct (thread_finish _ _ _ _ _ _ _ H Fl) as (Lg & NF). cbn [answer ch_store] in Lg. pose proof (D i d Fl) as Dd. rewrite Eb in Dd. destruct Dd as (text & x & y & D1 & D2 & D3 & D4).
    destruct y as [|c y]; [|discriminate]. injection D3 as ->. rewrite app_nil_r in D2. exists ps. constructor; cbn [k_threads k_world k_busy] in *; auto.
    + split; [exact F|]. eapply taken_quiet; [exact H| |exact K1]. intros j f [= <-]. eapply flying_get; eauto.
    + intros j e X. assert (Nj : j <> i) by (intros ->; now apply (NF e)). unfold set_busy. destruct (Nat.eqb_spec j i) as [E|E]; [contradiction|]. apply D. apply (thread_keeps _ _ _ _ _ _ j e H); [congruence|exact X].
    + intros e z X. rewrite Lg in X. apply in_app_iff in X as [X|[X|[]]]; [now apply L|]. injection X as <- <-. split; [reflexivity|]. exists text. split; [exact D1|congruence].
    + intros p Hp. destruct (A p Hp) as (e & Be & Ee). exists e. split; [|exact Ee]. unfold begun, stored. rewrite Lg, map_app. destruct Be as [X|(j & X)]; [left; apply in_or_app; now left|].
      destruct (Nat.eq_dec j i) as [->|N]; [left; apply in_or_app; right; left; cbn; eapply flying_fun; eauto|right; exists j; apply (thread_keeps _ _ _ _ _ _ j e H); [congruence|exact X]].
Qed.
Lemma worked_stream w k : w_fs w = fs0 -> worked u nj (work_start w jobs files) k -> exists ps, in_stream w k ps.
Proof.
  intros E. induction 1 as [|k k' drain t W (ps & IH) P H].
  - exists []. constructor; cbn [work_start k_threads k_world k_busy map concat]; auto.
    + now apply start_basic.
    + split; [rewrite E; apply ST|now apply start_taken].
    + now rewrite app_nil_r.
    + reflexivity.
    + intros d r [].
    + intros p [].
  - eapply moved_stream; [exact IH|]. eapply work_moved; eauto.
Qed.
(** Short texts come out whole. *)
Lemma stream_short w k ps : in_stream w k ps -> none_storing (k_threads k) ->
  (forall d text, In d (stored (k_threads k)) -> fmt_object (u_extra u) d = Ok text -> lenN (encode text) < 8192) ->
  exists ds ts, Permutation ds (stored (k_threads k)) /\ Forall2 (fun d t => fmt_object (u_extra u) d = Ok t) ds ts /\ stream_of fo (k_world k) = stream_of fo w ++ concat (map encode ts).
Proof.
  intros [B F (O & _) D L A] N Sh.
  assert (NB : forall d, begun (k_threads k) d -> In d (stored (k_threads k))).
  { intros d [X|(i & [X|X])]; [exact X|..]; apply nth_error_In in X; now elim (N _ X). }
  assert (Lg : forall d, In d (stored (k_threads k)) -> exists text, fmt_object (u_extra u) d = Ok text /\ pieces_of (ob_debug_id d) ps = [encode text]).
  { intros d X. unfold stored in X. apply in_map_iff in X as ([e z] & E & X). cbn in E. subst e. destruct (L d z X) as (_ & t & L2 & L3). exists t. split; [exact L2|]. rewrite L3. apply chunks_one. eapply Sh; [|exact L2]. apply in_map_iff. exists (d, z). auto. }
  destruct (at_most_once _ _ _ _ (sys_kept u fs0 _) (b_reach _ _ _ _ _ _ B)) as (ND & _). change (sy_key _) with ob_debug_id in ND.
  assert (Q : forall qs, (forall p, In p qs -> In p ps) -> exists ds ts, Forall2 (fun d t => fmt_object (u_extra u) d = Ok t) ds ts /\ map ob_debug_id ds = map fst qs /\ map encode ts = map snd qs /\ forall d, In d ds -> In d (stored (k_threads k))).
  { induction qs as [|p qs IH]; intros Hq; [exists [], []; splits; auto; easy|]. destruct IH as (ds & ts & I1 & I2 & I3 & I4); [intros; apply Hq; now right|].
    destruct (A p (Hq p (or_introl eq_refl))) as (d & Bd & Ed). apply NB in Bd. destruct (Lg d Bd) as (t & T1 & T2). exists (d :: ds), (t :: ts). splits.
    - now constructor.
    - cbn [map]. now rewrite Ed, I2.
    - cbn [map]. rewrite I3. f_equal. assert (X : In (snd p) (pieces_of (ob_debug_id d) ps)).
      { unfold pieces_of. apply in_map. apply filter_In. split; [apply Hq; now left|]. apply str_eqb_eq. exact Ed. } rewrite T2 in X. destruct X as [X|[]]. exact X.
    - intros e [<-|X]; auto. }
  destruct (Q ps (fun _ x => x)) as (ds & ts & Q1 & Q2 & Q3 & Q4). exists ds, ts. splits; [|exact Q1|now rewrite O, Q3].
  assert (NP : NoDup (map fst ps)).
  { assert (C : forall id, (length (pieces_of id ps) <= 1)%nat).
    { intros id. destruct (pieces_of id ps) as [|c cs] eqn:E; [cbn; lia|]. assert (X : exists p, In p ps /\ fst p = id).
      { unfold pieces_of in E. destruct (filter _ ps) as [|p t] eqn:Ef; [discriminate|]. exists p. assert (Y : In p (filter (fun p => str_eqb (fst p) id) ps)) by (rewrite Ef; now left). apply filter_In in Y as (Y & Z). split; [exact Y|now apply str_eqb_eq]. }
      destruct X as (p & Hp & <-). destruct (A p Hp) as (d & Bd & Ed). destruct (Lg d (NB d Bd)) as (t & _ & T). rewrite <- Ed, E in T. rewrite T. cbn. lia. }
    clear - C. induction ps as [|p ps IH]; [constructor|]. cbn [map]. constructor.
    - intros X. apply in_map_iff in X as (q & Eq & X). specialize (C (fst p)). unfold pieces_of in C. cbn [filter] in C. rewrite (proj2 (str_eqb_eq _ _) eq_refl) in C. cbn [map length] in C. rewrite map_length in C.
      assert (Y : In q (filter (fun p0 => str_eqb (fst p0) (fst p)) ps)) by (apply filter_In; split; [exact X|now apply str_eqb_eq]). destruct (filter _ ps); [destruct Y|cbn in C; lia].
    - apply IH. intros id. specialize (C id). unfold pieces_of in *. cbn [filter] in C. destruct (str_eqb (fst p) id); cbn [map length] in C; lia. }
  apply NoDup_Permutation; [rewrite <- Q2 in NP; eapply NoDup_map_inv; eauto|eapply NoDup_map_inv; eauto|]. intros d. split; [apply Q4|]. intros X.
  destruct (Lg d X) as (t & T1 & T2). assert (Y : In (ob_debug_id d) (map ob_debug_id ds)).
  { rewrite Q2. unfold pieces_of in T2. destruct (filter (fun p => str_eqb (fst p) (ob_debug_id d)) ps) as [|p t'] eqn:Ef; [discriminate|]. assert (Z : In p (filter (fun p => str_eqb (fst p) (ob_debug_id d)) ps)) by (rewrite Ef; now left).
    apply filter_In in Z as (Z1 & Z2). apply str_eqb_eq in Z2. rewrite <- Z2. now apply in_map. }
  apply in_map_iff in Y as (e & Ee & Y). assert (e = d); [|now subst]. pose proof (Q4 e Y) as Se. clear - ND Se X Ee.
  induction (stored (k_threads k)) as [|z l IH]; [easy|]. cbn [map] in ND. apply NoDup_cons_iff in ND as (N1 & N2). destruct Se as [->|Se]; destruct X as [->|X]; auto.
  - elim N1. rewrite Ee. now apply in_map.
  - elim N1. rewrite <- Ee. now apply in_map.
Qed.
End Stream.

(** ** One module *)
Section One.
Variables (u : Setup) (jobs : nat) (files : list str) (fs0 : FS) (R : FS -> Prop).
Hypothesis ST : steady u files fs0 R.
Hypothesis ONE : forall d e, candidate u files fs0 d -> candidate u files fs0 e -> ob_debug_id d = ob_debug_id e.
Hypothesis HEALTHY : healthy (u_os u).
Let nj := Nat.min jobs (length files).
Definition stored_alone (w0 : World) (fs1 : FS) (d : Obj) : World * res unit := store (u_os u) (u_extra u) (u_out u) (u_check u) d (mkWorld fs1 (w_out w0) (w_err w0)).
Record alone (w0 : World) (k : Work) : Prop := mkAlone {
  al_basic : basic u jobs files fs0 R k;
  al_start : (forall d, ~ begun (k_threads k) d) -> w_out (k_world k) = w_out w0 /\ w_err (k_world k) = w_err w0;
  al_doing : forall i d, flying (k_threads k) i d -> exists fs1, R fs1 /\ taken u files fs0 (k_threads k) fs1 /\
    match k_busy k i with
    | None => k_world k = mkWorld fs1 (w_out w0) (w_err w0)
    | Some (acts, r) => same_world (fst (run_plan (u_os u) (k_world k) acts r)) (fst (stored_alone w0 fs1 d)) /\ snd (run_plan (u_os u) (k_world k) acts r) = snd (stored_alone w0 fs1 d)
    end;
  al_log : forall d r, In (d, r) (h_log (s_shared (k_threads k))) -> h_log (s_shared (k_threads k)) = [(d, r)] /\ exists fs1, R fs1 /\ taken u files fs0 (k_threads k) fs1 /\ same_world (k_world k) (fst (stored_alone w0 fs1 d)) /\ r = snd (stored_alone w0 fs1 d)
}.
Lemma one_begun k i d : basic u jobs files fs0 R k -> flying (k_threads k) i d -> (forall j e, flying (k_threads k) j e -> j = i) /\ stored (k_threads k) = [].
Proof.
  intros B F. assert (C : forall e, begun (k_threads k) e -> ob_debug_id d = ob_debug_id e).
  { intros e X. apply ONE; eapply begun_candidate; eauto. right. exists i. exact F. } split.
  - intros j e X. destruct (Nat.eq_dec j i) as [E|E]; [exact E|]. exfalso. apply (flying_apart _ _ _ _ i j d e (sys_kept u fs0 _) (b_reach _ _ _ _ _ _ B) F X); [congruence|]. apply C. right. exists j. exact X.
  - destruct (stored (k_threads k)) as [|e l] eqn:E; [reflexivity|]. exfalso. assert (X : In e (stored (k_threads k))) by (rewrite E; now left).
    apply (logged_apart _ _ _ _ i d e (sys_kept u fs0 _) (b_reach _ _ _ _ _ _ B) F X). apply C. now left.
Qed.
Lemma moved_alone w0 k k' : alone w0 k -> moved u jobs files k k' -> alone w0 k'.
Proof.
  intros [B S D L] M. pose proof (moved_basic u jobs files fs0 R ST k k' B M) as B'.
  destruct M as [drain t s' P NF NG H|drain i f s' P En H|i d Fl Eb|i d a rest r w' q Fl Eb Ea|drain i d r s' P Fl Eb H].
  - pose proof (thread_quiet _ _ _ _ _ _ H NF) as Lg. assert (Kp : forall i d, flying (k_threads k) i d -> flying s' i d).
    { intros i d X. apply (thread_keeps _ _ _ _ _ _ i d H); [|exact X]. intros ->. now apply (NF i d eq_refl). }
    assert (Mono : forall d, begun (k_threads k) d -> begun s' d) by (intros d [X|(i & X)]; [left; now rewrite (stored_same _ _ Lg)|right; exists i; now apply Kp]).
    constructor; cbn [k_threads k_world k_busy] in *; auto.
    + intros N. apply S. intros d X. apply (N d). now apply Mono.
    + intros i d X. destruct (one_begun _ _ _ B' X) as (U1 & U2). cbn [k_threads] in U1, U2.
      assert (Dec : flying (k_threads k) i d \/ forall e, ~ begun (k_threads k) e).
      { destruct (nth_error (s_workers (k_threads k)) i) as [w|] eqn:En.
        - assert (G : (exists e, w = WOnly e \/ w = WDump e) \/ ~ exists e, w = WOnly e \/ w = WDump e) by (destruct w; try (right; intros (e & [Y|Y]); discriminate); left; eauto).
          destruct G as [(e & G)|G]; [left|right].
          + assert (Z : flying (k_threads k) i e) by (unfold flying; rewrite En; destruct G as [-> | ->]; auto). now rewrite (flying_fun _ _ _ _ X (Kp i _ Z)).
          + intros e [Y|(j & Y)]; [rewrite <- (stored_same _ _ Lg), U2 in Y; destruct Y|]. rewrite (U1 j e (Kp j e Y)) in Y. apply G. exists e. destruct Y as [Y|Y]; rewrite En in Y; injection Y as Y; auto.
        - right. intros e [Y|(j & Y)]; [rewrite <- (stored_same _ _ Lg), U2 in Y; destruct Y|]. rewrite (U1 j e (Kp j e Y)) in Y. destruct Y as [Y|Y]; congruence. }
      destruct Dec as [Dec|Dec]; [destruct (D i d Dec) as (fs1 & R1 & K1 & Dd); exists fs1; splits; [exact R1|eapply taken_quiet; eauto|exact Dd]|].
      exists (w_fs (k_world k)). splits; [now apply B|eapply taken_quiet; [exact H|exact NG|now apply B]|]. destruct (k_busy k i) eqn:Ek.
      * destruct (b_busy _ _ _ _ _ _ B i) as (e & Z); [congruence|]. elim (Dec e). right. exists i. exact Z.
      * destruct (S Dec) as (S1 & S2). destruct (k_world k) as [wf wo we]. cbn in *. congruence.
    + rewrite Lg. intros d r X. destruct (L d r X) as (L1 & fs1 & R1 & K1 & L2). split; [exact L1|]. exists fs1. splits; [exact R1|eapply taken_quiet; eauto|apply L2|apply L2].
  - pose proof (get_unbegun u jobs files fs0 _ _ _ _ (b_reach _ _ _ _ _ _ B) En) as NB.
    assert (NF : forall j d, Worker i = Worker j -> ~ flying (k_threads k) j d) by (intros j d _ X; apply (NB d); right; exists j; exact X).
    pose proof (thread_quiet _ _ _ _ _ _ H NF) as Lg. assert (NB' : forall j d, ~ flying s' j d).
    { intros j d X. destruct (Nat.eq_dec j i) as [->|N].
      - revert H X. clear - En. unfold thread_step. rewrite En. cbn [worker_step].
        intros H X. assert (Q : exists w', (forall d, w' <> WOnly d /\ w' <> WDump d) /\ s_workers s' = set_nth (s_workers (k_threads k)) i w').
        { destruct (s_main (k_threads k)); try discriminate; destruct (sy_proc _ f); injection H as <-; eexists; (split; [|reflexivity]); intros; split; discriminate. }
        destruct Q as (w' & Q1 & Q2). unfold flying in X. rewrite Q2, set_nth_get, Nat.eqb_refl in X by (apply nth_error_Some; congruence). destruct (Q1 d) as (Q3 & Q4). destruct X as [X|X]; injection X as X; auto.
      - apply (NB d). right. exists j. apply (thread_keeps _ _ _ _ _ _ j d H); [congruence|exact X]. }
    constructor; cbn [k_threads k_world k_busy set_fs w_fs w_out w_err] in *; auto.
    + intros j d X. now elim (NB' j d).
    + intros d r X. rewrite Lg in X. elim (NB d). left. unfold stored. apply in_map_iff. exists (d, r). auto.
  - constructor; cbn [k_threads k_world k_busy] in *; auto. intros j e X. unfold set_busy. destruct (Nat.eqb_spec j i) as [E|E]; [subst j|now apply (D j)]. rewrite (flying_fun _ _ _ _ X Fl).
    destruct (D i d Fl) as (fs1 & R1 & K1 & Dd). rewrite Eb in Dd. exists fs1. split; [exact R1|]. split; [exact K1|]. rewrite Dd. destruct (u_plan u d) as [acts r] eqn:Ep.
    pose proof (store_alone (u_os u) (u_extra u) (u_out u) (u_check u) d (mkWorld fs1 (w_out w0) (w_err w0)) HEALTHY) as Q. cbv zeta in Q. fold (u_plan u d) in Q. rewrite Ep in Q. exact Q.
  - destruct (one_begun _ _ _ B Fl) as (U1 & U2). constructor; cbn [k_threads k_world k_busy] in *; auto.
    + intros N. elim (N d). right. exists i. exact Fl.
    + intros j e X. pose proof (U1 j e X). subst j. unfold set_busy. rewrite Nat.eqb_refl. rewrite (flying_fun _ _ _ _ X Fl).
      destruct (D i d Fl) as (fs1 & R1 & K1 & Dd). rewrite Eb in Dd. exists fs1. split; [exact R1|]. split; [exact K1|]. cbn [run_plan] in Dd. rewrite Ea in Dd. destruct q as [[]|m|m]; exact Dd.
    + intros e z X. assert (Y : In e (stored (k_threads k))) by (unfold stored; apply in_map_iff; exists (e, z); auto). rewrite U2 in Y. destruct Y.
  - destruct (thread_finish _ _ _ _ _ _ _ H Fl) as (Lg & NF). cbn [answer ch_store] in Lg. destruct (one_begun _ _ _ B Fl) as (U1 & U2).
    assert (L0 : h_log (s_shared (k_threads k)) = []) by (unfold stored in U2; destruct (h_log (s_shared (k_threads k))); [reflexivity|discriminate]). rewrite L0 in Lg. cbn [app] in Lg.
    constructor; cbn [k_threads k_world k_busy] in *; auto.
    + intros N. elim (N d). left. unfold stored. rewrite Lg. now left.
    + intros j e X. assert (Nj : j <> i) by (intros ->; now apply (NF e)). elim Nj. apply (U1 j e). apply (thread_keeps _ _ _ _ _ _ j e H); [congruence|exact X].
    + intros e z X. rewrite Lg in X |- *. destruct X as [X|[]]. injection X as <- <-. split; [reflexivity|]. destruct (D i d Fl) as (fs1 & R1 & K1 & Dd). rewrite Eb in Dd. exists fs1. split; [exact R1|]. split; [eapply taken_quiet; [exact H| |exact K1]; intros j f [= <-]; eapply flying_get; eauto|]. cbn [run_plan fst snd] in Dd. exact Dd.
Qed.
Lemma worked_alone w k : w_fs w = fs0 -> worked u nj (work_start w jobs files) k -> alone w k.
Proof.
  intros E. induction 1 as [|k k' drain t W IH P H].
  - constructor; cbn [work_start k_threads k_world k_busy]; auto.
    + now apply start_basic.
    + intros i d X. elim (start_unbegun jobs files d). right. exists i. exact X.
    + intros d r [].
  - eapply moved_alone; [exact IH|]. eapply work_moved; eauto.
Qed.
End One.
