(** Runs of several files: one worker, termination, failing files. *)
From Verif Require Import Base Str M_Sched S_Sched P_Sched P_Run.
Local Open Scope nat_scope.

Section E.
Context {I : Type}.
Implicit Types (S : Sys I) (s : St I) (q : list (Msg I)) (ws a b : list (WState I)) (w : WState I).

(** ** One worker and two modules *)
Definition is_get (m : Msg I) : Prop := match m with MGet _ => True | _ => False end.
Definition solo s : Prop :=
  exists w, s_workers s = [w] /\
  match w with
  | WIdle | WGet _ | WMerge _ _ | WCheck | WDec => Forall is_get (h_queue (s_shared s)) /\ h_log (s_shared s) = []
  | WLock => h_queue (s_shared s) = [] /\ h_log (s_shared s) = [] /\ m_files (s_main s) = []
  | WSend ms => 3 <= length (h_queue (s_shared s)) + length ms /\ length (h_queue (s_shared s)) <= 2 /\ h_log (s_shared s) = [] /\ m_files (s_main s) = []
  | _ => False
  end.
Lemma two_results S nj files s mf l : key_kept S -> inv S nj files s mf 0 true -> two_groups S files -> mods s = l -> 2 <= length l.
Proof.
  intros KK Inv (f1 & d1 & f2 & d2 & F1 & F2 & P1 & P2 & NE) <-. destruct (sent_all _ _ _ _ _ _ Inv) as (_ & A & B & C & D & _).
  pose proof (none_left _ _ _ _ _ _ Inv A B C D) as NL.
  pose proof (i_all _ _ _ _ _ _ _ Inv eq_refl f1 d1 (same_In _ _ NL _ F1) P1) as C1. pose proof (i_all _ _ _ _ _ _ _ Inv eq_refl f2 d2 (same_In _ _ NL _ F2) P2) as C2.
  destruct (cnt_pos _ _ C1) as (m1 & M1 & K1). destruct (cnt_pos _ _ C2) as (m2 & M2 & K2). apply keyed_iff in K1, K2.
  destruct (mods s) as [|x [|y l]]; cbn [length]; try lia; [destruct M1|]. destruct M1 as [<-|[]]. destruct M2 as [<-|[]]. congruence.
Qed.
Lemma reach_solo S jobs files s : key_kept S -> works S files -> Nat.min jobs (length files) = 1 -> two_groups S files ->
  reach S (Nat.min jobs (length files)) (start jobs files) s -> solo s /\ length (h_queue (s_shared s)) <= 2.
Proof.
  intros KK W J TG H. induction H as [|s s' R IH H].
  - split; [|cbn; lia]. exists WIdle. unfold start. rewrite J. cbn. auto.
  - destruct (reach_inv S jobs files s KK R) as (mf & nl & sent & Inv). pose proof (reach_good S jobs files s KK W R) as NB.
    pose proof (i_counter _ _ _ _ _ _ _ Inv) as CT. pose proof (i_bad _ _ _ _ _ _ _ Inv) as BA. pose proof (i_poisoned _ _ _ _ _ _ _ Inv NB) as PO.
    assert (R' : reach S (Nat.min jobs (length files)) (start jobs files) s') by (econstructor; eauto).
    pose proof (reach_good S jobs files s' KK W R') as NB'.
    pose proof (i_unsent _ _ _ _ _ _ _ Inv) as UN. pose proof (i_stops _ _ _ _ _ _ _ Inv NB) as ST.
    destruct IH as [(w & Ew & IW) LQ].
    destruct (step_cases _ _ _ _ H) as [(h & m & X & -> & NEd)|(c & a & w0 & b & h & w' & L & Ew2 & X & -> & NEd)]; cbn [s_main s_workers s_shared] in *.
    + unfold solo. cbn [s_main s_workers s_shared]. destruct s as [[q cn rs lk po lg] ws m0]. cbn [s_main s_workers s_shared h_queue h_log h_counter] in *.
      destruct m0 as [[|f fs]|k| |]; cbn [main_step m_files] in X, IW; try discriminate.
      * injection X as <- <-. split; [|exact LQ]. exists w. split; [exact Ew|]. exact IW.
      * unfold full, capacity in X. cbn [h_queue] in X. destruct (_ <=? _) eqn:F; [discriminate|]. injection X as <- <-.
        cbn [push set_queue h_queue h_log m_files]. split; [|rewrite app_length; cbn; lia]. exists w. split; [exact Ew|].
        destruct w; try tauto; try (split; [apply Forall_app; split; [apply IW|repeat constructor]|apply IW]);
          exfalso; decompose [and] IW; discriminate.
      * assert (M' : m_files m = [] /\ h = mkShared q cn rs lk po lg) by (destruct (nth_error ws k) as [[| | | | | | | | | |[]]|]; try discriminate; injection X as <- <-; auto).
        destruct M' as [M' ->]. split; [|exact LQ]. exists w. split; [exact Ew|]. cbn [h_queue h_log]. rewrite M'. exact IW.
    + assert (a = [] /\ b = [] /\ w0 = w) as (-> & -> & ->).
      { rewrite Ew in Ew2. destruct a as [|x [|y a]]; cbn in Ew2; [|discriminate|discriminate]. injection Ew2 as -> <-. auto. }
      cbn [app] in *. rewrite Ew in *. unfold solo. cbn [s_main s_workers s_shared].
      cut ((match w' with
          | WIdle | WGet _ | WMerge _ _ | WCheck | WDec => Forall is_get (h_queue h) /\ h_log h = []
          | WLock => h_queue h = [] /\ h_log h = [] /\ m_files (s_main s) = []
          | WSend ms => 3 <= length (h_queue h) + length ms /\ length (h_queue h) <= 2 /\ h_log h = [] /\ m_files (s_main s) = []
          | _ => False end) /\ length (h_queue h) <= 2). { intros [Q1 Q2]. split; [|exact Q2]. exists w'. auto. }

      destruct s as [[q cn rs lk po lg] ws m0]. cbn [s_main s_workers s_shared h_queue h_results h_log h_counter h_poisoned] in *. subst ws po.
      destruct w as [|f|f d|n| | | |d|ms|d|x]; cbn [worker_step h_queue h_counter h_results h_lock h_poisoned h_log] in X; try contradiction.
      * destruct q as [|msg q]; [discriminate|]. injection X as <- <-. destruct IW as [I1 I2]. apply Forall_cons_iff in I1. destruct I1 as [I0 I1].
        destruct msg; cbn in I0; try contradiction. cbn [set_queue h_queue h_log length] in *. splits; auto. lia.
      * destruct (sy_proc S f) eqn:P; injection X as <- <-; cbn in NB'; try discriminate. auto.
      * destruct lk; [discriminate|]. destruct (rfind _ _) as [prev|]; [destruct (sy_merge _ _ _)|]; injection X as <- <-; cbn in NB'; try discriminate; cbn [set_results h_queue h_log]; auto.
      * injection X as <- <-. cbn [h_queue h_log]. destruct (cn =? 1)%N eqn:E1; [|auto]. split; [|exact LQ].
        cbn [wsum map list_sum fold_right n_pend n_get n_have] in CT. assert (sent = false) by (destruct sent; [cbn [b2n] in CT; lia|reflexivity]). subst sent.
        destruct (UN eq_refl) as [U _]. apply app_eq_nil in U. destruct U as [_ U]. apply app_eq_nil in U. destruct U as [U _].
        splits; [|apply IW|apply length_zero_iff_nil; lia]. apply length_zero_iff_nil. rewrite kinds, U. cbn [length]. cbn in ST. lia.
      * injection X as <- <-. cbn [set_counter h_queue h_log]. auto.
      * destruct lk; [discriminate|]. destruct IW as (-> & -> & MF).
        assert (sent = true). { destruct sent; [reflexivity|]. destruct (UN eq_refl) as [_ U]. discriminate. } subst sent.
        assert (nl = 0) by (cbn in BA; lia). subst nl.
        assert (2 <= length rs). { rewrite <- (map_length snd rs). eapply (two_results S); eauto. unfold mods. cbn. now rewrite app_nil_r. }
        destruct rs as [|[k d] [|x rs]]; cbn [length] in *; try lia. injection X as <- <-.
        cbn [set_lock set_results h_queue h_log length]. splits; auto; try lia.
        rewrite app_length, map_length, repeat_length, (Permutation_length (proj1 L _)), map_length. cbn [length]. lia.
      * destruct ms as [|msg ms]; [cbn in IW; lia|]. unfold full, capacity in X. cbn [h_queue] in X. destruct (_ <=? _) eqn:F; [discriminate|]. injection X as <- <-.
        destruct IW as (I1 & I2 & -> & I3). cbn [push set_queue h_queue h_log length] in *. rewrite app_length. cbn [length]. splits; auto; lia.
Qed.
Lemma solo_not_ended S jobs files s : key_kept S -> works S files -> Nat.min jobs (length files) = 1 -> two_groups S files ->
  reach S (Nat.min jobs (length files)) (start jobs files) s -> ~ ended s /\ stored s = [].
Proof.
  intros KK W J TG R. destruct (reach_solo S jobs files s KK W J TG R) as [(w & Ew & IW) _]. split.
  - intros E. destruct (complete_ok S jobs files s KK W R E) as [_ X]. specialize (X w). rewrite Ew in X. rewrite (X (or_introl eq_refl)) in IW. exact IW.
  - unfold stored. destruct w; try contradiction; decompose [and] IW; match goal with H : h_log _ = [] |- _ => now rewrite H end.
Qed.

(** ** Every run is finite *)
Section Weight.
Context (nj : nat).
Definition wq (m : Msg I) : nat := match m with MGet _ => 12 + 2 * nj | MDump _ => 3 | MStop => 1 end.
Definition ww w : nat :=
  match w with
  | WIdle => 0 | WGet _ => 11 + 2 * nj | WMerge _ _ => 10 + 2 * nj | WPoison n => 1 + 2 * n | WCheck => 4 + 2 * nj | WDec => 1
  | WLock => 3 + 2 * nj | WOnly _ => 2 + 2 * nj | WSend ms => 1 + list_sum (map (fun m => 1 + wq m) ms) | WDump _ => 2 | WExit _ => 0 end.
Definition wm ws (m : MState) : nat :=
  match m with MSend fs => length fs * (13 + 2 * nj) + length ws + 2 | MJoin k => 1 + (length ws - k) | _ => 0 end.
Definition weight s : nat :=
  list_sum (map wq (h_queue (s_shared s))) + 5 * length (h_results (s_shared s)) + wsum ww (s_workers s) + wm (s_workers s) (s_main s).
Lemma rremove_length k (l : list (str * I)) : length (rremove k l) <= length l.
Proof. induction l as [|[k' d] l IH]; [cbn; lia|]. cbn [rremove]. destruct (str_eqb k k'); cbn [length]; lia. Qed.
Lemma weight_dumps (l : list I) : list_sum (map (fun m => 1 + wq m) (map MDump l)) = 4 * length l.
Proof. induction l as [|d l IH]; [reflexivity|]. cbn [map length]. change (list_sum (?x :: ?y)) with (x + list_sum y). rewrite IH. cbn [wq]. lia. Qed.
Lemma weight_stops n : list_sum (map (fun m => 1 + wq m) (repeat MStop n)) = 2 * n.
Proof. induction n as [|n IH]; [reflexivity|]. cbn [map repeat]. change (list_sum (?x :: ?y)) with (x + list_sum y). rewrite IH. cbn [wq]. lia. Qed.
Lemma worker_weight S c h w h' w' : legal S c -> worker_step S nj c h w = Some (h', w') ->
  list_sum (map wq (h_queue h')) + 5 * length (h_results h') + ww w' < list_sum (map wq (h_queue h)) + 5 * length (h_results h) + ww w.
Proof.
  intros L X. destruct h as [q cn rs lk po lg].
  assert (LD : forall l, length (ch_drain c l) = length l) by (intros l; rewrite (Permutation_length (proj1 L _)); apply map_length).
  destruct w as [|f|f d|[|n]| | | |d|ms|d|x]; cbn [worker_step h_queue h_counter h_results h_lock h_poisoned h_log] in X; try discriminate.
  - destruct q as [|msg q]; [discriminate|]. injection X as <- <-. cbn [set_queue h_queue h_results map]. change (list_sum (?x :: ?y)) with (x + list_sum y). destruct msg; cbn [wq ww]; lia.
  - destruct (sy_proc S f); injection X as <- <-; cbn [h_queue h_results ww]; lia.
  - destruct lk; [discriminate|]. destruct po; [injection X as <- <-; cbn [h_queue h_results ww]; lia|].
    pose proof (rremove_length (sy_key S d) rs).
    destruct (rfind _ _) as [prev|]; [destruct (sy_merge _ _ _) as [m| |]|]; injection X as <- <-; cbn [set_results set_lock poison rinsert h_queue h_results ww length]; try lia.
    + pose proof (rremove_length (sy_key S m) (rremove (sy_key S d) rs)). lia.
    + pose proof (rremove_length (sy_key S d) (rremove (sy_key S d) rs)). lia.
  - injection X as <- <-. cbn [set_lock h_queue h_results ww]. lia.
  - destruct (full _ _); [discriminate|]. injection X as <- <-. cbn [push set_queue h_queue h_results ww]. rewrite map_app, list_sum_app. cbn [map wq list_sum fold_right]. lia.
  - injection X as <- <-. cbn [h_queue h_results]. destruct (_ =? _)%N; cbn [ww]; lia.
  - injection X as <- <-. cbn [set_counter h_queue h_results ww]. lia.
  - destruct lk; [discriminate|]. destruct po; [injection X as <- <-; cbn [h_queue h_results ww]; lia|].
    destruct rs as [|[k d] [|x rs]]; injection X as <- <-; cbn [set_results set_lock h_queue h_results ww]; rewrite ?map_app, ?list_sum_app, ?weight_dumps, ?weight_stops, ?LD; cbn [length]; lia.
  - destruct (ch_store c d); injection X as <- <-; cbn [add_log set_lock poison h_queue h_results ww]; rewrite ?weight_stops; lia.
  - destruct ms as [|msg ms]; [injection X as <- <-; cbn [set_lock h_queue h_results ww]; lia|]. destruct (full _ _); [discriminate|]. injection X as <- <-.
    cbn [push set_queue h_queue h_results ww]. rewrite map_app, list_sum_app. cbn [map]. change (list_sum (?x :: ?y)) with (x + list_sum y). cbn [list_sum fold_right]. lia.
  - injection X as <- <-. cbn [add_log h_queue h_results]. destruct (ch_store c d); cbn [ww]; lia.
Qed.
Lemma step_weight S s s' : step S nj s s' -> weight s' < weight s.
Proof.
  intros H. destruct (step_cases _ _ _ _ H) as [(h & m & X & -> & NEd)|(c & a & w & b & h & w' & L & Ew & X & -> & NEd)]; unfold weight; cbn [s_main s_workers s_shared].
  - destruct s as [[q cn rs lk po lg] ws m0]. cbn [s_main s_workers s_shared] in *. destruct m0 as [[|f fs]|k| |]; cbn [main_step] in X; try discriminate.
    + injection X as <- <-. cbn [wm length]. lia.
    + destruct (full _ _); [discriminate|]. injection X as <- <-. cbn [push set_queue h_queue h_results wm length]. rewrite map_app, list_sum_app. cbn [map wq list_sum fold_right]. lia.
    + destruct (nth_error ws k) as [x|] eqn:N.
      * assert (k < length ws) by (apply nth_error_Some; congruence). destruct x as [| | | | | | | | | |[]]; try discriminate; injection X as <- <-; cbn [wm]; lia.
      * injection X as <- <-. cbn [wm]. lia.
  - pose proof (worker_weight S c _ _ _ _ L X) as Q. rewrite Ew, !wsum_app, !wsum_cons.
    assert (wm (a ++ w' :: b) (s_main s) = wm (a ++ w :: b) (s_main s)) by (destruct (s_main s); cbn [wm]; rewrite ?app_length; reflexivity). lia.
Qed.
End Weight.
Lemma steps_weight S nj n s s' : steps S nj n s s' -> n + weight nj s' <= weight nj s.
Proof. induction 1 as [|n s s1 s2 H _ IH]; [lia|]. pose proof (step_weight nj S _ _ H). lia. Qed.
Lemma bounded S jobs files n s : let nj := Nat.min jobs (length files) in
  steps S nj n (start jobs files) s -> n <= length files * (13 + 2 * nj) + nj + 2.
Proof.
  cbv zeta. set (nj := Nat.min jobs (length files)). intros H. apply steps_weight in H.
  unfold weight, start in H. cbn [s_shared s_workers s_main h_queue h_results map list_sum fold_right length wm] in H. fold nj in H. rewrite wsum_repeat, repeat_length in H. cbn [ww] in H. lia.
Qed.

(** ** A file that fails *)
Definition early_w w : Prop := match w with WIdle | WGet _ | WMerge _ _ | WCheck | WDec | WExit XErr | WExit XPanic => True | _ => False end.
Definition early S (files : list str) s : Prop :=
  Forall is_get (h_queue (s_shared s)) /\ Forall early_w (s_workers s) /\ h_poisoned (s_shared s) = false /\ h_lock (s_shared s) = false /\ h_log (s_shared s) = [] /\
  cnt (fails S) (m_files (s_main s)) + cnt (g_msg (fails S)) (h_queue (s_shared s)) + wsum (n_get (fails S)) (s_workers s) + wsum n_bad (s_workers s) = cnt (fails S) files.
Lemma unsent_fails S nj files s mf nl sent : inv S nj files s mf nl sent -> 1 <= cnt (fails S) files -> sent = false.
Proof.
  intros Inv F. destruct sent; [|reflexivity]. exfalso. destruct (merged_all _ _ _ _ _ _ Inv) as (_ & _ & _ & A).
  destruct (cnt_pos _ _ F) as (f & F1 & F2). destruct (A f F1) as (d & P). unfold fails in F2. rewrite P in F2. discriminate.
Qed.
Lemma reach_early S jobs files s : key_kept S -> merges S files -> 1 <= cnt (fails S) files ->
  reach S (Nat.min jobs (length files)) (start jobs files) s -> early S files s.
Proof.
  intros KK (V & VF & VM) F H. induction H as [|s s' R IH H].
  - unfold early, start. cbn [s_shared s_workers s_main h_queue h_poisoned h_lock h_log m_files]. splits; auto.
    + apply Forall_forall. intros w Hw. apply repeat_spec in Hw. subst w. exact Logic.I.
    + rewrite !wsum_repeat. cbn. lia.
  - destruct (reach_inv S jobs files s KK R) as (mf & nl & sent & Inv). pose proof (reach_val S jobs files V s KK VF VM R) as (_ & VB & VC & _).
    assert (R' : reach S (Nat.min jobs (length files)) (start jobs files) s') by (econstructor; eauto).
    destruct (reach_inv S jobs files s' KK R') as (mf' & nl' & sent' & Inv'). pose proof (unsent_fails _ _ _ _ _ _ _ Inv' F). subst sent'.
    pose proof (i_unsent _ _ _ _ _ _ _ Inv' eq_refl) as [_ US]. pose proof (i_keys _ _ _ _ _ _ _ Inv) as IK.
    destruct IH as (A & B & C & D & E & G).
    destruct (step_cases _ _ _ _ H) as [(h & m & X & -> & NEd)|(c & a & w & b & h & w' & L & Ew & X & -> & NEd)]; unfold early; cbn [s_main s_workers s_shared] in *.
    + destruct s as [[q cn rs lk po lg] ws m0]. cbn [s_main s_workers s_shared h_queue h_poisoned h_lock h_log] in *. destruct m0 as [[|f fs]|k| |]; cbn [main_step m_files] in X, G; try discriminate.
      * injection X as <- <-. cbn [m_files]. splits; auto.
      * destruct (full _ _); [discriminate|]. injection X as <- <-. cbn [push set_queue h_queue h_poisoned h_lock h_log m_files].
        splits; auto; [apply Forall_app; split; [exact A|repeat constructor]|]. rewrite cnt_app, !cnt_cons, cnt_nil in *. cbn [g_msg]. lia.
      * assert (M' : m_files m = [] /\ h = mkShared q cn rs lk po lg) by (destruct (nth_error ws k) as [[| | | | | | | | | |[]]|]; try discriminate; injection X as <- <-; auto).
        destruct M' as [M' ->]. cbn [h_queue h_poisoned h_lock h_log]. rewrite M'. splits; auto.
    + rewrite Ew in B, G, VC. rewrite wsum_app, wsum_cons in US.
      assert (W0 : early_w w). { rewrite Forall_forall in B. apply B, swap_In_old. }
      assert (W1 : okw files V w). { rewrite Forall_forall in VC. apply VC, swap_In_old. }
      cut (Forall is_get (h_queue h) /\ early_w w' /\ h_poisoned h = false /\ h_lock h = false /\ h_log h = [] /\
           cnt (g_msg (fails S)) (h_queue h) + n_get (fails S) w' + n_bad w' = cnt (g_msg (fails S)) (h_queue (s_shared s)) + n_get (fails S) w + n_bad w).
      { intros (Q1 & Q2 & Q3 & Q4 & Q5 & Q6). splits; auto; [now apply Forall_swap with w|]. rewrite !wsum_app, !wsum_cons in *. lia. }
      clear B G Inv Inv' R R' H VC.
      destruct s as [[q cn rs lk po lg] ws m0]. cbn [s_main s_workers s_shared h_queue h_poisoned h_lock h_log h_results] in *. subst lk po lg.
      destruct w as [|f|f d|[|n]| | | |d|ms|d|x]; cbn [worker_step early_w okw h_queue h_counter h_results h_lock h_poisoned h_log] in X, W0, W1; try contradiction; try discriminate.
      * destruct q as [|msg q]; [discriminate|]. injection X as <- <-. apply Forall_cons_iff in A. destruct A as [A0 A1]. destruct msg; cbn in A0; try contradiction.
        cbn [set_queue h_queue h_poisoned h_lock h_log early_w n_get n_bad]. rewrite cnt_cons. cbn [g_msg]. splits; auto. lia.
      * assert (PF : fails S f = match sy_proc S f with Ok _ => false | _ => true end) by reflexivity.
        destruct (sy_proc S f) eqn:P; injection X as <- <-; cbn [h_queue h_poisoned h_lock h_log early_w n_get n_bad]; rewrite PF; cbn [b2n]; splits; auto; lia.
      * destruct (rfind (sy_key S d) rs) as [prev|] eqn:Fi.
        -- destruct (rfind_In _ _ _ Fi) as (k' & I1 & ->). rewrite Forall_forall in VB. pose proof (VB _ I1) as Vp. cbn in Vp.
           rewrite Forall_forall in IK. pose proof (IK _ I1) as Kp. cbn in Kp. destruct (VM d prev W1 Vp Kp) as (m & Em & Vm).
           rewrite Em in X. injection X as <- <-. cbn [set_results h_queue h_poisoned h_lock h_log early_w n_get n_bad]. splits; auto.
        -- injection X as <- <-. cbn [set_results h_queue h_poisoned h_lock h_log early_w n_get n_bad]. splits; auto.
      * injection X as <- <-. destruct (_ =? _)%N; [cbn [n_sender] in US; exfalso; lia|]. cbn [h_queue h_poisoned h_lock h_log early_w n_get n_bad]. splits; auto.
      * injection X as <- <-. cbn [set_counter h_queue h_poisoned h_lock h_log early_w n_get n_bad]. splits; auto.
Qed.
Lemma early_complete S jobs files s : key_kept S -> merges S files -> 1 <= cnt (fails S) files -> reach S (Nat.min jobs (length files)) (start jobs files) s ->
  complete s -> Nat.min jobs (length files) <= cnt (fails S) files.
Proof.
  intros KK M F R CM. destruct (reach_early S jobs files s KK M F R) as (A & B & C & D & E & G). pose proof (reach_joined _ _ _ _ R) as JO. unfold joined, complete in *. rewrite CM in JO.
  enough (wsum n_bad (s_workers s) = length (s_workers s)) by (pose proof (len_workers _ _ _ _ R); lia).
  rewrite (wsum_all _ _ 1); [lia|]. intros w Hw. rewrite Forall_forall in B. specialize (B w Hw).
  apply In_nth_error in Hw. destruct Hw as [i Hi]. destruct (JO i) as [Q|Q]; [apply nth_error_Some; congruence|..]; rewrite Hi in Q; injection Q as ->; [contradiction|reflexivity].
Qed.
(** Without a panic the main thread does not panic. *)
Lemma no_panic_exit S jobs files s : key_kept S -> merges S files -> 1 <= cnt (fails S) files -> (forall f e, In f files -> sy_proc S f <> Panic e) ->
  reach S (Nat.min jobs (length files)) (start jobs files) s -> ~ In (WExit XPanic) (s_workers s).
Proof.
  intros KK M F NP H. induction H as [|s s' R IH H].
  - intros X. apply repeat_spec in X. discriminate.
  - destruct (reach_early S jobs files s KK M F R) as (A & B & C & D & E & G). pose proof M as (V & VF & VM). pose proof (reach_val S jobs files V s KK VF VM R) as (_ & VB & VC & _).
    destruct (reach_inv S jobs files s KK R) as (mf & nl & sent & Inv). pose proof (i_keys _ _ _ _ _ _ _ Inv) as IK. clear Inv.
    destruct (step_cases _ _ _ _ H) as [(h & m & X & -> & NEd)|(c & a & w & b & h & w' & L & Ew & X & -> & NEd)]; cbn [s_main s_workers s_shared] in *; [exact IH|].
    rewrite Ew in B, VC, IH.
    assert (W0 : early_w w). { rewrite Forall_forall in B. apply B, swap_In_old. }
    assert (W1 : okw files V w). { rewrite Forall_forall in VC. apply VC, swap_In_old. }
    intros Y. assert (Y2 : w' = WExit XPanic).
    { apply in_app_or in Y. destruct Y as [Y|[Y|Y]]; [|exact Y|]; exfalso; apply IH, in_or_app; [now left|right; now right]. }
    subst w'. clear B VC H.
    destruct s as [[q cn rs lk po lg] ws m0]. cbn [s_main s_workers s_shared h_queue h_poisoned h_lock h_log h_results] in *. subst lk po lg.
    destruct w as [|f|f d|[|n]| | | |d|ms|d|x]; cbn [worker_step early_w okw h_queue h_counter h_results h_lock h_poisoned h_log] in X, W0, W1; try contradiction; try discriminate.
    + destruct q as [|[]]; discriminate.
    + destruct (sy_proc S f) eqn:P; try discriminate. now apply (NP f _ W1 P).
    + destruct (rfind (sy_key S d) rs) as [prev|] eqn:Fi; [|discriminate].
      destruct (rfind_In _ _ _ Fi) as (k' & I1 & ->). rewrite Forall_forall in VB. pose proof (VB _ I1) as Vp. cbn in Vp.
      rewrite Forall_forall in IK. pose proof (IK _ I1) as Kp. cbn in Kp. destruct (VM d prev W1 Vp Kp) as (m & Em & Vm). rewrite Em in X. discriminate.
    + destruct (_ =? _)%N; discriminate.
Qed.
(** Without an error no worker ends with one. *)
Lemma no_error_exit S jobs files s : key_kept S -> merges S files -> 1 <= cnt (fails S) files -> (forall f e, In f files -> sy_proc S f <> Err e) ->
  reach S (Nat.min jobs (length files)) (start jobs files) s -> ~ In (WExit XErr) (s_workers s).
Proof.
  intros KK M F NP H. induction H as [|s s' R IH H].
  - intros X. apply repeat_spec in X. discriminate.
  - destruct (reach_early S jobs files s KK M F R) as (A & B & C & D & E & G). pose proof M as (V & VF & VM). pose proof (reach_val S jobs files V s KK VF VM R) as (_ & VB & VC & _).
    destruct (reach_inv S jobs files s KK R) as (mf & nl & sent & Inv). pose proof (i_keys _ _ _ _ _ _ _ Inv) as IK. clear Inv.
    destruct (step_cases _ _ _ _ H) as [(h & m & X & -> & NEd)|(c & a & w & b & h & w' & L & Ew & X & -> & NEd)]; cbn [s_main s_workers s_shared] in *; [exact IH|].
    rewrite Ew in B, VC, IH.
    assert (W0 : early_w w). { rewrite Forall_forall in B. apply B, swap_In_old. }
    assert (W1 : okw files V w). { rewrite Forall_forall in VC. apply VC, swap_In_old. }
    intros Y. assert (Y2 : w' = WExit XErr).
    { apply in_app_or in Y. destruct Y as [Y|[Y|Y]]; [|exact Y|]; exfalso; apply IH, in_or_app; [now left|right; now right]. }
    subst w'. clear B VC H.
    destruct s as [[q cn rs lk po lg] ws m0]. cbn [s_main s_workers s_shared h_queue h_poisoned h_lock h_log h_results] in *. subst lk po lg.
    destruct w as [|f|f d|[|n]| | | |d|ms|d|x]; cbn [worker_step early_w okw h_queue h_counter h_results h_lock h_poisoned h_log] in X, W0, W1; try contradiction; try discriminate.
    + destruct q as [|[]]; discriminate.
    + destruct (sy_proc S f) eqn:P; try discriminate. now apply (NP f _ W1 P).
    + destruct (rfind (sy_key S d) rs) as [prev|] eqn:Fi; [|discriminate].
      destruct (rfind_In _ _ _ Fi) as (k' & I1 & ->). rewrite Forall_forall in VB. pose proof (VB _ I1) as Vp. cbn in Vp.
      rewrite Forall_forall in IK. pose proof (IK _ I1) as Kp. cbn in Kp. destruct (VM d prev W1 Vp Kp) as (m & Em & Vm). rewrite Em in X. discriminate.
    + destruct (_ =? _)%N; discriminate.
Qed.
Lemma failing_panics S jobs files s : key_kept S -> merges S files -> (forall f e, In f files -> sy_proc S f <> Err e) ->
  1 <= cnt (fails S) files -> 1 <= jobs -> reach S (Nat.min jobs (length files)) (start jobs files) s -> ~ complete s.
Proof.
  intros KK M NE F J R CM. destruct (reach_early S jobs files s KK M F R) as (A & B & C & D & E & G). pose proof (reach_joined _ _ _ _ R) as JO. unfold joined, complete in *. rewrite CM in JO.
  pose proof (no_error_exit S jobs files s KK M F NE R) as NX. pose proof (len_workers _ _ _ _ R) as LW.
  assert (1 <= length files) by (destruct files; [cbn in F; lia|cbn; lia]).
  assert (L : 0 < length (s_workers s)) by lia. destruct (s_workers s) as [|w ws] eqn:EW; [cbn in L; lia|].
  destruct (JO 0 L) as [Q|Q]; cbn in Q; injection Q as ->; [|apply NX; now left]. apply Forall_inv in B. exact B.
Qed.
Lemma failing_hangs S jobs files s : key_kept S -> merges S files -> (forall f e, In f files -> sy_proc S f <> Panic e) ->
  1 <= cnt (fails S) files < Nat.min jobs (length files) -> reach S (Nat.min jobs (length files)) (start jobs files) s -> ~ ended s.
Proof.
  intros KK M NP F R [X|X].
  - pose proof (early_complete S jobs files s KK M (proj1 F) R X). lia.
  - pose proof (reach_joined _ _ _ _ R) as JO. unfold joined in JO. rewrite X in JO. apply (no_panic_exit S jobs files s KK M (proj1 F) NP R JO).
Qed.
Lemma failing_stores_nothing S jobs files s f : key_kept S -> In f files -> (forall d, sy_proc S f <> Ok d) ->
  reach S (Nat.min jobs (length files)) (start jobs files) s -> stored s = [].
Proof.
  intros KK F N R. destruct (stored s) as [|d l] eqn:E; [reflexivity|]. exfalso.
  destruct (stored_after_all S jobs files s KK R) as (_ & _ & _ & A); [rewrite E; discriminate|]. destruct (A f F) as (x & P). now apply (N x).
Qed.

(** ** No worker *)
Lemma reach_none S files s : reach S 0 (start 0 files) s ->
  s_workers s = [] /\ length (h_queue (s_shared s)) <= 1 /\ h_log (s_shared s) = [] /\
  length (h_queue (s_shared s)) + length (m_files (s_main s)) = length files.
Proof.
  induction 1 as [|s s' R IH H].
  - cbn. splits; auto.
  - destruct IH as (A & B & C & D). destruct (step_cases _ _ _ _ H) as [(h & m & X & -> & NEd)|(c & a & w & b & h & w' & L & Ew & X & -> & NEd)].
    + destruct s as [[q cn rs lk po lg] ws m0]. cbn [s_main s_workers s_shared h_queue h_log] in *. subst ws lg.
      destruct m0 as [[|f fs]|k| |]; cbn [main_step m_files] in X, D; try discriminate.
      * injection X as <- <-. cbn [h_queue h_log m_files length] in *. splits; auto.
      * unfold full, capacity in X. cbn [h_queue] in X. destruct (_ <=? _) eqn:F; [discriminate|]. injection X as <- <-.
        cbn [push set_queue h_queue h_log m_files length] in *. rewrite app_length. cbn [length]. splits; auto; lia.
      * destruct k; cbn in X; injection X as <- <-; cbn [h_queue h_log m_files]; splits; auto.
    + rewrite A in Ew. destruct a; discriminate.
Qed.
Lemma exactly_once_any S jobs files s : key_kept S -> 1 <= jobs \/ length files <> 1 -> reach S (Nat.min jobs (length files)) (start jobs files) s ->
  complete s -> exits_ok s ->
  (forall dr, In dr (h_log (s_shared s)) -> snd dr = Ok tt) /\
  forall f, In f files -> exists d m g, sy_proc S f = Ok d /\ In m (stored s) /\ sy_key S m = sy_key S d /\
    merge_in_order S g m /\ Permutation g (group S files (sy_key S d)).
Proof.
  intros KK J R CM X. destruct jobs as [|jobs].
  - cbn [Nat.min] in R. destruct (reach_none S files s R) as (A & B & C & D). unfold complete in CM. rewrite CM in D. cbn [m_files length] in D.
    rewrite C. split; [intros dr []|]. intros f F. destruct files as [|f0 [|f1 fs]]; [destruct F|cbn in J; lia|cbn in D; lia].
  - destruct (exactly_once S (Datatypes.S jobs) files s KK ltac:(lia) R X) as [A B]. split; [exact A|]. intros f F.
    destruct (B f F) as (d & P & m & M & K). destruct (at_most_once S (Datatypes.S jobs) files s KK R) as [_ G]. destruct (G m M) as (g & G1 & G2).
    exists d, m, g. rewrite <- K at 2. splits; auto.
Qed.
Lemma none_blocks S files s : reach S 0 (start 0 files) s -> 2 <= length files -> ~ ended s /\ stored s = [].
Proof.
  intros R L. destruct (reach_none S files s R) as (A & B & C & D). split; [|unfold stored; now rewrite C].
  intros [X|X]; rewrite X in D; cbn in D; lia.
Qed.

(** ** Runs without the race complete *)
Lemma calm_completes S jobs files s : key_kept S -> works S files -> files <> [] -> 1 <= jobs ->
  2 <= Nat.min jobs (length files) \/ ~ two_groups S files ->
  calm S (Nat.min jobs (length files)) (start jobs files) s ->
  (exists s', step S (Nat.min jobs (length files)) s s') \/ (complete s /\ exits_ok s).
Proof.
  intros KK W NE J1 J Ca. pose proof (calm_reach _ _ _ _ Ca) as R.
  assert (DE : ended s \/ ~ ended s) by (unfold ended; destruct (s_main s); auto; right; intros [X|X]; discriminate).
  destruct DE as [E|E]; [right; eapply complete_ok; eauto|]. left.
  pose proof (calm_not_blocked S jobs files s KK W NE J1 J Ca) as NB.
  (* the steps under one choice decide it *)
  destruct (main_step (Nat.min jobs (length files)) (s_shared s) (s_workers s) (s_main s)) as [[h m]|] eqn:EM.
  - exists (mkSt h (s_workers s) m). exists some_choice, Main. split; [eapply some_legal; eauto|]. unfold thread_step.
    destruct s as [h0 ws m0]. cbn [s_main s_shared s_workers] in *. destruct m0; try (rewrite EM; reflexivity); discriminate EM.
  - destruct (existsb (fun w => match worker_step S (Nat.min jobs (length files)) some_choice (s_shared s) w with Some _ => true | None => false end) (s_workers s)) eqn:EX.
    + apply existsb_exists in EX. destruct EX as (w & Hw & Q). destruct (worker_step _ _ _ _ w) as [[h w']|] eqn:EW; [|discriminate].
      apply In_nth_error in Hw. destruct Hw as [i Hi]. exists (mkSt h (set_nth (s_workers s) i w') (s_main s)). exists some_choice, (Worker i).
      split; [eapply some_legal; eauto|]. unfold thread_step. destruct s as [h0 ws m0]. cbn [s_main s_shared s_workers] in *. rewrite Hi, EW.
      destruct m0; try reflexivity; exfalso; apply E; [left|right]; reflexivity.
    + exfalso. apply NB. split; [exact E|]. intros s' H. destruct (step_cases _ _ _ _ H) as [(h & m & X & -> & _)|(c & a & w & b & h & w' & L & Ew & X & -> & _)]; [congruence|].
      assert (Hw : In w (s_workers s)) by (rewrite Ew; apply swap_In_old).
      assert (Q : worker_step S (Nat.min jobs (length files)) some_choice (s_shared s) w = None).
      { destruct (worker_step S (Nat.min jobs (length files)) some_choice (s_shared s) w) eqn:Y; [|reflexivity]. exfalso.
        assert (existsb (fun w => match worker_step S (Nat.min jobs (length files)) some_choice (s_shared s) w with Some _ => true | None => false end) (s_workers s) = true); [|congruence].
        apply existsb_exists. exists w. split; [exact Hw|]. now rewrite Y. }
      clear - X Q. destruct w as [|f|f d|[|n]| | | |d|ms|d|x]; cbn [worker_step] in X, Q;
        repeat (match type of Q with context [match ?x with _ => _ end] => destruct x; try discriminate end); discriminate.
Qed.
End E.
