(** Runs of several files: consequences of the invariant. *)
From Verif Require Import Base Str M_Sched S_Sched P_Sched.
Local Open Scope nat_scope.

Section R.
Context {I : Type}.
Implicit Types (S : Sys I) (s : St I) (q : list (Msg I)) (ws a b : list (WState I)) (w : WState I).

Lemma swap_In (P : WState I -> Prop) a w b w' : (forall x, In x (a ++ w :: b) -> P x) -> P w' -> forall x, In x (a ++ w' :: b) -> P x.
Proof. intros H W x X. apply in_app_or in X. destruct X as [X|[<-|X]]; [apply H, in_or_app; auto|exact W|apply H, in_or_app; right; now right]. Qed.
Lemma swap_In_old (a : list (WState I)) w b : In w (a ++ w :: b).
Proof. apply in_or_app. right. now left. Qed.

(** ** Number of workers *)
Lemma len_workers S jobs files s : reach S (Nat.min jobs (length files)) (start jobs files) s -> length (s_workers s) = Nat.min jobs (length files).
Proof.
  induction 1 as [|s s' _ IH H]; [apply repeat_length|].
  destruct (step_cases _ _ _ _ H) as [(h & m & E & -> & _)|(c & a & w & b & h & w' & L & Ew & E & -> & _)]; [exact IH|].
  cbn [s_workers]. rewrite <- IH, Ew, !app_length. reflexivity.
Qed.

(** ** Joined workers have ended *)
Definition gone (x : option (WState I)) : Prop := x = Some (WExit XOk) \/ x = Some (WExit XErr).
Definition joined s : Prop :=
  match s_main s with
  | MSend _ => True
  | MJoin k => forall i, i < k -> gone (nth_error (s_workers s) i)
  | MDone => forall i, i < length (s_workers s) -> gone (nth_error (s_workers s) i)
  | MPanic => In (WExit XPanic) (s_workers s)
  end.
Lemma nth_swap a w b w' i : nth_error (a ++ w' :: b) i = nth_error (a ++ w :: b) i \/ (nth_error (a ++ w :: b) i = Some w /\ nth_error (a ++ w' :: b) i = Some w').
Proof.
  destruct (Nat.lt_trichotomy i (length a)) as [H|[H|H]].
  - left. now rewrite !nth_error_app1.
  - right. subst i. rewrite !nth_error_app2, !Nat.sub_diag by lia. auto.
  - left. rewrite !nth_error_app2 by lia. destruct (i - length a) eqn:E; [lia|reflexivity].
Qed.
Lemma reach_joined S jobs files s : reach S (Nat.min jobs (length files)) (start jobs files) s -> joined s.
Proof.
  induction 1 as [|s s' _ IH H]; [exact Logic.I|].
  destruct (step_cases _ _ _ _ H) as [(h & m & E & -> & _)|(c & a & w & b & h & w' & L & Ew & E & -> & NE)]; unfold joined in *; cbn [s_main s_workers].
  - destruct (s_main s) as [[|f fs]|k| |]; cbn [main_step] in E.
    + injection E as <- <-. intros i Hi. lia.
    + destruct (full _ _); [discriminate|]. injection E as <- <-. exact Logic.I.
    + destruct (nth_error (s_workers s) k) as [[| | | | | | | | | |[]]|] eqn:N; try discriminate; injection E as <- <-.
      * intros i Hi. destruct (Nat.eq_dec i k) as [->|Ne]; [left; exact N|apply IH; lia].
      * intros i Hi. destruct (Nat.eq_dec i k) as [->|Ne]; [right; exact N|apply IH; lia].
      * now apply nth_error_In with k.
      * intros i Hi. apply IH. apply nth_error_None in N. lia.
    + discriminate.
    + discriminate.
  - rewrite Ew in IH. assert (G : forall i, gone (nth_error (a ++ w :: b) i) -> gone (nth_error (a ++ w' :: b) i)).
    { intros i G. destruct (nth_swap a w b w' i) as [->|[X _]]; [exact G|]. rewrite X in G. destruct G as [G|G]; injection G as ->; discriminate. }
    destruct (s_main s) as [fs|k| |] eqn:M.
    + exact Logic.I.
    + intros i Hi. apply G, IH, Hi.
    + intros i Hi. apply G, IH. rewrite app_length in *. exact Hi.
    + exfalso. apply NE. right. exact M.
Qed.

(** ** Valid modules *)
Definition okm (files : list str) (V : I -> Prop) (m : Msg I) : Prop := match m with MGet f => In f files | MDump d => V d | MStop => True end.
Definition okw (files : list str) (V : I -> Prop) w : Prop :=
  match w with
  | WGet f => In f files | WMerge f d => V d | WOnly d | WDump d => V d | WSend ms => Forall (okm files V) ms | _ => True end.
Definition val (files : list str) (V : I -> Prop) s : Prop :=
  Forall (okm files V) (h_queue (s_shared s)) /\ Forall (fun kd => V (snd kd)) (h_results (s_shared s)) /\
  Forall (okw files V) (s_workers s) /\ Forall (fun f => In f files) (m_files (s_main s)).
Lemma rfind_In k (l : list (str * I)) d : rfind k l = Some d -> exists k', In (k', d) l /\ k' = k.
Proof.
  induction l as [|[k' e] l IH]; [discriminate|]. cbn [rfind]. destruct (str_eqb k k') eqn:X; intros H.
  - injection H as ->. apply str_eqb_eq in X. subst. eexists. split; [now left|reflexivity].
  - destruct (IH H) as (k2 & A & B). exists k2. split; [now right|exact B].
Qed.
Lemma ok_stops files V n : Forall (okm files V) (repeat MStop n).
Proof. apply Forall_forall. intros m H. apply repeat_spec in H. subst m. exact Logic.I. Qed.
Lemma reach_val S jobs files (V : I -> Prop) s : key_kept S -> (forall f d, In f files -> sy_proc S f = Ok d -> V d) ->
  (forall x y, V x -> V y -> sy_key S x = sy_key S y -> exists m, sy_merge S x y = Ok m /\ V m) ->
  reach S (Nat.min jobs (length files)) (start jobs files) s -> val files V s.
Proof.
  intros KK VF VM H. induction H as [|s s' R IH H].
  - unfold val, start. cbn [s_shared s_workers s_main h_queue h_results m_files]. splits; auto; [|apply Forall_forall; auto].
    apply Forall_forall. intros w W. apply repeat_spec in W. subst w. exact Logic.I.
  - destruct (reach_inv S jobs files s KK R) as (mf & nl & sent & Inv). pose proof (i_keys _ _ _ _ _ _ _ Inv) as IK.
    destruct IH as (A & B & C & D).
    destruct (step_cases _ _ _ _ H) as [(h & m & E & -> & _)|(c & a & w & b & h & w' & L & Ew & E & -> & NE)]; unfold val; cbn [s_main s_workers s_shared].
    + destruct s as [[q cn rs lk po lg] ws m0]. cbn [s_main s_workers s_shared h_queue h_results] in *. destruct m0 as [[|f fs]|k| |]; cbn [main_step] in E; try discriminate.
      * injection E as <- <-. auto.
      * destruct (full _ _); [discriminate|]. injection E as <- <-. cbn [m_files] in *. apply Forall_cons_iff in D. cbn [push set_queue h_queue h_results]. splits; auto; [|apply D].
        apply Forall_app. split; [exact A|]. constructor; [apply D|constructor].
      * destruct (nth_error ws k) as [[| | | | | | | | | |[]]|]; try discriminate; injection E as <- <-; cbn [m_files]; auto.
    + rewrite Ew in C.
      assert (W0 : okw files V w). { rewrite Forall_forall in C. apply C, swap_In_old. }
      assert (X : Forall (okm files V) (h_queue h) /\ Forall (fun kd => V (snd kd)) (h_results h) /\ okw files V w').
      { clear C D. destruct s as [[q cn rs lk po lg] ws m0]. cbn [s_main s_workers s_shared h_queue h_results] in *. subst ws.
        destruct w as [|f|f d|[|n]| | | |d|ms|d|x]; cbn [worker_step h_queue h_counter h_results h_lock h_poisoned h_log] in E; cbn [okw] in W0.
        - destruct q as [|msg q]; [discriminate|]. injection E as <- <-. apply Forall_cons_iff in A. destruct A as [A1 A2].
          cbn [set_queue h_queue h_results]. splits; auto. destruct msg; exact A1 || exact Logic.I.
        - destruct (sy_proc S f) as [d|e|e] eqn:P; injection E as <- <-; cbn [okw h_queue h_results]; splits; eauto.
        - destruct lk; [discriminate|]. destruct po; [injection E as <- <-; cbn [okw h_queue h_results]; splits; auto|].
          destruct (rfind (sy_key S d) rs) as [prev|] eqn:F.
          + destruct (rfind_In _ _ _ F) as (k' & I1 & ->). rewrite Forall_forall in B. pose proof (B _ I1) as Vp. cbn in Vp.
            rewrite Forall_forall in IK. pose proof (IK _ I1) as Kp. cbn in Kp. destruct (VM d prev W0 Vp Kp) as (m & Em & Vm).
            rewrite Em in E. injection E as <- <-. cbn [set_results okw h_queue h_results]. splits; auto.
            constructor; [exact Vm|]. apply rremove_Forall, rremove_Forall. apply Forall_forall. exact B.
          + injection E as <- <-. cbn [set_results okw h_queue h_results]. splits; auto. constructor; [exact W0|]. now apply rremove_Forall, rremove_Forall.
        - injection E as <- <-. cbn [set_lock okw h_queue h_results]. auto.
        - destruct (full _ _); [discriminate|]. injection E as <- <-. cbn [push set_queue okw h_queue h_results]. splits; auto. apply Forall_app. split; [exact A|]. repeat constructor.
        - injection E as <- <-. cbn [okw h_queue h_results]. splits; auto. destruct (_ =? _)%N; exact Logic.I.
        - injection E as <- <-. cbn [set_counter okw h_queue h_results]. auto.
        - destruct lk; [discriminate|]. destruct po; [injection E as <- <-; cbn [okw h_queue h_results]; splits; auto|].
          assert (D : forall l, Forall (fun kd => V (snd kd)) l -> Forall (okm files V) (map MDump (ch_drain c l) ++ repeat MStop (Nat.min jobs (length files)))).
          { intros l Fl. apply Forall_app. split; [|apply ok_stops]. apply Forall_map. cbn [okm]. eapply Permutation_Forall; [symmetry; apply L|]. now apply Forall_map. }
          destruct rs as [|[k d] [|x rs]]; injection E as <- <-; cbn [set_lock set_results okw h_queue h_results]; splits; auto.
          apply Forall_cons_iff in B. apply B.
        - destruct (ch_store c d); injection E as <- <-; cbn [set_lock poison add_log okw h_queue h_results]; splits; auto. apply ok_stops.
        - destruct ms as [|msg ms].
          + injection E as <- <-. cbn [set_lock okw h_queue h_results]. auto.
          + destruct (full _ _); [discriminate|]. injection E as <- <-. apply Forall_cons_iff in W0. cbn [push set_queue okw h_queue h_results]. splits; auto; [|apply W0].
            apply Forall_app. split; [exact A|]. constructor; [apply W0|constructor].
        - injection E as <- <-. cbn [add_log okw h_queue h_results]. splits; auto. destruct (ch_store c d); exact Logic.I.
        - discriminate. }
      destruct X as (X1 & X2 & X3). splits; auto. now apply Forall_swap with w.
Qed.

(** ** Runs in which everything works *)
Lemma reach_good S jobs files s : key_kept S -> works S files -> reach S (Nat.min jobs (length files)) (start jobs files) s ->
  wsum n_bad (s_workers s) = 0.
Proof.
  intros KK (WP & (V & VF & VM) & WS) H. induction H as [|s s' R IH H].
  - cbn [start s_workers]. rewrite wsum_repeat. cbn. lia.
  - pose proof (reach_val S jobs files V s KK VF VM R) as (A & B & C & D).
    destruct (reach_inv S jobs files s KK R) as (mf & nl & sent & Inv). pose proof (i_keys _ _ _ _ _ _ _ Inv) as IK.
    pose proof (i_poisoned _ _ _ _ _ _ _ Inv IH) as PO.
    destruct (step_cases _ _ _ _ H) as [(h & m & E & -> & _)|(c & a & w & b & h & w' & L & Ew & E & -> & NE)]; cbn [s_main s_workers s_shared]; [exact IH|].
    rewrite Ew in *. rewrite wsum_app, wsum_cons in *. assert (W0 : okw files V w). { rewrite Forall_forall in C. apply C, swap_In_old. }
    cut (n_bad w' = 0); [lia|]. assert (IH' : n_bad w = 0) by lia. clear C D IH.
    destruct s as [[q cn rs lk po lg] ws m0]. cbn [s_main s_workers s_shared h_queue h_results h_poisoned] in *. subst ws po.
    assert (SO : forall d, ch_store c d = Ok tt). { intros d. apply WS with d. apply L. }
    destruct w as [|f|f d|[|n]| | | |d|ms|d|x]; cbn [worker_step h_queue h_counter h_results h_lock h_poisoned h_log] in E; cbn [okw n_bad] in *; try discriminate.
    + destruct q as [|msg q]; [discriminate|]. injection E as <- <-. destruct msg; reflexivity.
    + destruct (WP f W0) as (d & P). rewrite P in E. injection E as <- <-. reflexivity.
    + destruct lk; [discriminate|].
      destruct (rfind (sy_key S d) rs) as [prev|] eqn:F.
      * destruct (rfind_In _ _ _ F) as (k' & I1 & ->). rewrite Forall_forall in B. pose proof (B _ I1) as Vp. cbn in Vp.
        rewrite Forall_forall in IK. pose proof (IK _ I1) as Kp. cbn in Kp. destruct (VM d prev W0 Vp Kp) as (m & Em & Vm).
        rewrite Em in E. injection E as <- <-. reflexivity.
      * injection E as <- <-. reflexivity.
    + injection E as <- <-. destruct (_ =? _)%N; reflexivity.
    + injection E as <- <-. reflexivity.
    + destruct lk; [discriminate|]. destruct rs as [|[k d] [|x rs]]; injection E as <- <-; reflexivity.
    + rewrite SO in E. injection E as <- <-. reflexivity.
    + destruct ms as [|msg ms]; [injection E as <- <-; reflexivity|]. destruct (full _ _); [discriminate|]. injection E as <- <-. reflexivity.
    + rewrite SO in E. injection E as <- <-. reflexivity.
Qed.

(** ** All merged *)
Lemma sent_all S nj files s mf nl : inv S nj files s mf nl true ->
  nl = 0 /\ m_files (s_main s) = [] /\ cnt (g_msg (fun _ => true)) (h_queue (s_shared s)) = 0 /\ wsum (n_get (fun _ => true)) (s_workers s) = 0 /\
  wsum (n_have (fun _ => true)) (s_workers s) = 0 /\ wsum n_pend (s_workers s) = 0 /\ wsum n_poison (s_workers s) = 0.
Proof.
  intros Inv. pose proof (i_counter _ _ _ _ _ _ _ Inv) as C. pose proof (i_sent _ _ _ _ _ _ _ Inv eq_refl) as C1. pose proof (i_lost _ _ _ _ _ _ _ Inv). cbn [b2n] in C.
  assert (length (m_files (s_main s)) = 0) by lia. splits; try lia. now apply length_zero_iff_nil.
Qed.
Lemma gets_P P q : cnt (g_msg P) q <= cnt (g_msg (fun _ => true)) q.
Proof. induction q as [|m q IH]; [cbn; lia|]. rewrite !cnt_cons. destruct m as [f| |]; cbn; try destruct (P f); cbn; lia. Qed.
Lemma n_get_P P w : n_get P w <= n_get (fun _ => true) w.
Proof. destruct w; cbn; try destruct (P _); cbn; lia. Qed.
Lemma n_have_P P w : n_have P w <= n_have (fun _ => true) w.
Proof. destruct w; cbn; try destruct (P _); cbn; lia. Qed.
(** With nothing lost or outstanding all files have been merged. *)
Lemma none_left S nj files s mf sent : inv S nj files s mf 0 sent ->
  m_files (s_main s) = [] -> cnt (g_msg (fun _ => true)) (h_queue (s_shared s)) = 0 -> wsum (n_get (fun _ => true)) (s_workers s) = 0 ->
  wsum (n_have (fun _ => true)) (s_workers s) = 0 -> forall P, cnt P files = cnt P mf.
Proof.
  intros Inv A B C D P. rewrite (i_files _ _ _ _ _ _ _ Inv eq_refl P), A.
  pose proof (gets_P P (h_queue (s_shared s))). pose proof (wsum_le _ _ (s_workers s) (n_get_P P)). pose proof (wsum_le _ _ (s_workers s) (n_have_P P)).
  cbn [cnt filter length]. lia.
Qed.
Lemma same_In (l l' : list str) : (forall P, cnt P l = cnt P l') -> forall x, In x l -> In x l'.
Proof.
  intros H x X. pose proof (cnt_In (str_eqb x) x l X (proj2 (str_eqb_eq _ _) eq_refl)) as C. rewrite H in C.
  destruct (cnt_pos _ _ C) as (y & Y & E). apply str_eqb_eq in E. now subst.
Qed.
Lemma str_dec (x y : str) : {x = y} + {x <> y}.
Proof. apply list_eq_dec, N.eq_dec. Qed.
Lemma cnt_occ x (l : list str) : count_occ str_dec l x = cnt (fun y => str_eqb y x) l.
Proof.
  induction l as [|y l IH]; [reflexivity|]. rewrite cnt_cons. cbn [count_occ]. rewrite IH. destruct (str_dec y x) as [->|N].
  - now rewrite (proj2 (str_eqb_eq _ _) eq_refl).
  - destruct (str_eqb y x) eqn:E; [apply str_eqb_eq in E; contradiction|reflexivity].
Qed.
Lemma same_perm (l l' : list str) : (forall P, cnt P l = cnt P l') -> Permutation l l'.
Proof. intros H. apply (Permutation_count_occ str_dec). intros x. rewrite !cnt_occ. apply H. Qed.

Lemma merged_all S nj files s mf nl : inv S nj files s mf nl true -> all_merged S files s.
Proof.
  intros Inv. destruct (sent_all _ _ _ _ _ _ Inv) as (-> & A & B & C & D & E & F). unfold all_merged. splits.
  - intros fs Em. rewrite Em in A. exact A.
  - intros f H. pose proof (cnt_In (g_msg (fun _ => true)) _ _ H eq_refl). lia.
  - intros w W. rewrite wsum_zero in C, D, E, F. specialize (C w W). specialize (D w W). specialize (E w W). specialize (F w W). destruct w; try exact Logic.I; discriminate.
  - intros f H. pose proof (i_ok _ _ _ _ _ _ _ Inv) as O. rewrite Forall_forall in O. apply O. eapply same_In; [|exact H]. eapply none_left; eauto.
Qed.
Lemma stored_sent S nj files s mf nl sent : inv S nj files s mf nl sent -> stored s <> [] -> sent = true.
Proof.
  intros Inv H. destruct sent; [reflexivity|]. destruct (i_unsent _ _ _ _ _ _ _ Inv eq_refl) as [U _]. apply app_eq_nil in U. destruct U as [_ U]. apply app_eq_nil in U. destruct U. contradiction.
Qed.
Lemma stored_after_all S jobs files s : key_kept S -> reach S (Nat.min jobs (length files)) (start jobs files) s -> stored s <> [] -> all_merged S files s.
Proof.
  intros KK R H. destruct (reach_inv S jobs files s KK R) as (mf & nl & sent & Inv). pose proof (stored_sent _ _ _ _ _ _ _ Inv H). subst sent. eapply merged_all; eauto.
Qed.

(** ** At most once *)
Lemma once_nodup S (l : list I) : (forall k, cnt (keyed S k) l <= 1) -> NoDup (map (sy_key S) l).
Proof.
  induction l as [|d l IH]; intros H; [constructor|]. cbn [map]. constructor.
  - intros X. apply in_map_iff in X. destruct X as (e & E & X). specialize (H (sy_key S d)). rewrite cnt_cons, (proj2 (keyed_iff S _ d) eq_refl) in H.
    pose proof (cnt_In (keyed S (sy_key S d)) e l X (proj2 (keyed_iff S _ e) E)). cbn in H. lia.
  - apply IH. intros k. specialize (H k). rewrite cnt_cons in H. lia.
Qed.
Lemma cnt_filter {A} (P Q : A -> bool) l : cnt P (filter Q l) = cnt (fun x => P x && Q x) l.
Proof. induction l as [|x l IH]; [reflexivity|]. cbn [filter]. rewrite cnt_cons. destruct (Q x); rewrite ?cnt_cons, IH; destruct (P x); reflexivity. Qed.
Lemma stored_in_mods s d : In d (stored s) -> In d (mods s).
Proof. intros H. unfold mods. apply in_or_app. right. apply in_or_app. right. apply in_or_app. now right. Qed.
Lemma at_most_once S jobs files s : key_kept S -> reach S (Nat.min jobs (length files)) (start jobs files) s ->
  NoDup (map (sy_key S) (stored s)) /\
  forall d, In d (stored s) -> exists g, merge_in_order S g d /\ Permutation g (group S files (sy_key S d)).
Proof.
  intros KK R. destruct (reach_inv S jobs files s KK R) as (mf & nl & sent & Inv). split.
  - apply once_nodup. intros k. pose proof (i_once _ _ _ _ _ _ _ Inv k) as H. unfold mods in H. rewrite !cnt_app in H. lia.
  - intros d H. assert (NE : stored s <> []) by (destruct (stored s); [easy|discriminate]). pose proof (stored_sent _ _ _ _ _ _ _ Inv NE). subst sent.
    destruct (sent_all _ _ _ _ _ _ Inv) as (-> & A & B & C & D & E & F).
    pose proof (i_mods _ _ _ _ _ _ _ Inv eq_refl) as M. rewrite Forall_forall in M. destruct (M d (stored_in_mods s d H)) as (g & G1 & G2).
    exists g. split; [exact G1|]. apply same_perm. intros P. rewrite G2. unfold group. rewrite cnt_filter. symmetry. eapply none_left; eauto.
Qed.

(** ** Exactly once *)
Lemma wsum_pos f ws w : In w ws -> 1 <= f w -> 1 <= wsum f ws.
Proof. induction ws as [|x ws IH]; [easy|]. rewrite wsum_cons. intros [->|H] L; [lia|]. specialize (IH H L). lia. Qed.
Lemma wsum_all f ws k : (forall w, In w ws -> f w = k) -> wsum f ws = length ws * k.
Proof. induction ws as [|w ws IH]; intros H; [reflexivity|]. rewrite wsum_cons, (H w (or_introl eq_refl)), IH; [cbn; lia|]. intros x X. apply H. now right. Qed.
Lemma stops_no_mods q : forallb is_stop q = true -> q_mods q = [].
Proof. induction q as [|m q IH]; [reflexivity|]. cbn [forallb]. rewrite q_mods_cons. destruct m; cbn; try discriminate. exact IH. Qed.
Lemma nil_flat {A} f ws : (forall w, In w ws -> f w = @nil A) -> flat_map f ws = [].
Proof. induction ws as [|w ws IH]; intros H; [reflexivity|]. cbn [flat_map]. rewrite (H w (or_introl eq_refl)), IH; [reflexivity|]. intros x X. apply H. now right. Qed.
Lemma exactly_once S jobs files s : key_kept S -> 1 <= jobs -> reach S (Nat.min jobs (length files)) (start jobs files) s ->
  exits_ok s ->
  (forall dr, In dr (h_log (s_shared s)) -> snd dr = Ok tt) /\
  forall f, In f files -> exists d, sy_proc S f = Ok d /\ exists m, In m (stored s) /\ sy_key S m = sy_key S d.
Proof.
  intros KK J R X. destruct (reach_inv S jobs files s KK R) as (mf & nl & sent & Inv).
  assert (NB : wsum n_bad (s_workers s) = 0) by (apply wsum_zero; intros w W; now rewrite (X w W)).
  split.
  { intros dr H. pose proof (i_answers _ _ _ _ _ _ _ Inv NB) as A. rewrite Forall_forall in A. destruct (A dr H) as ([] & U). exact U. }
  intros f Hf. pose proof (len_workers _ _ _ _ R) as LW.
  assert (1 <= length files) by (destruct files; [easy|cbn; lia]).
  assert (NO : wsum n_ok (s_workers s) = Nat.min jobs (length files)). { rewrite (wsum_all _ _ 1); [lia|]. intros w W. now rewrite (X w W). }
  pose proof (i_stops _ _ _ _ _ _ _ Inv NB) as ST. destruct sent; [|lia].
  pose proof (i_last _ _ _ _ _ _ _ Inv NB ltac:(lia)) as LA.
  destruct (sent_all _ _ _ _ _ _ Inv) as (-> & A & B & C & D & E & F).
  assert (RS : h_results (s_shared s) = []). { apply (i_drained _ _ _ _ _ _ _ Inv eq_refl NB). apply wsum_zero. intros w W. now rewrite (X w W). }
  unfold msgs in LA. rewrite forallb_app in LA. apply andb_true_iff in LA. destruct LA as [LA _].
  assert (MS : mods s = stored s). { unfold mods. rewrite RS, (stops_no_mods _ LA), nil_flat; [reflexivity|]. intros w W. now rewrite (X w W). }
  assert (Hm : In f mf). { eapply same_In; [|exact Hf]. eapply none_left; eauto. }
  pose proof (i_ok _ _ _ _ _ _ _ Inv) as O. rewrite Forall_forall in O. destruct (O f Hm) as (d & P). exists d. split; [exact P|].
  pose proof (i_all _ _ _ _ _ _ _ Inv eq_refl f d Hm P) as Q. rewrite MS in Q. destruct (cnt_pos _ _ Q) as (m & M1 & M2). exists m. split; [exact M1|]. now apply keyed_iff.
Qed.

(** ** Blocked runs *)
Lemma blocked_none S nj s c : blocked S nj s -> legal S c ->
  main_step nj (s_shared s) (s_workers s) (s_main s) = None /\ forall w, In w (s_workers s) -> worker_step S nj c (s_shared s) w = None.
Proof.
  intros [NE B] L.
  assert (NM : s_main s <> MDone /\ s_main s <> MPanic) by (split; intros X; apply NE; [left|right]; exact X).
  split.
  - destruct (main_step nj (s_shared s) (s_workers s) (s_main s)) as [[h m]|] eqn:E; [|reflexivity]. exfalso. apply (B (mkSt h (s_workers s) m)).
    exists c, Main. split; [exact L|]. unfold thread_step. destruct s as [h0 ws m0]. cbn [s_main s_shared s_workers] in *. destruct NM as [N1 N2]. destruct m0; try contradiction; now rewrite E.
  - intros w W. destruct (worker_step S nj c (s_shared s) w) as [[h w']|] eqn:E; [|reflexivity]. exfalso.
    apply In_nth_error in W. destruct W as [i W]. apply (B (mkSt h (set_nth (s_workers s) i w') (s_main s))).
    exists c, (Worker i). split; [exact L|]. unfold thread_step. destruct s as [h0 ws m0]. cbn [s_main s_shared s_workers] in *. rewrite W, E. destruct NM as [N1 N2]. destruct m0; try contradiction; reflexivity.
Qed.
Definition some_choice : Choice I := mkChoice (map snd) (fun _ => Ok tt).
Lemma some_legal S files : works S files -> legal S some_choice.
Proof. intros (_ & _ & W). split; [intros l; reflexivity|]. intros d. now apply W. Qed.

Lemma q_no_gets q : cnt (g_msg (fun _ => true)) q = 0 -> forall f, ~ In (MGet f) q.
Proof. intros H f X. pose proof (cnt_In (g_msg (fun _ => true)) _ _ X eq_refl). lia. Qed.
Lemma all_stops q : forallb is_stop q = true -> cnt is_stop q = length q.
Proof. induction q as [|m q IH]; [reflexivity|]. cbn [forallb]. rewrite cnt_cons. intros H. apply andb_true_iff in H. destruct H as [H1 H2]. rewrite H1, (IH H2). reflexivity. Qed.
Lemma one_of ws w : length ws = 1 -> In w ws -> ws = [w].
Proof. destruct ws as [|x [|y ws]]; cbn; try lia. intros _ [->|[]]. reflexivity. Qed.
Lemma other_worker ws w : In w ws -> 2 <= length ws -> exists a x b, ws = a ++ w :: b /\ In x (a ++ b).
Proof.
  intros H L. apply in_split in H. destruct H as (a & b & ->). rewrite app_length in L. cbn in L. destruct (a ++ b) as [|x l] eqn:E.
  - apply (f_equal (@length _)) in E. rewrite app_length in E. cbn in E. lia.
  - exists a, x, b. split; [reflexivity|]. rewrite E. now left.
Qed.

(** A worker that waits while it sends. *)
Definition stuck_sender nj s : Prop := exists m ms, In (WSend (m :: ms)) (s_workers s) /\ full nj (s_shared s) = true.
Lemma blocked_causes S jobs files s : key_kept S -> works S files -> reach S (Nat.min jobs (length files)) (start jobs files) s ->
  blocked S (Nat.min jobs (length files)) s ->
  (s_workers s = [] /\ full (Nat.min jobs (length files)) (s_shared s) = true /\ exists f fs, s_main s = MSend (f :: fs)) \/
  (exists m ms, s_workers s = [WSend (m :: ms)] /\ full (Nat.min jobs (length files)) (s_shared s) = true) \/
  (h_counter (s_shared s) = 0%N /\ (forall w, In w (s_workers s) -> w = WIdle) /\ s_workers s <> [] /\ h_queue (s_shared s) = [] /\ s_main s = MJoin 0 /\ stored s = []).
Proof.
  intros KK W R Bl. destruct (reach_inv S jobs files s KK R) as (mf & nl & sent & Inv). pose proof (reach_good S jobs files s KK W R) as NB.
  pose proof (len_workers _ _ _ _ R) as LW. pose proof (reach_joined _ _ _ _ R) as JO. set (nj := Nat.min jobs (length files)) in *.
  destruct (blocked_none S nj s some_choice Bl (some_legal S files W)) as [BM BW].
  pose proof (i_poisoned _ _ _ _ _ _ _ Inv NB) as PO. pose proof (i_lock _ _ _ _ _ _ _ Inv NB) as LK. pose proof (i_sender _ _ _ _ _ _ _ Inv NB) as SE.
  pose proof (i_stops _ _ _ _ _ _ _ Inv NB) as ST. pose proof (i_last _ _ _ _ _ _ _ Inv NB) as LA. pose proof (i_counter _ _ _ _ _ _ _ Inv) as CT. pose proof (i_bad _ _ _ _ _ _ _ Inv) as BA.
  assert (CW : forall w, In w (s_workers s) -> (w = WIdle /\ h_queue (s_shared s) = []) \/ (h_lock (s_shared s) = true /\ (w = WLock \/ exists f d, w = WMerge f d)) \/
     (exists m ms, w = WSend (m :: ms) /\ full nj (s_shared s) = true) \/ w = WExit XOk).
  { intros w Hw. pose proof (BW w Hw) as E. pose proof (proj1 (wsum_zero _ _) NB w Hw) as Nb.
    destruct w as [|f|f d|[|n]| | | |d|ms|d|[]]; cbn [worker_step n_bad] in E, Nb; try discriminate.
    - left. destruct (h_queue (s_shared s)); [auto|discriminate].
    - destruct (sy_proc S f); discriminate.
    - right. left. rewrite ?PO in E. destruct (h_lock (s_shared s)); [split; eauto|]. destruct (rfind _ _); [destruct (sy_merge _ _ _)|]; discriminate.
    - right. left. rewrite ?PO in E. destruct (h_lock (s_shared s)); [split; auto|]. destruct (h_results (s_shared s)) as [|[] [|]]; discriminate.
    - right. right. left. destruct ms as [|m ms]; [discriminate|]. exists m, ms. split; [reflexivity|]. destruct (full nj (s_shared s)); [reflexivity|discriminate].
    - auto. }
  destruct (h_lock (s_shared s)) eqn:EL.
  - (* someone has the lock *)
    cbn [b2n] in LK. assert (exists w, In w (s_workers s) /\ n_holder w = 1) as (w & Hw & Ho).
    { destruct (existsb (fun w => n_holder w =? 1)%nat (s_workers s)) eqn:X.
      - apply existsb_exists in X. destruct X as (w & A & B). exists w. split; [exact A|]. lia.
      - exfalso. enough (wsum n_holder (s_workers s) = 0) by lia. apply wsum_zero. intros w A. destruct (n_holder w =? 1)%nat eqn:Y.
        + assert (existsb (fun w => n_holder w =? 1)%nat (s_workers s) = true) by (apply existsb_exists; eauto). congruence.
        + destruct w; cbn in *; try reflexivity; discriminate. }
    destruct (CW w Hw) as [[-> _]|[[_ [->|(f & d & ->)]]|[(m & ms & -> & F)| ->]]]; try discriminate.
    assert (sent = true). { destruct sent; [reflexivity|]. destruct (i_unsent _ _ _ _ _ _ _ Inv eq_refl) as [_ U]. pose proof (wsum_pos n_sender _ _ Hw (le_n _)). lia. } subst sent.
    destruct (sent_all _ _ _ _ _ _ Inv) as (-> & A & B & C & D & E & _).
    right. left. exists m, ms. split; [|exact F]. destruct (Nat.eq_dec (length (s_workers s)) 1) as [L1|L1]; [now apply one_of|exfalso].
    destruct (other_worker _ _ Hw) as (a & x & b & Ea & Hx). { destruct (s_workers s); [easy|cbn in *; lia]. }
    assert (Hx' : In x (s_workers s)). { rewrite Ea. apply in_app_or in Hx. apply in_or_app. destruct Hx; [auto|right; now right]. }
    unfold full, capacity in F. assert (LQ : nj < length (h_queue (s_shared s))) by lia.
    destruct (CW x Hx') as [[-> Q]|[[_ [->|(f & d & ->)]]|[(m' & ms' & -> & _)| ->]]].
    + rewrite Q in LQ. cbn in LQ. lia.
    + rewrite Ea, wsum_app, wsum_cons in SE. cbn [n_sender] in SE. apply in_app_or in Hx. destruct Hx as [Hx|Hx]; pose proof (wsum_pos n_sender _ _ Hx (le_n _)); lia.
    + pose proof (wsum_pos (n_have (fun _ => true)) _ _ Hx' (le_n _)). lia.
    + rewrite Ea, wsum_app, wsum_cons in SE. cbn [n_sender] in SE. apply in_app_or in Hx. destruct Hx as [Hx|Hx]; pose proof (wsum_pos n_sender _ _ Hx (le_n _)); lia.
    + pose proof (wsum_pos n_ok _ _ Hx' (le_n _)) as O. specialize (LA O). unfold msgs in LA. rewrite forallb_app in LA. apply andb_true_iff in LA. destruct LA as [LA _].
      pose proof (all_stops _ LA). lia.
  - (* nobody has the lock *)
    cbn [b2n] in LK.
    assert (CW' : forall w, In w (s_workers s) -> (w = WIdle /\ h_queue (s_shared s) = []) \/ w = WExit XOk).
    { intros w Hw. destruct (CW w Hw) as [X|[[X _]|[(m & ms & -> & F)|X]]]; auto; [discriminate|]. pose proof (wsum_pos n_holder _ _ Hw (le_n _)). lia. }
    assert (ZG : wsum (n_get (fun _ => true)) (s_workers s) = 0) by (apply wsum_zero; intros w Hw; destruct (CW' w Hw) as [[-> _]| ->]; reflexivity).
    assert (ZH : wsum (n_have (fun _ => true)) (s_workers s) = 0) by (apply wsum_zero; intros w Hw; destruct (CW' w Hw) as [[-> _]| ->]; reflexivity).
    assert (ZP : wsum n_pend (s_workers s) = 0) by (apply wsum_zero; intros w Hw; destruct (CW' w Hw) as [[-> _]| ->]; reflexivity).
    assert (ZS : wsum (n_stop nj) (s_workers s) = 0) by (apply wsum_zero; intros w Hw; destruct (CW' w Hw) as [[-> _]| ->]; reflexivity).
    destruct (s_workers s) as [|w0 ws0] eqn:EW.
    + left. split; [reflexivity|]. destruct (s_main s) as [[|f fs]|k| |] eqn:EM; cbn [main_step] in BM.
      * discriminate.
      * split; [|eauto]. destruct (full nj (s_shared s)); [reflexivity|discriminate].
      * destruct k; discriminate.
      * destruct Bl as [NE _]. exfalso. apply NE. now left.
      * destruct Bl as [NE _]. exfalso. apply NE. now right.
    + rewrite <- EW in *. assert (N1 : 1 <= nj) by (rewrite <- LW, EW; cbn; lia).
      (* some worker is idle *)
      assert (ID : In WIdle (s_workers s)).
      { destruct (CW' w0) as [[-> _]| ->]; [rewrite EW; now left|rewrite EW; now left|].
        destruct (s_main s) as [[|f fs]|k| |] eqn:EM; cbn [main_step] in BM.
        - discriminate.
        - exfalso. assert (O : 1 <= wsum n_ok (s_workers s)) by (rewrite EW, wsum_cons; cbn; lia).
          destruct sent; [destruct (sent_all _ _ _ _ _ _ Inv) as (_ & A & _); rewrite EM in A; discriminate|lia].
        - destruct (nth_error (s_workers s) k) as [x|] eqn:N; [|discriminate]. pose proof (nth_error_In _ _ N) as X.
          destruct (CW' x X) as [[-> _]| ->]; [exact X|discriminate].
        - destruct Bl as [NE _]. exfalso. apply NE. now left.
        - destruct Bl as [NE _]. exfalso. apply NE. now right. }
      assert (Q : h_queue (s_shared s) = []) by (destruct (CW' _ ID) as [[_ Q]|Q]; [exact Q|discriminate]).
      assert (sent = false).
      { destruct sent; [|reflexivity]. exfalso. rewrite Q in ST. cbn [cnt filter length] in ST.
        assert (LO : wsum n_ok (s_workers s) < length (s_workers s)).
        { apply in_split in ID. destruct ID as (a & b & ->). rewrite wsum_app, wsum_cons, app_length. cbn [n_ok length].
          assert (G : forall l : list (WState I), wsum n_ok l <= length l) by (intros l; induction l as [|x l IH]; [cbn; lia|]; rewrite wsum_cons; cbn [length]; destruct x as [| | | | | | | | | |[]]; cbn [n_ok]; lia).
          pose proof (G a). pose proof (G b). lia. }
        lia. }
      subst sent. destruct (i_unsent _ _ _ _ _ _ _ Inv eq_refl) as [U _]. apply app_eq_nil in U. destruct U as [_ U]. apply app_eq_nil in U. destruct U as [_ U].
      assert (ZO : wsum n_ok (s_workers s) = 0) by lia.
      assert (AI : forall w, In w (s_workers s) -> w = WIdle).
      { intros w Hw. destruct (CW' w Hw) as [[-> _]| ->]; [reflexivity|]. pose proof (wsum_pos n_ok _ _ Hw (le_n _)). lia. }
      right. right.
      assert (EM : s_main s = MJoin 0).
      { destruct (s_main s) as [[|f fs]|k| |] eqn:EM; cbn [main_step] in BM.
        - discriminate.
        - exfalso. unfold full, capacity in BM. rewrite Q in BM. discriminate.
        - destruct k; [reflexivity|]. exfalso. unfold joined in JO. rewrite EM in JO. specialize (JO 0 ltac:(lia)). rewrite EW in JO. cbn in JO.
          rewrite (AI w0) in JO by (rewrite EW; now left). destruct JO; discriminate.
        - destruct Bl as [NE _]. exfalso. apply NE. now left.
        - destruct Bl as [NE _]. exfalso. apply NE. now right. }
      splits; auto; [|rewrite EW; discriminate]. rewrite CT, ZG, ZH, ZP, Q, EM. cbn. lia.
Qed.

(** ** A single worker *)
Lemma two_mods S (l : list I) : (forall k, cnt (keyed S k) l <= 1) -> 2 <= length l -> exists d1 d2, In d1 l /\ In d2 l /\ sy_key S d1 <> sy_key S d2.
Proof.
  destruct l as [|d1 [|d2 l]]; cbn [length]; try lia. intros H _. exists d1, d2. splits; [now left|right; now left|]. intros E.
  specialize (H (sy_key S d2)). rewrite !cnt_cons, (proj2 (keyed_iff S _ d1) E), (proj2 (keyed_iff S _ d2) eq_refl) in H. cbn in H. lia.
Qed.
Lemma kinds q : length q = cnt (g_msg (fun _ => true)) q + cnt is_stop q + length (q_mods q).
Proof. induction q as [|m q IH]; [reflexivity|]. rewrite !cnt_cons, q_mods_cons, app_length. cbn [length]. destruct m; cbn; lia. Qed.
Lemma merge_first S g d : key_kept S -> merge_in_order S g d -> exists f e, In f g /\ sy_proc S f = Ok e /\ sy_key S e = sy_key S d.
Proof.
  intros KK H. destruct H as [f d P|f d g prev m M P K E].
  - exists f, d. splits; [now left|exact P|reflexivity].
  - exists f, d. splits; [now left|exact P|]. symmetry. eapply KK; eauto.
Qed.
(** Every module there is comes from a file. *)
Lemma mods_files S nj files s mf d : key_kept S -> inv S nj files s mf 0 true -> In d (mods s) -> exists f e, In f files /\ sy_proc S f = Ok e /\ sy_key S e = sy_key S d.
Proof.
  intros KK Inv H. destruct (sent_all _ _ _ _ _ _ Inv) as (_ & A & B & C & D & _).
  pose proof (i_mods _ _ _ _ _ _ _ Inv eq_refl) as M. rewrite Forall_forall in M. destruct (M d H) as (g & G1 & G2).
  destruct (merge_first S g d KK G1) as (f & e & F1 & F2 & F3). exists f, e. splits; auto.
  pose proof (cnt_In (str_eqb f) f g F1 (proj2 (str_eqb_eq _ _) eq_refl)) as Q. rewrite G2, <- (none_left _ _ _ _ _ _ Inv A B C D) in Q.
  destruct (cnt_pos _ _ Q) as (y & Y & E). apply andb_true_iff in E. destruct E as [E _]. apply str_eqb_eq in E. now subst.
Qed.
Lemma stuck_single S jobs files s m ms : key_kept S -> works S files -> reach S (Nat.min jobs (length files)) (start jobs files) s ->
  s_workers s = [WSend (m :: ms)] -> full (Nat.min jobs (length files)) (s_shared s) = true -> two_groups S files.
Proof.
  intros KK W R EW F. destruct (reach_inv S jobs files s KK R) as (mf & nl & sent & Inv). pose proof (reach_good S jobs files s KK W R) as NB.
  pose proof (len_workers _ _ _ _ R) as LW. rewrite EW in LW. cbn in LW. set (nj := Nat.min jobs (length files)) in *.
  assert (sent = true). { destruct sent; [reflexivity|]. destruct (i_unsent _ _ _ _ _ _ _ Inv eq_refl) as [_ U]. rewrite EW in U. discriminate. } subst sent.
  destruct (sent_all _ _ _ _ _ _ Inv) as (-> & A & B & C & D & E & _).
  pose proof (i_stops _ _ _ _ _ _ _ Inv NB) as ST. pose proof (i_once _ _ _ _ _ _ _ Inv) as ON. pose proof (i_have _ _ _ _ _ _ _ Inv) as HA.
  rewrite EW in ST, HA. apply Forall_cons_iff in HA. destruct HA as [HA _].
  unfold full, capacity in F.
  assert (2 <= length (mods s)).
  { unfold mods. rewrite EW. cbn [flat_map w_mods]. rewrite app_nil_r, !app_length. pose proof (kinds (h_queue (s_shared s))). pose proof (kinds (m :: ms)) as K2.
    cbn [length] in K2. cbn [wsum map list_sum n_stop n_ok fold_right] in ST. lia. }
  destruct (two_mods S _ ON H) as (d1 & d2 & I1 & I2 & NE).
  destruct (mods_files S nj files s mf d1 KK Inv I1) as (f1 & e1 & A1 & A2 & A3). destruct (mods_files S nj files s mf d2 KK Inv I2) as (f2 & e2 & B1 & B2 & B3).
  exists f1, e1, f2, e2. splits; auto. congruence.
Qed.

(** ** Runs without the race *)
Lemma calm_reach S nj s0 s : calm S nj s0 s -> reach S nj s0 s.
Proof. induction 1; [constructor|econstructor; eauto]. Qed.
Lemma calm_now S nj s0 s : calm S nj s0 s -> ~ racing s.
Proof. destruct 1; auto. Qed.
Lemma nth_two ws i j (x : WState I) : i <> j -> nth_error ws i = Some x -> nth_error ws j = Some x -> exists a b c, ws = a ++ x :: b ++ x :: c.
Proof.
  intros N A B.
  assert (G : forall i j, i < j -> nth_error ws i = Some x -> nth_error ws j = Some x -> exists a b c, ws = a ++ x :: b ++ x :: c).
  { clear. intros i j L A B. destruct (nth_error_split _ _ A) as (a & t & -> & La). rewrite nth_error_app2 in B by lia.
    destruct (j - length a) as [|k] eqn:E; [lia|]. cbn in B. destruct (nth_error_split _ _ B) as (b & c & -> & _). eauto. }
  destruct (Nat.lt_trichotomy i j) as [L|[L|L]]; [eauto|contradiction|eauto].
Qed.
Lemma calm_counter S jobs files s : key_kept S -> files <> [] -> calm S (Nat.min jobs (length files)) (start jobs files) s ->
  (1 <= h_counter (s_shared s))%N /\ (In WDec (s_workers s) -> (2 <= h_counter (s_shared s))%N).
Proof.
  intros KK NE H. induction H as [_|s s' Ca IH H NR].
  - cbn [start s_shared s_workers h_counter]. split; [unfold lenN; destruct files; [contradiction|cbn; lia]|]. intros X. apply repeat_spec in X. discriminate.
  - destruct (reach_inv S jobs files s KK (calm_reach _ _ _ _ Ca)) as (mf & nl & sent & Inv). pose proof (i_counter _ _ _ _ _ _ _ Inv) as CT. destruct IH as [I1 I2].
    destruct (step_cases _ _ _ _ H) as [(h & m & E & -> & _)|(c & a & w & b & h & w' & L & Ew & E & -> & NEd)]; cbn [s_main s_workers s_shared].
    + assert (X : h_counter h = h_counter (s_shared s)); [|rewrite X; auto].
      destruct (s_main s) as [[|f fs]|k| |]; cbn [main_step] in E; try discriminate.
      * injection E as <- <-. reflexivity.
      * destruct (full _ _); [discriminate|]. injection E as <- <-. reflexivity.
      * destruct (nth_error (s_workers s) k) as [[| | | | | | | | | |[]]|]; try discriminate; injection E as <- <-; reflexivity.
    + rewrite Ew in *.
      assert (Y : (w <> WDec /\ h_counter h = h_counter (s_shared s) /\ (w' = WDec -> w = WCheck /\ h_counter (s_shared s) <> 1%N)) \/ (w = WDec /\ w' = WIdle /\ h = set_counter (s_shared s) (h_counter (s_shared s) - 1)%N)).
      { clear - E I1. destruct s as [[q cn rs lk po lg] ws m0]. cbn [s_main s_workers s_shared h_queue h_results h_poisoned h_counter] in *.
        destruct w as [|f|f d|[|n]| | | |d|ms|d|x]; cbn [worker_step h_queue h_counter h_results h_lock h_poisoned h_log] in E; try discriminate E;
          repeat match type of E with Some (_, _) = _ => fail 1 | context [match ?x with _ => _ end] => destruct x eqn:?; try discriminate end;
          injection E as <- <-; first [left; splits; [discriminate|reflexivity|intros Q; first [discriminate Q|destruct (cn =? 1)%N eqn:?; [discriminate Q|split; [reflexivity|lia]]|repeat match type of Q with context [match ?x with _ => _ end] => destruct x end; discriminate Q]]
            |right; splits; [reflexivity|reflexivity|destruct (cn =? 0)%N eqn:?; [lia|reflexivity]]|right; splits; [reflexivity|reflexivity|first [reflexivity|lia]]]. }
      destruct Y as [(N & Hc & Hw)|(-> & -> & ->)].
      * rewrite Hc. split; [exact I1|]. intros X. apply in_app_or in X.
        assert (D : In WDec (a ++ w :: b) \/ w' = WDec). { destruct X as [X|[X|X]]; [left; apply in_or_app; auto|auto|left; apply in_or_app; right; now right]. }
        destruct D as [D|D]; [auto|]. destruct (Hw D) as [_ Q]. lia.
      * cbn [set_counter h_counter]. pose proof (I2 (swap_In_old _ _ _)) as C2. split; [lia|]. intros X.
        destruct (N.eq_dec (h_counter (s_shared s)) 2) as [E2|E2]; [|lia]. exfalso. apply (calm_now _ _ _ _ Ca). split; [exact E2|]. rewrite Ew.
        apply in_app_or in X. destruct X as [X|[X|X]]; [|discriminate|].
        -- apply in_split in X. destruct X as (a1 & a2 & ->). exists (length a1), (length (a1 ++ WDec :: a2)). splits.
           ++ rewrite app_length. cbn. lia.
           ++ rewrite <- app_assoc, nth_error_app2, Nat.sub_diag by lia. reflexivity.
           ++ rewrite nth_error_app2, Nat.sub_diag by lia. reflexivity.
        -- apply in_split in X. destruct X as (b1 & b2 & ->). exists (length a), (length (a ++ WDec :: b1)). splits.
           ++ rewrite app_length. cbn. lia.
           ++ rewrite nth_error_app2, Nat.sub_diag by lia. reflexivity.
           ++ change (a ++ WDec :: b1 ++ WDec :: b2) with (a ++ (WDec :: b1) ++ WDec :: b2). rewrite app_assoc, nth_error_app2, Nat.sub_diag by lia. reflexivity.
Qed.

(** A run that ended well has stored everything. *)
Lemma complete_ok S jobs files s : key_kept S -> works S files -> reach S (Nat.min jobs (length files)) (start jobs files) s -> ended s ->
  complete s /\ exits_ok s.
Proof.
  intros KK W R EN. pose proof (reach_good S jobs files s KK W R) as NB. pose proof (reach_joined _ _ _ _ R) as JO. unfold joined, complete in *.
  rewrite wsum_zero in NB. destruct EN as [E|E]; rewrite E in *.
  - split; [reflexivity|]. intros w Hw. apply In_nth_error in Hw as Hn. destruct Hn as [i Hi].
    destruct (JO i) as [G|G]; [apply nth_error_Some; congruence|congruence|]. rewrite G in Hi. injection Hi as <-. specialize (NB _ Hw). discriminate.
  - exfalso. specialize (NB _ JO). discriminate.
Qed.
Lemma calm_not_blocked S jobs files s : key_kept S -> works S files -> files <> [] -> 1 <= jobs -> (2 <= Nat.min jobs (length files) \/ ~ two_groups S files) ->
  calm S (Nat.min jobs (length files)) (start jobs files) s -> ~ blocked S (Nat.min jobs (length files)) s.
Proof.
  intros KK W NE J1 J Ca Bl. pose proof (calm_reach _ _ _ _ Ca) as R. pose proof (len_workers _ _ _ _ R) as LW.
  destruct (blocked_causes S jobs files s KK W R Bl) as [(X & _)|[(m & ms & X & F)|(X & _)]].
  - rewrite X in LW. cbn in LW. destruct files; [contradiction|cbn in LW; lia].
  - rewrite X in LW. cbn in LW. destruct J as [J|J]; [lia|]. apply J. eapply stuck_single; eauto.
  - pose proof (calm_counter S jobs files s KK NE Ca) as [C _]. lia.
Qed.

(** ** The race *)
Definition n_dec w : nat := match w with WDec => 1 | _ => 0 end.
Definition n_chk w : nat := match w with WCheck => 1 | _ => 0 end.
Definition dead s : Prop :=
  h_queue (s_shared s) = [] /\ m_files (s_main s) = [] /\ h_log (s_shared s) = [] /\ (forall w, In w (s_workers s) -> w = WIdle \/ w = WDec) /\
  h_counter (s_shared s) = N.of_nat (wsum n_dec (s_workers s)) /\ s_workers s <> [] /\ joined s /\ s_main s <> MPanic.
Lemma pend_split ws : wsum n_pend ws = wsum n_dec ws + wsum n_chk ws.
Proof. induction ws as [|w ws IH]; [reflexivity|]. rewrite !wsum_cons, IH. destruct w; cbn; lia. Qed.
Lemma racing_dead S jobs files s : key_kept S -> works S files -> reach S (Nat.min jobs (length files)) (start jobs files) s -> racing s -> dead s.
Proof.
  intros KK W R [C2 (i & j & N & A & B)]. destruct (reach_inv S jobs files s KK R) as (mf & nl & sent & Inv). pose proof (reach_good S jobs files s KK W R) as NB.
  pose proof (i_counter _ _ _ _ _ _ _ Inv) as CT. rewrite pend_split in CT.
  assert (ND : 2 <= wsum n_dec (s_workers s)). { destruct (nth_two _ _ _ _ N A B) as (a & b & c & ->). rewrite !wsum_app, !wsum_cons, wsum_app, wsum_cons. cbn [n_dec]. lia. }
  assert (sent = false) by (destruct sent; [cbn [b2n] in CT; lia|reflexivity]). subst sent. cbn [b2n] in CT.
  destruct (i_unsent _ _ _ _ _ _ _ Inv eq_refl) as [U U2]. apply app_eq_nil in U. destruct U as [U3 U]. apply app_eq_nil in U. destruct U as [U4 U5].
  pose proof (i_stops _ _ _ _ _ _ _ Inv NB) as ST. cbv iota in ST. pose proof (reach_joined _ _ _ _ R) as JO.
  unfold dead. splits.
  - apply length_zero_iff_nil. rewrite kinds, U4. cbn [length]. lia.
  - apply length_zero_iff_nil. lia.
  - unfold stored in U5. now apply map_eq_nil in U5.
  - intros w Hw.
    assert (G1 : wsum (n_get (fun _ => true)) (s_workers s) = 0) by lia. assert (G2 : wsum (n_have (fun _ => true)) (s_workers s) = 0) by lia.
    assert (G3 : wsum n_chk (s_workers s) = 0) by lia. assert (G4 : wsum n_ok (s_workers s) = 0) by lia.
    rewrite wsum_zero in G1, G2, G3, G4, NB, U2. specialize (G1 w Hw). specialize (G2 w Hw). specialize (G3 w Hw). specialize (G4 w Hw). specialize (NB w Hw). specialize (U2 w Hw).
    destruct w as [| | | | | | | | |d|[]]; try discriminate; auto. exfalso.
    apply in_split in Hw. destruct Hw as (a & b & Ew). rewrite Ew, flat_map_app in U3. apply app_eq_nil in U3. destruct U3 as [_ U3]. discriminate.
  - lia.
  - intros X. rewrite X in A. destruct i; discriminate.
  - exact JO.
  - intros X. unfold joined in JO. rewrite X in JO. rewrite wsum_zero in NB. specialize (NB _ JO). discriminate.
Qed.
Lemma dead_step S nj s s' : dead s -> step S nj s s' -> dead s'.
Proof.
  intros (A & B & C & D & E & F & G & K) H.
  assert (JJ : joined s'). (* as in reach_joined *)
  { destruct (step_cases _ _ _ _ H) as [(h & m & X & -> & _)|(c & a & w & b & h & w' & L & Ew & X & -> & NEd)]; unfold joined in *; cbn [s_main s_workers s_shared].
    - destruct (s_main s) as [[|f fs]|k| |]; cbn [main_step m_files] in X, B; try discriminate.
      + injection X as <- <-. intros i Hi. lia.
      + destruct (nth_error (s_workers s) k) as [x|] eqn:N.
        * destruct (D x (nth_error_In _ _ N)) as [->| ->]; discriminate.
        * injection X as <- <-. intros i Hi. apply G. apply nth_error_None in N. lia.
    - assert (W0 : w = WIdle \/ w = WDec) by (apply D; rewrite Ew; apply swap_In_old). rewrite Ew in G.
      assert (GG : forall i, gone (nth_error (a ++ w :: b) i) -> gone (nth_error (a ++ w' :: b) i)).
      { intros i Q. destruct (nth_swap a w b w' i) as [->|[Y _]]; [exact Q|]. rewrite Y in Q. destruct Q as [Q|Q]; injection Q as ->; destruct W0; discriminate. }
      destruct (s_main s); auto.
      + intros i Hi. apply GG, G. rewrite app_length in *. exact Hi.
      + exfalso. now apply K. }
  destruct (step_cases _ _ _ _ H) as [(h & m & X & -> & NEd)|(c & a & w & b & h & w' & L & Ew & X & -> & NEd)]; unfold dead; cbn [s_main s_workers s_shared].
  - destruct (s_main s) as [[|f fs]|k| |]; cbn [main_step m_files] in X, B; try discriminate.
    + injection X as <- <-. cbn [m_files]. splits; auto. discriminate.
    + destruct (nth_error (s_workers s) k) as [x|] eqn:N.
      * destruct (D x (nth_error_In _ _ N)) as [->| ->]; discriminate.
      * injection X as <- <-. cbn [m_files]. splits; auto. discriminate.
  - assert (W0 : w = WIdle \/ w = WDec) by (apply D; rewrite Ew; apply swap_In_old). destruct W0 as [->| ->]; cbn [worker_step] in X.
    + rewrite A in X. discriminate.
    + injection X as <- <-. cbn [set_counter h_queue h_log h_counter]. splits; auto.
      * apply (swap_In (fun w => w = WIdle \/ w = WDec) a WDec b WIdle); [|auto]. rewrite <- Ew. exact D.
      * rewrite E, Ew, !wsum_app, !wsum_cons. cbn [n_dec]. clear. match goal with |- context [(?x =? 0)%N] => rewrite (proj2 (N.eqb_neq x 0)) by lia end. lia.
      * destruct a; discriminate.
Qed.
Lemma dead_forever S nj s s' : dead s -> reach S nj s s' -> dead s'.
Proof. intros D H. induction H as [|s1 s2 _ IH St]; [exact D|]. eapply dead_step; eauto. Qed.
Lemma dead_not_ended s : dead s -> ~ ended s /\ stored s = [].
Proof.
  intros (A & B & C & D & E & F & G & K). split; [|unfold stored; now rewrite C]. intros [X|X]; [|now apply K].
  unfold joined in G. rewrite X in G. destruct (s_workers s) as [|w ws]; [now apply F|]. specialize (G 0 ltac:(cbn; lia)). cbn in G.
  destruct (D w (or_introl eq_refl)) as [->| ->]; destruct G; discriminate.
Qed.
End R.
