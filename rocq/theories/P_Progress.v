(** Runs end: at some point nothing can be done, and if all goes well there is a
    schedule for which everything is stored. *)
From Verif Require Import Base Str M_Object M_Fs M_Store M_Input M_Sched M_Many M_Shared S_Sched S_Many S_Shared P_Sched P_Run P_Ends P_Shared.
Open Scope nat_scope.

Section Threads.
Context {I : Type}.
Implicit Types (S : Sys I) (s : St I).
Lemma one_dec_calm s : wsum n_dec (s_workers s) <= 1 -> ~ racing s.
Proof.
  intros L (_ & i & j & N & A & B). destruct (nth_two _ _ _ _ N A B) as (a & b & c & E). rewrite E, wsum_app, wsum_cons, wsum_app, wsum_cons in L. cbn [n_dec] in L. lia.
Qed.
Lemma n_dec_le (w : WState I) : n_dec w <= 1.
Proof. destruct w; cbn; lia. Qed.
(** A step changes one worker at most. *)
Lemma step_dec S nj s s' : step S nj s s' -> wsum n_dec (s_workers s) = 0 -> wsum n_dec (s_workers s') <= 1.
Proof.
  intros H Z. destruct (step_cases _ _ _ _ H) as [(h & m & X & -> & _)|(c & a & w & b & h & w' & L & Ew & X & -> & _)]; cbn [s_workers]; [lia|].
  rewrite Ew, wsum_app, wsum_cons in Z. rewrite wsum_app, wsum_cons. pose proof (n_dec_le w'). lia.
Qed.
Lemma dec_found (ws : list (WState I)) : wsum n_dec ws <> 0 -> exists i, nth_error ws i = Some WDec.
Proof.
  induction ws as [|w ws IH]; [easy|]. rewrite wsum_cons. intros H. destruct (Nat.eq_dec (n_dec w) 0) as [Z|Z].
  - destruct IH as (i & E); [lia|]. now exists (Datatypes.S i).
  - exists 0. destruct w; try easy.
Qed.
Lemma set_nth_dec (ws : list (WState I)) : forall i w', nth_error ws i = Some WDec -> n_dec w' = 0 -> wsum n_dec (set_nth ws i w') + 1 = wsum n_dec ws.
Proof.
  induction ws as [|x ws IH]; intros [|i] w' E Z; try discriminate; cbn [set_nth nth_error] in *; rewrite !wsum_cons.
  - injection E as ->. cbn [n_dec]. lia.
  - specialize (IH i w' E Z). lia.
Qed.
Lemma dec_step S nj c s i : nth_error (s_workers s) i = Some WDec -> ~ ended s ->
  exists s', thread_step S nj c (Worker i) s = Some s' /\ wsum n_dec (s_workers s') + 1 = wsum n_dec (s_workers s).
Proof.
  intros E N. unfold thread_step. rewrite E. cbn [worker_step]. destruct (s_main s) as [l|j| |] eqn:M;
    [| |exfalso; apply N; left; exact M|exfalso; apply N; right; exact M]; (eexists; split; [reflexivity|]; cbn [s_workers]; now apply set_nth_dec).
Qed.
(** Some schedule completes the run. *)
Lemma can_complete S jobs files : key_kept S -> works S files -> files <> [] -> 1 <= jobs ->
  2 <= Nat.min jobs (length files) \/ ~ two_groups S files ->
  exists s, calm S (Nat.min jobs (length files)) (start jobs files) s /\ complete s /\ exits_ok s.
Proof.
  intros KK W NE J1 J. set (nj := Nat.min jobs (length files)) in *.
  assert (X : forall n s, weight nj s <= n -> calm S nj (start jobs files) s -> wsum n_dec (s_workers s) <= 1 -> exists s', calm S nj (start jobs files) s' /\ complete s' /\ exits_ok s').
  { induction n as [|n IH]; intros s Hn Ca D.
    - destruct (calm_completes S jobs files s KK W NE J1 J Ca) as [(s' & H)|C]; [|eauto]. pose proof (step_weight nj S _ _ H). lia.
    - destruct (calm_completes S jobs files s KK W NE J1 J Ca) as [(s1 & H1)|C]; [|eauto].
      assert (Q : exists s', step S nj s s' /\ wsum n_dec (s_workers s') <= 1).
      { destruct (Nat.eq_dec (wsum n_dec (s_workers s)) 0) as [Z|Z]; [exists s1; split; [exact H1|eapply step_dec; eauto]|].
        destruct (dec_found _ Z) as (i & Ei). assert (NEd : ~ ended s). { intros [X|X]; destruct H1 as (c & t & _ & H1); unfold thread_step in H1; rewrite X in H1; discriminate. }
        destruct (dec_step S nj some_choice s i Ei NEd) as (s' & E & L). exists s'. split; [|lia]. exists some_choice, (Worker i). split; [eapply some_legal; eauto|exact E]. }
      destruct Q as (s' & H & L). pose proof (step_weight nj S _ _ H). apply (IH s'); [lia| |exact L]. eapply calm_step; [exact Ca|exact H|]. now apply one_dec_calm. }
  apply (X (weight nj (@start I jobs files)) (start jobs files)); [lia| |].
  - constructor. apply one_dec_calm. cbn [start s_workers]. rewrite wsum_repeat. cbn [n_dec]. lia.
  - cbn [start s_workers]. rewrite wsum_repeat. cbn [n_dec]. lia.
Qed.
End Threads.

(** ** Workers that share the file system *)
Section Shared.
Variables (u : Setup) (nj : nat).
Definition may_follow (k' k : Work) : Prop := exists drain t, (forall l, Permutation (drain l) (map snd l)) /\ work_step u nj drain t k = Some k'.
(** What a worker that is storing still has to do. *)
Definition left_to (k : Work) (i : nat) : nat :=
  match nth_error (s_workers (k_threads k)) i with
  | Some (WOnly d) | Some (WDump d) => match k_busy k i with None => 2 + length (fst (u_plan u d)) | Some (acts, _) => 1 + length acts end
  | _ => 0
  end.
Definition cost (k : Work) : nat := list_sum (map (left_to k) (seq 0 (length (s_workers (k_threads k))))).
Lemma sum_less (f g : nat -> nat) i l : In i l -> NoDup l -> f i < g i -> (forall j, j <> i -> f j = g j) -> list_sum (map f l) < list_sum (map g l).
Proof.
  induction l as [|x l IH]; intros Hi ND L E; [easy|]. inversion ND as [|? ? Nx ND']; subst. cbn [map]. change (list_sum (?a :: ?b)) with (a + list_sum b).
  destruct Hi as [->|Hi].
  - assert (map f l = map g l) as ->; [|lia]. apply map_ext_in. intros j Hj. apply E. intros ->. contradiction.
  - rewrite (E x); [specialize (IH Hi ND' L E); lia|]. intros ->. contradiction.
Qed.
Lemma left_flying k i d : flying (k_threads k) i d -> left_to k i = match k_busy k i with None => 2 + length (fst (u_plan u d)) | Some (acts, _) => 1 + length acts end.
Proof. unfold left_to, flying. intros [->| ->]; reflexivity. Qed.
Lemma cost_less k w' b i d : flying (k_threads k) i d -> (forall j, j <> i -> b j = k_busy k j) ->
  match b i with None => 2 + length (fst (u_plan u d)) | Some (acts, _) => 1 + length acts end < left_to k i -> cost (mkWork w' (k_threads k) b) < cost k.
Proof.
  intros F B L. unfold cost. cbn [k_threads]. apply sum_less with i; [|apply seq_NoDup| |].
  - apply in_seq. split; [lia|]. assert (nth_error (s_workers (k_threads k)) i <> None) by (destruct F as [F|F]; rewrite F; discriminate). apply nth_error_Some in H. lia.
  - rewrite (left_flying (mkWork w' (k_threads k) b) i d F). exact L.
  - intros j Nj. unfold left_to. cbn [k_threads k_busy]. now rewrite (B j Nj).
Qed.
End Shared.

Lemma follow_less u jobs (files : list str) k k' : let nj := Nat.min jobs (length files) in may_follow u nj k' k ->
  weight nj (k_threads k') < weight nj (k_threads k) \/ (k_threads k' = k_threads k /\ cost u k' < cost u k).
Proof.
  cbv zeta. intros (drain & t & P & H). apply work_moved with (files := files) (jobs := jobs) in H; [|exact P]. clear P drain t. set (nj := Nat.min jobs (length files)) in *.
  assert (K : forall drain r t s', (forall l, Permutation (drain l) (map snd l)) -> thread_step (u_sys u (w_fs (k_world k))) nj (answer drain r) t (k_threads k) = Some s' -> weight nj s' < weight nj (k_threads k)).
  { intros drain r t s' P E. apply (step_weight nj (u_sys u (w_fs (k_world k)))). exists (answer drain r), t. split; [split; [exact P|intros; exact I]|exact E]. }
  destruct H as [drain t s' P NF NG H|drain i f s' P En H|i d F Eb|i d a rest r w' q F Eb Ea|drain i d r s' P F Eb H]; cbn [k_threads].
  - left. eapply K; eauto.
  - left. eapply K; eauto.
  - right. split; [reflexivity|]. apply (cost_less u k (k_world k) _ i d F).
    + intros j Nj. unfold set_busy. apply Nat.eqb_neq in Nj. now rewrite Nj.
    + rewrite (left_flying u k i d F), Eb. unfold set_busy. rewrite Nat.eqb_refl. destruct (u_plan u d) as [acts r]. cbn [fst]. lia.
  - right. split; [reflexivity|]. apply (cost_less u k w' _ i d F).
    + intros j Nj. unfold set_busy. apply Nat.eqb_neq in Nj. now rewrite Nj.
    + rewrite (left_flying u k i d F), Eb. unfold set_busy. rewrite Nat.eqb_refl. destruct q; cbn [length]; lia.
  - left. eapply K; eauto.
Qed.
(** There is no run without end. *)
Lemma follow_wf u jobs (files : list str) k : Acc (may_follow u (Nat.min jobs (length files))) k.
Proof.
  set (nj := Nat.min jobs (length files)).
  assert (X : forall n m k, weight nj (k_threads k) <= n -> cost u k <= m -> Acc (may_follow u nj) k).
  { induction n as [n IHn] using lt_wf_ind. induction m as [m IHm] using lt_wf_ind. intros k0 Hn Hm. constructor. intros k' H.
    destruct (follow_less u jobs files k0 k' H) as [L|(E & L)].
    - apply (IHn (weight nj (k_threads k'))) with (m := cost u k'); fold nj in L; lia.
    - apply (IHm (cost u k')); [lia|rewrite E; exact Hn|lia]. }
  eapply X; eauto.
Qed.
(** If a thread can do something when the file system does not change, then it can. *)
Lemma can_follow u nj k c t s' : (forall l, Permutation (ch_drain c l) (map snd l)) -> thread_step (u_sys u (w_fs (k_world k))) nj c t (k_threads k) = Some s' ->
  exists k', work_step u nj (ch_drain c) t k = Some k' /\ (k_threads k' = k_threads k \/ exists r s'', thread_step (u_sys u (w_fs (k_world k))) nj (answer (ch_drain c) r) t (k_threads k) = Some s'' /\ k_threads k' = s'').
Proof.
  intros P H. unfold work_step. destruct t as [|i].
  - assert (E : thread_step (u_sys u (w_fs (k_world k))) nj (answer (ch_drain c) (Ok tt)) Main (k_threads k) = Some s') by exact H. rewrite E. eexists. split; [reflexivity|]. right. eauto.
  - unfold thread_step in H. destruct (nth_error (s_workers (k_threads k)) i) as [w|] eqn:En; [|destruct (s_main (k_threads k)); discriminate].
    assert (NE : ~ ended (k_threads k)) by (intros [X|X]; rewrite X in H; discriminate).
    assert (Q : forall r, (forall d, w <> WOnly d) -> (forall d, w <> WDump d) -> exists s'', thread_step (u_sys u (w_fs (k_world k))) nj (answer (ch_drain c) r) (Worker i) (k_threads k) = Some s'').
    { intros r N1 N2. unfold thread_step. rewrite En.
      assert (E : worker_step (u_sys u (w_fs (k_world k))) nj (answer (ch_drain c) r) (s_shared (k_threads k)) w = worker_step (u_sys u (w_fs (k_world k))) nj c (s_shared (k_threads k)) w).
      { destruct w; try reflexivity; [now elim (N1 d)|now elim (N2 d)]. }
      rewrite E. destruct (s_main (k_threads k)); try discriminate; (destruct (worker_step _ _ c _ w) as [[h w']|]; [eauto|discriminate]). }
    assert (Q2 : forall r d, w = WOnly d \/ w = WDump d -> exists s'', thread_step (u_sys u (w_fs (k_world k))) nj (answer (ch_drain c) r) (Worker i) (k_threads k) = Some s'').
    { intros r d Hd. unfold thread_step. rewrite En. destruct (s_main (k_threads k)) eqn:M; [| |elim NE; left; exact M|elim NE; right; exact M];
        (destruct Hd as [->| ->]; cbn [worker_step]; [destruct r|]; cbn [answer ch_store]; eauto). }
    assert (D : forall d, w = WOnly d \/ w = WDump d -> exists k',
        match s_main (k_threads k) with MDone | MPanic => None | _ =>
          match k_busy k i with None => Some (mkWork (k_world k) (k_threads k) (set_busy (k_busy k) i (Some (u_plan u d))))
          | Some (a :: rest, r) => let '(w', q) := act_step (u_os u) (k_world k) a in Some (mkWork w' (k_threads k) (set_busy (k_busy k) i (Some (match q with Ok _ => (rest, r) | _ => ([], q) end))))
          | Some ([], r) => match thread_step (u_sys u (w_fs (k_world k))) nj (answer (ch_drain c) r) (Worker i) (k_threads k) with Some s' => Some (mkWork (k_world k) s' (set_busy (k_busy k) i None)) | None => None end end end = Some k' /\
        (k_threads k' = k_threads k \/ exists r s'', thread_step (u_sys u (w_fs (k_world k))) nj (answer (ch_drain c) r) (Worker i) (k_threads k) = Some s'' /\ k_threads k' = s'')).
    { intros d Hd. assert (M : forall A (x : option A), match s_main (k_threads k) with MDone | MPanic => None | _ => x end = x).
      { intros A x. destruct (s_main (k_threads k)) eqn:M; [reflexivity|reflexivity|elim NE; left; exact M|elim NE; right; exact M]. }
      rewrite M. destruct (k_busy k i) as [[[|a rest] r]|].
      - destruct (Q2 r d Hd) as (s'' & E). rewrite E. eexists. split; [reflexivity|]. right. eauto.
      - destruct (act_step _ _ a) as [w' q]. eexists. split; [reflexivity|]. now left.
      - eexists. split; [reflexivity|]. now left. }
    destruct w; try (apply (D _ (or_introl eq_refl))); try (apply (D _ (or_intror eq_refl)));
      (destruct (Q (Ok tt)) as (s'' & E); [discriminate|discriminate|]; rewrite E; eexists; split; [reflexivity|]; right; eauto).
Qed.

Section Answers.
Variables (u : Setup) (jobs : nat) (files : list str) (fs0 : FS) (R : FS -> Prop) (w : World).
Hypothesis ST : steady u files fs0 R.
Hypothesis FS0 : w_fs w = fs0.
Let nj := Nat.min jobs (length files).
Let sys (T : res unit -> Prop) : Sys Obj := several_sys (u_ext u) (u_env u) (u_iter u) (u_map u) (u_arch u) (u_inl u) fs0 (fun _ r => T r).
(** Nothing can be done: then no thread can do anything when the file system does not change. *)
Lemma stuck_blocked (T : res unit -> Prop) k : worked u nj (work_start w jobs files) k -> (forall k', ~ may_follow u nj k' k) -> ~ ended (k_threads k) -> blocked (sys T) nj (k_threads k).
Proof.
  intros W N NE. split; [exact NE|]. intros s' (c & t & (P & _) & H). pose proof (worked_basic u jobs files fs0 R ST w k FS0 W) as B.
  assert (E : thread_step (u_sys u (w_fs (k_world k))) nj c t (k_threads k) = Some s').
  { rewrite <- H. apply step_same; [reflexivity..|]. intros i f -> Ei. destruct ST as (_ & ST2).
    pose proof (get_unbegun u jobs files fs0 _ _ _ _ (b_reach _ _ _ _ _ _ B) Ei) as NB. pose proof (reach_given _ _ _ _ _ (b_reach _ _ _ _ _ _ B)) as (_ & _ & G & _).
    destruct (ST2 (w_fs (k_world k)) f) as (_ & X); [now apply (b_fs _ _ _ _ _ _ B)|apply G; eapply nth_error_In; eauto|exact X]. }
  destruct (can_follow u nj k c t s' P E) as (k' & Wk & _). apply (N k'). exists (ch_drain c), t. auto.
Qed.
(** Storing works whenever it is done. *)
Hypothesis ANS : forall k, worked u nj (work_start w jobs files) k -> forall d r, In (d, r) (h_log (s_shared (k_threads k))) -> r = Ok tt.
Let ok : Sys Obj := sys (fun r => r = Ok tt).
Lemma follow_step k k' : worked u nj (work_start w jobs files) k -> may_follow u nj k' k -> k_threads k' = k_threads k \/ step ok nj (k_threads k) (k_threads k').
Proof.
  intros W F. pose proof (worked_basic u jobs files fs0 R ST w k FS0 W) as B. assert (W' : worked u nj (work_start w jobs files) k') by (destruct F as (drain & t & P & H); eapply worked_step; eauto).
  pose proof (ANS k' W') as L. destruct F as (drain & t & P & H). apply work_moved with (files := files) (jobs := jobs) in H; [|exact P]. clear P drain t.
  destruct H as [drain t s' P NF NG H|drain i f s' P En H|i d F Eb|i d a rest r w' q F Eb Ea|drain i d r s' P F Eb H]; cbn [k_threads k_world k_busy] in *; auto; right.
  - eapply step_sys'; [..|exact H]; auto.
  - pose proof (get_unbegun _ _ _ _ _ _ _ _ (b_reach _ _ _ _ _ _ B) En) as NB.
    eapply step_sys; [exact ST|..|exact H]; auto; [eapply reach_given; apply B|now apply B].
  - destruct (thread_finish _ _ _ _ _ _ _ H F) as (L' & _). rewrite L' in L. eapply step_sys'; [..|exact H]; auto.
    + cbn. intros _. apply (L d). apply in_or_app. right. now left.
    + intros j f [= <-]. eapply flying_get; eauto.
Qed.
Hypothesis WORKS : works ok files.
Hypothesis NE : files <> [].
Hypothesis J1 : 1 <= jobs.
Hypothesis J : 2 <= nj \/ ~ two_groups ok files.
Lemma can_end : exists k, worked u nj (work_start w jobs files) k /\ complete (k_threads k) /\ exits_ok (k_threads k).
Proof.
  assert (KK : key_kept ok) by apply P_Several.dump_kept.
  assert (X : forall k, worked u nj (work_start w jobs files) k -> calm ok nj (start jobs files) (k_threads k) -> wsum n_dec (s_workers (k_threads k)) <= 1 ->
    exists k', worked u nj (work_start w jobs files) k' /\ complete (k_threads k') /\ exits_ok (k_threads k')).
  { intros k. pose proof (follow_wf u jobs files k) as A. fold nj in A. induction A as [k Ak IH]. intros W Ca D.
    destruct (calm_completes ok jobs files (k_threads k) KK WORKS NE J1 J Ca) as [(s1 & H1)|C]; [|eauto].
    assert (Q : exists k', may_follow u nj k' k /\ wsum n_dec (s_workers (k_threads k')) <= 1).
    { destruct (Nat.eq_dec (wsum n_dec (s_workers (k_threads k))) 0) as [Z|Z].
      - assert (NB : exists k', may_follow u nj k' k).
        { destruct H1 as (c & t & (P & _) & H1). pose proof (worked_basic u jobs files fs0 R ST w k FS0 W) as B.
          assert (E : thread_step (u_sys u (w_fs (k_world k))) nj c t (k_threads k) = Some s1).
          { rewrite <- H1. apply step_same; [reflexivity..|]. intros i f -> Ei. destruct ST as (_ & ST2).
            pose proof (get_unbegun u jobs files fs0 _ _ _ _ (b_reach _ _ _ _ _ _ B) Ei) as NB. pose proof (reach_given _ _ _ _ _ (b_reach _ _ _ _ _ _ B)) as (_ & _ & G & _).
            destruct (ST2 (w_fs (k_world k)) f) as (_ & X); [now apply (b_fs _ _ _ _ _ _ B)|apply G; eapply nth_error_In; eauto|exact X]. }
          destruct (can_follow u nj k c t s1 P E) as (k' & Wk & _). exists k', (ch_drain c), t. auto. }
        destruct NB as (k' & F). exists k'. split; [exact F|]. destruct (follow_step k k' W F) as [E|H]; [rewrite E; lia|]. eapply step_dec; eauto.
      - destruct (dec_found _ Z) as (i & Ei). assert (NEd : ~ ended (k_threads k)). { intros [Y|Y]; destruct H1 as (c & t & _ & H1); unfold thread_step in H1; rewrite Y in H1; discriminate. }
        destruct (dec_step (u_sys u (w_fs (k_world k))) nj (answer (map snd) (Ok tt)) (k_threads k) i Ei NEd) as (s' & E & L).
        exists (mkWork (k_world k) s' (k_busy k)). split; [|cbn [k_threads]; lia]. exists (map snd), (Worker i). split; [reflexivity|]. unfold work_step. rewrite Ei, E. reflexivity. }
    destruct Q as (k' & F & L). apply (IH k' F).
    - destruct F as (drain & t & P & H). eapply worked_step; eauto.
    - destruct (follow_step k k' W F) as [E|H]; [rewrite E; exact Ca|]. eapply calm_step; [exact Ca|exact H|]. now apply one_dec_calm.
    - exact L. }
  apply (X (work_start w jobs files)); [constructor| |].
  - constructor. apply one_dec_calm. cbn [work_start k_threads start s_workers]. rewrite wsum_repeat. cbn [n_dec]. lia.
  - cbn [work_start k_threads start s_workers]. rewrite wsum_repeat. cbn [n_dec]. lia.
Qed.
End Answers.
