(** Proofs about where the program writes. *)
From Verif Require Import Base Str Utf8 M_Path M_Source M_Symbol M_Object M_Fs M_Cache M_Store M_Input M_Sched M_Many M_Shared
  S_Path S_Fs S_Store S_Sched S_Many S_Shared S_Confined P_Fs P_Store P_Sched P_Many P_Shared.

Section Confined.
Variables (u : Setup) (jobs : nat) (files : list str) (fs0 : FS) (R : FS -> Prop).
Hypothesis ST : steady u files fs0 R.
Hypothesis PR : forall d, candidate u files fs0 d -> proper_module d.
Let nj := Nat.min jobs (length files).
Let os := u_os u.
Let out := u_out u.
Let C := candidate u files fs0.

Definition act_ok (d : Obj) (a : Act) : Prop :=
  match a with
  | ADirs p => exists t, store_target os out d t /\ t <> [] /\ locate (os_cwd os) p = tl t
  | ACreate p | AWrite p _ _ => file_target os out (locate (os_cwd os) p) \/ store_target os out d (locate (os_cwd os) p)
  | AOut _ => to_stream out FStdout
  | AErr _ => to_stream out FStderr
  end.
Lemma writes_ok d p cs : act_ok d (ACreate p) -> forall off, Forall (act_ok d) (file_writes p off cs).
Proof. intros A. induction cs as [|c cs IH]; intros off; constructor; [exact A|apply IH]. Qed.
Lemma sym_ok d fo : (forall p, fo = FPath p -> act_ok d (ACreate p)) -> (forall f, fo = f -> (f = FStdout \/ f = FStderr) -> to_stream out f) -> Forall (act_ok d) (fst (sym_plan os (u_extra u) fo d)).
Proof.
  intros A B. unfold sym_plan. assert (O : Forall (act_ok d) (match fo with FPath p => [ACreate p] | _ => [] end)) by (destruct fo; [constructor; [now apply A|constructor]|constructor..]).
  destruct (fmt_object _ d) as [text|m|m]; cbn [fst]; [|exact O..]. apply Forall_app. split; [exact O|]. destruct fo as [p| |].
  - apply writes_ok. now apply A.
  - apply Forall_forall. intros a H. apply in_map_iff in H as (c & <- & _). cbn. now apply B; auto.
  - apply Forall_forall. intros a H. apply in_map_iff in H as (c & <- & _). cbn. now apply B; auto.
Qed.
Lemma then_ok (P : Act -> Prop) a b : Forall P (fst a) -> Forall P (fst b) -> Forall P (fst (plan_then a b)).
Proof. intros A B. unfold plan_then. destruct (snd a); cbn [fst]; [apply Forall_app; auto|exact A..]. Qed.
Lemma plan_ok d : C d -> Forall (act_ok d) (fst (u_plan u d)).
Proof.
  intros Cd. destruct (PR d Cd) as (Hn & Hi). unfold u_plan, store_plan. destruct (u_check u && _); [constructor|]. apply then_ok.
  - destruct (output_store (u_out u) d) as [p|] eqn:E; [|constructor].
    assert (D : exists dir, sym_store_path dir d = Some p /\ forall l, dir <> [] -> stored_at os dir d l -> store_target os out d l).
    { unfold output_store in E. unfold out, store_target. destruct (u_out u) as [f|dir|f dir]; [discriminate|exists dir; auto..]. }
    destruct D as (dir & Ep & St). destruct (store_loc os dir d p Hn Hi Ep) as (D & At & q & Eq & Lq & Ln). rewrite Eq. apply then_ok.
    + constructor; [|constructor]. exists (locate (os_cwd os) p). auto.
    + apply sym_ok; [|intros f <- [X|X]; discriminate]. intros p' [= <-]. right. now apply St.
  - destruct (output_file (u_out u)) as [f|] eqn:E; [|constructor]. apply sym_ok.
    + intros p ->. left. unfold out, file_target. unfold output_file in E. destruct (u_out u) as [g|dir|g dir]; [injection E as ->|discriminate|injection E as ->]; reflexivity.
    + intros g <- _. unfold to_stream, out. unfold output_file in E. destruct (u_out u) as [g|dir|g dir]; [injection E as ->; now left|discriminate|injection E as ->; right; eauto].
Qed.
Lemma act_confined fs1 d a w : C d -> act_ok d a -> only_at os out C fs1 (w_fs w) -> only_at os out C fs1 (w_fs (fst (act_step os w a))) /\ quiet out w (fst (act_step os w a)).
Proof.
  intros Cd A O. assert (Q0 : forall fs, quiet out w (set_fs w fs)) by (intros fs; split; reflexivity). assert (Q1 : quiet out w w) by (split; reflexivity).
  assert (SET : forall l x, l <> [] -> file_target os out l \/ store_target os out d l -> only_at os out C fs1 (fs_set (w_fs w) l x)).
  { intros l x Nl T k. destruct (list_eq_dec str_eq_dec k l) as [-> |N]; [right; destruct T as [T|T]; [now left|right; left; eauto]|]. rewrite fs_get_other by congruence. apply O. }
  destruct a as [p|p|p off data|data|data]; cbn [act_step act_ok] in A |- *.
  - destruct (create_dir_all os (w_fs w) p) as [g|] eqn:M; cbn [fst]; [|auto]. split; [|apply Q0]. cbn [set_fs w_fs]. destruct A as (t & T & Nt & L). unfold create_dir_all in M. rewrite L in M. apply mkdirs_spec in M as (DA & _).
    intros l. destruct (DA l) as [E|(E1 & E2 & k & Ek)]; [rewrite E; apply O|]. destruct (O l) as [X|[X|[X|(_ & X & _)]]]; [|auto|auto|congruence]. rewrite E1 in X. right. right. right. splits; auto.
    destruct t as [|y t]; [easy|]. exists d, (y :: t), (y :: k). splits; auto; [|discriminate]. cbn in Ek. now rewrite Ek.
  - destruct (file_create os (w_fs w) p) as [g|] eqn:M; cbn [fst]; [|auto]. split; [|apply Q0]. cbn [set_fs w_fs]. apply file_create_spec in M as (Nl & -> & _). now apply SET.
  - cbn [fst]. destruct (fs_get (w_fs w) (locate (os_cwd os) p)) as [[old|]|] eqn:G; auto. split; [|apply Q0]. cbn [set_fs w_fs]. apply SET; [|exact A]. intros E. rewrite E in G. discriminate.
  - split; [exact O|]. split; cbn; [intros N; now elim N|reflexivity].
  - split; [exact O|]. split; cbn; [reflexivity|intros N; now elim N].
Qed.
Record conf (w : World) (k : Work) : Prop := mkConf {
  c_basic : basic u jobs files fs0 R k;
  c_fs : exists fs1, R fs1 /\ taken u files fs0 (k_threads k) fs1 /\ only_at os out C fs1 (w_fs (k_world k));
  c_busy : forall i acts r, k_busy k i = Some (acts, r) -> exists d, flying (k_threads k) i d /\ Forall (act_ok d) acts;
  c_quiet : quiet out w (k_world k)
}.
Lemma quiet_trans a b c : quiet out a b -> quiet out b c -> quiet out a c.
Proof. intros (A1 & A2) (B1 & B2). split; intros N; [rewrite B1, A1|rewrite B2, A2]; auto. Qed.
Lemma conf_moved w k k' : conf w k -> moved u jobs files k k' -> conf w k'.
Proof.
  intros [B (fs1 & F1 & F2 & F3) D Q] M. pose proof (moved_basic u jobs files fs0 R ST k k' B M) as B'. destruct M as [drain t s' P NF NG H|drain i f s' P En H|i d F Eb|i d a rest r w' q F Eb Ea|drain i d r s' P F Eb H].
  - constructor; [exact B'| | |exact Q]; cbn [k_threads k_world k_busy].
    + exists fs1. splits; auto. eapply taken_quiet; eauto.
    + intros i acts r E. destruct (D i acts r E) as (d & X & Y). exists d. split; [|exact Y]. apply (thread_keeps _ _ _ _ _ _ i d H); [|exact X]. intros ->. now apply (NF i d eq_refl).
  - pose proof (get_unbegun u jobs files fs0 _ _ _ _ (b_reach _ _ _ _ _ _ B) En) as NB. pose proof (b_fs _ _ _ _ _ _ B NB) as B2. pose proof (b_taken _ _ _ _ _ _ B NB) as B4. destruct (reach_given _ _ _ _ _ (b_reach _ _ _ _ _ _ B)) as (_ & _ & G & _).
    assert (Hf : In f files) by (apply G; eapply nth_error_In; eauto). constructor; [exact B'| | |]; cbn [k_threads k_world k_busy set_fs w_fs].
    + exists (fst (u_job u (w_fs (k_world k)) f)). splits; [now apply (proj2 ST)|eapply taken_get; eauto|]. intros l. now left.
    + intros j acts r E. destruct (D j acts r E) as (d & X & _). elim (NB d). right. eauto.
    + apply (quiet_trans _ _ _ Q). split; reflexivity.
  - constructor; [exact B'| | |exact Q]; cbn [k_threads k_world k_busy].
    + eauto.
    + intros j acts r E. unfold set_busy in E. destruct (Nat.eqb_spec j i) as [-> |N]; [|eauto]. injection E as E. exists d. split; [exact F|]. change acts with (fst (acts, r)). rewrite <- E. apply plan_ok.
      eapply begun_candidate; [exact B|]. right. eauto.
  - destruct (D i _ _ Eb) as (d' & X & Y). assert (d' = d) by (eapply flying_fun; eauto). subst d'. apply Forall_inv in Y as Ya. apply Forall_inv_tail in Y.
    assert (Cd : C d) by (eapply begun_candidate; [exact B|]; right; eauto). destruct (act_confined fs1 d a (k_world k) Cd Ya F3) as (O & Qa). unfold os in O, Qa. rewrite Ea in O, Qa. cbn [fst] in O, Qa.
    constructor; [exact B'| | |]; cbn [k_threads k_world k_busy]; [eauto| |exact (quiet_trans _ _ _ Q Qa)].
    intros j acts r' E. unfold set_busy in E. destruct (Nat.eqb_spec j i) as [-> |N]; [|eauto]. exists d. split; [exact F|]. injection E as E. destruct q; injection E as <- <-; [exact Y|constructor..].
  - constructor; [exact B'| | |exact Q]; cbn [k_threads k_world k_busy].
    + exists fs1. splits; auto. eapply taken_quiet; [exact H| |exact F2]. intros j f [= <-]. eapply flying_get; eauto.
    + intros j acts r' E. unfold set_busy in E. destruct (Nat.eqb_spec j i) as [-> |N]; [discriminate|]. destruct (D j acts r' E) as (e & X & Y). exists e. split; [|exact Y]. apply (thread_keeps _ _ _ _ _ _ j e H); [congruence|exact X].
Qed.
Lemma worked_conf w k : w_fs w = fs0 -> worked u nj (work_start w jobs files) k -> conf w k.
Proof.
  intros E. induction 1 as [|k k' drain t W IH P H]; [|eapply conf_moved; [exact IH|]; eapply work_moved; eauto].
  constructor; cbn [work_start k_threads k_world k_busy]; [now apply start_basic| |discriminate|split; reflexivity]. exists (w_fs w). splits; [rewrite E; apply ST|now apply start_taken|intros l; now left].
Qed.
End Confined.
