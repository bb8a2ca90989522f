(** Theorems C46 to C50: several files and worker threads. *)
From Verif Require Import Base Str M_Source M_Object M_Sched M_Many S_Sched P_Sched P_Run P_Ends T_Object.
Local Open Scope nat_scope.

(** The theorems need of the program only that merging keeps the debug id. *)
Theorem C47_dump_syms_keeps_ids : forall ck iter proc st, key_kept (dump_sys ck iter proc st).
Proof. intros ck iter proc st x y m _ E. apply (C30_identity _ _ _ _ _ E). Qed.
Print Assumptions C47_dump_syms_keeps_ids.

(** ** A small system for examples: a module is the list of its files, its
    debug id is the first letter; files starting with an x cannot be read. *)
Definition demo_key (d : list str) : str := match d with f :: _ => firstn 1 f | [] => [] end.
Definition demo : Sys (list str) :=
  mkSys (fun f => if str_eqb (firstn 1 f) (lit "x") then Err "unreadable" else Ok [f]) demo_key
    (fun x y => Ok (x ++ y)) (fun _ r => r = Ok tt).
Definition demo_files : list str := [lit "a1"; lit "b1"].
Lemma demo_kept : key_kept demo.
Proof.
  intros x y m K E. cbn in *. injection E as <-. destruct x as [|f x]; [|reflexivity]. cbn in *. now symmetry.
Qed.
Lemma demo_merges files : merges demo files.
Proof. exists (fun _ => True). split; [auto|]. intros x y _ _ _. exists (x ++ y). split; [reflexivity|exact I]. Qed.
Lemma demo_works files : (forall f, In f files -> firstn 1 f <> lit "x") -> works demo files.
Proof.
  intros H. unfold works. splits; [|apply demo_merges|intros d r; reflexivity]. intros f F. exists [f]. cbn [demo sy_proc].
  destruct (str_eqb (firstn 1 f) (lit "x")) eqn:E; [apply str_eqb_eq in E; now apply H in F|reflexivity].
Qed.
Lemma demo_two : works demo demo_files.
Proof. apply demo_works. intros f [<-|[<-|[]]]; discriminate. Qed.
Lemma demo_choice : legal demo (some_choice).
Proof. split; [intros l; reflexivity|reflexivity]. Qed.
Lemma run_reach {I} (S : Sys I) nj c ts s0 s s' : legal S c -> reach S nj s0 s -> run S nj c ts s = Some s' -> reach S nj s0 s'.
Proof.
  intros L. revert s. induction ts as [|t ts IH]; intros s R E; [now injection E as <-|]. cbn [run] in E.
  destruct (thread_step S nj c t s) as [s1|] eqn:X; [|discriminate]. apply IH with s1; [|exact E]. econstructor; [exact R|]. now exists c, t.
Qed.

(** ** C46 *)
Theorem C46_merged_first : forall I (S : Sys I) jobs files s, key_kept S -> reach S (Nat.min jobs (length files)) (start jobs files) s ->
  stored s <> [] -> all_merged S files s.
Proof. intros I. exact stored_after_all. Qed.
Print Assumptions C46_merged_first.

(** ** C47 *)
Theorem C47_at_most_once : forall I (S : Sys I) jobs files s, key_kept S -> reach S (Nat.min jobs (length files)) (start jobs files) s ->
  NoDup (map (sy_key S) (stored s)) /\
  forall d, In d (stored s) -> exists g, merge_in_order S g d /\ Permutation g (group S files (sy_key S d)).
Proof. intros I. exact at_most_once. Qed.
Print Assumptions C47_at_most_once.

(** Full statement: without the hypothesis on the number of jobs; see the
    counterexample below. *)
Theorem C47_exactly_once_partial : forall I (S : Sys I) jobs files s, key_kept S -> 1 <= jobs \/ length files <> 1 ->
  reach S (Nat.min jobs (length files)) (start jobs files) s -> complete s -> exits_ok s ->
  (forall dr, In dr (h_log (s_shared s)) -> snd dr = Ok tt) /\
  forall f, In f files -> exists d m g, sy_proc S f = Ok d /\ In m (stored s) /\ sy_key S m = sy_key S d /\
    merge_in_order S g m /\ Permutation g (group S files (sy_key S d)).
Proof. intros I. exact exactly_once_any. Qed.
Print Assumptions C47_exactly_once_partial.

Theorem C47_no_jobs_refuted : exists (S : Sys (list str)) files s f, works S files /\ reach S (Nat.min 0 (length files)) (start 0 files) s /\
  complete s /\ exits_ok s /\ In f files /\ stored s = [].
Proof.
  exists demo, [lit "a1"]. eexists. exists (lit "a1"). splits; [apply demo_works; intros f [<-|[]]; discriminate| | | |now left|].
  - apply run_reach with (c := some_choice) (ts := [Main; Main; Main]) (s := start 0 [lit "a1"]); [apply demo_choice|constructor|vm_compute; reflexivity].
  - reflexivity.
  - intros w [].
  - reflexivity.
Qed.
Print Assumptions C47_no_jobs_refuted.

(** A complete run of two workers on three files of two modules. *)
Definition good_files : list str := [lit "a1"; lit "b1"; lit "a2"].
Definition good_run : list Thread :=
  [Main; Worker 1; Worker 1; Worker 1; Worker 1; Worker 1; Main; Worker 1; Worker 1; Worker 1; Worker 1; Worker 1; Main; Worker 1; Worker 1;
   Worker 1; Worker 1; Worker 1; Worker 1; Worker 1; Worker 1; Main; Worker 0; Worker 1; Worker 1; Worker 1; Worker 1; Worker 1; Worker 0; Worker 0;
   Main; Main; Main].
Definition good_end : St (list str) :=
  mkSt (mkShared [] 1 [] false false [([lit "b1"], Ok tt); ([lit "a2"; lit "a1"], Ok tt)]) [WExit XOk; WExit XOk] MDone.
Example C47_ex_reach : reach demo (Nat.min 2 (length good_files)) (start 2 good_files) good_end /\ complete good_end /\ exits_ok good_end /\ stored good_end <> [] /\
  group demo good_files (lit "a") = [lit "a1"; lit "a2"].
Proof.
  splits; [|reflexivity|intros w [<-|[<-|[]]]; reflexivity|discriminate|reflexivity].
  apply run_reach with (c := some_choice) (ts := good_run) (s := start 2 good_files); [apply demo_choice|constructor|vm_compute; reflexivity].
Qed.

(** ** C48 *)
(** Two workers can both see two files left and both count theirs: then nobody
    sees the last one and the run never ends. *)
Definition race_run : list Thread :=
  [Main; Main; Main; Worker 0; Worker 1; Worker 0; Worker 1; Worker 0; Worker 1; Worker 0; Worker 1].
Definition race_state : St (list str) :=
  mkSt (mkShared [] 2 [(lit "b", [lit "b1"]); (lit "a", [lit "a1"])] false false []) [WDec; WDec] (MJoin 0).
Definition race_end : St (list str) :=
  mkSt (mkShared [] 0 [(lit "b", [lit "b1"]); (lit "a", [lit "a1"])] false false []) [WIdle; WIdle] (MJoin 0).
Lemma race_reach : reach demo (Nat.min 2 (length demo_files)) (start 2 demo_files) race_state.
Proof. apply run_reach with (c := some_choice) (ts := race_run) (s := start 2 demo_files); [apply demo_choice|constructor|vm_compute; reflexivity]. Qed.
Theorem C48_race_refuted : exists (S : Sys (list str)) files s, key_kept S /\ works S files /\ reach S (Nat.min 2 (length files)) (start 2 files) s /\
  blocked S (Nat.min 2 (length files)) s /\ stored s = [].
Proof.
  exists demo, demo_files, race_end. splits; [apply demo_kept|apply demo_two| | |reflexivity].
  - apply run_reach with (c := some_choice) (ts := [Worker 0; Worker 1]) (s := race_state); [apply demo_choice|apply race_reach|vm_compute; reflexivity].
  - split; [intros [X|X]; discriminate|]. intros s' H.
    destruct (step_cases _ _ _ _ H) as [(h & m & X & _)|(c & a & w & b & h & w' & L & Ew & X & _)]; [discriminate|].
    assert (In w (s_workers race_end)) by (rewrite Ew; apply in_or_app; right; now left). destruct H0 as [<-|[<-|[]]]; discriminate.
Qed.
Print Assumptions C48_race_refuted.

(** Once that has happened nothing is ever stored and the run never ends. *)
Theorem C48_race_is_final : forall I (S : Sys I) jobs files s s', key_kept S -> works S files ->
  reach S (Nat.min jobs (length files)) (start jobs files) s -> racing s -> reach S (Nat.min jobs (length files)) s s' -> ~ ended s' /\ stored s' = [].
Proof.
  intros I S jobs files s s' KK W R RA R2. apply dead_not_ended. eapply dead_forever; [|exact R2]. eapply racing_dead; eauto.
Qed.
Print Assumptions C48_race_is_final.
Example C48_ex_racing : reach demo (Nat.min 2 (length demo_files)) (start 2 demo_files) race_state /\ racing race_state /\ works demo demo_files.
Proof. splits; [apply race_reach| |apply demo_two]. split; [reflexivity|]. exists 0, 1. splits; auto. Qed.

(** With one worker and at least two modules the run never ends: the worker
    waits for itself. *)
Theorem C48_one_worker_refuted : forall I (S : Sys I) jobs files s, key_kept S -> works S files -> Nat.min jobs (length files) = 1 -> two_groups S files ->
  reach S (Nat.min jobs (length files)) (start jobs files) s -> ~ ended s /\ stored s = [].
Proof. intros I. exact solo_not_ended. Qed.
Print Assumptions C48_one_worker_refuted.
Example C48_ex_two_groups : two_groups demo demo_files /\ Nat.min 1 (length demo_files) = 1.
Proof. split; [|reflexivity]. exists (lit "a1"), [lit "a1"], (lit "b1"), [lit "b1"]. splits; try reflexivity; [now left|right; now left|discriminate]. Qed.

(** Without workers it never ends either. *)
Theorem C48_no_worker_refuted : forall I (S : Sys I) files s, reach S 0 (start 0 files) s -> 2 <= length files -> ~ ended s /\ stored s = [].
Proof. intros I. exact none_blocks. Qed.
Print Assumptions C48_no_worker_refuted.

(** Every run stops after a bounded number of steps. *)
Theorem C48_finite : forall I (S : Sys I) jobs files n s, let nj := Nat.min jobs (length files) in
  steps S nj n (start jobs files) s -> n <= length files * (13 + 2 * nj) + nj + 2.
Proof. intros I. exact bounded. Qed.
Print Assumptions C48_finite.
Lemma run_steps {I} (S : Sys I) nj c ts s s' : legal S c -> run S nj c ts s = Some s' -> steps S nj (length ts) s s'.
Proof.
  intros L. revert s. induction ts as [|t ts IH]; intros s E; [injection E as <-; constructor|]. cbn [run] in E.
  destruct (thread_step S nj c t s) as [s1|] eqn:X; [|discriminate]. cbn [length]. apply steps_S with s1; [exists c, t; auto|]. now apply IH.
Qed.
Example C48_ex_steps : steps demo 2 33 (start 2 good_files) good_end.
Proof. apply (run_steps demo 2 some_choice good_run); [apply demo_choice|vm_compute; reflexivity]. Qed.

(** Full statement: every run completes. It does when the race does not happen
    and there are two workers or only one module: as long as the run is not
    complete something can be done, and when it is everything is stored
    ([C47_exactly_once_partial]). *)
Theorem C48_completes_partial : forall I (S : Sys I) jobs files s, key_kept S -> works S files -> files <> [] -> 1 <= jobs ->
  2 <= Nat.min jobs (length files) \/ ~ two_groups S files ->
  calm S (Nat.min jobs (length files)) (start jobs files) s ->
  (exists s', step S (Nat.min jobs (length files)) s s') \/ (complete s /\ exits_ok s).
Proof. intros I. exact calm_completes. Qed.
Print Assumptions C48_completes_partial.
Fixpoint run_calm {I} (S : Sys I) (nj : nat) (c : Choice I) (ts : list Thread) (s : St I) : option (St I) :=
  if 2 <=? wsum n_dec (s_workers s) then None
  else match ts with [] => Some s | t :: ts => match thread_step S nj c t s with Some s' => run_calm S nj c ts s' | None => None end end.
Lemma not_racing {I} (s : St I) : wsum n_dec (s_workers s) < 2 -> ~ racing s.
Proof.
  intros L (_ & i & j & N & A & B). destruct (nth_two _ _ _ _ N A B) as (a & b & c & E). rewrite E, wsum_app, wsum_cons, wsum_app, wsum_cons in L. cbn [n_dec] in L. lia.
Qed.
Lemma run_calm_ok {I} (S : Sys I) nj c ts s0 s s' : legal S c -> calm S nj s0 s -> run_calm S nj c ts s = Some s' -> calm S nj s0 s'.
Proof.
  intros L. revert s. induction ts as [|t ts IH]; intros s R E; cbn [run_calm] in E; destruct (2 <=? wsum n_dec (s_workers s)) eqn:W; try discriminate; [now injection E as <-|].
  destruct (thread_step S nj c t s) as [s1|] eqn:X; [|discriminate]. apply IH with s1; [|exact E]. apply calm_step with s; [exact R|exists c, t; auto|].
  apply not_racing. destruct ts; cbn [run_calm] in E; destruct (2 <=? wsum n_dec (s_workers s1)) eqn:W1; try discriminate; lia.
Qed.
Example C48_ex_calm : calm demo (Nat.min 2 (length good_files)) (start 2 good_files) good_end.
Proof.
  apply (run_calm_ok demo 2 some_choice good_run _ (start 2 good_files)); [apply demo_choice| |vm_compute; reflexivity].
  constructor. apply not_racing. cbn. lia.
Qed.
(** One module made of two files, one worker: it is stored and the run ends. *)
Definition one_run : list Thread := [Main; Main; Main] ++ repeat (Worker 0) 14 ++ [Main; Main].
Example C48_ex_one_module : exists s, run_calm demo 1 some_choice one_run (start 1 [lit "a1"; lit "a2"]) = Some s /\ complete s /\ exits_ok s /\
  stored s = [[lit "a2"; lit "a1"]].
Proof.
  eexists. split; [vm_compute; reflexivity|]. split; [reflexivity|]. split; [|reflexivity].
  intros w [ <- |[]]. reflexivity.
Qed.

(** ** C49 *)
(** A file that cannot be processed: nothing at all is stored. *)
Theorem C49_nothing_stored : forall I (S : Sys I) jobs files s f, key_kept S -> In f files -> (forall d, sy_proc S f <> Ok d) ->
  reach S (Nat.min jobs (length files)) (start jobs files) s -> stored s = [].
Proof. intros I. exact failing_stores_nothing. Qed.
Print Assumptions C49_nothing_stored.
(** And with fewer such files than workers the run never ends, whatever the
    schedule. *)
Theorem C49_hangs_refuted : forall I (S : Sys I) jobs files s, key_kept S -> merges S files -> (forall f e, In f files -> sy_proc S f <> Panic e) ->
  1 <= length (filter (fails S) files) < Nat.min jobs (length files) -> reach S (Nat.min jobs (length files)) (start jobs files) s -> ~ ended s.
Proof. intros I. exact failing_hangs. Qed.
Print Assumptions C49_hangs_refuted.
Example C49_ex_fails : key_kept demo /\ merges demo [lit "a1"; lit "x1"] /\ (forall f e, In f [lit "a1"; lit "x1"] -> sy_proc demo f <> Panic e) /\
  1 <= length (filter (fails demo) [lit "a1"; lit "x1"]) < Nat.min 2 (length [lit "a1"; lit "x1"]).
Proof. splits; [apply demo_kept|apply demo_merges|intros f e [<-|[<-|[]]]; discriminate|vm_compute; lia|vm_compute; lia]. Qed.
(** With at least as many it may return success, having stored nothing. *)
Theorem C49_silent_refuted : exists (S : Sys (list str)) jobs files s f, key_kept S /\ merges S files /\ In f files /\ (forall d, sy_proc S f <> Ok d) /\
  reach S (Nat.min jobs (length files)) (start jobs files) s /\ complete s /\ stored s = [].
Proof.
  exists demo, 1, [lit "x1"; lit "a1"]. eexists. exists (lit "x1"). splits; [apply demo_kept|apply demo_merges|now left|intros d; discriminate| | |].
  - apply run_reach with (c := some_choice) (ts := [Main; Main; Main; Worker 0; Worker 0; Main; Main]) (s := start 1 [lit "x1"; lit "a1"]); [apply demo_choice|constructor|vm_compute; reflexivity].
  - reflexivity.
  - reflexivity.
Qed.
Print Assumptions C49_silent_refuted.

(** A panic while two modules are merged: a worker that then wants to keep its
    module panics too, and so does the program. *)
Definition clash : Sys (list str) := mkSys (sy_proc demo) (sy_key demo) (fun _ _ => Panic "attempt to add with overflow") (sy_store demo).
Example C49_ex_poisoned : exists s, reach clash (Nat.min 2 3) (start 2 [lit "a1"; lit "a2"; lit "b1"]) s /\ s_main s = MPanic /\ s_workers s = [WExit XPanic; WExit XPanic] /\ stored s = [].
Proof.
  eexists. split.
  - apply run_reach with (c := some_choice) (ts := [Main; Main; Main; Worker 0; Worker 0; Worker 0; Worker 0; Worker 0; Worker 0; Worker 0; Worker 1; Worker 1; Worker 0; Worker 1; Main; Main]) (s := start 2 [lit "a1"; lit "a2"; lit "b1"]); [apply demo_choice|constructor|vm_compute; reflexivity].
  - split; [reflexivity|]. split; reflexivity.
Qed.

(** ** C50 *)
Theorem C50_blocked_causes : forall I (S : Sys I) jobs files s, key_kept S -> works S files -> reach S (Nat.min jobs (length files)) (start jobs files) s ->
  blocked S (Nat.min jobs (length files)) s ->
  (s_workers s = [] /\ full (Nat.min jobs (length files)) (s_shared s) = true /\ exists f fs, s_main s = MSend (f :: fs)) \/
  (exists m ms, s_workers s = [WSend (m :: ms)] /\ full (Nat.min jobs (length files)) (s_shared s) = true) \/
  (h_counter (s_shared s) = 0%N /\ (forall w, In w (s_workers s) -> w = WIdle) /\ s_workers s <> [] /\ h_queue (s_shared s) = [] /\ s_main s = MJoin 0 /\ stored s = []).
Proof. intros I. exact blocked_causes. Qed.
Print Assumptions C50_blocked_causes.
(** The counter gets to zero only by the race. *)
Theorem C50_zero_by_race : forall I (S : Sys I) jobs files s, key_kept S -> files <> [] -> calm S (Nat.min jobs (length files)) (start jobs files) s ->
  h_counter (s_shared s) <> 0%N.
Proof. intros I S jobs files s KK NE Ca. destruct (calm_counter S jobs files s KK NE Ca). lia. Qed.
Print Assumptions C50_zero_by_race.
(** The second case needs two modules. *)
Theorem C50_self_block_groups : forall I (S : Sys I) jobs files s m ms, key_kept S -> works S files -> reach S (Nat.min jobs (length files)) (start jobs files) s ->
  s_workers s = [WSend (m :: ms)] -> full (Nat.min jobs (length files)) (s_shared s) = true -> two_groups S files.
Proof. intros I. exact stuck_single. Qed.
Print Assumptions C50_self_block_groups.
Definition solo_run : list Thread :=
  [Main; Main; Main; Worker 0; Worker 0; Worker 0; Worker 0; Worker 0; Worker 0; Worker 0; Worker 0; Worker 0; Worker 0; Worker 0; Worker 0].
Definition solo_end : St (list str) :=
  mkSt (mkShared [MDump [lit "b1"]; MDump [lit "a1"]] 1 [] true false []) [WSend [MStop]] (MJoin 0).
Example C50_ex_solo : reach demo (Nat.min 1 (length demo_files)) (start 1 demo_files) solo_end /\ blocked demo (Nat.min 1 (length demo_files)) solo_end.
Proof.
  split.
  - apply run_reach with (c := some_choice) (ts := solo_run) (s := start 1 demo_files); [apply demo_choice|constructor|vm_compute; reflexivity].
  - split; [intros [X|X]; discriminate|]. intros s' H.
    destruct (step_cases _ _ _ _ H) as [(h & m & X & _)|(c & a & w & b & h & w' & L & Ew & X & _)]; [discriminate|].
    assert (In w (s_workers solo_end)) by (rewrite Ew; apply in_or_app; right; now left). destruct H0 as [<-|[]]; discriminate.
Qed.
