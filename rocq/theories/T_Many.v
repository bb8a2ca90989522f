(** Theorems C63 to C66: the program on several files. *)
From Verif Require Import Base BMap Str Utf8 M_Path M_Line M_Source M_Symbol M_Collector M_Object M_Fs M_Cache M_Store M_Input M_Sched M_Cli M_Many
  S_Source S_Symbol S_Collector S_Object S_Format S_Sched S_Many S_Cli P_Cli P_Collector P_Object P_From P_Merge P_Format P_Sched P_Run P_Ends P_Many P_Several
  T_Collector T_Object T_Format T_Sched T_Input.
Local Open Scope nat_scope.

(** ** C63: several files end to end *)
(** When every file can be processed and storing works, merging never fails, so
    that C46-C50 hold of the program ... *)
Theorem C63_works : forall x e iter m arch inl fs st files, sort_perm (re_sort e) -> sane (ex_ps x) -> iterates iter ->
  let S := several_sys x e iter m arch inl fs st in good_input (re_ck e) (sy_proc S) st files -> key_kept S /\ works S files.
Proof.
  intros x e iter m arch inl fs st files SP SA It S G. split; [apply dump_kept|]. apply dump_works; auto.
  intros f o _ P. exact (job_fresh x e m arch inl fs f o SP SA P).
Qed.
Print Assumptions C63_works.
(** ... and a run that ends has stored, for every file, one module made from all
    the files with its debug id. *)
Theorem C63_stored : forall x e iter m arch inl fs st jobs files s, sort_perm (re_sort e) -> sane (ex_ps x) -> iterates iter -> 1 <= jobs ->
  let S := several_sys x e iter m arch inl fs st in good_input (re_ck e) (sy_proc S) st files ->
  reach S (Nat.min jobs (length files)) (start jobs files) s -> ended s ->
  complete s /\ NoDup (map ob_debug_id (stored s)) /\
  (forall d, In d (stored s) -> exists os, made_from (re_ck e) iter (sy_proc S) files d os) /\
  (forall f o, In f files -> sy_proc S f = Ok o -> exists d, In d (stored s) /\ ob_debug_id d = ob_debug_id o).
Proof.
  intros x e iter m arch inl fs st jobs files s SP SA It J S G R E.
  destruct (C63_works x e iter m arch inl fs st files SP SA It G) as (KK & W). fold S in KK, W.
  destruct (complete_ok S jobs files s KK W R E) as (C & X). destruct (at_most_once S jobs files s KK R) as (ND & AM). splits; auto.
  - intros d Hd. destruct (AM d Hd) as (g & M & P). exact (made (re_ck e) iter (sy_proc S) st files d g M P).
  - intros f o Ff P. destruct (exactly_once_any S jobs files s KK (or_introl J) R C X) as (_ & B). destruct (B f Ff) as (d & d' & g & Pd & H1 & H2 & _).
    exists d'. split; [exact H1|]. cbn in H2. rewrite H2. congruence.
Qed.
Print Assumptions C63_stored.
(** Such a module has only records of its files, at the same addresses; every
    reference in it resolves; and no function of any file is lost, provided none
    is a placeholder for an exception table entry. *)
Theorem C63_records : forall x e iter m arch inl fs st files d os, sort_perm (re_sort e) -> sane (ex_ps x) -> iterates iter ->
  let S := several_sys x e iter m arch inl fs st in good_input (re_ck e) (sy_proc S) st files -> made_from (re_ck e) iter (sy_proc S) files d os ->
  filed (ob_syms d) /\ refs_ok d /\ records_from os d /\ (forall k, has_func d k -> exists o, In o os /\ has_func o k) /\
  (Forall no_placeholder os -> forall k o, In o os -> has_func o k -> has_func d k).
Proof.
  intros x e iter m arch inl fs st files d os SP SA It S G M.
  assert (F : Forall (same_module (re_ck e) (ob_debug_id d)) os).
  { eapply made_same with (st := st); [|exact G|exact M]. intros f o _ P. exact (job_fresh x e m arch inl fs f o SP SA P). }
  destruct (merged_facts _ _ _ _ _ It F (proj1 M)) as ((A1 & A2 & _) & _ & _ & A3 & A4 & A5). splits; auto.
Qed.
Print Assumptions C63_records.
(** The text written for it reads back, with the CFI lines of all its files. *)
Theorem C63_written : forall ck iter proc files d os lss extra, made_from ck iter proc files d os -> Forall2 writable lss os -> Forall one_line extra ->
  exists ls text rs, Permutation ls (concat lss) /\ fmt_object extra d = Ok text /\ parse_file text = Some rs /\ object_records extra ls d rs.
Proof.
  intros ck iter proc files d os lss extra (M & _) W X. destruct (merged_writable ck iter os d M lss W) as (ls & P & Wd).
  destruct (C31_parse_back extra ls d Wd X) as (text & rs & A & B & C). exists ls, text, rs. auto.
Qed.
Print Assumptions C63_written.

(** When the files with one debug id come from the same sources, the source
    attribution of the stored module is right too, for every schedule. *)
Theorem C63_same_sources : forall ck iter proc files d os shown, iterates iter -> made_from ck iter proc files d os ->
  Forall (fresh shown) os -> Forall (fun o => ck = false \/ ends_fit (ob_syms o)) os -> (forall o o', In o os -> In o' os -> same_paths o o') ->
  refs_ok d /\ from_one_of os d.
Proof.
  intros ck iter proc files d os shown It (M & _) F L SP. destruct (merged_same_sources ck iter shown os d It F L SP M) as ((_ & A & _) & _ & B & _). auto.
Qed.
Print Assumptions C63_same_sources.

Lemma ok_inj {A} (x y : A) : Ok x = Ok y -> x = y.
Proof. now intros [=]. Qed.
Definition sx_proc (f : str) : res Obj := if str_eqb f (lit "a") then Ok ox_1 else if str_eqb f (lit "b") then Ok ox_4 else Ok ox_5.
Definition sx_two : Obj := ox_get (merge_objects true (fun l => l) ox_4 ox_5).
Definition sx_all : Obj := ox_get (merge_objects true (fun l => l) ox_1 sx_two).
Example C63_ex_same_sources : made_from true (fun l => l) sx_proc [lit "a"; lit "b"; lit "c"] sx_all [ox_1; ox_4; ox_5] /\
  Forall (fresh (fun p => p)) [ox_1; ox_4; ox_5] /\ Forall (fun o => true = false \/ ends_fit (ob_syms o)) [ox_1; ox_4; ox_5] /\
  (forall o o', In o [ox_1; ox_4; ox_5] -> In o' [ox_1; ox_4; ox_5] -> same_paths o o').
Proof.
  assert (M2 : merge_objects true (fun l => l) ox_4 ox_5 = Ok sx_two) by (vm_compute; reflexivity).
  assert (M3 : merge_objects true (fun l => l) ox_1 sx_two = Ok sx_all) by (vm_compute; reflexivity).
  split; [|split; [|split]].
  - split; [|split; [|split]].
    + exact (mf_two true (fun l => l) [ox_1] [ox_4; ox_5] ox_1 sx_two sx_all (mf_one _ _ _) (mf_two true (fun l => l) [ox_4] [ox_5] ox_4 ox_5 sx_two (mf_one _ _ _) (mf_one _ _ _) M2) M3).
    + intros o [<-|[<-|[<-|[]]]]; [exists (lit "a")|exists (lit "b")|exists (lit "c")]; (split; [cbn; tauto|split; [reflexivity|vm_compute; reflexivity]]).
    + intros f o [<-|[<-|[<-|[]]]] H _.
      * assert (H' : Ok ox_1 = Ok o) by exact H. apply ok_inj in H'. subst o. now left.
      * assert (H' : Ok ox_4 = Ok o) by exact H. apply ok_inj in H'. subst o. right. now left.
      * assert (H' : Ok ox_5 = Ok o) by exact H. apply ok_inj in H'. subst o. right. right. now left.
    + vm_compute. reflexivity.
  - constructor; [|constructor; [|constructor; [|constructor]]].
    + apply (ox_fresh [Some (ox_fun 4096 0 [])] [] None true); [consistent_tac|vm_compute; reflexivity].
    + apply (ox_fresh [Some (ox_fun 8192 0 [])] [] None true); [consistent_tac|vm_compute; reflexivity].
    + apply (ox_fresh [Some (ox_fun 12288 0 []); Some (ox_fun 16384 0 []); Some (ox_fun 20480 0 [])] [] None true); [consistent_tac|vm_compute; reflexivity].
  - constructor; [|constructor; [|constructor; [|constructor]]]; right; ends_tac.
  - intros o o' [<-|[<-|[<-|[]]]] [<-|[<-|[<-|[]]]] q; vm_compute; tauto.
Qed.

(** A file among several is processed as it would be alone, without an id and
    without a symbol server on the command line. *)
Theorem C63_as_alone : forall x e out check m arch inl fs f,
  get_job x e m arch inl fs f = load_file x e (mkConfig out None None None (Some arch) check inl (Ok m)) fs f.
Proof. reflexivity. Qed.
Print Assumptions C63_as_alone.

(** Example: files are "E", a digit and a debug id; the digit is the number of
    the function at 4096, and "P" after the digit adds a second function. *)
Definition mx_obj (i : N) (two : bool) (id : str) : Parsed :=
  mkParsed (Some (Some (ox_fun 4096 i []) :: (if two then [Some (ox_fun 8192 i [])] else []))) id None (lit "x86_64") true false None [] 4096 [] (fun _ _ => None) true
    (lit "STACK CFI INIT 10 20 x" ++ [c_nl]) BOther None.
Definition mx_ps : Parsers := mkParsers
  (fun d => match d with 69%N :: _ => FmtElf | _ => FmtOther end)
  (fun d => match d with 69%N :: i :: 80%N :: t => Some (mx_obj (i - 48) true t) | 69%N :: i :: t => Some (mx_obj (i - 48) false t) | _ => None end)
  (fun _ => None) (fun _ => None) (fun _ => None).
Definition mx : Ext := mkExt mx_ps (M_Cache.mkCEnv ix_os ix_cab (fun _ => true)) (mkNet (fun _ => None) (fun _ => None)) (fun l => l) None.
Definition mx_fs : FS := [([lit "a"], NFile (lit "E1AB")); ([lit "b"], NFile (lit "E2AB")); ([lit "c"], NFile (lit "E3CD")); ([lit "d"], NFile (lit "E4PAB")); ([lit "e"], NFile (lit "?")); ([lit "f"], NFile (lit "E1PAB"))].
Definition mx_sys : Sys Obj := several_sys mx ix_env (fun l => l) (fun _ => Ok None) 0 true mx_fs (fun _ r => r = Ok tt).
Lemma mx_sorts : sort_perm (re_sort ix_env).
Proof. apply sorts_perm, cx_sorts. Qed.
Lemma mx_parsed p : parsed_from mx_ps p -> exists i two id, p = mx_obj i two id.
Proof.
  intros (d & [H|[(pe & H & _)|[(pd & H & _)|(l & a & H & _)]]]); try discriminate. cbn in H.
  repeat (match type of H with context [match ?x with _ => _ end] => destruct x; try discriminate end); injection H as <-; eauto.
Qed.
Lemma mx_sane : sane (ex_ps mx).
Proof.
  intros p H. destruct (mx_parsed p H) as (i & two & id & ->). split; [|intros xs b e' E; discriminate].
  intros fs [= <-] r r' A B _ _ _ _ _ _. assert (Q : forall q, In q (flat_map fun_refs (readable (Some (ox_fun 4096 i []) :: (if two then [Some (ox_fun 8192 i [])] else [])))) -> q = cx_file i).
  { intros q Hq. destruct two; cbn in Hq; intuition. }
  rewrite (Q r A), (Q r' B). auto.
Qed.
Definition mx_files : list str := [lit "/a"; lit "/b"; lit "/c"].
Lemma fits_dec o : forallb (fun kv => sy_rva (snd kv) + sy_len (snd kv) <? two32)%N (ob_syms o) = true -> nsorted (ob_syms o) -> ends_fit (ob_syms o).
Proof.
  intros F S k s H. apply nfind_In in H; [|exact S]. rewrite forallb_forall in F. specialize (F _ H). cbn in F. lia.
Qed.
Lemma mx_good files : (forall f, In f files -> In f [lit "/a"; lit "/b"; lit "/c"; lit "/d"]) -> good_input (re_ck ix_env) (sy_proc mx_sys) (fun _ r => r = Ok tt) files.
Proof.
  intros H. split; [|intros d r; reflexivity]. intros f F. apply H in F.
  destruct F as [<- |[<- |[<- |[<- |[]]]]]; eexists; (split; [vm_compute; reflexivity|right; apply fits_dec; [vm_compute; reflexivity|vm_compute; repeat constructor]]).
Qed.
(** A scheduler for examples: at every step the first thread of [order] that
    can go on. *)
Fixpoint go {I} (S : Sys I) (nj : nat) (order : list Thread) (fuel : nat) (s : St I) : St I :=
  match fuel with
  | O => s
  | Datatypes.S n =>
      match filter (fun o => match o with Some _ => true | None => false end) (map (fun t => thread_step S nj some_choice t s) order) with
      | Some s' :: _ => go S nj order n s'
      | _ => s
      end
  end.
Lemma go_reach {I} (S : Sys I) nj order fuel s0 s : legal S some_choice -> reach S nj s0 s -> reach S nj s0 (go S nj order fuel s).
Proof.
  intros L. revert s. induction fuel as [|n IH]; intros s R; cbn [go]; [exact R|].
  destruct (filter _ _) as [|[s'|] l] eqn:E; auto. apply IH. econstructor; [exact R|].
  assert (H : In (Some s') (map (fun t => thread_step S nj some_choice t s) order)) by (apply (filter_In (fun o => match o with Some _ => true | None => false end)); rewrite E; now left).
  apply in_map_iff in H. destruct H as (t & Ht & _). exists some_choice, t. split; [exact L|exact Ht].
Qed.
Lemma mx_choice : legal mx_sys some_choice.
Proof. split; [intros l; reflexivity|reflexivity]. Qed.
Definition mx_end (files : list str) : St Obj := go mx_sys (Nat.min 2 (length files)) [Worker 0; Worker 1; Main] 200 (start 2 files).
Lemma mx_reach files : reach mx_sys (Nat.min 2 (length files)) (start 2 files) (mx_end files).
Proof. apply go_reach; [apply mx_choice|constructor]. Qed.
Example C63_ex : sort_perm (re_sort ix_env) /\ sane (ex_ps mx) /\ iterates (fun l => l) /\ good_input (re_ck ix_env) (sy_proc mx_sys) (fun _ r => r = Ok tt) mx_files /\
  reach mx_sys (Nat.min 2 (length mx_files)) (start 2 mx_files) (mx_end mx_files) /\ ended (mx_end mx_files) /\ length (stored (mx_end mx_files)) = 2.
Proof.
  splits; [apply mx_sorts|apply mx_sane|intros l; reflexivity| |apply mx_reach|left; vm_compute; reflexivity|vm_compute; reflexivity].
  apply mx_good. cbn. intuition.
Qed.

Definition mx_at (f : str) : Obj := match sy_proc mx_sys f with Ok o => o | _ => ox_a end.
Lemma mx_no_placeholder o : forallb (fun kv => negb (sy_synthetic (snd kv))) (ob_syms o) = true -> nsorted (ob_syms o) -> no_placeholder o.
Proof. intros F S k s H _. apply nfind_In in H; [|exact S]. rewrite forallb_forall in F. specialize (F _ H). cbn in F. now apply negb_true_iff in F. Qed.
Lemma mx_writable f o : In f [lit "/a"; lit "/b"; lit "/c"; lit "/d"] -> sy_proc mx_sys f = Ok o -> writable [lit "CFI INIT 10 20 x"] o /\ no_placeholder o.
Proof.
  intros F P. destruct (job_fresh mx ix_env (fun _ => Ok None) 0 true mx_fs f o mx_sorts mx_sane P) as (shown & Fr).
  assert (E : o = mx_at f) by (unfold mx_at; now rewrite P). clear P. subst o.
  assert (W1 : one_word (lit "x86_64")) by (split; vm_compute; intuition discriminate).
  assert (W2 : one_word (lit "AB")) by (split; vm_compute; intuition discriminate).
  assert (W3 : one_word (lit "CD")) by (split; vm_compute; intuition discriminate).
  split; [apply (C31_fresh_writable shown); [exact Fr| | |]|apply mx_no_placeholder; [|exact (proj1 (proj1 (fresh_ok shown _ Fr)))]]; clear Fr;
    destruct F as [<- |[<- |[<- |[<- |[]]]]]; try (vm_compute; reflexivity); try (apply names_check; vm_compute; reflexivity);
    (eapply head_check; try (vm_compute; reflexivity); auto; apply bytes_line_ok; reflexivity).
Qed.
(** Example: the module of files "/a" and "/b". *)
Example C63_ex_module : exists d os, In d (stored (mx_end mx_files)) /\ made_from (re_ck ix_env) (fun l => l) (sy_proc mx_sys) mx_files d os /\ length os = 2 /\
  Forall2 writable (repeat [lit "CFI INIT 10 20 x"] 2) os /\ Forall no_placeholder os.
Proof.
  destruct C63_ex as (A & B & C & D & R & E & _). destruct (C63_stored _ _ _ _ _ _ _ _ 2 _ _ A B C ltac:(lia) D R E) as (_ & _ & M & K).
  assert (H : exists d, In d (stored (mx_end mx_files)) /\ ob_debug_id d = lit "AB").
  { destruct (K (lit "/a") (mx_at (lit "/a"))) as (d & Hd & I); [now left|vm_compute; reflexivity|]. exists d. split; [exact Hd|]. rewrite I. vm_compute. reflexivity. }
  destruct H as (d & Hd & I). destruct (M d Hd) as (os & Md). exists d, os. pose proof Md as (_ & FO & _ & L). rewrite I in L.
  assert (L' : length os = 2) by (rewrite L; vm_compute; reflexivity).
  assert (W : forall o, In o os -> writable [lit "CFI INIT 10 20 x"] o /\ no_placeholder o).
  { intros o Ho. destruct (FO o Ho) as (f & Ff & P & _). apply (mx_writable f o); [|exact P]. clear - Ff. destruct Ff as [<- |[<- |[<- |[]]]]; [left|right; left|right; right; left]; reflexivity. }
  split; [exact Hd|]. split; [exact Md|]. split; [exact L'|]. split; [|apply Forall_forall; intros o Ho; exact (proj2 (W o Ho))]. clear - L' W. destruct os as [|a [|b [|]]]; try discriminate.
  constructor; [exact (proj1 (W a (or_introl eq_refl)))|]. constructor; [exact (proj1 (W b (or_intror (or_introl eq_refl))))|constructor].
Qed.

(** ** C64: does the result depend on the schedule? *)
(** Two files with one debug id, as many records each and a function at one
    address under two names: the order in which the workers get to merge them
    decides which name is written. *)
Definition mx_two : list str := [lit "/a"; lit "/b"].
Definition mx_other : St Obj :=
  match run mx_sys 2 some_choice [Main; Main; Worker 0; Worker 1] (start 2 mx_two) with
  | Some s => go mx_sys 2 [Worker 1; Worker 0; Main] 200 s | None => start 2 mx_two end.
Lemma mx_other_reach : reach mx_sys (Nat.min 2 (length mx_two)) (start 2 mx_two) mx_other.
Proof.
  unfold mx_other. destruct (run _ _ _ _ _) as [s|] eqn:E; [|constructor].
  change (Nat.min 2 (length mx_two)) with 2. apply go_reach; [apply mx_choice|]. eapply run_reach; [apply mx_choice|constructor|exact E].
Qed.
Theorem C64_schedule_refuted : exists x e iter m arch inl fs st files s s' d d' t t', sort_perm (re_sort e) /\ sane (ex_ps x) /\ iterates iter /\
  good_input (re_ck e) (sy_proc (several_sys x e iter m arch inl fs st)) st files /\
  reach (several_sys x e iter m arch inl fs st) (Nat.min 2 (length files)) (start 2 files) s /\ complete s /\ exits_ok s /\ stored s = [d] /\ fmt_object [] d = Ok t /\
  reach (several_sys x e iter m arch inl fs st) (Nat.min 2 (length files)) (start 2 files) s' /\ complete s' /\ exits_ok s' /\ stored s' = [d'] /\ fmt_object [] d' = Ok t' /\
  t <> t'.
Proof.
  exists mx, ix_env, (fun l => l), (fun _ => Ok None), 0%N, true, mx_fs, (fun _ r => r = Ok tt), mx_two, (mx_end mx_two), mx_other. do 4 eexists.
  splits; [apply mx_sorts|apply mx_sane|intros l; reflexivity|apply (mx_good mx_two); cbn; intuition|exact (mx_reach mx_two)| | | | |exact mx_other_reach| | | | |].
  - vm_compute. reflexivity.
  - intros w H. vm_compute in H. intuition.
  - vm_compute. reflexivity.
  - vm_compute. reflexivity.
  - vm_compute. reflexivity.
  - intros w H. vm_compute in H. intuition.
  - vm_compute. reflexivity.
  - vm_compute. reflexivity.
  - vm_compute. discriminate.
Qed.
Print Assumptions C64_schedule_refuted.
(** Full statement: any two runs that end store the same modules. Missing: more
    than two files with one debug id, and two with equally many records. *)
Theorem C64_pairs_partial : forall x e iter m arch inl fs st jobs jobs' files s s', sort_perm (re_sort e) -> sane (ex_ps x) -> iterates iter -> 1 <= jobs -> 1 <= jobs' ->
  let S := several_sys x e iter m arch inl fs st in good_input (re_ck e) (sy_proc S) st files -> pairs (sy_proc S) files ->
  reach S (Nat.min jobs (length files)) (start jobs files) s -> ended s ->
  reach S (Nat.min jobs' (length files)) (start jobs' files) s' -> ended s' -> Permutation (stored s) (stored s').
Proof.
  intros x e iter m arch inl fs st jobs jobs' files s s' SP SA It J J' S G PA R E R' E'.
  destruct (C63_works x e iter m arch inl fs st files SP SA It G) as (KK & W). fold S in KK, W.
  destruct (complete_ok S jobs files s KK W R E) as (C & X). destruct (complete_ok S jobs' files s' KK W R' E') as (C' & X').
  exact (runs_agree (re_ck e) iter (sy_proc S) st files jobs jobs' s s' PA J J' R C X R' C' X').
Qed.
Print Assumptions C64_pairs_partial.
(** Whatever the number and sizes of the files, the FUNC addresses are the same
    without placeholders, and so are functions that only one file has, apart from
    source files; with the same sources these agree too. *)
Lemma two_runs : forall x e iter m arch inl fs st jobs jobs' files s s' d, sort_perm (re_sort e) -> sane (ex_ps x) -> iterates iter -> 1 <= jobs -> 1 <= jobs' ->
  let S := several_sys x e iter m arch inl fs st in good_input (re_ck e) (sy_proc S) st files ->
  reach S (Nat.min jobs (length files)) (start jobs files) s -> ended s ->
  reach S (Nat.min jobs' (length files)) (start jobs' files) s' -> ended s' -> In d (stored s) ->
  exists d' os os', In d' (stored s') /\ ob_debug_id d' = ob_debug_id d /\ made_from (re_ck e) iter (sy_proc S) files d os /\ made_from (re_ck e) iter (sy_proc S) files d' os'.
Proof.
  intros x e iter m arch inl fs st jobs jobs' files s s' d SP SA It J J' S G R E R' E' Hd.
  destruct (C63_stored x e iter m arch inl fs st jobs files s SP SA It J G R E) as (_ & _ & A & _).
  destruct (C63_stored x e iter m arch inl fs st jobs' files s' SP SA It J' G R' E') as (_ & _ & A' & B').
  destruct (A d Hd) as (os & M). assert (NE : exists o, In o os).
  { destruct os as [|o os]; [|exists o; now left]. exfalso. destruct M as (M & _). remember (@nil Obj) as l. clear - M Heql. induction M; [discriminate|]. destruct a; [auto|discriminate]. }
  destruct NE as (o & Ho). destruct M as (M0 & M1 & M2). destruct (M1 o Ho) as (f & Hf & Pf & Ef).
  destruct (B' f o Hf Pf) as (d' & Hd' & Ed'). destruct (A' d' Hd') as (os' & M').
  exists d', os, os'. split; [exact Hd'|]. split; [congruence|]. split; [exact (conj M0 (conj M1 M2))|exact M'].
Qed.
Theorem C64_functions : forall x e iter m arch inl fs st jobs jobs' files s s' d, sort_perm (re_sort e) -> sane (ex_ps x) -> iterates iter -> 1 <= jobs -> 1 <= jobs' ->
  let S := several_sys x e iter m arch inl fs st in good_input (re_ck e) (sy_proc S) st files ->
  reach S (Nat.min jobs (length files)) (start jobs files) s -> ended s ->
  reach S (Nat.min jobs' (length files)) (start jobs' files) s' -> ended s' -> In d (stored s) ->
  exists d', In d' (stored s') /\ ob_debug_id d' = ob_debug_id d /\
    ((forall o, module_of (sy_proc S) files (ob_debug_id d) o -> no_placeholder o) -> forall k, has_func d k <-> has_func d' k) /\
    (forall k a b, nfind k (ob_syms d) = Some a -> sy_public a = false -> nfind k (ob_syms d') = Some b -> sy_public b = false ->
       one_func (sy_proc S) files (ob_debug_id d) k -> same_func a b /\ map bare_line (ls_lines (sy_source a)) = map bare_line (ls_lines (sy_source b))).
Proof.
  intros x e iter m arch inl fs st jobs jobs' files s s' d SP SA It J J' S G R E R' E' Hd.
  destruct (two_runs x e iter m arch inl fs st jobs jobs' files s s' d SP SA It J J' G R E R' E' Hd) as (d' & os & os' & Hd' & Ed & M & M').
  exists d'. split; [exact Hd'|]. split; [exact Ed|]. apply two_ways with (os := os) (os' := os') (ck := re_ck e) (iter := iter); auto.
  - eapply made_same with (st := st); [|exact G|exact M]. intros f o _ P. exact (job_fresh x e m arch inl fs f o SP SA P).
  - eapply made_same with (st := st); [|exact G|exact M']. intros f o _ P. exact (job_fresh x e m arch inl fs f o SP SA P).
Qed.
Print Assumptions C64_functions.
Theorem C64_same_sources : forall x e iter m arch inl fs st jobs jobs' files s s' d shown, sort_perm (re_sort e) -> sane (ex_ps x) -> iterates iter -> 1 <= jobs -> 1 <= jobs' ->
  let S := several_sys x e iter m arch inl fs st in good_input (re_ck e) (sy_proc S) st files ->
  reach S (Nat.min jobs (length files)) (start jobs files) s -> ended s ->
  reach S (Nat.min jobs' (length files)) (start jobs' files) s' -> ended s' -> In d (stored s) ->
  (forall o, module_of (sy_proc S) files (ob_debug_id d) o -> fresh shown o) ->
  (forall o p, module_of (sy_proc S) files (ob_debug_id d) o -> module_of (sy_proc S) files (ob_debug_id d) p -> same_paths o p) ->
  exists d', In d' (stored s') /\ ob_debug_id d' = ob_debug_id d /\
    (forall k a b, nfind k (ob_syms d) = Some a -> sy_public a = false -> nfind k (ob_syms d') = Some b -> sy_public b = false ->
       one_func (sy_proc S) files (ob_debug_id d) k -> same_source d a d' b).
Proof.
  intros x e iter m arch inl fs st jobs jobs' files s s' d shown SP SA It J J' S G R E R' E' Hd FR SS.
  destruct (two_runs x e iter m arch inl fs st jobs jobs' files s s' d SP SA It J J' G R E R' E' Hd) as (d' & os & os' & Hd' & Ed & M & M').
  exists d'. split; [exact Hd'|]. split; [exact Ed|]. apply two_ways_sources with (os := os) (os' := os') (ck := re_ck e) (iter := iter) (shown := shown); auto.
  intros o Ho. split; [now apply FR|]. destruct Ho as (f & Hf & Pf & _). destruct (proj1 G f Hf) as (o' & P' & Fi). assert (o' = o) by congruence. now subst.
Qed.
Print Assumptions C64_same_sources.
(** Example: files of 1 and 2 functions with one id, and one of another. *)
Definition mx_pair : list str := [lit "/a"; lit "/c"; lit "/d"].
Lemma mx_files_of k : In (files_of (sy_proc mx_sys) k mx_pair) [[]; [lit "/a"; lit "/d"]; [lit "/c"]].
Proof.
  unfold files_of, mx_pair. cbn [filter].
  assert (A : exists o, sy_proc mx_sys (lit "/a") = Ok o /\ ob_debug_id o = lit "AB") by (eexists; split; vm_compute; reflexivity).
  assert (B : exists o, sy_proc mx_sys (lit "/c") = Ok o /\ ob_debug_id o = lit "CD") by (eexists; split; vm_compute; reflexivity).
  assert (D : exists o, sy_proc mx_sys (lit "/d") = Ok o /\ ob_debug_id o = lit "AB") by (eexists; split; vm_compute; reflexivity).
  destruct A as (a & -> & ->), B as (b & -> & ->), D as (d & -> & ->).
  destruct (str_eqb (lit "AB") k) eqn:E1, (str_eqb (lit "CD") k) eqn:E2; [|right; now left|right; right; now left|now left].
  apply str_eqb_eq in E1, E2. subst k. discriminate.
Qed.
Example C64_ex : good_input (re_ck ix_env) (sy_proc mx_sys) (fun _ r => r = Ok tt) mx_pair /\ pairs (sy_proc mx_sys) mx_pair /\
  reach mx_sys (Nat.min 2 (length mx_pair)) (start 2 mx_pair) (mx_end mx_pair) /\ ended (mx_end mx_pair) /\
  files_of (sy_proc mx_sys) (lit "AB") mx_pair = [lit "/a"; lit "/d"] /\ map (fun d => length (ob_syms d)) (stored (mx_end mx_pair)) = [1; 2].
Proof.
  splits; [apply mx_good; cbn; intuition| |apply mx_reach|left; vm_compute; reflexivity|vm_compute; reflexivity|vm_compute; reflexivity].
  intros k. pose proof (mx_files_of k) as H. destruct H as [<- |[<- |[<- |[]]]]; (split; [cbn; lia|]); intros f g o p [=] P Q; subst.
  intros X. assert (Y : match sy_proc mx_sys (lit "/a"), sy_proc mx_sys (lit "/d") with Ok a, Ok b => (lenN (ob_syms a) =? lenN (ob_syms b))%N | _, _ => false end = false) by (vm_compute; reflexivity).
  rewrite P, Q in Y. lia.
Qed.

(** Example: two files of the same source with one id; only the second has a
    function at 8192. *)
Definition mx_src : list str := [lit "/a"; lit "/f"].
Lemma mx_fresh f o : sy_proc mx_sys f = Ok o -> fresh (fun p => p) o.
Proof.
  intros P. change (snd (get_job mx ix_env (fun _ => Ok None) 0 true mx_fs f) = Ok o) in P. unfold get_job in P. apply next_ok in P as (fs1 & n & _ & P). apply next_ok in P as (fs2 & b & _ & P).
  unfold get_object_info in P. destruct (ps_peek (ex_ps mx) b) eqn:K; try (exfalso; cbn in K; repeat (match type of K with context [match ?x with _ => _ end] => destruct x; try discriminate end); fail).
  cbn [snd] in P. unfold from_elf in P. destruct (ps_object (ex_ps mx) b) as [p|] eqn:E; [|discriminate].
  assert (PF : parsed_from (ex_ps mx) p) by (exists b; auto). exact (fresh_from _ _ _ _ _ _ _ _ mx_sorts mx_sane PF P).
Qed.
Lemma mx_module o : module_of (sy_proc mx_sys) mx_src (lit "AB") o -> o = mx_at (lit "/a") \/ o = mx_at (lit "/f").
Proof. intros (f & [<- |[<- |[]]] & P & _); [left|right]; unfold mx_at; now rewrite P. Qed.
Example C64_ex_functions : good_input (re_ck ix_env) (sy_proc mx_sys) (fun _ r => r = Ok tt) mx_src /\
  reach mx_sys (Nat.min 2 (length mx_src)) (start 2 mx_src) (mx_end mx_src) /\ ended (mx_end mx_src) /\
  map ob_debug_id (stored (mx_end mx_src)) = [lit "AB"] /\
  (forall o, module_of (sy_proc mx_sys) mx_src (lit "AB") o -> no_placeholder o /\ fresh (fun p => p) o) /\
  (forall o p, module_of (sy_proc mx_sys) mx_src (lit "AB") o -> module_of (sy_proc mx_sys) mx_src (lit "AB") p -> same_paths o p) /\
  one_func (sy_proc mx_sys) mx_src (lit "AB") 8192 /\ (forall d, In d (stored (mx_end mx_src)) -> has_func d 8192) /\ ~ one_func (sy_proc mx_sys) mx_src (lit "AB") 4096.
Proof.
  assert (NF : ~ has_func (mx_at (lit "/a")) 8192). { intros (q & H & _). vm_compute in H. discriminate. }
  splits; [|apply mx_reach|left; vm_compute; reflexivity|vm_compute; reflexivity| | | | |].
  - split; [|intros d r; reflexivity]. intros f [<- |[<- |[]]]; eexists; (split; [vm_compute; reflexivity|right; apply fits_dec; [vm_compute; reflexivity|vm_compute; repeat constructor]]).
  - intros o M. split; [|destruct M as (f & _ & P & _); exact (mx_fresh f o P)].
    apply mx_module in M as [-> | ->]; (apply mx_no_placeholder; [vm_compute; reflexivity|]); (vm_compute; repeat constructor).
  - intros o p M M'. apply mx_module in M as [-> | ->]; apply mx_module in M' as [-> | ->]; intros q; vm_compute; tauto.
  - intros o p M M' H H'. apply mx_module in M as [-> | ->]; apply mx_module in M' as [-> | ->]; auto; exfalso; auto.
  - intros d Hd. assert (X : forallb (fun d => match nfind 8192 (ob_syms d) with Some s => negb (sy_public s) | None => false end) (stored (mx_end mx_src)) = true) by (vm_compute; reflexivity).
    rewrite forallb_forall in X. specialize (X d Hd). unfold has_func. destruct (nfind 8192 (ob_syms d)) as [q|] eqn:Q; [|discriminate]. exists q. split; [reflexivity|]. destruct (sy_public q); [discriminate X|reflexivity].
  - intros U. assert (E : mx_at (lit "/a") = mx_at (lit "/f")).
    { apply U; [exists (lit "/a")|exists (lit "/f")|eexists; split; vm_compute; reflexivity|eexists; split; vm_compute; reflexivity]; (split; [cbn; tauto|split; vm_compute; reflexivity]). }
    apply (f_equal (fun o => lenN (ob_syms o))) in E. vm_compute in E. discriminate.
Qed.

(** ** C65: listing the architectures of several files *)
(** The lists are printed in the order of the command line ... *)
Theorem C65_in_order : forall x arch_name w files ts, Forall2 (lists x arch_name (w_fs w)) files ts ->
  main_list x arch_name w files = (mkWorld (w_fs w) (w_out w ++ encode (concat ts)) (w_err w), 0%N).
Proof.
  intros x an w files ts H. unfold main_list. assert (L : list_arch x an (w_fs w) files = (concat ts, Ok tt)); [|now rewrite L].
  induction H as [|f t fs ts (n & d & F & R & P) _ IH]; [reflexivity|]. cbn [list_arch]. unfold get_filename. rewrite F. cbn [bind]. rewrite R. cbn [bind]. rewrite P, IH. reflexivity.
Qed.
Print Assumptions C65_in_order.
(** ... up to the first file that has none, which decides the exit status
    whatever follows it. *)
Theorem C65_stops : forall x arch_name w files ts f, Forall2 (lists x arch_name (w_fs w)) files ts -> (forall t, ~ lists x arch_name (w_fs w) f t) ->
  exists n, n <> 0%N /\ forall rest, main_list x arch_name w (files ++ f :: rest) = (mkWorld (w_fs w) (w_out w ++ encode (concat ts)) (w_err w), n).
Proof.
  intros x an w files ts f H N.
  assert (B : exists r, r <> Ok tt /\ forall rest, list_arch x an (w_fs w) (f :: rest) = ([], r)).
  { cbn [list_arch]. unfold lists in N. unfold get_filename. destruct (path_file_name f) as [n|]; cbn [bind]; [|eexists; split; [|reflexivity]; discriminate].
    destruct (read_file _ _ _ f) as [d|m|m] eqn:R; cbn [bind]; try (eexists; split; [|reflexivity]; discriminate).
    destruct (print_macho_architectures _ _ d n) as [t|m|m] eqn:P; try (eexists; split; [|reflexivity]; discriminate). exfalso. eapply N. eauto. }
  destruct B as (r & NR & B). exists (exit_code r). split; [destruct r as [[]|m|m]; cbn; congruence|]. intros rest. unfold main_list.
  assert (L : list_arch x an (w_fs w) (files ++ f :: rest) = (concat ts, r)); [|now rewrite L].
  induction H as [|g t fs ts (n & d & F & R & P) _ IH]; [apply B|]. cbn [app]. remember (fs ++ f :: rest) as l. cbn [list_arch]. unfold get_filename. rewrite F. cbn [bind]. rewrite R. cbn [bind]. rewrite P, IH. reflexivity.
Qed.
Print Assumptions C65_stops.
(** One file on the command line is the same. *)
Theorem C65_one : forall version cpus x e arch_name cfg a w file, ar_list_arch a = true -> Forall info_text (ar_extra a) ->
  (forall t, lists x arch_name (w_fs w) file t -> main_one version cpus x e arch_name cfg a w file = (mkWorld (w_fs w) (w_out w ++ encode t) (w_err w), 0%N)) /\
  ((forall t, ~ lists x arch_name (w_fs w) file t) -> exists n, n <> 0%N /\ main_one version cpus x e arch_name cfg a w file = (w, n)).
Proof.
  intros version cpus x e an cfg a w file L F. assert (M : main_one version cpus x e an cfg a w file = main_list x an w [file]).
  { unfold main_one, plan. rewrite (extra_ok _ _ _ F). cbn [bind]. now rewrite L. }
  rewrite M. split.
  - intros t T. rewrite (C65_in_order x an w [file] [t]); [|auto]. cbn [concat]. now rewrite app_nil_r.
  - intros N. destruct (C65_stops x an w [] [] file) as (n & Nn & E); [constructor|exact N|]. exists n. split; [exact Nn|]. specialize (E []). cbn [app concat] in E. rewrite E.
    change (encode []) with (@nil BinNums.N). rewrite app_nil_r. now destruct w.
Qed.
Print Assumptions C65_one.
Definition lx_w : World := mkWorld [([lit "a"], NFile (lit "M1")); ([lit "b"], NFile (lit "M1")); ([lit "c"], NFile (lit "E"))] (lit "> ") [].
Example C65_ex : exists t1 t2, Forall2 (lists ix dec (w_fs lx_w)) [lit "/a"; lit "/b"] [t1; t2] /\ (forall t, ~ lists ix dec (w_fs lx_w) (lit "/c") t) /\
  w_out (fst (main_list ix dec lx_w [lit "/a"; lit "/b"])) = encode (lit "> " ++ t1 ++ t2).
Proof.
  do 2 eexists. splits.
  - constructor; [do 2 eexists; splits; vm_compute; reflexivity|]. constructor; [do 2 eexists; splits; vm_compute; reflexivity|constructor].
  - intros t (n & d & A & B & C). vm_compute in B. injection B as <-. vm_compute in C. discriminate.
  - vm_compute. reflexivity.
Qed.
Example C65_ex_one : snd (main_one [] 1 ix ix_env dec ix_cf (mkArgs [] None None [] [] true [] true) lx_w (lit "/a")) = 0%N /\
  main_one [] 1 ix ix_env dec ix_cf (mkArgs [] None None [] [] true [] true) lx_w (lit "/c") = (lx_w, 1%N).
Proof. vm_compute. auto. Qed.

(** ** C66: exit status for several files *)
Theorem C66_statuses : forall x e iter cf jobs fs files st n, several_exit x e iter cf jobs fs files st n ->
  n = 0%N \/ n = 101%N \/ n = 1%N /\ ((exists m, cf_map cf = Err m) \/ cf_arch cf = None).
Proof. intros x e iter cf jobs fs files st n [[f|s|s] E N|m E A|m a s E A R D|m a s E A R D]; cbn; eauto 6. Qed.
Print Assumptions C66_statuses.
(** A mapping that cannot be used, or an unknown architecture: nothing is begun. *)
Theorem C66_refused : forall x e iter cf jobs fs files st n,
  (forall s, cf_map cf = Err s -> (several_exit x e iter cf jobs fs files st n <-> n = 1%N)) /\
  (forall s, cf_map cf = Panic s -> (several_exit x e iter cf jobs fs files st n <-> n = 101%N)) /\
  (forall m, cf_map cf = Ok m -> cf_arch cf = None -> (several_exit x e iter cf jobs fs files st n <-> n = 1%N)).
Proof.
  intros x e iter cf jobs fs files st n. splits.
  - intros s E. split; [intros [r E' N|m E' A|m a s' E' A R D|m a s' E' A R D]; try congruence; now replace r with (@Err (str -> res (option str)) s) by congruence|].
    intros ->. exact (se_map x e iter cf jobs fs files st _ E ltac:(discriminate)).
  - intros s E. split; [intros [r E' N|m E' A|m a s' E' A R D|m a s' E' A R D]; try congruence; now replace r with (@Panic (str -> res (option str)) s) by congruence|].
    intros ->. exact (se_map x e iter cf jobs fs files st _ E ltac:(discriminate)).
  - intros m E A. split; [intros [r E' N|m' E' A'|m' a s' E' A' R D|m' a s' E' A' R D]; try congruence; exfalso; apply (N m); congruence|].
    intros ->. exact (se_arch x e iter cf jobs fs files st m E A).
Qed.
Print Assumptions C66_refused.
Example C66_ex_refused : cf_map (mkConfig (OFile FStdout) None None None None true true (Ok (fun _ => Ok None))) = Ok (fun _ => Ok None) /\
  forall n, several_exit mx ix_env (fun l => l) (mkConfig (OFile FStdout) None None None None true true (Ok (fun _ => Ok None))) 2 mx_fs mx_files (fun _ r => r = Ok tt) n <-> n = 1%N.
Proof. split; [reflexivity|]. intros n. now apply (proj2 (proj2 (C66_refused mx ix_env (fun l => l) (mkConfig (OFile FStdout) None None None None true true (Ok (fun _ => Ok None))) 2 mx_fs mx_files (fun _ r => r = Ok tt) n)) (fun _ => Ok None)). Qed.
(** When every file can be processed and stored, a run that ends gives zero. *)
Theorem C66_success : forall x e iter cf m a jobs fs files st n, sort_perm (re_sort e) -> sane (ex_ps x) -> iterates iter -> cf_map cf = Ok m -> cf_arch cf = Some a ->
  good_input (re_ck e) (sy_proc (several_sys x e iter m a (cf_inlines cf) fs st)) st files -> several_exit x e iter cf jobs fs files st n -> n = 0%N.
Proof.
  intros x e iter cf m a jobs fs files st n SP SA It M A G H. destruct (C63_works x e iter m a (cf_inlines cf) fs st files SP SA It G) as (KK & W).
  inversion H as [r E N|m' E A'|m' a' s E A' R D|m' a' s E A' R D]; subst; [exfalso; eapply N; eauto|congruence|reflexivity|].
  assert (m' = m) by congruence. assert (a' = a) by congruence. subst m' a'. destruct (complete_ok _ _ _ _ KK W R (or_intror D)) as (C & _). unfold complete in C. congruence.
Qed.
Print Assumptions C66_success.
(** A file that makes its worker panic is never covered up, unless another one
    fails with an error. *)
Theorem C66_panic : forall x e iter cf m a jobs fs files st n, sort_perm (re_sort e) -> sane (ex_ps x) -> iterates iter -> cf_map cf = Ok m -> cf_arch cf = Some a -> 1 <= jobs ->
  let S := several_sys x e iter m a (cf_inlines cf) fs st in
  (forall f o, In f files -> sy_proc S f = Ok o -> re_ck e = false \/ ends_fit (ob_syms o)) -> (forall f s, In f files -> sy_proc S f <> Err s) ->
  (exists f s, In f files /\ sy_proc S f = Panic s) -> several_exit x e iter cf jobs fs files st n -> n = 101%N.
Proof.
  intros x e iter cf m a jobs fs files st n SP SA It M A J S G NE (f & s0 & Ff & Pf) H.
  assert (KK : key_kept S) by apply dump_kept.
  assert (MG : merges S files) by (apply dump_merges; auto; intros g o _ P; exact (job_fresh x e m a (cf_inlines cf) fs g o SP SA P)).
  assert (FC : 1 <= cnt (fails S) files).
  { unfold cnt. assert (I : In f (filter (fails S) files)) by (apply filter_In; split; [exact Ff|unfold fails; now rewrite Pf]). destruct (filter (fails S) files); [destruct I|cbn; lia]. }
  inversion H as [r E N|m' E A'|m' a' s E A' R D|m' a' s E A' R D]; subst; [exfalso; eapply N; eauto|congruence| |reflexivity].
  assert (m' = m) by congruence. assert (a' = a) by congruence. subst m' a'. exfalso. exact (failing_panics S jobs files s KK MG NE FC J R D).
Qed.
Print Assumptions C66_panic.
(** A file that fails with an error can go unnoticed: exit status zero although
    nothing is stored; with the same file alone the status is not zero. *)
Definition mx_cf : Config := mkConfig (OFile FStdout) None None None (Some 0%N) true true (Ok (fun _ => Ok None)).
Definition mx_bad : list str := [lit "/e"; lit "/a"].
Definition mx_bad_end : St Obj := go mx_sys 1 [Main; Worker 0] 200 (start 1 mx_bad).
Theorem C66_error_refuted : exists x e iter cf fs st files f, sort_perm (re_sort e) /\ sane (ex_ps x) /\ iterates iter /\ (forall d r, st d r <-> r = Ok tt) /\ In f files /\
  several_exit x e iter cf 1 fs files st 0 /\ (exists m a s, cf_map cf = Ok m /\ cf_arch cf = Some a /\
    reach (several_sys x e iter m a (cf_inlines cf) fs st) (Nat.min 1 (length files)) (start 1 files) s /\ complete s /\ stored s = []) /\
  exit_code (snd (single_file x e [] cf (mkWorld fs [] []) f)) = 1%N.
Proof.
  assert (R : reach mx_sys (Nat.min 1 (length mx_bad)) (start 1 mx_bad) mx_bad_end) by (apply go_reach; [apply mx_choice|constructor]).
  exists mx, ix_env, (fun l => l), mx_cf, mx_fs, (fun _ r => r = Ok tt), mx_bad, (lit "/e").
  splits; [apply mx_sorts|apply mx_sane|intros l; reflexivity|intros d r; reflexivity|now left| | |vm_compute; reflexivity].
  - exact (se_done mx ix_env (fun l => l) mx_cf 1 mx_fs mx_bad (fun _ r => r = Ok tt) (fun _ => Ok None) 0%N mx_bad_end eq_refl eq_refl R ltac:(vm_compute; reflexivity)).
  - exists (fun _ => Ok None), 0%N, mx_bad_end. splits; [reflexivity|reflexivity|exact R|vm_compute; reflexivity|vm_compute; reflexivity].
Qed.
Print Assumptions C66_error_refuted.
(** Examples: a run that ends well, and a file that does not exist, which makes
    its worker panic. *)
Example C66_ex : several_exit mx ix_env (fun l => l) mx_cf 2 mx_fs mx_files (fun _ r => r = Ok tt) 0.
Proof.
  exact (se_done mx ix_env (fun l => l) mx_cf 2 mx_fs mx_files (fun _ r => r = Ok tt) (fun _ => Ok None) 0%N (mx_end mx_files) eq_refl eq_refl (mx_reach mx_files) ltac:(vm_compute; reflexivity)).
Qed.
Definition mx_gone : list str := [lit "/zz"; lit "/a"].
Example C66_ex_panic : (forall f s, In f mx_gone -> sy_proc mx_sys f <> Err s) /\ (exists s, sy_proc mx_sys (lit "/zz") = Panic s) /\
  several_exit mx ix_env (fun l => l) mx_cf 1 mx_fs mx_gone (fun _ r => r = Ok tt) 101.
Proof.
  splits.
  - intros f s [<- |[<- |[]]]; vm_compute; discriminate.
  - eexists. vm_compute. reflexivity.
  - assert (R : reach mx_sys (Nat.min 1 (length mx_gone)) (start 1 mx_gone) (go mx_sys 1 [Main; Worker 0] 200 (start 1 mx_gone))) by (apply go_reach; [apply mx_choice|constructor]).
    exact (se_panic mx ix_env (fun l => l) mx_cf 1 mx_fs mx_gone (fun _ r => r = Ok tt) (fun _ => Ok None) 0%N _ eq_refl eq_refl R ltac:(vm_compute; reflexivity)).
Qed.
(** Files that are all processed well can make the program panic when they are
    merged: with overflow checks a record that ends beyond 2^32 and a public at a
    higher address of another file of the same debug id are too much. Without
    overflow checks the same files give zero. *)
Definition vx_parsed (fs : list (option Fun)) (pubs : list Pub) : Parsed :=
  mkParsed (Some fs) (lit "AB") None (lit "x86_64") true false None pubs 4096 [] (fun _ _ => None) true (lit "STACK CFI INIT 10 20 x" ++ [c_nl]) BOther None.
Definition vx_ps : Parsers := mkParsers (fun _ => FmtElf)
  (fun d => match d with [70%N] => Some (vx_parsed [Some (ox_fun 4096 1 []); Some (ox_fun 4294967280 1 [])] []) | [80%N] => Some (vx_parsed [] [mkPub 4294967288 4 (Some (lit "pub"))]) | _ => None end)
  (fun _ => None) (fun _ => None) (fun _ => None).
Definition vx : Ext := mkExt vx_ps (M_Cache.mkCEnv ix_os ix_cab (fun _ => true)) (mkNet (fun _ => None) (fun _ => None)) (fun l => l) None.
Definition vx_fs : FS := [([lit "a"], NFile (lit "F")); ([lit "b"], NFile (lit "P"))].
Definition vx_files : list str := [lit "/a"; lit "/b"].
Lemma vx_sane : sane (ex_ps vx).
Proof.
  intros p (d & [H|[(pe & H & _)|[(pd & H & _)|(l & a & H & _)]]]); try discriminate. cbn in H.
  repeat (match type of H with context [match ?x with _ => _ end] => destruct x; try discriminate end); injection H as <-; (split; [|intros xs b e' E; discriminate]).
  - intros fs [= <-] r r' A B _ _ _ _ _ _. assert (Q : forall q, In q (flat_map fun_refs (readable [Some (ox_fun 4096 1 []); Some (ox_fun 4294967280 1 [])])) -> q = cx_file 1) by (intros q Hq; cbn in Hq; intuition).
    rewrite (Q r A), (Q r' B). auto.
  - intros fs [= <-] r r' A. destruct A.
Qed.
Definition vx_sys (ck : bool) : Sys Obj := several_sys vx (ox_env ck (fun _ => Ok None)) (fun l => l) (fun _ => Ok None) 0 true vx_fs (fun _ r => r = Ok tt).
Theorem C66_overflow_refuted : exists x e e' iter cf fs st files, sort_perm (re_sort e) /\ sort_perm (re_sort e') /\ sane (ex_ps x) /\ iterates iter /\ (forall d r, st d r <-> r = Ok tt) /\
  re_ck e = true /\ re_ck e' = false /\ (forall m a f, cf_map cf = Ok m -> cf_arch cf = Some a -> In f files -> exists o, snd (get_job x e m a (cf_inlines cf) fs f) = Ok o /\ snd (get_job x e' m a (cf_inlines cf) fs f) = Ok o) /\
  several_exit x e iter cf 2 fs files st 101 /\ several_exit x e' iter cf 2 fs files st 0 /\ forall n, several_exit x e' iter cf 2 fs files st n -> n = 0%N.
Proof.
  assert (L : forall ck, legal (vx_sys ck) some_choice) by (intros ck; split; [intros l; reflexivity|reflexivity]).
  assert (R : forall ck, reach (vx_sys ck) (Nat.min 2 (length vx_files)) (start 2 vx_files) (go (vx_sys ck) 2 [Worker 0; Worker 1; Main] 200 (start 2 vx_files))) by (intros ck; apply go_reach; [apply L|constructor]).
  assert (SP : forall ck, sort_perm (re_sort (ox_env ck (fun _ => Ok None)))) by (intros ck; apply sorts_perm, cx_sorts).
  assert (J : forall m a f, cf_map mx_cf = Ok m -> cf_arch mx_cf = Some a -> In f vx_files -> exists o, snd (get_job vx (ox_env true (fun _ => Ok None)) m a (cf_inlines mx_cf) vx_fs f) = Ok o /\ snd (get_job vx (ox_env false (fun _ => Ok None)) m a (cf_inlines mx_cf) vx_fs f) = Ok o).
  { intros m a f [= <-] [= <-] [<- |[<- |[]]]; eexists; split; vm_compute; reflexivity. }
  exists vx, (ox_env true (fun _ => Ok None)), (ox_env false (fun _ => Ok None)), (fun l => l), mx_cf, vx_fs, (fun _ r => r = Ok tt), vx_files.
  splits; [apply SP|apply SP|apply vx_sane|intros l; reflexivity|intros d r; reflexivity|reflexivity|reflexivity|exact J| | |].
  - exact (se_panic vx (ox_env true (fun _ => Ok None)) (fun l => l) mx_cf 2 vx_fs vx_files (fun _ r => r = Ok tt) (fun _ => Ok None) 0%N _ eq_refl eq_refl (R true) ltac:(vm_compute; reflexivity)).
  - exact (se_done vx (ox_env false (fun _ => Ok None)) (fun l => l) mx_cf 2 vx_fs vx_files (fun _ r => r = Ok tt) (fun _ => Ok None) 0%N _ eq_refl eq_refl (R false) ltac:(vm_compute; reflexivity)).
  - intros n. apply (C66_success vx (ox_env false (fun _ => Ok None)) (fun l => l) mx_cf (fun _ => Ok None) 0%N 2 vx_fs vx_files (fun _ r => r = Ok tt) n); auto using vx_sane.
    + intros l; reflexivity.
    + split; [|intros d r; reflexivity]. intros f F. destruct (J (fun _ => Ok None) 0%N f eq_refl eq_refl F) as (o & _ & E). exists o. split; [exact E|now left].
Qed.
Print Assumptions C66_overflow_refuted.
