(** A download that panics leaves nothing but new files in the caches (C92). *)
From Verif Require Import Base Str Utf8 M_Path M_Source M_Symbol M_Object M_Fs M_Cache M_Store M_Input M_Sched M_Many M_Shared M_Left
  S_Path S_Fs S_Cache S_Shared S_Confined S_Added P_Fs P_Cache P_Added P_Left T_Input T_Many T_Fetched T_Confined T_Added.
Local Open Scope N_scope.

(** Without a panic it is the disk of the model of the program. *)
Theorem C92_agrees : forall x e cf fs f fs' r, load_file x e cf fs f = (fs', r) -> (forall m, r <> Panic m) -> load_left x cf fs f = fs'.
Proof. intros x e cf fs f fs' r L N. apply (load_left_same x e cf fs f fs' r L). intros (m & E). exact (N m E). Qed.
Print Assumptions C92_agrees.
(** One file, given by path or by id, whether or not there is a panic. *)
Theorem C92_load : forall x cf fs f, (forall js, Permutation (ex_sched x js) js) -> proper_ids x -> (forall i, cf_debug_id cf = Some i \/ cf_code_id cf = Some i -> proper i) ->
  kept_there x (cf_symbol_server cf) (asked_for x cf f) fs (load_left x cf fs f).
Proof. intros x cf fs f SC ID PI. now apply load_left_kept. Qed.
Print Assumptions C92_load.
Theorem C92_nothing_replaced : forall x cf fs f l n, (forall js, Permutation (ex_sched x js) js) -> proper_ids x -> (forall i, cf_debug_id cf = Some i \/ cf_code_id cf = Some i -> proper i) ->
  fs_get fs l = Some n -> fs_get (load_left x cf fs f) l = Some n.
Proof.
  intros x cf fs f l n SC ID PI G. destruct (C92_load x cf fs f SC ID PI) as [E|(sv & _ & A)]; [now rewrite E|exact (added_some _ _ _ _ _ _ _ A G)].
Qed.
Print Assumptions C92_nothing_replaced.
(** One lookup: without a panic what is left is its outcome; with one it is there
    all the same, in the cache of a server that was asked. *)
Theorem C92_lookup : forall e n sched fs name id sv, proper name -> proper id -> (forall js, Permutation (sched js) js) ->
  added (ce_os e) sv (fun a b => a = name /\ b = id) fs (search_left e n sched fs name id (Some sv)) /\
  forall lk, search_file e n sched fs name id (Some sv) = Ok lk -> search_left e n sched fs name id (Some sv) = lk_fs lk.
Proof. intros e n sched fs name id sv Hn Hi P. split; [now apply search_left_added|]. intros lk. apply search_left_ok. Qed.
Print Assumptions C92_lookup.

(** A file that is new holds what the disk took of what a server gave. *)
Theorem C92_contents : forall e n sched fs name id servers l d, fs_get (search_left e n sched fs name id servers) l = Some (NFile d) ->
  fs_get fs l = Some (NFile d) \/ exists u buf, nt_get n u = Some buf /\ d = os_disk (ce_os e) buf.
Proof. exact search_left_contents. Qed.
Print Assumptions C92_contents.
(** A copy that panics has written a damaged file, and it stays, or none at all. *)
Theorem C92_damaged : forall e fs p d m, let left := copy_left e fs (Some p) d in copy_in_cache e fs (Some p) d = Panic m ->
  (fs_get left (locate (os_cwd (ce_os e)) p) = Some (NFile (os_disk (ce_os e) d)) /\ os_disk (ce_os e) d <> d) \/
  (m <> "Cannot write file"%string /\ forall l c, fs_get left l = Some (NFile c) -> fs_get fs l = Some (NFile c)).
Proof. exact copy_left_cut. Qed.
Print Assumptions C92_damaged.

(** The whole effect of dumping a file, also when that panics. *)
Theorem C92_file : forall x e extra cf w f, let module o := snd (load_file x e cf (w_fs w) f) = Ok o in
  (forall js, Permutation (ex_sched x js) js) -> proper_ids x -> (forall i, cf_debug_id cf = Some i \/ cf_code_id cf = Some i -> proper i) -> (forall o, module o -> proper_module o) ->
  (exists fs1, kept_there x (cf_symbol_server cf) (asked_for x cf f) (w_fs w) fs1 /\ only_at (ex_os x) (cf_output cf) module fs1 (w_fs (single_left x e extra cf w f))) /\
  ((forall m, snd (load_file x e cf (w_fs w) f) <> Panic m) -> single_left x e extra cf w f = fst (single_file x e extra cf w f)).
Proof.
  intros x e extra cf w f module SC ID PI PR. split.
  - destruct (single_file x e extra cf w f) as [v r] eqn:S. pose proof (C91_file x e extra cf w f v r SC ID PI PR S) as (fs1 & K & O). unfold single_left. rewrite S. cbn [fst].
    destruct (snd (load_file x e cf (w_fs w) f)) as [o|m|m] eqn:L; [now exists fs1..|]. exists (load_left x cf (w_fs w) f). split; [now apply C92_load|]. intros l. now left.
  - intros N. unfold single_left. destruct (snd (load_file x e cf (w_fs w) f)) as [o|m|m]; [reflexivity..|now elim (N m)].
Qed.
Print Assumptions C92_file.
(** Several files: each may panic in its worker, and the others go on with what
    it leaves. *)
Theorem C92_after : forall u l fs, (forall js, Permutation (ex_sched (u_ext u) js) js) -> proper_ids (u_ext u) ->
  kept_there (u_ext u) None (recorded_pdb (u_ext u)) fs (fold_left (job_left u) l fs) /\
  ((forall g f m, In f l -> snd (u_job u g f) <> Panic m) -> fold_left (job_left u) l fs = after u fs l).
Proof.
  intros u l fs SC ID. split.
  - revert fs. induction l as [|f l IH]; intros fs; [apply kept_refl|]. cbn [fold_left]. eapply kept_trans; [now apply job_left_kept|apply IH].
  - revert fs. unfold after. induction l as [|f l IH]; intros fs N; [reflexivity|]. cbn [fold_left]. rewrite IH by (intros g k m I; apply N; now right). f_equal.
    destruct (u_job u fs f) as [g r] eqn:J. cbn [fst]. apply (job_left_same u fs f g r J). intros (m & ->). apply (N fs f m); [now left|]. now rewrite J.
Qed.
Print Assumptions C92_after.

(** *** Examples *)
(** A disk that takes ten bytes, and a larger PDB. *)
Definition lf_data : list N := repeat 97 (N.to_nat 9000).
Definition lf_net : Net := mkNet (nt_head fe_net) (fun _ => Some lf_data).
Definition lf_os : Os := mkOs (os_cwd ix_os) (fun _ => true) (firstn 10) (fun _ => []).
Definition lf_ext (os : Os) : Ext := mkExt (ex_ps ad_ext) (M_Cache.mkCEnv os (fun _ => None) (fun _ => true)) lf_net (fun l => l) None.
Definition lf_at : Loc := [lit "x.pdb"; lit "AB"; lit "x.pdb"; lit "cache"].
Example C92_ex : snd (load_file (lf_ext lf_os) ix_env (ad_cf None) fe_fs (lit "/d/a.dll")) = Panic "Cannot write file" /\ fs_get fe_fs lf_at = None /\
  fs_get (load_left (lf_ext lf_os) (ad_cf None) fe_fs (lit "/d/a.dll")) lf_at = Some (NFile (lit "aaaaaaaaaa")) /\
  fs_get (load_left (lf_ext lf_os) (ad_cf None) fe_fs (lit "/d/a.dll")) [lit "a.dll"; lit "d"] = Some (NFile (lit "P1AB")).
Proof. splits; vm_compute; reflexivity. Qed.
(** A cache whose second directory cannot be made: the first stays. *)
Definition lf_ro : Os := mkOs (os_cwd ix_os) (fun l => (length l <=? 2)%nat) (fun d => d) (fun _ => []).
Example C92_ex_dirs : snd (load_file (lf_ext lf_ro) ix_env (ad_cf None) fe_fs (lit "/d/a.dll")) = Panic "Unable to create cache directory" /\
  fs_get fe_fs [lit "x.pdb"; lit "cache"] = None /\ fs_get (load_left (lf_ext lf_ro) (ad_cf None) fe_fs (lit "/d/a.dll")) [lit "x.pdb"; lit "cache"] = Some NDir /\
  fs_get (load_left (lf_ext lf_ro) (ad_cf None) fe_fs (lit "/d/a.dll")) [lit "AB"; lit "x.pdb"; lit "cache"] = None.
Proof. splits; vm_compute; reflexivity. Qed.
(** Two files whose PDBs are too large for the disk. *)
Definition lf_u : Setup := mkSetup (mkExt (ex_ps fe_ext) (ex_env (lf_ext lf_os)) lf_net (fun l => l) (Some (lit "/h"))) ix_env (fun l => l) (fun _ => Ok None) 0 true [] (OStore (lit "/s")) true.
Example C92_ex_after : let fs := fold_left (job_left lf_u) fe_files fe_fs in
  (forall f, In f fe_files -> snd (u_job lf_u fe_fs f) = Panic "Cannot write file") /\ fs_get fs lf_at = Some (NFile (lit "aaaaaaaaaa")) /\
  fs_get fs [lit "x.pdb"; lit "CD"; lit "x.pdb"; lit "cache"] = Some (NFile (lit "aaaaaaaaaa")) /\ fs_get fs [lit "b.dll"; lit "d"] = Some (NFile (lit "P2CD")).
Proof. intros fs. splits; [|vm_compute; reflexivity..]. intros f [<-|[<-|[]]]; vm_compute; reflexivity. Qed.
(** Dumping the file writes nothing to the store. *)
Example C92_ex_file : let w := set_fs fe_w fe_fs in let v := single_left (lf_ext lf_os) ix_env [] (ad_cf None) w (lit "/d/a.dll") in
  fs_get (w_fs v) lf_at = Some (NFile (lit "aaaaaaaaaa")) /\ fs_get (w_fs v) [lit "s"] = None.
Proof. split; vm_compute; reflexivity. Qed.
Example C92_ex_agrees : (forall m, snd (load_file ad_ext ix_env (ad_cf None) fe_fs (lit "/d/a.dll")) <> Panic m) /\
  fs_get (load_left ad_ext (ad_cf None) fe_fs (lit "/d/a.dll")) lf_at = Some (NFile (lit "D3AB")).
Proof. split; [intros m|]; vm_compute; [discriminate|reflexivity]. Qed.

(** But what a panic leaves is taken for the file: the lookup fails on a full
    disk, and with room on the disk the next one answers with the ten bytes and
    asks no server. *)
Theorem C92_later_refuted : exists e e' n sched fs name id sv d, let left := search_left e n sched fs name id (Some sv) in
  (forall js, Permutation (sched js) js) /\ proper name /\ proper id /\ healthy (ce_os e') /\ (exists m, search_file e n sched fs name id (Some sv) = Panic m) /\
  (forall u b, nt_get n u = Some b -> b <> d) /\ search_file e' n sched left name id (Some sv) = Ok (mkLookup (Some d) left []).
Proof.
  exists (ex_env (lf_ext lf_os)), (ex_env (lf_ext ix_os)), lf_net, (fun l => l), fe_fs, (lit "x.pdb"), (lit "AB"), fe_sv, (lit "aaaaaaaaaa"). intros left. splits.
  - intros js. apply Permutation_refl.
  - unfold proper. splits; vm_compute; intuition discriminate.
  - unfold proper. splits; vm_compute; intuition discriminate.
  - intros d. reflexivity.
  - eexists. vm_compute. reflexivity.
  - intros u b [= <-] E. apply (f_equal lenN) in E. vm_compute in E. discriminate E.
  - vm_compute. reflexivity.
Qed.
Print Assumptions C92_later_refuted.
