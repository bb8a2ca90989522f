(** Theorem C85: lookups on symbol servers by several workers at the same time. *)
From Verif Require Import Base Str Utf8 M_Path S_Path M_Fs S_Fs P_Fs M_Source M_Cache S_Cache P_Cache M_Store S_Store P_Store M_Shared S_Shared P_Shared M_Beside S_Beside P_Beside T_Cache.

(** ** C85 *)
(** The operations of a lookup, one after the other, are the lookup of C41 to C43. *)
Inductive goes (e : CEnv) (n : Net) (cut : list N -> list (list N)) (sv : list SymbolServer) (r : Req) : FS * Seek -> FS * Seek -> Prop :=
| goes_nil s : goes e n cut sv r s s
| goes_step fs k s s' : seek_step e n cut sv r fs k = Some s -> goes e n cut sv r s s' -> goes e n cut sv r (fs, k) s'.
Lemma goes_trans e n cut sv r s1 s2 s3 : goes e n cut sv r s1 s2 -> goes e n cut sv r s2 s3 -> goes e n cut sv r s1 s3.
Proof. induction 1; [auto|]. intros. eapply goes_step; eauto. Qed.
Lemma goes_sought e n cut sv r fs0 s s' : goes e n cut sv r s s' -> sought e n cut sv fs0 [r] (fst s) [(r, snd s)] -> sought e n cut sv fs0 [r] (fst s') [(r, snd s')].
Proof.
  induction 1 as [|fs k [fs1 k1] s' E G IH]; [auto|]. intros S. apply IH. apply (sought_step e n cut sv fs0 [r] fs [] r k [] fs1 k1 S E).
Qed.
Lemma goes_look e n cut sv r fs l : goes e n cut sv r (fs, KLook l) (fs, match search_in_cache e fs l (rq_id r) (get_base (rq_name r)) (rq_name r) with Some p => KRead p | None => KAsk end).
Proof.
  induction l as [|s l IH]; cbn [search_in_cache].
  - eapply goes_step; [reflexivity|constructor].
  - eapply goes_step; [reflexivity|]. destruct (sv_cache s) as [c|]; [|exact IH]. cbv zeta. destruct (path_exists _ _ _); [constructor|exact IH].
Qed.
Lemma goes_write e n cut sv r p buf : forall rest old fs, locate (os_cwd (ce_os e)) p <> [] -> fs_get fs (locate (os_cwd (ce_os e)) p) = Some (NFile old) ->
  exists fs', goes e n cut sv r (fs, KWrite p (lenN old) rest buf) (fs', KDone (unpack e (rq_name r) buf)) /\ same_fs fs' (fs_set fs (locate (os_cwd (ce_os e)) p) (NFile (old ++ concat rest))).
Proof.
  induction rest as [|c rest IH]; intros old fs NL G; cbn [concat].
  - exists fs. split; [eapply goes_step; [reflexivity|constructor]|]. rewrite app_nil_r. intros l. destruct (loc_eqb (locate (os_cwd (ce_os e)) p) l) eqn:E.
    + apply loc_eqb_eq in E as <-. now rewrite fs_get_same.
    + rewrite fs_get_other; [reflexivity|]. intros X. apply loc_eqb_eq in X. congruence.
  - set (fs1 := fs_set fs (locate (os_cwd (ce_os e)) p) (NFile (old ++ c))). destruct (IH (old ++ c) fs1 NL ltac:(now apply fs_get_same)) as (fs' & G1 & S1).
    exists fs'. split.
    + eapply goes_step; [cbn [seek_step]; rewrite G; reflexivity|]. rewrite write_at_end. fold fs1. replace (lenN old + lenN c) with (lenN (old ++ c)) by (unfold lenN; rewrite app_length; lia). exact G1.
    + intros l. rewrite S1. unfold fs1. rewrite <- app_assoc. apply set_twice.
Qed.
Theorem C85_alone : forall e n cut sv r fs, healthy (ce_os e) -> whole cut -> rq_name r <> [] ->
  exists fs' q, sought e n cut sv fs [r] fs' [(r, KDone q)] /\
  match search_file e n (rq_sched r) fs (rq_name r) (rq_id r) (Some sv) with Ok l => q = Ok (lk_data l) /\ same_fs fs' (lk_fs l) | Err m => q = Err m | Panic m => q = Panic m end.
Proof.
  intros e n cut sv r fs HE WH NN.
  cut (exists fs' q, goes e n cut sv r (fs, KLook sv) (fs', KDone q) /\
    match search_file e n (rq_sched r) fs (rq_name r) (rq_id r) (Some sv) with Ok l => q = Ok (lk_data l) /\ same_fs fs' (lk_fs l) | Err m => q = Err m | Panic m => q = Panic m end).
  { intros (fs' & q & G & M). exists fs', q. split; [|exact M]. apply (goes_sought e n cut sv r fs _ _ G). apply (sought_start e n cut sv fs [r]). }
  pose proof (goes_look e n cut sv r fs sv) as L. unfold search_file. destruct (rq_name r) as [|x0 nm] eqn:En; [easy|]. rewrite <- En in *.
  destruct (search_in_cache e fs sv (rq_id r) (get_base (rq_name r)) (rq_name r)) as [p|].
  - exists fs. eexists. split; [eapply goes_trans; [exact L|]; eapply goes_step; [reflexivity|constructor]|]. destruct (read_file (ce_os e) (ce_cab e) fs p); cbn [bind]; [|reflexivity|reflexivity]. split; [reflexivity|apply same_fs_refl].
  - assert (A : goes e n cut sv r (fs, KLook sv) (fs, ask e n sv r)) by (eapply goes_trans; [exact L|]; eapply goes_step; [reflexivity|constructor]). clear L. unfold ask in A.
    destruct (get_jobs e sv (rq_id r) (get_base (rq_name r)) (rq_name r)) as [js|m|m]; cbn [bind]; [|exists fs; eexists; split; [exact A|reflexivity]|exists fs; eexists; split; [exact A|reflexivity]].
    unfold fetch_data. destruct (check_data n (rq_sched r js)) as [j|]; [|exists fs; eexists; split; [exact A|]; split; [reflexivity|apply same_fs_refl]].
    destruct (nt_get n (cj_url j)) as [[|x buf]|]; [exists fs; eexists; split; [exact A|]; split; [reflexivity|apply same_fs_refl]| |exists fs; eexists; split; [exact A|]; split; [reflexivity|apply same_fs_refl]].
    unfold copy_in_cache. destruct (starts_with not_found (x :: buf)); [exists fs; eexists; split; [exact A|]; split; [reflexivity|apply same_fs_refl]|].
    set (body := x :: buf) in *. destruct (cj_cache j) as [p|].
    2:{ exists fs. eexists. split; [exact A|]. cbn [bind lk_data lk_fs]. unfold unpack. destruct (read_cabinet (ce_cab e) body (rq_name r)) as [[d|]|m|m]; cbn [bind]; auto. split; [reflexivity|apply same_fs_refl]. }
    set (made := match path_parent p with Some d => if path_exists (ce_os e) fs d then Ok fs else match create_dir_all (ce_os e) fs d with Some f => Ok f | None => Panic "Unable to create cache directory" end | None => Ok fs end).
    assert (D : match made with Ok fs1 => goes e n cut sv r (fs, KParent p body) (fs1, KCreate p body) | Err _ => False | Panic m => exists f, goes e n cut sv r (fs, KParent p body) (f, KDone (Panic m)) end).
    { unfold made. destruct (path_parent p) as [d|] eqn:Pp.
      - destruct (path_exists (ce_os e) fs d) eqn:Pe; [eapply goes_step; [cbn [seek_step]; rewrite Pp, Pe; reflexivity|constructor]|].
        destruct (create_dir_all (ce_os e) fs d) as [f|] eqn:Cd; [|exists fs]; (eapply goes_step; [cbn [seek_step]; rewrite Pp, Pe; reflexivity|]; eapply goes_step; [cbn [seek_step]; rewrite Cd; reflexivity|constructor]).
      - eapply goes_step; [cbn [seek_step]; rewrite Pp; reflexivity|constructor]. }
    unfold body in A at 1. cbv iota in A. fold body in A.
    destruct made as [fs1|m|m]; [|easy|]; cbn [bind]; [|destruct D as (f & D); exists f; eexists; split; [eapply goes_trans; [exact A|exact D]|reflexivity]].
    destruct (file_create (ce_os e) fs1 p) as [fs2|] eqn:Fc; cbn [bind].
    2:{ exists fs1. eexists. split; [|reflexivity]. eapply goes_trans; [exact A|]. eapply goes_trans; [exact D|]. eapply goes_step; [cbn [seek_step]; rewrite Fc; reflexivity|constructor]. }
    destruct (create_nonempty _ _ _ _ Fc) as (NL & G2 & E2). destruct (goes_write e n cut sv r p body (cut body) [] fs2 NL G2) as (fs3 & G3 & S3). rewrite WH in S3. cbn [app] in S3.
    unfold buf_write. rewrite HE, (proj2 (str_eqb_eq _ _) eq_refl). cbn [bind lk_data lk_fs].
    exists fs3. eexists. split.
    + eapply goes_trans; [exact A|]. eapply goes_trans; [exact D|]. eapply goes_step; [cbn [seek_step]; rewrite Fc; reflexivity|exact G3].
    + unfold unpack. destruct (read_cabinet (ce_cab e) body (rq_name r)) as [[d|]|m|m]; cbn [bind lk_data lk_fs]; auto.
Qed.
Print Assumptions C85_alone.

(** Full statement: every lookup gives what it gives by itself. *)
Definition undisturbed (e : CEnv) (n : Net) (cut : list N -> list (list N)) (sv : list SymbolServer) (fs0 : FS) (rs : list Req) : Prop :=
  forall fs a r q b, sought e n cut sv fs0 rs fs (a ++ (r, KDone q) :: b) -> q = by_itself e n sv fs0 r.
(** It holds of a lookup if the others are for files that are kept elsewhere. *)
Theorem C85_apart_partial : forall e n cut sv fs0 rs fs a r q b, tidy (ce_os e) sv fs0 rs -> whole cut -> healthy (ce_os e) ->
  (forall r js, In r rs -> Permutation (rq_sched r js) js) -> sought e n cut sv fs0 rs fs (a ++ (r, KDone q) :: b) ->
  other_files (ce_os e) sv r (map fst (a ++ b)) -> q = by_itself e n sv fs0 r.
Proof. intros e n cut sv fs0 rs fs a r q b TD WH HE SC R O. exact (apart_same e n cut sv fs0 rs TD HE SC fs a r q b R O). Qed.
Print Assumptions C85_apart_partial.
(** With one cache: files of other names or ids are kept elsewhere. *)
Theorem C85_one_cache_partial : forall e n cut sv c fs0 rs fs a r q b, caches sv = [c] -> (forall r, In r rs -> proper (rq_name r) /\ proper (rq_id r)) ->
  (forall r, In r rs -> room_below fs0 (kept_at (ce_os e) r c)) -> (forall l, os_may (ce_os e) l = true) -> whole cut -> healthy (ce_os e) ->
  (forall r js, In r rs -> Permutation (rq_sched r js) js) -> sought e n cut sv fs0 rs fs (a ++ (r, KDone q) :: b) ->
  (forall r' k', In (r', k') (a ++ b) -> rq_name r' <> rq_name r \/ rq_id r' <> rq_id r) -> q = by_itself e n sv fs0 r.
Proof.
  intros e n cut sv c fs0 rs fs a r q b C P RM MAY WH HE SC R D. apply (C85_apart_partial e n cut sv fs0 rs fs a r q b); auto.
  - unfold tidy. rewrite C. splits; auto.
    + intros r1 r2 c1 c2 l _ _ [<- |[]] [<- |[]] E. apply (f_equal (@length str)) in E. rewrite app_length in E. unfold kept_at, entry_loc in E. cbn [length] in E. destruct l; [reflexivity|cbn in E; lia].
    + intros r1 c1 I1 [<- |[]]. now apply RM.
    + intros r1 c1 l x d I1 [<- |[]] E NL. destruct (RM r1 I1) as (_ & _ & X). now apply (X l x d).
  - intros r1 c1 c2 I1 I2 I3 E. rewrite C in I2, I3. destruct I2 as [<- |[]], I3 as [<- |[]]. unfold kept_at, entry_loc in E. apply in_map_iff in I1 as ((r2 & k2) & <- & I1). cbn [fst] in E. destruct (D r2 k2 I1) as [X|X]; congruence.
Qed.
Print Assumptions C85_one_cache_partial.
(** Whoever looks up a file of which all servers have the same data gets what it
    gets by itself or what there was of the file at some time: the data, perhaps
    not all of it, perhaps with zeros in place of some. *)
Theorem C85_same_partial : forall e n cut sv fs0 rs fs a r q b d, tidy (ce_os e) sv fs0 rs -> whole cut -> healthy (ce_os e) ->
  (forall r js, In r rs -> Permutation (rq_sched r js) js) -> sought e n cut sv fs0 rs fs (a ++ (r, KDone q) :: b) ->
  (forall r' c c', In r' rs -> In c (caches sv) -> In c' (caches sv) -> kept_at (ce_os e) r' c' = kept_at (ce_os e) r c -> one_body n sv r' d) ->
  q = by_itself e n sv fs0 r \/ exists t, partly d t /\ read_as e (rq_name r) t q.
Proof. intros e n cut sv fs0 rs fs a r q b d TD WH HE SC R O. exact (same_results e n cut sv fs0 rs TD WH HE SC fs a r q b d R O). Qed.
Print Assumptions C85_same_partial.
(** When all of them have ended, the cache has the complete file or what it had. *)
Theorem C85_kept : forall e n cut sv fs0 rs fs ks r c d, tidy (ce_os e) sv fs0 rs -> whole cut ->
  (forall r js, In r rs -> Permutation (rq_sched r js) js) -> sought e n cut sv fs0 rs fs ks -> (forall r k, In (r, k) ks -> exists q, k = KDone q) -> In r rs -> In c (caches sv) ->
  (forall r' c', In r' rs -> In c' (caches sv) -> kept_at (ce_os e) r' c' = kept_at (ce_os e) r c -> one_body n sv r' d) ->
  fs_get fs (kept_at (ce_os e) r c) = fs_get fs0 (kept_at (ce_os e) r c) \/ fs_get fs (kept_at (ce_os e) r c) = Some (NFile d).
Proof. intros e n cut sv fs0 rs fs ks r c d TD WH SC R D I1 I2 O. exact (all_copied e n cut sv fs0 rs TD WH SC r c d I1 I2 O fs ks R D). Qed.
Print Assumptions C85_kept.

(** *** Examples and the witness *)
(** A scheduler. *)
Fixpoint seek_at (e : CEnv) (n : Net) (cut : list N -> list (list N)) (sv : list SymbolServer) (i : nat) (fs : FS) (ks : list (Req * Seek)) : FS * list (Req * Seek) :=
  match ks, i with
  | [], _ => (fs, [])
  | (r, k) :: t, O => match seek_step e n cut sv r fs k with Some (fs', k') => (fs', (r, k') :: t) | None => (fs, ks) end
  | x :: t, S i => let '(fs', t') := seek_at e n cut sv i fs t in (fs', x :: t')
  end.
Lemma seek_at_is e n cut sv ks : forall i fs, seek_at e n cut sv i fs ks = (fs, ks) \/
  exists a r k b fs' k', ks = a ++ (r, k) :: b /\ seek_step e n cut sv r fs k = Some (fs', k') /\ seek_at e n cut sv i fs ks = (fs', a ++ (r, k') :: b).
Proof.
  induction ks as [|(r & k) ks IH]; intros [|i] fs; cbn [seek_at]; [now left|now left| |].
  - destruct (seek_step e n cut sv r fs k) as [(fs' & k')|] eqn:E; [|now left]. right. exists [], r, k, ks, fs', k'. auto.
  - destruct (IH i fs) as [->|(a & r1 & k1 & b & fs' & k1' & -> & E & ->)]; [now left|]. right. exists ((r, k) :: a), r1, k1, b, fs', k1'. auto.
Qed.
Fixpoint seek_go (e : CEnv) (n : Net) (cut : list N -> list (list N)) (sv : list SymbolServer) (is : list nat) (fs : FS) (ks : list (Req * Seek)) : FS * list (Req * Seek) :=
  match is with [] => (fs, ks) | i :: t => let '(fs', ks') := seek_at e n cut sv i fs ks in seek_go e n cut sv t fs' ks' end.
Lemma seek_go_sought e n cut sv fs0 rs is : forall fs ks, sought e n cut sv fs0 rs fs ks -> sought e n cut sv fs0 rs (fst (seek_go e n cut sv is fs ks)) (snd (seek_go e n cut sv is fs ks)).
Proof.
  induction is as [|i is IH]; intros fs ks S; [exact S|]. cbn [seek_go]. destruct (seek_at_is e n cut sv ks i fs) as [E|(a & r & k & b & fs' & k' & -> & E & X)].
  - rewrite E. now apply IH.
  - rewrite X. apply IH. eapply sought_step; eassumption.
Qed.
(** Two workers look up x.pdb, which nobody has yet; a third one y.pdb, which no
    server has. *)
Definition bx_data : list N := lit "the symbols".
Definition bx_url : str := lit "https://a/x.pdb/ABC1/x.pdb".
Definition bx_net : Net := mkNet (fun u => if str_eqb u bx_url then Some 200 else Some 404) (fun u => if str_eqb u bx_url then Some bx_data else None).
Definition bx_cut (d : list N) : list (list N) := [firstn 4 d; skipn 4 d].
Definition bx_r : Req := mkReq kx_name kx_id (fun l => l).
Definition bx_y : Req := mkReq (lit "y.pdb") kx_id (fun l => rev l).
Definition bx_rs : list Req := [bx_r; bx_r; bx_y].
Definition bx_run (is : list nat) : FS * list (Req * Seek) := seek_go kx_env bx_net bx_cut kx_sv is kx_fs (map (fun r => (r, KLook kx_sv)) bx_rs).
Lemma bx_sought is : sought kx_env bx_net bx_cut kx_sv kx_fs bx_rs (fst (bx_run is)) (snd (bx_run is)).
Proof. apply seek_go_sought. constructor. Qed.
Lemma bx_caches : caches kx_sv = [lit "/home/u/c"]. Proof. vm_compute. reflexivity. Qed.
Lemma bx_names r : In r bx_rs -> proper (rq_name r) /\ proper (rq_id r).
Proof. intros [<- |[<- |[<- |[]]]]; split; proper_tac. Qed.
Lemma bx_room r : In r bx_rs -> room_below kx_fs (kept_at kx_os r (lit "/home/u/c")).
Proof.
  assert (L : forall x, fs_get kx_fs x = None \/ fs_get kx_fs x = Some NDir).
  { intros x. unfold kx_fs. destruct x as [|y x]; [now right|]. cbn [fs_get afind]. repeat match goal with |- context [if ?b then _ else _] => destruct b; [now right|] end. now left. }
  intros I. unfold room_below. splits; [discriminate| |intros k up d _ _ X; destruct (L up); congruence].
  destruct I as [<- |[<- |[<- |[]]]]; vm_compute; discriminate.
Qed.
Lemma bx_tidy : tidy kx_os kx_sv kx_fs bx_rs.
Proof.
  unfold tidy. rewrite bx_caches. splits.
  - apply bx_names.
  - intros r1 r2 c1 c2 l _ _ [<- |[]] [<- |[]] E. apply (f_equal (@length str)) in E. rewrite app_length in E. unfold kept_at, entry_loc in E. cbn [length] in E. destruct l; [reflexivity|cbn in E; lia].
  - intros r c I [<- |[]]. now apply bx_room.
  - intros r c l x d I [<- |[]] E NL. destruct (bx_room r I) as (_ & _ & X). now apply (X l x d).
  - reflexivity.
Qed.
Lemma bx_whole : whole bx_cut.
Proof. intros d. unfold bx_cut. cbn [concat]. rewrite app_nil_r. apply firstn_skipn. Qed.
Lemma bx_sched r js : In r bx_rs -> Permutation (rq_sched r js) js.
Proof. intros [<- |[<- |[<- |[]]]]; cbn; [reflexivity|reflexivity|symmetry; apply Permutation_rev]. Qed.
(** The second finds the file that the first has just created, and reads it. *)
Theorem C85_beside_refuted : exists e n cut sv fs0 rs, tidy (ce_os e) sv fs0 rs /\ whole cut /\ healthy (ce_os e) /\ (forall r js, In r rs -> Permutation (rq_sched r js) js) /\
  (exists r d, In r rs /\ by_itself e n sv fs0 r = Ok (Some d) /\ d <> [] /\ exists fs a b, sought e n cut sv fs0 rs fs (a ++ (r, KDone (Ok (Some []))) :: b)) /\ ~ undisturbed e n cut sv fs0 rs.
Proof.
  exists kx_env, bx_net, bx_cut, kx_sv, kx_fs, bx_rs. assert (B : by_itself kx_env bx_net kx_sv kx_fs bx_r = Ok (Some bx_data)) by (vm_compute; reflexivity).
  assert (W : exists fs a b, sought kx_env bx_net bx_cut kx_sv kx_fs bx_rs fs (a ++ (bx_r, KDone (Ok (Some []))) :: b)).
  { pose proof (bx_sought (repeat 0%nat 7 ++ repeat 1%nat 3)) as S. exists (fst (bx_run (repeat 0%nat 7 ++ repeat 1%nat 3))). set (R := bx_run _) in *.
    assert (E : exists k, snd R = [(bx_r, k)] ++ (bx_r, KDone (Ok (Some []))) :: [(bx_y, KLook kx_sv)]) by (eexists; vm_compute; reflexivity). destruct E as (k & E). rewrite E in S. do 2 eexists. exact S. }
  splits; [apply bx_tidy|apply bx_whole|intros d; reflexivity|apply bx_sched| |].
  - exists bx_r, bx_data. splits; [now left|exact B|discriminate|exact W].
  - intros U. destruct W as (fs & a & b & S). apply U in S. rewrite B in S. discriminate.
Qed.
Print Assumptions C85_beside_refuted.
(** At the end the cache has the data; the third lookup is not disturbed. *)
Definition bx_all : list nat := repeat 0%nat 7 ++ repeat 1%nat 3 ++ repeat 2%nat 10 ++ repeat 0%nat 10.
Example C85_ex : tidy kx_os kx_sv kx_fs bx_rs /\ whole bx_cut /\ healthy kx_os /\ (forall r js, In r bx_rs -> Permutation (rq_sched r js) js) /\
  map snd (snd (bx_run bx_all)) = [KDone (Ok (Some bx_data)); KDone (Ok (Some [])); KDone (Ok None)] /\
  by_itself kx_env bx_net kx_sv kx_fs bx_y = Ok None /\ (forall c c', In c (caches kx_sv) -> In c' (caches kx_sv) -> kept_at kx_os bx_r c' <> kept_at kx_os bx_y c) /\
  (forall r, In r bx_rs -> one_body bx_net kx_sv r bx_data) /\ fs_get (fst (bx_run bx_all)) (kept_at kx_os bx_r (lit "/home/u/c")) = Some (NFile bx_data).
Proof.
  splits; [apply bx_tidy|apply bx_whole|intros d; reflexivity|apply bx_sched|vm_compute; reflexivity|vm_compute; reflexivity| | |vm_compute; reflexivity].
  - rewrite bx_caches. intros c c' [<- |[]] [<- |[]]. vm_compute. discriminate.
  - intros r _ us u b _ _ _ G. cbn [nt_get bx_net] in G. destruct (str_eqb u bx_url); congruence.
Qed.
