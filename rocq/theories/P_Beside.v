(** Proofs about lookups made at the same time. *)
From Verif Require Import Base Str Utf8 M_Path S_Path M_Fs S_Fs P_Fs M_Source M_Cache S_Cache P_Cache M_Store S_Store P_Store M_Shared S_Shared P_Shared M_Beside S_Beside.

Section Beside.
Variables (e : CEnv) (n : Net) (cut : list N -> list (list N)) (sv : list SymbolServer) (fs0 : FS) (rs : list Req).
Let os := ce_os e.
Hypothesis TD : tidy os sv fs0 rs.
Hypothesis WH : whole cut.
Hypothesis HE : healthy os.
Notation K := (kept_at os).
Notation run := (sought e n cut sv fs0 rs).
Definition pathof (r : Req) (c : str) : str := entry_path c (get_base (rq_name r)) (rq_id r) (rq_name r).

Lemma at_path r c : In r rs -> locate (os_cwd os) (pathof r c) = K r c.
Proof. intros I. destruct (proj1 TD r I) as (P1 & P2). apply entry_locate; auto. now apply base_proper. Qed.
Lemma kept_nonempty r c : K r c <> []. Proof. discriminate. Qed.
Lemma path_dir r c : In r rs -> exists d, path_parent (pathof r c) = Some d /\ locate (os_cwd os) d = tl (K r c).
Proof.
  intros I. destruct (proj1 TD r I) as (P1 & P2). unfold pathof, entry_path. destruct (parent_push (path_push (path_push c (get_base (rq_name r))) (rq_id r)) (rq_name r) P1) as (q & Q & _).
  exists q. split; [exact Q|]. rewrite (locate_parent _ _ _ _ P1 Q). rewrite !locate_push; [reflexivity|now apply base_proper|exact P2].
Qed.

(** The requests stay the same. *)
Lemma run_reqs fs ks : run fs ks -> map fst ks = rs.
Proof. induction 1 as [|fs a r k b fs' k' R IH E]; [rewrite map_map; apply map_id|]. rewrite map_app in *. exact IH. Qed.
Lemma run_in fs a r k b : run fs (a ++ (r, k) :: b) -> In r rs.
Proof. intros R. rewrite <- (run_reqs _ _ R), map_app. apply in_or_app. right. now left. Qed.

Definition late (k : Seek) : Prop := match k with KWrite _ _ _ _ | KDone _ => True | _ => False end.
(** What is different from the file system at the start. *)
Definition around (fs : FS) (ks : list (Req * Seek)) : Prop := forall x, fs_get fs x = fs_get fs0 x \/
  (fs_get fs0 x = None /\ fs_get fs x = Some NDir /\ exists r c l, In r rs /\ In c (caches sv) /\ K r c = l ++ x /\ l <> []) \/
  (fs_get fs0 x = None /\ exists r k c d, In (r, k) ks /\ late k /\ In c (caches sv) /\ K r c = x /\ fs_get fs x = Some (NFile d)).
Definition free (l : list SymbolServer) (r : Req) : Prop := forall c, In c (caches l) -> fs_get fs0 (K r c) = None.
Definition download (r : Req) (c p : str) (buf : list N) : Prop := free sv r /\ In c (caches sv) /\ p = pathof r c /\ ask e n sv r = KParent p buf.
(** Where a lookup can be. *)
Definition fine (fs : FS) (r : Req) (k : Seek) : Prop :=
  match k with
  | KLook rest => exists pre, sv = pre ++ rest /\ free pre r
  | KRead p => exists pre s post c d, sv = pre ++ s :: post /\ sv_cache s = Some c /\ free pre r /\ p = pathof r c /\ fs_get fs (K r c) = Some (NFile d)
  | KAsk => free sv r
  | KParent p buf => exists c, download r c p buf
  | KDirs p d buf => exists c, download r c p buf /\ locate (os_cwd os) d = tl (K r c)
  | KCreate p buf => exists c, download r c p buf /\ fs_get fs (tl (K r c)) = Some NDir
  | KWrite p off rest buf => exists c d, download r c p buf /\ fs_get fs (K r c) = Some (NFile d)
  | KDone _ => True
  end.

Lemma no_file_above fs ks r c l x d : around fs ks -> map fst ks = rs -> In r rs -> In c (caches sv) -> K r c = l ++ x -> l <> [] -> fs_get fs x <> Some (NFile d).
Proof.
  intros A M Ir Ic E Nl G. destruct TD as (_ & T2 & _ & T4 & _). destruct (A x) as [X|[(_ & X & _)|(_ & r' & k' & c' & d' & I' & _ & Ic' & E' & _)]].
  - rewrite X in G. now apply (T4 r c l x d).
  - congruence.
  - apply Nl. apply (T2 r' r c' c l); auto; [rewrite <- M; change r' with (fst (r', k')); now apply in_map|now rewrite E', E].
Qed.
Lemma no_dir_at fs ks r c : around fs ks -> In r rs -> In c (caches sv) -> fs_get fs (K r c) <> Some NDir.
Proof.
  intros A Ir Ic G. destruct TD as (_ & T2 & T3 & _). destruct (A (K r c)) as [X|[(_ & _ & r' & c' & l & Ir' & Ic' & E & Nl)|(_ & r' & k' & c' & d' & _ & _ & _ & _ & X)]].
  - rewrite X in G. now apply (T3 r c).
  - apply Nl. now apply (T2 r r' c c' l).
  - congruence.
Qed.
Lemma path_exists_at fs r c : In r rs -> path_exists os fs (pathof r c) = match fs_get fs (K r c) with Some _ => true | None => false end.
Proof. intros I. unfold path_exists. now rewrite at_path. Qed.
Lemma around_kept fs ks x : around fs ks -> fs_get fs x = None -> fs_get fs0 x = None.
Proof. intros A G. destruct (A x) as [X|[(X & _)|(X & _)]]; congruence. Qed.

(** What the network answers. *)
Lemma ask_shape r : In r rs -> (forall js, Permutation (rq_sched r js) js) -> free sv r ->
  match ask e n sv r with KDone _ => True | KParent p buf => exists c, In c (caches sv) /\ p = pathof r c | _ => False end.
Proof.
  intros I P F. unfold ask. destruct (get_jobs e sv (rq_id r) (get_base (rq_name r)) (rq_name r)) as [js| |] eqn:J; auto.
  destruct (check_data n (rq_sched r js)) as [j|] eqn:C; auto. destruct (nt_get n (cj_url j)) as [[|x buf]|]; auto. destruct (starts_with not_found (x :: buf)); auto.
  destruct (cj_cache j) as [p|] eqn:Cj; auto. apply check_some in C as (Ij & _). apply (Permutation_in _ (P js)) in Ij.
  destruct (proj1 TD r I) as (P1 & _). destruct (jobs_origin _ _ _ _ _ _ (proj1 P1) J j Ij) as (s & us & Is & _ & _ & Ec). rewrite Cj in Ec. destruct (sv_cache s) as [c|] eqn:Sc; [|discriminate].
  injection Ec as ->. exists c. split; [|reflexivity]. clear - Is Sc. unfold caches. induction sv as [|y l IH]; [easy|]. cbn [filter_map]. destruct Is as [->|Is]; [rewrite Sc; now left|]. destruct (sv_cache y); [right|]; auto.
Qed.
Hypothesis SC : forall r js, In r rs -> Permutation (rq_sched r js) js.

Lemma caches_app a b : caches (a ++ b) = caches a ++ caches b.
Proof. unfold caches. induction a as [|s a IH]; [reflexivity|]. cbn [filter_map app]. destruct (sv_cache s); [cbn [app]; now rewrite IH|exact IH]. Qed.

(** One step. *)
Definition keeps (fs fs' : FS) : Prop := (forall x, fs_get fs x = Some NDir -> fs_get fs' x = Some NDir) /\ (forall x d, fs_get fs x = Some (NFile d) -> exists d', fs_get fs' x = Some (NFile d')).
Lemma keeps_refl fs : keeps fs fs. Proof. split; eauto. Qed.
Lemma fine_keeps fs fs' r k : keeps fs fs' -> fine fs r k -> fine fs' r k.
Proof.
  intros (K1 & K2) F. destruct k; cbn [fine] in *; auto.
  - destruct F as (pre & s & post & c & d & F1 & F2 & F3 & F4 & F5). destruct (K2 _ _ F5) as (d' & D). exists pre, s, post, c, d'. auto.
  - destruct F as (c & F1 & F2). exists c. auto.
  - destruct F as (c & d & F1 & F2). destruct (K2 _ _ F2) as (d' & D). exists c, d'. auto.
Qed.
Lemma set_keeps fs l d old : l <> [] -> fs_get fs l = Some (NFile old) \/ fs_get fs l = None -> keeps fs (fs_set fs l (NFile d)).
Proof.
  intros Nl G. split; intros x; [intros X|intros o X]; destruct (loc_eqb l x) eqn:E.
  - apply loc_eqb_eq in E as <-. destruct G; congruence.
  - rewrite fs_get_other; [exact X|]. intros Y. apply loc_eqb_eq in Y. congruence.
  - apply loc_eqb_eq in E as <-. exists d. now apply fs_get_same.
  - exists o. rewrite fs_get_other; [exact X|]. intros Y. apply loc_eqb_eq in Y. congruence.
Qed.

Lemma create_at fs r c : In r rs -> fs_get fs (tl (K r c)) = Some NDir -> fs_get fs (K r c) <> Some NDir -> file_create os fs (pathof r c) = Some (fs_set fs (K r c) (NFile [])).
Proof.
  intros I Ld ND. unfold file_create. rewrite at_path by exact I. unfold kept_at, entry_loc in *. cbn [tl] in Ld. rewrite Ld, (proj2 (proj2 (proj2 (proj2 TD)))). destruct (fs_get fs (rq_name r :: _)) as [[d|]|]; [reflexivity|congruence|reflexivity].
Qed.
Lemma step_fine fs a r k b fs' k' : around fs (a ++ (r, k) :: b) -> map fst (a ++ (r, k) :: b) = rs -> fine fs r k -> seek_step e n cut sv r fs k = Some (fs', k') ->
  keeps fs fs' /\ around fs' (a ++ (r, k') :: b) /\ fine fs' r k' /\ (late k -> late k').
Proof.
  intros A M F E. assert (Ir : In r rs) by (rewrite <- M, map_app; apply in_or_app; right; now left).
  assert (SAME : forall k2, (late k -> late k2) -> around fs (a ++ (r, k2) :: b)).
  { intros k2 L x. destruct (A x) as [X|[X|(X & r1 & k1 & c1 & d1 & I1 & L1 & Y)]]; auto. right. right. split; [exact X|].
    apply in_app_or in I1 as [I1|[I1|I1]]; [exists r1, k1, c1, d1; split; [apply in_or_app; now left|tauto]| |exists r1, k1, c1, d1; split; [apply in_or_app; right; now right|tauto]].
    injection I1 as <- <-. exists r, k2, c1, d1. split; [apply in_or_app; right; now left|]. tauto. }
  destruct k as [[|s rest]|p| |p buf|p d buf|p buf|p off [|c rest] buf|q]; cbn [seek_step] in E; try discriminate; cbn [fine] in F.
  - injection E as <- <-. destruct F as (pre & F1 & F2). rewrite app_nil_r in F1. subst pre. splits; [apply keeps_refl|now apply SAME|exact F2|easy].
  - destruct F as (pre & F1 & F2). injection E as <- <-.
    assert (NX : sv = (pre ++ [s]) ++ rest) by (now rewrite <- app_assoc).
    destruct (sv_cache s) as [c|] eqn:Sc.
    + assert (Ic : In c (caches sv)). { rewrite F1, caches_app. apply in_or_app. right. unfold caches. cbn [filter_map]. rewrite Sc. now left. }
      fold (pathof r c). fold os. rewrite path_exists_at by exact Ir. destruct (fs_get fs (K r c)) as [nd|] eqn:G.
      * splits; [apply keeps_refl|now apply SAME| |easy]. destruct nd as [d|]; [|exfalso; exact (no_dir_at _ _ _ _ A Ir Ic G)]. exists pre, s, rest, c, d. auto.
      * splits; [apply keeps_refl|now apply SAME| |easy]. exists (pre ++ [s]). split; [exact NX|]. intros c1. rewrite caches_app. intros I1. apply in_app_or in I1 as [I1|I1]; [auto|].
        unfold caches in I1. cbn [filter_map] in I1. rewrite Sc in I1. destruct I1 as [<- |[]]. eapply around_kept; eassumption.
    + splits; [apply keeps_refl|now apply SAME| |easy]. exists (pre ++ [s]). split; [exact NX|]. intros c1. rewrite caches_app. intros I1. apply in_app_or in I1 as [I1|I1]; [auto|]. unfold caches in I1. cbn [filter_map] in I1. now rewrite Sc in I1.
  - injection E as <- <-. splits; [apply keeps_refl|now apply SAME|exact I|easy].
  - injection E as <- <-. pose proof (ask_shape r Ir (fun js => SC r js Ir) F) as S. destruct (ask e n sv r) as [| | |p buf| | | |] eqn:As; try easy.
    + destruct S as (c & Ic & Ep). splits; [apply keeps_refl|now apply SAME| |easy]. exists c. unfold download. auto.
    + splits; [apply keeps_refl|now apply SAME|exact I|easy].
  - destruct F as (c & D). pose proof D as (_ & Ic & -> & _). destruct (path_dir r c Ir) as (d & Pd & Ld). rewrite Pd in E. injection E as <- <-. unfold path_exists. fold os. rewrite Ld.
    destruct (fs_get fs (tl (K r c))) as [nd|] eqn:G.
    + splits; [apply keeps_refl|now apply SAME| |easy]. exists c. split; [exact D|]. destruct nd as [t|]; [|exact G]. exfalso. eapply (no_file_above fs _ r c [rq_name r] (tl (K r c)) t A M Ir Ic); [reflexivity|discriminate|exact G].
    + splits; [apply keeps_refl|now apply SAME| |easy]. exists c. auto.
  - destruct F as (c & D & Ld). pose proof D as (_ & Ic & -> & _). unfold create_dir_all in E. fold os in E. rewrite Ld in E.
    destruct (mkdirs_ok os (proj2 (proj2 (proj2 (proj2 TD)))) (tl (K r c)) fs) as (fs1 & Mk).
    { intros k0 up t E0. apply (no_file_above fs _ r c (rq_name r :: k0) up t A M Ir Ic); [change (K r c) with (rq_name r :: tl (K r c)); now rewrite E0|discriminate]. }
    rewrite Mk in E. injection E as <- <-. apply mkdirs_spec in Mk as (DA & DD). splits.
    + split; [intros x X|intros x t X]; destruct (DA x) as [Y|(Y & _)]; try congruence. exists t. congruence.
    + intros x. destruct (DA x) as [Y|(Y & Z & k0 & E0)].
      * rewrite Y. destruct (A x) as [X|[X|(X & r1 & k1 & c1 & d1 & I1 & L1 & W)]]; auto. right. right. split; [exact X|]. exists r1, k1, c1, d1. split; [|tauto].
        apply in_app_or in I1 as [I1|[I1|I1]]; [apply in_or_app; now left|injection I1 as <- <-; easy|apply in_or_app; right; now right].
      * right. left. splits; [eapply around_kept; eassumption|exact Z|]. exists r, c, (rq_name r :: k0). splits; auto; [change (K r c) with (rq_name r :: tl (K r c)); now rewrite E0|discriminate].
    + exists c. auto.
    + easy.
  - destruct F as (c & D & Ld). pose proof D as (Fr & Ic & -> & _). fold os in E. rewrite (create_at fs r c Ir Ld (no_dir_at _ _ _ _ A Ir Ic)) in E. injection E as <- <-.
    assert (G : exists old, fs_get fs (K r c) = Some (NFile old) \/ fs_get fs (K r c) = None).
    { destruct (fs_get fs (K r c)) as [[old|]|] eqn:G; [exists old; now left|exfalso; exact (no_dir_at _ _ _ _ A Ir Ic G)|exists []; now right]. }
    destruct G as (old & G). splits.
    + now apply (set_keeps fs (K r c) [] old).
    + intros x. destruct (loc_eqb (K r c) x) eqn:Ex.
      * apply loc_eqb_eq in Ex as <-. right. right. split; [now apply Fr|]. exists r, (KWrite (pathof r c) 0 (cut buf) buf), c, []. splits; [apply in_or_app; right; now left|exact I|exact Ic|reflexivity|now apply fs_get_same].
      * assert (Nx : K r c <> x) by (intros Y; apply loc_eqb_eq in Y; congruence). rewrite (fs_get_other _ _ _ _ Nx). destruct (A x) as [X|[X|(X & r1 & k1 & c1 & d1 & I1 & L1 & W)]]; auto. right. right. split; [exact X|]. exists r1, k1, c1, d1. split; [|tauto].
        apply in_app_or in I1 as [I1|[I1|I1]]; [apply in_or_app; now left|injection I1 as <- <-; easy|apply in_or_app; right; now right].
    + exists c, []. split; [exact D|now apply fs_get_same].
    + easy.
  - injection E as <- <-. splits; [apply keeps_refl|now apply SAME|exact I|easy].
  - destruct F as (c0 & old & D & Ld). pose proof D as (Fr & Ic & -> & _). fold os in E. rewrite at_path in E by exact Ir. rewrite Ld in E. injection E as <- <-. splits.
    + apply (set_keeps fs (K r c0) _ old); [easy|now left].
    + intros x. destruct (loc_eqb (K r c0) x) eqn:Ex.
      * apply loc_eqb_eq in Ex as <-. right. right. split; [now apply Fr|]. exists r. eexists. exists c0. eexists. splits; [apply in_or_app; right; left; reflexivity|exact I|exact Ic|reflexivity|now apply fs_get_same].
      * assert (Nx : K r c0 <> x) by (intros Y; apply loc_eqb_eq in Y; congruence). rewrite (fs_get_other _ _ _ _ Nx). destruct (A x) as [X|[X|(X & r1 & k1 & c1 & d1 & I1 & L1 & W)]]; auto. right. right. split; [exact X|].
        apply in_app_or in I1 as [I1|[I1|I1]]; [exists r1, k1, c1, d1; split; [apply in_or_app; now left|tauto]| |exists r1, k1, c1, d1; split; [apply in_or_app; right; now right|tauto]].
        injection I1 as <- <-. exists r. eexists. exists c1, d1. split; [apply in_or_app; right; left; reflexivity|]. split; [exact I|tauto].
    + exists c0. eexists. split; [exact D|now apply fs_get_same].
    + easy.
Qed.
Lemma run_fine fs ks : run fs ks -> around fs ks /\ forall r k, In (r, k) ks -> fine fs r k.
Proof.
  induction 1 as [|fs a r k b fs' k' R (IA & IF) E].
  - split; [intros x; now left|]. intros r k I. apply in_map_iff in I as (r' & I & _). injection I as <- <-. exists []. split; [reflexivity|intros c []].
  - destruct (step_fine fs a r k b fs' k' IA (run_reqs _ _ R) (IF r k ltac:(apply in_or_app; right; now left)) E) as (S1 & S2 & S3 & _). split; [exact S2|].
    intros r1 k1 I1. apply in_app_or in I1 as [I1|[I1|I1]]; [|injection I1 as <- <-; exact S3|]; apply (fine_keeps fs); auto; apply IF; apply in_or_app; [now left|right; now right].
Qed.

(** *** Results *)
Lemma two_spots {A} (a b a1 b1 : list A) x y : a ++ x :: b = a1 ++ y :: b1 ->
  (a = a1 /\ x = y /\ b = b1) \/ (exists m, a1 = a ++ x :: m /\ b = m ++ y :: b1) \/ (exists m, a = a1 ++ y :: m /\ b1 = m ++ x :: b).
Proof.
  revert a1. induction a as [|u a IH]; intros [|v a1] E; cbn in E.
  - injection E as <- <-. auto.
  - injection E as <- ->. right. left. exists a1. auto.
  - injection E as -> <-. right. right. exists a. auto.
  - injection E as <- E. destruct (IH a1 E) as [(-> & -> & ->)|[(m & -> & ->)|(m & -> & ->)]]; [auto|right; left; now exists m|right; right; now exists m].
Qed.
Definition read_at (r : Req) (c : str) (t : list N) : res (option (list N)) :=
  d <- (x <- read_cabinet (ce_cab e) t (rq_name r) ;; match x with Some d => Ok d | None => Panic "Unable to read the cabinet file" end) ;; Ok (Some d).
Lemma read_kept fs r c t : In r rs -> fs_get fs (K r c) = Some (NFile t) -> (d <- read_file os (ce_cab e) fs (pathof r c) ;; Ok (Some d)) = read_at r c t.
Proof.
  intros I G. rewrite (read_file_plain _ _ _ _ t) by now rewrite at_path. unfold pathof, entry_path. rewrite read_cabinet_push by exact (proj1 (proj1 TD r I)). reflexivity.
Qed.
Lemma itself_cached r pre s post c t : In r rs -> sv = pre ++ s :: post -> sv_cache s = Some c -> free pre r -> fs_get fs0 (K r c) = Some (NFile t) -> by_itself e n sv fs0 r = read_at r c t.
Proof.
  intros I E Sc F G. unfold by_itself. assert (S : search_in_cache e fs0 sv (rq_id r) (get_base (rq_name r)) (rq_name r) = Some (pathof r c)).
  { rewrite E. clear E. induction pre as [|y pre IH]; cbn [app search_in_cache].
    - rewrite Sc. cbv zeta. fold (pathof r c) os. rewrite path_exists_at by exact I. now rewrite G.
    - unfold caches in *. unfold free, caches in F. cbn [filter_map] in F. destruct (sv_cache y) as [cy|] eqn:Sy; [|now apply IH]. cbv zeta. fold (pathof r cy) os. rewrite path_exists_at by exact I. rewrite (F cy (or_introl eq_refl)). apply IH. intros c1 I1. apply F. now right. }
  rewrite (search_file_cached e n (rq_sched r) fs0 (rq_name r) (rq_id r) sv _ (proj1 (proj1 (proj1 TD r I))) S). rewrite <- (read_kept fs0 r c t I G). fold os. destruct (read_file os (ce_cab e) fs0 (pathof r c)); reflexivity.
Qed.
Lemma copy_room r c buf : In r rs -> In c (caches sv) -> buf <> [] -> starts_with not_found buf = false -> exists fs1, copy_in_cache e fs0 (Some (pathof r c)) buf = Ok (true, fs1).
Proof.
  intros I Ic Nb Nf. unfold copy_in_cache. destruct buf as [|x buf]; [easy|]. rewrite Nf. destruct (path_dir r c I) as (d & Pd & Ld). rewrite Pd. fold os. unfold path_exists, create_dir_all. rewrite Ld.
  destruct TD as (_ & T2 & T3 & T4 & T5). set (D := fs_get fs0 (tl (K r c))).
  assert (X : exists f, match D with Some _ => true | None => false end = true /\ f = fs0 \/ match D with Some _ => true | None => false end = false /\ mkdirs os fs0 (tl (K r c)) = Some f).
  { unfold D. destruct (fs_get fs0 (tl (K r c))); [exists fs0; now left|]. destruct (mkdirs_ok os T5 (tl (K r c)) fs0) as (f & Mk); [|exists f; now right].
    intros k0 up t E0. apply (T4 r c (rq_name r :: k0) up t I Ic); [change (K r c) with (rq_name r :: tl (K r c)); now rewrite E0|discriminate]. }
  assert (Y : exists f, (match match D with Some _ => true | None => false end with true => Ok fs0 | false => match mkdirs os fs0 (tl (K r c)) with Some f => Ok f | None => Panic "Unable to create cache directory" end end = Ok f)
    /\ fs_get f (tl (K r c)) = Some NDir /\ fs_get f (K r c) <> Some NDir).
  { destruct X as (f & [(X1 & ->)|(X1 & X2)]); rewrite X1.
    - exists fs0. splits; [reflexivity| |now apply T3]. unfold D in X1. destruct (fs_get fs0 (tl (K r c))) as [[t|]|] eqn:G; [|reflexivity|discriminate]. exfalso. apply (T4 r c [rq_name r] (tl (K r c)) t I Ic); [reflexivity|discriminate|exact G].
    - rewrite X2. exists f. apply mkdirs_spec in X2 as (DA & DD). splits; [reflexivity|exact DD|]. destruct (DA (K r c)) as [Z|(_ & _ & k0 & E0)]; [rewrite Z; now apply T3|].
      exfalso. apply (f_equal (@length str)) in E0. rewrite app_length in E0. change (K r c) with (rq_name r :: tl (K r c)) in E0 at 2. cbn [length] in E0. lia. }
  destruct Y as (f & Y1 & Y2 & Y3). fold D. rewrite Y1. cbn [bind]. rewrite (create_at f r c I Y2 Y3). unfold buf_write. rewrite (HE : forall d, os_disk os d = d). rewrite (proj2 (str_eqb_eq _ _) eq_refl). eauto.
Qed.
Lemma itself_asked r : In r rs -> free sv r -> by_itself e n sv fs0 r = match ask e n sv r with KDone q => q | KParent p buf => unpack e (rq_name r) buf | _ => Ok None end.
Proof.
  intros I F. pose proof (ask_shape r I (fun js => SC r js I) F) as S. destruct (proj1 TD r I) as (P1 & P2). unfold by_itself. rewrite (search_file_uncached e n (rq_sched r) fs0 (rq_name r) (rq_id r) sv P1 P2 F).
  unfold ask in *. destruct (get_jobs e sv (rq_id r) (get_base (rq_name r)) (rq_name r)) as [js|m|m]; cbn [bind]; auto. unfold fetch_data.
  destruct (check_data n (rq_sched r js)) as [j|]; [|reflexivity]. destruct (nt_get n (cj_url j)) as [[|x buf]|]; try reflexivity. destruct (starts_with not_found (x :: buf)) eqn:Nf.
  - cbn [copy_in_cache]. rewrite Nf. reflexivity.
  - destruct (cj_cache j) as [p|] eqn:Cj.
    + destruct S as (c & Ic & ->). destruct (copy_room r c (x :: buf) I Ic ltac:(discriminate) Nf) as (fs1 & ->). cbn [bind lk_data lk_fs lk_gets]. unfold unpack. destruct (read_cabinet (ce_cab e) (x :: buf) (rq_name r)) as [[d|]|m|m]; reflexivity.
    + cbn [copy_in_cache]. rewrite Nf. cbn [bind lk_data]. unfold unpack. destruct (read_cabinet (ce_cab e) (x :: buf) (rq_name r)) as [[d|]|m|m]; reflexivity.
Qed.
(** A lookup that has ended gives what it gives by itself, or what it read while
    another had the file open. *)
Lemma done_why fs ks : run fs ks -> forall a r q b, ks = a ++ (r, KDone q) :: b -> q = by_itself e n sv fs0 r \/
  exists fs' a' b' p c t, run fs' (a' ++ (r, KRead p) :: b') /\ map fst a' = map fst a /\ map fst b' = map fst b /\ In c (caches sv) /\ fs_get fs0 (K r c) = None /\ fs_get fs' (K r c) = Some (NFile t) /\ q = read_at r c t.
Proof.
  induction 1 as [|fs a1 r1 k1 b1 fs1 k1' R IH E]; intros a r q b Eq.
  { exfalso. assert (I : In (r, KDone q) (map (fun r => (r, KLook sv)) rs)) by (rewrite Eq; apply in_or_app; right; now left). apply in_map_iff in I as (y & Y & _). discriminate. }
  symmetry in Eq. apply two_spots in Eq as [(-> & X & ->)|[(m & -> & ->)|(m & -> & ->)]].
  - injection X as <- <-. destruct (run_fine _ _ R) as (A & F). specialize (F r k1 ltac:(apply in_or_app; right; now left)). pose proof (run_in _ _ _ _ _ R) as Ir.
    destruct k1 as [[|s rest]|p| |p buf|p d buf|p buf|p off [|c rest] buf|q1]; cbn [seek_step] in E; cbn [fine] in F; try discriminate.
    + destruct (sv_cache s); [destruct (path_exists _ _ _)|]; discriminate.
    + injection E as <- <-. destruct F as (pre & s & post & c & d & F1 & F2 & F3 & -> & F5). fold os. rewrite (read_kept fs r c d Ir F5).
      assert (Ic : In c (caches sv)). { rewrite F1, caches_app. apply in_or_app. right. unfold caches. cbn [filter_map]. rewrite F2. now left. }
      destruct (fs_get fs0 (K r c)) as [nd|] eqn:G.
      * left. symmetry. apply (itself_cached r pre s post); auto. destruct (A (K r c)) as [X|[(X & _)|(X & _)]]; congruence.
      * right. exists fs, a1, b1, (pathof r c), c, d. splits; auto.
    + injection E as <- E. left. rewrite (itself_asked r Ir F). now rewrite E.
    + destruct (path_parent p); [destruct (path_exists _ _ _)|]; discriminate.
    + destruct F as (c & D & Ld). pose proof D as (_ & Ic & -> & _). unfold create_dir_all in E. fold os in E. rewrite Ld in E.
      destruct (mkdirs_ok os (proj2 (proj2 (proj2 (proj2 TD)))) (tl (K r c)) fs) as (fs2 & Mk).
      { intros k0 up t E0. apply (no_file_above fs _ r c (rq_name r :: k0) up t A (run_reqs _ _ R) Ir Ic); [change (K r c) with (rq_name r :: tl (K r c)); now rewrite E0|discriminate]. }
      rewrite Mk in E. discriminate.
    + destruct F as (c & D & Ld). pose proof D as (_ & Ic & -> & _). fold os in E. rewrite (create_at fs r c Ir Ld (no_dir_at _ _ _ _ A Ir Ic)) in E. discriminate.
    + injection E as <- <-. destruct F as (c & d & (F1 & _ & _ & F2) & _). left. rewrite (itself_asked r Ir F1). now rewrite F2.
  - (* ours is before the one that moved *)
    destruct (IH a r q (m ++ (r1, k1) :: b1)) as [X|(fs' & a' & b' & p & c & t & X1 & X2 & X3 & X4)]; [now rewrite <- app_assoc|auto|]. right. exists fs', a', b', p, c, t. splits; try tauto. rewrite X3, !map_app. reflexivity.
  - destruct (IH (a1 ++ (r1, k1) :: m) r q b) as [X|(fs' & a' & b' & p & c & t & X1 & X2 & X3 & X4)]; [now rewrite <- app_assoc|auto|]. right. exists fs', a', b', p, c, t. splits; try tauto. rewrite X2, !map_app. reflexivity.
Qed.
(** With different files the second does not happen. *)
Lemma apart_same fs a r q b : run fs (a ++ (r, KDone q) :: b) -> other_files os sv r (map fst (a ++ b)) -> q = by_itself e n sv fs0 r.
Proof.
  intros R O. destruct (done_why _ _ R a r q b eq_refl) as [X|(fs' & a' & b' & p & c & t & R' & Ma & Mb & Ic & G0 & G & _)]; [exact X|exfalso].
  destruct (run_fine _ _ R') as (A & _). destruct (A (K r c)) as [X|[(_ & X & _)|(_ & r2 & k2 & c2 & d2 & I2 & L2 & Ic2 & E2 & _)]]; [congruence|congruence|].
  apply in_app_or in I2 as [I2|[I2|I2]].
  - apply (O r2 c c2); auto. rewrite map_app, <- Ma. apply in_or_app. left. now apply (in_map fst) in I2.
  - injection I2 as <- <-. exact L2.
  - apply (O r2 c c2); auto. rewrite map_app, <- Mb. apply in_or_app. right. now apply (in_map fst) in I2.
Qed.

(** *** One file kept at one place *)
Lemma nth_skip {A} (l : list A) k i : nth_error (skipn k l) i = nth_error l (k + i).
Proof. revert l. induction k as [|k IH]; intros l; [reflexivity|]. destruct l as [|x l]; [now destruct i|]. cbn [skipn Nat.add nth_error]. apply IH. Qed.
Lemma skip_skip {A} (l : list A) a b : skipn a (skipn b l) = skipn (a + b) l.
Proof. revert l. induction b as [|b IH]; intros l; [now rewrite Nat.add_0_r|]. rewrite Nat.add_succ_r. destruct l as [|x l]; [now destruct a|]. cbn [skipn]. apply IH. Qed.
Lemma nth_first {A} (l : list A) k i : nth_error (firstn k l) i = if (i <? k)%nat then nth_error l i else None.
Proof.
  revert l i. induction k as [|k IH]; intros l i; [now destruct i|]. destruct l as [|x l], i as [|i]; cbn [firstn nth_error]; try reflexivity; [now destruct (_ <? _)%nat|]. rewrite IH. reflexivity.
Qed.
Lemma nth_write off c old i : c <> [] -> nth_error (write_at off c old) i =
  if (i <? N.to_nat off)%nat then (if (i <? length old)%nat then nth_error old i else Some 0) else if (i <? N.to_nat off + length c)%nat then nth_error c (i - N.to_nat off) else nth_error old i.
Proof.
  intros Nc. unfold write_at. destruct c as [|x c]; [easy|]. remember (x :: c) as cc eqn:Ec. clear Ec Nc. set (o := N.to_nat off).
  destruct (Nat.ltb_spec i o) as [L|L].
  - destruct (Nat.ltb_spec i (length old)) as [L2|L2].
    + rewrite nth_error_app1 by (rewrite firstn_length; lia). rewrite nth_first. destruct (Nat.ltb_spec i o); [reflexivity|lia].
    + rewrite nth_error_app2 by (rewrite firstn_length; lia). rewrite firstn_length. replace (Nat.min o (length old)) with (length old) by lia.
      rewrite nth_error_app1 by (rewrite repeat_length; lia). rewrite nth_error_repeat; [reflexivity|lia].
  - assert (LN : (length (firstn o old) + length (repeat 0%N (o - length old)))%nat = o) by (rewrite firstn_length, repeat_length; lia).
    rewrite app_assoc, nth_error_app2 by (rewrite app_length; lia). rewrite app_length, LN. destruct (Nat.ltb_spec i (o + length cc)) as [L2|L2].
    + now rewrite nth_error_app1 by lia.
    + rewrite nth_error_app2 by lia. rewrite nth_skip. f_equal. lia.
Qed.
Lemma write_length off c old : c <> [] -> length (write_at off c old) = Nat.max (length old) (N.to_nat off + length c).
Proof.
  intros Nc. unfold write_at. destruct c as [|x c]; [easy|]. rewrite !app_length, firstn_length, repeat_length, skipn_length. lia.
Qed.

Lemma ask_body r p buf : In r rs -> ask e n sv r = KParent p buf -> forall d, one_body n sv r d -> buf = d.
Proof.
  intros I As d O. unfold ask in As. destruct (get_jobs e sv (rq_id r) (get_base (rq_name r)) (rq_name r)) as [js| |] eqn:J; try discriminate.
  destruct (check_data n (rq_sched r js)) as [j|] eqn:C; [|discriminate]. destruct (nt_get n (cj_url j)) as [b|] eqn:G; [|discriminate].
  apply check_some in C as (Ij & H). apply (Permutation_in _ (SC r js I)) in Ij.
  assert (b = buf). { destruct b as [|x b]; [discriminate|]. destruct (starts_with not_found (x :: b)); [discriminate|]. destruct (cj_cache j); [|discriminate]. now injection As as _ <-. }
  subst b. apply (O (map cj_url js) (cj_url j) buf); auto; [|now apply in_map]. apply (jobs_urls e sv (rq_id r) (get_base (rq_name r)) (rq_name r)); auto. exact (proj1 (proj1 (proj1 TD r I))).
Qed.
(** How far a writer is. *)
Lemma run_offsets fs ks : run fs ks -> forall r p off rest buf, In (r, KWrite p off rest buf) ks -> (N.to_nat off <= length buf)%nat /\ concat rest = skipn (N.to_nat off) buf.
Proof.
  induction 1 as [|fs a r k b fs' k' R IH E]; intros r1 p off rest buf I1.
  { apply in_map_iff in I1 as (y & Y & _). discriminate. }
  apply in_app_or in I1 as [I1|[I1|I1]]; [apply (IH r1 p); apply in_or_app; now left| |apply (IH r1 p); apply in_or_app; right; now right].
  injection I1 as -> ->. assert (IK : forall p off rest buf, k = KWrite p off rest buf -> (N.to_nat off <= length buf)%nat /\ concat rest = skipn (N.to_nat off) buf).
  { intros p1 o1 r2 b1 ->. apply (IH r1 p1). apply in_or_app. right. now left. }
  clear IH. destruct k as [[|s0 rest0]|p0| |p0 buf0|p0 d0 buf0|p0 buf0|p0 off0 [|c0 rest0] buf0|q0]; cbn [seek_step] in E; try discriminate.
  - destruct (sv_cache s0); [destruct (path_exists _ _ _)|]; discriminate.
  - injection E as _ E. exfalso. revert E. unfold ask. destruct (get_jobs _ _ _ _ _); try discriminate. destruct (check_data _ _); try discriminate. destruct (nt_get _ _) as [[|x l]|]; try discriminate. destruct (starts_with _ _); try discriminate. destruct (cj_cache _); discriminate.
  - destruct (path_parent p0); [destruct (path_exists _ _ _)|]; discriminate.
  - destruct (create_dir_all _ _ _); discriminate.
  - destruct (file_create _ _ _); [|discriminate]. injection E as _ <- <- <- <-. cbn. split; [lia|]. apply WH.
  - injection E as _ <- <- <- <-. destruct (IK _ _ _ _ eq_refl) as (I1 & I2). cbn [concat] in I2. assert (L : (length c0 <= length (skipn (N.to_nat off0) buf0))%nat) by (rewrite <- I2, app_length; lia). rewrite skipn_length in L.
    unfold lenN. split; [lia|]. replace (N.to_nat (off0 + N.of_nat (length c0))) with (length c0 + N.to_nat off0)%nat by lia.
    rewrite <- skip_skip, <- I2, skipn_app, skipn_all, Nat.sub_diag. reflexivity.
Qed.

Section Place.
Variables (r0 : Req) (c0 : str) (d : list N).
Hypothesis R0 : In r0 rs.
Hypothesis C0 : In c0 (caches sv).
Hypothesis OB : forall r c, In r rs -> In c (caches sv) -> K r c = K r0 c0 -> one_body n sv r d.
Notation x0 := (K r0 c0).
Definition writer (ks : list (Req * Seek)) (i : nat) : Prop := exists r c off rest, In (r, KWrite (pathof r c) off rest d) ks /\ K r c = x0 /\ (N.to_nat off <= i)%nat.
Definition copied (fs : FS) (ks : list (Req * Seek)) : Prop := fs_get fs x0 = fs_get fs0 x0 \/
  exists t, fs_get fs x0 = Some (NFile t) /\ partly d t /\ forall i, (i < length d)%nat -> nth_error t i = nth_error d i \/ writer ks i.

Lemma step_copied fs a r k b fs' k' : run fs (a ++ (r, k) :: b) -> copied fs (a ++ (r, k) :: b) -> seek_step e n cut sv r fs k = Some (fs', k') -> copied fs' (a ++ (r, k') :: b).
Proof.
  intros R C E. destruct (run_fine _ _ R) as (A & F). specialize (F r k ltac:(apply in_or_app; right; now left)). pose proof (run_in _ _ _ _ _ R) as Ir.
  assert (SAME : fs_get fs' x0 = fs_get fs x0 -> (forall p off rest, k = KWrite p off rest d -> locate (os_cwd os) p = x0 -> rest = []) -> copied fs' (a ++ (r, k') :: b)).
  { intros X NW. destruct C as [C|(t & C1 & C2 & C3)]; [left; congruence|right]. exists t. splits; [congruence|exact C2|]. intros i Li. destruct (C3 i Li) as [Y|(r1 & c1 & o1 & t1 & I1 & E1 & L1)]; [now left|].
    apply in_app_or in I1 as [I1|[I1|I1]]; [right; exists r1, c1, o1, t1; splits; auto; apply in_or_app; now left| |right; exists r1, c1, o1, t1; splits; auto; apply in_or_app; right; now right].
    injection I1 as -> ->. exfalso. assert (t1 = []). { apply (NW (pathof r1 c1) o1 t1 eq_refl). now rewrite at_path. } subst t1.
    destruct (run_offsets _ _ R r1 (pathof r1 c1) o1 [] d ltac:(apply in_or_app; right; now left)) as (O1 & O2). cbn in O2. apply (f_equal (@length N)) in O2. rewrite skipn_length in O2. cbn in O2. lia. }
  destruct k as [[|s rest]|p| |p buf|p q buf|p buf|p off [|c rest] buf|q]; cbn [seek_step] in E; cbn [fine] in F; try discriminate.
  - injection E as <- <-. now apply SAME.
  - injection E as <- <-. now apply SAME.
  - injection E as <- <-. now apply SAME.
  - injection E as <- <-. now apply SAME.
  - injection E as <- <-. now apply SAME.
  - fold os in E. destruct (create_dir_all os fs q) as [fs1|] eqn:Mk; injection E as <- <-; [|now apply SAME]. apply SAME; [|easy]. apply mkdirs_spec in Mk as (DA & _).
    destruct (DA x0) as [Y|(Y1 & Y2 & k0 & E0)]; [exact Y|exfalso]. destruct F as (c1 & (_ & Ic1 & _) & Ld). rewrite Ld in E0. destruct TD as (_ & T2 & _). assert (rq_name r :: k0 = []); [|discriminate].
    apply (T2 r0 r c0 c1); auto. change (K r c1) with (rq_name r :: tl (K r c1)). now rewrite E0.
  - destruct F as (c1 & D & Ld). pose proof D as (Fr & Ic & -> & As). fold os in E. rewrite (create_at fs r c1 Ir Ld (no_dir_at _ _ _ _ A Ir Ic)) in E. injection E as <- <-.
    destruct (loc_eqb (K r c1) x0) eqn:Ex.
    + apply loc_eqb_eq in Ex. right. exists []. splits; [rewrite <- Ex; now apply fs_get_same|split; [cbn; lia|intros i y; now destruct i]|]. intros i Li. right. exists r, c1, 0, (cut buf).
      assert (buf = d) as -> by (apply (ask_body r _ buf Ir As); now apply (OB r c1)). splits; [apply in_or_app; right; now left|exact Ex|cbn; lia].
    + apply SAME; [|easy]. rewrite fs_get_other; [reflexivity|]. intros Y. apply loc_eqb_eq in Y. congruence.
  - injection E as <- <-. apply SAME; [reflexivity|]. intros p1 o1 r1 X _. now injection X.
  - destruct F as (c1 & old & D & Ld). pose proof D as (Fr & Ic & -> & As). fold os in E. rewrite at_path in E by exact Ir. rewrite Ld in E. injection E as <- <-.
    destruct (loc_eqb (K r c1) x0) eqn:Ex.
    + apply loc_eqb_eq in Ex. assert (buf = d) as -> by (apply (ask_body r _ buf Ir As); now apply (OB r c1)).
      destruct C as [C|(t & C1 & C2 & C3)]. { exfalso. rewrite <- Ex in C. rewrite Ld in C. rewrite Fr in C by exact Ic. discriminate. }
      rewrite <- Ex in C1. rewrite Ld in C1. injection C1 as ->. right. exists (write_at off c t). destruct (run_offsets _ _ R r (pathof r c1) off (c :: rest) d ltac:(apply in_or_app; right; now left)) as (O1 & O2). cbn [concat] in O2.
      assert (LC : (N.to_nat off + length c <= length d)%nat). { apply (f_equal (@length N)) in O2. rewrite app_length, skipn_length in O2. lia. }
      assert (NC : forall j, (j < length c)%nat -> nth_error c j = nth_error d (N.to_nat off + j)). { intros j Lj. rewrite <- nth_skip, <- O2. now rewrite nth_error_app1. }
      destruct C2 as (P1 & P2). assert (KEEP : forall i, writer (a ++ (r, KWrite (pathof r c1) off (c :: rest) d) :: b) i -> writer (a ++ (r, KWrite (pathof r c1) (off + lenN c) rest d) :: b) i \/ (N.to_nat off <= i)%nat /\ (i < N.to_nat off + length c)%nat).
      { intros i (r1 & c2 & o1 & t1 & I1 & E1 & L1). apply in_app_or in I1 as [I1|[I1|I1]]; [left; exists r1, c2, o1, t1; splits; auto; apply in_or_app; now left| |left; exists r1, c2, o1, t1; splits; auto; apply in_or_app; right; now right].
        assert (r1 = r /\ pathof r1 c2 = pathof r c1 /\ o1 = off) as (-> & Ep & ->) by (injection I1; auto). destruct (Nat.ltb_spec i (N.to_nat off + length c)); [auto|]. left. exists r, c1, (off + lenN c), rest. splits; [apply in_or_app; right; now left|exact Ex|unfold lenN; lia]. }
      destruct c as [|y c].
      { cbn [write_at]. splits; [rewrite <- Ex; now apply fs_get_same|now split|]. intros i Li. destruct (C3 i Li) as [Y|Y]; [now left|]. apply KEEP in Y as [Y|Y]; [now right|cbn in Y; lia]. }
      remember (y :: c) as cc eqn:Ec. assert (Nc : cc <> []) by (subst; discriminate). clear Ec. splits; [rewrite <- Ex; now apply fs_get_same| |].
      * split; [rewrite write_length by exact Nc; lia|]. intros i z. rewrite nth_write by exact Nc. destruct (Nat.ltb_spec i (N.to_nat off)) as [L|L]; [destruct (i <? length t)%nat; [apply P2|intros X; left; congruence]|].
        destruct (Nat.ltb_spec i (N.to_nat off + length cc)) as [L2|L2]; [|apply P2]. rewrite NC by lia. replace (N.to_nat off + (i - N.to_nat off))%nat with i by lia. auto.
      * intros i Li. rewrite nth_write by exact Nc. destruct (Nat.ltb_spec i (N.to_nat off)) as [L|L].
        { destruct (C3 i Li) as [Y|Y]; [|apply KEEP in Y as [Y|Y]; [now right|lia]]. destruct (Nat.ltb_spec i (length t)) as [L2|L2]; [now left|]. exfalso. rewrite (proj2 (nth_error_None t i) L2) in Y. symmetry in Y. apply nth_error_None in Y. lia. }
        destruct (Nat.ltb_spec i (N.to_nat off + length cc)) as [L2|L2]; [left; rewrite NC by lia; f_equal; lia|]. destruct (C3 i Li) as [Y|Y]; [now left|]. apply KEEP in Y as [Y|Y]; [now right|lia].
    + assert (Nx : K r c1 <> x0) by (intros Y; apply loc_eqb_eq in Y; congruence). apply SAME; [now rewrite fs_get_other|]. intros p1 o1 r1 X Lp. assert (pathof r c1 = p1) as <- by (now injection X). exfalso. apply Nx. now rewrite <- Lp, at_path.
Qed.
Lemma run_copied fs ks : run fs ks -> copied fs ks.
Proof. induction 1 as [|fs a r k b fs' k' R IH E]; [now left|]. eapply step_copied; eassumption. Qed.
(** When nobody writes any more, the file is complete. *)
Lemma all_copied fs ks : run fs ks -> (forall r k, In (r, k) ks -> exists q, k = KDone q) -> fs_get fs x0 = fs_get fs0 x0 \/ fs_get fs x0 = Some (NFile d).
Proof.
  intros R D. destruct (run_copied _ _ R) as [C|(t & C1 & (C2 & _) & C3)]; [now left|right]. rewrite C1. do 2 f_equal. 
  assert (N : forall i, (i < length d)%nat -> nth_error t i = nth_error d i). { intros i Li. destruct (C3 i Li) as [Y|(r & c & o & l & I & _)]; [exact Y|]. destruct (D _ _ I) as (q & X). discriminate. }
  clear - C2 N. revert t C2 N. generalize d as dd. induction dd as [|y dd IH]; intros t C2 N; [destruct t; [reflexivity|cbn in C2; lia]|]. pose proof (N 0%nat ltac:(cbn; lia)) as H. destruct t as [|z t]; [discriminate|]. cbn in H. injection H as ->. f_equal.
  apply IH; [cbn in C2; lia|]. intros i Li. apply (N (S i)). cbn. lia.
Qed.
End Place.
(** What a lookup gives when others have the same file. *)
Lemma same_results fs a r q b d : run fs (a ++ (r, KDone q) :: b) -> (forall r' c c', In r' rs -> In c (caches sv) -> In c' (caches sv) -> K r' c' = K r c -> one_body n sv r' d) ->
  q = by_itself e n sv fs0 r \/ exists t, partly d t /\ read_as e (rq_name r) t q.
Proof.
  intros R O. destruct (done_why _ _ R a r q b eq_refl) as [X|(fs' & a' & b' & p & c & t & R' & Ma & Mb & Ic & G0 & G & Eq)]; [now left|right]. pose proof (run_in _ _ _ _ _ R) as Ir.
  destruct (run_copied r c d Ir Ic (fun r' c' Ir' Ic' E' => O r' c c' Ir' Ic Ic' E') _ _ R') as [X|(t' & X & P & _)]; [congruence|]. assert (t' = t) by congruence. subst t'. exists t. split; [exact P|]. subst q. unfold read_at, read_as.
  destruct (read_cabinet (ce_cab e) t (rq_name r)) as [[x|]|m|m]; cbn [bind]; congruence.
Qed.
End Beside.
