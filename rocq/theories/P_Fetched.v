(** Proofs about several files that have their PDBs downloaded. *)
From Verif Require Import Base Str Utf8 M_Path S_Path P_Path M_Source M_Symbol M_Object M_Fs S_Fs P_Fs M_Cache S_Cache P_Cache M_Store M_Input S_Input P_Input M_Sched M_Many M_Shared S_Shared M_Beside S_Beside P_Beside S_Plain S_Fetched.

Lemma stem_exists n : proper n -> exists stem, stem_of n stem.
Proof.
  intros Hn. destruct (path_extension n) as [ext|] eqn:X.
  - apply (extension_single n ext Hn) in X. destruct X as (stem & Hs & E & He). exists stem. left. exists ext. splits; auto.
  - exists n. right. split; [reflexivity|]. intros a ext E. destruct a as [|c a]; [reflexivity|exfalso].
    assert (Q : exists a' e', n = a' ++ 46 :: e' /\ a' <> [] /\ ~ In 46 e').
    { clear X Hn. subst n. revert c a. induction ext as [|h ext IH] using rev_ind; intros c a.
      - exists (c :: a), []. splits; auto; discriminate.
      - destruct (N.eq_dec h 46) as [->|Nh].
        + exists ((c :: a) ++ 46 :: ext), []. splits; [now rewrite <- app_assoc|discriminate|intros []].
        + destruct (IH c a) as (a' & e' & E' & A & K). exists a', (e' ++ [h]). splits; [|exact A|intros I; apply in_app_or in I; destruct I as [I|[I|[]]]; congruence].
          change ((c :: a) ++ 46 :: ext ++ [h]) with ((c :: a) ++ (46 :: ext) ++ [h]). rewrite app_assoc, E', <- app_assoc. reflexivity. }
    destruct Q as (a' & e' & E' & A & K). assert (Y : path_extension n = Some e') by (apply (extension_single n e' Hn); eauto). congruence.
Qed.

Section Fetched.
Variables (x : Ext) (sv : list SymbolServer) (rs : list (str * str)) (fs0 : FS).
Let os := ex_os x.
Let e := ex_env x.
Let nt := ex_net x.
Notation qs := (reqs x rs).
Notation K := (kept_at os).
Notation R := (fetched x sv rs fs0).
Hypothesis TD : tidy os sv fs0 qs.
Hypothesis HE : healthy os.
Hypothesis SC : forall js, Permutation (ex_sched x js) js.
Hypothesis OP : own_places os sv qs.

Lemma sched_of r : In r qs -> rq_sched r = ex_sched x.
Proof. intros I. unfold reqs in I. apply in_map_iff in I as (p & <- & _). reflexivity. Qed.
Lemma sched_ok r js : In r qs -> Permutation (rq_sched r js) js.
Proof. intros I. rewrite (sched_of r I). apply SC. Qed.

(** What a lookup by itself changes. *)
Lemma lookup_changes fs r lk : tidy os sv fs qs -> In r qs -> search_file e nt (rq_sched r) fs (rq_name r) (rq_id r) (Some sv) = Ok lk -> forall l,
  fs_get (lk_fs lk) l = fs_get fs l \/
  (fs_get fs l = None /\ fs_get (lk_fs lk) l = Some NDir /\ exists c k, In c (caches sv) /\ K r c = k ++ l /\ k <> []) \/
  (exists c buf d, In c (caches sv) /\ l = K r c /\ uncached os fs sv (get_base (rq_name r)) (rq_id r) (rq_name r) /\ fs_get (lk_fs lk) l = Some (NFile buf) /\
    read_cabinet (ce_cab e) buf (rq_name r) = Ok (Some d) /\ lk_data lk = Some d).
Proof.
  intros TF I H l. destruct (proj1 TF r I) as (Hn & Hi). pose proof (base_proper _ Hn) as Hb.
  destruct (search_in_cache e fs sv (rq_id r) (get_base (rq_name r)) (rq_name r)) as [p|] eqn:S.
  { rewrite (search_file_cached _ _ _ _ _ _ _ _ (proj1 Hn) S) in H. apply bind_ok in H as (d & _ & H). injection H as <-. now left. }
  apply (search_none e fs sv (rq_id r) _ _ Hb Hi Hn) in S.
  destruct (lookup_inv _ _ _ _ _ _ _ _ Hn Hi S (fun js => sched_ok r js I) H) as (us & _ & [(_ & ->)|(u & s & uss & _ & _ & Is & _ & _ & _ & M)]); [now left|].
  destruct (nt_get nt u) as [buf|]; [|destruct M as (_ & ->); now left]. destruct M as [(_ & _ & ->)|(d & W & D & Rc & C)]; [now left|].
  destruct (sv_cache s) as [c|] eqn:Sc; cbn [option_map] in C.
  2:{ unfold copy_in_cache in C. destruct buf; [discriminate|]. destruct (starts_with _ _); [discriminate|]. injection C as C. rewrite <- C. now left. }
  assert (Ic : In c (caches sv)).
  { clear - Is Sc. unfold caches. induction sv as [|y t IH]; [easy|]. cbn [filter_map]. destruct Is as [->|Is]; [rewrite Sc; now left|]. destruct (sv_cache y); [right|]; auto. }
  unfold entry_path in C. apply (copy_stores e fs _ _ _ _ HE Hn) in C as (C1 & C2). rewrite !locate_push in C1, C2 by assumption. fold os in C1, C2. change (ce_os e) with os in C1, C2.
  change (rq_name r :: rq_id r :: get_base (rq_name r) :: locate (os_cwd os) c) with (K r c) in C1, C2.
  destruct (list_eq_dec str_eq_dec l (K r c)) as [->|Nl].
  - right. right. exists c, buf, d. splits; auto.
  - destruct (C2 l Nl) as [X|(X1 & X2 & k & X3)]; [now left|]. right. left. splits; auto. exists c, (rq_name r :: k). splits; [exact Ic| |discriminate].
    change (K r c) with (rq_name r :: rq_id r :: get_base (rq_name r) :: locate (os_cwd os) c). cbn [app]. now rewrite <- X3.
Qed.

Lemma fetched_start : R fs0.
Proof. intros l. now left. Qed.
Lemma fetched_tidy fs : R fs -> tidy os sv fs qs.
Proof.
  intros RF. destruct TD as (T1 & T2 & T3 & T4 & T5). unfold tidy. splits; auto.
  - intros r c I Ic E. destruct (RF (K r c)) as [X|[(_ & _ & r' & c' & k & I' & Ic' & X & Nk)|(r' & c' & buf & d & _ & _ & _ & _ & X & _)]]; [|apply Nk; now apply (T2 r r' c c' k)|congruence].
    apply (T3 r c I Ic). congruence.
  - intros r c l y d I Ic E Nl G. destruct (RF y) as [X|[(_ & X & _)|(r' & c' & buf & d' & I' & Ic' & X & _)]]; [|congruence|].
    + apply (T4 r c l y d I Ic E Nl). congruence.
    + subst y. apply Nl. now apply (T2 r' r c' c l).
Qed.
Lemma fetched_stays fs l nd : R fs -> fs_get fs0 l = Some nd -> fs_get fs l = Some nd.
Proof.
  intros RF G. destruct (RF l) as [X|[(X & _)|(r & c & buf & d & _ & Ic & -> & U & _)]]; [congruence|congruence|].
  pose proof (U c Ic) as U'. congruence.
Qed.
Lemma fetched_file fs l d : R fs -> elsewhere os sv qs l -> fs_get fs l = Some (NFile d) <-> fs_get fs0 l = Some (NFile d).
Proof.
  intros RF EL. split; [|now apply fetched_stays]. intros G. destruct (RF l) as [X|[(_ & X & _)|(r & c & buf & d' & I & Ic & X & _)]]; [congruence|congruence|].
  exfalso. now apply (EL r c).
Qed.

(** Where the first cache that has the file is. *)
Lemma first_cache fs l r : In r qs -> (forall c, In c (caches l) -> fs_get fs (K r c) = None) \/
  exists pre s post c nd, l = pre ++ s :: post /\ sv_cache s = Some c /\ (forall c, In c (caches pre) -> fs_get fs (K r c) = None) /\ fs_get fs (K r c) = Some nd.
Proof.
  intros I. induction l as [|s l IH]; [left; intros c []|]. destruct (sv_cache s) as [c|] eqn:Sc.
  - destruct (fs_get fs (K r c)) as [nd|] eqn:G; [right; exists [], s, l, c, nd; splits; auto; intros c' []|].
    destruct IH as [IH|(pre & s' & post & c' & nd & -> & S' & F & G')].
    + left. unfold caches. cbn [filter_map]. rewrite Sc. intros c' [<-|Ic]; [exact G|now apply IH].
    + right. exists (s :: pre), s', post, c', nd. splits; auto. unfold caches. cbn [filter_map]. rewrite Sc. intros c1 [<-|Ic]; [exact G|now apply F].
  - destruct IH as [IH|(pre & s' & post & c' & nd & -> & S' & F & G')].
    + left. unfold caches. cbn [filter_map]. now rewrite Sc.
    + right. exists (s :: pre), s', post, c', nd. splits; auto. unfold caches. cbn [filter_map]. now rewrite Sc.
Qed.
Lemma in_caches s c l1 l2 l : l = l1 ++ s :: l2 -> sv_cache s = Some c -> In c (caches l).
Proof. intros -> S. unfold caches. rewrite fm_app. apply in_or_app. right. cbn [filter_map]. rewrite S. now left. Qed.

Lemma fetched_none fs l : R fs -> fs_get fs l = None -> fs_get fs0 l = None.
Proof. intros RF G. destruct (fs_get fs0 l) as [nd|] eqn:E; [|reflexivity]. apply (fetched_stays fs l nd RF) in E. congruence. Qed.

(** A lookup gives what it gives at the start. *)
Lemma lookup_same fs r : R fs -> In r qs -> by_itself e nt sv fs r = by_itself e nt sv fs0 r.
Proof.
  intros RF I. pose proof (fetched_tidy fs RF) as TF.
  destruct (first_cache fs sv r I) as [F|(pre & s & post & c & nd & E & Sc & F & G)].
  - rewrite (itself_asked e nt sv fs qs TF HE (fun r js => sched_ok r js) r I F).
    symmetry. apply (itself_asked e nt sv fs0 qs TD HE (fun r js => sched_ok r js) r I). intros c Ic. apply (fetched_none fs); auto.
  - assert (Ic : In c (caches sv)) by (eapply in_caches; eauto). destruct nd as [t|]; [|exfalso; destruct TF as (_ & _ & T3 & _); now apply (T3 r c I Ic)].
    rewrite (itself_cached e nt sv fs qs TF r pre s post c t I E Sc F G).
    destruct (RF (K r c)) as [X|[(_ & X & _)|(r' & c' & buf & d & I' & Ic' & X & U & G' & Rc & BI)]]; [|congruence|].
    + symmetry. apply (itself_cached e nt sv fs0 qs TD r pre s post c t I E Sc); [|exact (eq_trans (eq_sym X) G)]. intros c1 I1. apply (fetched_none fs); auto.
    + assert (r = r') by exact (OP r r' c c' I I' Ic Ic' X). subst r'. fold e nt in BI. rewrite BI. assert (t = buf) by congruence. subst t. unfold read_at. apply cabinet_spec in Rc; [|exact (proj1 (proj1 TD r I))]. unfold e. fold (ex_cab x). now rewrite Rc.
Qed.
Lemma lookup_kept fs r lk : R fs -> In r qs -> search_file e nt (rq_sched r) fs (rq_name r) (rq_id r) (Some sv) = Ok lk -> R (lk_fs lk).
Proof.
  intros RF I S l. pose proof (fetched_tidy fs RF) as TF. pose proof (lookup_same fs r RF I) as BI. unfold by_itself in BI at 1. rewrite S in BI.
  destruct (lookup_changes fs r lk TF I S l) as [X|[(X1 & X2 & c & k & Ic & E & Nk)|(c & buf & d & Ic & -> & U & G & Rc & D)]]; [rewrite X; apply RF| |].
  - right. left. splits; [now apply (fetched_none fs)|exact X2|]. exists r, c, k. auto.
  - right. right. exists r, c, buf, d. splits; auto.
    + intros c' Ic'. apply (fetched_none fs); [exact RF|]. now apply U.
    + apply cabinet_spec; [exact (proj1 (proj1 TD r I))|exact Rc].
    + fold e nt. rewrite <- BI, D. reflexivity.
Qed.

(** Reading. *)
Lemma same_is_file fs p : R fs -> elsewhere os sv qs (locate (os_cwd os) p) -> is_file os fs p = is_file os fs0 p.
Proof.
  intros RF EL. unfold is_file. destruct (fs_get fs0 (locate (os_cwd os) p)) as [[d|]|] eqn:G.
  - now rewrite (fetched_stays fs _ _ RF G).
  - now rewrite (fetched_stays fs _ _ RF G).
  - destruct (fs_get fs (locate (os_cwd os) p)) as [[d|]|] eqn:G'; try reflexivity. apply (fetched_file fs _ d RF EL) in G'. congruence.
Qed.
Lemma same_read fs p : R fs -> is_file os fs0 p = true -> read_file os (ex_cab x) fs p = read_file os (ex_cab x) fs0 p.
Proof.
  intros RF F. apply is_file_yes in F as (d & G). rewrite (read_file_plain _ _ _ _ d G). apply read_file_plain. now apply fetched_stays.
Qed.
Lemma same_read_first fs ps : R fs -> (forall p, In p ps -> elsewhere os sv qs (locate (os_cwd os) p)) -> read_first os (ex_cab x) fs ps = read_first os (ex_cab x) fs0 ps.
Proof.
  intros RF. induction ps as [|p ps IH]; intros EL; [reflexivity|]. cbn [read_first]. rewrite (same_is_file fs p RF (EL p (or_introl eq_refl))).
  destruct (is_file os fs0 p) eqn:F; [now rewrite (same_read fs p RF F)|]. apply IH. intros q I. apply EL. now right.
Qed.
Lemma same_find_pe fs id dir : R fs -> (forall m, elsewhere os sv qs (m :: locate (os_cwd os) dir)) -> forall exts, (forall ext, In ext exts -> ~ In 47 ext /\ ext <> [] /\ ~ In 47 (fix_extension ext) /\ fix_extension ext <> []) ->
  forall n, proper n -> find_pe_loop os (ex_cab x) (ex_ps x) fs id (path_push dir n) exts = find_pe_loop os (ex_cab x) (ex_ps x) fs0 id (path_push dir n) exts.
Proof.
  intros RF EL. induction exts as [|ext t IH]; intros X n Hn; [reflexivity|]. cbn [find_pe_loop]. cbv zeta.
  destruct (X ext (or_introl eq_refl)) as (X1 & X2 & X3 & X4). destruct (stem_exists n Hn) as (stem & Hs).
  rewrite (set_ext_push dir n stem ext Hn Hs X1 X2). pose proof (stem_proper n stem ext Hn Hs X1 X2) as Hp.
  assert (IH' : forall m, proper m -> find_pe_loop os (ex_cab x) (ex_ps x) fs id (path_push dir m) t = find_pe_loop os (ex_cab x) (ex_ps x) fs0 id (path_push dir m) t) by (apply IH; intros y I; apply X; now right).
  rewrite (same_is_file fs) by (auto; rewrite locate_push by exact Hp; apply EL). destruct (is_file os fs0 _) eqn:F; [|now apply IH']. rewrite (same_read fs _ RF F).
  destruct (read_file os (ex_cab x) fs0 _) as [buf|m|m]; cbn [bind]; auto. destruct (ps_pe (ex_ps x) buf) as [pe|]; [|now apply IH'].
  destruct (ends_with_char 95 ext).
  - destruct (stem_exists _ Hp) as (stem' & Hs'). rewrite (set_ext_push dir _ stem' _ Hp Hs' X3 X4). destruct (get_filename _); cbn [bind]; auto. destruct (pf_id pe =? id); [reflexivity|]. apply IH'. now apply (stem_proper _ stem' _ Hp Hs').
  - destruct (get_filename _); cbn [bind]; auto. destruct (pf_id pe =? id); [reflexivity|]. now apply IH'.
Qed.
Lemma same_servers fs : R fs -> get_sym_servers os fs0 (ex_home x) None = Ok (Some sv) -> get_sym_servers os fs (ex_home x) None = Ok (Some sv).
Proof.
  intros RF. unfold get_sym_servers, read_config. destruct (ex_home x) as [h|]; [|discriminate]. destruct (fs_get fs0 _) as [[d|]|] eqn:G; try discriminate. now rewrite (fetched_stays fs _ _ RF G).
Qed.

Hypothesis SV : get_sym_servers os fs0 (ex_home x) None = Ok (Some sv).
Hypothesis CW : Forall proper (os_cwd os).
Definition in_R {A} (r : res (A * FS)) : Prop := match r with Ok (_, fs) => R fs | _ => True end.
Definition drop {A} (r : res (A * FS)) : res A := match r with Ok (a, _) => Ok a | Err m => Err m | Panic m => Panic m end.

Lemma pdb_search_all cab dir pe_name recorded r n stem : proper pe_name -> slashed_path recorded r -> last_name r n -> stem_of n stem ->
  exists ps, map (place os) ps = pdb_places (os_cwd os) (locate (os_cwd os) dir) r n (stem ++ lit ".pd_") /\ Forall (fun p => proper (snd p)) ps /\
  forall fs, os_specific_try_to_find_pdb os cab fs (path_push dir pe_name) recorded = (d <- read_first os cab fs (map pushed ps) ;; Ok (d, n)).
Proof.
  intros Hp S L St. apply slashed_unix in S. subst r. pose proof L as (Hn & _). destruct (last_name_push _ _ L) as (d & E).
  destruct (set_file_name_push dir pe_name n Hp Hn) as (q & Eq & Lq). destruct (set_file_name_cwd os n CW) as (c & Ec & Lc).
  assert (Hx : proper (stem ++ lit ".pd_")) by (apply (stem_proper n stem (lit "pd_") Hn St); [cbn; intuition discriminate|discriminate]).
  exists [(d, n); (q, n); (q, stem ++ lit ".pd_"); (c, n)]. split.
  - cbn [map]. unfold place, pdb_places. cbn [fst snd]. rewrite !Lq, Lc, E, locate_push by exact Hn. reflexivity.
  - split; [repeat constructor; cbn [snd]; auto; apply Hn || apply Hx|]. intros fs.
    unfold os_specific_try_to_find_pdb. rewrite E, file_name_push by exact Hn. unfold try_to_find_pdb. rewrite Eq, Ec.
    rewrite (set_ext_push q n stem (lit "pd_")) by (auto; try discriminate; cbn; intuition discriminate).
    unfold pushed. cbn [map read_first fst snd]. destruct (is_file os fs (path_push d n)); [|reflexivity].
    destruct (read_file os cab fs (path_push d n)); reflexivity.
Qed.
Lemma same_pdb fs dir pe_name d pe recorded : R fs -> proper pe_name -> (forall m, elsewhere os sv qs (m :: locate (os_cwd os) dir)) -> ps_pe (ex_ps x) d = Some pe -> pf_pdb pe = Some recorded ->
  (forall p, slashed_path recorded p -> nameless p \/ exists k, last_name p k /\ In (k, pa_debug_id (pf_obj pe)) rs /\ elsewhere os sv qs (locate (os_cwd os) p) /\ elsewhere os sv qs (k :: tl (os_cwd os))) ->
  in_R (get_pe_pdb_buf x fs (path_push dir pe_name) d (Some sv)) /\
  drop (get_pe_pdb_buf x fs (path_push dir pe_name) d (Some sv)) = drop (get_pe_pdb_buf x fs0 (path_push dir pe_name) d (Some sv)).
Proof.
  intros RF Hp EL P Pd Q. pose proof (proj2 (slashed_unix recorded _) eq_refl) as S. destruct (Q _ S) as [Nm|(k & L & I & E1 & E2)].
  { rewrite !(pe_pdb_nameless x _ _ d (Some sv) pe recorded _ P Pd S Nm). split; [exact RF|reflexivity]. }
  destruct (stem_exists k (proj1 L)) as (stem & St).
  destruct (pdb_search_all (ex_cab x) dir pe_name recorded _ k stem Hp S L St) as (ps & E & Pr & O).
  assert (Z : read_first os (ex_cab x) fs (map pushed ps) = read_first os (ex_cab x) fs0 (map pushed ps)).
  { apply same_read_first; [exact RF|]. intros p Ip. apply in_map_iff in Ip as ([q m] & <- & Ip). rewrite Forall_forall in Pr. pose proof (Pr _ Ip) as Hm. cbn [snd] in Hm. unfold pushed. cbn [fst snd]. rewrite locate_push by exact Hm.
    assert (J : In (place os (q, m)) (pdb_places (os_cwd os) (locate (os_cwd os) dir) (unix_path recorded) k (stem ++ lit ".pd_"))) by (rewrite <- E; now apply in_map).
    unfold place, pdb_places in J. cbn [fst snd] in J.
    destruct J as [J|[J|[J|[J|[]]]]]; apply (f_equal fst) in J; cbn [fst] in J; rewrite <- J; [exact E1|apply EL|apply EL|exact E2]. }
  unfold get_pe_pdb_buf. rewrite P, Pd. change (ex_os x) with os. rewrite !O, Z. destruct (read_first os (ex_cab x) fs0 (map pushed ps)) as [[b|]|m|m]; cbn [bind].
  - destruct k as [|y k]; split; try exact RF; reflexivity.
  - destruct k as [|y k]; [split; [exact RF|reflexivity]|].
    set (r := mkReq (y :: k) (pa_debug_id (pf_obj pe)) (ex_sched x)).
    assert (Iq : In r qs) by (unfold reqs; apply in_map_iff; eexists; split; [|exact I]; reflexivity).
    pose proof (lookup_same fs r RF Iq) as BI. unfold by_itself in BI. change (rq_name r) with (y :: k) in BI. change (rq_id r) with (pa_debug_id (pf_obj pe)) in BI. change (rq_sched r) with (ex_sched x) in BI.
    fold e nt. destruct (search_file e nt (ex_sched x) fs (y :: k) (pa_debug_id (pf_obj pe)) (Some sv)) as [lk|m|m] eqn:S1;
      destruct (search_file e nt (ex_sched x) fs0 (y :: k) (pa_debug_id (pf_obj pe)) (Some sv)) as [lk0|m0|m0]; try discriminate; cbn [bind in_R drop].
    + injection BI as BI. split; [exact (lookup_kept fs r lk RF Iq S1)|now rewrite BI].
    + split; [exact Logic.I|congruence].
    + split; [exact Logic.I|congruence].
  - split; [exact Logic.I|reflexivity].
  - split; [exact Logic.I|reflexivity].
Qed.
Lemma no_pdb_same fs path d pe : R fs -> ps_pe (ex_ps x) d = Some pe -> pf_pdb pe = None -> get_pe_pdb_buf x fs path d (Some sv) = Ok (None, fs).
Proof. intros RF P Pd. unfold get_pe_pdb_buf. now rewrite P, Pd. Qed.

(** One file. *)
Lemma same_job files en m arch inl fs f : R fs -> in_place x sv rs fs0 files -> In f files ->
  R (fst (get_job x en m arch inl fs f)) /\ snd (get_job x en m arch inl fs f) = snd (get_job x en m arch inl fs0 f).
Proof.
  intros RF PL If. destruct (PL f If) as (n & raw & L & G & EL & PE). fold os in G, EL, PE. destruct (last_name_push _ _ L) as (dir & ->). pose proof (proj1 L) as Hn.
  rewrite locate_push in G, EL by exact Hn. cbn [tl] in EL. unfold get_job. destruct (get_filename (path_push dir n)) as [name|w|w]; cbn [next]; [|split; [exact RF|reflexivity]..].
  assert (F0 : is_file os fs0 (path_push dir n) = true) by (unfold is_file; rewrite locate_push by exact Hn; now rewrite G).
  fold os. rewrite (same_read fs _ RF F0). destruct (read_file os (ex_cab x) fs0 (path_push dir n)) as [d|w|w] eqn:Rd; cbn [next]; [|split; [exact RF|reflexivity]..].
  assert (Un : unpacked (ex_cab x) raw n d).
  { destruct (read_push_ok os (ex_cab x) fs0 dir n d Hn F0 Rd) as (raw' & G' & U). rewrite locate_push in G' by exact Hn. assert (raw' = raw) by congruence. now subst raw'. }
  unfold get_object_info. destruct (ps_peek (ex_ps x) d) eqn:Fm; cbn [fst snd]; try (split; [exact RF|reflexivity]).
  - split; [exact RF|]. unfold get_pdb_object_info. destruct (ps_pdb (ex_ps x) d) as [pdb|]; [|reflexivity]. unfold find_pe_for_pdb. fold os.
    rewrite (same_find_pe fs (pd_id pdb) dir RF EL); [reflexivity| |exact Hn]. intros ext Ie. cbn in Ie. repeat destruct Ie as [<-|Ie]; [..|easy]; splits; try discriminate; vm_compute; intuition discriminate.
  - unfold get_pe_pdb_object_info. fold os. rewrite (same_servers fs RF SV), SV. cbn [bind].
    destruct (ps_pe (ex_ps x) d) as [pe|] eqn:P.
    2:{ unfold get_pe_pdb_buf. rewrite P. split; [exact RF|reflexivity]. }
    destruct (pf_pdb pe) as [recorded|] eqn:Pd.
    2:{ rewrite (no_pdb_same fs _ d pe RF P Pd), (no_pdb_same fs0 _ d pe fetched_start P Pd). split; [exact RF|reflexivity]. }
    destruct (same_pdb fs dir n d pe recorded RF Hn EL P Pd) as (A & B); [intros p; now apply (PE d pe recorded p)|].
    destruct (get_pe_pdb_buf x fs (path_push dir n) d (Some sv)) as [[a fs1]|w|w]; destruct (get_pe_pdb_buf x fs0 (path_push dir n) d (Some sv)) as [[a0 fs2]|w0|w0]; try discriminate; cbn [in_R drop] in A, B; injection B as <-.
    + destruct a as [[[pe' pb] nm]|].
      * destruct (ps_pdb (ex_ps x) pb) as [pdb|]; [destruct (from_pdb _ _ _ _ _)|]; split; (exact A || reflexivity).
      * split; [exact A|reflexivity].
    + split; [exact RF|reflexivity].
    + split; [exact RF|reflexivity].
Qed.
End Fetched.

Lemma configured_servers x fs0 sv : configured x fs0 sv -> get_sym_servers (ex_os x) fs0 (ex_home x) None = Ok (Some sv).
Proof.
  intros (h & s & l & Hh & G & F & P & S & N). destruct (servers_source (ex_os x) fs0 (ex_home x) None) as (_ & _ & Q). destruct (Q h eq_refl Hh) as (_ & Q'). rewrite (Q' s F G), Hh.
  assert (E : parse_sympath (Some h) s = sv) by (apply config_iff; now exists l). rewrite E. destruct sv; [easy|reflexivity].
Qed.
Lemma downloads_steady u sv rs files fs0 : downloads (u_ext u) fs0 sv rs files -> steady u files fs0 (fetched (u_ext u) sv rs fs0).
Proof.
  intros (C & HE & CW & SC & TD & OP & PL). split; [apply fetched_start|]. intros fs f RF If. unfold u_job. eapply same_job; eauto. now apply configured_servers.
Qed.
Lemma fetched_new_store x sv rs fs0 fs dir : fetched x sv rs fs0 fs -> store_apart x sv rs dir -> new_store (ex_os x) dir fs0 -> new_store (ex_os x) dir fs.
Proof.
  intros RF SA (N1 & N2). split.
  - intros k Nk. specialize (N1 k Nk). destruct (RF (k ++ locate (os_cwd (ex_os x)) dir)) as [X|[(_ & _ & r & c & k' & I & Ic & X & _)|(r & c & raw & d & I & Ic & X & _)]]; [congruence|exfalso..].
    + apply (proj1 (SA r c (k' ++ k) I Ic)). now rewrite <- app_assoc.
    + now apply (proj1 (SA r c k I Ic)).
  - intros k up d E G. destruct (RF up) as [X|[(_ & X & _)|(r & c & raw & d' & I & Ic & X & _)]]; [apply (N2 k up d E); congruence|congruence|].
    subst up. now apply (proj2 (SA r c k I Ic)).
Qed.
