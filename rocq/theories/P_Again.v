(** Proofs about dumping one file again. *)
From Verif Require Import Base Str Utf8 M_Path S_Path P_Path M_Source M_Symbol M_Object M_Fs S_Fs P_Fs M_Cache S_Cache P_Cache M_Store S_Store P_Store M_Input S_Input P_Input M_Shared S_Shared S_Fetched P_Fetched S_Again.

Section Again.
Variables (x : Ext) (fs fs' : FS) (f : str) (d : list N).
Let os := ex_os x.
Let cab := ex_cab x.
Hypothesis CW : Forall proper (os_cwd os).
Hypothesis SF : same_files (looked_at x f d) fs fs'.
Hypothesis IN : input_at x fs f d.

Lemma again_is_file p : looked_at x f d (locate (os_cwd os) p) -> is_file os fs' p = is_file os fs p.
Proof.
  intros L. unfold is_file. pose proof (fun d => SF _ d L) as E. fold os in E.
  destruct (fs_get fs' (locate (os_cwd os) p)) as [[d'|]|]; destruct (fs_get fs (locate (os_cwd os) p)) as [[d0|]|]; try reflexivity.
  all: first [specialize (proj1 (E d') eq_refl); discriminate|specialize (proj2 (E d0) eq_refl); discriminate].
Qed.
Lemma again_read p : looked_at x f d (locate (os_cwd os) p) -> is_file os fs p = true -> read_file os cab fs' p = read_file os cab fs p.
Proof.
  intros L F. apply is_file_yes in F as (d' & G). rewrite (read_file_plain _ _ _ _ d' G). apply read_file_plain. now apply (SF _ d' L).
Qed.
Lemma again_read_first ps : (forall p, In p ps -> looked_at x f d (locate (os_cwd os) p)) -> read_first os cab fs' ps = read_first os cab fs ps.
Proof.
  induction ps as [|p ps IH]; intros L; [reflexivity|]. cbn [read_first]. rewrite (again_is_file p (L p (or_introl eq_refl))).
  destruct (is_file os fs p) eqn:F; [now rewrite (again_read p (L p (or_introl eq_refl)) F)|]. apply IH. intros q I. apply L. now right.
Qed.
Lemma again_scan ps id dir stem : forall exts n, proper n -> stem_of n stem -> exts_ok exts ->
  (forall p, In p exts -> looked_at x f d ((stem ++ 46 :: fst p) :: locate (os_cwd os) dir)) ->
  find_pe_loop os cab ps fs' id (path_push dir n) (map fst exts) = find_pe_loop os cab ps fs id (path_push dir n) (map fst exts).
Proof.
  induction exts as [|[ext rep] t IH]; intros n Hn Hs X L; [reflexivity|]. cbn [map fst]. apply (exts_ok_app [(ext, rep)] t) in X as (X1 & X2).
  rewrite !(find_pe_step os cab ps _ id dir n stem ext rep (map fst t) Hn Hs X1). inversion X1 as [|? ? (Y1 & Y2 & Y3 & Y4 & Y5 & Y6 & _) _]; subst. cbn [fst snd] in *.
  assert (Pe : proper (stem ++ 46 :: ext)) by (now apply (stem_proper n)). assert (Pr : proper (stem ++ 46 :: rep)) by (now apply (stem_proper n)).
  pose proof (stem_nonempty n stem Hn Hs) as Ns.
  assert (Le : looked_at x f d (locate (os_cwd os) (path_push dir (stem ++ 46 :: ext)))) by (rewrite locate_push by exact Pe; apply (L (ext, rep)); now left).
  assert (IH' : forall m, proper m -> stem_of m stem -> find_pe_loop os cab ps fs' id (path_push dir m) (map fst t) = find_pe_loop os cab ps fs id (path_push dir m) (map fst t)) by (intros m Hm Sm; apply IH; auto; intros p I; apply L; now right).
  rewrite (again_is_file _ Le). destruct (is_file os fs _) eqn:F; [|apply IH'; [exact Pe|now apply stem_of_ext]]. rewrite (again_read _ Le F).
  destruct (read_file os cab fs _) as [b|m|m]; cbn [bind]; auto. destruct (ps_pe ps b) as [pe|]; [|apply IH'; [exact Pe|now apply stem_of_ext]].
  destruct (pf_id pe =? id); [reflexivity|]. apply IH'; [exact Pr|now apply stem_of_ext].
Qed.

Lemma again_servers cf g : local_only x cf g -> get_sym_servers os g (ex_home x) (cf_symbol_server cf) = Ok None.
Proof.
  intros (_ & _ & -> & H). unfold get_sym_servers, read_config. destruct (ex_home x) as [h|]; [|reflexivity]. specialize (H h eq_refl).
  assert (E : locate (os_cwd os) (path_push (path_push h (lit ".dump_syms")) (lit "config")) = config_at os h).
  { unfold config_at. rewrite !locate_push; [reflexivity|..]; unfold proper; splits; try discriminate; vm_compute; intuition discriminate. }
  rewrite E. unfold os. now rewrite H.
Qed.
Lemma again_pdb : ps_peek (ex_ps x) d = FmtPe ->
  get_pe_pdb_buf x fs' f d None = match get_pe_pdb_buf x fs f d None with Ok (a, _) => Ok (a, fs') | r => r end.
Proof.
  intros Fm. destruct IN as ((n & raw & L & G & U) & Q). destruct (last_name_push _ _ L) as (dir & E). pose proof (proj1 L) as Hn.
  destruct (ps_pe (ex_ps x) d) as [pe|] eqn:P; [|unfold get_pe_pdb_buf; now rewrite P].
  destruct (pf_pdb pe) as [recorded|] eqn:Pd; [|unfold get_pe_pdb_buf; now rewrite P, Pd].
  pose proof (proj2 (slashed_unix recorded _) eq_refl) as S. destruct (Q _ _ _ eq_refl Pd S) as [Nm|(k & Lk)].
  { now rewrite !(pe_pdb_nameless x _ _ d None pe recorded _ P Pd S Nm). }
  destruct (stem_exists k (proj1 Lk)) as (stem & St).
  destruct (pdb_search_all x CW cab dir n recorded _ k stem Hn S Lk St) as (ps & Ep & Pr & O). fold os in Ep, O. rewrite <- E in O.
  assert (Ld : tl (locate (os_cwd os) f) = locate (os_cwd os) dir) by (rewrite E, locate_push by exact Hn; reflexivity).
  assert (Z : read_first os cab fs' (map pushed ps) = read_first os cab fs (map pushed ps)).
  { apply again_read_first. intros p Ip. apply in_map_iff in Ip as ([q m] & <- & Ip). rewrite Forall_forall in Pr. pose proof (Pr _ Ip) as Hm. cbn [snd] in Hm.
    unfold pushed. cbn [fst snd]. rewrite locate_push by exact Hm. right. right. split; [exact Fm|]. exists pe, recorded, (unix_path recorded), k, stem. splits; trivial. fold os. rewrite Ld, <- Ep, map_map.
    apply in_map_iff. exists (q, m). split; [reflexivity|exact Ip]. }
  unfold get_pe_pdb_buf. rewrite P, Pd. fold os cab. rewrite !O, Z. destruct (read_first os cab fs (map pushed ps)) as [[b|]|m|m]; cbn [bind]; [| |reflexivity..].
  - now destruct k.
  - destruct k as [|y k]; reflexivity.
Qed.
Lemma again_load e cf : local_only x cf fs -> local_only x cf fs' -> load_file x e cf fs' f = (fs', snd (load_file x e cf fs f)) /\ fst (load_file x e cf fs f) = fs.
Proof.
  intros LO LO'. pose proof (again_servers cf fs LO) as SV. pose proof (again_servers cf fs' LO') as SV'. split.
  2:{ destruct (load_file x e cf fs f) as [g r] eqn:E. cbn [fst]. refine (load_offline x e cf fs f g r _ E). intros l. fold os. rewrite SV. discriminate. }
  pose proof again_pdb as AP. destruct IN as ((n & raw & L & G & U) & Q). destruct (last_name_push _ _ L) as (dir & E). pose proof (proj1 L) as Hn. destruct LO as (I1 & I2 & Sv & _).
  assert (Lf : looked_at x f d (locate (os_cwd os) f)) by now left.
  assert (R : read_file os cab fs f = Ok d) by (rewrite E in G |- *; apply read_push; [exact Hn|]; exists raw; auto).
  assert (F : is_file os fs f = true) by (unfold is_file, os; now rewrite G).
  assert (R' : read_file os cab fs' f = Ok d) by (rewrite again_read by auto; exact R).
  unfold load_file. destruct (get_filename f) as [nm|w|w]; cbn [next]; [|reflexivity..]. unfold get_from_id. rewrite I1, I2. fold os cab. rewrite R, R'. cbn [next].
  destruct (cf_map cf) as [m|w|w]; cbn [next]; [|reflexivity..]. destruct (cf_arch cf) as [arch|]; [|reflexivity]. unfold get_object_info.
  destruct (ps_peek (ex_ps x) d) eqn:Fm; try reflexivity.
  - unfold get_pdb_object_info. destruct (ps_pdb (ex_ps x) d) as [pdb|]; [|reflexivity]. cbn [snd]. f_equal.
    assert (Z : find_pe_for_pdb os cab (ex_ps x) fs' f (pd_id pdb) = find_pe_for_pdb os cab (ex_ps x) fs f (pd_id pdb)).
    { unfold find_pe_for_pdb. change [lit "dll"; lit "dl_"; lit "exe"; lit "ex_"] with (map fst pe_exts). rewrite E. destruct (stem_exists n Hn) as (stem & St). apply (again_scan _ _ dir stem); [exact Hn|exact St|exact pe_exts_ok|].
      intros p Ip. right. left. split; [exact Fm|]. exists n, stem, p. splits; trivial. fold os. rewrite E, locate_push by exact Hn. reflexivity. }
    fold os cab. now rewrite Z.
  - unfold get_pe_pdb_object_info. fold os. rewrite SV, SV'. cbn [bind]. rewrite AP by reflexivity.
    destruct (get_pe_pdb_buf x fs f d None) as [[[[[pe b] nm']|] g]|w|w]; cbn [snd]; try reflexivity. destruct (ps_pdb (ex_ps x) b) as [pdb|]; cbn [snd]; [|reflexivity].
    destruct (from_pdb _ pdb nm' (Some nm) (Some pe)); reflexivity.
Qed.
End Again.

(** *** Storing again *)
Lemma write_again os extra p o w w' : write_sym os extra (FPath p) o w = (w', Ok tt) ->
  exists text, fmt_object extra o = Ok text /\ forall v, fs_get (w_fs v) (tl (locate (os_cwd os) p)) = Some NDir -> fs_get (w_fs v) (locate (os_cwd os) p) = Some (NFile (os_disk os (encode text))) ->
  exists v', write_sym os extra (FPath p) o v = (v', Ok tt) /\ same_world v' v.
Proof.
  unfold write_sym. destruct (file_create os (w_fs w) p) as [fs1|] eqn:C; [|discriminate]. destruct (fmt_object extra o) as [text|m|m]; [|discriminate..].
  unfold buf_write. destruct (str_eqb _ _) eqn:B; [|discriminate]. intros _. exists text. split; [reflexivity|]. intros v U T.
  unfold file_create in C |- *. destruct (locate (os_cwd os) p) as [|n up] eqn:Lp; [discriminate|]. cbn [tl] in U. rewrite U, T.
  assert (M : os_may os (n :: up) = true) by (destruct (os_may os (n :: up)); [reflexivity|]; destruct (fs_get (w_fs w) up) as [[|]|]; try discriminate; destruct (fs_get (w_fs w) (n :: up)) as [[|]|]; discriminate).
  rewrite M. eexists. split; [reflexivity|]. split; [|split; reflexivity]. intros l. cbn [w_fs set_fs].
  destruct (list_eq_dec str_eq_dec l (n :: up)) as [-> |N]; [rewrite fs_get_same by discriminate; now rewrite T|]. rewrite !fs_get_other by congruence. reflexivity.
Qed.

Lemma file_again os extra f o w w' : write_sym os extra f o w = (w', Ok tt) ->
  exists text, fmt_object extra o = Ok text /\ forall v,
  (forall p, f = FPath p -> fs_get (w_fs v) (tl (locate (os_cwd os) p)) = Some NDir /\ fs_get (w_fs v) (locate (os_cwd os) p) = Some (NFile (os_disk os (encode text)))) ->
  exists v', write_sym os extra f o v = (v', Ok tt) /\ same_fs (w_fs v') (w_fs v) /\
    exists t u, w_out w' = w_out w ++ t /\ w_out v' = w_out v ++ t /\ w_err w' = w_err w ++ u /\ w_err v' = w_err v ++ u.
Proof.
  intros W. destruct f as [p| |].
  - destruct (write_again _ _ _ _ _ _ W) as (text & E & A). exists text. split; [exact E|]. intros v H. destruct (H p eq_refl) as (U & T). destruct (A v U T) as (v' & W' & S & O1 & O2).
    exists v'. splits; trivial. exists [], []. rewrite !app_nil_r. unfold write_sym in W. destruct (file_create _ _ _); [|discriminate]. destruct (fmt_object _ _); [|discriminate..]. unfold buf_write in W. injection W as <- _. splits; trivial.
  - unfold write_sym in W |- *. destruct (fmt_object extra o) as [text|m|m]; [|discriminate..]. injection W as <-. exists text. split; [reflexivity|]. intros v _. eexists. split; [reflexivity|]. cbn. split; [intros l; reflexivity|].
    exists (encode text), []. rewrite !app_nil_r. splits; reflexivity.
  - unfold write_sym in W |- *. destruct (fmt_object extra o) as [text|m|m]; [|discriminate..]. injection W as <-. exists text. split; [reflexivity|]. intros v _. eexists. split; [reflexivity|]. cbn. split; [intros l; reflexivity|].
    exists [], (encode text). rewrite !app_nil_r. splits; reflexivity.
Qed.
Lemma mkdirs_again os fs l : fs_get fs l = Some NDir -> mkdirs os fs l = Some fs.
Proof. intros G. destruct l as [|n l]; [reflexivity|]. cbn [mkdirs]. now rewrite G. Qed.
Lemma write_store_again os extra dir p o w w' : proper (ob_name o) -> proper (ob_debug_id o) -> sym_store_path dir o = Some p -> write_store os extra p o w = (w', Ok tt) ->
  fs_get (w_fs w') (tl (locate (os_cwd os) p)) = Some NDir /\ w_out w' = w_out w /\ w_err w' = w_err w /\
  exists text, fmt_object extra o = Ok text /\ forall v, fs_get (w_fs v) (tl (locate (os_cwd os) p)) = Some NDir -> fs_get (w_fs v) (locate (os_cwd os) p) = Some (NFile (os_disk os (encode text))) ->
  exists v', write_store os extra p o v = (v', Ok tt) /\ same_world v' v.
Proof.
  intros Hn Hi S W. destruct (store_loc os dir o p Hn Hi S) as (_ & _ & q & Pq & Lq & _). unfold write_store in W |- *. rewrite Pq in W |- *.
  destruct (create_dir_all os (w_fs w) q) as [fs1|] eqn:C; [|discriminate]. destruct (write_needs _ _ _ _ _ _ W) as (n & up & L & _ & U & _). rewrite L. cbn [tl]. split; [exact U|].
  assert (St : w_out w' = w_out w /\ w_err w' = w_err w).
  { unfold write_sym in W. destruct (file_create _ _ _); [|discriminate]. destruct (fmt_object _ _); [|discriminate..]. unfold buf_write in W. injection W as <- _. auto. }
  destruct St as (S1 & S2). splits; trivial. destruct (write_again _ _ _ _ _ _ W) as (text & E & A). exists text. split; [exact E|]. rewrite L in A. cbn [tl] in A. intros v U' T.
  unfold create_dir_all. rewrite Lq, L. cbn [tl]. rewrite mkdirs_again by exact U'. destruct v as [g o1 o2]. exact (A _ U' T).
Qed.
Lemma store_again os extra out ck o w v : proper (ob_name o) -> proper (ob_debug_id o) -> store os extra out ck o w = (v, Ok tt) ->
  exists v', store os extra out ck o v = (v', Ok tt) /\ same_fs (w_fs v') (w_fs v) /\ same_output w v v'.
Proof.
  intros Hn Hi S. pose proof (fun text l E => store_kept os extra out ck o w v text l Hn Hi E S) as K. unfold store in S |- *. destruct (ck && _); [discriminate|]. unfold andThen in S |- *.
  destruct (output_store out o) as [p|] eqn:Os.
  2:{ cbn [snd fst] in S |- *. destruct (output_file out) as [f|] eqn:Of; [|injection S as <-; exists w; splits; trivial; [now intros l|exists [], []; now rewrite !app_nil_r]].
      destruct (file_again _ _ _ _ _ _ S) as (text & E & A). specialize (K text). destruct (A v) as (v' & W' & F & t & u & O); [|exists v'; splits; trivial; now exists t, u].
      intros q ->. split; [|apply K; [exact E|left; destruct out as [[]| |[]]; try discriminate; injection Of as ->; reflexivity]]. destruct (write_needs _ _ _ _ _ _ S) as (n & up & L & _ & U & _). now rewrite L. }
  assert (Sd : exists dir, sym_store_path dir o = Some p /\ forall l, stored_at os dir o l -> store_target os out o l).
  { destruct out as [f|dir|f dir]; [discriminate|..]; exists dir; (split; [exact Os|]); intros l Hl; (split; [|exact Hl]); destruct dir; discriminate. }
  destruct Sd as (dir & Sd & St). destruct (store_loc os dir o p Hn Hi Sd) as (_ & Sl & _).
  destruct (write_store os extra p o w) as [w1 [[]|m|m]] eqn:W; cbn [snd fst] in S |- *; [|discriminate..].
  destruct (write_store_again os extra dir p o w w1 Hn Hi Sd W) as (U1 & O1 & O2 & text & E & A).
  destruct (output_file out) as [f|] eqn:Of.
  2:{ injection S as <-. destruct (A w1 U1 (proj1 (K text _ E (or_intror (St _ Sl))))) as (v' & W' & F & Q1 & Q2). rewrite W'. cbn [snd fst]. exists v'. splits; trivial. exists [], []. rewrite !app_nil_r. splits; trivial. }
  assert (U2 : fs_get (w_fs v) (tl (locate (os_cwd os) p)) = Some NDir).
  { destruct f as [q| |]; [|rewrite (write_frame _ _ _ _ _ _ _ _ S); [exact U1|discriminate]..]. rewrite (write_frame _ _ _ _ _ _ _ _ S); [exact U1|]. intros q' [= <-] X. destruct (write_needs _ _ _ _ _ _ S) as (n & up & L & _ & _ & D). rewrite <- L, <- X in D. contradiction. }
  destruct (A v U2 (proj1 (K text _ E (or_intror (St _ Sl))))) as (v1 & W1 & F1 & Q1 & Q2). rewrite W1. cbn [snd fst].
  destruct (file_again _ _ _ _ _ _ S) as (text' & E' & A'). rewrite E in E'. injection E' as <-. destruct (A' v1) as (v' & W' & F & t & u & R1 & R2 & R3 & R4).
  - intros q ->. unfold same_fs in F1. rewrite !F1. split; [destruct (write_needs _ _ _ _ _ _ S) as (n & up & L & _ & U & _); now rewrite L|]. apply K; [exact E|]. left. destruct out as [[]| |[]]; try discriminate; injection Of as ->; reflexivity.
  - exists v'. splits; trivial; [intros l; now rewrite F|]. exists t, u. rewrite R2, R4, Q1, Q2, R1, R3, O1, O2. splits; reflexivity.
Qed.

(** *** Dumping again *)
Lemma single_again x e extra cf w v f d o : Forall proper (os_cwd (ex_os x)) -> input_at x (w_fs w) f d -> local_only x cf (w_fs w) ->
  (exists fs, load_file x e cf (w_fs w) f = (fs, Ok o)) -> proper (ob_name o) -> proper (ob_debug_id o) -> out_of_the_way x (cf_output cf) f d o ->
  single_file x e extra cf w f = (v, Ok tt) ->
  exists v', single_file x e extra cf v f = (v', Ok tt) /\ same_fs (w_fs v') (w_fs v) /\ same_output w v v'.
Proof.
  intros CW IN LO (fs & Ld) Hn Hi (OW1 & OW2) S. unfold single_file in S |- *.
  destruct (again_load x (w_fs w) (w_fs w) f d CW ltac:(intros l g _; tauto) IN e cf LO LO) as (_ & E). rewrite Ld in S, E. cbn [fst] in E. subst fs.
  replace (set_fs w (w_fs w)) with w in S by now destruct w.
  assert (FR : forall l, ~ file_target (ex_os x) (cf_output cf) l -> ~ store_target (ex_os x) (cf_output cf) o l -> _) by exact (fun l => store_frame _ _ _ _ _ _ _ _ l Hn Hi S).
  assert (SF : same_files (looked_at x f d) (w_fs w) (w_fs v)).
  { intros l g L. destruct (FR l) as [G|(G1 & G2 & _)]; [intros T; apply (OW1 l (or_introl T)); exact L|intros T; apply (OW1 l (or_intror T)); exact L|now rewrite G|]. rewrite G1, G2. split; discriminate. }
  assert (LO' : local_only x cf (w_fs v)).
  { destruct LO as (I1 & I2 & I3 & H). unfold local_only; splits; trivial. intros h Eh. specialize (H h Eh). destruct (FR (config_at (ex_os x) h)) as [G|(G1 & G2 & t & k & T & Et & _)].
    - intros T. now apply (proj2 (OW1 _ (or_introl T)) h Eh).
    - intros T. now apply (proj2 (OW1 _ (or_intror T)) h Eh).
    - now rewrite G.
    - exfalso. exact (OW2 t h k T Eh Et). }
  destruct (again_load x (w_fs w) (w_fs v) f d CW SF IN e cf LO LO') as (-> & _). rewrite Ld. cbn [snd].
  replace (set_fs v (w_fs v)) with v by now destruct v. exact (store_again _ _ _ _ _ _ _ Hn Hi S).
Qed.
