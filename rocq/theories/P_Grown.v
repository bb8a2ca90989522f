(** Proofs about what the program may do to the disk and the streams. *)
From Verif Require Import Base Str Utf8 M_Path M_Source M_Symbol M_Object M_Fs S_Fs P_Fs M_Cache M_Store M_Input M_Cli M_Args M_Sched M_Many M_Shared M_Main S_Grown P_Input.

Lemma grown_refl fs : grown fs fs.
Proof. split; [auto|split; [eauto|auto]]. Qed.
Lemma grown_trans a b c : grown a b -> grown b c -> grown a c.
Proof.
  intros (A1 & A2 & A3) (B1 & B2 & B3). split; [auto|split; [|auto]]. intros l d G. destruct (A2 l d G) as (d' & G'). exact (B2 l d' G').
Qed.
Lemma grown_set fs n up x : fs_get fs up = Some NDir -> (match x with NDir => forall d, fs_get fs (n :: up) <> Some (NFile d) | NFile _ => fs_get fs (n :: up) <> Some NDir end) -> grown fs (fs_set fs (n :: up) x).
Proof.
  intros U X. assert (D : forall l, {l = n :: up} + {l <> n :: up}) by (intros l; apply (list_eq_dec str_eq_dec)).
  assert (S : fs_get (fs_set fs (n :: up) x) (n :: up) = Some x) by (apply fs_get_same; discriminate).
  assert (O : forall l, l <> n :: up -> fs_get (fs_set fs (n :: up) x) l = fs_get fs l) by (intros l N; apply fs_get_other; congruence).
  assert (K : forall l, fs_get fs l = Some NDir -> fs_get (fs_set fs (n :: up) x) l = Some NDir).
  { intros l G. destruct (D l) as [-> |N]; [|now rewrite O]. rewrite S. destruct x as [d|]; [contradiction|reflexivity]. }
  split; [exact K|split].
  - intros l d G. destruct (D l) as [-> |N]; [|rewrite O by exact N; eauto]. rewrite S. destruct x as [d'|]; [eauto|now elim (X d)].
  - intros T k l y G. destruct (D (k :: l)) as [E|N].
    + injection E as -> ->. now apply K.
    + rewrite O in G by exact N. apply K. exact (T _ _ _ G).
Qed.
Lemma mkdirs_grown os : forall l fs fs', mkdirs os fs l = Some fs' -> grown fs fs'.
Proof.
  induction l as [|n l IH]; intros fs fs' M; cbn [mkdirs] in M; [injection M as <-; apply grown_refl|]. destruct (fs_get fs (n :: l)) as [[d|]|] eqn:G; [discriminate|injection M as <-; apply grown_refl|].
  destruct (mkdirs os fs l) as [fs1|] eqn:E; [|discriminate]. destruct (os_may os (n :: l)); [|discriminate]. injection M as <-. apply (grown_trans _ fs1); [now apply IH|].
  apply mkdirs_spec in E as (A & U). apply grown_set; [exact U|]. intros d F. destruct (A (n :: l)) as [X|(_ & X & _)]; congruence.
Qed.
Lemma create_grown os fs p fs' : file_create os fs p = Some fs' -> grown fs fs'.
Proof.
  unfold file_create. destruct (locate (os_cwd os) p) as [|n up]; [discriminate|]. destruct (fs_get fs up) as [[|]|] eqn:U; try discriminate.
  intros C. assert (X : fs_get fs (n :: up) <> Some NDir /\ fs' = fs_set fs (n :: up) (NFile [])).
  { destruct (fs_get fs (n :: up)) as [[|]|]; try discriminate; (destruct (os_may os (n :: up)); [|discriminate]); injection C as <-; (split; [discriminate|reflexivity]). }
  destruct X as (X & ->). now apply grown_set.
Qed.
Lemma write_grown fs l d d' : l <> [] -> fs_get fs l = Some (NFile d) -> grown fs (fs_set fs l (NFile d')).
Proof.
  intros N G. assert (D : forall k, {k = l} + {k <> l}) by (intros k; apply (list_eq_dec str_eq_dec)).
  assert (S : fs_get (fs_set fs l (NFile d')) l = Some (NFile d')) by now apply fs_get_same.
  assert (O : forall k, k <> l -> fs_get (fs_set fs l (NFile d')) k = fs_get fs k) by (intros k X; apply fs_get_other; congruence).
  assert (K : forall k, fs_get fs k = Some NDir -> fs_get (fs_set fs l (NFile d')) k = Some NDir) by (intros k H; rewrite O; [exact H|intros ->; congruence]).
  split; [exact K|split].
  - intros k x H. destruct (D k) as [-> |X]; [rewrite S; eauto|rewrite O by exact X; eauto].
  - intros T n up x H. apply K. destruct (D (n :: up)) as [E|X]; [|rewrite O in H by exact X; exact (T _ _ _ H)]. rewrite <- E in G. exact (T _ _ _ G).
Qed.
Lemma buf_grown os fs p fs1 cuts data fs2 ok : file_create os fs p = Some fs1 -> buf_write os fs1 p cuts data = (fs2, ok) -> grown fs fs2.
Proof.
  intros C W. apply (grown_trans _ fs1); [exact (create_grown _ _ _ _ C)|]. unfold buf_write in W. injection W as <- _. apply file_create_spec in C as (L & -> & _).
  apply (write_grown _ _ []); [exact L|now apply fs_get_same].
Qed.

(** *** Lookups *)
Lemma copy_grown e fs path data b fs' : copy_in_cache e fs path data = Ok (b, fs') -> grown fs fs'.
Proof.
  unfold copy_in_cache. destruct data as [|y data]; [intros [= _ <-]; apply grown_refl|]. destruct (starts_with _ _); [intros [= _ <-]; apply grown_refl|].
  destruct path as [p|]; [|intros [= _ <-]; apply grown_refl].
  destruct (match path_parent p with Some _ => _ | None => _ end) as [fs1|m|m] eqn:E; cbn [bind]; [|discriminate..].
  assert (A : grown fs fs1).
  { destruct (path_parent p) as [q|]; [|injection E as <-; apply grown_refl]. destruct (path_exists _ _ _); [injection E as <-; apply grown_refl|].
    destruct (create_dir_all _ _ _) as [g|] eqn:M; [|discriminate]. injection E as <-. exact (mkdirs_grown _ _ _ _ M). }
  destruct (file_create _ fs1 p) as [fs2|] eqn:C; [|discriminate]. destruct (buf_write _ _ _ _ _) as [fs3 ok] eqn:W. destruct ok; [|discriminate]. intros [= _ <-].
  exact (grown_trans _ _ _ A (buf_grown _ _ _ _ _ _ _ _ C W)).
Qed.
Lemma search_grown e n sched fs name id servers l : search_file e n sched fs name id servers = Ok l -> grown fs (lk_fs l).
Proof.
  unfold search_file. destruct name as [|y name]; [intros [= <-]; apply grown_refl|]. destruct servers as [sv|]; [|intros [= <-]; apply grown_refl]. cbv zeta.
  destruct (search_in_cache _ _ _ _ _ _) as [p|]; [destruct (read_file _ _ _ _); cbn [bind]; [intros [= <-]; apply grown_refl|discriminate..]|].
  destruct (get_jobs _ _ _ _ _) as [js|m|m]; cbn [bind]; [|discriminate..]. destruct (fetch_data e n fs (sched js)) as [k|m|m] eqn:F; cbn [bind]; [|discriminate..].
  assert (A : grown fs (lk_fs k)).
  { unfold fetch_data in F. destruct (check_data n (sched js)) as [j|]; [|injection F as <-; apply grown_refl]. destruct (nt_get n (cj_url j)) as [buf|]; [|injection F as <-; apply grown_refl].
    destruct (copy_in_cache e fs (cj_cache j) buf) as [[ok g]|m|m] eqn:C; cbn [bind] in F; [|discriminate..]. injection F as <-. exact (copy_grown _ _ _ _ _ _ C). }
  destruct (lk_data k) as [buf|]; [|intros [= <-]; exact A]. destruct (read_cabinet _ _ _) as [[z|]|m|m]; cbn [bind]; [intros [= <-]; exact A|discriminate..].
Qed.
Lemma info_grown x e fs buf path name arch server : grown fs (fst (get_object_info x e fs buf path name arch server)).
Proof.
  unfold get_object_info. destruct (ps_peek (ex_ps x) buf); try apply grown_refl.
  assert (A : grown fs (fst (get_pe_pdb_object_info x e fs buf path name server))).
  { unfold get_pe_pdb_object_info. destruct (get_sym_servers _ _ _ _) as [sv|m|m]; cbn [bind fst]; [|apply grown_refl..].
    destruct (get_pe_pdb_buf x fs path buf sv) as [[r g]|m|m] eqn:G; cbn [fst]; [|apply grown_refl..].
    assert (B : grown fs g); [|destruct r as [[[pe b] nm]|]; exact B]. unfold get_pe_pdb_buf in G. destruct (ps_pe (ex_ps x) buf) as [pe|]; [|discriminate]. destruct (pf_pdb pe) as [f|]; [|injection G as _ <-; apply grown_refl].
    destruct (os_specific_try_to_find_pdb _ _ _ _ _) as [[d nm]|m|m]; cbn [bind] in G; [|discriminate..]. destruct nm as [|y nm]; [injection G as _ <-; apply grown_refl|]. destruct d as [d|]; [injection G as _ <-; apply grown_refl|].
    destruct (search_file _ _ _ _ _ _ _) as [l|m|m] eqn:S; cbn [bind] in G; [|discriminate..]. injection G as _ <-. exact (search_grown _ _ _ _ _ _ _ _ S). }
  destruct (get_pe_pdb_object_info x e fs buf path name server) as [g [o|m|m]]; exact A.
Qed.
Lemma load_grown x e cf fs f : grown fs (fst (load_file x e cf fs f)).
Proof.
  unfold load_file. destruct (get_filename f) as [nm|m|m]; cbn [next fst]; [|apply grown_refl..].
  assert (A : grown fs (fst (get_from_id x cf fs f nm))).
  { unfold get_from_id. destruct (match cf_debug_id cf with Some i => Some i | None => _ end) as [id|]; [|apply grown_refl]. destruct (get_sym_servers _ _ _ _) as [sv|m|m]; cbn [bind fst]; [|apply grown_refl..].
    destruct (search_file _ _ _ _ _ _ _) as [l|m|m] eqn:S; cbn [fst]; [exact (search_grown _ _ _ _ _ _ _ _ S)|apply grown_refl..]. }
  destruct (get_from_id x cf fs f nm) as [g [b|m|m]]; cbn [next fst] in A |- *; [|exact A..]. destruct (cf_map cf) as [mp|m|m]; cbn [next fst]; [|exact A..].
  destruct (cf_arch cf) as [arch|]; [|exact A]. exact (grown_trans _ _ _ A (info_grown _ _ _ _ _ _ _ _)).
Qed.

(** *** Storing *)
Lemma gw_refl w : grown_world w w.
Proof. split; [apply grown_refl|split; exists []; now rewrite app_nil_r]. Qed.
Lemma gw_trans a b c : grown_world a b -> grown_world b c -> grown_world a c.
Proof.
  intros (A & (t & At) & u & Au) (B & (t' & Bt) & u' & Bu). split; [exact (grown_trans _ _ _ A B)|]. rewrite Bt, At, Bu, Au, <- !app_assoc. split; eauto.
Qed.
Lemma gw_fs w fs : grown (w_fs w) fs -> grown_world w (set_fs w fs).
Proof. intros G. split; [exact G|]. split; exists []; now rewrite app_nil_r. Qed.
Lemma write_sym_grown os extra f o w : grown_world w (fst (write_sym os extra f o w)).
Proof.
  unfold write_sym. destruct f as [p| |].
  - destruct (file_create os (w_fs w) p) as [fs1|] eqn:C; [|apply gw_refl]. destruct (fmt_object extra o) as [text|m|m]; [|apply gw_fs; exact (create_grown _ _ _ _ C)..].
    destruct (buf_write _ _ _ _ _) as [fs2 ok] eqn:W. apply gw_fs. exact (buf_grown _ _ _ _ _ _ _ _ C W).
  - destruct (fmt_object extra o) as [text|m|m]; [|apply gw_refl..]. split; [apply grown_refl|]. cbn. split; [eauto|exists []; now rewrite app_nil_r].
  - destruct (fmt_object extra o) as [text|m|m]; [|apply gw_refl..]. split; [apply grown_refl|]. cbn. split; [exists []; now rewrite app_nil_r|eauto].
Qed.
Lemma store_grown os extra out ck o w : grown_world w (fst (store os extra out ck o w)).
Proof.
  unfold store. destruct (ck && _); [apply gw_refl|]. unfold andThen.
  assert (A : grown_world w (fst (match output_store out o with Some p => write_store os extra p o w | None => (w, Ok tt) end))).
  { destruct (output_store out o) as [p|]; [|apply gw_refl]. unfold write_store. destruct (path_parent p) as [q|]; [|apply gw_refl]. destruct (create_dir_all os (w_fs w) q) as [fs1|] eqn:M; [|apply gw_refl].
    apply (gw_trans _ (set_fs w fs1)); [apply gw_fs; exact (mkdirs_grown _ _ _ _ M)|apply write_sym_grown]. }
  destruct (match output_store out o with Some p => write_store os extra p o w | None => (w, Ok tt) end) as [w1 r]. cbn [fst snd] in A |- *. destruct r as [[]|m|m]; [|exact A..].
  destruct (output_file out) as [f|]; [|exact A]. exact (gw_trans _ _ _ A (write_sym_grown _ _ _ _ _)).
Qed.
Lemma single_grown x e extra cf w f : grown_world w (fst (single_file x e extra cf w f)).
Proof.
  unfold single_file. pose proof (load_grown x e cf (w_fs w) f) as A. destruct (load_file x e cf (w_fs w) f) as [g [o|m|m]]; cbn [fst] in A |- *; [|now apply gw_fs..].
  apply (gw_trans _ (set_fs w g)); [now apply gw_fs|apply store_grown].
Qed.

(** *** Several files *)
Lemma act_grown os w a : grown_world w (fst (act_step os w a)).
Proof.
  destruct a as [p|p|p off data|data|data]; cbn [act_step].
  - destruct (create_dir_all _ _ _) as [g|] eqn:M; [|apply gw_refl]. apply gw_fs. exact (mkdirs_grown _ _ _ _ M).
  - destruct (file_create _ _ _) as [g|] eqn:C; [|apply gw_refl]. apply gw_fs. exact (create_grown _ _ _ _ C).
  - destruct (fs_get (w_fs w) (locate (os_cwd os) p)) as [[d|]|] eqn:G; try apply gw_refl. apply gw_fs. apply (write_grown _ _ d); [|exact G]. intros E. rewrite E in G. discriminate.
  - split; [apply grown_refl|]. cbn. split; [eauto|exists []; now rewrite app_nil_r].
  - split; [apply grown_refl|]. cbn. split; [exists []; now rewrite app_nil_r|eauto].
Qed.
Lemma job_grown u fs f : grown fs (fst (u_job u fs f)).
Proof.
  unfold u_job, get_job. destruct (get_filename f) as [nm|m|m]; cbn [next fst]; [|apply grown_refl..]. destruct (read_file _ _ _ _) as [b|m|m]; cbn [next fst]; [|apply grown_refl..]. apply info_grown.
Qed.
Lemma work_grown u nj drain t k k' : work_step u nj drain t k = Some k' -> grown_world (k_world k) (k_world k').
Proof.
  unfold work_step. cbv zeta. destruct t as [|i]; [destruct (thread_step _ _ _ _ _); [intros [= <-]; apply gw_refl|discriminate]|].
  destruct (nth_error _ i) as [wk|]; [|destruct (thread_step _ _ _ _ _); [intros [= <-]; apply gw_refl|discriminate]].
  destruct wk; try (destruct (thread_step _ _ _ _ _); [intros [= <-]; first [apply gw_refl|cbn [k_world]; apply gw_fs, job_grown]|discriminate]).
  all: destruct (s_main (k_threads k)); try discriminate; (destruct (k_busy k i) as [[[|a rest] r]|]; [destruct (thread_step _ _ _ _ _); [intros [= <-]; apply gw_refl|discriminate]| |intros [= <-]; apply gw_refl]);
    pose proof (act_grown (u_os u) (k_world k) a) as A; destruct (act_step (u_os u) (k_world k) a) as [w' q]; intros [= <-]; exact A.
Qed.
Lemma worked_grown u nj k0 k : worked u nj k0 k -> grown_world (k_world k0) (k_world k).
Proof. induction 1 as [|k k' drain t _ IH _ E]; [apply gw_refl|]. exact (gw_trans _ _ _ IH (work_grown _ _ _ _ _ _ E)). Qed.
