(** Proofs about what is on the disk after a download that may panic. *)
From Verif Require Import Base Str Utf8 M_Path S_Path P_Path M_Source M_Symbol M_Object M_Fs S_Fs P_Fs M_Cache S_Cache P_Cache M_Store M_Input P_Input M_Sched M_Many M_Shared S_Shared M_Left S_Added P_Added.
Local Open Scope N_scope.

Lemma mkdirs_left_same os l : forall fs fs', mkdirs os fs l = Some fs' -> mkdirs_left os fs l = fs'.
Proof.
  destruct l as [|n l]; intros fs fs' H; cbn [mkdirs mkdirs_left] in *; [congruence|]. destruct (fs_get fs (n :: l)) as [[d|]|]; [discriminate|congruence|].
  destruct (mkdirs os fs l) as [fs1|]; [|discriminate]. destruct (os_may os (n :: l)); [congruence|discriminate].
Qed.
Lemma dirs_up fs fs' n l : dirs_added fs fs' l -> dirs_added fs fs' (n :: l).
Proof. intros D x. destruct (D x) as [E|(E1 & E2 & k & ->)]; [now left|]. right. splits; trivial. now exists (n :: k). Qed.
Lemma mkdirs_left_dirs os l : forall fs, dirs_added fs (mkdirs_left os fs l) l.
Proof.
  induction l as [|n l IH]; intros fs; cbn [mkdirs_left]; [intros x; now left|]. destruct (fs_get fs (n :: l)) as [d|] eqn:G; [intros x; now left|].
  destruct (mkdirs os fs l) as [fs1|] eqn:E; [|apply dirs_up, IH]. apply mkdirs_spec in E as (D & _). destruct (os_may os (n :: l)); [|now apply dirs_up].
  intros x. destruct (list_eq_dec str_eq_dec (n :: l) x) as [<-|Nx].
  - right. splits; [exact G|apply fs_get_same; discriminate|now exists []].
  - rewrite fs_get_other by exact Nx. apply (dirs_up _ _ n _ D).
Qed.
Lemma copy_left_same e fs path d b fs' : copy_in_cache e fs path d = Ok (b, fs') -> copy_left e fs path d = fs'.
Proof.
  unfold copy_in_cache, copy_left. destruct d as [|y d]; [congruence|]. destruct (starts_with _ _); [congruence|]. destruct path as [p|]; [|congruence].
  destruct (path_parent p) as [q|]; [destruct (path_exists _ _ _); [|destruct (create_dir_all _ _ _); [|discriminate]]|]; cbn [bind];
    (destruct (file_create _ _ _) as [fs2|]; [|discriminate]); destruct (buf_write _ _ _ _ _) as [fs3 [|]]; cbn [fst]; congruence.
Qed.
Lemma copy_no_err e fs path d m : copy_in_cache e fs path d <> Err m.
Proof.
  unfold copy_in_cache. destruct d as [|y d]; [discriminate|]. destruct (starts_with _ _); [discriminate|]. destruct path as [p|]; [|discriminate].
  destruct (path_parent p) as [q|]; [destruct (path_exists _ _ _); [|destruct (create_dir_all _ _ _); [|discriminate]]|]; cbn [bind];
    (destruct (file_create _ _ _) as [fs2|]; [|discriminate]); destruct (buf_write _ _ _ _ _) as [fs3 [|]]; discriminate.
Qed.
Lemma cabinet_no_err cab buf p m : read_cabinet cab buf p <> Err m.
Proof.
  unfold read_cabinet. destruct (cab buf) as [files|]; [|discriminate].
  assert (A : forall n, cab_find files n <> Err m) by (intros n; induction files as [|[k d] t IH]; cbn [cab_find]; [discriminate|]; destruct (path_file_name k); [|discriminate]; destruct (str_eqb _ _); [discriminate|exact IH]).
  destruct (get_corrected_path p) as [q|k|k] eqn:E; cbn [bind]; [|unfold get_corrected_path in E; repeat (destruct (path_extension _) in E || destruct (starts_with _ _) in E); discriminate E|discriminate].
  destruct (path_file_name q); [|discriminate]. specialize (A s). destruct (cab_find files s); cbn [bind]; congruence.
Qed.
Lemma copy_left_added e sv (W : str -> str -> Prop) fs s c id name d : let base := get_base name in W name id -> In s sv -> sv_cache s = Some c -> proper base -> proper id -> proper name -> fs_get fs (entry_loc (ce_os e) c base id name) = None ->
  added (ce_os e) sv W fs (copy_left e fs (Some (entry_path c base id name)) d).
Proof.
  intros base Wn Is Sc Hb Hi Hn U. set (os := ce_os e) in *. set (K := entry_loc os c base id name) in *.
  assert (Ic : In c (caches sv)).
  { clear - Is Sc. unfold caches. induction sv as [|y t IH]; [easy|]. cbn [filter_map]. destruct Is as [-> |Is]; [rewrite Sc; now left|]. destruct (sv_cache y); [right|]; auto. }
  unfold copy_left. destruct d as [|y d]; [apply added_refl|]. destruct (starts_with _ _); [apply added_refl|]. fold os. set (p := entry_path c base id name). unfold entry_path in p. set (q := path_push (path_push c base) id) in *.
  assert (LQ : locate (os_cwd os) q = id :: base :: locate (os_cwd os) c) by (unfold q; now rewrite !locate_push).
  set (r := match path_parent p with Some _ => _ | None => _ end).
  assert (D : dirs_added fs (fst r) (locate (os_cwd os) q)).
  { unfold r. destruct (path_parent p) as [z|] eqn:P; [|intros x; now left]. destruct (path_exists os fs z); [intros x; now left|]. unfold p in P. unfold create_dir_all. rewrite (locate_parent _ _ _ _ Hn P).
    destruct (mkdirs _ _ _) as [f|] eqn:M; cbn [fst]; [now apply mkdirs_spec in M|apply mkdirs_left_dirs]. }
  assert (A : added os sv W fs (fst r)).
  { intros l. rewrite LQ in D. destruct (D l) as [X|(X1 & X2 & k & X3)]; [now left|]. right. split; [exact X1|]. exists c, name, id. splits; trivial. right. split; [exact X2|]. exists (name :: k). split; [|discriminate]. cbn [app]. now rewrite <- X3. }
  destruct r as [fs1 [|]]; cbn [fst] in *; [|exact A]. destruct (file_create os fs1 p) as [fs2|] eqn:F; [|exact A]. apply file_create_spec in F as (_ & -> & _).
  unfold buf_write. cbn [fst]. assert (LP : locate (os_cwd os) p = K) by (unfold p; rewrite locate_push, LQ by exact Hn; reflexivity). rewrite LP. assert (NK : K <> []) by discriminate.
  intros l. destruct (list_eq_dec str_eq_dec l K) as [-> |Nl].
  - right. split; [exact U|]. exists c, name, id. splits; trivial. left. split; [reflexivity|]. eexists. now apply fs_get_same.
  - rewrite !fs_get_other by congruence. destruct (A l) as [X|X]; [now left|right]. exact X.
Qed.
Lemma search_left_added e n sched fs name id sv (W : str -> str -> Prop) : W name id -> proper name -> proper id -> (forall js, Permutation (sched js) js) -> added (ce_os e) sv W fs (search_left e n sched fs name id (Some sv)).
Proof.
  intros Wn Hn Hi P. pose proof (base_proper _ Hn) as Hb. unfold search_left. destruct name as [|y t]; [apply added_refl|]. set (name := y :: t) in *.
  destruct (search_in_cache e fs sv id (get_base name) name) as [p|] eqn:S; [apply added_refl|]. apply (search_none e fs sv id _ _ Hb Hi Hn) in S.
  destruct (get_jobs e sv id (get_base name) name) as [js|m|m] eqn:J; [|apply added_refl..]. destruct (check_data n (sched js)) as [j|] eqn:C; [|apply added_refl].
  apply check_some in C as (Ij & _). apply (Permutation_in _ (P js)) in Ij. destruct (jobs_origin _ _ _ _ _ _ (proj1 Hn) J j Ij) as (s & us & Is & _ & _ & ->).
  destruct (nt_get n (cj_url j)) as [buf|]; [|apply added_refl]. destruct (sv_cache s) as [c|] eqn:Sc; cbn [option_map].
  - apply (copy_left_added e sv W fs s); trivial. apply S. clear - Is Sc. unfold caches. induction sv as [|z u IH]; [easy|]. cbn [filter_map]. destruct Is as [-> |Is]; [rewrite Sc; now left|]. destruct (sv_cache z); [right|]; auto.
  - unfold copy_left. destruct buf; [apply added_refl|]. destruct (starts_with _ _); apply added_refl.
Qed.
Lemma search_left_ok e n sched fs name id servers lk : search_file e n sched fs name id servers = Ok lk -> search_left e n sched fs name id servers = lk_fs lk.
Proof.
  unfold search_file, search_left. destruct name as [|y t]; [now intros [= <-]|]. destruct servers as [sv|]; [|now intros [= <-]].
  destruct (search_in_cache _ _ _ _ _ _) as [p|]; [intros H; apply bind_ok in H as (d & _ & H); now injection H as <-|].
  destruct (get_jobs _ _ _ _ _) as [js|m|m]; cbn [bind]; [|discriminate..]. unfold fetch_data. destruct (check_data _ _) as [j|]; [|now intros [= <-]].
  destruct (nt_get n (cj_url j)) as [buf|]; [|now intros [= <-]]. destruct (copy_in_cache _ _ _ _) as [[ok g]|m|m] eqn:C; cbn [bind]; [|discriminate..].
  rewrite (copy_left_same _ _ _ _ _ _ C). destruct ok; cbn [lk_data lk_fs]; [|now intros [= <-]]. destruct (read_cabinet _ _ _) as [[d|]|m|m]; cbn [bind]; try discriminate. now intros [= <-].
Qed.
Lemma search_left_err e n sched fs name id servers m : search_file e n sched fs name id servers = Err m -> search_left e n sched fs name id servers = fs.
Proof.
  unfold search_file, search_left. destruct name as [|y t]; [discriminate|]. destruct servers as [sv|]; [|discriminate].
  destruct (search_in_cache _ _ _ _ _ _) as [p|]; [reflexivity|].
  destruct (get_jobs _ _ _ _ _) as [js|k|k]; cbn [bind]; [|reflexivity..]. unfold fetch_data. destruct (check_data _ _) as [j|]; [|discriminate].
  destruct (nt_get n (cj_url j)) as [buf|]; [|discriminate]. destruct (copy_in_cache _ _ _ _) as [[ok g]|k|k] eqn:C; cbn [bind]; [|now elim (copy_no_err _ _ _ _ _ C)|discriminate].
  destruct ok; cbn [lk_data]; [|discriminate]. destruct (read_cabinet _ _ _) as [[d|]|k|k] eqn:R; cbn [bind]; try discriminate. now elim (cabinet_no_err _ _ _ _ R).
Qed.
Lemma copy_left_contents e fs path d l c : fs_get (copy_left e fs path d) l = Some (NFile c) -> fs_get fs l = Some (NFile c) \/ exists p, path = Some p /\ l = locate (os_cwd (ce_os e)) p /\ c = os_disk (ce_os e) d.
Proof.
  intros H. unfold copy_left in H. destruct d as [|y d]; [now left|]. destruct (starts_with _ _); [now left|]. destruct path as [p|]; [|now left]. set (os := ce_os e) in *.
  set (r := match path_parent p with Some _ => _ | None => _ end) in H.
  assert (D : exists q, dirs_added fs (fst r) q).
  { unfold r. destruct (path_parent p) as [z|]; [|exists []; intros x; now left]. destruct (path_exists os fs z); [exists []; intros x; now left|]. unfold create_dir_all. exists (locate (os_cwd os) z).
    destruct (mkdirs _ _ _) as [f|] eqn:M; cbn [fst]; [now apply mkdirs_spec in M|apply mkdirs_left_dirs]. }
  destruct D as (q & D). assert (A : fs_get (fst r) l = Some (NFile c) -> fs_get fs l = Some (NFile c)) by (intros E; destruct (D l) as [X|(_ & X & _)]; congruence).
  destruct r as [fs1 [|]]; cbn [fst] in *; [|left; auto]. destruct (file_create os fs1 p) as [fs2|] eqn:F; [|left; auto]. apply file_create_spec in F as (NK & -> & _).
  unfold buf_write in H. cbn [fst] in H. destruct (list_eq_dec str_eq_dec l (locate (os_cwd os) p)) as [E|Nl].
  - rewrite E, fs_get_same in H by exact NK. right. exists p. splits; trivial. congruence.
  - rewrite !fs_get_other in H by congruence. left. auto.
Qed.
Lemma search_left_contents e n sched fs name id servers l c : fs_get (search_left e n sched fs name id servers) l = Some (NFile c) ->
  fs_get fs l = Some (NFile c) \/ exists u buf, nt_get n u = Some buf /\ c = os_disk (ce_os e) buf.
Proof.
  unfold search_left. destruct name as [|y t]; [now left|]. destruct servers as [sv|]; [|now left]. destruct (search_in_cache _ _ _ _ _ _); [now left|].
  destruct (get_jobs _ _ _ _ _) as [js|m|m]; [|now left..]. destruct (check_data _ _) as [j|]; [|now left]. destruct (nt_get n (cj_url j)) as [buf|] eqn:G; [|now left].
  intros H. apply copy_left_contents in H as [H|(p & _ & _ & ->)]; [now left|]. right. now exists (cj_url j), buf.
Qed.
Lemma copy_left_cut e fs p d m : copy_in_cache e fs (Some p) d = Panic m ->
  fs_get (copy_left e fs (Some p) d) (locate (os_cwd (ce_os e)) p) = Some (NFile (os_disk (ce_os e) d)) /\ os_disk (ce_os e) d <> d \/
  m <> "Cannot write file"%string /\ forall l c, fs_get (copy_left e fs (Some p) d) l = Some (NFile c) -> fs_get fs l = Some (NFile c).
Proof.
  unfold copy_in_cache, copy_left. destruct d as [|y d]; [discriminate|]. destruct (starts_with _ _); [discriminate|]. set (os := ce_os e).
  assert (B : forall q fs1, dirs_added fs fs1 q ->
    match file_create os fs1 p with None => Panic "Cannot open file for writing" | Some fs2 => let '(fs3, ok) := buf_write os fs2 p [] (y :: d) in if ok then Ok (true, fs3) else Panic "Cannot write file" end = Panic m ->
    fs_get match file_create os fs1 p with None => fs1 | Some fs2 => fst (buf_write os fs2 p [] (y :: d)) end (locate (os_cwd os) p) = Some (NFile (os_disk os (y :: d))) /\ os_disk os (y :: d) <> y :: d \/
    m <> "Cannot write file"%string /\ forall l c, fs_get match file_create os fs1 p with None => fs1 | Some fs2 => fst (buf_write os fs2 p [] (y :: d)) end l = Some (NFile c) -> fs_get fs l = Some (NFile c)).
  { intros q fs1 D. destruct (file_create os fs1 p) as [fs2|] eqn:F.
    - apply file_create_spec in F as (NK & _ & _). unfold buf_write. cbn [fst]. destruct (str_eqb _ _) eqn:E; [discriminate|]. intros _. left. split; [now apply fs_get_same|]. intros X. rewrite X in E. now rewrite (proj2 (str_eqb_eq _ _) eq_refl) in E.
    - intros [= <-]. right. split; [discriminate|]. intros l c E. destruct (D l) as [X|(_ & X & _)]; congruence. }
  assert (R : dirs_added fs fs []) by (intros x; now left).
  destruct (path_parent p) as [z|]; [|exact (B _ _ R)]. destruct (path_exists os fs z); [exact (B _ _ R)|]. unfold create_dir_all. destruct (mkdirs os fs _) as [f|] eqn:M; cbn [bind].
  - apply mkdirs_spec in M as (D & _). exact (B _ _ D).
  - intros [= <-]. right. split; [discriminate|]. intros l c E. destruct (mkdirs_left_dirs os (locate (os_cwd os) z) fs l) as [X|(_ & X & _)]; congruence.
Qed.
Definition panics {A} (r : res A) : Prop := exists m, r = Panic m.

Section Left.
Variable x : Ext.
Lemma id_left_same cf fs f nm g r : get_from_id x cf fs f nm = (g, r) -> ~ panics r -> id_left x cf fs nm = g.
Proof.
  unfold get_from_id, id_left. destruct (match cf_debug_id cf with Some i => Some i | None => _ end) as [id|]; [|congruence]. destruct (get_sym_servers _ _ _ _) as [sv|m|m]; cbn [bind]; [|congruence..].
  destruct (search_file _ _ _ _ _ _ _) as [l|m|m] eqn:S; intros [= <- <-] N; [exact (search_left_ok _ _ _ _ _ _ _ _ S)|exact (search_left_err _ _ _ _ _ _ _ _ S)|elim N; now exists m].
Qed.
Lemma pe_left_same fs path buf sv r : get_pe_pdb_buf x fs path buf sv = r -> ~ panics r ->
  match ps_pe (ex_ps x) buf with
  | Some pe => match pf_pdb pe with
               | None => fs
               | Some f => match os_specific_try_to_find_pdb (ex_os x) (ex_cab x) fs path f with
                           | Ok (None, name) => search_left (ex_env x) (ex_net x) (ex_sched x) fs name (pa_debug_id (pf_obj pe)) sv
                           | _ => fs
                           end
               end
  | None => fs
  end = match r with Ok (_, g) => g | _ => fs end.
Proof.
  intros <- N. unfold get_pe_pdb_buf in *. destruct (ps_pe (ex_ps x) buf) as [pe|]; [|reflexivity]. destruct (pf_pdb pe) as [f|]; [|reflexivity].
  destruct (os_specific_try_to_find_pdb _ _ _ _ _) as [[d nm]|m|m]; cbn [bind] in *; [|reflexivity..]. destruct nm as [|y nm]; [now destruct d|]. destruct d as [d|]; [reflexivity|].
  destruct (search_file _ _ _ _ _ _ _) as [l|m|m] eqn:S; cbn [bind] in *; [exact (search_left_ok _ _ _ _ _ _ _ _ S)|exact (search_left_err _ _ _ _ _ _ _ _ S)|elim N; now exists m].
Qed.
Lemma info_left_same e fs buf path nm arch server g r : get_object_info x e fs buf path nm arch server = (g, r) -> ~ panics r -> info_left x fs buf path server = g.
Proof.
  unfold get_object_info, info_left. destruct (ps_peek (ex_ps x) buf); try congruence.
  unfold get_pe_pdb_object_info. destruct (get_sym_servers _ _ _ _) as [sv|m|m]; cbn [bind]; [|congruence..].
  destruct (get_pe_pdb_buf x fs path buf sv) as [[v h]|m|m] eqn:G.
  - intros H N. assert (E : g = h) by (destruct v as [[[pe b] n2]|]; [destruct (ps_pdb _ _); [destruct (from_pdb _ _ _ _ _)|]|]; congruence). subst h. rewrite <- (pe_left_same _ _ _ _ _ G); [reflexivity|intros (k & K); discriminate K] .
  - intros H N. assert (E : g = fs) by congruence. subst g. exact (pe_left_same _ _ _ _ _ G ltac:(intros (k & K); discriminate K)).
  - intros [= <- <-] N. elim N. now exists m.
Qed.
Lemma load_left_same e cf fs f g r : load_file x e cf fs f = (g, r) -> ~ panics r -> load_left x cf fs f = g.
Proof.
  unfold load_file, load_left. destruct (get_filename f) as [nm|m|m]; cbn [next]; [|congruence..]. destruct (get_from_id x cf fs f nm) as [h b] eqn:I. cbn [snd].
  destruct b as [b|m|m]; cbn [next].
  - rewrite (id_left_same _ _ _ _ _ _ I) by (intros (k & K); discriminate K). destruct (cf_map cf) as [mp|k|k]; cbn [next]; [|congruence..]. destruct (cf_arch cf) as [a|]; [|congruence]. now intros H N; apply (info_left_same _ _ _ _ _ _ _ _ _ H N).
  - intros [= <- <-] _. apply (id_left_same _ _ _ _ _ _ I). intros (k & K); discriminate K.
  - intros [= <- <-] N. elim N. now exists m.
Qed.
Hypothesis SC : forall js, Permutation (ex_sched x js) js.
Hypothesis ID : proper_ids x.
Notation os := (ex_os x).
Lemma search_left_kept arg (W : str -> str -> Prop) fs name id servers : W name id -> get_sym_servers os fs (ex_home x) arg = Ok servers -> proper name -> proper id ->
  kept_there x arg W fs (search_left (ex_env x) (ex_net x) (ex_sched x) fs name id servers).
Proof.
  intros Wn G Hn Hi. destruct servers as [sv|].
  - right. exists sv. split; [now apply named_iff|]. now apply search_left_added.
  - unfold search_left. destruct name; apply kept_refl.
Qed.
Lemma info_left_kept fs buf path server : kept_there x server (recorded_pdb x) fs (info_left x fs buf path server).
Proof.
  unfold info_left. destruct (ps_peek (ex_ps x) buf); try apply kept_refl. destruct (get_sym_servers _ _ _ _) as [sv|m|m] eqn:GS; [|apply kept_refl..].
  destruct (ps_pe (ex_ps x) buf) as [pe|] eqn:Pe; [|apply kept_refl]. destruct (pf_pdb pe) as [f|] eqn:Pf; [|apply kept_refl].
  destruct (os_specific_try_to_find_pdb _ _ _ _ _) as [[[d|] nm]|m|m] eqn:T; try apply kept_refl. unfold os_specific_try_to_find_pdb in T. destruct (path_file_name (unix_path f)) as [k|] eqn:Fn.
  - destruct (if is_file _ _ _ then _ else _) as [z|m|m]; cbn [bind] in T; [|discriminate..]. injection T as _ <-. apply search_left_kept; trivial; [now exists buf, pe, f|exact (file_name_proper _ _ Fn)|exact (ID _ _ Pe)].
  - injection T as <-. apply kept_refl.
Qed.
Lemma load_left_kept cf fs f : (forall i, cf_debug_id cf = Some i \/ cf_code_id cf = Some i -> proper i) -> kept_there x (cf_symbol_server cf) (asked_for x cf f) fs (load_left x cf fs f).
Proof.
  intros PI. unfold load_left. destruct (get_filename f) as [nm|m|m] eqn:Fn; [|apply kept_refl..].
  assert (E0 : path_file_name f = Some nm) by (unfold get_filename in Fn; destruct (path_file_name f); [now injection Fn as ->|discriminate]).
  assert (A : kept_there x (cf_symbol_server cf) (asked_for x cf f) fs (id_left x cf fs nm)).
  { unfold id_left. destruct (match cf_debug_id cf with Some i => Some i | None => _ end) as [id|] eqn:Ei; [|apply kept_refl]. destruct (get_sym_servers _ _ _ _) as [sv|m|m] eqn:GS; [|apply kept_refl..].
    apply search_left_kept; trivial; [|exact (file_name_proper _ _ E0)|apply PI; destruct (cf_debug_id cf); [left|right]; congruence]. left. split; [exact E0|]. destruct (cf_debug_id cf); [left|right]; auto. }
  destruct (snd (get_from_id x cf fs f nm)); [|exact A..]. destruct (cf_map cf); [|exact A..]. destruct (cf_arch cf); [|exact A].
  refine (kept_trans _ _ _ _ _ _ A (kept_more _ _ _ _ _ _ _ (info_left_kept _ _ _ _))). intros n1 i1 R. now right.
Qed.
End Left.
Lemma job_left_same u fs f g r : u_job u fs f = (g, r) -> ~ panics r -> job_left u fs f = g.
Proof.
  unfold u_job, get_job, job_left. destruct (get_filename f) as [nm|m|m]; cbn [next]; [|congruence..]. destruct (read_file _ _ _ _) as [b|m|m]; cbn [next]; [|congruence..]. apply info_left_same.
Qed.
Lemma job_left_kept u fs f : (forall js, Permutation (ex_sched (u_ext u) js) js) -> proper_ids (u_ext u) -> kept_there (u_ext u) None (recorded_pdb (u_ext u)) fs (job_left u fs f).
Proof.
  intros SC ID. unfold job_left. destruct (get_filename f); [|apply kept_refl..]. destruct (read_file _ _ _ _); [|apply kept_refl..]. now apply info_left_kept.
Qed.
