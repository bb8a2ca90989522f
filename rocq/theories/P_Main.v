(** Proofs about the whole program. *)
From Verif Require Import Base Str Utf8 M_Source M_Object M_Fs M_Digest M_Store M_Input M_Mapping M_Cli M_Args M_Sched M_Many M_Shared M_Main
  S_Mapping S_Digest S_Args S_Cli S_Main P_Mapping P_Args P_Cli.
From Verif Require M_Path S_Many.

(** *** Path mapping *)
Definition made (re_ok : str -> bool) (x : Seen) (g : Gen) : Prop := built re_ok (fst x) (snd x) g.
Lemma made_result re_ok x g e p : made re_ok x g -> rule_result e x p (gen_apply e g p).
Proof.
  destruct x as [vs r]. unfold made, built. cbn [fst snd]. intros B.
  destruct (decomposes (ru_dest r)) as (parts & tail & D). destruct (re_ok (ru_source r)) eqn:R.
  2:{ destruct (gen_new_unknown re_ok (ru_source r) (ru_dest r) vs (ru_files r) parts tail D (or_intror R)) as (m & E). congruence. }
  destruct (meanings vs parts) as [(ms & F)|X].
  2:{ destruct (gen_new_unknown re_ok (ru_source r) (ru_dest r) vs (ru_files r) parts tail D (or_introl X)) as (m & E). congruence. }
  destruct (gen_new_ok re_ok (ru_source r) (ru_dest r) vs (ru_files r) parts tail ms R D F) as (g' & E & _ & H). assert (g' = g) by congruence. subst g'. destruct (H e p) as [H1 H2].
  destruct (listed (ru_files r) p) eqn:L.
  - assert (C : covers (ru_files r) p). { unfold listed in L. unfold covers. destruct (ru_files r); [now left|right]. apply existsb_exists in L. destruct L as (y & I & Ey). apply str_eqb_eq in Ey. now subst. }
    destruct (me_caps e (ru_source r) p) as [caps|] eqn:Ec.
    + rewrite (H1 C caps eq_refl). now apply (rr_match e (vs, r) p caps).
    + rewrite H2 by auto. now apply rr_no_match.
  - assert (C : ~ covers (ru_files r) p). { unfold listed in L. unfold covers. destruct (ru_files r) as [|y l]; [discriminate|]. intros [C|C]; [discriminate|]. assert (T : existsb (str_eqb p) (y :: l) = true) by (apply existsb_exists; exists p; split; [exact C|apply str_eqb_refl]). congruence. }
    rewrite H2 by (intros K; contradiction). now apply rr_outside.
Qed.
Lemma made_unique re_ok x g e p r : made re_ok x g -> rule_result e x p r -> r = gen_apply e g p.
Proof.
  destruct x as [vs ru]. unfold made, built. cbn [fst snd]. intros B R.
  assert (F : g_files g = ru_files ru /\ g_re g = ru_source ru /\ re_ok (ru_source ru) = true).
  { unfold gen_new in B. destruct (re_ok (ru_source ru)); [|discriminate]. apply bind_ok in B. destruct B as ([a b] & _ & B). injection B as <-. splits; reflexivity. }
  destruct F as (Ff & Fr & Fk). inversion R as [C|C|caps parts tail ms C Ec D M]; subst; cbn [fst snd] in *.
  - unfold gen_apply. rewrite Ff. destruct (listed (ru_files ru) p) eqn:L; [|reflexivity]. elim C. unfold listed in L. unfold covers. destruct (ru_files ru); [now left|right].
    apply existsb_exists in L. destruct L as (y & I & Ey). apply str_eqb_eq in Ey. now subst.
  - unfold gen_apply. rewrite Fr, C. destruct (listed _ p); reflexivity.
  - destruct (gen_new_ok re_ok (ru_source ru) (ru_dest ru) vs (ru_files ru) parts tail ms Fk D M) as (g' & E & _ & H). assert (g' = g) by congruence. subst g'. symmetry. exact (proj1 (H e p) C caps Ec).
Qed.
Lemma first_rule_unique re_ok e p xs gs : Forall2 (made re_ok) xs gs -> forall r, first_rule e p xs r -> r = match first_mapping e gs p with Ok r => r | _ => None end.
Proof.
  induction 1 as [|x g xs gs M _ IH]; intros r F; [inversion F; reflexivity|]. cbn [first_mapping].
  inversion F as [|? ? q R|? ? r' R T|? ? s R]; subst; apply (made_unique re_ok x g e p _ M) in R; rewrite <- R; cbn [bind]; try reflexivity. now apply IH.
Qed.
Lemma expand_panic e p caps parts tail s : expand e p caps parts tail = Panic s -> exists u, is_panic (me_digest e u p) = true.
Proof.
  induction parts as [|[t v] parts IH]; cbn [expand]; [discriminate|]. destruct v as [n|v|u]; cbn [S_Mapping.value bind].
  - destruct (caps n) as [x|]; [|discriminate]. destruct (expand e p caps parts tail); [discriminate|discriminate|auto].
  - destruct (expand e p caps parts tail); [discriminate|discriminate|auto].
  - destruct (me_digest e u p) as [d|d|d] eqn:E; cbn [bind]; [|discriminate|intros _; exists u; now rewrite E]. destruct (expand e p caps parts tail); [discriminate|discriminate|auto].
Qed.
Lemma result_panic e x p s : rule_result e x p (Panic s) -> exists u, is_panic (me_digest e u p) = true.
Proof. intros R. inversion R as [| |caps parts tail ms A B C D E]; subst. eapply expand_panic. exact E. Qed.
Lemma first_rules re_ok e p xs gs : Forall2 (made re_ok) xs gs ->
  match first_mapping e gs p with Ok r => first_rule e p xs r | Err _ => first_rule e p xs None | Panic _ => exists u, is_panic (me_digest e u p) = true end.
Proof.
  induction 1 as [|x g xs gs M _ IH]; [constructor|]. cbn [first_mapping]. pose proof (made_result re_ok x g e p M) as R.
  destruct (gen_apply e g p) as [[q|]|s|s]; cbn [bind].
  - now constructor.
  - destruct (first_mapping e gs p); [now apply fr_next|now apply fr_next|exact IH].
  - eapply fr_fail. exact R.
  - exact (result_panic e x p s R).
Qed.
Lemma first_rule_panic re_ok e p xs gs : Forall2 (made re_ok) xs gs -> is_panic (first_mapping e gs p) = true -> forall r, ~ first_rule e p xs r.
Proof.
  induction 1 as [|x g xs gs M _ IH]; intros P r F; [discriminate|]. cbn [first_mapping] in P.
  inversion F as [|? ? q R|? ? r' R T|? ? s R]; subst; apply (made_unique re_ok x g e p _ M) in R; rewrite <- R in P; cbn [bind] in P; try discriminate. exact (IH P r T).
Qed.
Lemma digest_panic os fs u p : is_panic (get_digest os fs u p) = true -> fs_get fs (locate (os_cwd os) p) = Some NDir.
Proof. unfold get_digest, read. destruct (fs_get _ _) as [[d|]|]; cbn [bind is_panic]; (discriminate || reflexivity). Qed.
Lemma mapping_file_ok m fs path f : mapping_file m fs path = Ok f -> exists d, holds (ex_os (ma_ext m)) fs path d /\ ma_json m d = Some f.
Proof.
  unfold mapping_file, read, holds. destruct (fs_get _ _) as [[d|]|]; cbn [bind]; try discriminate. destruct (ma_json m d) as [f'|] eqn:E; [|discriminate]. intros [= <-]. now exists d.
Qed.
Lemma path_mapping_ok m fs c f : (forall v, Permutation (ma_order m v) v) -> path_mapping m fs c = Ok f ->
  exists cli file, variables_of (opt_list (cm_var c)) cli /\ lenN (opt_list (cm_src c)) = lenN (opt_list (cm_dest c)) /\
    match cm_map_file c, file with
    | None, None => True
    | Some path, Some (vs, rs) => exists d rf, holds (ex_os (ma_ext m)) fs path d /\ ma_json m d = Some rf /\ rs = rf_rules rf /\ overrides cli (rf_vars rf) vs
    | _, _ => False
    end /\
    forall p, (is_panic (f p) = false /\ forall r, first_rule (map_env m fs) p (rule_list cli file (opt_list (cm_src c)) (opt_list (cm_dest c))) r <-> r = match f p with Ok q => q | _ => None end) \/
      (fs_get fs (locate (os_cwd (ex_os (ma_ext m))) p) = Some NDir /\ is_panic (f p) = true /\ forall r, ~ first_rule (map_env m fs) p (rule_list cli file (opt_list (cm_src c)) (opt_list (cm_dest c))) r).
Proof.
  intros P H. unfold path_mapping in H. apply bind_ok in H. destruct H as (og & Hn & E). injection E as <-.
  pose proof (mappings_new_inv (ma_re_ok m) (ma_order m) _ _ _ _ og P Hn) as (cli & gf & gc & Hv & Eo & En & El & Fc & Ff).
  apply get_variables_inv in Hv. destruct Hv as (ps & Hp & _ & Hv).
  assert (R : exists file, match cm_map_file c, file with
    | None, None => True
    | Some path, Some (vs, rs) => exists d rf, holds (ex_os (ma_ext m)) fs path d /\ ma_json m d = Some rf /\ rs = rf_rules rf /\ overrides cli (rf_vars rf) vs
    | _, _ => False
    end /\ Forall2 (made (ma_re_ok m)) (rule_list cli file (opt_list (cm_src c)) (opt_list (cm_dest c))) (gf ++ gc)).
  { assert (Fc' : forall l g, Forall2 (built (ma_re_ok m) cli) l g -> Forall2 (made (ma_re_ok m)) (map (pair cli) l) g) by (induction 1; cbn [map]; constructor; auto).
    destruct (cm_map_file c) as [path|]; cbn [option_map] in Ff.
    - destruct (mapping_file m fs path) as [rf|s|s] eqn:Ef; [|contradiction|contradiction]. destruct Ff as (vs & Ov & Ff). apply mapping_file_ok in Ef. destruct Ef as (d & Hd & Hj).
      exists (Some (vs, rf_rules rf)). split; [exists d, rf; auto|]. unfold rule_list. apply Forall2_app; [|now apply Fc'].
      clear - Ff. induction Ff; cbn [map]; constructor; auto.
    - subst gf. exists None. split; [exact I|]. cbn [app]. unfold rule_list. cbn [app]. now apply Fc'. }
  destruct R as (file & Hfile & R). exists cli, file. split; [exists ps; split; [exact Hp|]; intros k x; rewrite stands_get; apply Hv|]. split; [exact El|]. split; [exact Hfile|]. intros p.
  assert (Eg : forall q, match og with None => fun _ => Ok None | Some gs => first_mapping (map_env m fs) gs end q = first_mapping (map_env m fs) (gf ++ gc) q).
  { intros q. destruct og as [gs|]; cbn [opt_list] in Eo; rewrite <- Eo; reflexivity. }
  pose proof (first_rules (ma_re_ok m) (map_env m fs) p _ _ R) as F. pose proof (first_rule_unique (ma_re_ok m) (map_env m fs) p _ _ R) as U.
  pose proof (first_rule_panic (ma_re_ok m) (map_env m fs) p _ _ R) as Q. specialize (Eg p). destruct (first_mapping (map_env m fs) (gf ++ gc) p) as [r|s|s].
  1,2: left; rewrite Eg; split; [reflexivity|]; intros r'; split; [apply U|intros ->; exact F].
  right. rewrite Eg. destruct F as (u & F). split; [exact (digest_panic _ _ _ _ F)|]. split; [reflexivity|]. intros r. now apply Q.
Qed.

(** *** Lists from the command line are not empty *)
Lemma cmd_lists target argv c : command target argv = Got c -> cm_src c <> Some [] /\ cm_dest c <> Some [] /\ cm_var c <> Some [].
Proof.
  intros H. apply understood in H. destruct H as (items & tail & _ & _ & _ & _ & A). unfold asks in A. repeat match type of A with _ /\ _ => let H := fresh "H" in destruct A as [H A] end.
  unfold collected_values in *. destruct (cm_var c), (cm_src c), (cm_dest c); intuition congruence.
Qed.
Lemma get_mappings_no_panic re_ok vars ss ds : ss <> Some [] -> ds <> Some [] -> is_panic (get_mappings re_ok vars ss ds) = false.
Proof.
  intros A B. unfold get_mappings. destruct ss as [ss|], ds as [ds|]; cbn [opt_len]; try reflexivity.
  - destruct (_ =? _); [|reflexivity]. apply gen_list_total.
  - destruct (N.eqb_spec (lenN ss) 0) as [E|E]; [|reflexivity]. destruct ss; [now elim A|discriminate].
  - destruct (N.eqb_spec 0 (lenN ds)) as [E|E]; [|reflexivity]. destruct ds; [now elim B|discriminate].
Qed.
Lemma is_panic_bind {A B} (r : res A) (f : A -> res B) : is_panic (bind r f) = true <-> is_panic r = true \/ exists a, r = Ok a /\ is_panic (f a) = true.
Proof.
  destruct r; cbn [bind is_panic]; split; intros H; try discriminate; eauto.
  - destruct H as [H|(x & [= <-] & H)]; [discriminate|exact H].
  - destruct H as [H|(x & E & _)]; discriminate.
Qed.
Lemma get_variables_no_panic vs : is_panic (get_variables vs) = false.
Proof.
  destruct vs as [l|]; [|reflexivity]. cbn [get_variables]. generalize (@nil (str * str)). induction l as [|v l IH]; intros m; cbn [foldM]; [reflexivity|].
  destruct (split_eq v) as [k [x|]]; cbn [bind]; [apply IH|reflexivity].
Qed.
Lemma gens_no_panic re_ok vs rs : is_panic (mapM (fun r => gen_new re_ok (ru_source r) (ru_dest r) vs (ru_files r)) rs) = false.
Proof.
  induction rs as [|r rs IH]; [reflexivity|]. cbn [mapM]. pose proof (gen_new_total re_ok (ru_source r) (ru_dest r) vs (ru_files r)) as T.
  destruct (gen_new _ _ _ _ _); cbn [bind]; [|reflexivity|discriminate]. destruct (mapM _ rs); [reflexivity..|discriminate].
Qed.
Lemma path_mapping_panic m fs target argv c : command target argv = Got c ->
  is_panic (path_mapping m fs c) = true <-> exists path vs, cm_map_file c = Some path /\ fs_get fs (locate (os_cwd (ex_os (ma_ext m))) path) = Some NDir /\ get_variables (cm_var c) = Ok vs.
Proof.
  intros G. destruct (cmd_lists _ _ _ G) as (Hs & Hd & _). unfold path_mapping, mappings_new. rewrite is_panic_bind. split.
  - intros [H|(og & _ & H)]; [|destruct og; discriminate]. apply is_panic_bind in H. destruct H as [H|(vs & Ev & H)]; [rewrite get_variables_no_panic in H; discriminate|].
    apply is_panic_bind in H. destruct H as [H|(gf & _ & H)].
    + destruct (cm_map_file c) as [path|]; [|discriminate]. cbn [option_map] in H. exists path, vs. split; [reflexivity|]. split; [|exact Ev].
      unfold mapping_file, read in H. destruct (fs_get _ _) as [[d|]|]; cbn [bind] in H; [|reflexivity|discriminate].
      destruct (ma_json m d) as [f|]; [|discriminate]. cbn [get_mappings_from_file] in H. apply is_panic_bind in H. destruct H as [H|(gs & _ & H)]; [|discriminate]. rewrite gens_no_panic in H. discriminate.
    + apply is_panic_bind in H. destruct H as [H|(gc & _ & H)]; [|discriminate]. rewrite (get_mappings_no_panic _ _ _ _ Hs Hd) in H. discriminate.
  - intros (path & vs & E & D & Ev). left. rewrite Ev. cbn [bind]. rewrite E. cbn [option_map]. unfold mapping_file, read. rewrite D. reflexivity.
Qed.

(** *** The program *)
Lemma output_chosen o s : output_asked o s (select_output o s).
Proof.
  unfold output_asked, select_output, file_output. destruct o as [p|], s as [d|]; try reflexivity; destruct (str_eqb p (lit "-")) eqn:E; [left|right|left|right]; split; try reflexivity; try (now apply str_eqb_eq); now apply str_eqb_neq.
Qed.
Lemma output_unique o s out : output_asked o s out -> out = select_output o s.
Proof.
  pose proof (output_chosen o s) as C. unfold output_asked in *. destruct o as [p|], s as [d|]; intuition congruence.
Qed.
Lemma exit_codes r : exit_code r = 0 \/ exit_code r = 1 \/ exit_code r = 101.
Proof. destruct r as [[]|s|s]; cbn; auto. Qed.
Lemma main_one_codes v cpus x e an cfg a w f w' n : main_one v cpus x e an cfg a w f = (w', n) -> n = 0 \/ n = 1 \/ n = 101.
Proof.
  unfold main_one. destruct (plan v cpus a) as [[[info [|out jobs]] level]|s|s].
  - destruct (list_arch _ _ _ _) as [text r]. intros [= _ <-]. apply exit_codes.
  - destruct (single_file _ _ _ _ _ _) as [w1 r]. intros [= _ <-]. apply exit_codes.
  - intros [= _ <-]. auto.
  - intros [= _ <-]. auto.
Qed.
Lemma statuses m argv w v n : program m argv w v n -> (n = 0 \/ n = 1 \/ n = 2 \/ n = 101) /\ (n = 2 <-> command (ma_target m) argv = Usage) /\ (n = 2 -> v = w).
Proof.
  intros P. assert (K : forall X : Prop, n = 0 \/ n = 1 \/ n = 101 -> command (ma_target m) argv <> Usage ->
    (n = 0 \/ n = 1 \/ n = 2 \/ n = 101) /\ (n = 2 <-> command (ma_target m) argv = Usage) /\ (n = 2 -> X)).
  { intros X H NU. assert (n <> 2) by (destruct H as [H|[H|H]]; rewrite H; discriminate). split; [tauto|]. split; [split; contradiction|contradiction]. }
  inversion P; subst.
  - split; [auto|]. split; [split; auto|auto].
  - apply K; [auto|congruence].
  - apply K; [eapply main_one_codes; eassumption|congruence].
  - apply K; [apply exit_codes|congruence].
  - apply K; [|congruence]. match goal with H : main_list _ _ _ _ = _ |- _ => unfold main_list in H; destruct (list_arch _ _ _ _) as [text r]; injection H as _ <- end. apply exit_codes.
  - apply K; [|congruence]. match goal with H : several_run _ _ _ _ _ _ _ _ |- _ => destruct H end; try apply exit_codes; auto.
Qed.
Lemma plan_cases v cpus a : (exists info act level, plan v cpus a = Ok (info, act, level) /\ (act = ActList <-> ar_list_arch a = true)) \/ exists s, plan v cpus a = Panic s.
Proof.
  unfold plan, get_extra_info. destruct (forallb info_line_match (ar_extra a)); cbn [bind]; [|right; eexists; reflexivity].
  left. do 3 eexists. split; [reflexivity|]. destruct (ar_list_arch a); split; congruence.
Qed.
(** Unless symbols of several files are to be dumped, there is exactly one end. *)
Lemma one_end m argv w : (forall c f g t, command (ma_target m) argv = Got c -> ar_files (cm_args c) = f :: g :: t -> ar_list_arch (cm_args c) = true \/ exists s, In s (ar_extra (cm_args c)) /\ ~ info_text s) ->
  exists w' n, program m argv w w' n /\ forall v k, program m argv w v k -> v = w' /\ k = n.
Proof.
  intros H. destruct (command (ma_target m) argv) as [c| |] eqn:E.
  - destruct (ar_files (cm_args c)) as [|f [|g t]] eqn:F.
    + apply understood in E. destruct E as (_ & _ & _ & _ & _ & NE & _). congruence.
    + destruct (main_one (ma_version m) (ma_cpus m) (ma_ext m) (ma_env m) (ma_arch_name m) (config_of m (w_fs w) c) (cm_args c) w f) as [w' n] eqn:M.
      exists w', n. split; [now apply (pr_one m argv w c f)|]. intros v k P. inversion P; subst; try congruence.
      match goal with H1 : command _ _ = Got ?d |- _ => assert (d = c) by congruence; subst d end. match goal with H1 : ar_files _ = [?d] |- _ => assert (d = f) by congruence; subst d end. split; congruence.
    + destruct (plan_cases (ma_version m) (ma_cpus m) (cm_args c)) as [(info & act & level & Ep & Ea)|(s & Ep)].
      * destruct act as [|out jobs].
        -- destruct (main_list (ma_ext m) (ma_arch_name m) w (f :: g :: t)) as [w' n] eqn:M. exists w', n. split; [now apply (pr_list m argv w c f g t info level)|].
           intros v k P. inversion P; subst; try congruence; match goal with H1 : command _ _ = Got ?d |- _ => assert (d = c) by congruence; subst d end; try congruence.
           match goal with H1 : ar_files _ = ?a :: ?b :: ?d, H2 : main_list _ _ _ (?a :: _) = _ |- _ => assert (Ex : a :: b :: d = f :: g :: t) by congruence; rewrite Ex in H2 end. split; congruence.
        -- exfalso. destruct (H c f g t eq_refl F) as [L|(s & I & NI)]; [apply Ea in L; discriminate|].
           unfold plan in Ep. pose proof (extra_bad (ma_version m) (ar_extra (cm_args c)) (ar_no_generator (cm_args c)) s I NI) as B. destruct (get_extra_info _ _ _); discriminate.
      * exists w, (exit_code (Panic s)). split; [now apply (pr_info m argv w c f g t s)|]. intros v k P. inversion P; subst; try congruence; match goal with H1 : command _ _ = Got ?d |- _ => assert (d = c) by congruence; subst d end; try congruence.
        split; reflexivity.
  - exists w, 2. split; [now constructor|]. intros v k P. inversion P; subst; try congruence. split; reflexivity.
  - eexists _, 0. split; [now constructor|]. intros v k P. inversion P; subst; try congruence. split; reflexivity.
Qed.

(** No file is worked on. *)
Lemma no_work m argv w v n :
  (command (ma_target m) argv = Usage -> (program m argv w v n <-> v = w /\ n = 2)) /\
  (command (ma_target m) argv = Shown -> (program m argv w v n <-> v = (mkWorld (w_fs w) (w_out w ++ encode (ma_text m argv)) (w_err w)) /\ n = 0)) /\
  (forall c s, command (ma_target m) argv = Got c -> In s (ar_extra (cm_args c)) -> ~ info_text s -> (program m argv w v n <-> v = w /\ n = 101)).
Proof.
  split; [|split].
  - intros E. split; [intros P; inversion P; subst; try congruence; auto|intros [-> ->]; now constructor].
  - intros E. split; [intros P; inversion P; subst; try congruence; auto|intros [-> ->]; now constructor].
  - intros c s E I B. pose proof (extra_bad (ma_version m) (ar_extra (cm_args c)) (ar_no_generator (cm_args c)) s I B) as X.
    assert (Ep : exists e, plan (ma_version m) (ma_cpus m) (cm_args c) = Panic e) by (unfold plan; destruct (get_extra_info _ _ _); try discriminate; eexists; reflexivity).
    destruct Ep as [e Ep]. split.
    + intros P. inversion P; subst; try congruence; match goal with H1 : command _ _ = Got ?d |- _ => assert (d = c) by congruence; subst d end; try congruence.
      * match goal with H1 : main_one _ _ _ _ _ _ _ _ _ = _ |- _ => unfold main_one in H1; rewrite Ep in H1; injection H1 as <- <- end. auto.
      * split; [reflexivity|]. reflexivity.
    + intros [-> ->]. destruct (ar_files (cm_args c)) as [|f [|g t]] eqn:F.
      * apply understood in E. destruct E as (_ & _ & _ & _ & _ & NE & _). congruence.
      * apply (pr_one m argv w c f); [exact E|exact F|]. unfold main_one. rewrite Ep. reflexivity.
      * exact (pr_info m argv w c f g t e E F Ep).
Qed.
Lemma list_split x an fs files : exists done rest ts r, files = done ++ rest /\ Forall2 (S_Many.lists x an fs) done ts /\
  (forall f t, hd_error rest = Some f -> ~ S_Many.lists x an fs f t) /\ list_arch x an fs files = (concat ts, r) /\ (r = Ok tt <-> rest = []).
Proof.
  induction files as [|f files (done & rest & ts & r & -> & L & B & E & R)].
  - exists [], [], [], (Ok tt). splits; try reflexivity; [constructor|discriminate|tauto].
  - assert (Stop : (forall t, ~ S_Many.lists x an fs f t) -> (exists r, list_arch x an fs (f :: done ++ rest) = ([], r) /\ r <> Ok tt) ->
      exists done' rest' ts r, f :: done ++ rest = done' ++ rest' /\ Forall2 (S_Many.lists x an fs) done' ts /\ (forall f t, hd_error rest' = Some f -> ~ S_Many.lists x an fs f t) /\
        list_arch x an fs (f :: done ++ rest) = (concat ts, r) /\ (r = Ok tt <-> rest' = [])).
    { intros NL (r' & E' & R'). exists [], (f :: done ++ rest), [], r'. splits; [reflexivity|constructor|intros g t [= <-]; apply NL|exact E'|]. split; [contradiction|discriminate]. }
    cbn [list_arch] in *. unfold get_filename in *. destruct (M_Path.path_file_name f) as [n|] eqn:Fn; cbn [bind] in *.
    2: { apply Stop; [intros t (n & d & X & _); congruence|]. eexists. split; [reflexivity|discriminate]. }
    destruct (read_file (ex_os x) (ex_cab x) fs f) as [d|s|s] eqn:Rd; cbn [bind] in *.
    2-3: apply Stop; [intros t (n' & d & _ & X & _); congruence|]; eexists; split; [reflexivity|discriminate].
    destruct (print_macho_architectures (ex_ps x) an d n) as [t|s|s] eqn:Pt.
    2-3: apply Stop; [intros t (n' & d' & X & Y & Z); congruence|]; eexists; split; [reflexivity|discriminate].
    rewrite E. exists (f :: done), rest, (t :: ts), r. splits; try assumption; [reflexivity| |reflexivity].
    constructor; [|exact L]. exists n, d. auto.
Qed.
Lemma listing m argv w c : command (ma_target m) argv = Got c -> ar_list_arch (cm_args c) = true -> Forall info_text (ar_extra (cm_args c)) ->
  exists done rest ts k, ar_files (cm_args c) = done ++ rest /\ Forall2 (S_Many.lists (ma_ext m) (ma_arch_name m) (w_fs w)) done ts /\
    (forall f t, hd_error rest = Some f -> ~ S_Many.lists (ma_ext m) (ma_arch_name m) (w_fs w) f t) /\ (k = 0 <-> rest = []) /\
    forall v n, program m argv w v n <-> v = (mkWorld (w_fs w) (w_out w ++ encode (concat ts)) (w_err w)) /\ n = k.
Proof.
  intros G L X. destruct (list_split (ma_ext m) (ma_arch_name m) (w_fs w) (ar_files (cm_args c))) as (done & rest & ts & r & Ef & Fl & Nl & El & Rl).
  exists done, rest, ts, (exit_code r). splits; try assumption.
  - rewrite <- Rl. destruct r as [[]|s|s]; cbn; split; congruence.
  - intros v n. assert (Ep : exists info level, plan (ma_version m) (ma_cpus m) (cm_args c) = Ok (info, ActList, level)).
    { unfold plan. rewrite (extra_ok _ _ _ X). cbn [bind]. rewrite L. do 2 eexists. reflexivity. }
    destruct Ep as (info & level & Ep). split.
    + intros P. inversion P; subst; try congruence; match goal with H1 : command _ _ = Got ?d |- _ => assert (d = c) by congruence; subst d end; try congruence.
      * match goal with H1 : main_one _ _ _ _ _ _ _ _ _ = _, H2 : ar_files _ = [_] |- _ => unfold main_one in H1; rewrite Ep, <- H2, El in H1; injection H1 as <- <- end. auto.
      * match goal with H1 : main_list _ _ _ _ = _, H2 : ar_files _ = _ |- _ => unfold main_list in H1; rewrite <- H2, El in H1; injection H1 as <- <- end. auto.
    + intros [-> ->]. destruct (ar_files (cm_args c)) as [|f [|g t]] eqn:F.
      * apply understood in G. destruct G as (_ & _ & _ & _ & _ & NE & _). congruence.
      * apply (pr_one m argv w c f); [exact G|exact F|]. unfold main_one. rewrite Ep, El. reflexivity.
      * apply (pr_list m argv w c f g t info level); [exact G|exact F|exact Ep|]. unfold main_list. rewrite El. reflexivity.
Qed.
