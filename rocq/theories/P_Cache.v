(** Proofs about symbol servers, caches and lookups. *)
From Verif Require Import Base Str Utf8 M_Path S_Path P_Path M_Source M_Fs S_Fs P_Fs M_Cache S_Cache.

(** ** Configuration *)
Lemma blank_forallb s : is_blank s <-> forallb is_ws s = true.
Proof. unfold is_blank. rewrite Forall_forall, forallb_forall. reflexivity. Qed.
Lemma trim_trimmed s : trimmed s (trim s).
Proof.
  unfold trim. destruct (trim_start_split is_ws s) as (a & E1 & A & H1). destruct (trim_end_split is_ws (trim_start_by is_ws s)) as (b & E2 & B & H2).
  exists a, b. splits.
  - rewrite <- E2. exact E1.
  - now apply blank_forallb.
  - now apply blank_forallb.
  - intros c u E. rewrite E in E2. apply (H1 c (u ++ b)). rewrite E2. reflexivity.
  - intros c u E. exact (H2 u c E).
Qed.
Lemma trimmed_trim s t : trimmed s t -> t = trim s.
Proof.
  intros (a & b & -> & A & B & H1 & H2). apply blank_forallb in A, B. unfold trim. rewrite trim_start_app by exact A.
  destruct t as [|c t].
  - cbn [app]. pose proof (trim_start_app is_ws b [] B) as X. rewrite app_nil_r in X. rewrite X. reflexivity.
  - rewrite trim_start_stop2; [|intros c' x E; now apply (H1 c' x)|discriminate].
    rewrite trim_end_app by exact B. symmetry. apply trim_end_id. intros x c' E. exact (H2 c' x E).
Qed.
Lemma srv_word_iff s : srv_word s <-> to_lower (trim s) = lit "srv".
Proof.
  assert (W : Forall (fun d => d < 65 \/ 90 < d) (lit "srv")) by (cbn; repeat (constructor; [lia|]); constructor).
  unfold srv_word. split.
  - intros (t & T & C). apply trimmed_trim in T. subst t. now apply lower_ci.
  - intros H. exists (trim s). split; [apply trim_trimmed|]. now apply lower_ci.
Qed.
Lemma tilde_iff home s t : tilde home s t <-> t = correct_path home s.
Proof.
  unfold tilde, correct_path. destruct home as [h|]; [|reflexivity]. destruct (strip_prefix (lit "~") s) as [u|] eqn:E.
  - apply strip_prefix_spec in E. subst s. split.
    + intros [(u' & E & ->)|[H _]]; [inversion E; reflexivity|now elim (H u)].
    + intros ->. left. exists u. split; reflexivity.
  - split.
    + intros [(u' & -> & _)|[_ ->]]; [|reflexivity]. exfalso. assert (X : strip_prefix (lit "~") (126 :: u') = Some u') by (now apply strip_prefix_spec). congruence.
    + intros ->. right. split; [|reflexivity]. intros u ->. assert (X : strip_prefix (lit "~") (126 :: u) = Some u) by (now apply strip_prefix_spec). congruence.
Qed.
Lemma pieces_iff sep s l : pieces sep s l <-> l = split_on sep s.
Proof.
  assert (F : forall x, Forall (fun c => sep c = false) x <-> forallb (fun c => negb (sep c)) x = true).
  { intros x. rewrite Forall_forall, forallb_forall. split; intros H c I; specialize (H c I); [now rewrite H|]. now apply negb_true_iff in H. }
  split.
  - intros H. induction H as [s H|s c t l H Hc P IH].
    + apply F in H. now rewrite split_on_none.
    + apply F in H. rewrite split_on_app_sep by assumption. now f_equal.
  - intros ->. induction s as [|c s IH]; [constructor; constructor|]. cbn [split_on]. destruct (sep c) eqn:E.
    + apply (pc_more sep [] c s); [constructor|exact E|exact IH].
    + destruct (split_on sep s) as [|x r] eqn:Es; [now apply split_on_nonempty in Es|]. inversion IH as [? H1|s' c' t' l' H1 H2 H3]; subst.
      * constructor. now constructor.
      * apply (pc_more sep (c :: x)); [now constructor|exact H2|exact H3].
Qed.
Lemma no_star_iff s : no_star s <-> Forall (fun c => is_star c = false) s.
Proof.
  unfold no_star. rewrite Forall_forall. split.
  - intros H c I. unfold is_star. apply N.eqb_neq. intros ->. now apply H.
  - intros H I. specialize (H _ I). discriminate.
Qed.
Lemma star_is : is_star 42 = true.
Proof. reflexivity. Qed.
Lemma entry_iff home e s : entry home e s <-> parse_srv home e = Some s.
Proof.
  unfold parse_srv. split.
  - intros H. destruct H as [e N W|a s s' Na Ns W T|a c s c' c'' s' Na Nc Ns W Tc Ts Ti].
    + apply no_star_iff in N. rewrite <- (proj1 (pieces_iff is_star e [e])) by (now constructor). cbn [map].
      apply srv_word_iff in W. now rewrite (proj2 (str_eqb_eq _ _) W).
    + apply no_star_iff in Na, Ns. rewrite <- (proj1 (pieces_iff is_star (a ++ 42 :: s) [a; s])).
      2:{ apply pc_more; [exact Na|reflexivity|now constructor]. }
      cbn [map]. apply srv_word_iff in W. rewrite (proj2 (str_eqb_eq _ _) W). apply trimmed_trim in T. now subst s'.
    + apply no_star_iff in Na, Nc, Ns. rewrite <- (proj1 (pieces_iff is_star (a ++ 42 :: c ++ 42 :: s) [a; c; s])).
      2:{ apply pc_more; [exact Na|reflexivity|]. apply pc_more; [exact Nc|reflexivity|now constructor]. }
      cbn [map]. apply srv_word_iff in W. rewrite (proj2 (str_eqb_eq _ _) W). apply trimmed_trim in Tc, Ts. apply tilde_iff in Ti. now subst.
  - pose proof (proj2 (pieces_iff is_star e _) eq_refl) as P. destruct (split_on is_star e) as [|a l] eqn:E; [now apply split_on_nonempty in E|].
    cbn [map]. destruct (str_eqb (to_lower (trim a)) (lit "srv")) eqn:W; [|discriminate]. apply str_eqb_eq, srv_word_iff in W.
    assert (M : forall x y l, pieces is_star x (y :: l) -> no_star y /\ (l = [] /\ x = y \/ exists t, x = y ++ 42 :: t /\ pieces is_star t l)).
    { intros x y l0 H. inversion H as [? H1|s' c' t' l' H1 H2 H3]; subst; (split; [now apply no_star_iff|]); [now left|].
      right. exists t'. split; [|exact H3]. unfold is_star in H2. apply N.eqb_eq in H2. now subst. }
    apply M in P. destruct P as (Na & [(-> & ->)|(t & -> & P)]).
    + cbn [map]. intros [= <-]. now apply ent_default.
    + destruct l as [|b l]; [inversion P|]. cbn [map]. apply M in P. destruct P as (Nb & [(-> & ->)|(t' & -> & P)]).
      * cbn [map]. intros [= <-]. apply ent_store; auto. apply trim_trimmed.
      * destruct l as [|c l]; [inversion P|]. cbn [map]. apply M in P. destruct P as (Nc & [(-> & ->)|(t2 & -> & P)]).
        -- cbn [map]. intros [= <-]. eapply ent_cache; eauto using trim_trimmed. now apply tilde_iff.
        -- destruct l as [|d l]; [inversion P|]. discriminate.
Qed.
Lemma servers_iff home l r : servers_of home l r <-> r = filter_map (parse_srv home) l.
Proof.
  split.
  - intros H. induction H as [|e s l r H S IH|e l r H S IH]; cbn [filter_map]; [reflexivity|..].
    + apply entry_iff in H. rewrite H. now f_equal.
    + destruct (parse_srv home e) as [s|] eqn:E; [apply entry_iff in E; now elim (H s)|exact IH].
  - intros ->. induction l as [|e l IH]; cbn [filter_map]; [constructor|]. destruct (parse_srv home e) as [s|] eqn:E.
    + apply so_yes; [now apply entry_iff|exact IH].
    + apply so_no; [|exact IH]. intros s H. apply entry_iff in H. congruence.
Qed.
Lemma config_iff home s r : parse_sympath home s = r <-> exists l, pieces is_entry_sep s l /\ servers_of home l r.
Proof.
  unfold parse_sympath. split.
  - intros <-. exists (split_on is_entry_sep s). split; [now apply pieces_iff|now apply servers_iff].
  - intros (l & P & S). apply pieces_iff in P. apply servers_iff in S. now subst.
Qed.

(** ** Places in caches *)
Lemma base_proper n : proper n -> proper (get_base n).
Proof.
  intros (H1 & H2 & H3 & H4). pose proof (get_base_spec n H4 H1) as B.
  destruct (base_no_slash n _ H4 H1 B) as (N & N' & _). unfold proper. splits; auto.
  - intros E. rewrite E in B. destruct B as [(stem & e & o & w & Hs & _ & _ & _ & X)|[_ X]]; [|congruence].
    destruct stem as [|c stem]; [easy|]. inversion X as [[X1 X2]]. destruct stem; discriminate.
  - intros E. rewrite E in B. destruct B as [(stem & e & o & w & Hs & _ & I & _ & X)|[_ X]]; [|congruence].
    destruct stem as [|c stem]; [easy|]. inversion X as [[X1 X2]]. destruct stem as [|d stem]; [|inversion X2 as [[X3 X4]]; destruct stem; discriminate].
    inversion X2; subst. cbn in I. destruct I as [[= _ I]|[[= _ I]|[[= _ I]|[]]]]; discriminate.
Qed.
Lemma entry_locate os c base id name : proper base -> proper id -> proper name ->
  locate (os_cwd os) (entry_path c base id name) = entry_loc os c base id name.
Proof. intros. unfold entry_path, entry_loc. now rewrite !locate_push. Qed.
Lemma search_none e fs sv id base name : proper base -> proper id -> proper name ->
  (search_in_cache e fs sv id base name = None <-> uncached (ce_os e) fs sv base id name).
Proof.
  intros Hb Hi Hn. unfold uncached, caches. induction sv as [|s sv IH]; cbn [search_in_cache filter_map]; [split; [intros _ c []|reflexivity]|].
  destruct (sv_cache s) as [c|]; [|exact IH]. unfold path_exists. rewrite entry_locate by assumption.
  destruct (fs_get fs (entry_loc (ce_os e) c base id name)) as [nd|] eqn:G.
  - split; [discriminate|]. intros H. specialize (H c (or_introl eq_refl)). congruence.
  - rewrite IH. split.
    + intros H c' [<-|I]; auto.
    + intros H c' I. apply H. now right.
Qed.
Lemma search_some e fs sv id base name p : search_in_cache e fs sv id base name = Some p ->
  exists c, In c (caches sv) /\ p = entry_path c base id name /\ path_exists (ce_os e) fs p = true.
Proof.
  unfold caches. induction sv as [|s sv IH]; cbn [search_in_cache filter_map]; [discriminate|].
  destruct (sv_cache s) as [c|].
  - cbn zeta. destruct (path_exists (ce_os e) fs (entry_path c base id name)) eqn:E.
    + intros H. injection H as <-. exists c. splits; [now left|reflexivity|exact E].
    + intros H. destruct (IH H) as (c' & I & R). exists c'. split; [now right|exact R].
  - intros H. destruct (IH H) as (c' & I & R). exists c'. split; [exact I|exact R].
Qed.

(** ** Jobs *)
Lemma ends_snoc c s d : ends_with_char c (s ++ [d]) = (d =? c).
Proof.
  destruct (ends_with_char c (s ++ [d])) eqn:E.
  - apply ends_with_char_spec in E. destruct E as (x & E). apply app_inj_tail in E. destruct E as [_ ->]. now rewrite N.eqb_refl.
  - destruct (N.eqb_spec d c) as [->|]; [|reflexivity]. rewrite (proj2 (ends_with_char_spec c (s ++ [c]))) in E by (now exists s). discriminate.
Qed.
Lemma jobs_urls e sv id base name js : name <> [] -> get_jobs e sv id base name = Ok js -> candidates sv name id (map cj_url js).
Proof.
  intros Hn H. destruct (exists_last Hn) as (stem & c & ->). exists stem, c. split; [reflexivity|].
  revert js H. induction sv as [|s sv IH]; cbn [get_jobs flat_map]; intros js H.
  - inversion H; subst. reflexivity.
  - apply bind_ok in H. destruct H as (j1 & E1 & H). apply bind_ok in H. destruct H as (js1 & E2 & H). apply bind_ok in H. destruct H as (rest & E3 & [= <-]).
    assert (J : forall c u j', job_new e c u = Ok j' -> cj_url j' = u).
    { intros c' u j' X. unfold job_new in X. destruct (ce_url e u); [|discriminate]. now inversion X. }
    rewrite map_app, (IH _ E3). rewrite ends_snoc in E2. destruct (c =? 95).
    + inversion E2; subst. cbn [map app]. rewrite (J _ _ _ E1). reflexivity.
    + apply bind_ok in E2. destruct E2 as (sh & Es & E2). apply bind_ok in E2. destruct E2 as (j2 & E4 & [= <-]). cbn [map app].
      rewrite (J _ _ _ E1), (J _ _ _ E4). unfold drop_last_byte in Es. rewrite rev_app_distr in Es. cbn [rev app] in Es.
      destruct (utf8_len c =? 1); [|discriminate]. rewrite rev_involutive in Es. inversion Es; subst. reflexivity.
Qed.
Lemma utf8_len_one c : utf8_len c = 1 <-> c < 128.
Proof. unfold utf8_len. repeat match goal with |- context [if ?b then _ else _] => destruct b eqn:? end; lia. Qed.
Lemma jobs_made e sv id base name : name <> [] ->
  (can_be_asked (ce_url e) sv name id -> exists js, get_jobs e sv id base name = Ok js) /\
  (~ can_be_asked (ce_url e) sv name id -> is_panic (get_jobs e sv id base name) = true).
Proof.
  intros Hn. destruct (exists_last Hn) as (stem & c & ->).
  set (one := fun s => (sv_server s ++ lit "/" ++ (stem ++ [c]) ++ lit "/" ++ id ++ lit "/" ++ (stem ++ [c])) ::
    (if c =? 95 then [] else [sv_server s ++ lit "/" ++ (stem ++ [c]) ++ lit "/" ++ id ++ lit "/" ++ stem ++ lit "_"])).
  assert (Ca : forall l us, candidates l (stem ++ [c]) id us <-> us = flat_map one l).
  { intros l us. split.
    - intros (stem' & c' & E & ->). apply app_inj_tail in E as (<- & <-). reflexivity.
    - intros ->. exists stem, c. split; reflexivity. }
  assert (Q : can_be_asked (ce_url e) sv (stem ++ [c]) id <-> sv = [] \/ (c < 128 /\ Forall (fun u => ce_url e u = true) (flat_map one sv))).
  { unfold can_be_asked. split; (intros [->|H]; [now left|right]).
    - destruct H as (stem' & c' & us & E & Hc & K & F). apply app_inj_tail in E as (<- & <-). apply Ca in K. subst us. auto.
    - destruct H as (Hc & F). exists stem, c, (flat_map one sv). splits; auto. now apply Ca. }
  rewrite Q. clear Q Ca. induction sv as [|s sv (IH1 & IH2)]; [split; [now exists []|intros []; now left]|]. cbn [get_jobs flat_map].
  unfold job_new, slashed.
  assert (Ho : Forall (fun u => ce_url e u = true) (one s ++ flat_map one sv) <-> Forall (fun u => ce_url e u = true) (one s) /\ Forall (fun u => ce_url e u = true) (flat_map one sv)) by apply Forall_app.
  assert (Tl : c < 128 -> Forall (fun u => ce_url e u = true) (flat_map one sv) -> exists js, get_jobs e sv id base (stem ++ [c]) = Ok js) by auto.
  assert (Tp : forall b : bool, (c < 128 -> b = true -> ~ Forall (fun u => ce_url e u = true) (flat_map one sv)) -> c < 128 -> b = true -> is_panic (get_jobs e sv id base (stem ++ [c])) = true).
  { intros b H Hc Hb. specialize (H Hc Hb). apply IH2. intros [->|(_ & F)]; [apply H; constructor|auto]. }
  split.
  - intros [X|(Hc & F)]; [discriminate|]. apply Ho in F as (F1 & F2). assert (U1 := Forall_inv F1). assert (U2 := Forall_inv_tail F1). cbn beta in U1. rewrite U1. cbn [bind]. rewrite ends_snoc. unfold one in F1, U2.
    destruct (Tl Hc F2) as (js & ->). destruct (c =? 95); cbn [bind]; [eauto|].
    unfold drop_last_byte. rewrite rev_app_distr. cbn [rev app]. rewrite (proj2 (utf8_len_one c) Hc). cbn [N.eqb Pos.eqb bind]. rewrite rev_involutive.
    assert (U3 := Forall_inv U2). cbn beta in U3. rewrite U3. cbn [bind]. eauto.
  - intros N. match goal with |- context [if ce_url e ?u then _ else _] => destruct (ce_url e u) eqn:U1 end; [|reflexivity]. cbn [bind]. rewrite ends_snoc.
    destruct (c =? 95) eqn:Ec; cbn [bind].
    + assert (P : is_panic (get_jobs e sv id base (stem ++ [c])) = true).
      { apply (Tp true); [|lia|reflexivity]. intros Hc _ F. apply N. right. split; [lia|]. rewrite Forall_app. split; [|exact F]. subst one. cbn beta. rewrite ?Ec. repeat constructor. exact U1. }
      destruct (get_jobs e sv id base (stem ++ [c])); [discriminate|discriminate|reflexivity].
    + unfold drop_last_byte. rewrite rev_app_distr. cbn [rev app]. destruct (N.eqb_spec (utf8_len c) 1) as [Hu|Hu]; [|reflexivity]. cbn [bind]. rewrite rev_involutive.
      match goal with |- context [if ce_url e ?u then _ else _] => destruct (ce_url e u) eqn:U2 end; [|reflexivity]. cbn [bind].
      apply utf8_len_one in Hu.
      assert (P : is_panic (get_jobs e sv id base (stem ++ [c])) = true).
      { apply (Tp true); [|exact Hu|reflexivity]. intros Hc _ F. apply N. right. split; [exact Hc|]. rewrite Forall_app. split; [|exact F]. subst one. cbn beta. rewrite ?Ec. repeat constructor; auto. }
      destruct (get_jobs e sv id base (stem ++ [c])); [discriminate|discriminate|reflexivity].
Qed.
Lemma jobs_origin e sv id base name js : name <> [] -> get_jobs e sv id base name = Ok js ->
  forall j, In j js -> exists s us, In s sv /\ candidates [s] name id us /\ In (cj_url j) us /\
    cj_cache j = option_map (fun c => entry_path c base id name) (sv_cache s).
Proof.
  intros Hn. revert js. induction sv as [|s sv IH]; intros js H j I.
  - inversion H; subst. contradiction.
  - cbn [get_jobs] in H. apply bind_ok in H. destruct H as (j1 & E1 & H). apply bind_ok in H. destruct H as (js1 & E2 & H). apply bind_ok in H. destruct H as (rest & E3 & [= <-]).
    apply in_app_or in I. destruct I as [I|I].
    + exists s, (map cj_url js1). splits; [now left| |now apply in_map|].
      * assert (G : get_jobs e [s] id base name = Ok js1) by (cbn [get_jobs]; rewrite E1; cbn [bind]; rewrite E2; cbn [bind]; now rewrite app_nil_r).
        exact (jobs_urls _ _ _ _ _ _ Hn G).
      * assert (J : forall c u j', job_new e c u = Ok j' -> cj_cache j' = c).
        { intros c u j' X. unfold job_new in X. destruct (ce_url e u); [|discriminate]. now inversion X. }
        destruct (ends_with_char 95 name).
        -- inversion E2; subst. destruct I as [<-|[]]. exact (J _ _ _ E1).
        -- apply bind_ok in E2. destruct E2 as (sh & _ & E2). apply bind_ok in E2. destruct E2 as (j2 & E4 & [= <-]).
           destruct I as [<-|[<-|[]]]; [exact (J _ _ _ E1)|exact (J _ _ _ E4)].
    + destruct (IH _ E3 j I) as (s' & us & I' & R). exists s', us. split; [now right|exact R].
Qed.
Definition answered (n : Net) (j : CJob) : bool := match nt_head n (cj_url j) with Some s => s =? 200 | None => false end.
Lemma answered_iff n j : answered n j = true <-> nt_head n (cj_url j) = Some 200.
Proof.
  unfold answered. destruct (nt_head n (cj_url j)) as [s|]; [|split; discriminate]. destruct (N.eqb_spec s 200); split; congruence.
Qed.
Lemma check_some n l j : check_data n l = Some j -> In j l /\ nt_head n (cj_url j) = Some 200.
Proof.
  unfold check_data. fold (answered n). destruct (filter (answered n) l) as [|x r] eqn:E; [discriminate|]. intros [= ->].
  assert (I : In j (filter (answered n) l)) by (rewrite E; now left). apply filter_In in I. now rewrite <- answered_iff.
Qed.
Lemma check_none n l : check_data n l = None <-> forall j, In j l -> nt_head n (cj_url j) <> Some 200.
Proof.
  unfold check_data. fold (answered n). destruct (filter (answered n) l) as [|x r] eqn:E.
  - split; [|reflexivity]. intros _ j I H. apply answered_iff in H. assert (X : In j (filter (answered n) l)) by (now apply filter_In). now rewrite E in X.
  - split; [discriminate|]. intros H. exfalso. assert (X : In x (filter (answered n) l)) by (rewrite E; now left). apply filter_In in X.
    destruct X as [X1 X2]. apply answered_iff in X2. exact (H x X1 X2).
Qed.

(** ** Storing a download *)
Lemma copy_rejects e fs p d : ~ worth_caching d -> copy_in_cache e fs p d = Ok (false, fs).
Proof.
  intros H. unfold copy_in_cache. destruct d as [|c d]; [reflexivity|]. destruct (starts_with not_found (c :: d)) eqn:E; [reflexivity|].
  exfalso. apply H. split; [discriminate|]. intros t X. assert (Y : starts_with not_found (c :: d) = true) by (apply starts_with_spec; eauto). congruence.
Qed.
Lemma copy_inv e fs p d b fs' : copy_in_cache e fs p d = Ok (b, fs') -> b = true -> worth_caching d.
Proof.
  intros H ->. unfold copy_in_cache in H. destruct d as [|c d]; [discriminate|]. destruct (starts_with not_found (c :: d)) eqn:E; [discriminate|].
  split; [discriminate|]. intros t X. assert (Y : starts_with not_found (c :: d) = true) by (apply starts_with_spec; eauto). congruence.
Qed.
Lemma copy_stores e fs s n d fs' : healthy (ce_os e) -> proper n -> copy_in_cache e fs (Some (path_push s n)) d = Ok (true, fs') ->
  let l := n :: locate (os_cwd (ce_os e)) s in
  fs_get fs' l = Some (NFile d) /\
  forall x, x <> l -> fs_get fs' x = fs_get fs x \/ (fs_get fs x = None /\ fs_get fs' x = Some NDir /\ exists k, locate (os_cwd (ce_os e)) s = k ++ x).
Proof.
  intros Hd Hn H l. pose proof (copy_inv _ _ _ _ _ _ H eq_refl) as W. unfold copy_in_cache in H. destruct d as [|c d]; [discriminate|].
  destruct (starts_with not_found (c :: d)) eqn:E; [discriminate|]. clear E.
  apply bind_ok in H. destruct H as (fs1 & H1 & H).
  assert (D : dirs_added fs fs1 (locate (os_cwd (ce_os e)) s)).
  { destruct (path_parent (path_push s n)) as [q|] eqn:P.
    - destruct (path_exists (ce_os e) fs q); [inversion H1; subst; intros x; now left|]. unfold create_dir_all in H1.
      rewrite (locate_parent _ _ _ _ Hn P) in H1. destruct (mkdirs _ _ _) as [f|] eqn:M; [|discriminate]. inversion H1; subst.
      now apply mkdirs_spec in M.
    - inversion H1; subst. intros x. now left. }
  destruct (file_create (ce_os e) fs1 (path_push s n)) as [fs2|] eqn:F; [|discriminate]. apply file_create_spec in F. destruct F as (_ & -> & _).
  unfold buf_write in H. rewrite Hd in H. rewrite locate_push in H by exact Hn. fold l in H.
  rewrite (proj2 (str_eqb_eq _ _) eq_refl) in H.
  assert (Efs : fs' = fs_set (fs_set fs1 l (NFile [])) l (NFile (c :: d))) by congruence. subst fs'.
  assert (Nl : l <> []) by discriminate. split; [now apply fs_get_same|].
  intros x Nx. rewrite !fs_get_other by congruence. exact (D x).
Qed.

(** ** Lookups *)
Lemma search_file_uncached e n sched fs name id sv : proper name -> proper id -> uncached (ce_os e) fs sv (get_base name) id name ->
  search_file e n sched fs name id (Some sv) =
  (jobs <- get_jobs e sv id (get_base name) name ;;
   l <- fetch_data e n fs (sched jobs) ;;
   match lk_data l with
   | None => Ok l
   | Some buf => r <- read_cabinet (ce_cab e) buf name ;;
       match r with Some d => Ok (mkLookup (Some d) (lk_fs l) (lk_gets l)) | None => Panic "Unable to read the file from the server" end
   end).
Proof.
  intros Hn Hi U. unfold search_file. destruct name as [|c name]; [destruct Hn as [Hn _]; now elim Hn|].
  rewrite (proj2 (search_none e fs sv id (get_base (c :: name)) (c :: name) (base_proper _ Hn) Hi Hn) U). reflexivity.
Qed.
Lemma search_file_cached e n sched fs name id sv p : name <> [] -> search_in_cache e fs sv id (get_base name) name = Some p ->
  search_file e n sched fs name id (Some sv) = (d <- read_file (ce_os e) (ce_cab e) fs p ;; Ok (mkLookup (Some d) fs [])).
Proof. intros Hn E. unfold search_file. destruct name as [|c name]; [easy|]. now rewrite E. Qed.
Lemma read_file_plain os cab fs p d : fs_get fs (locate (os_cwd os) p) = Some (NFile d) ->
  read_file os cab fs p = (r <- read_cabinet cab d p ;; match r with Some x => Ok x | None => Panic "Unable to read the cabinet file" end).
Proof.
  intros G. unfold read_file, path_exists, get_mac_bundle, is_dir. rewrite G. cbn [bind]. rewrite G. reflexivity.
Qed.
(** The cached file is found and gives the same as the download. *)
Lemma cached_found e n sched fs name id sv c d : proper name -> proper id -> In c (caches sv) ->
  fs_get fs (entry_loc (ce_os e) c (get_base name) id name) = Some (NFile d) ->
  (forall c', In c' (caches sv) -> fs_get fs (entry_loc (ce_os e) c' (get_base name) id name) = None \/ fs_get fs (entry_loc (ce_os e) c' (get_base name) id name) = Some (NFile d)) ->
  search_file e n sched fs name id (Some sv) =
  (r <- read_cabinet (ce_cab e) d name ;; match r with Some x => Ok (mkLookup (Some x) fs []) | None => Panic "Unable to read the cabinet file" end).
Proof.
  intros Hn Hi Ic G O. pose proof (base_proper _ Hn) as Hb.
  destruct (search_in_cache e fs sv id (get_base name) name) as [p|] eqn:S.
  2:{ exfalso. apply (search_none e fs sv id _ name Hb Hi Hn) in S. specialize (S c Ic). congruence. }
  rewrite (search_file_cached _ _ _ _ _ _ _ _ (proj1 Hn) S). apply search_some in S. destruct S as (c' & Ic' & -> & X).
  unfold path_exists in X. pose proof (entry_locate (ce_os e) c' _ id name Hb Hi Hn) as L. rewrite L in X.
  destruct (O c' Ic') as [G'|G']; [rewrite G' in X; discriminate|]. rewrite (read_file_plain _ _ _ _ d) by (now rewrite L).
  unfold entry_path. rewrite read_cabinet_push by exact Hn. destruct (read_cabinet (ce_cab e) d name) as [[x|]| |]; reflexivity.
Qed.
Lemma suffix_cons_no {A} (x : A) k l : l <> k ++ x :: l.
Proof. intros E. apply (f_equal (@length A)) in E. rewrite app_length in E. cbn in E. lia. Qed.
(** What a successful lookup did. *)
Lemma lookup_inv e n sched fs name id sv l : proper name -> proper id -> uncached (ce_os e) fs sv (get_base name) id name ->
  (forall js, Permutation (sched js) js) -> search_file e n sched fs name id (Some sv) = Ok l ->
  exists us, candidates sv name id us /\
  (((forall u, In u us -> nt_head n u <> Some 200) /\ l = mkLookup None fs []) \/
   exists u s uss, In u us /\ nt_head n u = Some 200 /\ In s sv /\ candidates [s] name id uss /\ In u uss /\ lk_gets l = [u] /\
     match nt_get n u with
     | None => lk_data l = None /\ lk_fs l = fs
     | Some buf => (~ worth_caching buf /\ lk_data l = None /\ lk_fs l = fs) \/
         exists d, worth_caching buf /\ lk_data l = Some d /\ read_cabinet (ce_cab e) buf name = Ok (Some d) /\
           copy_in_cache e fs (option_map (fun c => entry_path c (get_base name) id name) (sv_cache s)) buf = Ok (true, lk_fs l)
     end).
Proof.
  intros Hn Hi U P H. rewrite (search_file_uncached _ _ _ _ _ _ _ Hn Hi U) in H.
  apply bind_ok in H. destruct H as (js & J & H). apply bind_ok in H. destruct H as (l1 & F & H).
  exists (map cj_url js). split; [exact (jobs_urls _ _ _ _ _ _ (proj1 Hn) J)|].
  unfold fetch_data in F. destruct (check_data n (sched js)) as [j|] eqn:C.
  2:{ left. inversion F; subst l1. cbn in H. inversion H; subst l. split; [|reflexivity]. intros u I. apply in_map_iff in I. destruct I as (j & <- & I).
      apply (proj1 (check_none n (sched js)) C). apply (Permutation_in _ (Permutation_sym (P js))). exact I. }
  right. apply check_some in C. destruct C as [Ij Hj]. apply (Permutation_in _ (P js)) in Ij.
  destruct (jobs_origin _ _ _ _ _ _ (proj1 Hn) J j Ij) as (s & us & Is & Cs & Iu & Ec).
  exists (cj_url j), s, us. splits; auto; [now apply in_map|..].
  - destruct (nt_get n (cj_url j)) as [buf|]; [|inversion F; subst l1; cbn in H; now inversion H].
    apply bind_ok in F. destruct F as ([ok fs1] & F & E1). inversion E1; subst l1. cbn [lk_data lk_fs lk_gets] in H. destruct ok.
    + apply bind_ok in H. destruct H as ([d|] & _ & H); [|discriminate]. now inversion H.
    + now inversion H.
  - destruct (nt_get n (cj_url j)) as [buf|]; [|inversion F; subst l1; cbn in H; now inversion H].
    apply bind_ok in F. destruct F as ([ok fs1] & F & E1). inversion E1; subst l1. clear E1. cbn [lk_data lk_fs lk_gets] in H. destruct ok.
    + right. apply bind_ok in H. destruct H as ([d|] & Rc & H); [|discriminate]. inversion H; subst l. clear H. exists d. cbn [lk_data lk_fs].
      rewrite <- Ec. splits; auto. exact (copy_inv _ _ _ _ _ _ F eq_refl).
    + left. inversion H; subst l. cbn [lk_data lk_fs]. splits; auto.
      * intros W. unfold copy_in_cache in F. destruct buf as [|b buf]; [destruct W as [W _]; now elim W|].
        destruct (starts_with not_found (b :: buf)) eqn:E; [apply starts_with_spec in E; destruct E as (t & E); now elim (proj2 W t)|].
        destruct (cj_cache j) as [p|]; [|discriminate].
        apply bind_ok in F. destruct F as (f1 & _ & F). destruct (file_create _ _ _); [|discriminate].
        destruct (buf_write _ _ _ _ _) as [? []]; discriminate.
      * unfold copy_in_cache in F. destruct buf as [|b buf]; [now inversion F|].
        destruct (starts_with not_found (b :: buf)); [now inversion F|]. destruct (cj_cache j) as [p|]; [|discriminate].
        apply bind_ok in F. destruct F as (f1 & _ & F). destruct (file_create _ _ _); [|discriminate].
        destruct (buf_write _ _ _ _ _) as [? []]; discriminate.
Qed.
(** Later lookups of a downloaded file. *)
Lemma later_lookup e n sched fs name id sv l d : healthy (ce_os e) -> proper name -> proper id ->
  uncached (ce_os e) fs sv (get_base name) id name -> not_nested (ce_os e) sv (get_base name) id name ->
  (forall js, Permutation (sched js) js) ->
  search_file e n sched fs name id (Some sv) = Ok l -> lk_data l = Some d -> (forall u, In u (lk_gets l) -> only_cached sv name id u) ->
  forall n' sched', search_file e n' sched' (lk_fs l) name id (Some sv) = Ok (mkLookup (Some d) (lk_fs l) []).
Proof.
  intros Hd Hn Hi U NN P H Ed Oc n' sched'.
  destruct (lookup_inv _ _ _ _ _ _ _ _ Hn Hi U P H) as (us & Cs & [[_ ->]|(u & s & uss & Iu & H2 & Is & Cu & Iuu & Eg & X)]); [discriminate|].
  destruct (nt_get n u) as [buf|]; [|destruct X; congruence]. destruct X as [(_ & X & _)|(d' & W & Ed' & Rc & F)]; [congruence|].
  assert (d' = d) by congruence. subst d'.
  rewrite Eg in Oc. specialize (Oc u (or_introl eq_refl) s uss Is Cu Iuu).
  destruct (sv_cache s) as [c|] eqn:Es; [|congruence]. cbn [option_map] in F.
  assert (Ic : In c (caches sv)).
  { unfold caches. clear - Is Es. induction sv as [|x sv IH]; [contradiction|]. cbn [filter_map]. destruct Is as [->|Is].
    - rewrite Es. now left.
    - destruct (sv_cache x); [right|]; auto. }
  unfold entry_path in F. pose proof (base_proper _ Hn) as Hb.
  destruct (copy_stores e fs _ name buf (lk_fs l) Hd Hn F) as [G O]. rewrite !locate_push in G, O by assumption.
  rewrite (cached_found e n' sched' (lk_fs l) name id sv c buf Hn Hi Ic G); [now rewrite Rc|].
  intros c' Ic'. destruct (list_eq_dec str_eq_dec (entry_loc (ce_os e) c' (get_base name) id name) (entry_loc (ce_os e) c (get_base name) id name)) as [E|E].
  - right. rewrite E. exact G.
  - left. destruct (O _ E) as [->|(_ & _ & k & K)]; [apply U; exact Ic'|]. exfalso.
    assert (X : entry_loc (ce_os e) c (get_base name) id name = (name :: k) ++ entry_loc (ce_os e) c' (get_base name) id name).
    { unfold entry_loc at 1. cbn [app]. f_equal. exact K. }
    specialize (NN c' c _ Ic' Ic X). discriminate.
Qed.
(** What a crash leaves in the cache is served later. *)
Lemma truncated_served e n sched fs fs' name id sv c data k : proper name -> proper id -> In c (caches sv) ->
  uncached (ce_os e) fs sv (get_base name) id name ->
  fs' = fs_set fs (entry_loc (ce_os e) c (get_base name) id name) (NFile (firstn k data)) -> ce_cab e (firstn k data) = None ->
  search_file e n sched fs' name id (Some sv) = Ok (mkLookup (Some (firstn k data)) fs' []).
Proof.
  intros Hn Hi Ic U -> Cab. rewrite (cached_found e n sched _ name id sv c (firstn k data) Hn Hi Ic).
  - unfold read_cabinet. rewrite Cab. reflexivity.
  - apply fs_get_same. discriminate.
  - intros c' Ic'. destruct (list_eq_dec str_eq_dec (entry_loc (ce_os e) c' (get_base name) id name) (entry_loc (ce_os e) c (get_base name) id name)) as [E|E].
    + right. rewrite E. apply fs_get_same. discriminate.
    + left. rewrite fs_get_other by congruence. now apply U.
Qed.
(** A crash while only directories have been created. *)
Lemma dirs_only e fs fs' sv name id c : not_nested (ce_os e) sv (get_base name) id name -> In c (caches sv) ->
  uncached (ce_os e) fs sv (get_base name) id name ->
  dirs_added fs fs' (tl (entry_loc (ce_os e) c (get_base name) id name)) -> uncached (ce_os e) fs' sv (get_base name) id name.
Proof.
  intros NN Ic U D c' Ic'. destruct (D (entry_loc (ce_os e) c' (get_base name) id name)) as [->|(_ & _ & k & K)]; [now apply U|].
  exfalso. assert (X : entry_loc (ce_os e) c (get_base name) id name = (name :: k) ++ entry_loc (ce_os e) c' (get_base name) id name).
  { unfold entry_loc at 1. cbn [app]. f_equal. exact K. }
  specialize (NN c' c _ Ic' Ic X). discriminate.
Qed.

(** ** Which lookups reach the network. *)
Lemma candidates_fun sv name id us us' : candidates sv name id us -> candidates sv name id us' -> us = us'.
Proof. intros (s & c & E & ->) (s' & c' & E' & ->). rewrite E in E'. apply app_inj_tail in E' as (<- & <-). reflexivity. Qed.
Lemma nobody_answers e n sched fs name id sv : proper name -> proper id ->
  uncached (ce_os e) fs sv (get_base name) id name -> (forall js, Permutation (sched js) js) ->
  can_be_asked (ce_url e) sv name id ->
  (forall us u, candidates sv name id us -> In u us -> nt_head n u <> Some 200) ->
  search_file e n sched fs name id (Some sv) = Ok (mkLookup None fs []).
Proof.
  intros Hn Hi U P C H. rewrite (search_file_uncached _ _ _ _ _ _ _ Hn Hi U).
  destruct (proj1 (jobs_made e sv id (get_base name) name (proj1 Hn)) C) as (js & J). rewrite J. cbn [bind].
  assert (K : check_data n (sched js) = None).
  { apply check_none. intros j I. apply (H (map cj_url js)); [exact (jobs_urls _ _ _ _ _ _ (proj1 Hn) J)|]. apply in_map. apply (Permutation_in _ (P js)). exact I. }
  unfold fetch_data. rewrite K. reflexivity.
Qed.
Lemma cannot_be_asked e n sched fs name id sv : proper name -> proper id ->
  uncached (ce_os e) fs sv (get_base name) id name -> ~ can_be_asked (ce_url e) sv name id ->
  is_panic (search_file e n sched fs name id (Some sv)) = true.
Proof.
  intros Hn Hi U C. rewrite (search_file_uncached _ _ _ _ _ _ _ Hn Hi U).
  assert (X := proj2 (jobs_made e sv id (get_base name) name (proj1 Hn)) C). destruct (get_jobs e sv id (get_base name) name); [discriminate|discriminate|reflexivity].
Qed.
Lemma somebody_answers e n sched fs name id sv us : proper name -> proper id ->
  caches sv = [] -> (forall js, Permutation (sched js) js) -> can_be_asked (ce_url e) sv name id -> candidates sv name id us ->
  (exists u, In u us /\ nt_head n u = Some 200) ->
  (forall u, In u us -> nt_head n u = Some 200 -> exists d, nt_get n u = Some d /\ worth_caching d /\ ce_cab e d = None) ->
  exists u, In u us /\ nt_head n u = Some 200 /\ search_file e n sched fs name id (Some sv) = Ok (mkLookup (nt_get n u) fs [u]).
Proof.
  intros Hn Hi Nc P C Cu (u0 & I0 & H0) G.
  assert (U : uncached (ce_os e) fs sv (get_base name) id name) by (intros c I; rewrite Nc in I; destruct I).
  destruct (proj1 (jobs_made e sv id (get_base name) name (proj1 Hn)) C) as (js & J).
  assert (Eu := candidates_fun _ _ _ _ _ Cu (jobs_urls _ _ _ _ _ _ (proj1 Hn) J)). subst us.
  destruct (check_data n (sched js)) as [j|] eqn:K.
  2:{ exfalso. apply in_map_iff in I0. destruct I0 as (j & <- & I). apply (proj1 (check_none n (sched js)) K j); [|exact H0]. apply (Permutation_in _ (Permutation_sym (P js))). exact I. }
  assert (K' := K). apply check_some in K' as (Ij & Hj). apply (Permutation_in _ (P js)) in Ij.
  exists (cj_url j). assert (Iu : In (cj_url j) (map cj_url js)) by now apply in_map. splits; [exact Iu|exact Hj|].
  destruct (G _ Iu Hj) as (d & Ed & W & Cb).
  destruct (jobs_origin _ _ _ _ _ _ (proj1 Hn) J j Ij) as (s & uss & Is & _ & _ & Ec).
  assert (Es : sv_cache s = None).
  { destruct (sv_cache s) as [c|] eqn:Ec2; [|reflexivity]. exfalso. assert (X : In c (caches sv)); [|now rewrite Nc in X].
    clear - Is Ec2. unfold caches. induction sv as [|x sv IH]; [contradiction|]. cbn [filter_map]. destruct Is as [->|Is]; [rewrite Ec2; now left|].
    destruct (sv_cache x); [right|]; auto. }
  rewrite Es in Ec. cbn in Ec.
  rewrite (search_file_uncached _ _ _ _ _ _ _ Hn Hi U), J. cbn [bind]. unfold fetch_data. rewrite K, Ed, Ec.
  unfold copy_in_cache. destruct W as (W1 & W2). destruct d as [|b d]; [now destruct W1|].
  replace (starts_with not_found (b :: d)) with false. 2:{ symmetry. destruct (starts_with not_found (b :: d)) eqn:S; [|reflexivity]. apply starts_with_spec in S as (t & S). exfalso. exact (W2 t S). }
  cbn [bind lk_data]. unfold read_cabinet. rewrite Cb. reflexivity.
Qed.

(** *** Where the servers come from *)
Lemma config_located os h : locate (os_cwd os) (path_push (path_push h (lit ".dump_syms")) (lit "config")) = config_at os h.
Proof.
  rewrite locate_push, locate_push; [reflexivity| |];
    (unfold proper; split; [discriminate|]; split; [discriminate|]; split; [discriminate|]; intros I; vm_compute in I; intuition discriminate).
Qed.
Lemma servers_source os fs home arg :
  (forall s, arg = Some s -> get_sym_servers os fs home arg = Ok (match parse_sympath home s with [] => None | l => Some l end)) /\
  (arg = None -> home = None -> get_sym_servers os fs home arg = Ok None) /\
  (forall h, arg = None -> home = Some h ->
     (fs_get fs (config_at os h) = None -> get_sym_servers os fs home arg = Ok None) /\
     (forall s, Forall scalar s -> fs_get fs (config_at os h) = Some (NFile (encode s)) ->
        get_sym_servers os fs home arg = Ok (match parse_sympath home s with [] => None | l => Some l end))).
Proof.
  split; [|split].
  - intros s ->. reflexivity.
  - intros -> ->. reflexivity.
  - intros h -> ->. unfold get_sym_servers, read_config. rewrite config_located. split; [intros ->; reflexivity|]. intros s F ->. now rewrite decode_encode by exact F.
Qed.
Lemma servers_broken os fs home arg : (is_panic (get_sym_servers os fs home arg) = true <-> broken_config os fs home arg) /\
  (forall m, get_sym_servers os fs home arg <> Err m).
Proof.
  unfold get_sym_servers, read_config, broken_config. destruct arg as [a|]; [split; [split; [discriminate|intros [X _]; discriminate]|discriminate]|].
  destruct home as [h|]; [|split; [split; [discriminate|intros (_ & h & X & _); discriminate]|discriminate]]. rewrite config_located.
  destruct (fs_get fs (config_at os h)) as [[d|]|] eqn:G.
  - destruct (decode d) as [s|] eqn:D.
    + split; [|discriminate]. split; [discriminate|]. intros (_ & h' & [= <-] & [X|(d' & X & B)]); [congruence|]. apply decode_spec in D. destruct D as [F ->]. rewrite G in X. injection X as <-. elim (B s F eq_refl).
    + split; [|discriminate]. split; [|reflexivity]. intros _. split; [reflexivity|]. exists h. split; [reflexivity|]. right. exists d. split; [exact G|]. intros s F ->. rewrite decode_encode in D by exact F. discriminate.
  - split; [|discriminate]. split; [|reflexivity]. intros _. split; [reflexivity|]. exists h. auto.
  - split; [|discriminate]. split; [discriminate|]. intros (_ & h' & [= <-] & [X|(d' & X & _)]); congruence.
Qed.
