(** Proofs about the choice of objects and files. *)
From Verif Require Import Base Str Utf8 M_Path S_Path P_Path M_Source M_Symbol M_Collector M_Object M_Fs S_Fs P_Fs M_Cache M_Store S_Store P_Store M_Input S_Input.

(** *** Fat files *)
Lemma fm_app {A B} (f : A -> option B) l1 l2 : filter_map f (l1 ++ l2) = filter_map f l1 ++ filter_map f l2.
Proof. induction l1 as [|a l IH]; [reflexivity|]. cbn [app filter_map]. destruct (f a); cbn [app]; now rewrite IH. Qed.
Lemma find_none_app {A} (f : A -> bool) l1 l2 : (forall x, In x l1 -> f x = false) -> find f (l1 ++ l2) = find f l2.
Proof. induction l1 as [|a l IH]; intros H; [reflexivity|]. cbn [app find]. rewrite (H a (or_introl eq_refl)). apply IH. intros x I. apply H. now right. Qed.
Lemma in_fm_id {A} (l : list (option A)) x : In x (filter_map (fun o => o) l) <-> In (Some x) l.
Proof. induction l as [|[a|] l IH]; cbn [filter_map In]; [tauto| |]; rewrite IH; intuition (try congruence). Qed.
Lemma select_chosen objs arch p : chosen arch objs p -> select_object objs arch = Ok (Some p).
Proof.
  intros [a q|l1 l2 q H N]; [reflexivity|]. unfold select_object.
  assert (F : find (fun o => fst o =? arch) (filter_map (fun o => o) (l1 ++ Some (arch, q) :: l2)) = Some (arch, q)).
  { rewrite fm_app, find_none_app.
    - cbn [filter_map find fst]. now rewrite N.eqb_refl.
    - intros [a r] I. apply in_fm_id in I. cbn [fst]. apply N.eqb_neq. intros ->. now apply (N r). }
  rewrite F. destruct l1 as [|y l1]; cbn [app].
  - destruct l2 as [|z l2]; [now elim H|reflexivity].
  - destruct (l1 ++ Some (arch, q) :: l2) eqn:E; [destruct l1; discriminate|]. destruct y; reflexivity.
Qed.
Lemma first_split {A} (f : A -> bool) l x : find f l = Some x -> exists l1 l2, l = l1 ++ x :: l2 /\ forall y, In y l1 -> f y = false.
Proof.
  induction l as [|a l IH]; [discriminate|]. cbn [find]. destruct (f a) eqn:E.
  - intros [= ->]. exists [], l. split; [reflexivity|intros y []].
  - intros H. destruct (IH H) as (l1 & l2 & -> & K). exists (a :: l1), l2. split; [reflexivity|]. intros y [<-|I]; auto.
Qed.
Lemma select_ok objs arch p : select_object objs arch = Ok (Some p) -> chosen arch objs p.
Proof.
  assert (G : length objs <> 1%nat -> option_map snd (find (fun o => fst o =? arch) (filter_map (fun o => o) objs)) = Some p -> chosen arch objs p).
  { intros L H. assert (Q : exists l1 l2, objs = l1 ++ Some (arch, p) :: l2 /\ forall q, ~ In (Some (arch, q)) l1).
    { clear L. induction objs as [|[o|] objs IH]; cbn [filter_map] in H; [discriminate| |].
      - cbn [find] in H. destruct (fst o =? arch) eqn:E.
        + injection H as <-. apply N.eqb_eq in E. destruct o as [a q]. cbn [fst snd] in *. subst a. exists [], objs. split; [reflexivity|intros r []].
        + destruct (IH H) as (l1 & l2 & -> & K). exists (Some o :: l1), l2. split; [reflexivity|]. intros q [X|X]; [|now apply (K q)].
          injection X as ->. cbn [fst] in E. rewrite N.eqb_refl in E. discriminate.
      - destruct (IH H) as (l1 & l2 & -> & K). exists (None :: l1), l2. split; [reflexivity|]. intros q [X|X]; [discriminate|now apply (K q)]. }
    destruct Q as (l1 & l2 & -> & K). constructor; [|exact K]. rewrite app_length in *. cbn [length] in L. lia. }
  intros H. destruct objs as [|[[a q]|] [|o2 t]]; cbn [select_object] in H.
  - discriminate.
  - injection H as <-. constructor.
  - apply G; [discriminate|now injection H].
  - discriminate.
  - apply G; [discriminate|now injection H].
Qed.
Lemma select_total objs arch : objs <> [None] -> (exists p, chosen arch objs p) \/ select_object objs arch = Ok None.
Proof.
  intros N. destruct (select_object objs arch) as [[p|]|e|m] eqn:E.
  - left. exists p. now apply select_ok.
  - now right.
  - destruct objs as [|[[a q]|] [|o2 t]]; discriminate.
  - destruct objs as [|[[a q]|] [|o2 t]]; try discriminate. now elim N.
Qed.

(** *** Names *)
Lemma stem_split n stem : stem_of n stem -> fst (split_file_at_dot n) = stem.
Proof.
  unfold split_file_at_dot. intros [(e & -> & Hs & He)|(-> & H)].
  - rewrite rsplit_dot by exact He. destruct stem; [easy|reflexivity].
  - destruct (rsplit_once (lit ".") stem) as [[a b]|] eqn:R; [|reflexivity]. apply rsplit_dot_tail in R. destruct R as [R _].
    rewrite (H _ _ R). reflexivity.
Qed.
Lemma stem_proper n stem ext : proper n -> stem_of n stem -> ~ In 47 ext -> ext <> [] -> proper (stem ++ 46 :: ext).
Proof.
  intros (N0 & N1 & N2 & N3) H He Hx.
  assert (S : stem <> [] /\ ~ In 47 stem /\ stem <> []).
  { destruct H as [(e & -> & Hs & _)|(-> & _)]; splits; auto. intros I. apply N3. apply in_or_app. now left. }
  destruct S as (S & S' & _). unfold proper. splits.
  - destruct stem; discriminate.
  - destruct stem as [|c stem]; [easy|]. intros E. injection E as _ E. destruct stem; discriminate.
  - destruct stem as [|c stem]; [easy|]. intros E. injection E as _ E. destruct stem as [|d stem]; [|injection E as _ E; destruct stem; discriminate].
    injection E as E. contradiction.
  - intros I. apply in_app_or in I. destruct I as [I|[I|I]]; [auto|discriminate|auto].
Qed.
Lemma stem_of_ext stem ext : stem <> [] -> ~ In 46 ext -> stem_of (stem ++ 46 :: ext) stem.
Proof. intros H X. left. eauto. Qed.
Lemma stem_nonempty n stem : proper n -> stem_of n stem -> stem <> [].
Proof. intros (N & _) [(e & _ & H & _)|(<- & _)]; auto. Qed.
(** Changing the extension of a path whose last piece is [n]. *)
Lemma set_ext_push dir n stem ext : proper n -> stem_of n stem -> ~ In 47 ext -> ext <> [] ->
  path_set_extension (path_push dir n) ext = path_push dir (stem ++ 46 :: ext).
Proof.
  intros Hn Hs He Hx. rewrite set_extension_push by exact Hn.
  rewrite (push_pre dir (stem ++ 46 :: ext)) by (apply proper_nslash; eapply stem_proper; eauto). f_equal.
  unfold path_set_extension. assert (F : path_file_name n = Some n) by (unfold path_file_name; now rewrite components_single). rewrite F.
  rewrite (shortest_single n Hn), (stem_split _ _ Hs). replace (length n - length n + length stem)%nat with (length stem) by lia.
  assert (T : exists t, n = stem ++ t).
  { destruct Hs as [(e & -> & _)|(-> & _)]; [eauto|exists []; now rewrite app_nil_r]. }
  destruct T as (t & ->). rewrite firstn_app, Nat.sub_diag, firstn_O, firstn_all, app_nil_r. reflexivity.
Qed.

(** *** Reading *)
Lemma is_file_no os fs p : is_file os fs p = false <-> no_file fs (locate (os_cwd os) p).
Proof. unfold is_file, no_file. destruct (fs_get fs (locate (os_cwd os) p)) as [[d|]|]; split; intros H; try discriminate; try reflexivity; try (intros d'; discriminate). now elim (H d). Qed.
Lemma is_file_yes os fs p : is_file os fs p = true -> exists d, fs_get fs (locate (os_cwd os) p) = Some (NFile d).
Proof. unfold is_file. destruct (fs_get fs (locate (os_cwd os) p)) as [[d|]|]; try discriminate. eauto. Qed.
Lemma read_file_file os cab fs p raw : fs_get fs (locate (os_cwd os) p) = Some (NFile raw) ->
  read_file os cab fs p = (r <- read_cabinet cab raw p ;; match r with Some d => Ok d | None => Panic "Unable to read the cabinet file" end).
Proof. intros E. unfold read_file, path_exists, get_mac_bundle, is_dir. rewrite E. cbn [bind]. now rewrite E. Qed.
Lemma read_push os cab fs dir n d : proper n -> content cab fs (locate (os_cwd os) (path_push dir n)) n d -> read_file os cab fs (path_push dir n) = Ok d.
Proof. intros Hn (raw & E & R). rewrite (read_file_file _ _ _ _ _ E), read_cabinet_push by exact Hn. now rewrite (proj2 (cabinet_spec cab raw n d Hn) R). Qed.
Lemma cab_find_not_err files n e : cab_find files n <> Err e.
Proof. induction files as [|[m d] t IH]; [discriminate|]. cbn [cab_find]. destruct (path_file_name m); [|discriminate]. destruct (str_eqb _ _); [discriminate|exact IH]. Qed.
Lemma corrected_not_err p e : get_corrected_path p <> Err e.
Proof. unfold get_corrected_path. destruct (path_extension p); discriminate. Qed.
Lemma cabinet_not_err cab raw p e : read_cabinet cab raw p <> Err e.
Proof.
  unfold read_cabinet. destruct (cab raw) as [files|]; [|discriminate]. destruct (get_corrected_path p) as [q|e'|m] eqn:C; cbn [bind].
  - destruct (path_file_name q); [|discriminate]. destruct (cab_find files s) as [a|e'|m] eqn:F; cbn [bind]; [discriminate| |discriminate].
    now elim (cab_find_not_err files s e').
  - now elim (corrected_not_err p e').
  - discriminate.
Qed.
Lemma read_push_ok os cab fs dir n d : proper n -> is_file os fs (path_push dir n) = true -> read_file os cab fs (path_push dir n) = Ok d ->
  content cab fs (locate (os_cwd os) (path_push dir n)) n d.
Proof.
  intros Hn F R. apply is_file_yes in F. destruct F as (raw & E). exists raw. split; [exact E|]. apply (cabinet_spec cab raw n d Hn).
  rewrite (read_file_file _ _ _ _ _ E), read_cabinet_push in R by exact Hn. destruct (read_cabinet cab raw n) as [[a|]|e|m]; cbn [bind] in R; congruence.
Qed.
Lemma read_push_fails os cab fs dir n : proper n -> is_file os fs (path_push dir n) = true ->
  (forall d, ~ content cab fs (locate (os_cwd os) (path_push dir n)) n d) -> is_panic (read_file os cab fs (path_push dir n)) = true.
Proof.
  intros Hn F C. apply is_file_yes in F. destruct F as (raw & E). rewrite (read_file_file _ _ _ _ _ E), read_cabinet_push by exact Hn.
  destruct (read_cabinet cab raw n) as [[a|]|e|m] eqn:R; cbn [bind]; try reflexivity.
  - elim (C a). exists raw. split; [exact E|]. now apply (cabinet_spec cab raw n a Hn).
  - now elim (cabinet_not_err cab raw n e).
Qed.
Lemma read_unpacks os cab fs dir n raw : proper n -> fs_get fs (locate (os_cwd os) (path_push dir n)) = Some (NFile raw) ->
  (forall d, read_file os cab fs (path_push dir n) = Ok d <-> unpacked cab raw n d) /\
  ((forall d, ~ unpacked cab raw n d) -> is_panic (read_file os cab fs (path_push dir n)) = true).
Proof.
  intros Hn E. rewrite (read_file_file _ _ _ _ _ E), read_cabinet_push by exact Hn. split.
  - intros d. rewrite <- (cabinet_spec cab raw n d Hn). destruct (read_cabinet cab raw n) as [[a|]|e|m]; cbn [bind]; split; congruence.
  - intros C. destruct (read_cabinet cab raw n) as [[a|]|e|m] eqn:R; cbn [bind]; try reflexivity.
    + elim (C a). now apply (cabinet_spec cab raw n a Hn).
    + now elim (cabinet_not_err cab raw n e).
Qed.
Lemma content_unique cab fs l n d d' : content cab fs l n d -> content cab fs l n d' -> d = d'.
Proof. intros (r & A & B) (r' & A' & B'). rewrite A in A'. injection A' as <-. exact (unpacked_fun _ _ _ _ _ B B'). Qed.
Lemma content_file cab fs l n d : content cab fs l n d -> ~ no_file fs l.
Proof. intros (r & A & _) N. now apply (N r). Qed.

(** *** The PE of a PDB *)
Definition exts_ok (l : list (str * str)) : Prop :=
  Forall (fun p => ~ In 47 (fst p) /\ fst p <> [] /\ ~ In 46 (fst p) /\ ~ In 47 (snd p) /\ snd p <> [] /\ ~ In 46 (snd p) /\
    snd p = (if ends_with_char 95 (fst p) then fix_extension (fst p) else fst p)) l.
Lemma find_pe_step os cab ps fs id dir n stem ext rep t : proper n -> stem_of n stem -> exts_ok [(ext, rep)] ->
  find_pe_loop os cab ps fs id (path_push dir n) (ext :: t) =
  if is_file os fs (path_push dir (stem ++ 46 :: ext)) then
    buf <- read_file os cab fs (path_push dir (stem ++ 46 :: ext)) ;;
    match ps_pe ps buf with
    | Some pe => if pf_id pe =? id then Ok (Some (stem ++ 46 :: rep, buf)) else find_pe_loop os cab ps fs id (path_push dir (stem ++ 46 :: rep)) t
    | None => find_pe_loop os cab ps fs id (path_push dir (stem ++ 46 :: ext)) t
    end
  else find_pe_loop os cab ps fs id (path_push dir (stem ++ 46 :: ext)) t.
Proof.
  intros Hn Hs X. inversion X as [|? ? (X1 & X2 & X3 & X4 & X5 & X6 & X7) _]; subst. cbn [fst snd] in *. cbn [find_pe_loop].
  rewrite (set_ext_push dir n stem ext) by assumption.
  assert (Pe : proper (stem ++ 46 :: ext)) by (eapply (stem_proper n); eauto).
  assert (Se : stem_of (stem ++ 46 :: ext) stem) by (apply stem_of_ext; [exact (stem_nonempty n stem Hn Hs)|exact X3]).
  destruct (is_file os fs _); [|reflexivity]. destruct (read_file os cab fs _) as [buf|e|m]; cbn [bind]; [|reflexivity|reflexivity].
  destruct (ps_pe ps buf) as [pe|]; [|reflexivity].
  assert (E : (if ends_with_char 95 ext then path_set_extension (path_push dir (stem ++ 46 :: ext)) (fix_extension ext) else path_push dir (stem ++ 46 :: ext))
              = path_push dir (stem ++ 46 :: rep)).
  { rewrite X7. destruct (ends_with_char 95 ext) eqn:U; [|reflexivity]. apply set_ext_push; auto; now rewrite <- X7. }
  rewrite E. unfold get_filename. rewrite file_name_push by (eapply (stem_proper n); eauto). reflexivity.
Qed.
Lemma loc_push os dir n : proper n -> locate (os_cwd os) (path_push dir n) = n :: locate (os_cwd os) dir.
Proof. apply locate_push. Qed.
Lemma find_pe_skip os cab ps fs id dir : forall exts n stem rest, proper n -> stem_of n stem -> exts_ok exts ->
  Forall (fun p => no_pe cab ps fs (locate (os_cwd os) dir) (stem ++ 46 :: fst p) id) exts ->
  exists n', proper n' /\ stem_of n' stem /\
  find_pe_loop os cab ps fs id (path_push dir n) (map fst exts ++ rest) = find_pe_loop os cab ps fs id (path_push dir n') rest.
Proof.
  induction exts as [|[ext rep] exts IH]; intros n stem rest Hn Hs X F; [exists n; auto|].
  inversion X as [|? ? X1 X2]; subst. inversion F as [|? ? F1 F2]; subst. cbn [map app fst] in *.
  rewrite (find_pe_step os cab ps fs id dir n stem ext rep) by (auto; constructor; auto).
  pose proof X1 as (Y1 & Y2 & Y3 & Y4 & Y5 & Y6 & _). cbn [fst snd] in *.
  assert (Pe : proper (stem ++ 46 :: ext)) by (eapply (stem_proper n); eauto).
  assert (Se : stem_of (stem ++ 46 :: ext) stem) by (apply stem_of_ext; [exact (stem_nonempty n stem Hn Hs)|exact Y3]).
  assert (Pr : proper (stem ++ 46 :: rep)) by (eapply (stem_proper n); eauto).
  assert (Sr : stem_of (stem ++ 46 :: rep) stem) by (apply stem_of_ext; [exact (stem_nonempty n stem Hn Hs)|exact Y6]).
  destruct F1 as [N|(d & C & K)].
  - rewrite (proj2 (is_file_no os fs (path_push dir (stem ++ 46 :: ext)))) by (now rewrite loc_push). now apply IH.
  - assert (I : is_file os fs (path_push dir (stem ++ 46 :: ext)) = true).
    { destruct (is_file os fs _) eqn:I; [reflexivity|]. apply is_file_no in I. rewrite loc_push in I by exact Pe. now elim (content_file _ _ _ _ _ C). }
    rewrite I, (read_push os cab fs dir _ d) by (auto; now rewrite loc_push). cbn [bind].
    destruct (ps_pe ps d) as [pe|]; [|now apply IH]. rewrite (proj2 (N.eqb_neq _ _) (K pe eq_refl)). now apply IH.
Qed.
Lemma pe_exts_ok : exts_ok pe_exts.
Proof. unfold exts_ok, pe_exts. repeat constructor; cbn; intuition discriminate. Qed.
Lemma exts_ok_app a b : exts_ok (a ++ b) -> exts_ok a /\ exts_ok b.
Proof. unfold exts_ok. apply Forall_app. Qed.
(** A match is returned when all before it fail. *)
Lemma find_pe_found os cab ps fs dir n stem before ext rep after id d : proper n -> stem_of n stem -> pe_exts = before ++ (ext, rep) :: after ->
  Forall (fun p => no_pe cab ps fs (locate (os_cwd os) dir) (stem ++ 46 :: fst p) id) before ->
  is_pe cab ps fs (locate (os_cwd os) dir) (stem ++ 46 :: ext) id d ->
  find_pe_for_pdb os cab ps fs (path_push dir n) id = Ok (Some (stem ++ 46 :: rep, d)).
Proof.
  intros Hn Hs E F (C & pe & P & I). pose proof pe_exts_ok as X. rewrite E in X. apply exts_ok_app in X. destruct X as [X1 X2].
  unfold find_pe_for_pdb. change [lit "dll"; lit "dl_"; lit "exe"; lit "ex_"] with (map fst pe_exts). rewrite E, map_app. cbn [map fst].
  destruct (find_pe_skip os cab ps fs id dir before n stem (ext :: map fst after) Hn Hs X1 F) as (n' & Hn' & Hs' & ->).
  inversion X2 as [|? ? Y1 Y2]; subst. rewrite (find_pe_step os cab ps fs _ dir n' stem ext rep) by (auto; constructor; auto).
  destruct Y1 as (Z1 & Z2 & Z3 & _). cbn [fst] in *. assert (Pe : proper (stem ++ 46 :: ext)) by (eapply (stem_proper n); eauto).
  assert (G : is_file os fs (path_push dir (stem ++ 46 :: ext)) = true).
  { destruct (is_file os fs _) eqn:G; [reflexivity|]. apply is_file_no in G. rewrite loc_push in G by exact Pe. now elim (content_file _ _ _ _ _ C). }
  rewrite G, (read_push os cab fs dir _ d) by (auto; now rewrite loc_push). cbn [bind]. now rewrite P, N.eqb_refl.
Qed.
Lemma find_pe_none os cab ps fs dir n stem id : proper n -> stem_of n stem ->
  Forall (fun p => no_pe cab ps fs (locate (os_cwd os) dir) (stem ++ 46 :: fst p) id) pe_exts ->
  find_pe_for_pdb os cab ps fs (path_push dir n) id = Ok None.
Proof.
  intros Hn Hs F. unfold find_pe_for_pdb. change [lit "dll"; lit "dl_"; lit "exe"; lit "ex_"] with (map fst pe_exts).
  rewrite <- (app_nil_r (map fst pe_exts)). destruct (find_pe_skip os cab ps fs id dir pe_exts n stem [] Hn Hs pe_exts_ok F) as (n' & _ & _ & ->). reflexivity.
Qed.
Lemma exts_proper n stem : proper n -> stem_of n stem -> Forall (fun p : str * str => proper (stem ++ 46 :: fst p)) pe_exts.
Proof.
  intros Hn Hs. pose proof pe_exts_ok as X. unfold exts_ok in X. eapply Forall_impl; [|exact X]. intros p (Z1 & Z2 & Z3 & _). now apply (stem_proper n).
Qed.
(** Every outcome is one of: match, no match, a file that cannot be read. *)
Lemma scan_cases os cab ps fs dir stem id : forall exts, Forall (fun p : str * str => proper (stem ++ 46 :: fst p)) exts ->
  Forall (fun p : str * str => no_pe cab ps fs (locate (os_cwd os) dir) (stem ++ 46 :: fst p) id) exts \/
  (exists before ext rep after, exts = before ++ (ext, rep) :: after /\
    Forall (fun p => no_pe cab ps fs (locate (os_cwd os) dir) (stem ++ 46 :: fst p) id) before /\
    ((exists d, is_pe cab ps fs (locate (os_cwd os) dir) (stem ++ 46 :: ext) id d) \/
     (~ no_file fs ((stem ++ 46 :: ext) :: locate (os_cwd os) dir) /\ forall d, ~ content cab fs ((stem ++ 46 :: ext) :: locate (os_cwd os) dir) (stem ++ 46 :: ext) d))).
Proof.
  induction exts as [|[ext rep] exts IH]; intros HP; [left; constructor|]. apply Forall_cons_iff in HP as (Hx & HP). specialize (IH HP). cbn [fst] in Hx.
  set (l := (stem ++ 46 :: ext) :: locate (os_cwd os) dir).
  assert (D : no_file fs l \/ exists raw, fs_get fs l = Some (NFile raw)).
  { destruct (fs_get fs l) as [[raw|]|] eqn:E; [right; eauto|left; intros d; rewrite E; discriminate|left; intros d; rewrite E; discriminate]. }
  assert (K : no_pe cab ps fs (locate (os_cwd os) dir) (stem ++ 46 :: ext) id \/ (exists d, is_pe cab ps fs (locate (os_cwd os) dir) (stem ++ 46 :: ext) id d) \/
     (~ no_file fs l /\ forall d, ~ content cab fs l (stem ++ 46 :: ext) d)).
  { destruct D as [D|(raw & E)]; [left; left; exact D|].
    destruct (read_cabinet cab raw (stem ++ 46 :: ext)) as [[d|]|e|m] eqn:R.
    - assert (C : content cab fs l (stem ++ 46 :: ext) d) by (exists raw; split; [exact E|now apply (cabinet_spec cab raw _ d Hx)]).
      destruct (ps_pe ps d) as [pe|] eqn:P.
      + destruct (N.eq_dec (pf_id pe) id) as [I|I]; [right; left; exists d; split; eauto|].
        left. right. exists d. split; [exact C|]. intros pe' P'. congruence.
      + left. right. exists d. split; [exact C|]. intros pe' P'. congruence.
    - right. right. split; [intros N; now apply (N raw)|]. intros d (raw' & E' & R'). rewrite E in E'. injection E' as <-. apply (cabinet_spec cab raw _ d Hx) in R'. congruence.
    - now elim (cabinet_not_err cab raw (stem ++ 46 :: ext) e).
    - right. right. split; [intros N; now apply (N raw)|]. intros d (raw' & E' & R'). rewrite E in E'. injection E' as <-. apply (cabinet_spec cab raw _ d Hx) in R'. congruence. }
  destruct K as [K|K].
  - destruct IH as [IH|(b & x & r & a & -> & F & Q)]; [left; constructor; auto|].
    right. exists ((ext, rep) :: b), x, r, a. split; [reflexivity|]. split; [constructor; auto|exact Q].
  - right. exists [], ext, rep, exts. split; [reflexivity|]. split; [constructor|exact K].
Qed.
Lemma find_pe_unreadable os cab ps fs dir n stem before ext rep after id : proper n -> stem_of n stem -> pe_exts = before ++ (ext, rep) :: after ->
  Forall (fun p => no_pe cab ps fs (locate (os_cwd os) dir) (stem ++ 46 :: fst p) id) before ->
  ~ no_file fs ((stem ++ 46 :: ext) :: locate (os_cwd os) dir) ->
  (forall d, ~ content cab fs ((stem ++ 46 :: ext) :: locate (os_cwd os) dir) (stem ++ 46 :: ext) d) ->
  is_panic (find_pe_for_pdb os cab ps fs (path_push dir n) id) = true.
Proof.
  intros Hn Hs E F N C. pose proof pe_exts_ok as X. rewrite E in X. apply exts_ok_app in X. destruct X as [X1 X2].
  unfold find_pe_for_pdb. change [lit "dll"; lit "dl_"; lit "exe"; lit "ex_"] with (map fst pe_exts). rewrite E, map_app. cbn [map fst].
  destruct (find_pe_skip os cab ps fs id dir before n stem (ext :: map fst after) Hn Hs X1 F) as (n' & Hn' & Hs' & ->).
  inversion X2 as [|? ? Y1 Y2]; subst. rewrite (find_pe_step os cab ps fs id dir n' stem ext rep) by (auto; constructor; auto).
  destruct Y1 as (Z1 & Z2 & Z3 & _). cbn [fst] in *. assert (Pe : proper (stem ++ 46 :: ext)) by (eapply (stem_proper n); eauto).
  assert (G : is_file os fs (path_push dir (stem ++ 46 :: ext)) = true).
  { destruct (is_file os fs _) eqn:G; [reflexivity|]. apply is_file_no in G. rewrite loc_push in G by exact Pe. contradiction. }
  rewrite G. pose proof (read_push_fails os cab fs dir _ Pe G) as R. rewrite loc_push in R by exact Pe. specialize (R C).
  destruct (read_file os cab fs _); try discriminate. reflexivity.
Qed.
(** What is returned is a match, the first one. *)
Lemma find_pe_sound os cab ps fs dir n stem id name d : proper n -> stem_of n stem ->
  find_pe_for_pdb os cab ps fs (path_push dir n) id = Ok (Some (name, d)) ->
  exists before ext rep after, pe_exts = before ++ (ext, rep) :: after /\ name = stem ++ 46 :: rep /\
    is_pe cab ps fs (locate (os_cwd os) dir) (stem ++ 46 :: ext) id d /\
    Forall (fun p => no_pe cab ps fs (locate (os_cwd os) dir) (stem ++ 46 :: fst p) id) before.
Proof.
  intros Hn Hs R. destruct (scan_cases os cab ps fs dir stem id pe_exts (exts_proper n stem Hn Hs)) as [F|(b & x & r & a & E & F & [(d' & Q)|(Q & Q')])].
  - rewrite (find_pe_none os cab ps fs dir n stem id Hn Hs F) in R. discriminate.
  - rewrite (find_pe_found os cab ps fs dir n stem b x r a id d' Hn Hs E F Q) in R. injection R as <- <-. exists b, x, r, a. auto.
  - pose proof (find_pe_unreadable os cab ps fs dir n stem b x r a id Hn Hs E F Q Q') as P. rewrite R in P. discriminate.
Qed.

(** *** The PDB of a PE *)
Lemma read_first_skip os cab fs a b : Forall (fun p => no_file fs (locate (os_cwd os) p)) a -> read_first os cab fs (a ++ b) = read_first os cab fs b.
Proof. induction 1 as [|p a N _ IH]; [reflexivity|]. cbn [app read_first]. now rewrite (proj2 (is_file_no os fs p) N). Qed.
(** Paths [path_push (fst p) (snd p)]. *)
Definition pushed (p : str * str) : str := path_push (fst p) (snd p).
Definition place (os : Os) (p : str * str) : Loc * str := (snd p :: locate (os_cwd os) (fst p), snd p).
Lemma read_first_none os cab fs ps : Forall (fun p => proper (snd p)) ps -> Forall (fun p => no_file fs (fst p)) (map (place os) ps) ->
  read_first os cab fs (map pushed ps) = Ok None.
Proof.
  intros P F. rewrite <- (app_nil_r (map pushed ps)). rewrite read_first_skip; [reflexivity|].
  induction P as [|[q n] ps Hn P IH]; [constructor|]. cbn [map] in *. inversion F; subst. constructor; [|now apply IH].
  unfold pushed. cbn [fst snd] in *. now rewrite locate_push.
Qed.
Lemma split_map {A B} (f : A -> B) l b x a : map f l = b ++ x :: a -> exists l1 y l2, l = l1 ++ y :: l2 /\ map f l1 = b /\ f y = x /\ map f l2 = a.
Proof.
  revert b. induction l as [|h l IH]; intros [|c b] E; cbn [map app] in E; try discriminate.
  - injection E as E1 E2. exists [], h, l. auto.
  - injection E as E1 E2. destruct (IH b E2) as (l1 & y & l2 & -> & <- & <- & <-). exists (h :: l1), y, l2. cbn. now rewrite E1.
Qed.
Lemma read_first_at os cab fs ps l name : Forall (fun p => proper (snd p)) ps -> first_file fs (map (place os) ps) l name ->
  exists q, proper name /\ l = locate (os_cwd os) (path_push q name) /\ is_file os fs (path_push q name) = true /\
  read_first os cab fs (map pushed ps) = (d <- read_file os cab fs (path_push q name) ;; Ok (Some d)).
Proof.
  intros P (b & a & E & F & N). apply split_map in E. destruct E as (l1 & [q n] & l2 & -> & <- & E & _).
  unfold place in E. cbn [fst snd] in E. injection E as El En. subst n. apply Forall_app in P. destruct P as [P1 P2]. inversion P2 as [|? ? Hn P3]; subst. cbn [snd] in Hn.
  assert (L : locate (os_cwd os) (path_push q name) = name :: locate (os_cwd os) q) by (now apply locate_push).
  exists q. split; [exact Hn|]. split; [now rewrite L|].
  assert (I : is_file os fs (path_push q name) = true).
  { destruct (is_file os fs _) eqn:I; [reflexivity|]. apply is_file_no in I. rewrite L in I. contradiction. }
  split; [exact I|]. rewrite map_app. rewrite read_first_skip.
  - cbn [map read_first]. unfold pushed. cbn [fst snd]. now rewrite I.
  - clear -P1 F. induction P1 as [|[q n] ps Hn P IH]; [constructor|]. cbn [map] in *. inversion F; subst. constructor; [|now apply IH].
    unfold pushed. cbn [fst snd] in *. now rewrite locate_push.
Qed.
Lemma set_file_name_push dir pe n : proper pe -> proper n -> exists q, path_set_file_name (path_push dir pe) n = path_push q n /\ forall cwd, locate cwd q = locate cwd dir.
Proof.
  intros Hp Hn. unfold path_set_file_name. rewrite file_name_push by exact Hp. unfold path_pop.
  destruct (parent_push dir pe Hp) as (q & -> & C). exists q. split; [reflexivity|]. intros cwd. unfold locate. now rewrite C.
Qed.
Lemma fold_normals names l : fold_left comp_step (map Normal names) l = rev names ++ l.
Proof. revert l. induction names as [|n t IH]; intros l; [reflexivity|]. cbn [map fold_left comp_step rev]. rewrite IH, <- app_assoc. reflexivity. Qed.
Lemma set_file_name_cwd os n : Forall proper (os_cwd os) -> exists q, path_set_file_name (cwd_path os) n = path_push q n /\ locate (os_cwd os) q = tl (os_cwd os).
Proof.
  intros F. assert (E : cwd_path os = sp_render true (rev (os_cwd os))) by reflexivity. rewrite E. clear E.
  destruct (os_cwd os) as [|a up]; unfold path_set_file_name, path_file_name.
  - exists (lit "/"). split; reflexivity.
  - cbn [rev]. assert (G : Forall proper (rev up ++ [a])) by (change (Forall proper (rev (a :: up))); now apply Forall_rev).
    rewrite (components_render true _ G), map_app. cbn [map]. rewrite app_assoc, last_opt_app. rewrite (pop_render true _ _ G). eexists. split; [reflexivity|].
    unfold locate. rewrite components_render by (apply Forall_app in G; tauto). cbn [app fold_left comp_step]. rewrite fold_normals, rev_involutive. apply app_nil_r.
Qed.
Lemma last_name_push s n : last_name s n -> exists d, s = path_push d n.
Proof.
  intros (Hn & [->|(d & ->)]).
  - exists []. unfold path_push. destruct (starts_with [c_slash] n); reflexivity.
  - exists (d ++ [47]). unfold path_push. assert (S : starts_with [c_slash] n = false).
    { destruct (starts_with [c_slash] n) eqn:S; [|reflexivity]. apply starts_slash in S. destruct S as (t & ->). destruct Hn as (_ & _ & _ & Hn). elim Hn. now left. }
    rewrite S. assert (E : ends_with_char c_slash (d ++ [47]) = true) by (apply ends_with_char_spec; eauto).
    destruct (d ++ [47]) as [|c u] eqn:D; [destruct d; discriminate|]. rewrite E. rewrite <- D, <- app_assoc. reflexivity.
Qed.
Lemma slashed_unix s t : slashed_path s t <-> t = unix_path s.
Proof.
  unfold slashed_path, unix_path. split.
  - induction 1 as [|c d s t H _ IH]; [reflexivity|]. cbn [map]. rewrite IH. f_equal. unfold c_bslash, c_slash. destruct H as [(-> & ->)|(H & ->)]; [reflexivity|].
    now rewrite (proj2 (N.eqb_neq _ _) H).
  - intros ->. induction s as [|c s IH]; [constructor|]. cbn [map]. constructor; [|exact IH]. unfold c_bslash, c_slash. destruct (N.eqb_spec c 92); auto.
Qed.
Lemma nameless_none s : nameless s -> path_file_name s = None.
Proof.
  unfold nameless, sp_pieces, path_file_name, components. intros H. change (split_on is_slash s) with (split_on (fun c => c =? 47) s).
  assert (G : forall b ps, (forall p, In p ps -> p = [] \/ p = lit "." \/ p = lit "..") -> forall x, ~ In (Normal x) (flat_map (piece_comp b) ps)).
  { intros b ps Q x I. apply in_flat_map in I. destruct I as (p & Ip & I). destruct (Q p Ip) as [ -> | [ -> | -> ] ]; destruct b; cbn in I; intuition discriminate. }
  destruct (split_on (fun c => c =? 47) s) as [|p0 ps] eqn:E; [reflexivity|].
  match goal with |- match last_opt ?l with _ => _ end = _ => assert (K : forall x, ~ In (Normal x) l) end.
  { intros x I. apply in_app_or in I. destruct I as [I|I].
    - destruct (starts_with [c_slash] s); [destruct I as [I|[]]; discriminate|].
      apply (G true [p0]) with (x := x); [intros p [<-|[]]; apply H; now left|]. cbn [flat_map]. now rewrite app_nil_r.
    - apply (G false ps) with (x := x); [intros p Ip; apply H; now right|exact I]. }
  destruct (last_opt _) as [c|] eqn:L; [|reflexivity]. apply last_opt_some in L. destruct L as (l' & L). destruct c; try reflexivity.
  exfalso. apply (K s0). rewrite L. apply in_or_app. right. now left.
Qed.
Lemma pdb_search os cab fs dir pe_name recorded r n stem : proper pe_name -> Forall proper (os_cwd os) -> slashed_path recorded r -> last_name r n -> stem_of n stem ->
  exists ps, map (place os) ps = pdb_places (os_cwd os) (locate (os_cwd os) dir) r n (stem ++ lit ".pd_") /\ Forall (fun p => proper (snd p)) ps /\
  os_specific_try_to_find_pdb os cab fs (path_push dir pe_name) recorded = (d <- read_first os cab fs (map pushed ps) ;; Ok (d, n)).
Proof.
  intros Hp Hc S L St. apply slashed_unix in S. subst r. pose proof L as (Hn & _). destruct (last_name_push _ _ L) as (d & E).
  destruct (set_file_name_push dir pe_name n Hp Hn) as (q & Eq & Lq). destruct (set_file_name_cwd os n Hc) as (c & Ec & Lc).
  assert (Hx : proper (stem ++ lit ".pd_")) by (apply (stem_proper n stem (lit "pd_") Hn St); [cbn; intuition discriminate|discriminate]).
  exists [(d, n); (q, n); (q, stem ++ lit ".pd_"); (c, n)]. split.
  - cbn [map]. unfold place, pdb_places. cbn [fst snd]. rewrite !Lq, Lc, E, locate_push by exact Hn. reflexivity.
  - split; [repeat constructor; cbn [snd]; auto; apply Hn || apply Hx|].
    unfold os_specific_try_to_find_pdb. rewrite E, file_name_push by exact Hn. unfold try_to_find_pdb. rewrite Eq, Ec.
    rewrite (set_ext_push q n stem (lit "pd_")) by (auto; try discriminate; cbn; intuition discriminate).
    unfold pushed. cbn [map read_first fst snd]. destruct (is_file os fs (path_push d n)); [|reflexivity].
    destruct (read_file os cab fs (path_push d n)); reflexivity.
Qed.
Lemma pe_pdb_local x fs dir pe_name buf servers pe recorded r n stem l name d : proper pe_name -> Forall proper (os_cwd (ex_os x)) ->
  ps_pe (ex_ps x) buf = Some pe -> pf_pdb pe = Some recorded -> slashed_path recorded r -> last_name r n -> stem_of n stem ->
  first_file fs (pdb_places (os_cwd (ex_os x)) (locate (os_cwd (ex_os x)) dir) r n (stem ++ lit ".pd_")) l name ->
  content (ex_cab x) fs l name d ->
  get_pe_pdb_buf x fs (path_push dir pe_name) buf servers = Ok (Some (pe, d, n), fs).
Proof.
  intros Hp Hc P R S L St F C. destruct (pdb_search (ex_os x) (ex_cab x) fs dir pe_name recorded r n stem Hp Hc S L St) as (ps & E & Pr & O).
  rewrite <- E in F. destruct (read_first_at _ (ex_cab x) _ _ _ _ Pr F) as (q & Hn & -> & I & Q).
  unfold get_pe_pdb_buf. rewrite P, R, O, Q, (read_push _ _ _ q name d Hn C). cbn [bind].
  destruct n as [|c n]; [destruct L as [[N _] _]; now elim N|reflexivity].
Qed.
Lemma pe_pdb_unreadable x fs dir pe_name buf servers pe recorded r n stem l name : proper pe_name -> Forall proper (os_cwd (ex_os x)) ->
  ps_pe (ex_ps x) buf = Some pe -> pf_pdb pe = Some recorded -> slashed_path recorded r -> last_name r n -> stem_of n stem ->
  first_file fs (pdb_places (os_cwd (ex_os x)) (locate (os_cwd (ex_os x)) dir) r n (stem ++ lit ".pd_")) l name ->
  (forall d, ~ content (ex_cab x) fs l name d) ->
  is_panic (get_pe_pdb_buf x fs (path_push dir pe_name) buf servers) = true.
Proof.
  intros Hp Hc P R S L St F C. destruct (pdb_search (ex_os x) (ex_cab x) fs dir pe_name recorded r n stem Hp Hc S L St) as (ps & E & Pr & O).
  rewrite <- E in F. destruct (read_first_at _ (ex_cab x) _ _ _ _ Pr F) as (q & Hn & -> & I & Q).
  unfold get_pe_pdb_buf. rewrite P, R, O, Q. pose proof (read_push_fails _ _ _ _ _ Hn I C) as K.
  destruct (read_file _ _ _ (path_push q name)); try discriminate. reflexivity.
Qed.
Lemma pe_pdb_servers x fs dir pe_name buf servers pe recorded r n stem : proper pe_name -> Forall proper (os_cwd (ex_os x)) ->
  ps_pe (ex_ps x) buf = Some pe -> pf_pdb pe = Some recorded -> slashed_path recorded r -> last_name r n -> stem_of n stem ->
  Forall (fun p => no_file fs (fst p)) (pdb_places (os_cwd (ex_os x)) (locate (os_cwd (ex_os x)) dir) r n (stem ++ lit ".pd_")) ->
  get_pe_pdb_buf x fs (path_push dir pe_name) buf servers =
  match search_file (ex_env x) (ex_net x) (ex_sched x) fs n (pa_debug_id (pf_obj pe)) servers with
  | Ok l => Ok (match lk_data l with Some d => Some (pe, d, n) | None => None end, lk_fs l)
  | Err m => Err m
  | Panic m => Panic m
  end.
Proof.
  intros Hp Hc P R S L St F. destruct (pdb_search (ex_os x) (ex_cab x) fs dir pe_name recorded r n stem Hp Hc S L St) as (ps & E & Pr & O).
  rewrite <- E in F. unfold get_pe_pdb_buf. rewrite P, R, O, (read_first_none _ _ _ _ Pr F). cbn [bind].
  destruct n as [|c n]; [destruct L as [[N _] _]; now elim N|].
  destruct (search_file _ _ _ _ _ _ _) as [l|m|m]; cbn [bind]; [now destruct (lk_data l)|reflexivity|reflexivity].
Qed.
Lemma pe_pdb_nameless x fs path buf servers pe recorded r : ps_pe (ex_ps x) buf = Some pe -> pf_pdb pe = Some recorded -> slashed_path recorded r -> nameless r ->
  get_pe_pdb_buf x fs path buf servers = Ok (None, fs).
Proof.
  intros P R S N. apply slashed_unix in S. subst r. unfold get_pe_pdb_buf, os_specific_try_to_find_pdb. rewrite P, R, (nameless_none _ N). reflexivity.
Qed.

(** *** Names of PE files without PDB *)
Lemma after_backslash_spec s : after_backslash s (win_path_file_name s).
Proof.
  assert (R : forall s a b, rsplit_once [92] s = Some (a, b) -> s = a ++ 92 :: b /\ ~ In 92 b).
  { clear. induction s as [|c s IH]; intros a b H; [discriminate|]. cbn [rsplit_once] in H. destruct (rsplit_once [92] s) as [[a' b']|] eqn:E.
    - injection H as <- <-. destruct (IH _ _ eq_refl) as [-> K]. auto.
    - cbn [strip_prefix] in H. destruct (92 =? c) eqn:C; [|discriminate]. apply N.eqb_eq in C. subst c. injection H as <- <-. split; [reflexivity|].
      clear IH. revert E. induction s as [|d s IH]; intros E; [intros []|]. cbn [rsplit_once] in E. destruct (rsplit_once [92] s) as [[a' b']|] eqn:E'; [discriminate|].
      cbn [strip_prefix] in E. destruct (92 =? d) eqn:D; [discriminate|]. apply N.eqb_neq in D. intros [X|X]; [congruence|]. now apply IH. }
  unfold win_path_file_name, c_bslash. destruct (rsplit_once [92] s) as [[a b]|] eqn:E.
  - apply R in E. destruct E as [-> K]. split; eauto.
  - split; [|auto]. clear R. revert E. induction s as [|d s IH]; intros E; [intros []|]. cbn [rsplit_once] in E. destruct (rsplit_once [92] s) as [[a' b']|] eqn:E'; [discriminate|].
    cbn [strip_prefix] in E. destruct (92 =? d) eqn:D; [discriminate|]. apply N.eqb_neq in D. intros [X|X]; [congruence|]. now apply IH.
Qed.
Lemma after_backslash_unique s t t' : after_backslash s t -> after_backslash s t' -> t = t'.
Proof.
  intros (N & [->|(u & ->)]) (N' & [E|(u' & E)]).
  - exact E.
  - elim N. rewrite E. apply in_or_app. right. now left.
  - elim N'. rewrite <- E. apply in_or_app. right. now left.
  - exact (proj2 (sep_split_unique 92 _ _ _ _ N N' E)).
Qed.

(** *** Bundles *)
Lemma afind_in {B} (l : Loc) (fs : list (Loc * B)) : afind loc_eqb l fs <> None <-> exists n, In (l, n) fs.
Proof.
  induction fs as [|[k v] fs IH]; cbn [afind].
  - split; [easy|]. intros (n & []).
  - destruct (loc_eqb l k) eqn:E.
    + apply loc_eqb_eq in E. subst k. split; [intros _; exists v; now left|discriminate].
    + rewrite IH. split; intros (n & H); exists n; [now right|]. destruct H as [H|H]; [|exact H]. injection H as -> _.
      exfalso. rewrite (proj2 (loc_eqb_eq l l) eq_refl) in E. discriminate.
Qed.
Lemma children_spec fs dir n : In n (fs_children fs dir) <-> fs_get fs (n :: dir) <> None.
Proof.
  unfold fs_children. rewrite nodup_In, in_flat_map. cbn [fs_get]. rewrite afind_in. split.
  - intros ([l nd] & I & H). cbn [fst] in H. destruct l as [|m up]; [destruct H|]. destruct (loc_eqb up dir) eqn:E; [|destruct H].
    apply loc_eqb_eq in E. subst up. destruct H as [->|[]]. eauto.
  - intros (nd & I). exists ((n :: dir), nd). split; [exact I|]. cbn [fst]. rewrite (proj2 (loc_eqb_eq dir dir) eq_refl). now left.
Qed.
Lemma children_nodup fs dir : NoDup (fs_children fs dir).
Proof. apply NoDup_nodup. Qed.
Lemma only_child fs dir n : only_entry fs dir n -> fs_children fs dir = [n].
Proof.
  intros H. pose proof (children_nodup fs dir) as D. assert (K : forall m, In m (fs_children fs dir) <-> m = n) by (intros m; rewrite children_spec; apply H).
  destruct (fs_children fs dir) as [|a [|b l]].
  - elim (proj2 (K n) eq_refl).
  - f_equal. apply K. now left.
  - exfalso. pose proof (proj1 (K a) (or_introl eq_refl)). pose proof (proj1 (K b) (or_intror (or_introl eq_refl))). subst. inversion D as [|? ? H1 _]. apply H1. now left.
Qed.
Lemma dwarf_locate cwd p : locate cwd (path_push p (lit "Contents/Resources/DWARF")) = dwarf_dir (locate cwd p).
Proof.
  assert (E : path_push p (lit "Contents/Resources/DWARF") = path_push (path_push (path_push p (lit "Contents")) (lit "Resources")) (lit "DWARF")).
  { change (lit "Contents/Resources/DWARF") with (path_push (path_push (lit "Contents") (lit "Resources")) (lit "DWARF")).
    rewrite push_push by (reflexivity || (vm_compute; discriminate)). rewrite push_push by (reflexivity || (vm_compute; discriminate)). reflexivity. }
  rewrite E. assert (P : forall s, forallb (fun c => negb (c =? 47) && negb (c =? 46)) s = true -> s <> [] -> proper s).
  { intros s F N. rewrite forallb_forall in F. unfold proper. splits; [exact N| | |]; [intros ->|intros ->|intros I]; [specialize (F 46 (or_introl eq_refl))|specialize (F 46 (or_introl eq_refl))|specialize (F 47 I)]; discriminate. }
  rewrite !locate_push by (apply P; [reflexivity|discriminate]). reflexivity.
Qed.
Lemma bundle_read os cab fs p n d : proper n -> fs_get fs (locate (os_cwd os) p) = Some NDir -> fs_get fs (dwarf_dir (locate (os_cwd os) p)) = Some NDir ->
  only_entry fs (dwarf_dir (locate (os_cwd os) p)) n -> content cab fs (n :: dwarf_dir (locate (os_cwd os) p)) n d ->
  read_file os cab fs p = Ok d.
Proof.
  intros Hn D1 D2 O (raw & E & R). unfold read_file, path_exists, get_mac_bundle, is_dir. rewrite D1, dwarf_locate, D2, (only_child _ _ _ O). cbn [bind].
  rewrite locate_push, dwarf_locate, E by exact Hn. rewrite read_cabinet_push by exact Hn. now rewrite (proj2 (cabinet_spec cab raw n d Hn) R).
Qed.
Lemma directory_panics os cab fs p : fs_get fs (locate (os_cwd os) p) = Some NDir ->
  (fs_get fs (dwarf_dir (locate (os_cwd os) p)) = Some NDir -> forall n, ~ only_entry fs (dwarf_dir (locate (os_cwd os) p)) n) ->
  is_panic (read_file os cab fs p) = true.
Proof.
  intros D1 O. unfold read_file, path_exists, get_mac_bundle, is_dir. rewrite D1, dwarf_locate.
  destruct (fs_get fs (dwarf_dir (locate (os_cwd os) p))) as [[d|]|]; try reflexivity. specialize (O eq_refl).
  destruct (fs_children fs (dwarf_dir (locate (os_cwd os) p))) as [|n [|m l]] eqn:C; try reflexivity.
  elim (O n). intros m. rewrite <- children_spec, C. cbn [In]. intuition.
Qed.

(** *** Listing architectures *)
Lemma join_listed l : listed l (join_str (lit ", ") l).
Proof. induction l as [|a [|b l] IH]; [constructor|constructor|]. cbn [join_str]. constructor. exact IH. Qed.
Lemma listed_unique l t t' : listed l t -> listed l t' -> t = t'.
Proof. intros H. revert t'. induction H as [|a|a b l t H IH]; intros t' H'; inversion H'; subst; try reflexivity. f_equal. f_equal. now apply IH. Qed.
Lemma print_readable ps name buf fname objs list : ps_archive ps buf = Some (map Some objs) -> listed (map (fun o => name (fst o)) objs) list ->
  print_macho_architectures ps name buf fname =
  Ok (fname ++ lit " contains the following architecture" ++ (if lenN objs =? 1 then [] else lit "s") ++ lit ":" ++ [10] ++ list ++ [10]).
Proof.
  intros A L. unfold print_macho_architectures. rewrite A.
  assert (M : mapM (fun o : option (N * Parsed) => match o with Some o => Ok (name (fst o)) | None => Panic "called `Result::unwrap()` on an `Err` value" end) (map Some objs)
              = Ok (map (fun o => name (fst o)) objs)).
  { clear. induction objs as [|o t IH]; [reflexivity|]. cbn [map mapM]. rewrite IH. reflexivity. }
  rewrite M. cbn [bind]. unfold lenN. rewrite map_length. rewrite (listed_unique _ _ _ L (join_listed _)). reflexivity.
Qed.
Lemma print_unreadable ps name buf fname objs : ps_archive ps buf = Some objs -> In None objs ->
  is_panic (print_macho_architectures ps name buf fname) = true.
Proof.
  intros A I. unfold print_macho_architectures. rewrite A.
  assert (M : exists m, mapM (fun o : option (N * Parsed) => match o with Some o => Ok (name (fst o)) | None => Panic "called `Result::unwrap()` on an `Err` value" end) objs = Panic m).
  { clear A. induction objs as [|o t IH]; [destruct I|]. cbn [mapM]. destruct o as [o|]; [|eexists; reflexivity].
    destruct I as [I|I]; [discriminate|]. destruct (IH I) as (m & ->). eexists. reflexivity. }
  destruct M as (m & ->). reflexivity.
Qed.

(** *** One file *)
Lemma write_text os extra f o w w' : write_sym os extra f o w = (w', Ok tt) -> exists text, fmt_object extra o = Ok text.
Proof.
  unfold write_sym. destruct (fmt_object extra o) as [text|m|m]; [eauto| |]; destruct f as [p| |]; try discriminate;
    destruct (file_create os (w_fs w) p); discriminate.
Qed.
Lemma store_text os extra out ck o w w' : out <> OStore [] -> store os extra out ck o w = (w', Ok tt) -> exists text, fmt_object extra o = Ok text.
Proof.
  intros N. unfold store. destruct (ck && _); [discriminate|]. unfold andThen.
  assert (W : forall p w w', write_store os extra p o w = (w', Ok tt) -> exists text, fmt_object extra o = Ok text).
  { intros p v v'. unfold write_store. destruct (path_parent p) as [d|]; [|discriminate]. destruct (create_dir_all os (w_fs v) d); [|discriminate]. apply write_text. }
  destruct out as [f|dir|f dir]; cbn [output_store output_file].
  - cbn [fst snd]. apply write_text.
  - unfold sym_store_path. destruct dir as [|c dir]; [now elim N|]. destruct (write_store os extra _ o w) as [w1 [[]|m|m]] eqn:E; cbn [fst snd]; try discriminate. intros _. eapply W. exact E.
  - destruct (match sym_store_path dir o with Some p => write_store os extra p o w | None => (w, Ok tt) end) as [w1 [[]|m|m]]; cbn [fst snd]; try discriminate. apply write_text.
Qed.
Lemma single_ok x e extra cf w f w' : (forall fs o, load_file x e cf (w_fs w) f = (fs, Ok o) -> proper (ob_name o) /\ proper (ob_debug_id o)) -> healthy (ex_os x) ->
  cf_output cf <> OStore [] -> single_file x e extra cf w f = (w', Ok tt) ->
  exists fs o text, load_file x e cf (w_fs w) f = (fs, Ok o) /\ fmt_object extra o = Ok text /\ delivered (ex_os x) text (cf_output cf) o (set_fs w fs) w' /\
    (cf_check_cfi cf = true -> ob_stack o <> []).
Proof.
  intros P H N. unfold single_file. destruct (load_file x e cf (w_fs w) f) as [fs [o|m|m]] eqn:L; [|discriminate|discriminate]. intros S.
  destruct (P fs o eq_refl) as [Hn Hi]. destruct (store_text _ _ _ _ _ _ _ N S) as (text & T). exists fs, o, text. splits; auto.
  - eapply (store_complete (ex_os x) extra (cf_output cf)); eauto.
  - intros C E. unfold store in S. rewrite C, E in S. discriminate.
Qed.
Lemma single_fails x e extra cf w f fs r : load_file x e cf (w_fs w) f = (fs, r) -> (forall o, r <> Ok o) ->
  exists r', single_file x e extra cf w f = (mkWorld fs (w_out w) (w_err w), r') /\ r' <> Ok tt.
Proof.
  intros L N. unfold single_file. rewrite L. destruct r as [o|m|m]; [now elim (N o)| |]; eexists; (split; [reflexivity|discriminate]).
Qed.
(** Without an id, only a PE makes the program look at servers. *)
Lemma get_object_fs x e fs buf path name arch sv fs' r : ps_peek (ex_ps x) buf <> FmtPe -> get_object_info x e fs buf path name arch sv = (fs', r) -> fs' = fs.
Proof. unfold get_object_info. destruct (ps_peek (ex_ps x) buf); intros N H; try (now injection H as <- _). now elim N. Qed.
Lemma search_no_server e n sched fs name id : search_file e n sched fs name id None = Ok (mkLookup None fs []).
Proof. unfold search_file. destruct name; reflexivity. Qed.
Lemma pe_pdb_no_server x fs path buf r : get_pe_pdb_buf x fs path buf None = Ok r -> snd r = fs.
Proof.
  unfold get_pe_pdb_buf. destruct (ps_pe (ex_ps x) buf) as [pe|]; [|discriminate]. destruct (pf_pdb pe) as [s|]; [|intros [= <-]; reflexivity].
  destruct (os_specific_try_to_find_pdb _ _ _ _ _) as [[pdb name]|m|m]; cbn [bind]; try discriminate.
  destruct name as [|c name]; [intros [= <-]; reflexivity|]. destruct pdb as [d|]; [intros [= <-]; reflexivity|].
  rewrite search_no_server. cbn [bind]. intros [= <-]. reflexivity.
Qed.
Lemma load_offline x e cf fs f fs' r : (forall l, get_sym_servers (ex_os x) fs (ex_home x) (cf_symbol_server cf) <> Ok (Some l)) ->
  load_file x e cf fs f = (fs', r) -> fs' = fs.
Proof.
  intros S. unfold load_file, next. destruct (get_filename f) as [name|m|m]; [|congruence|congruence].
  assert (G : forall buf m arch, get_object_info x (set_map e m (cf_inlines cf)) fs buf f name arch (cf_symbol_server cf) = (fs', r) -> fs' = fs).
  { intros buf m arch. unfold get_object_info. destruct (ps_peek (ex_ps x) buf); try congruence.
    unfold get_pe_pdb_object_info. destruct (get_sym_servers _ _ _ _) as [[l|]|ms|ms]; cbn [bind]; [now elim (S l)| |congruence|congruence].
    destruct (get_pe_pdb_buf x fs f buf None) as [[p q]|m'|m'] eqn:E.
    - apply pe_pdb_no_server in E. cbn [snd] in E. subst q. destruct p as [[[pe pdb] n]|]; [|congruence].
      destruct (ps_pdb (ex_ps x) pdb); [|congruence]. destruct (from_pdb _ _ _ _ _); congruence.
    - congruence.
    - congruence. }
  unfold get_from_id. destruct (match cf_debug_id cf with Some i => Some i | None => cf_code_id cf end).
  { destruct (get_sym_servers _ _ _ _) as [[l|]|ms|ms]; cbn [bind]; [now elim (S l)| |congruence|congruence]. rewrite search_no_server; cbn [lk_fs lk_data]; congruence. }
  destruct (read_file _ _ _ _) as [buf|m|m]; [|congruence|congruence]. destruct (cf_map cf) as [mp|m|m]; [|congruence|congruence].
  destruct (cf_arch cf) as [arch|]; [|congruence]. apply G.
Qed.

(** *** Several modules for one destination *)
Lemma store_seq_snoc os extra out ck l o w : store_seq os extra out ck (l ++ [o]) w = andThen (store_seq os extra out ck l w) (store os extra out ck o).
Proof. unfold store_seq. now rewrite fold_left_app. Qed.
Lemma last_wins os extra p ck l o w w' text : healthy os -> fmt_object extra o = Ok text ->
  store_seq os extra (OFile (FPath p)) ck (l ++ [o]) w = (w', Ok tt) ->
  fs_get (w_fs w') (locate (os_cwd os) p) = Some (NFile (encode text)).
Proof.
  intros H F. rewrite store_seq_snoc. unfold andThen. destruct (store_seq os extra (OFile (FPath p)) ck l w) as [w1 [[]|m|m]]; cbn [fst snd]; try discriminate.
  unfold store. destruct (ck && _); [discriminate|]. unfold andThen. cbn [output_store output_file fst snd]. intros W.
  destruct (write_out os extra (FPath p) o w1 w' text H F W) as (K & _). exact K.
Qed.
Lemma stdout_all os extra ck l : forall w w', store_seq os extra (OFile FStdout) ck l w = (w', Ok tt) ->
  exists texts, Forall2 (fun o t => fmt_object extra o = Ok t) l texts /\ w_out w' = w_out w ++ encode (concat texts) /\ w_fs w' = w_fs w.
Proof.
  induction l as [|o l IH] using rev_ind; intros w w' H.
  - exists []. injection H as <-. split; [constructor|]. cbn. now rewrite app_nil_r.
  - rewrite store_seq_snoc in H. unfold andThen in H. destruct (store_seq os extra (OFile FStdout) ck l w) as [w1 [[]|m|m]] eqn:E; cbn [fst snd] in H; try discriminate.
    destruct (IH _ _ E) as (texts & F & O & S). unfold store in H. destruct (ck && _); [discriminate|]. unfold andThen in H. cbn [output_store output_file fst snd write_sym] in H.
    destruct (fmt_object extra o) as [t|m|m] eqn:T; try discriminate. injection H as <-. exists (texts ++ [t]). split; [apply Forall2_app; auto|].
    cbn [w_out w_fs]. rewrite O, S, concat_app. cbn [concat]. rewrite app_nil_r. unfold encode. rewrite flat_map_app, app_assoc. auto.
Qed.
