(** Proofs about paths in the file system, directories and archives. *)
From Verif Require Import Base Str Utf8 M_Path S_Path P_Path M_Source M_Fs S_Fs.

(** ** Pieces of a concatenation *)
Lemma split_on_app p a b : exists i l f r, split_on p a = i ++ [l] /\ split_on p b = f :: r /\ split_on p (a ++ b) = i ++ (l ++ f) :: r.
Proof.
  induction a as [|c a IH].
  - destruct (split_on p b) as [|f r] eqn:E; [now apply split_on_nonempty in E|]. exists [], [], f, r. cbn. rewrite E. auto.
  - destruct IH as (i & l & f & r & E1 & E2 & E3). cbn [split_on app]. rewrite E1, E3, E2. destruct (p c).
    + exists ([] :: i), l, f, r. auto.
    + destruct i as [|x i]; cbn [app].
      * exists [], (c :: l), f, r. auto.
      * exists ((c :: x) :: i), l, f, r. auto.
Qed.
Lemma split_on_app_mid p a c b : p c = true -> split_on p (a ++ c :: b) = split_on p a ++ split_on p b.
Proof.
  intros H. destruct (split_on_app p a (c :: b)) as (i & l & f & r & E1 & E2 & E3). cbn [split_on] in E2. rewrite H in E2. inversion E2; subst.
  rewrite E3, E1, app_nil_r, <- app_assoc. reflexivity.
Qed.
Definition comps_of (first : list Comp) (ps : list str) : list Comp := first ++ flat_map (piece_comp false) ps.
Definition is_nil {A} (l : list A) : bool := match l with [] => true | _ => false end.
(** What is put in front of a name pushed to a path. *)
Definition pre (s : str) : str := match s with [] => [] | _ => if ends_with_char c_slash s then s else s ++ [c_slash] end.
Lemma push_pre s q : nslash q -> path_push s q = pre s ++ q.
Proof.
  intros H. unfold path_push, pre. destruct (starts_with [c_slash] q) eqn:E.
  - apply starts_slash in E. destruct E as (t & ->). apply nslash_In in H. exfalso. apply H. now left.
  - destruct s as [|c s]; [reflexivity|]. destruct (ends_with_char c_slash (c :: s)); [reflexivity|]. now rewrite <- app_assoc.
Qed.
Lemma starts_app s t : s <> [] -> starts_with [c_slash] (s ++ t) = starts_with [c_slash] s.
Proof. destruct s as [|c s]; [easy|]. intros _. unfold starts_with. cbn [app strip_prefix]. destruct (c_slash =? c); reflexivity. Qed.
Lemma nslash_split q : nslash q -> split_on is_slash q = [q].
Proof. intros H. now apply split_on_none. Qed.
Lemma components_slash s q : nslash q -> components (s ++ c_slash :: q) = components (s ++ [c_slash]) ++ piece_comp false q.
Proof.
  intros H. unfold components. rewrite !split_on_app_mid by reflexivity. rewrite (nslash_split q H). cbn [split_on].
  destruct (split_on is_slash s) as [|p0 ps] eqn:E; [now apply split_on_nonempty in E|]. cbn [app].
  rewrite !flat_map_app. cbn [flat_map]. change (piece_comp false []) with (@nil Comp). rewrite !app_nil_r.
  destruct s as [|c s].
  - cbn. reflexivity.
  - rewrite !starts_app by discriminate. now rewrite <- app_assoc.
Qed.
Lemma components_snoc_slash s : s <> [] -> components (s ++ [c_slash]) = components s.
Proof.
  intros H. unfold components. rewrite split_on_app_mid by reflexivity. cbn [split_on].
  destruct (split_on is_slash s) as [|p0 ps] eqn:E; [now apply split_on_nonempty in E|]. cbn [app].
  rewrite flat_map_app. cbn [flat_map]. change (piece_comp false []) with (@nil Comp). rewrite !app_nil_r. now rewrite starts_app.
Qed.
Lemma components_pre s q : nslash q -> components (pre s ++ q) = components s ++ piece_comp (is_nil s) q.
Proof.
  intros H. destruct s as [|c s].
  - cbn [pre app is_nil]. unfold components at 1. rewrite (nslash_split q H). destruct (starts_with [c_slash] q) eqn:E.
    + apply starts_slash in E. destruct E as (t & ->). apply nslash_In in H. exfalso. apply H. now left.
    + cbn [flat_map]. rewrite app_nil_r. reflexivity.
  - unfold pre. cbn [is_nil]. destruct (ends_with_char c_slash (c :: s)) eqn:E.
    + apply ends_with_char_spec in E. destruct E as (x & E). rewrite E, <- app_assoc. cbn [app].
      rewrite components_slash by exact H. reflexivity.
    + rewrite <- app_assoc. cbn [app]. change (c :: s ++ c_slash :: q) with ((c :: s) ++ c_slash :: q).
      rewrite components_slash, components_snoc_slash by (exact H || discriminate). reflexivity.
Qed.
Lemma components_push s n : proper n -> components (path_push s n) = components s ++ [Normal n].
Proof.
  intros H. rewrite push_pre by (now apply proper_nslash). rewrite components_pre by (now apply proper_nslash). f_equal.
  now apply piece_comp_proper.
Qed.
Lemma locate_push cwd s n : proper n -> locate cwd (path_push s n) = n :: locate cwd s.
Proof. intros H. unfold locate. rewrite components_push by exact H. rewrite fold_left_app. reflexivity. Qed.

(** ** Prefixes *)
Lemma piece_one b q : q <> [] -> b = true \/ q <> lit "." -> length (piece_comp b q) = 1%nat.
Proof.
  intros H1 H2. unfold piece_comp. destruct (str_eqb q []) eqn:E1; [apply str_eqb_eq in E1; contradiction|].
  destruct (str_eqb q (lit ".")) eqn:E2; [|destruct (str_eqb q (lit "..")); reflexivity].
  apply str_eqb_eq in E2. destruct H2 as [->|H2]; [reflexivity|contradiction].
Qed.
Lemma piece_le b q : (length (piece_comp b q) <= 1)%nat.
Proof.
  unfold piece_comp. destruct (str_eqb q []); [cbn; lia|]. destruct (str_eqb q (lit ".")); [destruct b; cbn; lia|].
  destruct (str_eqb q (lit "..")); cbn; lia.
Qed.
Lemma piece_count b p f : (length (piece_comp b p) <= length (piece_comp b (p ++ f)))%nat.
Proof.
  destruct (str_eq_dec p []) as [->|E1]; [cbn; lia|].
  assert (E1' : p ++ f <> []) by (intros E; apply app_eq_nil in E; tauto).
  destruct b; [rewrite (piece_one true (p ++ f)) by auto; apply piece_le|].
  destruct (str_eq_dec p (lit ".")) as [->|E2]; [cbn [length]; unfold piece_comp at 1; cbn; lia|].
  rewrite (piece_one false (p ++ f)); [apply piece_le|exact E1'|]. right. intros E. destruct p as [|c p]; [easy|]. inversion E as [[Ec El]].
  apply app_eq_nil in El. destruct El. subst. now elim E2.
Qed.
Lemma count_mono a b : a <> [] -> (length (components a) <= length (components (a ++ b)))%nat.
Proof.
  intros Ha. destruct (split_on_app is_slash a b) as (i & l & f & r & E1 & E2 & E3). unfold components. rewrite E3, E1, starts_app by exact Ha.
  destruct i as [|x i]; cbn [app].
  - rewrite !app_length. destruct (starts_with [c_slash] a); [cbn; lia|]. pose proof (piece_count true l f). cbn [flat_map length]. lia.
  - rewrite !app_length, !flat_map_app, !app_length. cbn [flat_map]. rewrite !app_length. pose proof (piece_count false l f). cbn [length]. lia.
Qed.
Lemma count_prefix k s : (length (components (firstn k s)) <= length (components s))%nat.
Proof.
  destruct (firstn k s) as [|c x] eqn:E; [cbn; lia|]. rewrite <- (firstn_skipn k s), E. apply count_mono. discriminate.
Qed.
Lemma components_pre_nil s : components (pre s) = components s.
Proof.
  pose proof (components_pre s [] eq_refl) as H. rewrite app_nil_r in H. rewrite H. destruct s; cbn [is_nil].
  - reflexivity.
  - unfold piece_comp. cbn. apply app_nil_r.
Qed.
Lemma shortest_push s n : proper n -> shortest_prefix (length (pre s ++ n)) 0 (pre s ++ n) (components (pre s ++ n)) = pre s ++ n.
Proof.
  intros H. etransitivity; [|apply (firstn_all (pre s ++ n))]. apply shortest_prefix_spec; try lia.
  - now rewrite firstn_all.
  - intros j Hj E. rewrite components_pre in E by (now apply proper_nslash). rewrite (piece_comp_proper _ n H) in E.
    rewrite firstn_app in E. destruct (Nat.le_gt_cases j (length (pre s))) as [L|L].
    + replace (j - length (pre s))%nat with 0%nat in E by lia. cbn [firstn] in E. rewrite app_nil_r in E.
      pose proof (count_prefix j (pre s)) as C. rewrite components_pre_nil, E, app_length in C. cbn in C. lia.
    + rewrite firstn_all2 in E by lia. rewrite components_pre in E.
      2:{ apply nslash_In. intros I. destruct H as (_ & _ & _ & H). apply H. rewrite <- (firstn_skipn (j - length (pre s)) n). apply in_or_app. now left. }
      apply app_inv_head in E. rewrite app_length in Hj.
      assert (X : firstn (j - length (pre s)) n <> n).
      { intros X. apply (f_equal (@length N)) in X. rewrite firstn_length in X. lia. }
      unfold piece_comp in E. destruct (str_eqb _ []); [discriminate|]. destruct (str_eqb _ (lit ".")); [destruct (is_nil s); discriminate|].
      destruct (str_eqb _ _); [discriminate|]. inversion E. contradiction.
Qed.
Lemma file_name_push s n : proper n -> path_file_name (path_push s n) = Some n.
Proof.
  intros H. unfold path_file_name. rewrite components_push by exact H.
  assert (L : forall (l : list Comp) x, last_opt (l ++ [x]) = Some x).
  { induction l as [|y l IH]; intros x; [reflexivity|]. cbn [app last_opt]. rewrite IH. destruct (l ++ [x]) eqn:E; [destruct l; discriminate|reflexivity]. }
  now rewrite L.
Qed.
Lemma extension_push s n : proper n -> path_extension (path_push s n) = path_extension n.
Proof.
  intros H. unfold path_extension. rewrite file_name_push by exact H. unfold path_file_name. now rewrite components_single.
Qed.
Lemma stem_length n stem e : split_file_at_dot n = (stem, e) -> exists t, n = stem ++ t.
Proof.
  unfold split_file_at_dot. destruct (rsplit_once (lit ".") n) as [[a b]|] eqn:R.
  - apply rsplit_dot_tail in R. destruct R as [-> _]. destruct a as [|c a]; intros [= <- <-]; [exists []; now rewrite app_nil_r|eauto].
  - intros [= <- <-]. exists []. now rewrite app_nil_r.
Qed.
Lemma set_extension_push s n ext : proper n -> path_set_extension (path_push s n) ext = pre s ++ path_set_extension n ext.
Proof.
  intros H. unfold path_set_extension. rewrite file_name_push by exact H.
  assert (F : path_file_name n = Some n) by (unfold path_file_name; now rewrite components_single). rewrite F.
  rewrite (shortest_single n) by exact H. rewrite push_pre by (now apply proper_nslash). rewrite shortest_push by exact H.
  destruct (split_file_at_dot n) as [stem e] eqn:E. destruct (stem_length _ _ _ E) as (t & En). cbn [fst].
  rewrite app_length. replace (length (pre s) + length n - length n + length stem)%nat with (length (pre s) + length stem)%nat by lia.
  replace (length n - length n + length stem)%nat with (length stem) by lia.
  rewrite firstn_app_2, <- app_assoc. reflexivity.
Qed.
Lemma corrected_push s n : proper n ->
  get_corrected_path (path_push s n) = match get_corrected_path n with Ok p => Ok (pre s ++ p) | Err e => Err e | Panic w => Panic w end.
Proof.
  intros H. unfold get_corrected_path. rewrite extension_push by exact H. destruct (path_extension n) as [e|]; [|reflexivity].
  repeat (destruct (starts_with _ e); [now rewrite set_extension_push|]). now rewrite push_pre by (now apply proper_nslash).
Qed.
Lemma corrected_proper n p : proper n -> get_corrected_path n = Ok p -> proper p.
Proof.
  intros H. unfold get_corrected_path. destruct (path_extension n) as [e|] eqn:X; [|discriminate].
  apply (extension_single n e H) in X. destruct X as (stem & Hs & -> & He).
  assert (G : forall w, ~ In 47 w -> w <> [] -> proper (stem ++ 46 :: w)).
  { intros w Hw Hn. destruct H as (_ & _ & _ & H). unfold proper. splits.
    - destruct stem; discriminate.
    - destruct stem as [|c stem]; [easy|]. intros E. inversion E as [[E1 E2]]. destruct stem; discriminate.
    - destruct stem as [|c stem]; [easy|]. intros E. inversion E as [[E1 E2]]. destruct stem as [|d stem]; [|inversion E2 as [[E3 E4]]; destruct stem; discriminate].
      inversion E2. contradiction.
    - intros I. apply in_app_or in I. destruct I as [I|[I|I]]; [|discriminate|auto]. apply H. apply in_or_app. now left. }
  intros E. repeat (match type of E with context [starts_with ?w e] => destruct (starts_with w e) end;
    [injection E as <-; rewrite set_extension_single by assumption; apply G; [cbn; intuition discriminate|discriminate]|]).
  now injection E as <-.
Qed.
(** Reading an archive only depends on the last component of the path. *)
Lemma read_cabinet_push cab buf s n : proper n -> read_cabinet cab buf (path_push s n) = read_cabinet cab buf n.
Proof.
  intros H. unfold read_cabinet. destruct (cab buf) as [files|]; [|reflexivity]. rewrite corrected_push by exact H.
  destruct (get_corrected_path n) as [p| |] eqn:E; [|reflexivity..]. cbn [bind]. pose proof (corrected_proper n p H E) as P.
  rewrite <- push_pre by (now apply proper_nslash). rewrite file_name_push by exact P.
  unfold path_file_name. now rewrite components_single.
Qed.

(** ** Parent *)
Lemma shortest_some s cs k : (k <= length s)%nat -> components (firstn k s) = cs -> forall fuel n, (n <= k)%nat -> (k <= n + fuel)%nat ->
  components (shortest_prefix fuel n s cs) = cs.
Proof.
  intros Hk Hc. induction fuel as [|f IH]; intros n Hn Hf; cbn [shortest_prefix].
  - assert (n = k) by lia. subst n. destruct (list_eqb comp_eqb (components (firstn k s)) cs) eqn:E; [exact Hc|].
    exfalso. apply Bool.not_true_iff_false in E. apply E. now apply comps_eqb_eq.
  - destruct (list_eqb comp_eqb (components (firstn n s)) cs) eqn:E; [now apply comps_eqb_eq|].
    destruct (Nat.eq_dec n k) as [->|Hne]; [|apply IH; lia]. exfalso. apply Bool.not_true_iff_false in E. apply E. now apply comps_eqb_eq.
Qed.
Lemma parent_push s n : proper n -> exists q, path_parent (path_push s n) = Some q /\ components q = components s.
Proof.
  intros H. unfold path_parent. pose proof (file_name_push s n H) as F. unfold path_file_name in F.
  destruct (last_opt (components (path_push s n))) as [c|]; [|discriminate]. destruct c; try discriminate.
  eexists. split; [reflexivity|]. rewrite components_push by exact H. rewrite removelast_last.
  rewrite push_pre by (now apply proper_nslash). apply (shortest_some _ _ (length (pre s))); try lia; rewrite ?app_length; try lia.
  rewrite firstn_app, Nat.sub_diag, firstn_all. cbn [firstn]. rewrite app_nil_r. apply components_pre_nil.
Qed.
Lemma locate_parent cwd s n q : proper n -> path_parent (path_push s n) = Some q -> locate cwd q = locate cwd s.
Proof. intros H E. destruct (parent_push s n H) as (q' & E' & C). rewrite E in E'. inversion E'; subst. unfold locate. now rewrite C. Qed.

(** ** File system *)
Lemma loc_eqb_eq a b : loc_eqb a b = true <-> a = b.
Proof. apply list_eqb_spec. exact str_eqb_eq. Qed.
Lemma fs_get_same fs l n : l <> [] -> fs_get (fs_set fs l n) l = Some n.
Proof. intros H. unfold fs_get, fs_set. destruct l; [easy|]. cbn [afind]. now rewrite (proj2 (loc_eqb_eq _ _) eq_refl). Qed.
Lemma fs_get_other fs l n l' : l <> l' -> fs_get (fs_set fs l n) l' = fs_get fs l'.
Proof.
  intros H. unfold fs_get, fs_set. destruct l' as [|x l']; [reflexivity|]. cbn [afind].
  destruct (loc_eqb (x :: l') l) eqn:E; [|reflexivity]. apply loc_eqb_eq in E. congruence.
Qed.
Lemma mkdirs_spec os l : forall fs fs', mkdirs os fs l = Some fs' -> dirs_added fs fs' l /\ fs_get fs' l = Some NDir.
Proof.
  induction l as [|n l IH]; intros fs fs' H; cbn [mkdirs] in H.
  - inversion H; subst. split; [intros x; now left|reflexivity].
  - destruct (fs_get fs (n :: l)) as [[d|]|] eqn:G; [discriminate|..].
    + inversion H; subst. split; [intros x; now left|exact G].
    + destruct (mkdirs os fs l) as [fs1|] eqn:E; [|discriminate]. destruct (os_may os (n :: l)); [|discriminate].
      inversion H; subst. destruct (IH _ _ E) as [D _]. split; [|apply fs_get_same; discriminate].
      intros x. destruct (list_eq_dec str_eq_dec (n :: l) x) as [<-|Nx].
      * right. splits; [exact G|apply fs_get_same; discriminate|now exists []].
      * rewrite fs_get_other by exact Nx. destruct (D x) as [->|(D1 & D2 & k & ->)]; [now left|]. right. splits; auto. now exists (n :: k).
Qed.
Lemma file_create_spec os fs p fs' : file_create os fs p = Some fs' -> locate (os_cwd os) p <> [] /\
  fs' = fs_set fs (locate (os_cwd os) p) (NFile []) /\ fs_get fs (locate (os_cwd os) p) <> Some NDir.
Proof.
  unfold file_create. destruct (locate (os_cwd os) p) as [|n up]; [discriminate|].
  destruct (fs_get fs up) as [[|]|]; try discriminate. destruct (fs_get fs (n :: up)) as [[|]|]; try discriminate;
    (destruct (os_may os _); [|discriminate]); intros [= <-]; (splits; [discriminate|reflexivity|discriminate]).
Qed.

(** ** Archives *)
Definition counts (x : str) : bool := negb (str_eqb x []) && negb (str_eqb x (lit ".")).
Lemma last_opt_app2 {A} (l1 l2 : list A) : last_opt (l1 ++ l2) = match last_opt l2 with Some x => Some x | None => last_opt l1 end.
Proof.
  destruct (last_opt l2) as [x|] eqn:E.
  - apply last_opt_some in E as (l & ->). now rewrite app_assoc, last_opt_app.
  - apply last_opt_none in E as ->. now rewrite app_nil_r.
Qed.
Lemma last_piece ps : last_opt (flat_map (piece_comp false) ps) =
  match last_opt (filter counts ps) with None => None | Some p => Some (if str_eqb p (lit "..") then ParentDir else Normal p) end.
Proof.
  induction ps as [|p ps IH] using rev_ind; [reflexivity|].
  rewrite flat_map_app, filter_app, !last_opt_app2, IH. cbn [flat_map filter]. rewrite app_nil_r.
  replace (counts p) with (negb (str_eqb p []) && negb (str_eqb p (lit "."))) by reflexivity. unfold piece_comp.
  destruct (str_eqb p []); [reflexivity|]. destruct (str_eqb p (lit ".")); [reflexivity|]. cbn [negb andb last_opt]. destruct (str_eqb p (lit "..")); reflexivity.
Qed.
Lemma file_name_spec p n : path_file_name p = Some n <-> names_file p n.
Proof.
  assert (G : path_file_name p = match last_opt (filter counts (sp_pieces p)) with Some x => if str_eqb x (lit "..") then None else Some x | None => None end).
  { unfold path_file_name, components, sp_pieces. change (split_on is_slash p) with (split_on (fun c => c =? 47) p).
    destruct (split_on (fun c => c =? 47) p) as [|p0 ps] eqn:E; [reflexivity|].
    rewrite last_opt_app2, last_piece. cbn [filter].
    destruct (last_opt (filter counts ps)) as [x|] eqn:L.
    - replace (last_opt (if counts p0 then p0 :: filter counts ps else filter counts ps)) with (Some x).
      + destruct (str_eqb x (lit "..")); reflexivity.
      + destruct (counts p0); [|now rewrite L]. change (p0 :: filter counts ps) with ([p0] ++ filter counts ps). now rewrite last_opt_app2, L.
    - apply last_opt_none in L. rewrite L. destruct (starts_with [c_slash] p) eqn:S.
      + apply starts_with_spec in S as (t & ->). cbn [app] in E. change (split_on (fun c => c =? 47) (c_slash :: t)) with (split_on is_slash (c_slash :: t)) in E.
        rewrite split_on_cons_sep in E by reflexivity. inversion E; subst. reflexivity.
      + unfold piece_comp, counts. destruct (str_eqb p0 []); [reflexivity|]. destruct (str_eqb p0 (lit ".")); [reflexivity|]. cbn [negb andb last_opt].
        destruct (str_eqb p0 (lit "..")); reflexivity. }
  rewrite G. unfold names_file. change (fun x => negb (str_eqb x []) && negb (str_eqb x (lit "."))) with counts. split.
  - destruct (last_opt _) as [x|] eqn:L; [|discriminate]. destruct (str_eqb x (lit "..")) eqn:Q; [discriminate|]. intros [= <-].
    split; [intros ->; now rewrite str_eqb_refl in Q|]. now apply last_opt_some in L.
  - intros (N & l & ->). rewrite last_opt_app. destruct (str_eqb n (lit "..")) eqn:Q; [|reflexivity]. apply str_eqb_eq in Q. contradiction.
Qed.
Lemma made_spec n w : proper n -> get_corrected_path n = Ok w <-> made_of n w.
Proof.
  intros H. unfold get_corrected_path. split.
  - destruct (path_extension n) as [e|] eqn:X; [|discriminate]. apply (extension_single n e H) in X as (stem & Hs & -> & He). intros E.
    assert (K : forall p t, In (p, t) packed_exts -> starts_with p e = true -> made_of (stem ++ 46 :: e) (path_set_extension (stem ++ 46 :: e) t)).
    { intros p t I S. apply starts_with_spec in S as (r & ->). rewrite set_extension_single by assumption. now constructor. }
    destruct (starts_with (lit "pd") e) eqn:S1; [injection E as <-; apply (K (lit "pd")); [now left|assumption]|].
    destruct (starts_with (lit "dl") e) eqn:S2; [injection E as <-; apply (K (lit "dl")); [right; now left|assumption]|].
    destruct (starts_with (lit "ex") e) eqn:S3; [injection E as <-; apply (K (lit "ex")); [right; right; now left|assumption]|].
    destruct (starts_with (lit "db") e) eqn:S4; [injection E as <-; apply (K (lit "db")); [right; right; right; now left|assumption]|].
    injection E as <-. constructor; auto. intros p t r I ->. assert (Q : starts_with p (p ++ r) = true) by (apply starts_with_spec; eauto).
    destruct I as [[= <- <-]|[[= <- <-]|[[= <- <-]|[[= <- <-]|[]]]]]; congruence.
  - intros M. inversion M as [stem p t r I Hs He|stem e Hs He N]; subst.
    + assert (X : path_extension (stem ++ 46 :: p ++ r) = Some (p ++ r)) by (apply (extension_single _ _ H); eauto). rewrite X.
      assert (Q : starts_with p (p ++ r) = true) by (apply starts_with_spec; eauto).
      destruct I as [[= <- <-]|[[= <- <-]|[[= <- <-]|[[= <- <-]|[]]]]]; cbn; now rewrite set_extension_single.
    + assert (X : path_extension (stem ++ 46 :: e) = Some e) by (apply (extension_single _ _ H); eauto). rewrite X.
      assert (Q : forall p t, In (p, t) packed_exts -> starts_with p e = false).
      { intros p t I. destruct (starts_with p e) eqn:S; [|reflexivity]. apply starts_with_spec in S as (r & ->). now elim (N p t r I). }
      rewrite (Q (lit "pd") (lit "pdb")), (Q (lit "dl") (lit "dll")), (Q (lit "ex") (lit "exe")), (Q (lit "db") (lit "dbg")) by (cbn; auto 6). reflexivity.
Qed.
Lemma cab_find_spec files n d : cab_find files n = Ok (Some d) <-> first_member n files d.
Proof.
  induction files as [|[m x] t IH]; cbn [cab_find]; [split; [discriminate|inversion 1]|].
  destruct (path_file_name m) as [f|] eqn:E.
  - apply file_name_spec in E. destruct (str_eqb f n) eqn:Q.
    + apply str_eqb_eq in Q. subst f. split; [intros [= <-]; now constructor|]. inversion 1; subst; [reflexivity|].
      match goal with A : names_file m ?k, B : ?k <> n |- _ => apply file_name_spec in A, E; congruence end.
    + assert (Qn : f <> n) by (intros ->; now rewrite str_eqb_refl in Q). rewrite IH. split; [intros F; eapply fm_later; eauto|].
      inversion 1; subst; [|assumption]. match goal with A : names_file m n |- _ => apply file_name_spec in A, E; congruence end.
  - split; [discriminate|]. inversion 1; subst; match goal with A : names_file m _ |- _ => apply file_name_spec in A; congruence end.
Qed.
Lemma cabinet_spec cab raw n d : proper n -> read_cabinet cab raw n = Ok (Some d) <-> unpacked cab raw n d.
Proof.
  intros H. unfold read_cabinet, unpacked. destruct (cab raw) as [files|].
  - split.
    + intros E. apply bind_ok in E as (w & C & E). pose proof (corrected_proper n w H C) as P.
      assert (F : path_file_name w = Some w) by (unfold path_file_name; now rewrite components_single).
      rewrite F in E. apply bind_ok in E as (r & A & [= E]). destruct r as [[x|]|]; inversion E; subst. right. exists files, w. splits; auto.
      * now apply made_spec.
      * now apply cab_find_spec.
    + intros [(E & _)|(fs & w & [= <-] & C & M)]; [discriminate|]. apply made_spec in C; [|exact H]. rewrite C. cbn [bind].
      pose proof (corrected_proper n w H C) as P.
      assert (F : path_file_name w = Some w) by (unfold path_file_name; now rewrite components_single). rewrite F.
      apply cab_find_spec in M. now rewrite M.
  - split; [intros [= <-]; now left|]. intros [(_ & ->)|(fs & w & E & _)]; [reflexivity|discriminate].
Qed.
Lemma unpacked_fun cab raw n d d' : unpacked cab raw n d -> unpacked cab raw n d' -> d = d'.
Proof.
  intros [(A & ->)|(fs & w & A & B & C)] [(A' & ->)|(fs' & w' & A' & B' & C')]; try congruence.
  assert (fs' = fs) by congruence. subst fs'.
  assert (W : w = w').
  { assert (D : forall (a e a' e' : str), ~ In 46 e -> ~ In 46 e' -> a ++ 46 :: e = a' ++ 46 :: e' -> a = a' /\ e = e').
    { clear. induction a as [|x a IH]; intros e [|y a'] e' N N' E; cbn [app] in E; inversion E; subst; auto.
      - elim N. apply in_or_app. right. now left.
      - elim N'. apply in_or_app. right. now left.
      - destruct (IH _ _ _ N N' H1) as (-> & ->). auto. }
    inversion B as [s p t r I Hs He|s e Hs He N]; subst; inversion B' as [s' p' t' r' I' Hs' He' E'|s' e' Hs' He' N' E']; subst.
    - apply D in E' as (-> & E'); auto.
      destruct I as [[= <- <-]|[[= <- <-]|[[= <- <-]|[[= <- <-]|[]]]]], I' as [[= <- <-]|[[= <- <-]|[[= <- <-]|[[= <- <-]|[]]]]]; auto; discriminate.
    - apply D in E' as (-> & E'); auto. now elim (N' _ _ r I).
    - apply D in E' as (-> & E'); auto. now elim (N _ _ r' I').
    - reflexivity. }
  subst w'. apply cab_find_spec in C, C'. congruence.
Qed.
