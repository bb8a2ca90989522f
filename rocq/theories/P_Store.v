(** Proofs about storing. *)
From Verif Require Import Base Str Utf8 M_Path S_Path P_Path M_Source M_Symbol M_Collector M_Object M_Fs S_Fs P_Fs M_Cache S_Cache P_Cache M_Store S_Store.

(** ** The path *)
Lemma ends_app c a p : p <> [] -> ends_with_char c (a ++ p) = ends_with_char c p.
Proof. intros H. destruct (exists_last H) as (x & d & ->). rewrite app_assoc, !ends_snoc. reflexivity. Qed.
Lemma push_pre' s q : starts_with [c_slash] q = false -> path_push s q = pre s ++ q.
Proof.
  intros E. unfold path_push, pre. rewrite E. destruct s as [|c s]; [reflexivity|].
  destruct (ends_with_char c_slash (c :: s)); [reflexivity|]. now rewrite <- app_assoc.
Qed.
Lemma pre_app a p : p <> [] -> pre (a ++ p) = a ++ pre p.
Proof.
  intros H. unfold pre. destruct p as [|c p]; [easy|]. destruct (a ++ c :: p) as [|d t] eqn:E; [destruct a; discriminate|].
  rewrite <- E, ends_app by discriminate. destruct (ends_with_char c_slash (c :: p)); [reflexivity|]. now rewrite <- app_assoc.
Qed.
Lemma push_push s p q : p <> [] -> starts_with [c_slash] p = false -> nslash q -> path_push s (path_push p q) = path_push (path_push s p) q.
Proof.
  intros Hp Sp Hq. rewrite (push_pre p q Hq), (push_pre (path_push s p) q Hq), (push_pre' s p Sp).
  rewrite push_pre'; [now rewrite (pre_app _ p Hp), app_assoc|].
  assert (E : exists c t, p = c :: t) by (destruct p; [easy|eauto]). destruct E as (c & t & ->).
  unfold pre. destruct (ends_with_char c_slash (c :: t)).
  - now rewrite starts_app by discriminate.
  - rewrite <- app_assoc. now rewrite starts_app by discriminate.
Qed.
Lemma proper_starts n : proper n -> starts_with [c_slash] n = false.
Proof.
  intros (_ & _ & _ & H). destruct (starts_with [c_slash] n) eqn:E; [|reflexivity]. apply starts_slash in E. destruct E as (t & ->). elim H. now left.
Qed.
Lemma sym_proper n : proper n -> proper (sym_file_name n).
Proof.
  intros (_ & _ & _ & H). pose proof (sym_name_spec n) as S. pose proof (sym_no_slash n _ H S) as NS.
  assert (E : exists a, sym_file_name n = a ++ lit ".sym") by (destruct S as [(b & e & _ & _ & E)|(_ & E)]; eauto).
  destruct E as (a & E). assert (L : (4 <= length (sym_file_name n))%nat) by (rewrite E, app_length; cbn; lia).
  unfold proper. splits; [..|exact NS]; intros X; rewrite X in L; cbn in L; lia.
Qed.
Lemma store_path_eq dir n id : proper n -> proper id ->
  path_push dir (get_path_for_sym n id) = path_push (path_push (path_push dir (get_base n)) id) (sym_file_name n).
Proof.
  intros Hn Hi. pose proof (base_proper n Hn) as Hb. unfold get_path_for_sym.
  assert (P : path_push (get_base n) id = pre (get_base n) ++ id) by (apply push_pre; now apply proper_nslash).
  assert (N1 : get_base n <> []) by apply Hb. assert (N2 : id <> []) by apply Hi.
  rewrite push_push; [| | |apply proper_nslash; now apply sym_proper].
  - rewrite push_push; [reflexivity|exact N1|now apply proper_starts|now apply proper_nslash].
  - rewrite P. intros X. apply app_eq_nil in X. tauto.
  - rewrite P. unfold pre. destruct (get_base n) as [|c b] eqn:E; [easy|]. rewrite <- E in *.
    destruct (ends_with_char c_slash (get_base n)); [|rewrite <- app_assoc]; rewrite starts_app by exact N1; now apply proper_starts.
Qed.
Lemma store_loc os dir o p : proper (ob_name o) -> proper (ob_debug_id o) -> sym_store_path dir o = Some p ->
  dir <> [] /\ stored_at os dir o (locate (os_cwd os) p) /\
  exists d, path_parent p = Some d /\ locate (os_cwd os) d = tl (locate (os_cwd os) p) /\ locate (os_cwd os) p <> [].
Proof.
  intros Hn Hi E. unfold sym_store_path in E. destruct dir as [|c dir]; [discriminate|]. split; [discriminate|].
  injection E as <-. rewrite (store_path_eq _ _ _ Hn Hi). pose proof (base_proper _ Hn) as Hb. pose proof (sym_proper _ Hn) as Hs.
  split.
  - exists (get_base (ob_name o)), (sym_file_name (ob_name o)). splits; [apply get_base_spec; apply Hn|apply sym_name_spec|].
    now rewrite !locate_push.
  - destruct (parent_push (path_push (path_push (c :: dir) (get_base (ob_name o))) (ob_debug_id o)) _ Hs) as (q & Eq & Cq).
    exists q. splits; [exact Eq| |rewrite locate_push by exact Hs; discriminate]. rewrite (locate_push _ _ _ Hs). cbn [tl]. unfold locate. now rewrite Cq.
Qed.
Lemma stored_unique os dir o l l' : proper (ob_name o) -> stored_at os dir o l -> stored_at os dir o l' -> l = l'.
Proof.
  intros Hn (b & f & B & F & ->) (b' & f' & B' & F' & ->).
  assert (E : b = b').
  { destruct B as [(s & e & o1 & w & N1 & E1 & I1 & C1 & ->)|[X1 ->]], B' as [(s' & e' & o1' & w' & N1' & E1' & I1' & C1' & ->)|[X1' ->]].
    - rewrite E1 in E1'. assert (ND : forall o w e, In (o, w) [(lit "pd_", lit "pdb"); (lit "ex_", lit "exe"); (lit "dl_", lit "dll")] -> ci e o -> ~ In 46 e).
      { intros o2 w2 e2 I C. apply (ci_no_dot _ _ C). destruct I as [I|[I|[I|[]]]]; injection I as <- <-; cbn; intuition discriminate. }
      apply dot_split_unique in E1'; [|eauto|eauto]. destruct E1' as [<- <-]. f_equal. f_equal.
      assert (D : forall a b, ci e a -> ci e b -> Forall (fun d => d < 65 \/ 90 < d) a -> Forall (fun d => d < 65 \/ 90 < d) b -> a = b).
      { intros a b Ca Cb Fa Fb. apply (proj2 (lower_ci e a Fa)) in Ca. apply (proj2 (lower_ci e b Fb)) in Cb. congruence. }
      assert (L : forall o w, In (o, w) [(lit "pd_", lit "pdb"); (lit "ex_", lit "exe"); (lit "dl_", lit "dll")] -> Forall (fun d => d < 65 \/ 90 < d) o).
      { intros o2 w2 I. destruct I as [I|[I|[I|[]]]]; injection I as <- <-; repeat constructor; cbn; lia. }
      pose proof (D _ _ C1 C1' (L _ _ I1) (L _ _ I1')) as ->.
      destruct I1 as [I|[I|[I|[]]]]; injection I as <- <-; destruct I1' as [I'|[I'|[I'|[]]]]; try (injection I' as <-); try reflexivity; discriminate.
    - exfalso. eapply X1'; eauto.
    - exfalso. eapply X1; eauto.
    - reflexivity. }
  assert (E2 : f = f').
  { destruct F as [(s & e & E1 & C1 & ->)|[X1 ->]], F' as [(s' & e' & E1' & C1' & ->)|[X1' ->]].
    - rewrite E1 in E1'. apply dot_split_unique in E1'; [destruct E1' as [<- _]; reflexivity| |]; eapply ci_no_dot; eauto; cbn; intuition discriminate.
    - exfalso. eapply X1'; eauto.
    - exfalso. eapply X1; eauto.
    - reflexivity. }
  now subst.
Qed.

(** ** One destination *)
Lemma write_out os extra f o w w' text : healthy os -> fmt_object extra o = Ok text -> write_sym os extra f o w = (w', Ok tt) -> file_done os text f w w'.
Proof.
  intros H E. unfold write_sym. destruct f as [p| |].
  - destruct (file_create os (w_fs w) p) as [fs1|] eqn:F; [|discriminate]. rewrite E. unfold buf_write. rewrite H.
    apply file_create_spec in F. destruct F as (L & -> & _). intros [= <- _]. cbn. unfold file_has. cbn.
    rewrite fs_get_same by exact L. auto.
  - rewrite E. intros [= <-]. cbn. auto.
  - rewrite E. intros [= <-]. cbn. auto.
Qed.
Lemma write_frame os extra f o w w' r l : write_sym os extra f o w = (w', r) -> (forall p, f = FPath p -> l <> locate (os_cwd os) p) ->
  fs_get (w_fs w') l = fs_get (w_fs w) l.
Proof.
  unfold write_sym. destruct f as [p| |].
  - destruct (file_create os (w_fs w) p) as [fs1|] eqn:F; [|intros [= <- _]; reflexivity].
    apply file_create_spec in F. destruct F as (L & -> & _). unfold buf_write. intros E N. specialize (N p eq_refl).
    destruct (fmt_object extra o) as [t|e|m]; inversion E; subst; cbn; rewrite ?fs_get_other by congruence; reflexivity.
  - destruct (fmt_object extra o) as [t|e|m]; intros [= <- _] _; reflexivity.
  - destruct (fmt_object extra o) as [t|e|m]; intros [= <- _] _; reflexivity.
Qed.
Lemma write_keeps os extra f o w w' text l : healthy os -> fmt_object extra o = Ok text -> write_sym os extra f o w = (w', Ok tt) ->
  file_has os text w l -> file_has os text w' l.
Proof.
  intros H E W F. destruct f as [p| |].
  - destruct (list_eq_dec str_eq_dec l (locate (os_cwd os) p)) as [->|N].
    + apply (write_out _ _ _ _ _ _ _ H E) in W. apply W.
    + unfold file_has in *. rewrite (write_frame _ _ _ _ _ _ _ _ W); [exact F|]. intros p' [= <-]. exact N.
  - unfold file_has in *. rewrite (write_frame _ _ _ _ _ _ _ _ W); [exact F|discriminate].
  - unfold file_has in *. rewrite (write_frame _ _ _ _ _ _ _ _ W); [exact F|discriminate].
Qed.
Lemma write_store_done os extra dir p o w w' text : proper (ob_name o) -> proper (ob_debug_id o) -> healthy os -> fmt_object extra o = Ok text ->
  sym_store_path dir o = Some p -> write_store os extra p o w = (w', Ok tt) ->
  store_done os text dir o w' /\ w_out w' = w_out w /\ w_err w' = w_err w.
Proof.
  intros Hn Hi H E P W. destruct (store_loc os dir o p Hn Hi P) as (_ & S & d & Ed & _ & _). unfold write_store in W. rewrite Ed in W.
  destruct (create_dir_all os (w_fs w) d) as [fs1|]; [|discriminate]. apply (write_out _ _ _ _ _ _ _ H E) in W. destruct W as (W & A & B).
  splits; [|exact A|exact B]. intros _. eauto.
Qed.
Lemma no_store_done os text dir o w : sym_store_path dir o = None -> store_done os text dir o w.
Proof. unfold sym_store_path. intros E N. destruct dir; [easy|discriminate]. Qed.
Lemma store_complete os extra out ck o w w' text : proper (ob_name o) -> proper (ob_debug_id o) -> healthy os -> fmt_object extra o = Ok text ->
  store os extra out ck o w = (w', Ok tt) -> delivered os text out o w w'.
Proof.
  intros Hn Hi H E. unfold store. destruct (ck && _); [discriminate|]. unfold andThen.
  destruct out as [f|dir|f dir]; cbn [output_store output_file fst snd delivered].
  - intros W. now apply (write_out _ _ _ _ _ _ _ H E) in W.
  - destruct (sym_store_path dir o) as [p|] eqn:P.
    + destruct (write_store os extra p o w) as [w1 r] eqn:W. cbn [fst snd]. destruct r as [u| |]; [|discriminate..]. intros [= <-]. destruct u.
      now apply (write_store_done os extra dir p o w w1 text Hn Hi H E P).
    + cbn. intros [= <-]. splits; [now apply no_store_done|reflexivity|reflexivity].
  - destruct (sym_store_path dir o) as [p|] eqn:P.
    + destruct (write_store os extra p o w) as [w1 r] eqn:W. cbn [fst snd]. destruct r as [u| |]; [|discriminate..]. intros W2. destruct u.
      destruct (write_store_done os extra dir p o w w1 text Hn Hi H E P W) as (S & A & B). split.
      * intros N. destruct (S N) as (l & L & F). exists l. split; [exact L|]. eapply write_keeps; eauto.
      * apply (write_out _ _ _ _ _ _ _ H E) in W2. unfold file_done in *. rewrite A, B in W2. exact W2.
    + cbn [fst snd]. intros W. split; [now apply no_store_done|]. now apply (write_out _ _ _ _ _ _ _ H E) in W.
Qed.

(** ** What else changes *)
Lemma store_frame os extra out ck o w w' r l : proper (ob_name o) -> proper (ob_debug_id o) -> store os extra out ck o w = (w', r) ->
  ~ file_target os out l -> ~ store_target os out o l ->
  fs_get (w_fs w') l = fs_get (w_fs w) l \/
  (fs_get (w_fs w) l = None /\ fs_get (w_fs w') l = Some NDir /\ exists t k, store_target os out o t /\ t = k ++ l /\ k <> []).
Proof.
  intros Hn Hi. unfold store. destruct (ck && _); [intros [= <- _]; now left|]. intros E NF NS.
  assert (G : forall p w1 r1, output_store out o = Some p -> write_store os extra p o w = (w1, r1) ->
    fs_get (w_fs w1) l = fs_get (w_fs w) l \/
    (fs_get (w_fs w) l = None /\ fs_get (w_fs w1) l = Some NDir /\ exists t k, store_target os out o t /\ t = k ++ l /\ k <> [])).
  { intros p w1 r1 P W.
    assert (X : exists dir, sym_store_path dir o = Some p /\ (forall t, stored_at os dir o t -> dir <> [] -> store_target os out o t)).
    { destruct out as [f|dir|f dir]; [discriminate|..]; exists dir; (split; [exact P|]); intros t T D; split; assumption. }
    destruct X as (dir & P' & T). destruct (store_loc os dir o p Hn Hi P') as (Nd & S & d & Ed & Ld & Np).
    specialize (T _ S Nd). unfold write_store in W. rewrite Ed in W. destruct (create_dir_all os (w_fs w) d) as [fs1|] eqn:C; [|inversion W; now left].
    apply mkdirs_spec in C. destruct C as [D _]. rewrite Ld in D.
    rewrite (write_frame _ _ _ _ _ _ _ l W) by (intros p' [= <-] ->; contradiction). cbn [w_fs set_fs].
    destruct (D l) as [->|(D1 & D2 & k & Dk)]; [now left|]. right. splits; [exact D1|exact D2|].
    destruct (locate (os_cwd os) p) as [|n up] eqn:Lp; [easy|]. exists (n :: up), (n :: k). cbn [tl] in Dk. subst up. splits; [exact T|reflexivity|discriminate]. }
  assert (F : forall w1 w2 f r2, output_file out = Some f -> write_sym os extra f o w1 = (w2, r2) -> fs_get (w_fs w2) l = fs_get (w_fs w1) l).
  { intros w1 w2 f r2 O W. apply (write_frame _ _ _ _ _ _ _ l W). intros p -> ->. apply NF. destruct out as [f|dir|f dir]; cbn in O; [injection O as ->|discriminate|injection O as ->]; reflexivity. }
  unfold andThen in E. destruct (output_store out o) as [p|] eqn:P.
  - destruct (write_store os extra p o w) as [w1 r1] eqn:W. cbn [fst snd] in E. pose proof (G p w1 r1 eq_refl W) as G'.
    destruct r1 as [u| |]; [|inversion E; subst; exact G'..]. destruct (output_file out) as [f|] eqn:O; [|inversion E; subst; exact G'].
    rewrite (F _ _ _ _ eq_refl E). exact G'.
  - cbn [fst snd] in E. destruct (output_file out) as [f|] eqn:O; [|inversion E; subst; now left]. left. apply (F _ _ _ _ eq_refl E).
Qed.

(** ** When it succeeds *)
Lemma mkdirs_ok os : (forall l, os_may os l = true) -> forall l fs, (forall k up d, l = k ++ up -> fs_get fs up <> Some (NFile d)) ->
  exists fs', mkdirs os fs l = Some fs'.
Proof.
  intros M. induction l as [|n l IH]; intros fs H; cbn [mkdirs]; [eauto|]. destruct (fs_get fs (n :: l)) as [[d|]|] eqn:G; [|eauto|].
  - exfalso. now apply (H [] (n :: l) d).
  - destruct (IH fs) as (fs1 & ->). { intros k up d ->. apply (H (n :: k) up d). reflexivity. } rewrite M. eauto.
Qed.
Lemma write_ok os extra f o w text : healthy os -> (forall l, os_may os l = true) -> fmt_object extra o = Ok text ->
  (forall p, f = FPath p -> room (w_fs w) (locate (os_cwd os) p)) -> exists w', write_sym os extra f o w = (w', Ok tt).
Proof.
  intros H M E R. unfold write_sym. destruct f as [p| |].
  - destruct (R p eq_refl) as (n & up & L & U & D). unfold file_create. rewrite L in *. rewrite U, M. rewrite E. unfold buf_write. rewrite H.
    rewrite (proj2 (str_eqb_eq _ _) eq_refl).
    destruct (fs_get (w_fs w) (n :: up)) as [[d|]|]; [eexists; reflexivity|congruence|eexists; reflexivity].
  - rewrite E. eauto.
  - rewrite E. eauto.
Qed.
Lemma store_ok os extra out ck o w text : proper (ob_name o) -> proper (ob_debug_id o) -> healthy os -> (forall l, os_may os l = true) ->
  fmt_object extra o = Ok text -> (ck = true -> ob_stack o <> []) ->
  (forall l, file_target os out l -> room (w_fs w) l) ->
  (forall l, store_target os out o l -> room_below (w_fs w) l) ->
  (forall l t k, file_target os out l -> store_target os out o t -> t = k ++ l -> k = []) ->
  exists w', store os extra out ck o w = (w', Ok tt).
Proof.
  intros Hn Hi H M E C RF RS NX. unfold store.
  replace (ck && match ob_stack o with [] => true | _ => false end) with false.
  2:{ destruct ck; [|reflexivity]. destruct (ob_stack o); [elim (C eq_refl); reflexivity|reflexivity]. }
  assert (S : exists w1, match output_store out o with Some p => write_store os extra p o w | None => (w, Ok tt) end = (w1, Ok tt) /\
    forall l, file_target os out l -> room (w_fs w1) l).
  { destruct (output_store out o) as [p|] eqn:P; [|eauto].
    assert (X : exists dir, sym_store_path dir o = Some p /\ (forall t, stored_at os dir o t -> dir <> [] -> store_target os out o t)).
    { destruct out as [f|dir|f dir]; [discriminate|..]; exists dir; (split; [exact P|]); intros t T D; split; assumption. }
    destruct X as (dir & P' & T). destruct (store_loc os dir o p Hn Hi P') as (Nd & S & d & Ed & Ld & Np). specialize (T _ S Nd).
    destruct (RS _ T) as (_ & D & U). unfold write_store. rewrite Ed. unfold create_dir_all.
    destruct (locate (os_cwd os) p) as [|n up] eqn:Lp; [easy|]. cbn [tl] in Ld. rewrite Ld.
    destruct (mkdirs_ok os M up (w_fs w)) as (fs1 & E1). { intros k u x ->. apply (U (n :: k) u x); [reflexivity|discriminate]. }
    rewrite E1. apply mkdirs_spec in E1. destruct E1 as [A B].
    destruct (write_ok os extra (FPath p) o (set_fs w fs1) text H M E) as (w' & W).
    { intros q [= <-]. cbn [w_fs set_fs]. rewrite Lp. exists n, up. splits; [reflexivity|exact B|]. destruct (A (n :: up)) as [->|(_ & _ & k & K)]; [exact D|].
      apply (f_equal (@length str)) in K. rewrite app_length in K. cbn in K. lia. }
    exists w'. split; [exact W|]. intros l Fl. destruct (RF l Fl) as (m & u & -> & Eu & Em). exists m, u. splits; [reflexivity| |].
    - rewrite (write_frame _ _ _ _ _ _ _ u W); [cbn [w_fs set_fs]; destruct (A u) as [->|(_ & X & _)]; assumption|].
      intros q [= <-]. rewrite Lp. intros ->. congruence.
    - destruct (list_eq_dec str_eq_dec (m :: u) (n :: up)) as [X|X].
      + pose proof (write_out os extra (FPath p) o _ w' text H E W) as (F & _). rewrite Lp in F. rewrite X. unfold file_has in F. rewrite F. discriminate.
      + rewrite (write_frame _ _ _ _ _ _ _ (m :: u) W) by (intros q [= <-]; rewrite Lp; exact X). cbn [w_fs set_fs].
        destruct (A (m :: u)) as [->|(_ & _ & k & K)]; [exact Em|]. specialize (NX (m :: u) (n :: up) (n :: k) Fl T). rewrite K in NX. specialize (NX eq_refl). discriminate. }
  destruct S as (w1 & -> & R). unfold andThen. cbn [fst snd]. destruct (output_file out) as [f|] eqn:O; [|eauto].
  apply (write_ok os extra f o w1 text H M E). intros p ->. apply R. destruct out as [f|dir|f dir]; cbn in O; [injection O as ->|discriminate|injection O as ->]; reflexivity.
Qed.

(** ** Any name, any disk *)
Lemma dot_names : get_base [] = [] /\ get_base (lit ".") = lit "." /\ get_base (lit "..") = lit ".." /\
  sym_file_name [] = lit ".sym" /\ sym_file_name (lit ".") = lit "..sym" /\ sym_file_name (lit "..") = lit "...sym".
Proof. splits; vm_compute; reflexivity. Qed.
Lemma locate_piece cwd s q : nslash q -> locate cwd (path_push s q) = fold_left comp_step (piece_comp (is_nil s) q) (locate cwd s).
Proof. intros H. unfold locate. rewrite push_pre by exact H. rewrite components_pre by exact H. apply fold_left_app. Qed.
Lemma store_places os dir o p : proper (ob_debug_id o) -> sym_store_path dir o = Some p ->
  (ob_name o = [] -> locate (os_cwd os) p = lit ".sym" :: ob_debug_id o :: locate (os_cwd os) dir) /\
  (ob_name o = lit "." -> locate (os_cwd os) p = lit "..sym" :: ob_debug_id o :: locate (os_cwd os) dir) /\
  (ob_name o = lit ".." -> locate (os_cwd os) p = lit "...sym" :: ob_debug_id o :: tl (locate (os_cwd os) dir)).
Proof.
  intros Hi E. unfold sym_store_path in E. destruct dir as [|c dir]; [discriminate|]. injection E as <-. unfold get_path_for_sym.
  destruct dot_names as (B1 & B2 & B3 & S1 & S2 & S3).
  assert (PF : proper (lit ".sym") /\ proper (lit "..sym") /\ proper (lit "...sym")) by (unfold proper; splits; vm_compute; try discriminate; intuition discriminate).
  destruct PF as (F1 & F2 & F3). assert (Ni : ob_debug_id o <> []) by apply Hi. assert (Ns := proper_nslash _ Hi).
  assert (T : forall b f, b <> [] -> nslash b -> starts_with [c_slash] b = false -> proper f ->
    locate (os_cwd os) (path_push (c :: dir) (path_push (path_push b (ob_debug_id o)) f)) = f :: ob_debug_id o :: fold_left comp_step (piece_comp false b) (locate (os_cwd os) (c :: dir))).
  { intros b f Nb Sb St Pf. rewrite push_push; [|rewrite push_pre by exact Ns; intros X; apply app_eq_nil in X; tauto| |now apply proper_nslash].
    - rewrite locate_push by exact Pf. f_equal. rewrite push_push by assumption. rewrite locate_push by exact Hi. f_equal. now rewrite locate_piece.
    - rewrite push_pre by exact Ns. unfold pre. destruct b as [|d b]; [easy|]. destruct (ends_with_char c_slash (d :: b)); [|rewrite <- app_assoc]; rewrite starts_app by discriminate; exact St. }
  split; [|split]; intros ->; rewrite ?B1, ?B2, ?B3, ?S1, ?S2, ?S3.
  - assert (X : path_push [] (ob_debug_id o) = ob_debug_id o) by (rewrite push_pre by exact Ns; reflexivity). rewrite X.
    rewrite push_push; [|exact Ni|now apply proper_starts|now apply proper_nslash]. rewrite locate_push by exact F1. now rewrite locate_push by exact Hi.
  - rewrite T; [reflexivity|discriminate|reflexivity|reflexivity|exact F2].
  - rewrite T; [reflexivity|discriminate|reflexivity|reflexivity|exact F3].
Qed.
Lemma store_only os extra dir ck o w w' r l d : store os extra (OStore dir) ck o w = (w', r) ->
  fs_get (w_fs w') l = Some (NFile d) -> fs_get (w_fs w) l <> Some (NFile d) -> exists p, sym_store_path dir o = Some p /\ l = locate (os_cwd os) p.
Proof.
  unfold store. destruct (ck && _); [intros [= <- _]; congruence|]. unfold andThen. cbn [output_store output_file]. intros E F N.
  destruct (sym_store_path dir o) as [p|]; [|inversion E; congruence]. exists p. split; [reflexivity|].
  destruct (list_eq_dec str_eq_dec l (locate (os_cwd os) p)) as [->|Nl]; [reflexivity|]. exfalso.
  assert (W : exists r', write_store os extra p o w = (w', r')) by (destruct (write_store os extra p o w) as [w1 [u| |]]; cbn [fst snd] in E; inversion E; subst; eauto).
  destruct W as (r' & W). unfold write_store in W. destruct (path_parent p) as [q|]; [|inversion W; congruence].
  destruct (create_dir_all os (w_fs w) q) as [fs1|] eqn:C; [|inversion W; congruence]. apply mkdirs_spec in C as (D & _).
  rewrite (write_frame _ _ _ _ _ _ _ l W) in F by (intros p' [= <-]; exact Nl). cbn [w_fs set_fs] in F. destruct (D l) as [D'|(_ & D' & _)]; congruence.
Qed.
Lemma buf_step_spec b k n : b <= 8192 -> let st := buf_step (b, k) n in fst st <= 8192 /\ fst st + snd st = b + k + n.
Proof.
  intros B. unfold buf_step, buf_capacity. destruct (n <? 8192 - b) eqn:A; cbn [fst snd]; [lia|]. destruct (8192 - b <? n) eqn:C; destruct (8192 <=? n) eqn:D; cbn [fst snd]; lia.
Qed.
Lemma buf_pieces_spec cuts : forall total b k, b <= 8192 -> let st := buf_pieces cuts total (b, k) in fst st <= 8192 /\ fst st + snd st = b + k + total.
Proof.
  induction cuts as [|c cuts IH]; intros total b k B; cbn [buf_pieces]; [now apply buf_step_spec|]. destruct (buf_step_spec b k (N.min c total) B) as (X & Y).
  destruct (buf_step (b, k) (N.min c total)) as [b' k']. cbn [fst snd] in X, Y. destruct (IH (total - N.min c total) b' k' X) as (U & V). split; [exact U|]. rewrite V. lia.
Qed.
Lemma handed_on_bound cuts total : handed_on cuts total <= total /\ total <= handed_on cuts total + 8192.
Proof. unfold handed_on. pose proof (buf_pieces_spec cuts total 0 0 ltac:(lia)) as H. cbn zeta in H. lia. Qed.
Lemma write_kept os extra p o w w' text : fmt_object extra o = Ok text -> write_sym os extra (FPath p) o w = (w', Ok tt) -> kept os text w' (locate (os_cwd os) p).
Proof.
  intros E. unfold write_sym. destruct (file_create os (w_fs w) p) as [fs1|] eqn:F; [|discriminate]. rewrite E. unfold buf_write.
  apply file_create_spec in F. destruct F as (L & -> & _). destruct (str_eqb _ _) eqn:B; [|discriminate]. apply str_eqb_eq in B.
  intros [= <-]. split; cbn; [now rewrite fs_get_same by exact L|]. eexists. split; [|exact B]. pose proof (handed_on_bound (os_cuts os (encode text)) (lenN (encode text))). lia.
Qed.
Lemma store_kept os extra out ck o w w' text l : proper (ob_name o) -> proper (ob_debug_id o) -> fmt_object extra o = Ok text ->
  store os extra out ck o w = (w', Ok tt) -> file_target os out l \/ store_target os out o l -> kept os text w' l.
Proof.
  intros Hn Hi E S T. unfold store in S. destruct (ck && _); [discriminate|]. unfold andThen in S.
  assert (WS : forall dir p w1 u, sym_store_path dir o = Some p -> write_store os extra p o w = (w1, Ok u) -> forall l0, stored_at os dir o l0 -> kept os text w1 l0).
  { intros dir p w1 u P W l0 At. destruct (store_loc os dir o p Hn Hi P) as (_ & At' & q & Eq & _). rewrite (stored_unique _ _ _ _ _ Hn At At').
    unfold write_store in W. rewrite Eq in W. destruct (create_dir_all os (w_fs w) q) as [fs1|]; [|discriminate]. destruct u. exact (write_kept _ _ _ _ _ _ _ E W). }
  assert (KK : forall f w1, kept os text w1 l -> write_sym os extra f o w1 = (w', Ok tt) -> kept os text w' l).
  { intros f w1 K W. assert (D : (forall p, f = FPath p -> l <> locate (os_cwd os) p) \/ exists p, f = FPath p /\ l = locate (os_cwd os) p).
    { destruct f as [p| |]; [|left; discriminate..]. destruct (list_eq_dec str_eq_dec l (locate (os_cwd os) p)) as [->|Nl]; [right; eauto|left; intros q [= <-]; exact Nl]. }
    destruct D as [D|(p & -> & ->)]; [|exact (write_kept _ _ _ _ _ _ _ E W)]. destruct K as (K1 & K2). split; [|exact K2]. now rewrite (write_frame _ _ _ _ _ _ _ l W D). }
  destruct out as [f|dir|f dir]; cbn [output_store output_file fst snd] in S.
  - destruct T as [T|[]]. destruct f as [p| |]; [|destruct T|destruct T]. cbn in T. subst l. exact (write_kept _ _ _ _ _ _ _ E S).
  - destruct T as [[]|(N & At)]. destruct (sym_store_path dir o) as [p|] eqn:P; [|unfold sym_store_path in P; destruct dir; [easy|discriminate]].
    destruct (write_store os extra p o w) as [w1 [u| |]] eqn:W; cbn [fst snd] in S; [|discriminate..]. injection S as <-. exact (WS dir p w1 u P W l At).
  - destruct T as [T|(N & At)].
    + destruct f as [p| |]; [|destruct T|destruct T]. cbn in T. subst l. destruct (match sym_store_path dir o with Some p0 => write_store os extra p0 o w | None => (w, Ok tt) end) as [w1 [u| |]]; cbn [fst snd] in S; [|discriminate..].
      exact (write_kept _ _ _ _ _ _ _ E S).
    + destruct (sym_store_path dir o) as [p|] eqn:P; [|unfold sym_store_path in P; destruct dir; [easy|discriminate]].
      destruct (write_store os extra p o w) as [w1 [u| |]] eqn:W; cbn [fst snd] in S; [|discriminate..]. exact (KK f w1 (WS dir p w1 u P W l At) S).
Qed.
Lemma store_any_name os extra dir o w w' r l d : proper (ob_debug_id o) -> ~ In 47 (ob_name o) -> store os extra (OStore dir) false o w = (w', r) ->
  fs_get (w_fs w') l = Some (NFile d) -> fs_get (w_fs w) l <> Some (NFile d) ->
  (proper (ob_name o) /\ stored_at os dir o l) \/
  (ob_name o = [] /\ l = lit ".sym" :: ob_debug_id o :: locate (os_cwd os) dir) \/
  (ob_name o = lit "." /\ l = lit "..sym" :: ob_debug_id o :: locate (os_cwd os) dir) \/
  (ob_name o = lit ".." /\ l = lit "...sym" :: ob_debug_id o :: tl (locate (os_cwd os) dir)).
Proof.
  intros Hi N S F G. destruct (store_only _ _ _ _ _ _ _ _ _ _ S F G) as (p & P & ->). destruct (store_places os dir o p Hi P) as (A & B & C).
  destruct (str_eq_dec (ob_name o) []) as [E|N1]; [right; left; auto|].
  destruct (str_eq_dec (ob_name o) (lit ".")) as [E|N2]; [right; right; left; auto|].
  destruct (str_eq_dec (ob_name o) (lit "..")) as [E|N3]; [right; right; right; auto|].
  left. assert (Hn : proper (ob_name o)) by (unfold proper; splits; assumption). split; [exact Hn|]. now destruct (store_loc os dir o p Hn Hi P) as (_ & X & _).
Qed.
Lemma file_name_slash s : ~ In 47 (file_name_only s).
Proof.
  unfold file_name_only. destruct (last_opt _) as [x|] eqn:E; [|apply last_opt_none in E; now apply split_on_nonempty in E].
  apply last_opt_some in E as (l & E). pose proof (split_on_pieces (fun c => c =? c_slash) s) as F. rewrite E in F. apply Forall_app in F as (_ & F). apply Forall_inv in F.
  rewrite forallb_forall in F. intros I. specialize (F 47 I). discriminate.
Qed.
Lemma from_object_name e platform main name pe pe_name o : from_object e platform main name pe pe_name = Ok o -> ~ In 47 (ob_name o).
Proof.
  unfold from_object. destruct (pa_functions main) as [fs|]; [|discriminate]. destruct (collect_functions _ _ _) as [[[s0 sr] og]| |]; cbn [bind]; [|discriminate..]. destruct (ask_mapping _ _) as [u| |]; cbn [bind]; [|discriminate..].
  destruct (match pa_exceptions main with Some _ => _ | None => _ end) as [s1| |]; cbn [bind]; [|discriminate..].
  destruct (collect_publics _ _ _ _ _) as [s2| |]; cbn [bind]; [|discriminate..].
  destruct (minidebug _ _ _ _) as [mi| |]; cbn [bind]; [|discriminate..].
  destruct (collect_publics _ _ _ _ _) as [s3| |]; cbn [bind]; [|discriminate..].
  destruct (add_executable_section_symbols _ _ _ _) as [s4| |]; cbn [bind]; [|discriminate..].
  intros E. injection E as <-. cbn [ob_name]. apply file_name_slash.
Qed.
Lemma merge_name ck iter a b o : merge_objects ck iter a b = Ok o -> ~ In 47 (ob_name a) -> ~ In 47 (ob_name b) -> ~ In 47 (ob_name o).
Proof.
  intros M A B. assert (G : forall x y, merge_into ck iter x y = Ok o -> ob_name o = (if ob_stripped y then ob_name y else ob_name x)).
  { intros x y. unfold merge_into. destruct (srcmap_merge _ _ _) as [[[f u] rm]| |]; cbn [bind]; [|discriminate..]. destruct (merge_inline_origins _ _) as [og om].
    destruct (foldM _ _ _) as [s| |]; cbn [bind]; [|discriminate..]. intros E. injection E as <-. reflexivity. }
  unfold merge_objects in M. destruct (negb _); [discriminate|]. destruct (_ <? _); apply G in M; rewrite M; destruct (ob_stripped _); assumption.
Qed.

(** ** What a success needs *)
Lemma tree_up fs k up x : tree fs -> k <> [] -> fs_get fs (k ++ up) = Some x -> fs_get fs up = Some NDir.
Proof.
  intros T. revert x. induction k as [|n k IH]; intros x N G; [easy|]. cbn in G. apply T in G. destruct k as [|m k]; [exact G|]. apply (IH NDir); [discriminate|exact G].
Qed.
Lemma mkdirs_clear os l : forall fs fs', tree fs -> mkdirs os fs l = Some fs' -> forall k up d, l = k ++ up -> fs_get fs up <> Some (NFile d).
Proof.
  induction l as [|n l IH]; intros fs fs' T M k up d E.
  - symmetry in E. apply app_eq_nil in E as (-> & ->). discriminate.
  - cbn [mkdirs] in M. destruct k as [|m k].
    + cbn in E. subst up. destruct (fs_get fs (n :: l)) as [[|]|]; discriminate.
    + injection E as <- E. destruct (fs_get fs (n :: l)) as [[|]|] eqn:G; [discriminate|..].
      * rewrite E in G. rewrite (tree_up fs (n :: k) up NDir T ltac:(discriminate) G). discriminate.
      * destruct (mkdirs os fs l) as [fs1|] eqn:M1; [|discriminate]. exact (IH fs fs1 T M1 k up d E).
Qed.
Lemma create_needs os fs p fs' : file_create os fs p = Some fs' -> exists n up, locate (os_cwd os) p = n :: up /\ fs_get fs up = Some NDir /\ fs_get fs (n :: up) <> Some NDir.
Proof.
  unfold file_create. destruct (locate (os_cwd os) p) as [|n up]; [discriminate|]. intros H. exists n, up. split; [reflexivity|].
  destruct (fs_get fs up) as [[|]|]; try discriminate. split; [reflexivity|]. destruct (fs_get fs (n :: up)) as [[|]|]; discriminate.
Qed.
Lemma write_needs os extra p o w w' : write_sym os extra (FPath p) o w = (w', Ok tt) ->
  exists n up, locate (os_cwd os) p = n :: up /\ fs_get (w_fs w) up = Some NDir /\ fs_get (w_fs w') up = Some NDir /\ fs_get (w_fs w) (n :: up) <> Some NDir.
Proof.
  intros W. assert (C : exists fs1, file_create os (w_fs w) p = Some fs1) by (unfold write_sym in W; destruct (file_create os (w_fs w) p) as [fs1|]; [eauto|discriminate]).
  destruct C as (fs1 & C). apply create_needs in C as (n & up & L & U & D). exists n, up. splits; trivial. rewrite (write_frame _ _ _ _ _ _ _ up W); [exact U|].
  intros q [= <-]. rewrite L. intros E. apply (f_equal (@length _)) in E. cbn in E. lia.
Qed.
Lemma write_store_needs os extra p o w w' u : tree (w_fs w) -> path_parent p <> None -> (forall q, path_parent p = Some q -> locate (os_cwd os) q = tl (locate (os_cwd os) p)) -> write_store os extra p o w = (w', Ok u) ->
  room_below (w_fs w) (locate (os_cwd os) p) /\ forall l, fs_get (w_fs w) l = Some NDir -> fs_get (w_fs w') l = Some NDir.
Proof.
  intros T N P W. unfold write_store in W. destruct (path_parent p) as [q|]; [|easy]. specialize (P q eq_refl). destruct (create_dir_all os (w_fs w) q) as [fs1|] eqn:C; [|discriminate]. destruct u.
  unfold create_dir_all in C. rewrite P in C. assert (K := mkdirs_clear _ _ _ _ T C). apply mkdirs_spec in C as (D & _).
  assert (Keep : forall l, fs_get (w_fs w) l = Some NDir -> fs_get fs1 l = Some NDir) by (intros l G; destruct (D l) as [->|(X & _)]; congruence).
  destruct (write_needs _ _ _ _ _ _ W) as (n & up & L & U & U' & ND). cbn [w_fs set_fs] in *. split.
  - unfold room_below. rewrite L. splits; [discriminate|intros G; apply ND; now apply Keep|]. intros k x d E Nk. destruct k as [|m k]; [easy|]. injection E as <- E.
    apply (K k x d). now rewrite L.
  - intros l G. rewrite (write_frame _ _ _ _ _ _ _ l W); [now apply Keep|]. intros q' [= <-] ->. apply ND. rewrite <- L. now apply Keep.
Qed.
Lemma store_needs os extra out ck o w w' : proper (ob_name o) -> proper (ob_debug_id o) -> tree (w_fs w) -> store os extra out ck o w = (w', Ok tt) ->
  (forall l, store_target os out o l -> room_below (w_fs w) l) /\
  (forall l, file_target os out l -> fs_get (w_fs w) l <> Some NDir /\ exists n up, l = n :: up /\ fs_get (w_fs w') up = Some NDir /\ ((forall f dir, out <> OBoth f dir) -> fs_get (w_fs w) up = Some NDir)).
Proof.
  intros Hn Hi T S. unfold store in S. destruct (ck && _); [discriminate|]. unfold andThen in S.
  assert (WS : forall dir p w1 u, sym_store_path dir o = Some p -> write_store os extra p o w = (w1, Ok u) ->
    (forall l, stored_at os dir o l -> room_below (w_fs w) l) /\ forall l, fs_get (w_fs w) l = Some NDir -> fs_get (w_fs w1) l = Some NDir).
  { intros dir p w1 u P W. destruct (store_loc os dir o p Hn Hi P) as (_ & At & q & Eq & Lq & _).
    destruct (write_store_needs os extra p o w w1 u T) as (R & K); [congruence|intros q' Q; congruence|exact W|]. split; [|exact K]. intros l At'. now rewrite (stored_unique _ _ _ _ _ Hn At' At). }
  destruct out as [f|dir|f dir]; cbn [output_store output_file fst snd] in S.
  - split; [intros l []|]. intros l F. destruct f as [p| |]; [|destruct F..]. cbn in F. subst l. destruct (write_needs _ _ _ _ _ _ S) as (n & up & L & U & U' & D). rewrite L. split; [exact D|]. exists n, up. auto.
  - split; [|intros l []]. intros l (N & At). destruct (sym_store_path dir o) as [p|] eqn:P; [|unfold sym_store_path in P; destruct dir; [easy|discriminate]].
    destruct (write_store os extra p o w) as [w1 [u| |]] eqn:W; cbn [fst snd] in S; [|discriminate..]. now apply (WS dir p w1 u P W).
  - assert (K : (forall l, dir <> [] /\ stored_at os dir o l -> room_below (w_fs w) l) /\ exists w1, (forall l, fs_get (w_fs w) l = Some NDir -> fs_get (w_fs w1) l = Some NDir) /\ write_sym os extra f o w1 = (w', Ok tt)).
    { destruct (sym_store_path dir o) as [p|] eqn:P.
      - destruct (write_store os extra p o w) as [w1 [u| |]] eqn:W; cbn [fst snd] in S; [|discriminate..]. destruct (WS dir p w1 u P W) as (A & B). split; [intros l (_ & X); auto|]. exists w1. auto.
      - cbn [fst snd] in S. unfold sym_store_path in P. destruct dir; [|discriminate]. split; [intros l (X & _); easy|]. exists w. auto. }
    destruct K as (A & w1 & B & C). split; [exact A|]. intros l F. destruct f as [p| |]; [|destruct F..]. cbn in F. subst l. destruct (write_needs _ _ _ _ _ _ C) as (n & up & L & U & U' & D). rewrite L. split; [intros G; now apply D, B|].
    exists n, up. splits; trivial. intros X. now elim (X (FPath p) dir).
Qed.
