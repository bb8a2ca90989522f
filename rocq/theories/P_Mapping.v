(** Proofs about path mappings. *)
From Verif Require Import Base Str M_Source P_Source M_Mapping S_Mapping.
From Verif Require P_Names.

Lemma lenN_cons' {A} (x : A) l : lenN (x :: l) = lenN l + 1.
Proof. unfold lenN. cbn [length]. lia. Qed.

(** ** Decomposition of templates *)
Lemma literal_cons c t : literal (c :: t) -> literal t.
Proof. intros H a b E. intros I. apply (H (c :: a) b); [cbn; now rewrite E|now right]. Qed.
Lemma literal_open t : literal (c_open :: t) -> ~ In c_close t.
Proof. intros H I. apply in_split in I. destruct I as (a & b & ->). apply (H (c_open :: a) b); [reflexivity|now left]. Qed.
Lemma literal_nil : literal [].
Proof. intros a b E. destruct a; discriminate. Qed.
Lemma literal_no_close t : ~ In c_close t -> literal t.
Proof. intros H a b -> _. apply H. apply in_or_app. right. now left. Qed.
Lemma literal_snoc_close t : literal t -> ~ In c_open t -> literal (t ++ [c_close]).
Proof.
  intros H N a b E I. assert (Ia : In c_open (t ++ [c_close])) by (rewrite E; apply in_or_app; now left).
  apply in_app_or in Ia. destruct Ia as [Ia|[Ia|[]]]; [auto|discriminate].
Qed.
Lemma literal_snoc t c : c <> c_close -> literal t -> literal (t ++ [c]).
Proof.
  intros Hc H a b E. destruct b as [|y b'] using rev_ind.
  - apply app_inj_tail in E. destruct E. congruence.
  - change (c_close :: b' ++ [y]) with ((c_close :: b') ++ [y]) in E. rewrite app_assoc in E.
    apply app_inj_tail in E. destruct E as [E _]. now apply (H a b').
Qed.
Lemma last_open t : In c_open t -> exists a b, t = a ++ c_open :: b /\ ~ In c_open b.
Proof.
  induction t as [|c t IH] using rev_ind; intros I; [contradiction|].
  destruct (N.eq_dec c c_open) as [->|Hc]; [exists t, []; split; [reflexivity|auto]|].
  apply in_app_or in I. destruct I as [I|[I|[]]]; [|congruence]. destruct (IH I) as (a & b & -> & N).
  exists a, (b ++ [c]). split; [now rewrite <- app_assoc|]. intros I'. apply in_app_or in I'. destruct I' as [|[|[]]]; auto.
Qed.
Lemma decomposes s : exists parts tail, decomposed s parts tail.
Proof.
  unfold decomposed. induction s as [|c s IH] using rev_ind; [exists [], []; splits; [constructor|apply literal_nil|reflexivity]|].
  destruct IH as (parts & tail & F & L & E).
  destruct (N.eq_dec c c_close) as [->|Hc].
  - destruct (in_dec N.eq_dec c_open tail) as [I|I].
    + destruct (last_open _ I) as (a & b & -> & N). exists (parts ++ [(a, b)]), []. splits; [|apply literal_nil|].
      * apply Forall_app. split; [exact F|]. constructor; [|constructor]. cbn. split; [|split; [exact N|]].
        -- intros x y E' I'. apply (L x (y ++ c_open :: b)); [rewrite E', <- app_assoc; reflexivity|exact I'].
        -- intros J. apply in_split in J. destruct J as (x & y & ->).
           apply (L (a ++ c_open :: x) y); [rewrite <- app_assoc; reflexivity|]. apply in_or_app. right. now left.
      * rewrite E, map_app, concat_app. cbn. rewrite !app_nil_r, <- !app_assoc. reflexivity.
    + exists parts, (tail ++ [c_close]). splits; [exact F|now apply literal_snoc_close|now rewrite E, <- app_assoc].
  - exists parts, (tail ++ [c]). splits; [exact F|now apply literal_snoc|now rewrite E, <- app_assoc].
Qed.

(** ** The scanner *)
Lemma scan_no_close vars m t : ~ In c_close t -> forall r i s e o acts,
  exists e' o', scan vars m (t ++ r) i s e o acts = scan vars m r (i + lenN t) s e' o' acts.
Proof.
  induction t as [|c t IH]; intros H r i s e o acts.
  - exists e, o. cbn [app]. f_equal. cbn. lia.
  - cbn [app scan]. assert (Hc : c <> c_close) by (intros ->; apply H; now left).
    destruct (N.eqb_spec c c_open); [|destruct (N.eqb_spec c c_close); [contradiction|]].
    + destruct (IH (fun I => H (or_intror I)) r (i + 1) s i true acts) as (e' & o' & ->).
      exists e', o'. f_equal. rewrite lenN_cons'. lia.
    + destruct (IH (fun I => H (or_intror I)) r (i + 1) s e o acts) as (e' & o' & ->).
      exists e', o'. f_equal. rewrite lenN_cons'. lia.
Qed.
Lemma scan_literal vars m t : literal t -> forall r i s e acts,
  exists e' o', scan vars m (t ++ r) i s e false acts = scan vars m r (i + lenN t) s e' o' acts.
Proof.
  induction t as [|c t IH]; intros H r i s e acts.
  - exists e, false. cbn [app]. f_equal. cbn. lia.
  - destruct (N.eq_dec c c_open) as [->|Hc].
    + apply literal_open in H. cbn [app scan]. change (c_open =? c_open) with true. cbn iota.
      destruct (scan_no_close vars m t H r (i + 1) s i true acts) as (e' & o' & ->).
      exists e', o'. f_equal. rewrite lenN_cons'. lia.
    + destruct (IH (literal_cons _ _ H) r (i + 1) s e acts) as (e' & o' & E).
      exists e', o'. cbn [app scan]. destruct (N.eqb_spec c c_open); [contradiction|].
      replace (i + lenN (c :: t)) with (i + 1 + lenN t) by (rewrite lenN_cons'; lia).
      destruct (c =? c_close); exact E.
Qed.
Lemma scan_other vars m c t i s e o acts : c <> c_open -> c <> c_close ->
  scan vars m (c :: t) i s e o acts = scan vars m t (i + 1) s e o acts.
Proof. intros H1 H2. cbn [scan]. destruct (N.eqb_spec c c_open); [contradiction|]. destruct (N.eqb_spec c c_close); [contradiction|reflexivity]. Qed.
Lemma scan_action vars m a : action_text a -> forall r i s e acts,
  scan vars m (a ++ c_close :: r) i s e true acts = scan vars m (c_close :: r) (i + lenN a) s e true acts.
Proof.
  induction a as [|c a IH]; intros [H1 H2] r i s e acts.
  - cbn [app]. f_equal. cbn. lia.
  - cbn [app]. rewrite (scan_other vars m c); [|intros ->; apply H1; now left|intros ->; apply H2; now left].
    rewrite IH; [|split; intros I; [apply H1|apply H2]; now right]. f_equal. rewrite lenN_cons'. lia.
Qed.
Lemma slice_mid a b c : slice (a ++ b ++ c) (lenN a) (lenN a + lenN b) = Ok b.
Proof.
  unfold slice. rewrite !lenN_app. destruct (N.leb_spec (lenN a) (lenN a + lenN b)); [|lia].
  destruct (N.leb_spec (lenN a + lenN b) (lenN a + (lenN b + lenN c))); [|lia]. cbn [andb].
  f_equal. replace (N.to_nat (lenN a)) with (length a) by (unfold lenN; lia).
  replace (N.to_nat (lenN a + lenN b - lenN a)) with (length b) by (unfold lenN; lia).
  rewrite skipn_app, Nat.sub_diag, skipn_all. cbn. rewrite firstn_app, Nat.sub_diag, firstn_all. cbn. now rewrite app_nil_r.
Qed.

Definition to_kind (m : Meaning) : Kind := match m with MGroup n => KGroup n | MVar v => KVar v | MDigest u => KDigest u end.
Lemma stands_get vars k x : stands vars k x <-> var_get k vars = Some x.
Proof.
  unfold stands, var_get. induction vars as [|[a b] vars IH]; cbn [afind].
  - split; [intros ([|] & b & E & _); discriminate|discriminate].
  - destruct (str_eqb k a) eqn:E.
    + apply str_eqb_eq in E. subst a. split.
      * intros ([|c p] & q & E & N); cbn [app] in E; [now injection E as <- _|]. injection E as <- _. elim N. now left.
      * intros [= ->]. now exists [], vars.
    + rewrite <- IH. split.
      * intros ([|c p] & q & Eq & N); cbn [app] in Eq; injection Eq; [intros _ _ ->; rewrite str_eqb_refl in E; discriminate|].
        intros -> <-. exists p, q. split; [reflexivity|]. intros I. apply N. now right.
      * intros (p & q & -> & N). exists ((a, b) :: p), q. split; [reflexivity|]. intros [I|I]; [cbn in I; subst a; rewrite str_eqb_refl in E; discriminate|contradiction].
Qed.
Lemma absent_get vars k : ~ In k (map fst vars) <-> var_get k vars = None.
Proof.
  unfold var_get. induction vars as [|[a b] vars IH]; cbn [afind map fst In]; [tauto|].
  destruct (str_eqb k a) eqn:E; [apply str_eqb_eq in E; subst a; split; [intros N; elim N; now left|discriminate]|].
  rewrite <- IH. split; [tauto|]. intros N [->|I]; [rewrite str_eqb_refl in E; discriminate|contradiction].
Qed.
Lemma number_parse a n : number a n <-> parse_unsigned two64 a = Some n.
Proof. symmetry. apply P_Names.parse_unsigned_spec. Qed.
Lemma means_kind vars a m : means vars a m <-> action_kind vars a = Some (to_kind m).
Proof.
  assert (Q : means vars a m <-> (a = lit "DIGEST" /\ m = MDigest true) \/ (a = lit "digest" /\ m = MDigest false) \/
    (a <> lit "DIGEST" /\ a <> lit "digest" /\
     ((exists v, var_get a vars = Some v /\ m = MVar v) \/ (var_get a vars = None /\ exists n, parse_unsigned two64 a = Some n /\ m = MGroup n)))).
  { unfold means. setoid_rewrite stands_get. setoid_rewrite absent_get. setoid_rewrite number_parse. reflexivity. }
  rewrite Q. clear Q. unfold action_kind.
  destruct (str_eqb a (lit "DIGEST")) eqn:E1.
  { apply str_eqb_eq in E1. subst a. split.
    - intros [[_ ->]|[[E _]|[E _]]]; [reflexivity|discriminate|congruence].
    - intros E. left. split; [reflexivity|]. destruct m; inversion E; reflexivity. }
  assert (N1 : a <> lit "DIGEST") by (intros ->; rewrite str_eqb_refl in E1; discriminate).
  destruct (str_eqb a (lit "digest")) eqn:E2.
  { apply str_eqb_eq in E2. subst a. split.
    - intros [[E _]|[[_ ->]|[_ [E _]]]]; [contradiction|reflexivity|congruence].
    - intros E. right. left. split; [reflexivity|]. destruct m; inversion E; reflexivity. }
  assert (N2 : a <> lit "digest") by (intros ->; rewrite str_eqb_refl in E2; discriminate).
  destruct (var_get a vars) as [v|]; [|destruct (parse_unsigned two64 a) as [n|]].
  - split.
    + intros [[? _]|[[? _]|(_ & _ & [(v' & E & ->)|[E _]])]]; [contradiction|contradiction|now inversion E|discriminate].
    + intros E. right. right. splits; auto. left. exists v. split; [reflexivity|]. destruct m; inversion E; reflexivity.
  - split.
    + intros [[? _]|[[? _]|(_ & _ & [(v' & E & _)|[_ (n' & E & ->)]])]]; [contradiction|contradiction|discriminate|now inversion E].
    + intros E. right. right. splits; auto. right. split; [reflexivity|]. exists n. split; [reflexivity|]. destruct m; inversion E; reflexivity.
  - split; [|discriminate].
    intros [[? _]|[[? _]|(_ & _ & [(v' & E & _)|[_ (n' & E & _)]])]]; [contradiction|contradiction|discriminate|discriminate].
Qed.
Lemma kind_means vars a k : action_kind vars a = Some k -> exists m, k = to_kind m.
Proof.
  unfold action_kind. destruct (str_eqb _ _); [intros [= <-]; now exists (MDigest true)|].
  destruct (str_eqb _ _); [intros [= <-]; now exists (MDigest false)|].
  destruct (var_get _ _) as [v|]; [intros [= <-]; now exists (MVar v)|].
  destruct (parse_unsigned _ _) as [n|]; [intros [= <-]; now exists (MGroup n)|discriminate].
Qed.
Lemma means_dec vars a : (exists m, means vars a m) \/ (forall m, ~ means vars a m).
Proof.
  destruct (action_kind vars a) as [k|] eqn:E.
  - left. destruct (kind_means _ _ _ E) as (m & ->). exists m. now apply means_kind.
  - right. intros m H. apply means_kind in H. congruence.
Qed.

Definition body (parts : list (str * str)) : str := concat (map (fun p => fst p ++ c_open :: snd p ++ [c_close]) parts).
(** An action taken from the template. *)
Definition placed (m : str) (a : Action) (p : str * Meaning) : Prop :=
  slice m (ac_start a) (ac_end a) = Ok (fst p) /\ ac_kind a = to_kind (snd p).
Lemma scan_step vars m pre t a r e acts : m = pre ++ t ++ c_open :: a ++ c_close :: r -> literal t -> action_text a ->
  scan vars m (t ++ c_open :: a ++ c_close :: r) (lenN pre) (lenN pre) e false acts =
  match action_kind vars a with
  | Some k => scan vars m r (lenN (pre ++ t ++ c_open :: a ++ [c_close])) (lenN (pre ++ t ++ c_open :: a ++ [c_close])) (lenN pre + lenN t) false (mkAction k (lenN pre) (lenN pre + lenN t) :: acts)
  | None => Err "Invalid action in mapping string"
  end.
Proof.
  intros E L A. destruct (scan_literal vars m t L (c_open :: a ++ c_close :: r) (lenN pre) (lenN pre) e acts) as (e' & o' & ->).
  cbn [scan]. change (c_open =? c_open) with true. cbn iota.
  rewrite scan_action by exact A. cbn [scan]. change (c_close =? c_open) with false. change (c_close =? c_close) with true. cbn iota.
  replace (slice m _ _) with (Ok a).
  2:{ symmetry. rewrite E. replace (pre ++ t ++ c_open :: a ++ c_close :: r) with ((pre ++ t ++ [c_open]) ++ a ++ c_close :: r)
        by (rewrite <- !app_assoc; reflexivity).
      replace (lenN pre + lenN t + 1 + lenN a) with (lenN (pre ++ t ++ [c_open]) + lenN a) by (rewrite !lenN_app, lenN_cons'; cbn; lia).
      replace (lenN pre + lenN t + 1) with (lenN (pre ++ t ++ [c_open])) by (rewrite !lenN_app, lenN_cons'; cbn; lia).
      apply slice_mid. }
  cbn [bind]. destruct (action_kind vars a); [|reflexivity].
  replace (lenN pre + lenN t + 1 + lenN a + 1) with (lenN (pre ++ t ++ c_open :: a ++ [c_close])); [reflexivity|].
  rewrite !lenN_app, lenN_cons', lenN_app, lenN_cons'. cbn. lia.
Qed.
Lemma scan_parts vars m parts tail : Forall (fun p => literal (fst p) /\ action_text (snd p)) parts -> literal tail ->
  forall ms pre e acts, m = pre ++ body parts ++ tail -> Forall2 (fun p k => means vars (snd p) k) parts ms ->
  exists acts', scan vars m (body parts ++ tail) (lenN pre) (lenN pre) e false acts = Ok (lenN (pre ++ body parts), rev acts' ++ acts)
    /\ Forall2 (placed m) acts' (combine (map fst parts) ms).
Proof.
  intros F L. induction F as [|[t a] parts [Ht Ha] F IH]; intros ms pre e acts E M; inversion M; subst.
  - exists []. cbn [body map concat app rev combine]. split; [|constructor].
    destruct (scan_literal vars (pre ++ tail) tail L [] (lenN pre) (lenN pre) e acts) as (e' & o' & E').
    rewrite app_nil_r in E'. cbn in *. now rewrite E', app_nil_r.
  - match goal with H : means _ _ _ |- _ => rename H into Hm end.
    match goal with H : Forall2 _ parts _ |- _ => rename H into Hms end. cbn [fst snd] in *.
    unfold body in *. cbn [map concat fst snd] in *. fold (body parts) in *. set (m := pre ++ _ ++ tail).
    rewrite <- !app_assoc. cbn [app]. rewrite <- !app_assoc. cbn [app].
    rewrite (scan_step vars m pre t a (body parts ++ tail) e acts); auto.
    2:{ unfold m. rewrite <- !app_assoc. cbn [app]. rewrite <- !app_assoc. reflexivity. }
    rewrite (proj1 (means_kind _ _ _) Hm).
    destruct (IH l' (pre ++ t ++ c_open :: a ++ [c_close]) (lenN pre + lenN t) (mkAction (to_kind y) (lenN pre) (lenN pre + lenN t) :: acts)) as (acts' & Es & P).
    { now rewrite <- !app_assoc. } { exact Hms. }
    fold m in Es, P.
    exists (mkAction (to_kind y) (lenN pre) (lenN pre + lenN t) :: acts'). rewrite Es. split.
    + f_equal. f_equal; [f_equal|]; cbn [rev]; rewrite <- ?app_assoc; cbn [app]; rewrite <- ?app_assoc; reflexivity.
    + cbn [combine]. constructor; [|exact P]. split; [|reflexivity]. cbn [ac_start ac_end fst].
      replace m with (pre ++ t ++ (c_open :: a ++ [c_close]) ++ body parts ++ tail) by (unfold m; now rewrite <- !app_assoc).
      apply slice_mid.
Qed.
Lemma scan_unknown vars m parts tail : Forall (fun p => literal (fst p) /\ action_text (snd p)) parts ->
  forall pre e acts, m = pre ++ body parts ++ tail -> Exists (fun p => forall k, ~ means vars (snd p) k) parts ->
  exists w, scan vars m (body parts ++ tail) (lenN pre) (lenN pre) e false acts = Err w.
Proof.
  intros F. induction F as [|[t a] parts [Ht Ha] F IH]; intros pre e acts E X; [inversion X|]. cbn [fst snd] in *.
  unfold body in *. cbn [map concat fst snd] in *. fold (body parts) in *. subst m. set (m := pre ++ _ ++ tail).
  rewrite <- !app_assoc. cbn [app]. rewrite <- !app_assoc. cbn [app].
  rewrite (scan_step vars m pre t a (body parts ++ tail) e acts); auto.
  2:{ unfold m. rewrite <- !app_assoc. cbn [app]. rewrite <- !app_assoc. reflexivity. }
  destruct (action_kind vars a) as [k|] eqn:K; [|eexists; reflexivity].
  destruct (IH (pre ++ t ++ c_open :: a ++ [c_close]) (lenN pre + lenN t) (mkAction k (lenN pre) (lenN pre + lenN t) :: acts)) as (w & Ew).
  { now rewrite <- !app_assoc. }
  { inversion X as [? ? B|? ? B]; subst; [|exact B]. exfalso. destruct (kind_means _ _ _ K) as (x & ->).
    apply (B x). now apply means_kind. }
  exists w. exact Ew.
Qed.

Lemma run_placed e file caps m acts ps rest tail : Forall2 (placed m) acts ps ->
  (forall buf, run_actions e file caps m rest buf = Ok (Some (buf ++ tail))) ->
  forall buf, run_actions e file caps m (acts ++ rest) buf =
  (r <- expand e file caps ps tail ;; Ok (option_map (fun y => buf ++ y) r)).
Proof.
  intros F R. induction F as [|a [t k] acts ps [P1 P2] F IH]; intros buf.
  - cbn [app expand bind option_map]. apply R.
  - cbn [app run_actions expand fst snd] in *. rewrite P1, P2. cbn [bind].
    destruct k as [n|v|u]; cbn [to_kind value bind].
    + destruct (caps n) as [g|]; [|reflexivity]. rewrite IH. destruct (expand e file caps ps tail) as [[y|]| |]; cbn; [|reflexivity..].
      now rewrite <- !app_assoc.
    + rewrite IH. destruct (expand e file caps ps tail) as [[y|]| |]; cbn; [|reflexivity..]. now rewrite <- !app_assoc.
    + destruct (me_digest e u file) as [g|w|w]; cbn [bind]; [|reflexivity..]. cbn [bind]. rewrite IH. destruct (expand e file caps ps tail) as [[y|]| |]; cbn; [|reflexivity..].
      now rewrite <- !app_assoc.
Qed.

Lemma covers_spec files path : listed files path = true <-> covers files path.
Proof.
  unfold covers, listed. destruct files as [|f fs]; [split; auto|]. rewrite existsb_exists. split.
  - intros (x & I & E). apply str_eqb_eq in E. subst. now right.
  - intros [|I]; [discriminate|]. exists path. split; [exact I|apply str_eqb_refl].
Qed.

(** The rule built from a template expands it. *)
Definition expands (e : MapEnv) (g : Gen) (re : str) (files : list str) (ps : list (str * Meaning)) (tail file : str) : Prop :=
  (covers files file -> forall caps, me_caps e re file = Some caps -> gen_apply e g file = expand e file caps ps tail) /\
  ((covers files file -> me_caps e re file = None) -> gen_apply e g file = Ok None).
Lemma gen_new_ok re_ok re s vars files parts tail ms : re_ok re = true -> decomposed s parts tail ->
  Forall2 (fun p k => means vars (snd p) k) parts ms ->
  exists g, gen_new re_ok re s vars files = Ok g /\ g_files g = files /\
    forall e file, expands e g re files (combine (map fst parts) ms) tail file.
Proof.
  intros R (F & L & E) M. unfold gen_new. rewrite R.
  destruct (scan_parts vars s parts tail F L ms [] 0 [] E M) as (acts & Es & P). cbn [app] in Es. unfold body in Es.
  rewrite <- E in Es. change (lenN []) with 0 in Es. rewrite Es. cbn [bind]. rewrite app_nil_r, rev_involutive.
  eexists. split; [reflexivity|]. split; [reflexivity|]. intros e file.
  fold (body parts) in *. assert (Ls : lenN s = lenN (body parts) + lenN tail) by (rewrite E, lenN_app; reflexivity).
  assert (H : forall caps buf, run_actions e file caps s (acts ++ (if lenN (body parts) <? lenN s then [mkAction KNone (lenN (body parts)) (lenN s)] else [])) buf =
      (r <- expand e file caps (combine (map fst parts) ms) tail ;; Ok (option_map (fun y => buf ++ y) r))).
  { intros caps. apply run_placed; [exact P|]. intros buf. rewrite Ls.
    destruct (N.ltb_spec (lenN (body parts)) (lenN (body parts) + lenN tail)) as [Hl|Hl].
    - cbn [run_actions ac_start ac_end ac_kind]. pose proof (slice_mid (body parts) tail []) as X. rewrite app_nil_r in X. rewrite E, X. reflexivity.
    - cbn [run_actions]. assert (tail = []) as -> by (destruct tail; [reflexivity|rewrite lenN_cons' in Hl; lia]). now rewrite app_nil_r. }
  unfold expands, gen_apply. cbn [g_files g_re g_mapping g_actions].
  replace (if lenN (body parts) <? lenN s then acts ++ _ else acts) with (acts ++ (if lenN (body parts) <? lenN s then [mkAction KNone (lenN (body parts)) (lenN s)] else []))
    by (destruct (_ <? _); [reflexivity|apply app_nil_r]).
  split.
  - intros C caps Ec. apply covers_spec in C. rewrite C, Ec, H. destruct (expand _ _ _ _ _) as [[y|]| |]; reflexivity.
  - intros N. destruct (listed files file) eqn:C; [|reflexivity]. apply covers_spec in C. now rewrite (N C).
Qed.
Lemma gen_new_unknown re_ok re s vars files parts tail : decomposed s parts tail ->
  (exists p, In p parts /\ forall k, ~ means vars (snd p) k) \/ re_ok re = false ->
  exists w, gen_new re_ok re s vars files = Err w.
Proof.
  intros (F & L & E) [X|R]; unfold gen_new; [|rewrite R; eauto].
  destruct (re_ok re); [|eauto]. apply Exists_exists in X.
  destruct (scan_unknown vars s parts tail F [] 0 [] E X) as (w & Ew). unfold body in Ew. rewrite <- E in Ew.
  change (lenN []) with 0 in Ew. rewrite Ew. now exists w.
Qed.
Lemma meanings vars (parts : list (str * str)) :
  (exists ms, Forall2 (fun p k => means vars (snd p) k) parts ms) \/ (exists p, In p parts /\ forall k, ~ means vars (snd p) k).
Proof.
  induction parts as [|p parts IH]; [left; exists []; constructor|].
  destruct (means_dec vars (snd p)) as [(m & Hm)|N]; [|right; exists p; split; [now left|exact N]].
  destruct IH as [(ms & F)|(q & I & N)]; [left; exists (m :: ms); now constructor|right; exists q; split; [now right|exact N]].
Qed.
Lemma gen_new_total re_ok re s vars files : is_panic (gen_new re_ok re s vars files) = false.
Proof.
  destruct (decomposes s) as (parts & tail & D). destruct (re_ok re) eqn:R.
  - destruct (meanings vars parts) as [(ms & F)|X].
    + destruct (gen_new_ok re_ok re s vars files parts tail ms R D F) as (g & -> & _). reflexivity.
    + destruct (gen_new_unknown re_ok re s vars files parts tail D (or_introl X)) as (w & ->). reflexivity.
  - destruct (gen_new_unknown re_ok re s vars files parts tail D (or_intror R)) as (w & ->). reflexivity.
Qed.

(** ** Variables *)
Lemma var_get_insert k k' v m : var_get k (var_insert k' v m) = if str_eqb k k' then Some v else var_get k m.
Proof.
  unfold var_get, var_insert. cbn [afind]. destruct (str_eqb k k') eqn:E; [reflexivity|].
  induction m as [|[a b] m IH]; [reflexivity|]. cbn [filter fst]. destruct (str_eqb k' a) eqn:Ea; cbn [negb].
  - apply str_eqb_eq in Ea. subst a. cbn [afind]. rewrite E. exact IH.
  - cbn [afind]. destruct (str_eqb k a); [reflexivity|exact IH].
Qed.
Lemma var_insert_nodup k v m : NoDup (map fst m) -> NoDup (map fst (var_insert k v m)).
Proof.
  intros H. unfold var_insert. cbn [map fst]. constructor.
  - intros I. apply in_map_iff in I. destruct I as ((a & b) & E & I). cbn in E. subst a. apply filter_In in I. destruct I as [_ I].
    cbn in I. rewrite str_eqb_refl in I. discriminate.
  - induction m as [|[a b] m IH]; [constructor|]. inversion H; subst. cbn [filter fst]. destruct (negb _); [|auto].
    cbn [map fst]. constructor; [|auto]. intros I. apply H2. apply in_map_iff in I. destruct I as (x & E & I).
    apply filter_In in I. apply in_map_iff. exists x. tauto.
Qed.
Lemma var_get_In k v m : NoDup (map fst m) -> (var_get k m = Some v <-> In (k, v) m).
Proof.
  unfold var_get. induction m as [|[a b] m IH]; cbn [afind map fst]; intros H; [split; [discriminate|contradiction]|].
  inversion H; subst. destruct (str_eqb k a) eqn:E.
  - apply str_eqb_eq in E. subst a. split.
    + intros [= ->]. now left.
    + intros [[= ->]|I]; [reflexivity|]. exfalso. apply H2. apply in_map_iff. exists (k, v). auto.
  - rewrite IH by assumption. split; [now right|]. intros [[= -> ->]|I]; [rewrite str_eqb_refl in E; discriminate|exact I].
Qed.
Lemma split_eq_spec v : match split_eq v with
  | (k, Some x) => is_pair v (k, x)
  | (k, None) => ~ In c_eq v
  end.
Proof.
  induction v as [|c v IH]; cbn [split_eq]; [auto|]. destruct (N.eqb_spec c c_eq) as [->|Hc].
  - split; [reflexivity|intros []].
  - destruct (split_eq v) as [k [x|]].
    + destruct IH as [E N]. cbn [fst snd] in *. split; [cbn; now rewrite E|]. cbn. intros [|]; auto.
    + cbn. intros [|]; auto.
Qed.
Lemma pair_unique v p q : is_pair v p -> is_pair v q -> p = q.
Proof.
  destruct p as [k x], q as [k' x']. unfold is_pair. cbn [fst snd]. intros [E N] [E' N']. subst v. revert k' E' N'.
  induction k as [|c k IH]; intros k' E' N'; destruct k' as [|c' k']; cbn [app] in E'; inversion E'; subst.
  - reflexivity.
  - exfalso. apply N'. now left.
  - exfalso. apply N. now left.
  - assert (H : (k, x) = (k', x')) by (apply IH; [intros I; apply N; now right|assumption|intros I; apply N'; now right]). now inversion H.
Qed.
Lemma last_value_nil k x : ~ last_value [] k x.
Proof. intros (a & b & E & _). destruct a; discriminate. Qed.
Lemma last_value_snoc ps p k x : last_value (ps ++ [p]) k x <-> (p = (k, x) \/ (fst p <> k /\ last_value ps k x)).
Proof.
  split.
  - intros (a & b & E & N). destruct b as [|y b _] using rev_ind.
    + apply app_inj_tail in E. left. tauto.
    + change ((k, x) :: b ++ [y]) with (((k, x) :: b) ++ [y]) in E. rewrite app_assoc in E. apply app_inj_tail in E. destruct E as [-> ->].
      rewrite map_app in N. right. split.
      * intros <-. apply N. apply in_or_app. right. now left.
      * exists a, b. split; [reflexivity|]. intros I. apply N. apply in_or_app. now left.
  - intros [->|[N (a & b & -> & N')]].
    + exists ps, []. split; [reflexivity|auto].
    + exists a, (b ++ [p]). split; [now rewrite <- app_assoc|]. rewrite map_app. intros I. apply in_app_or in I. destruct I as [|[|[]]]; auto.
Qed.
Lemma get_variables_ok (l : list str) ps : Forall2 is_pair l ps ->
  exists m, get_variables (Some l) = Ok m /\ NoDup (map fst m) /\ forall k x, var_get k m = Some x <-> last_value ps k x.
Proof.
  intros F. cbn [get_variables].
  revert ps F. induction l as [|v l IH] using rev_ind; intros ps F.
  - inversion F; subst. exists []. cbn [foldM]. splits; [reflexivity|constructor|]. intros k x. split; [discriminate|intros H; now apply last_value_nil in H].
  - apply Forall2_app_inv_l in F. destruct F as (ps' & q & F1 & F2 & ->). inversion F2 as [|? p ? ? Hp F3]; subst. inversion F3; subst.
    destruct (IH _ F1) as (m & E & N & H). rewrite foldM_app, E. cbn [bind foldM].
    pose proof (split_eq_spec v) as S. destruct (split_eq v) as [k' [x'|]].
    + pose proof (pair_unique _ _ _ S Hp). subst p. cbn [bind]. eexists. splits; [reflexivity|now apply var_insert_nodup|].
      intros k x. rewrite var_get_insert, last_value_snoc. cbn [fst]. destruct (str_eqb k k') eqn:Ek.
      * apply str_eqb_eq in Ek. subst k'. split; [intros [= ->]; now left|]. intros [[= ->]|[C _]]; [reflexivity|congruence].
      * rewrite H. split.
        -- intros L. right. split; [|exact L]. intros ->. rewrite str_eqb_refl in Ek. discriminate.
        -- intros [[= -> ->]|[_ L]]; [rewrite str_eqb_refl in Ek; discriminate|exact L].
    + exfalso. apply S. destruct Hp as [-> _]. apply in_or_app. right. now left.
Qed.
Lemma get_variables_err (l : list str) (v : str) : In v l -> ~ In c_eq v -> get_variables (Some l) = Err "Invalid pair".
Proof.
  cbn [get_variables]. generalize (@nil (str * str)). induction l as [|w l IH]; intros m I N; [contradiction|].
  cbn [foldM]. pose proof (split_eq_spec w) as S. destruct (split_eq w) as [k [x|]]; [|reflexivity].
  cbn [bind]. destruct I as [->|I]; [exfalso; apply N; destruct S as [-> _]; apply in_or_app; right; now left|]. now apply IH.
Qed.
Lemma get_variables_inv vs m : get_variables vs = Ok m -> exists ps, Forall2 is_pair (opt_list vs) ps /\ NoDup (map fst m) /\ forall k x, var_get k m = Some x <-> last_value ps k x.
Proof.
  destruct vs as [l|].
  2:{ intros [= <-]. exists []. splits; [constructor|constructor|]. intros k x. split; [discriminate|intros H; now apply last_value_nil in H]. }
  intros E. cbn [opt_list]. assert (H : exists ps, Forall2 is_pair l ps).
  { assert (A : forall v, In v l -> In c_eq v).
    { intros v I. destruct (in_dec N.eq_dec c_eq v) as [J|J]; [exact J|]. rewrite (get_variables_err _ _ I J) in E. discriminate. }
    clear E. induction l as [|v l IH]; [exists []; constructor|]. destruct IH as (ps & F); [intros; apply A; now right|].
    pose proof (split_eq_spec v) as S. destruct (split_eq v) as [k [x|]].
    - exists ((k, x) :: ps). now constructor.
    - exfalso. apply S. apply A. now left. }
  destruct H as (ps & F). exists ps. destruct (get_variables_ok _ _ F) as (m' & E' & N & H). rewrite E' in E. inversion E; subst. auto.
Qed.
Definition overridden (cli file both : Vars) : Prop :=
  forall k, var_get k both = match var_get k cli with Some v => Some v | None => var_get k file end.
Lemma overrides_get cli file both : overridden cli file both -> overrides cli file both.
Proof.
  intros H k x. rewrite !stands_get, absent_get, (H k). destruct (var_get k cli) as [v|]; split; auto; intros [E|[E F]]; auto; discriminate.
Qed.
Lemma fold_insert l m : NoDup (map fst l) -> overridden l m (fold_left (fun m kv => var_insert (fst kv) (snd kv) m) l m).
Proof.
  revert m. induction l as [|[a b] l IH]; intros m H k; [reflexivity|]. inversion H; subst. cbn [fold_left fst snd].
  rewrite (IH (var_insert a b m)) by assumption. rewrite var_get_insert. unfold var_get at 3. cbn [afind].
  destruct (str_eqb k a) eqn:E; [|reflexivity]. apply str_eqb_eq in E. subst a.
  destruct (var_get k l) as [v|] eqn:G; [|reflexivity]. apply var_get_In in G; [|assumption]. exfalso. apply H2.
  apply in_map_iff. exists (k, v). auto.
Qed.
Lemma overrides_perm l l' m b : Permutation l l' -> NoDup (map fst l) -> overridden l m b -> overridden l' m b.
Proof.
  intros P N H k. rewrite (H k). assert (E : var_get k l = var_get k l').
  { assert (N' : NoDup (map fst l')) by (eapply Permutation_NoDup; [apply Permutation_map; exact P|exact N]).
    destruct (var_get k l) as [v|] eqn:G.
    - symmetry. apply var_get_In; [exact N'|]. apply (Permutation_in _ P). now apply var_get_In.
    - destruct (var_get k l') as [v|] eqn:G'; [|reflexivity]. apply var_get_In in G'; [|exact N'].
      apply (Permutation_in _ (Permutation_sym P)) in G'. apply var_get_In in G'; [congruence|exact N]. }
  now rewrite E.
Qed.

(** ** Rules *)
Lemma mapM_Forall2 {A B} (f : A -> res B) l l' : mapM f l = Ok l' <-> Forall2 (fun x y => f x = Ok y) l l'.
Proof.
  revert l'. induction l as [|x l IH]; intros l'; cbn [mapM].
  - split; [intros [= <-]; constructor|intros H; inversion H; reflexivity].
  - split.
    + intros H. apply bind_ok in H. destruct H as (y & E & H). apply bind_ok in H. destruct H as (ys & E' & [= <-]). constructor; [exact E|]. now apply IH.
    + intros H. inversion H; subst. apply IH in H4. rewrite H2, H4. reflexivity.
Qed.
Lemma gen_new_files re_ok re s vs files g : gen_new re_ok re s vs files = Ok g -> g_files g = files.
Proof. unfold gen_new. destruct (re_ok re); [|discriminate]. intros H. apply bind_ok in H. destruct H as ([a b] & _ & [= <-]). reflexivity. Qed.
Lemma Forall2_filter {A B} (R : A -> B -> Prop) (p : A -> bool) (q : B -> bool) l l' : (forall x y, R x y -> p x = q y) ->
  Forall2 R l l' -> Forall2 R (filter p l) (filter q l').
Proof.
  intros H F. induction F as [|x y l l' Hx F IH]; [constructor|]. cbn [filter]. rewrite (H x y Hx). destruct (q y); [constructor|]; assumption.
Qed.
Lemma from_file_inv re_ok order vars f gs : (forall m, Permutation (order m) m) -> NoDup (map fst vars) ->
  get_mappings_from_file re_ok order vars (Some (Ok f)) = Ok gs ->
  exists vs, overrides vars (rf_vars f) vs /\
    Forall2 (built re_ok vs) (filter restricted (rf_rules f) ++ filter (fun r => negb (restricted r)) (rf_rules f)) gs.
Proof.
  intros P N H. unfold get_mappings_from_file in H. set (vs := fold_left _ _ _) in H. exists vs. split.
  - apply overrides_get, (overrides_perm (order vars)); [apply P| |].
    + eapply Permutation_NoDup; [apply Permutation_map, Permutation_sym, P|exact N].
    + apply fold_insert. eapply Permutation_NoDup; [apply Permutation_map, Permutation_sym, P|exact N].
  - apply bind_ok in H. destruct H as (gs' & H & [= <-]). apply mapM_Forall2 in H. apply Forall2_app.
    + eapply Forall2_filter; [|exact H]. intros r g E. apply gen_new_files in E. unfold restricted. rewrite E. destruct (ru_files r); reflexivity.
    + eapply Forall2_filter; [|exact H]. intros r g E. apply gen_new_files in E. unfold restricted. rewrite E. destruct (ru_files r); reflexivity.
Qed.
Lemma get_mappings_inv re_ok vars ss ds gs : get_mappings re_ok vars ss ds = Ok gs ->
  lenN (opt_list ss) = lenN (opt_list ds) /\ Forall2 (built re_ok vars) (cli_rules (opt_list ss) (opt_list ds)) gs.
Proof.
  unfold get_mappings. destruct ss as [ss|], ds as [ds|]; cbn [opt_len opt_list].
  - destruct (N.eqb_spec (lenN ss) (lenN ds)); [|discriminate]. intros H. split; [assumption|]. apply mapM_Forall2 in H.
    unfold cli_rules. induction H; cbn [map]; constructor; auto.
  - destruct (_ =? _); discriminate.
  - destruct (_ =? _); discriminate.
  - intros [= <-]. split; [reflexivity|constructor].
Qed.
Lemma mappings_new_inv re_ok order variables ss ds file og : (forall m, Permutation (order m) m) ->
  mappings_new re_ok order variables ss ds file = Ok og ->
  exists cli gf gc, get_variables variables = Ok cli /\ opt_list og = gf ++ gc /\ (og = None <-> gf ++ gc = []) /\
    lenN (opt_list ss) = lenN (opt_list ds) /\ Forall2 (built re_ok cli) (cli_rules (opt_list ss) (opt_list ds)) gc /\
    match file with
    | None => gf = []
    | Some (Ok f) => exists vs, overrides cli (rf_vars f) vs /\ Forall2 (built re_ok vs) (filter restricted (rf_rules f) ++ filter (fun r => negb (restricted r)) (rf_rules f)) gf
    | Some _ => False
    end.
Proof.
  intros P H. unfold mappings_new in H. apply bind_ok in H. destruct H as (cli & Hv & H). apply bind_ok in H. destruct H as (gf & Hf & H).
  apply bind_ok in H. destruct H as (gc & Hc & H). exists cli, gf, gc. apply get_mappings_inv in Hc. destruct Hc as [Hl Hc].
  splits; auto.
  - destruct (gf ++ gc); inversion H; reflexivity.
  - destruct (gf ++ gc); inversion H; split; congruence.
  - destruct file as [[f|m|m]|]; [|discriminate|discriminate|now inversion Hf].
    apply get_variables_inv in Hv. destruct Hv as (_ & _ & N & _). exact (from_file_inv re_ok order cli f gf P N Hf).
Qed.
Lemma first_some e gs f s : first_mapping e gs f = Ok (Some s) <->
  exists a g b, gs = a ++ g :: b /\ Forall (fun h => gen_apply e h f = Ok None) a /\ gen_apply e g f = Ok (Some s).
Proof.
  induction gs as [|g gs IH]; cbn [first_mapping].
  - split; [discriminate|]. intros (a & g & b & E & _). destruct a; discriminate.
  - split.
    + intros H. apply bind_ok in H. destruct H as ([r|] & E & H).
      * inversion H; subst. exists [], g, gs. auto.
      * apply IH in H. destruct H as (a & h & b & -> & F & Eh). exists (g :: a), h, b. splits; auto.
    + intros (a & h & b & E & F & Eh). destruct a as [|x a]; inversion E; subst.
      * rewrite Eh. reflexivity.
      * inversion F; subst. rewrite H1. cbn [bind]. apply IH. exists a, h, b. auto.
Qed.
Lemma first_none e gs f : first_mapping e gs f = Ok None <-> Forall (fun h => gen_apply e h f = Ok None) gs.
Proof.
  induction gs as [|g gs IH]; cbn [first_mapping]; [split; auto|]. split.
  - intros H. apply bind_ok in H. destruct H as ([r|] & E & H); [discriminate|]. constructor; [exact E|]. now apply IH.
  - intros H. inversion H; subst. rewrite H2. cbn [bind]. now apply IH.
Qed.
Lemma first_err e gs f w : first_mapping e gs f = Err w <->
  exists a g b, gs = a ++ g :: b /\ Forall (fun h => gen_apply e h f = Ok None) a /\ gen_apply e g f = Err w.
Proof.
  induction gs as [|g gs IH]; cbn [first_mapping].
  - split; [discriminate|]. intros (a & g & b & E & _). destruct a; discriminate.
  - destruct (gen_apply e g f) as [[r|]|w'|w'] eqn:Eg; cbn [bind].
    + split; [discriminate|]. intros (a & h & b & E & F & Eh). destruct a as [|x a]; inversion E; subst; [congruence|inversion F; congruence].
    + rewrite IH. split.
      * intros (a & h & b & -> & F & Eh). exists (g :: a), h, b. auto.
      * intros (a & h & b & E & F & Eh). destruct a as [|x a]; inversion E; subst; [congruence|]. inversion F; subst. exists a, h, b. auto.
    + split.
      * intros [= ->]. exists [], g, gs. auto.
      * intros (a & h & b & E & F & Eh). destruct a as [|x a]; inversion E; subst; [congruence|inversion F; congruence].
    + split; [discriminate|]. intros (a & h & b & E & F & Eh). destruct a as [|x a]; inversion E; subst; [congruence|inversion F; congruence].
Qed.
Lemma first_panic e gs f w : first_mapping e gs f = Panic w <->
  exists a g b, gs = a ++ g :: b /\ Forall (fun h => gen_apply e h f = Ok None) a /\ gen_apply e g f = Panic w.
Proof.
  induction gs as [|g gs IH]; cbn [first_mapping].
  - split; [discriminate|]. intros (a & g & b & E & _). destruct a; discriminate.
  - destruct (gen_apply e g f) as [[r|]|w'|w'] eqn:Eg; cbn [bind].
    + split; [discriminate|]. intros (a & h & b & E & F & Eh). destruct a as [|x a]; inversion E; subst; [congruence|inversion F; congruence].
    + rewrite IH. split.
      * intros (a & h & b & -> & F & Eh). exists (g :: a), h, b. auto.
      * intros (a & h & b & E & F & Eh). destruct a as [|x a]; inversion E; subst; [congruence|]. inversion F; subst. exists a, h, b. auto.
    + split; [discriminate|]. intros (a & h & b & E & F & Eh). destruct a as [|x a]; inversion E; subst; [congruence|inversion F; congruence].
    + split.
      * intros [= ->]. exists [], g, gs. auto.
      * intros (a & h & b & E & F & Eh). destruct a as [|x a]; inversion E; subst; [congruence|inversion F; congruence].
Qed.

(** ** The memo *)
Definition memo_ok (e : MapEnv) (gs : list Gen) (m : Memo) : Prop :=
  (forall f r, var_get f (fst m) = Some r -> first_mapping e gs f = Ok (Some r)) /\
  (forall f r, In (f, r) (snd m) -> first_mapping e gs f = Ok (Some r)).
Lemma insert_memo e gs c f r : (forall f r, var_get f c = Some r -> first_mapping e gs f = Ok (Some r)) -> first_mapping e gs f = Ok (Some r) ->
  forall f' r', var_get f' (var_insert f r c) = Some r' -> first_mapping e gs f' = Ok (Some r').
Proof.
  intros H E f' r' G. rewrite var_get_insert in G. destruct (str_eqb f' f) eqn:X; [|auto]. apply str_eqb_eq in X. congruence.
Qed.
Lemma reachable_ok e gs m : reachable e gs m -> memo_ok e gs m.
Proof.
  intros R. induction R as [|m f x m' R IH S|c a f r b R IH].
  - split; cbn; [discriminate|contradiction].
  - destruct S as [c p f r G|c p f r G E|c p f x G E N]; [exact IH| |exact IH]. destruct IH as [I1 I2]. split; [exact I1|].
    cbn [snd]. intros f' r' [[= <- <-]|I]; [exact E|now apply I2].
  - destruct IH as [I1 I2]. cbn [fst snd] in *. split; cbn [fst snd].
    + apply insert_memo; [exact I1|]. apply I2. apply in_or_app. right. now left.
    + intros f' r' I. apply I2. apply in_app_or in I. apply in_or_app. destruct I; [left|right; right]; assumption.
Qed.
Lemma lookup_exact e gs m f x m' : reachable e gs m -> lookup_step e gs m f x m' -> x = first_mapping e gs f.
Proof.
  intros R S. apply reachable_ok in R. destruct R as [R _]. destruct S; cbn [fst] in *; [symmetry; now apply R|now symmetry|now symmetry].
Qed.
Lemma lookup_progress e gs m f : exists x m', lookup_step e gs m f x m'.
Proof.
  destruct m as [c p]. destruct (var_get f c) as [r|] eqn:G; [eexists; eexists; econstructor; exact G|].
  destruct (first_mapping e gs f) as [[r|]|w|w] eqn:E.
  - do 2 eexists. eapply look_found; eassumption.
  - do 2 eexists. eapply look_other; [exact G|exact E|discriminate].
  - do 2 eexists. eapply look_other; [exact G|exact E|discriminate].
  - do 2 eexists. eapply look_other; [exact G|exact E|discriminate].
Qed.
Lemma lookups_exact e gs l c : (forall f r, var_get f c = Some r -> first_mapping e gs f = Ok (Some r)) ->
  lookups e gs c l = map (first_mapping e gs) l.
Proof.
  revert c. induction l as [|f l IH]; intros c H; [reflexivity|]. cbn [lookups map]. unfold map_path.
  destruct (var_get f c) as [r|] eqn:G; [rewrite (H _ _ G); f_equal; now apply IH|].
  destruct (first_mapping e gs f) as [[r|]|w|w] eqn:E; f_equal; apply IH; auto. now apply insert_memo.
Qed.
Lemma retry e1 e2 gs c f : (forall r, fst (map_path e1 gs c f) <> Ok (Some r)) ->
  snd (map_path e1 gs c f) = c /\ fst (map_path e2 gs c f) = first_mapping e2 gs f.
Proof.
  unfold map_path. destruct (var_get f c) as [r|]; cbn [fst snd].
  - intros H. now elim (H r).
  - destruct (first_mapping e1 gs f) as [[r|]|w|w]; cbn [fst snd]; intros H; [now elim (H r)|..];
      (split; [reflexivity|destruct (first_mapping e2 gs f) as [[r'|]| |]; reflexivity]).
Qed.

(** Checkers for concrete templates. *)
Fixpoint literal_b (t : str) : bool :=
  match t with
  | [] => true
  | c :: r => if c =? c_open then negb (existsb (N.eqb c_close) r) else literal_b r
  end.
Lemma existsb_In c l : existsb (N.eqb c) l = true <-> In c l.
Proof.
  rewrite existsb_exists. split.
  - intros (x & I & E). apply N.eqb_eq in E. now subst.
  - intros I. exists c. split; [exact I|apply N.eqb_refl].
Qed.
Lemma literal_b_ok t : literal_b t = true -> literal t.
Proof.
  induction t as [|c r IH]; cbn [literal_b]; [intros _; apply literal_nil|]. destruct (N.eqb_spec c c_open) as [->|Hc].
  - intros H. apply literal_no_close. intros [I|I]; [discriminate|]. apply existsb_In in I. now rewrite I in H.
  - intros H a b E I. destruct a as [|x a]; inversion E; subst; [contradiction|]. destruct I as [|I]; [contradiction|].
    exact (IH H a b eq_refl I).
Qed.
Definition action_b (t : str) : bool := negb (existsb (N.eqb c_open) t) && negb (existsb (N.eqb c_close) t).
Lemma action_b_ok t : action_b t = true -> action_text t.
Proof.
  unfold action_b. intros H. split; intros I; apply existsb_In in I; rewrite I in H; cbn in H; [discriminate|].
  destruct (existsb _ t); discriminate.
Qed.
Lemma decomposed_b s parts tail : forallb (fun p => literal_b (fst p) && action_b (snd p)) parts && literal_b tail &&
  str_eqb s (body parts ++ tail) = true -> decomposed s parts tail.
Proof.
  intros H. apply andb_prop in H. destruct H as [H E]. apply andb_prop in H. destruct H as [F L]. split; [|split].
  - apply Forall_forall. intros p I. rewrite forallb_forall in F. specialize (F p I). apply andb_prop in F. destruct F.
    split; [now apply literal_b_ok|now apply action_b_ok].
  - now apply literal_b_ok.
  - now apply str_eqb_eq.
Qed.

Lemma gen_list_total re_ok vars (l : list (str * str)) : is_panic (mapM (fun sd => gen_new re_ok (fst sd) (snd sd) vars []) l) = false.
Proof.
  induction l as [|p l IH]; [reflexivity|]. cbn [mapM]. pose proof (gen_new_total re_ok (fst p) (snd p) vars []) as T.
  destruct (gen_new _ _ _ _ _); cbn [bind]; [|reflexivity|discriminate]. destruct (mapM _ l); [reflexivity..|discriminate].
Qed.
Lemma get_mappings_pairs re_ok vars ss ds : lenN (opt_list ss) = lenN (opt_list ds) -> (ss = None <-> ds = None) ->
  is_panic (get_mappings re_ok vars ss ds) = false /\
  forall gs, get_mappings re_ok vars ss ds = Ok gs <-> Forall2 (built re_ok vars) (cli_rules (opt_list ss) (opt_list ds)) gs.
Proof.
  intros L N. unfold get_mappings. destruct ss as [ss|], ds as [ds|]; cbn [opt_len opt_list] in *.
  - rewrite L, N.eqb_refl. split; [apply gen_list_total|]. intros gs. rewrite mapM_Forall2. unfold cli_rules. split.
    + intros F. induction F; cbn [map]; constructor; auto.
    + revert gs. induction (combine ss ds) as [|p l IH]; cbn [map]; intros gs F; inversion F; subst; constructor; auto.
  - discriminate (proj2 N eq_refl).
  - discriminate (proj1 N eq_refl).
  - split; [reflexivity|]. intros gs. split; [intros [= <-]; constructor|intros H; inversion H; reflexivity].
Qed.
