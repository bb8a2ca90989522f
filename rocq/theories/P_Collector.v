From Verif Require Import Base Sort BMap Str M_Names M_Path M_Line S_Line P_Line M_Source S_Source P_Source M_Symbol S_Symbol P_Symbol M_Collector S_Collector.

(** Induction over function trees. *)
Fixpoint Fun_ind' (P : Fun -> Prop)
    (H : forall a s n ls inls, Forall P inls -> P (mkFun a s n ls inls)) (f : Fun) : P f :=
  match f with
  | mkFun a s n ls inls =>
      H a s n ls inls ((fix go l : Forall P l := match l with [] => Forall_nil _ | g :: t => Forall_cons g (Fun_ind' P H g) (go t) end) inls)
  end.

(** * The collection with fixed numberings *)
Fixpoint pwalk (ck : bool) (fid : FileRef -> N) (depth : N) (ls : list DLine) (skip : option N) (inl : list IR)
    (prev : option (N * N)) : res (list Ins) :=
  match ls with
  | [] => Ok []
  | l :: t =>
      if match skip with Some c => d_addr l <? c | None => false end then pwalk ck fid depth t skip inl prev
      else
        lend <- line_end ck l ;;
        ' q <- line_loop ck depth (u32 (d_line l)) (fid (d_file l)) lend inl (d_addr l) prev ;;
        let '(c, i, p, o) := q in
        r <- pwalk ck fid depth t (Some c) i p ;;
        Ok (o ++ r)
  end.

Fixpoint prec (e : CEnv) (fid : FileRef -> N) (oid : Name -> N) (f : Fun) (depth : N) {struct f} : res (list Ins) :=
  match f with
  | mkFun _ _ _ lines inls =>
      ' r <- (fix go (gs : list Fun) (irs : list IR) {struct gs} : res (list IR * list Ins) :=
          match gs with
          | [] => Ok (irs, [])
          | g :: t =>
              match f_lines g with
              | [] => go t irs
              | _ =>
                  rs <- line_ranges (ce_ck e) (oid (f_name g)) (f_lines g) ;;
                  ev <- prec e fid oid g (depth + 1) ;;
                  ' r <- go t (irs ++ rs) ;;
                  Ok (fst r, ev ++ snd r)
              end
          end) inls [] ;;
      w <- pwalk (ce_ck e) fid depth lines None (ce_sort e (fst r)) None ;;
      Ok (snd r ++ w)
  end.
Definition pinl (e : CEnv) (fid : FileRef -> N) (oid : Name -> N) (depth : N) : list Fun -> list IR -> res (list IR * list Ins) :=
  fix pinl (gs : list Fun) (irs : list IR) {struct gs} : res (list IR * list Ins) :=
  match gs with
  | [] => Ok (irs, [])
  | g :: t =>
      match f_lines g with
      | [] => pinl t irs
      | _ =>
          rs <- line_ranges (ce_ck e) (oid (f_name g)) (f_lines g) ;;
          ev <- prec e fid oid g (depth + 1) ;;
          ' r <- pinl t (irs ++ rs) ;;
          Ok (fst r, ev ++ snd r)
      end
  end.
Lemma prec_eq e fid oid f depth : prec e fid oid f depth =
  (' r <- pinl e fid oid depth (f_inl f) [] ;;
   w <- pwalk (ce_ck e) fid depth (f_lines f) None (ce_sort e (fst r)) None ;;
   Ok (snd r ++ w)).
Proof. destruct f; reflexivity. Qed.

Definition cinl (e : CEnv) (depth : N) : list Fun -> list IR -> Src -> Orig -> res (list IR * CState) :=
  fix cinl (gs : list Fun) (irs : list IR) (s : Src) (o : Orig) {struct gs} : res (list IR * CState) :=
  match gs with
  | [] => Ok (irs, ([], s, o))
  | g :: t =>
      match f_lines g with
      | [] => cinl t irs s o
      | _ =>
          let '(oid, o1) := orig_get_id (ce_dm e) (f_name g) o in
          rs <- line_ranges (ce_ck e) oid (f_lines g) ;;
          ' st <- collect_rec e g (depth + 1) s o1 ;;
          let '(ev, s2, o2) := st in
          ' r <- cinl t (irs ++ rs) s2 o2 ;;
          let '(irs', (ev', s3, o3)) := r in
          Ok (irs', (ev ++ ev', s3, o3))
      end
  end.
Lemma pinl_cons e fid oid depth g t irs : pinl e fid oid depth (g :: t) irs =
  match f_lines g with
  | [] => pinl e fid oid depth t irs
  | _ =>
      rs <- line_ranges (ce_ck e) (oid (f_name g)) (f_lines g) ;;
      ev <- prec e fid oid g (depth + 1) ;;
      ' r <- pinl e fid oid depth t (irs ++ rs) ;;
      Ok (fst r, ev ++ snd r)
  end.
Proof. reflexivity. Qed.
Lemma cinl_cons e depth g t irs s o : cinl e depth (g :: t) irs s o =
  match f_lines g with
  | [] => cinl e depth t irs s o
  | _ =>
      let '(oid, o1) := orig_get_id (ce_dm e) (f_name g) o in
      rs <- line_ranges (ce_ck e) oid (f_lines g) ;;
      ' st <- collect_rec e g (depth + 1) s o1 ;;
      let '(ev, s2, o2) := st in
      ' r <- cinl e depth t (irs ++ rs) s2 o2 ;;
      let '(irs', (ev', s3, o3)) := r in
      Ok (irs', (ev ++ ev', s3, o3))
  end.
Proof. reflexivity. Qed.
Lemma collect_rec_eq e f depth s o : collect_rec e f depth s o =
  (' r <- cinl e depth (f_inl f) [] s o ;;
   let '(irs, (ev, s1, o1)) := r in
   ' w <- walk_lines e depth (f_lines f) None (ce_sort e irs) None s1 ;;
   Ok (ev ++ fst w, snd w, o1)).
Proof. destruct f; reflexivity. Qed.

(** Numberings that agree with (final) tables. *)
Definition fagree (e : SrcEnv) (P : list str) (fid : FileRef -> N) : Prop :=
  forall r i, nthN P i = Some (env_path e r) -> fid r = i.
Definition oagree (ns : list Name) (oid : Name -> N) : Prop :=
  forall n i, nthN ns i = Some n -> oid n = i.
Lemma extends_nth' {A} (P P' : list A) i x : extends P P' -> nthN P i = Some x -> nthN P' i = Some x.
Proof. intros [Q ->] H. rewrite nthN_app1; auto. eapply nthN_some_lt; eauto. Qed.
Lemma fagree_ext e P P' fid : extends P P' -> fagree e P' fid -> fagree e P fid.
Proof. intros X A r i H. apply A. eapply extends_nth'; eauto. Qed.
Lemma oagree_ext P P' oid : extends P P' -> oagree P' oid -> oagree P oid.
Proof. intros X A r i H. apply A. eapply extends_nth'; eauto. Qed.

(** Ids in the calls. *)
Definition ins_in (nf no : N) (i : Ins) : Prop :=
  match i with
  | InsLine _ _ f => f < nf
  | InsInline s _ => s_file s < nf /\ s_origin s < no
  end.
Lemma ins_in_mono nf no nf' no' i : nf <= nf' -> no <= no' -> ins_in nf no i -> ins_in nf' no' i.
Proof. destruct i; simpl; lia. Qed.
Lemma extends_len {A} (P P' : list A) : extends P P' -> lenN P <= lenN P'.
Proof. intros [Q ->]. rewrite lenN_app. lia. Qed.

Ltac forall_if := match goal with |- Forall _ (if ?b then _ else _) => destruct b end; repeat constructor; simpl; auto.
Lemma line_loop_in ck depth ln file lend inl cur prev c i p o nf no :
  line_loop ck depth ln file lend inl cur prev = Ok (c, i, p, o) -> file < nf ->
  Forall (fun r => i_origin r < no) inl -> Forall (ins_in nf no) o /\ Forall (fun r => i_origin r < no) i.
Proof.
  revert cur prev c i p o. induction inl as [|r inl IH]; intros cur prev c i p o; cbn [line_loop].
  - destruct (cur <? lend); intros H Hf Ho; inversion H; subst; split; auto.
    forall_if.
  - destruct (cur <? lend); [|intros H Hf Ho; inversion H; subst; split; auto].
    destruct (i_start r <? lend).
    + intros H Hf Ho. inversion Ho; subst. apply bind_ok in H as (len & _ & H). apply bind_ok in H as ([[[c' i'] p'] o'] & H1 & H).
      inversion H; subst. destruct (IH _ _ _ _ _ _ H1 Hf) as (F1 & F2); auto. split; auto.
      apply Forall_app; split; [forall_if|]. constructor; simpl; auto.
    + intros H Hf Ho. inversion H; subst. split; auto. forall_if.
Qed.

Lemma walk_pure e kp depth no : forall ls skip inl prev P s evs s', SrcInv (ce_src e) kp P s ->
  (forall l, In l ls -> kp (fr_key (d_file l)) = env_path (ce_src e) (d_file l)) ->
  walk_lines e depth ls skip inl prev s = Ok (evs, s') ->
  Forall (fun r => i_origin r < no) inl ->
  exists P', SrcInv (ce_src e) kp P' s' /\ extends P P' /\
    (forall fid, fagree (ce_src e) P' fid -> pwalk (ce_ck e) fid depth ls skip inl prev = Ok evs) /\
    Forall (ins_in (lenN P') no) evs.
Proof.
  induction ls as [|l ls IH]; intros skip inl prev P s evs s' I K H Ho; cbn [walk_lines pwalk] in *.
  - inversion H; subst. exists P; splits; auto using extends_refl.
  - assert (K' : forall l, In l ls -> kp (fr_key (d_file l)) = env_path (ce_src e) (d_file l)) by (intros; apply K; now right).
    destruct (match skip with Some c => d_addr l <? c | None => false end).
    + eapply IH; eauto.
    + apply bind_ok in H as (lend & Hl & H). apply bind_ok in H as ([file s1] & Hf & H).
      destruct (lookup_inv (ce_src e) kp P s (d_file l) I (K l (or_introl eq_refl))) as (i & P1 & s1' & E1 & I1 & X1 & N1 & _).
      rewrite Hf in E1. inversion E1; subst i s1'. clear E1.
      apply bind_ok in H as ([[[c inl'] p'] o] & Hq & H). cbv beta iota in H. cbn [fst snd] in *.
      apply bind_ok in H as ([ev2 s2] & Hw & H). inversion H; subst. cbn [fst snd] in *.
      destruct (line_loop_in _ _ _ _ _ _ _ _ _ _ _ _ (lenN P1) no Hq) as (F1 & F2); auto.
      { eapply nthN_some_lt; eauto. }
      destruct (IH _ _ _ _ _ _ _ I1 K' Hw F2) as (P2 & I2 & X2 & A2 & G2).
      exists P2. splits; auto.
      * eapply extends_trans; eauto.
      * intros fid A. rewrite Hl. cbn [bind].
        assert (fid (d_file l) = file) as -> by (apply (fagree_ext _ _ _ _ X2 A); auto).
        rewrite Hq. cbn [bind]. rewrite (A2 fid A). reflexivity.
      * apply Forall_app; split; auto. eapply Forall_impl; [|exact F1]. intros x. apply ins_in_mono; [now apply extends_len|lia].
Qed.

Lemma line_ranges_origin ck oid ls rs : line_ranges ck oid ls = Ok rs -> Forall (fun r => i_origin r = oid) rs.
Proof.
  unfold line_ranges. revert rs. induction ls as [|l ls IH]; simpl; intros rs H; [inversion H; constructor|].
  apply bind_ok in H as (r & H1 & H). apply bind_ok in H as (rs' & H2 & H). inversion H; subst.
  apply bind_ok in H1 as (x & _ & H1). inversion H1; subst. constructor; auto.
Qed.

Lemma sorts_perm us : sorts_ranges us -> sort_perm us. Proof. intros H l. apply H. Qed.

Lemma rec_pure e kp : sort_perm (ce_sort e) -> forall f depth P ns s o evs s' o',
  SrcInv (ce_src e) kp P s -> OrigInv (ce_dm e) ns o ->
  (forall r, In r (fun_refs f) -> kp (fr_key r) = env_path (ce_src e) r) ->
  collect_rec e f depth s o = Ok (evs, s', o') ->
  exists P' ns', SrcInv (ce_src e) kp P' s' /\ OrigInv (ce_dm e) ns' o' /\ extends P P' /\ extends ns ns' /\
    (forall fid oid, fagree (ce_src e) P' fid -> oagree ns' oid -> prec e fid oid f depth = Ok evs) /\
    Forall (ins_in (lenN P') (lenN ns')) evs.
Proof.
  intros US. induction f as [a sz n ls inls IH] using Fun_ind'. intros depth P ns s o evs s' o' I J K H.
  rewrite collect_rec_eq in H. cbn [f_inl f_lines] in H.
  apply bind_ok in H as ([irs [[ev s1] o1]] & Hg & H). cbv beta iota in H.
  apply bind_ok in H as ([ev2 s2] & Hw & H). inversion H; subst; clear H. cbn [fst snd] in *.
  assert (G : forall gs irs0 irs P ns s o ev s1 o1,
    Forall (fun g => In g inls) gs ->
    SrcInv (ce_src e) kp P s -> OrigInv (ce_dm e) ns o ->
    Forall (fun r => i_origin r < lenN ns) irs0 ->
    cinl e depth gs irs0 s o = Ok (irs, (ev, s1, o1)) ->
    exists P' ns', SrcInv (ce_src e) kp P' s1 /\ OrigInv (ce_dm e) ns' o1 /\ extends P P' /\ extends ns ns' /\
    (forall fid oid, fagree (ce_src e) P' fid -> oagree ns' oid -> pinl e fid oid depth gs irs0 = Ok (irs, ev)) /\
    Forall (ins_in (lenN P') (lenN ns')) ev /\ Forall (fun r => i_origin r < lenN ns') irs).
  { clear - IH K. induction gs as [|g gs IHg]; intros irs0 irs P ns s o ev s1 o1 Hin I J Ho H.
    - inversion H; subst. exists P, ns. splits; auto using extends_refl.
    - rewrite cinl_cons in H. setoid_rewrite pinl_cons. inversion Hin as [|? ? Hg Hgs]; subst. destruct (f_lines g) as [|l0 ls0] eqn:El.
      { eapply IHg; eauto. }
      rewrite <- El in *. clear El l0 ls0.
      destruct (orig_inv (ce_dm e) ns o (f_name g) J) as (oid & ns1 & o2 & E1 & J1 & X1 & N1 & _).
      rewrite E1 in H. apply bind_ok in H as (rs & Hr & H). apply bind_ok in H as ([[ev1 s2] o3] & Hc & H).
      cbv beta iota in H. apply bind_ok in H as ([irs' [[ev' s3] o4]] & Hg' & H). inversion H; subst; clear H.
      rewrite Forall_forall in IH. 
      assert (Kg : forall r, In r (fun_refs g) -> kp (fr_key r) = env_path (ce_src e) r).
      { intros r Hr'. apply K. cbn [fun_refs]. apply in_or_app; right. apply in_flat_map; eauto. }
      destruct (IH g Hg _ _ _ _ _ _ _ _ I J1 Kg Hc) as (P2 & ns2 & I2 & J2 & X2 & Y2 & A2 & F2).
      assert (L1 : oid < lenN ns1) by (eapply nthN_some_lt; eauto).
      pose proof (extends_len _ _ X1). pose proof (extends_len _ _ Y2).
      assert (Ho2 : Forall (fun r => i_origin r < lenN ns2) (irs0 ++ rs)).
      { apply Forall_app; split.
        - eapply Forall_impl; [|exact Ho]. cbv beta. intros; lia.
        - apply line_ranges_origin in Hr. eapply Forall_impl; [|exact Hr]. cbv beta. intros; lia. }
      destruct (IHg _ _ _ _ _ _ _ _ _ Hgs I2 J2 Ho2 Hg') as (P3 & ns3 & I3 & J3 & X3 & Y3 & A3 & F3 & G3).
      exists P3, ns3. splits; auto; eauto using extends_trans.
      + intros fid oid' A B.
        assert (oid' (f_name g) = oid) as ->.
        { apply B. exact (extends_nth' _ _ _ _ (extends_trans _ _ _ Y2 Y3) N1). }
        rewrite Hr. cbn [bind]. rewrite (A2 fid oid'); [|eapply fagree_ext; eauto|eapply oagree_ext; eauto].
        cbn [bind]. rewrite (A3 fid oid') by auto. reflexivity.
      + apply Forall_app; split; auto. eapply Forall_impl; [|exact F2]. intros x. apply ins_in_mono; now apply extends_len. }
  destruct (G inls [] irs P ns s o ev s1 o' (proj2 (Forall_forall _ _) (fun _ h => h)) I J (Forall_nil _) Hg) as (P1 & ns1 & I1 & J1 & X1 & Y1 & A1 & F1 & G1).
  assert (Kl : forall l, In l ls -> kp (fr_key (d_file l)) = env_path (ce_src e) (d_file l)).
  { intros l Hl. apply K. cbn [fun_refs]. apply in_or_app; left. now apply in_map. }
  assert (Ho : Forall (fun r => i_origin r < lenN ns1) (ce_sort e irs)).
  { eapply Permutation_Forall; [symmetry; apply US|exact G1]. }
  destruct (walk_pure e kp depth (lenN ns1) _ _ _ _ _ _ _ _ I1 Kl Hw Ho) as (P2 & I2 & X2 & A2 & F2).
  exists P2, ns1. splits; auto; eauto using extends_trans.
  - intros fid oid A B. rewrite prec_eq. cbn [f_inl f_lines]. rewrite (A1 fid oid); auto; [|eapply fagree_ext; eauto].
    cbn [bind fst snd]. rewrite (A2 fid A). reflexivity.
  - apply Forall_app; split; auto. eapply Forall_impl; [|exact F1]. intros x. apply ins_in_mono; [now apply extends_len|lia].
Qed.

(** * Without inlines *)
Fixpoint pflat (fid : FileRef -> N) (ls : list DLine) (prev : option (N * N)) : list Ins :=
  match ls with
  | [] => []
  | l :: t =>
      if d_line l =? 0 then pflat fid t prev
      else if option_eqb info_eqb prev (Some (d_line l, fid (d_file l))) then pflat fid t prev
      else InsLine (u32 (d_addr l)) (u32 (d_line l)) (fid (d_file l)) :: pflat fid t (Some (d_line l, fid (d_file l)))
  end.
Lemma path_index e (P : list str) r : In (env_path e r) P -> exists i, nthN P i = Some (env_path e r).
Proof. intros H. apply In_nth_error in H as [i H]. exists (N.of_nat i). unfold nthN. now rewrite Nat2N.id. Qed.
Lemma flat_pure e kp : forall ls prev P s, SrcInv e kp P s ->
  (forall l, In l ls -> kp (fr_key (d_file l)) = env_path e (d_file l)) ->
  match prev with Some (_, i) => i < lenN P | None => True end ->
  exists evs P' s', collect_flat e ls prev s = Ok (evs, s') /\ SrcInv e kp P' s' /\ extends P P' /\
    (forall fid, fagree e P' fid -> pflat fid ls prev = evs) /\ Forall (ins_in (lenN P') 0) evs.
Proof.
  induction ls as [|l ls IH]; intros prev P s I K Hp; cbn [collect_flat pflat].
  - exists [], P, s. splits; auto using extends_refl.
  - assert (K' : forall l, In l ls -> kp (fr_key (d_file l)) = env_path e (d_file l)) by (intros; apply K; now right).
    destruct (d_line l =? 0); [now apply IH|].
    pose proof (K l (or_introl eq_refl)) as Kl.
    destruct (in_dec P_Symbol.str_eq_dec (env_path e (d_file l)) P) as [Hin|Hn].
    + destruct (path_index e P (d_file l) Hin) as (i & Hi).
      destruct (get_id_known e kp P s (d_file l) i I Kl Hi) as (s1 & -> & I1).
      assert (Li : i < lenN P) by (eapply nthN_some_lt; eauto).
      destruct (option_eqb info_eqb prev (Some (d_line l, i))) eqn:Eq.
      * destruct (IH prev P s1 I1 K' Hp) as (evs & P' & s' & E & I' & X & A & F).
        exists evs, P', s'. splits; auto. intros fid Ag.
        assert (fid (d_file l) = i) as -> by (apply Ag; eapply extends_nth'; eauto). rewrite Eq. auto.
      * rewrite (true_id_known e kp P s1 i _ I1 Hi). cbn [bind fst snd].
        destruct (IH (Some (d_line l, i)) P s1 I1 K' Li) as (evs & P' & s' & E & I' & X & A & F).
        rewrite E. cbn [bind fst snd]. eexists; exists P', s'. splits; eauto.
        -- intros fid Ag. assert (fid (d_file l) = i) as -> by (apply Ag; eapply extends_nth'; eauto).
           rewrite Eq. f_equal. auto.
        -- constructor; auto. simpl. pose proof (extends_len _ _ X). lia.
    + destruct (get_id_new e kp P s (d_file l) I Kl Hn) as (s1 & s2 & -> & E2 & I2).
      assert (Eq : option_eqb info_eqb prev (Some (d_line l, lenN P)) = false).
      { destruct prev as [[n i]|]; simpl; auto. unfold info_eqb; simpl. lia. }
      rewrite Eq, E2. cbn [bind fst snd].
      assert (Lp : lenN P < lenN (P ++ [env_path e (d_file l)])) by (rewrite lenN_app, lenN_cons; lia).
      destruct (IH (Some (d_line l, lenN P)) _ s2 I2 K' Lp) as (evs & P' & s' & E & I' & X & A & F).
      rewrite E. cbn [bind fst snd]. eexists; exists P', s'. splits; eauto.
      * eapply extends_trans; [|eauto]. apply extends_snoc.
      * intros fid Ag. assert (fid (d_file l) = lenN P) as ->.
        { apply Ag. eapply extends_nth'; eauto. rewrite nthN_app2 by lia. now rewrite N.sub_diag. }
        rewrite Eq. f_equal; auto.
      * constructor; auto. simpl. pose proof (extends_len _ _ X). lia.
Qed.

Definition pevents (e : CEnv) (fid : FileRef -> N) (oid : Name -> N) (f : Fun) : res (list Ins) :=
  if ce_inl e then prec e fid oid f 0 else Ok (pflat fid (f_lines f) None).

Lemma events_pure e kp : sort_perm (ce_sort e) -> forall f P ns s o evs s' o',
  SrcInv (ce_src e) kp P s -> OrigInv (ce_dm e) ns o ->
  (forall r, In r (fun_refs f) -> kp (fr_key r) = env_path (ce_src e) r) ->
  collect_events e f s o = Ok (evs, s', o') ->
  exists P' ns', SrcInv (ce_src e) kp P' s' /\ OrigInv (ce_dm e) ns' o' /\ extends P P' /\ extends ns ns' /\
    (forall fid oid, fagree (ce_src e) P' fid -> oagree ns' oid -> pevents e fid oid f = Ok evs) /\
    Forall (ins_in (lenN P') (lenN ns')) evs.
Proof.
  intros US f P ns s o evs s' o' I J K H. unfold collect_events, pevents in *. destruct (ce_inl e).
  - eapply rec_pure; eauto.
  - apply bind_ok in H as ([ev s1] & Hf & H). inversion H; subst; clear H. cbn [fst snd] in *.
    destruct (flat_pure (ce_src e) kp (f_lines f) None P s I) as (ev' & P' & s1 & E & I' & X & A & F); [|trivial|].
    { intros l Hl. apply K. destruct f; cbn [fun_refs]. apply in_or_app; left. now apply in_map. }
    rewrite Hf in E; inversion E; subst. exists P', ns. splits; auto using extends_refl.
    + intros fid oid Ag _. f_equal. auto.
    + eapply Forall_impl; [|exact F]. intros x. apply ins_in_mono; lia.
Qed.

(** * All functions of an object *)
Lemma funcs_at_app k a b : funcs_at k (a ++ b) = funcs_at k a ++ funcs_at k b.
Proof. apply filter_app. Qed.
Lemma funcs_at_one k f : funcs_at k [f] = if negb (f_addr f =? 0) && (f_addr f mod two32 =? k) then [f] else [].
Proof. reflexivity. Qed.

(** One step, seen at each address. *)
Lemma collect_function_step e m s o f m' s' o' : nsorted m -> (forall k sym, nfind k m = Some sym -> sy_public sym = false) ->
  collect_function e (m, s, o) f = Ok (m', s', o') ->
  nsorted m' /\ (forall k sym, nfind k m' = Some sym -> sy_public sym = false) /\
  ((f_addr f = 0 /\ m' = m /\ s' = s /\ o' = o) \/
   (f_addr f <> 0 /\ exists sym, nfind (u32 (f_addr f)) m = Some sym /\ m' = ninsert (u32 (f_addr f)) (set_multiple sym) m /\ s' = s /\ o' = o) \/
   (f_addr f <> 0 /\ nfind (u32 (f_addr f)) m = None /\ exists ev ls, collect_events e f s o = Ok (ev, s', o') /\
      finalize (ce_ck e) (u32 (f_addr f)) (u32 (f_size f)) (build ev) = Ok ls /\
      m' = ninsert (u32 (f_addr f)) (fun_symbol e f ls) m)).
Proof.
  intros S Pb H. unfold collect_function in H. destruct (N.eqb_spec (f_addr f) 0) as [Hz|Hz].
  - inversion H; subst. splits; auto.
  - destruct (nfind (u32 (f_addr f)) m) as [sym|] eqn:E.
    + rewrite (Pb _ _ E) in H. cbn [negb] in H. inversion H; subst. splits; [now apply ninsert_sorted| |].
      * intros k y Hy. rewrite nfind_insert in Hy by auto. destruct (N.eqb_spec k (u32 (f_addr f))); [inversion Hy; subst; simpl; eauto|eauto].
      * right; left. split; auto. exists sym; splits; auto.
    + apply bind_ok in H as ([[ev s1] o1] & Hc & H). cbv beta iota in H. apply bind_ok in H as (ls & Hl & H). inversion H; subst.
      splits; [now apply ninsert_sorted| |].
      * intros k y Hy. rewrite nfind_insert in Hy by auto. destruct (N.eqb_spec k (u32 (f_addr f))); [inversion Hy; subst; simpl; eauto|eauto].
      * right; right. splits; auto. exists ev, ls; splits; auto.
Qed.

(** [L f ls s o]: a property of the line table of a function in a state of the
    tables. *)
Definition coll_inv (e : CEnv) (L : Fun -> Lines -> Src -> Orig -> Prop) (done : list Fun) (st : Coll) : Prop :=
  let '(m, s, o) := st in
  nsorted m /\ (forall k sym, nfind k m = Some sym -> sy_public sym = false) /\
  forall k, match funcs_at k done with
            | [] => nfind k m = None
            | f :: rest => exists sym, nfind k m = Some sym /\ from_fun e f (more rest) sym /\ L f (sy_source sym) s o
            end.
Lemma coll_inv_step e (I : Src -> Orig -> Prop) (L : Fun -> Lines -> Src -> Orig -> Prop) (ok : Fun -> Prop) :
  (forall f s o ev s' o' ls, ok f -> I s o -> collect_events e f s o = Ok (ev, s', o') ->
     finalize (ce_ck e) (u32 (f_addr f)) (u32 (f_size f)) (build ev) = Ok ls ->
     I s' o' /\ L f ls s' o' /\ forall g ls', L g ls' s o -> L g ls' s' o') ->
  forall fs done m s o m' s' o', (forall f, In f (readable fs) -> ok f) -> I s o -> coll_inv e L done (m, s, o) ->
  collect_functions e fs (m, s, o) = Ok (m', s', o') -> I s' o' /\ coll_inv e L (done ++ readable fs) (m', s', o').
Proof.
  intros HL. unfold collect_functions. induction fs as [|x fs IH]; intros done m s o m' s' o' Hok Is Inv H.
  - cbn [foldM] in H. inversion H; subst. cbn [readable]. rewrite app_nil_r. auto.
  - cbn [foldM] in H. apply bind_ok in H as ([[m1 s1] o1] & H1 & H2).
    destruct x as [f|]; [|inversion H1; subst; cbn [readable]; eapply IH; eauto].
    cbn [readable]. change (f :: readable fs) with ([f] ++ readable fs). rewrite app_assoc.
    destruct Inv as (S & Pb & Inv).
    destruct (collect_function_step _ _ _ _ _ _ _ _ S Pb H1) as (S1 & Pb1 & C).
    assert (Hf : ok f) by (apply Hok; cbn [readable]; now left).
    assert (Hfs : forall g, In g (readable fs) -> ok g) by (intros; apply Hok; cbn [readable]; now right).
    destruct C as [(Hz & -> & -> & ->)|[(Hz & sym & Hs & -> & -> & ->)|(Hz & Hn & ev & ls & Hc & Hl & ->)]].
    + eapply IH; eauto. split; auto. split; auto. intros k. rewrite funcs_at_app, funcs_at_one.
      rewrite Hz. cbn [negb andb N.eqb]. rewrite app_nil_r. apply Inv.
    + eapply IH; eauto. split; auto. split; auto. intros k. rewrite funcs_at_app, funcs_at_one.
      destruct (N.eqb_spec (f_addr f) 0); [contradiction|]. cbn [negb andb].
      specialize (Inv k). rewrite nfind_insert by auto. unfold u32 in *. rewrite (N.eqb_sym k).
      destruct (N.eqb_spec (f_addr f mod two32) k) as [E|Hne].
      * rewrite E in *. destruct (funcs_at k done) as [|g rest]; [congruence|].
        destruct Inv as (sym' & Hs' & (F1 & F2 & F3 & F4 & F5 & F6 & F7) & HLs). rewrite Hs in Hs'; inversion Hs'; subst sym'.
        cbn [app]. exists (set_multiple sym). split; auto. split; [|exact HLs].
        unfold from_fun; simpl. splits; auto. destruct rest; reflexivity.
      * rewrite app_nil_r. exact Inv.
    + destruct (HL f s o ev s1 o1 ls Hf Is Hc Hl) as (Is1 & L1 & LM).
      eapply IH; eauto. split; auto. split; auto. intros k. rewrite funcs_at_app, funcs_at_one.
      destruct (N.eqb_spec (f_addr f) 0); [contradiction|]. cbn [negb andb].
      specialize (Inv k). rewrite nfind_insert by auto. unfold u32 in *. rewrite (N.eqb_sym k).
      destruct (N.eqb_spec (f_addr f mod two32) k) as [E|Hne].
      * rewrite E in *. destruct (funcs_at k done) as [|g rest]; [|destruct Inv as (? & ? & _); congruence].
        cbn [app]. eexists; split; [reflexivity|]. split; [|exact L1].
        unfold from_fun, fun_symbol; simpl. splits; auto.
      * rewrite app_nil_r. destruct (funcs_at k done) as [|g rest]; auto.
        destruct Inv as (sym & Hs & Hfn & HLg). exists sym; splits; auto.
Qed.
Lemma coll_inv_nil e L s o : coll_inv e L [] ([], s, o).
Proof. split; [constructor|]. split; [discriminate|]. intros k. reflexivity. Qed.

(** C06 *)
Lemma functions_spec e fs m s o : collect_functions e fs ([], src_new, orig_new) = Ok (m, s, o) ->
  nsorted m /\
  forall k, match funcs_at k (readable fs) with
            | [] => nfind k m = None
            | f :: rest => exists sym, nfind k m = Some sym /\ from_fun e f (more rest) sym /\
                exists s1 o1 ev s2 o2, collect_events e f s1 o1 = Ok (ev, s2, o2) /\
                  finalize (ce_ck e) (u32 (f_addr f)) (u32 (f_size f)) (build ev) = Ok (sy_source sym)
            end.
Proof.
  intros H.
  destruct (coll_inv_step e (fun _ _ => True)
    (fun f ls _ _ => exists s1 o1 ev s2 o2, collect_events e f s1 o1 = Ok (ev, s2, o2) /\
                  finalize (ce_ck e) (u32 (f_addr f)) (u32 (f_size f)) (build ev) = Ok ls) (fun _ => True)) with (5 := H) (done := @nil Fun)
    as (_ & S & _ & Inv); auto using coll_inv_nil.
  - intros f s0 o0 ev s' o' ls _ _ Hc Hl. splits; auto. exists s0, o0, ev, s', o'. auto.
Qed.

(** Tables and line tables fit together. *)
Definition table_of (e : CEnv) (f : Fun) (P : list str) (ns : list Name) (ls : Lines) : Prop :=
  exists evs, finalize (ce_ck e) (u32 (f_addr f)) (u32 (f_size f)) (build evs) = Ok ls /\
    Forall (ins_in (lenN P) (lenN ns)) evs /\
    (forall fid oid, fagree (ce_src e) P fid -> oagree ns oid -> pevents e fid oid f = Ok evs).
Lemma table_of_ext e f P ns P' ns' ls : extends P P' -> extends ns ns' -> table_of e f P ns ls -> table_of e f P' ns' ls.
Proof.
  intros X Y (evs & H1 & H2 & H3). exists evs; splits; auto.
  - eapply Forall_impl; [|exact H2]. intros x. apply ins_in_mono; now apply extends_len.
  - intros fid oid A B. apply H3; [eapply fagree_ext|eapply oagree_ext]; eauto.
Qed.
Lemma SrcInv_unique e kp P P' s : SrcInv e kp P s -> SrcInv e kp P' s -> P = P'.
Proof.
  intros I I'. pose proof (si_ref _ _ _ _ I) as R. rewrite (si_ref _ _ _ _ I') in R.
  apply (f_equal (map fst)) in R. now rewrite !numbered_fst in R.
Qed.
Lemma OrigInv_unique d P P' o : OrigInv d P o -> OrigInv d P' o -> P = P'.
Proof.
  intros I I'. pose proof (oi_index _ _ _ I) as R. rewrite (oi_index _ _ _ I') in R.
  apply (f_equal (map fst)) in R. now rewrite !numbered_fst in R.
Qed.

Lemma functions_tables e fs m s o kp : sort_perm (ce_sort e) ->
  (forall r, In r (flat_map fun_refs (readable fs)) -> kp (fr_key r) = env_path (ce_src e) r) ->
  collect_functions e fs ([], src_new, orig_new) = Ok (m, s, o) ->
  exists P ns, SrcInv (ce_src e) kp P s /\ OrigInv (ce_dm e) ns o /\
  nsorted m /\
  forall k, match funcs_at k (readable fs) with
            | [] => nfind k m = None
            | f :: rest => exists sym, nfind k m = Some sym /\ from_fun e f (more rest) sym /\ table_of e f P ns (sy_source sym)
            end.
Proof.
  intros US K H.
  destruct (coll_inv_step e
    (fun s o => exists P ns, SrcInv (ce_src e) kp P s /\ OrigInv (ce_dm e) ns o)
    (fun f ls s o => exists P ns, SrcInv (ce_src e) kp P s /\ OrigInv (ce_dm e) ns o /\ table_of e f P ns ls)
    (fun f => forall r, In r (fun_refs f) -> kp (fr_key r) = env_path (ce_src e) r)) with (5 := H) (done := @nil Fun)
    as ((P & ns & I & J) & S & _ & Inv).
  - intros f s0 o0 ev s' o' ls Kf (P & ns & I & J) Hc Hl.
    destruct (events_pure e kp US f P ns s0 o0 ev s' o' I J Kf Hc) as (P' & ns' & I' & J' & X & Y & A & F).
    splits.
    + exists P', ns'; auto.
    + exists P', ns'; splits; auto. exists ev; splits; auto.
    + intros g ls' (Q & ms & IQ & JQ & T). exists P', ns'; splits; auto.
      rewrite (SrcInv_unique _ _ _ _ _ IQ I), (OrigInv_unique _ _ _ _ JQ J) in T. eapply table_of_ext; eauto.
  - intros f Hf r Hr. apply K. apply in_flat_map; eauto.
  - exists [], []. split; [apply src_new_inv|apply orig_new_inv].
  - apply coll_inv_nil.
  - exists P, ns. splits; auto. intros k. specialize (Inv k). cbn [app] in Inv.
    destruct (funcs_at k (readable fs)) as [|f rest]; auto.
    destruct Inv as (sym & Hs & Hf & (Q & ms & IQ & JQ & T)). exists sym; splits; auto.
    now rewrite (SrcInv_unique _ _ _ _ _ IQ I), (OrigInv_unique _ _ _ _ JQ J) in T.
Qed.
