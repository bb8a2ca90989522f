(** Proofs about the model of line.rs. *)
From Verif Require Import Base Sort BMap Str M_Line S_Line.

(** * The site order *)
Lemma site_lt_irrefl a : site_lt a a = false.
Proof. destruct a; unfold site_lt; simpl. lia. Qed.
Lemma site_lt_trans a b c : site_lt a b = true -> site_lt b c = true -> site_lt a c = true.
Proof. destruct a, b, c; unfold site_lt; simpl. lia. Qed.
Lemma site_lt_tot a b : site_lt a b = false -> site_lt b a = false -> a = b.
Proof. destruct a, b; unfold site_lt; simpl. intros. f_equal; lia. Qed.
Lemma sp_site_eqb_spec a b : sp_site_eqb a b = true <-> a = b.
Proof.
  destruct a, b; unfold sp_site_eqb; simpl. split; intros H.
  - f_equal; lia.
  - inversion H; subst; lia.
Qed.

Lemma sbfind_insert {V} (m : list (Site * V)) s s0 v : bsorted site_lt m ->
  bfind site_lt s0 (binsert site_lt s v m) = if sp_site_eqb s s0 then Some v else bfind site_lt s0 m.
Proof.
  intros S. destruct (sp_site_eqb s s0) eqn:E.
  - apply sp_site_eqb_spec in E; subst. apply bfind_binsert_eq; auto using site_lt_irrefl.
  - apply bfind_binsert_ne; eauto using site_lt_trans, site_lt_tot.
    intros ->. assert (H : sp_site_eqb s0 s0 = true) by now apply sp_site_eqb_spec. congruence.
Qed.

(** * What the insertion API builds *)
Record built (is : list Ins) (ls : Lines) : Prop := {
  bt_lines : map triple (ls_lines ls) = inserted_lines is;
  bt_zero : Forall (fun l => l_len l = 0) (ls_lines ls);
  bt_sorted : ls_sorted ls = true -> StronglySorted (key_le l_rva) (ls_lines ls);
  bt_last : Forall (fun l => l_rva l <= ls_last ls) (ls_lines ls) \/ ls_sorted ls = false;
  bt_inl : bsorted site_lt (ls_inlines ls);
  bt_find : forall s, bfind site_lt s (ls_inlines ls) =
              match inserted_ranges sp_site_eqb s is with [] => None | rs => Some rs end
}.

Lemma inserted_lines_app a b : inserted_lines (a ++ b) = inserted_lines a ++ inserted_lines b.
Proof. induction a as [|[]]; simpl; auto; now rewrite IHa. Qed.
Lemma inserted_ranges_app e s a b : inserted_ranges e s (a ++ b) = inserted_ranges e s a ++ inserted_ranges e s b.
Proof. induction a as [|[]]; simpl; auto. destruct (e s0 s); simpl; now rewrite IHa. Qed.

Lemma SS_snoc {A} (R : A -> A -> Prop) l x : StronglySorted R l -> Forall (fun y => R y x) l -> StronglySorted R (l ++ [x]).
Proof.
  induction 1 as [|y l S IH F]; simpl; intros H; [repeat constructor|].
  inversion H; subst. constructor; auto. apply Forall_app; split; auto.
Qed.

Lemma built_step is ls i : built is ls -> built (is ++ [i]) (ins ls i).
Proof.
  intros [H1 H2 H3 H4 H5 H6]. destruct i as [a n f|s r].
  - constructor; simpl.
    + now rewrite map_app, H1, inserted_lines_app.
    + apply Forall_app; split; auto.
    + intros Hs. apply andb_true_iff in Hs as (Hs & Hle). apply SS_snoc; auto.
      destruct H4 as [H4|H4]; [|congruence]. eapply Forall_impl; [|exact H4].
      unfold key_le; simpl; intros; lia.
    + destruct H4 as [H4|H4]; [|right; now rewrite H4].
      destruct (N.leb_spec (ls_last ls) a) as [Hle|Hgt]; [|right; lia].
      left. apply Forall_app; split; [|constructor; [simpl; lia|constructor]].
      eapply Forall_impl; [|exact H4]. simpl; intros; lia.
    + exact H5.
    + intros s. rewrite H6, inserted_ranges_app. simpl. now rewrite app_nil_r.
  - constructor; simpl; auto.
    + rewrite H1, inserted_lines_app. simpl. now rewrite app_nil_r.
    + apply binsert_sorted; auto; [exact site_lt_trans|exact site_lt_tot].
    + intros s0. rewrite sbfind_insert by auto. rewrite inserted_ranges_app. simpl.
      destruct (sp_site_eqb s s0) eqn:E.
      * apply sp_site_eqb_spec in E; subst s0. rewrite H6.
        destruct (inserted_ranges sp_site_eqb s is); simpl; auto.
      * rewrite H6, app_nil_r. reflexivity.
Qed.

Lemma build_snoc is i : build (is ++ [i]) = ins (build is) i.
Proof. unfold build. now rewrite fold_left_app. Qed.

Lemma build_built is : built is (build is).
Proof.
  induction is as [|i is IH] using rev_ind.
  - constructor; simpl; auto; constructor.
  - rewrite build_snoc. now apply built_step.
Qed.

(** * Ranges *)
Lemma dedup_ranges_ok ck l cur : range_fits cur -> Forall range_fits l ->
  exists l', dedup_ranges ck cur l = Ok l' /\ Forall range_fits l' /\ no_abut l' /\
    (exists x t, l' = x :: t /\ r_rva x = r_rva cur) /\
    forall a, cover_count a l' = cover_count a (cur :: l).
Proof.
  revert cur; induction l as [|n l IH]; intros cur Hc Hl; simpl.
  - exists [cur]; repeat split; eauto; try constructor; auto.
  - inversion Hl as [|? ? Hn Hl']; subst. unfold range_fits in *.
    unfold checked_add32. destruct (N.ltb_spec (r_rva cur + r_len cur) two32); [|lia].
    simpl. destruct (N.eqb_spec (r_rva cur + r_len cur) (r_rva n)) as [E|E].
    + rewrite add32_ok by lia. simpl.
      destruct (IH (mkRange (r_rva cur) (r_len cur + r_len n))) as (l' & H1 & H2 & H3 & H4 & H5); auto.
      { simpl; lia. }
      exists l'; split; auto. repeat split; auto. intros a. rewrite H5.
      unfold cover_count, in_range. cbn [filter r_rva r_len].
      destruct (N.leb_spec (r_rva cur) a), (N.ltb_spec a (r_rva cur + r_len cur)),
        (N.leb_spec (r_rva n) a), (N.ltb_spec a (r_rva n + r_len n)),
        (N.ltb_spec a (r_rva cur + (r_len cur + r_len n))); simpl; auto; lia.
    + destruct (IH n) as (l' & H1 & H2 & H3 & (x & t & -> & H4) & H5); auto.
      rewrite H1; simpl. exists (cur :: x :: t). split; auto. repeat split; eauto.
      * rewrite H4; auto.
      * intros a. specialize (H5 a). unfold cover_count in *. cbn [filter] in *.
        destruct (in_range a cur); simpl; auto.
Qed.

Lemma dedup_sorted ck l cur l' : StronglySorted (key_le r_rva) (cur :: l) -> dedup_ranges ck cur l = Ok l' ->
  StronglySorted (key_le r_rva) l' /\ Forall (fun x => r_rva cur <= r_rva x) l' /\ l' <> [].
Proof.
  revert cur l'; induction l as [|n l IH]; intros cur l' S H; simpl in H.
  - inversion H; subst. split; [repeat constructor|]. split; [|discriminate]. constructor; [lia|constructor].
  - inversion S as [|? ? S' F]; subst. inversion F as [|? ? Hn F']; subst. unfold key_le in Hn.
    destruct (option_eqb _ _ _).
    + apply bind_ok in H as (len & _ & H). apply IH in H; auto.
      inversion S' as [|? ? S'' F'']; subst. constructor; auto.
    + apply bind_ok in H as (r & Hr & H). inversion H; subst. apply IH in Hr as (Hs & Hf & Hne); auto.
      split; [|split; [|discriminate]].
      * constructor; auto. eapply Forall_impl; [|exact Hf]. unfold key_le; simpl; intros; lia.
      * constructor; [lia|]. eapply Forall_impl; [|exact Hf]. simpl; intros; lia.
Qed.

Lemma cover_count_perm a l1 l2 : Permutation l1 l2 -> cover_count a l1 = cover_count a l2.
Proof.
  unfold cover_count. induction 1; simpl; auto.
  - destruct (in_range a x); simpl; auto.
  - destruct (in_range a x), (in_range a y); simpl; auto.
  - congruence.
Qed.

Lemma order_ranges_ok ck l : l <> [] -> Forall range_fits l ->
  exists l', order_ranges ck l = Ok l' /\ l' <> [] /\ StronglySorted (key_le r_rva) l' /\ no_abut l' /\
    Forall range_fits l' /\ forall a, cover_count a l' = cover_count a l.
Proof.
  intros Hne Hf. unfold order_ranges.
  pose proof (sort_by_key_perm r_rva l) as P. pose proof (sort_by_key_sorted r_rva l) as S.
  destruct (sort_by_key r_rva l) as [|r t].
  { apply Permutation_sym, Permutation_nil in P. contradiction. }
  assert (Hf' : Forall range_fits (r :: t)) by (eapply Permutation_Forall; eauto).
  inversion Hf'; subst.
  destruct (dedup_ranges_ok ck t r) as (l' & H3 & H4 & H5 & (x & t' & -> & H6) & H7); auto.
  exists (x :: t'); split; auto. split; [discriminate|].
  apply dedup_sorted in H3 as (Hs & _); auto. repeat split; auto.
  intros a; rewrite H7. now apply cover_count_perm.
Qed.

Lemma dedup_false l cur : exists l', dedup_ranges false cur l = Ok l'.
Proof.
  revert cur; induction l as [|n l IH]; intros cur; simpl; [eauto|].
  destruct (option_eqb _ _ _).
  - unfold add32, add_w. destruct (_ <? _); simpl; apply IH.
  - destruct (IH n) as (l' & ->); simpl; eauto.
Qed.
Lemma order_ranges_false l : exists l', order_ranges false l = Ok l'.
Proof. unfold order_ranges. destruct (sort_by_key r_rva l); eauto using dedup_false. Qed.
Lemma order_ranges_nonempty ck l l' : l <> [] -> order_ranges ck l = Ok l' -> l' <> [].
Proof.
  intros Hne H. unfold order_ranges in H.
  pose proof (sort_by_key_perm r_rva l) as P. pose proof (sort_by_key_sorted r_rva l) as S.
  destruct (sort_by_key r_rva l) as [|r t].
  - apply Permutation_sym, Permutation_nil in P. contradiction.
  - apply dedup_sorted in H; tauto.
Qed.

Definition order_entry (ck : bool) (kv : Site * list Range) : res (Site * list Range) :=
  rs <- order_ranges ck (snd kv) ;; Ok (fst kv, rs).

Lemma mapM_order_inv ck m m' : mapM (order_entry ck) m = Ok m' ->
  Forall2 (fun x y => fst x = fst y /\ order_ranges ck (snd x) = Ok (snd y)) m m'.
Proof.
  revert m'; induction m as [|[s rs] m IH]; simpl; intros m' H; [inversion H; constructor|].
  apply bind_ok in H as (y & Hy & H). apply bind_ok in H as (ys & Hys & H). inversion H; subst.
  unfold order_entry in Hy. apply bind_ok in Hy as (rs' & Hr & Hy). inversion Hy; subst.
  constructor; auto.
Qed.

Lemma Forall2_bfind {V W} (R : Site * V -> Site * W -> Prop) m m' :
  Forall2 (fun x y => fst x = fst y /\ R x y) m m' -> bsorted site_lt m ->
  bsorted site_lt m' /\
  forall s, match bfind site_lt s m, bfind site_lt s m' with
            | Some v, Some w => R (s, v) (s, w)
            | None, None => True
            | _, _ => False
            end.
Proof.
  induction 1 as [|[s v] [s' w] m m' [Hk Hr] F IH]; simpl in *; intros S.
  - split; [constructor|auto].
  - subst s'. inversion S as [|? ? S' Fb]; subst. destruct (IH S') as (S'' & Hf). split.
    + constructor; auto.
      assert (Hks : map fst m = map fst m').
      { clear - F. induction F as [|x y m m' [Hk _] F IH]; simpl; auto. congruence. }
      apply Forall_forall. intros [k x] Hx. apply (in_map fst) in Hx. rewrite <- Hks in Hx.
      apply in_map_iff in Hx as ([k' y] & Hk & Hy). simpl in Hk; subst.
      rewrite Forall_forall in Fb. apply Fb in Hy. exact Hy.
    + intros s0. destruct (site_lt s0 s) eqn:E1; auto. destruct (site_lt s s0) eqn:E2; [exact (Hf s0)|].
      pose proof (site_lt_tot _ _ E1 E2) as ->. exact Hr.
Qed.

(** * Line lengths *)
Lemma window_lens_ok ck l : StronglySorted (key_le l_rva) l ->
  exists ds, window_lens ck l = Ok ds /\ length ds = pred (length l) /\
    forall fend, Forall (fun x => l_len x = 0) l ->
    exists l', assign_lens ck fend l ds = Ok l' /\ map triple l' = map triple l /\ tiles fend l'.
Proof.
  induction 1 as [|x l S IH F].
  - exists []; repeat split. intros fend _; exists []; repeat split.
  - destruct l as [|y l].
    + exists []; repeat split. intros fend HF. inversion HF; subst. simpl.
      destruct fend as [e|].
      * destruct (N.ltb_spec (l_rva x) e) as [Hlt|Hge].
        -- rewrite sub32_ok by lia. simpl. eexists; repeat split.
           simpl. destruct (N.ltb_spec (l_rva x) e); lia.
        -- exists [x]; repeat split. simpl. destruct (N.ltb_spec (l_rva x) e); auto; lia.
      * exists [x]; repeat split. auto.
    + destruct IH as (ds & H1 & H2 & H3).
      assert (Hle : l_rva x <= l_rva y) by (inversion F; subst; auto).
      exists (l_rva y - l_rva x :: ds).
      split.
      { change (window_lens ck (x :: y :: l)) with
          (d <- sub32 ck (l_rva y) (l_rva x) ;; ds0 <- window_lens ck (y :: l) ;; Ok (d :: ds0)).
        rewrite sub32_ok by auto. cbn [bind]. now rewrite H1. }
      split; [simpl in *; lia|].
      intros fend HF. inversion HF as [|? ? Z0 Z1]; subst.
      destruct (H3 fend) as (l' & H4 & H5 & H6); auto.
      exists (set_len x (l_rva y - l_rva x) :: l').
      split; [|split].
      * change (assign_lens ck fend (x :: y :: l) (l_rva y - l_rva x :: ds)) with
          (r <- assign_lens ck fend (y :: l) ds ;; Ok (set_len x (l_rva y - l_rva x) :: r)).
        now rewrite H4.
      * cbn [map]. rewrite H5. reflexivity.
      * destruct l' as [|y' l']; [discriminate|].
        change (l_rva x + (l_rva y - l_rva x) = l_rva y' /\ tiles fend (y' :: l')).
        split; auto. cbn [map] in H5.
        assert (E : triple y' = triple y) by congruence. unfold triple in E. inversion E. lia.
Qed.

(** A finalised table, described without reference to the way it was built. *)
Record final (rva len : N) (is : list Ins) (ls : Lines) : Prop := {
  fl_stable : stable_by_addr (inserted_lines is) (map triple (ls_lines ls));
  fl_tiles : tiles (fn_end rva len) (ls_lines ls);
}.

Lemma map_triple_sorted l : StronglySorted (key_le l_rva) l ->
  StronglySorted (fun a b => t_addr a <= t_addr b) (map triple l).
Proof.
  induction 1; simpl; constructor; auto. rewrite Forall_map. eapply Forall_impl; [|exact H0].
  unfold key_le, t_addr, triple; simpl; auto.
Qed.
Lemma filter_map {A B} (f : A -> B) p l : filter p (map f l) = map f (filter (fun x => p (f x)) l).
Proof. induction l; simpl; auto. destruct (p (f a)); simpl; congruence. Qed.

Lemma ensure_order_lines ck is ls1 : ensure_order ck (build is) = Ok ls1 ->
  ls_lines ls1 = sort_by_key l_rva (ls_lines (build is)) /\ ls_sorted ls1 = true /\
  mapM (order_entry ck) (ls_inlines (build is)) = Ok (ls_inlines ls1).
Proof.
  intros H. unfold ensure_order in H. apply bind_ok in H as (inl & Hi & H). inversion H; subst; simpl.
  repeat split; auto. pose proof (build_built is) as B. destruct (ls_sorted (build is)) eqn:E; auto.
  symmetry; apply sort_by_key_id. now apply (bt_sorted _ _ B).
Qed.

Lemma compute_len_spec ck rva len ls : ls_sorted ls = true ->
  StronglySorted (key_le l_rva) (ls_lines ls) -> Forall (fun l => l_len l = 0) (ls_lines ls) ->
  exists ls', compute_len ck rva len ls = Ok ls' /\ map triple (ls_lines ls') = map triple (ls_lines ls) /\
    tiles (fn_end rva len) (ls_lines ls') /\ ls_inlines ls' = ls_inlines ls.
Proof.
  intros Hs S Z. unfold compute_len. destruct (ls_lines ls) as [|l t] eqn:E.
  - exists ls. rewrite E. repeat split; auto.
  - rewrite Hs. simpl negb. cbv iota.
    destruct (window_lens_ok ck _ S) as (ds & H1 & _ & H3). destruct (H3 (fn_end rva len) Z) as (l' & H4 & H5 & H6).
    rewrite H1. cbn [bind]. change (checked_add32 rva len) with (fn_end rva len). rewrite H4. cbn [bind].
    eexists; repeat split; auto.
Qed.

Lemma finalize_final ck rva len is ls : finalize ck rva len (build is) = Ok ls -> final rva len is ls.
Proof.
  intros H. unfold finalize in H. apply bind_ok in H as (ls1 & H1 & H2).
  apply ensure_order_lines in H1 as (Hl & Hs & _). pose proof (build_built is) as B.
  assert (S : StronglySorted (key_le l_rva) (ls_lines ls1)) by (rewrite Hl; apply sort_by_key_sorted).
  destruct (compute_len_spec ck rva len ls1) as (ls' & H3 & H4 & H5 & H6); auto.
  { rewrite Hl. eapply Permutation_Forall; [apply sort_by_key_perm|apply (bt_zero _ _ B)]. }
  rewrite H3 in H2; inversion H2; subst. constructor; auto. split.
  - rewrite H4. now apply map_triple_sorted.
  - intros a. rewrite H4, Hl, filter_map.
    change (fun x => t_addr (triple x) =? a) with (fun x => l_rva x =? a).
    rewrite sort_by_key_stable.
    change (fun x => l_rva x =? a) with (fun x => t_addr (triple x) =? a).
    rewrite <- (filter_map triple (fun t => t_addr t =? a)), (bt_lines _ _ B). reflexivity.
Qed.

Lemma mapM_order_ok ck is : (ck = false \/ Forall sp_ins_ok is) ->
  exists m', mapM (order_entry ck) (ls_inlines (build is)) = Ok m'.
Proof.
  intros Hok. pose proof (build_built is) as B.
  assert (H : forall kv, In kv (ls_inlines (build is)) -> exists y, order_entry ck kv = Ok y).
  { intros [s rs] Hin. unfold order_entry; simpl.
    apply (bfind_In site_lt site_lt_irrefl site_lt_trans site_lt_tot) in Hin; [|apply (bt_inl _ _ B)].
    rewrite (bt_find _ _ B) in Hin.
    assert (Hr : exists rs', order_ranges ck rs = Ok rs').
    { destruct Hok as [->|Hok]; [apply order_ranges_false|].
      destruct (order_ranges_ok ck rs) as (l' & Hl & _); eauto.
      - destruct (inserted_ranges sp_site_eqb s is); [discriminate|]. now inversion Hin.
      - assert (Hall : Forall range_fits (inserted_ranges sp_site_eqb s is)).
        { clear - Hok. induction Hok as [|[] is Hi Hok IH]; simpl; auto. destruct (sp_site_eqb s0 s); auto. }
        destruct (inserted_ranges sp_site_eqb s is); [discriminate|]. now inversion Hin; subst. }
    destruct Hr as (rs' & ->). simpl; eauto. }
  clear B. induction (ls_inlines (build is)) as [|kv m IH]; simpl; [eauto|].
  destruct (H kv) as (y & ->); [now left|]. simpl. destruct IH as (m' & ->); [intros; apply H; now right|].
  simpl; eauto.
Qed.

Lemma finalize_ok ck rva len is : (ck = false \/ Forall sp_ins_ok is) ->
  exists ls, finalize ck rva len (build is) = Ok ls.
Proof.
  intros Hok. destruct (mapM_order_ok ck is Hok) as (m' & Hm). unfold finalize.
  assert (He : exists ls1, ensure_order ck (build is) = Ok ls1).
  { unfold ensure_order. unfold order_entry in Hm. rewrite Hm. simpl; eauto. }
  destruct He as (ls1 & He). rewrite He. cbn [bind].
  apply ensure_order_lines in He as (Hl & Hs & _). pose proof (build_built is) as B.
  destruct (compute_len_spec ck rva len ls1) as (ls' & H3 & _); eauto.
  - rewrite Hl; apply sort_by_key_sorted.
  - rewrite Hl. eapply Permutation_Forall; [apply sort_by_key_perm|apply (bt_zero _ _ B)].
Qed.

Lemma finalize_tiles ck rva len is :
  (ck = false \/ Forall sp_ins_ok is) ->
  exists ls, finalize ck rva len (build is) = Ok ls /\
    stable_by_addr (inserted_lines is) (map triple (ls_lines ls)) /\
    tiles (fn_end rva len) (ls_lines ls).
Proof.
  intros H. destruct (finalize_ok ck rva len is H) as (ls & Hls). exists ls; split; auto.
  apply finalize_final in Hls as []; auto.
Qed.

(** Without any inline range, nothing at all is assumed. *)

Lemma finalize_tiles_lines ck rva len is : only_lines is ->
  exists ls, finalize ck rva len (build is) = Ok ls /\
    stable_by_addr (inserted_lines is) (map triple (ls_lines ls)) /\
    tiles (fn_end rva len) (ls_lines ls).
Proof.
  intros H.
  assert (Hb : ls_inlines (build is) = []).
  { induction is as [|i is IH] using rev_ind; auto. rewrite build_snoc.
    destruct i as [|s r]; simpl.
    - apply IH. intros s r Hin; apply (H s r), in_or_app; now left.
    - exfalso; apply (H s r), in_or_app; right; now left. }
  assert (Hf : exists ls, finalize ck rva len (build is) = Ok ls).
  { unfold finalize. assert (He : exists ls1, ensure_order ck (build is) = Ok ls1).
    { unfold ensure_order. rewrite Hb. simpl; eauto. }
    destruct He as (ls1 & He). rewrite He. cbn [bind].
    apply ensure_order_lines in He as (Hl & Hs & _). pose proof (build_built is) as B.
    destruct (compute_len_spec ck rva len ls1) as (ls' & H3 & _); eauto.
    - rewrite Hl; apply sort_by_key_sorted.
    - rewrite Hl. eapply Permutation_Forall; [apply sort_by_key_perm|apply (bt_zero _ _ B)]. }
  destruct Hf as (ls & Hls). exists ls; split; auto. apply finalize_final in Hls as []; auto.
Qed.

(** * Lookup *)
Lemma tiles_sorted fend l : tiles fend l -> StronglySorted (key_le l_rva) l.
Proof.
  intros H. apply Sorted_StronglySorted; [intros x y z; unfold key_le; lia|].
  induction l as [|x l IH]; constructor.
  - apply IH. destruct l; simpl in *; tauto.
  - destruct l; constructor. destruct H. unfold key_le. lia.
Qed.

Lemma tiles_above fend l a : tiles fend l -> Forall (fun x => a < l_rva x) l -> filter (in_line a) l = [].
Proof.
  intros _. induction 1; simpl; auto. unfold in_line.
  replace ((l_rva x <=? a) && (a <? l_rva x + l_len x)) with false by lia. auto.
Qed.

Lemma tiles_lookup fend l a : tiles fend l ->
  match last_opt (filter (fun x => l_rva x <=? a) l) with
  | None => filter (in_line a) l = []
  | Some b =>
      ((exists x, In x l /\ a < l_rva x) \/ (exists e, fend = Some e /\ a < e)) /\ filter (in_line a) l = [b]
      \/ ~ ((exists x, In x l /\ a < l_rva x) \/ (exists e, fend = Some e /\ a < e)) /\ filter (in_line a) l = []
  end.
Proof.
  induction l as [|x l IH]; intros T; [reflexivity|].
  pose proof (tiles_sorted _ _ T) as S. inversion S as [|? ? S' F]; subst.
  destruct l as [|y l].
  - simpl in T. cbn [filter]. unfold in_line. destruct (N.leb_spec (l_rva x) a) as [Hle|Hgt]; simpl.
    + destruct fend as [e|].
      * destruct (N.ltb_spec (l_rva x) e).
        -- destruct (N.ltb_spec a (l_rva x + l_len x)).
           ++ left; split; auto. right; exists e; split; auto; lia.
           ++ right; split; auto. intros [(z & [<-|[]] & Hz)|(e' & He & Ha)]; [lia|]. inversion He; subst; lia.
        -- replace (a <? l_rva x + l_len x) with false by lia. right; split; auto.
           intros [(z & [<-|[]] & Hz)|(e' & He & Ha)]; [lia|]. inversion He; subst; lia.
      * replace (a <? l_rva x + l_len x) with false by lia. right; split; auto.
        intros [(z & [<-|[]] & Hz)|(e' & He & Ha)]; [lia|discriminate].
    + reflexivity.
  - destruct T as (Tx & T). specialize (IH T).
    destruct (N.leb_spec (l_rva y) a) as [Hy|Hy].
    + (* some later record starts at or before a *)
      assert (Hx : in_line a x = false) by (unfold in_line; lia).
      assert (Hl : last_opt (filter (fun z => l_rva z <=? a) (x :: y :: l)) =
                   last_opt (filter (fun z => l_rva z <=? a) (y :: l))).
      { cbn [filter]. replace (l_rva y <=? a) with true by lia.
        destruct (l_rva x <=? a); reflexivity. }
      rewrite Hl. destruct (last_opt (filter _ (y :: l))) as [b|] eqn:E.
      * change (filter (in_line a) (x :: y :: l)) with
          (if in_line a x then x :: filter (in_line a) (y :: l) else filter (in_line a) (y :: l)).
        rewrite Hx. destruct IH as [(C & IH)|(C & IH)].
        -- left; split; auto. destruct C as [(z & Hz & Hz')|C]; [left; exists z; split; auto; now right|auto].
        -- right; split; auto. intros D; apply C.
           destruct D as [(z & [<-|Hz] & Hz')|D]; [exfalso; unfold key_le in F; inversion F; lia| |]; eauto.
      * exfalso. cbn [filter] in E. replace (l_rva y <=? a) with true in E by lia.
        apply last_opt_none in E. discriminate.
    + (* all later records start after a *)
      assert (Fa : Forall (fun z => a < l_rva z) (y :: l)).
      { constructor; auto. inversion S' as [|? ? _ Fy]; subst. eapply Forall_impl; [|exact Fy].
        unfold key_le; intros; lia. }
      assert (E1 : filter (fun z => l_rva z <=? a) (y :: l) = []).
      { clear - Fa. induction Fa; cbn [filter]; auto. replace (l_rva x <=? a) with false by lia. auto. }
      change (filter (in_line a) (x :: y :: l)) with
          (if in_line a x then x :: filter (in_line a) (y :: l) else filter (in_line a) (y :: l)).
      rewrite (tiles_above fend) by auto.
      change (filter (fun z => l_rva z <=? a) (x :: y :: l)) with
        (if l_rva x <=? a then x :: filter (fun z => l_rva z <=? a) (y :: l) else filter (fun z => l_rva z <=? a) (y :: l)).
      rewrite E1. unfold in_line. destruct (N.leb_spec (l_rva x) a); simpl.
      * replace (a <? l_rva x + l_len x) with true by lia. left; split; auto.
        left; exists y; split; [right; now left|auto].
      * reflexivity.
Qed.

Lemma last_filter_decomp {A} (p : A -> bool) l b : last_opt (filter p l) = Some b ->
  exists pre post, l = pre ++ b :: post /\ p b = true /\ forall t, In t post -> p t = false.
Proof.
  induction l as [|x l IH]; simpl; [discriminate|].
  destruct (p x) eqn:E.
  - destruct (filter p l) as [|y f] eqn:Ef.
    + simpl; intros H; inversion H; subst. exists [], l. repeat split; auto.
      intros t Ht. destruct (p t) eqn:Et; auto.
      assert (Hin : In t (filter p l)) by (apply filter_In; auto). rewrite Ef in Hin; easy.
    + intros H. change (last_opt (y :: f) = Some b) in H. destruct (IH H) as (pre & post & -> & Hb & Hp).
      exists (x :: pre), post. auto.
  - intros H. destruct (IH H) as (pre & post & -> & Hb & Hp). exists (x :: pre), post. auto.
Qed.

Lemma stable_best a l l' b : stable_by_addr l l' ->
  last_opt (filter (fun t => t_addr t <=? a) l') = Some b -> is_best a l b.
Proof.
  intros (S & St) H.
  destruct (last_filter_decomp _ _ _ H) as (pre' & post' & E & Hb & Hpost).
  assert (Hle : forall t, In t l -> t_addr t <= a -> t_addr t <= t_addr b).
  { intros t Ht Ha.
    assert (Ht' : In t l').
    { assert (Hf : In t (filter (fun x => t_addr x =? t_addr t) l')).
      { rewrite St. apply filter_In; split; auto. lia. }
      now apply filter_In in Hf as (Hf & _). }
    rewrite E in Ht'. apply in_app_or in Ht' as [Ht'|[->|Ht']]; [|lia|apply Hpost in Ht'; lia].
    rewrite E in S. clear - S Ht'. induction pre' as [|x p IH]; simpl in *; [easy|].
    inversion S as [|? ? S' F]; subst. destruct Ht' as [->|Ht']; auto.
    rewrite Forall_forall in F. apply F. apply in_or_app; right; now left. }
  assert (Hlast : last_opt (filter (fun t => t_addr t =? t_addr b) l) = Some b).
  { rewrite <- St, E, filter_app. cbn [filter]. rewrite N.eqb_refl.
    replace (filter (fun t => t_addr t =? t_addr b) post') with (@nil (N*N*N)); [apply last_opt_app|].
    symmetry. clear - Hpost Hb. induction post' as [|x p IH]; simpl; auto.
    assert (Hx := Hpost x (or_introl eq_refl)).
    destruct (N.eqb_spec (t_addr x) (t_addr b)); [lia|]. apply IH. intros; apply Hpost; now right. }
  destruct (last_filter_decomp _ _ _ Hlast) as (pre & post & El & _ & Hp).
  exists pre, post. split; auto. split; [lia|]. split.
  - intros t Ht Ha. apply Hle; auto. rewrite El; apply in_or_app; now left.
  - intros t Ht Ha. assert (Hne := Hp t Ht). simpl in Hne.
    assert (Hl : t_addr t <= t_addr b) by (apply Hle; auto; rewrite El; apply in_or_app; right; now right).
    lia.
Qed.

Lemma stable_in l l' : stable_by_addr l l' -> forall t, In t l <-> In t l'.
Proof.
  intros (_ & St) t. split; intros H.
  - assert (Hf : In t (filter (fun x => t_addr x =? t_addr t) l')) by (rewrite St; apply filter_In; split; auto; lia).
    now apply filter_In in Hf as (Hf & _).
  - assert (Hf : In t (filter (fun x => t_addr x =? t_addr t) l)) by (rewrite <- St; apply filter_In; split; auto; lia).
    now apply filter_In in Hf as (Hf & _).
Qed.

Lemma final_lookup rva len is ls a : final rva len is ls ->
  (forall t, In t (inserted_lines is) -> a < t_addr t) /\ filter (in_line a) (ls_lines ls) = [] \/
  exists b, is_best a (inserted_lines is) b /\
    ((before_end a (fn_end rva len) (inserted_lines is) /\
      exists l, filter (in_line a) (ls_lines ls) = [l] /\ triple l = b) \/
     (~ before_end a (fn_end rva len) (inserted_lines is) /\ filter (in_line a) (ls_lines ls) = [])).
Proof.
  intros [St T]. pose proof (tiles_lookup _ _ a T) as HL. pose proof (stable_in _ _ St) as Hin.
  assert (Hbe : before_end a (fn_end rva len) (inserted_lines is) <->
                ((exists x, In x (ls_lines ls) /\ a < l_rva x) \/ (exists e, fn_end rva len = Some e /\ a < e))).
  { unfold before_end. split; intros [H|H]; auto; left.
    - destruct H as (t & Ht & Ha). apply Hin, in_map_iff in Ht as (x & <- & Hx). exists x; auto.
    - destruct H as (x & Hx & Ha). exists (triple x); split; auto. apply Hin. now apply in_map. }
  assert (Em : filter (fun t => t_addr t <=? a) (map triple (ls_lines ls)) =
               map triple (filter (fun x => l_rva x <=? a) (ls_lines ls))) by (apply filter_map).
  assert (Hml : forall (l : list Line), last_opt (map triple l) = option_map triple (last_opt l)).
  { induction l as [|x [|y l] IH]; auto. }
  destruct (last_opt (filter (fun x => l_rva x <=? a) (ls_lines ls))) as [b|] eqn:E.
  - right. exists (triple b). split.
    + eapply stable_best; eauto. rewrite Em, Hml, E. reflexivity.
    + destruct HL as [(C & HL)|(C & HL)]; [left|right].
      * split; [now apply Hbe|]. exists b; auto.
      * split; auto. now rewrite Hbe.
  - left. split; auto. intros t Ht. apply last_opt_none in E. apply Hin in Ht.
    apply in_map_iff in Ht as (x & <- & Hx).
    destruct (N.ltb_spec a (t_addr (triple x))); auto. exfalso.
    assert (Hf : In x (filter (fun x => l_rva x <=? a) (ls_lines ls))).
    { apply filter_In; split; auto. unfold triple, t_addr in *; simpl in *. lia. }
    rewrite E in Hf; easy.
Qed.

Lemma finalize_lookup ck rva len is ls a : finalize ck rva len (build is) = Ok ls ->
  (forall t, In t (inserted_lines is) -> a < t_addr t) /\ filter (in_line a) (ls_lines ls) = [] \/
  exists b, is_best a (inserted_lines is) b /\
    ((before_end a (fn_end rva len) (inserted_lines is) /\
      exists l, filter (in_line a) (ls_lines ls) = [l] /\ triple l = b) \/
     (~ before_end a (fn_end rva len) (inserted_lines is) /\ filter (in_line a) (ls_lines ls) = [])).
Proof. intros H. now apply final_lookup, (finalize_final ck). Qed.

(** * Inline ranges after finalisation *)
Lemma finalize_inlines ck rva len is ls : finalize ck rva len (build is) = Ok ls ->
  mapM (order_entry ck) (ls_inlines (build is)) = Ok (ls_inlines ls).
Proof.
  intros H. unfold finalize in H. apply bind_ok in H as (ls1 & H1 & H2).
  apply ensure_order_lines in H1 as (Hl & Hs & Hm). rewrite Hm. f_equal.
  unfold compute_len in H2. destruct (ls_lines ls1); [now inversion H2|].
  rewrite Hs in H2. simpl negb in H2. cbv iota in H2.
  apply bind_ok in H2 as (? & _ & H2). apply bind_ok in H2 as (? & _ & H2). now inversion H2.
Qed.

Lemma finalize_find ck rva len is ls : finalize ck rva len (build is) = Ok ls ->
  bsorted site_lt (ls_inlines ls) /\
  forall s, match inserted_ranges sp_site_eqb s is, bfind site_lt s (ls_inlines ls) with
            | [], None => True
            | (_ :: _) as l, Some l' => order_ranges ck l = Ok l'
            | _, _ => False
            end.
Proof.
  intros H. apply finalize_inlines, mapM_order_inv in H. pose proof (build_built is) as B.
  destruct (Forall2_bfind (fun x y => order_ranges ck (snd x) = Ok (snd y)) _ _ H (bt_inl _ _ B)) as (S & Hf).
  split; auto. intros s. specialize (Hf s). rewrite (bt_find _ _ B) in Hf.
  destruct (inserted_ranges sp_site_eqb s is), (bfind site_lt s (ls_inlines ls)); simpl in *; auto.
Qed.

Lemma inserted_ranges_In is s r : In r (inserted_ranges sp_site_eqb s is) <-> In (InsInline s r) is.
Proof.
  induction is as [|[a n f|s' r'] is IH]; simpl; [tauto| |].
  - rewrite IH. split; [now right|]. intros [E|E]; [discriminate|auto].
  - destruct (sp_site_eqb s' s) eqn:E; simpl; rewrite IH.
    + apply sp_site_eqb_spec in E; subst. split; intros [E|E]; auto; [left; congruence|inversion E; auto].
    + split; [now right|]. intros [E'|E']; auto. inversion E'; subst.
      assert (sp_site_eqb s s = true) by now apply sp_site_eqb_spec. congruence.
Qed.
Lemma sites_find_In ls : bsorted site_lt (ls_inlines ls) -> forall s rs, In (s, rs) (ls_inlines ls) <-> bfind site_lt s (ls_inlines ls) = Some rs.
Proof. intros S s rs. symmetry; apply bfind_In; auto using site_lt_irrefl, site_lt_tot. exact site_lt_trans. Qed.
Lemma finalize_sites ck rva len is ls : finalize ck rva len (build is) = Ok ls ->
  NoDup (map fst (ls_inlines ls)) /\
  (forall s, In s (map fst (ls_inlines ls)) <-> exists r, In (InsInline s r) is).
Proof.
  intros H. apply finalize_find in H as (S & Hf).
  split; [apply (bsorted_NoDup site_lt site_lt_irrefl); auto|].
  pose proof (sites_find_In ls S) as HI. intros s. specialize (Hf s). split.
  - intros Hin. apply in_map_iff in Hin as ([s' rs] & Hs & Hin). simpl in Hs; subst. apply HI in Hin.
    rewrite Hin in Hf. destruct (inserted_ranges sp_site_eqb s is) as [|r t] eqn:E; [easy|].
    exists r. apply inserted_ranges_In. rewrite E; now left.
  - intros (r & Hr). apply inserted_ranges_In in Hr.
    destruct (inserted_ranges sp_site_eqb s is) as [|r' t] eqn:E; [easy|].
    destruct (bfind site_lt s (ls_inlines ls)) as [rs|] eqn:Eb; [|easy].
    apply HI in Eb. now apply (in_map fst) in Eb.
Qed.
Lemma finalize_ranges ck rva len is ls : Forall sp_ins_ok is ->
  finalize ck rva len (build is) = Ok ls ->
  NoDup (map fst (ls_inlines ls)) /\
  (forall s, In s (map fst (ls_inlines ls)) <-> exists r, In (InsInline s r) is) /\
  forall s rs, In (s, rs) (ls_inlines ls) ->
    StronglySorted (fun x y => r_rva x <= r_rva y) rs /\ no_abut rs /\
    forall a, cover_count a rs = cover_count a (inserted_ranges sp_site_eqb s is).
Proof.
  intros Hok H. destruct (finalize_sites _ _ _ _ _ H) as (N1 & N2). apply finalize_find in H as (S & Hf).
  split; auto. split; auto. pose proof (sites_find_In ls S) as HI.
  intros s rs Hin. apply HI in Hin. specialize (Hf s). rewrite Hin in Hf.
  destruct (inserted_ranges sp_site_eqb s is) as [|r t] eqn:E; [easy|].
  destruct (order_ranges_ok ck (r :: t)) as (l' & H1 & H2 & H3 & H4 & H5 & H6); [discriminate| |].
  { rewrite <- E. clear - Hok. induction Hok as [|[] is Hi Hok IH]; simpl; auto.
    destruct (sp_site_eqb s0 s); auto. }
  rewrite Hf in H1; inversion H1; subst. split; auto.
Qed.

(** * Text *)
Lemma fmt_inline_text s rs : fmt_inline (s, rs) = sp_inline_text s rs.
Proof.
  unfold fmt_inline, sp_inline_text. cbn [fst snd app]. rewrite join_with_concat. cbn [map concat].
  replace (lit "INLINE ") with (lit "INLINE" ++ [c_sp]) by reflexivity.
  assert (H : concat (map (cons c_sp) (flat_map (fun r => [hex (r_rva r); hex (r_len r)]) rs)) =
              concat (map (fun r => [c_sp] ++ hex (r_rva r) ++ [c_sp] ++ hex (r_len r)) rs)).
  { induction rs as [|r rs IH]; [reflexivity|]. cbn [flat_map app map concat]. rewrite IH.
    cbn [app]. now rewrite <- app_assoc. }
  rewrite H. repeat (rewrite <- ?app_assoc; cbn [app]). reflexivity.
Qed.
Lemma fmt_line_text l : fmt_line l = sp_line_text l.
Proof. unfold fmt_line, sp_line_text. cbn [join_with]. rewrite <- ?app_assoc. cbn [app]. repeat (rewrite <- ?app_assoc; cbn [app]). reflexivity. Qed.

Lemma pair_leb_total x y : pair_leb x y = true \/ pair_leb y x = true.
Proof. destruct x, y; unfold pair_leb; simpl. lia. Qed.
Lemma pair_leb_trans x y z : pair_leb x y = true -> pair_leb y z = true -> pair_leb x z = true.
Proof. destruct x, y, z; unfold pair_leb; simpl. lia. Qed.
Lemma inl_leb_total x y : inl_leb x y = true \/ inl_leb y x = true.
Proof. apply pair_leb_total. Qed.
Lemma inl_leb_trans x y z : inl_leb x y = true -> inl_leb y z = true -> inl_leb x z = true.
Proof. apply pair_leb_trans. Qed.

Lemma finalize_has_range ck rva len is ls : finalize ck rva len (build is) = Ok ls ->
  Forall (fun kv => snd kv <> []) (ls_inlines ls).
Proof.
  intros H. apply finalize_find in H as (S & Hf). apply Forall_forall. intros [s rs] Hin; simpl.
  apply (bfind_In site_lt site_lt_irrefl site_lt_trans site_lt_tot) in Hin; auto.
  specialize (Hf s). rewrite Hin in Hf. destruct (inserted_ranges sp_site_eqb s is) as [|r t]; [easy|].
  eapply order_ranges_nonempty; [|exact Hf]. discriminate.
Qed.

Lemma inl_sorted_spec l : Forall (fun kv => snd kv <> []) l -> StronglySorted (lebP inl_leb) l ->
  StronglySorted sp_inline_le l.
Proof.
  intros Hn S; induction S as [|x l S IH F]; constructor; inversion Hn as [|? ? Hx Hl]; subst; auto.
  rewrite Forall_forall in *. intros y Hy. specialize (F y Hy). specialize (Hl y Hy).
  destruct x as [s rs], y as [s' rs']; simpl in *. unfold sp_inline_le, lebP, inl_leb, inl_key, pair_leb in *. simpl in *.
  destruct rs, rs'; try congruence. simpl in *. lia.
Qed.

Lemma fmt_lines_text ck rva len is ls : finalize ck rva len (build is) = Ok ls ->
  exists recs,
    fmt_lines ls = Ok (concat (map (fun kv => sp_inline_text (fst kv) (snd kv)) recs)
                       ++ concat (map sp_line_text (ls_lines ls))) /\
    Permutation recs (ls_inlines ls) /\ StronglySorted sp_inline_le recs.
Proof.
  intros H. pose proof (finalize_has_range _ _ _ _ _ H) as Hne.
  exists (ssort inl_leb (ls_inlines ls)). split; [|split].
  - unfold fmt_lines, inline_order.
    replace (forallb has_range (ls_inlines ls)) with true.
    2:{ symmetry; apply forallb_forall. intros x Hx. rewrite Forall_forall in Hne. apply Hne in Hx.
        unfold has_range. destruct (snd x); congruence. }
    cbn [bind]. f_equal. f_equal; f_equal.
    + apply map_ext. intros [s rs]. apply fmt_inline_text.
    + apply map_ext. apply fmt_line_text.
  - symmetry; apply ssort_perm.
  - apply inl_sorted_spec.
    + eapply Permutation_Forall; [apply ssort_perm|auto].
    + apply ssort_sorted; [exact inl_leb_total|exact inl_leb_trans].
Qed.

(** * Insertion order *)
Lemma inserted_lines_perm a b : Permutation a b -> Permutation (inserted_lines a) (inserted_lines b).
Proof.
  induction 1 as [|[] a b P IH|[] [] l|a b c P1 IH1 P2 IH2]; simpl; auto.
  - apply perm_swap.
  - etransitivity; eauto.
Qed.
Lemma inserted_ranges_perm s a b : Permutation a b ->
  Permutation (inserted_ranges sp_site_eqb s a) (inserted_ranges sp_site_eqb s b).
Proof.
  induction 1 as [|x a b P IH|x y l|a b c P1 IH1 P2 IH2]; auto.
  - destruct x; cbn [inserted_ranges]; auto. destruct (sp_site_eqb s0 s); auto.
  - destruct x as [|s1 r1], y as [|s2 r2]; cbn [inserted_ranges]; auto.
    destruct (sp_site_eqb s1 s), (sp_site_eqb s2 s); auto. apply perm_swap.
  - etransitivity; eauto.
Qed.

Lemma mapM_order_sort ck m1 m2 :
  map (fun kv => (fst kv, sort_by_key r_rva (snd kv))) m1 = map (fun kv => (fst kv, sort_by_key r_rva (snd kv))) m2 ->
  mapM (order_entry ck) m1 = mapM (order_entry ck) m2.
Proof.
  revert m2; induction m1 as [|[s rs] m1 IH]; intros [|[s' rs'] m2]; simpl; intros E; try discriminate; auto.
  injection E as -> Er Em. unfold order_entry at 1 3. simpl. unfold order_ranges. rewrite Er.
  now rewrite (IH m2 Em).
Qed.

Lemma bfind_map_val {V W} (f : V -> W) s (m : list (Site * V)) :
  bfind site_lt s (map (fun kv => (fst kv, f (snd kv))) m) = option_map f (bfind site_lt s m).
Proof. induction m as [|[k v] m IH]; simpl; auto. destruct (site_lt s k); auto. destruct (site_lt k s); auto. Qed.

Lemma bsorted_map_val' {V W} (f : V -> W) (m : list (Site * V)) : bsorted site_lt m ->
  bsorted site_lt (map (fun kv => (fst kv, f (snd kv))) m).
Proof.
  induction 1 as [|[k v] m S IH F]; simpl; constructor; auto.
  rewrite Forall_map. eapply Forall_impl; [|exact F]. unfold blt; simpl; auto.
Qed.

Lemma lines_of_triples l1 l2 : Forall (fun l => l_len l = 0) l1 -> Forall (fun l => l_len l = 0) l2 ->
  map triple l1 = map triple l2 -> l1 = l2.
Proof.
  revert l2; induction l1 as [|[a b c d] l1 IH]; intros [|[a' b' c' d'] l2]; simpl; intros H1 H2 E; try discriminate; auto.
  inversion H1; inversion H2; subst; simpl in *. injection E as -> -> -> E.
  subst. f_equal. now apply IH.
Qed.

Lemma permutation_map_triple l1 l2 : Forall (fun l => l_len l = 0) l1 -> Forall (fun l => l_len l = 0) l2 ->
  Permutation (map triple l1) (map triple l2) -> Permutation l1 l2.
Proof.
  intros Z1 Z2 P. set (un := fun t : N * N * N => mkLine (fst (fst t)) 0 (snd (fst t)) (snd t)).
  assert (H : forall l, Forall (fun l => l_len l = 0) l -> map un (map triple l) = l).
  { induction l as [|[a b c d] l IH]; simpl; auto. intros H; inversion H; subst; simpl in *; subst.
    unfold un at 1; simpl. now rewrite IH. }
  rewrite <- (H l1), <- (H l2) by auto. now apply Permutation_map.
Qed.

Lemma build_perm_obs ck rva len is1 is2 : Permutation is1 is2 ->
  NoDup (map t_addr (inserted_lines is1)) ->
  (forall s, NoDup (map r_rva (inserted_ranges sp_site_eqb s is1))) ->
  observe (finalize ck rva len (build is1)) = observe (finalize ck rva len (build is2)).
Proof.
  intros P N1 N2. pose proof (build_built is1) as B1. pose proof (build_built is2) as B2.
  assert (EL : sort_by_key l_rva (ls_lines (build is1)) = sort_by_key l_rva (ls_lines (build is2))).
  { apply sort_by_key_unique.
    - apply permutation_map_triple; [apply (bt_zero _ _ B1)|apply (bt_zero _ _ B2)|].
      rewrite (bt_lines _ _ B1), (bt_lines _ _ B2). now apply inserted_lines_perm.
    - rewrite <- (bt_lines _ _ B1), map_map in N1. exact N1. }
  assert (EI : mapM (order_entry ck) (ls_inlines (build is1)) = mapM (order_entry ck) (ls_inlines (build is2))).
  { apply mapM_order_sort.
    apply (bsorted_ext site_lt site_lt_irrefl site_lt_trans site_lt_tot).
    - apply bsorted_map_val', (bt_inl _ _ B1).
    - apply bsorted_map_val', (bt_inl _ _ B2).
    - intros s. rewrite !bfind_map_val, (bt_find _ _ B1), (bt_find _ _ B2).
      pose proof (inserted_ranges_perm s _ _ P) as Ps. specialize (N2 s).
      destruct (inserted_ranges sp_site_eqb s is1) as [|r1 t1] eqn:E1.
      + apply Permutation_nil in Ps. now rewrite Ps.
      + destruct (inserted_ranges sp_site_eqb s is2) as [|r2 t2] eqn:E2.
        { now apply Permutation_sym, Permutation_nil in Ps. }
        cbn [option_map]. f_equal. now apply sort_by_key_unique. }
  assert (EO : forall is, exists last, ensure_order ck (build is) =
     (inl <- mapM (order_entry ck) (ls_inlines (build is)) ;; Ok (mkLines (sort_by_key l_rva (ls_lines (build is))) inl true last))).
  { intros is. exists (ls_last (build is)). unfold ensure_order.
    change (fun kv => rs <- order_ranges ck (snd kv);; Ok (fst kv, rs)) with (order_entry ck).
    destruct (mapM (order_entry ck) (ls_inlines (build is))); simpl; auto.
    pose proof (build_built is) as B. destruct (ls_sorted (build is)) eqn:E; auto.
    rewrite sort_by_key_id; auto. now apply (bt_sorted _ _ B). }
  unfold finalize. destruct (EO is1) as (last1 & ->). destruct (EO is2) as (last2 & ->).
  rewrite <- EI, <- EL. destruct (mapM (order_entry ck) (ls_inlines (build is1))); cbn [bind]; auto.
  unfold compute_len. cbn [ls_lines ls_sorted negb ls_inlines].
  destruct (sort_by_key l_rva (ls_lines (build is1))) as [|x l]; [reflexivity|].
  destruct (window_lens ck (x :: l)); cbn [bind]; auto.
  destruct (assign_lens ck (checked_add32 rva len) (x :: l) a0); reflexivity.
Qed.

Lemma build_perm_text ck rva len is1 is2 : Permutation is1 is2 ->
  NoDup (map t_addr (inserted_lines is1)) ->
  (forall s, NoDup (map r_rva (inserted_ranges sp_site_eqb s is1))) ->
  (ls <- finalize ck rva len (build is1) ;; fmt_lines ls) = (ls <- finalize ck rva len (build is2) ;; fmt_lines ls).
Proof.
  intros P N1 N2. pose proof (build_perm_obs ck rva len is1 is2 P N1 N2) as H.
  unfold observe in H. unfold fmt_lines.
  destruct (finalize ck rva len (build is1)), (finalize ck rva len (build is2)); cbn [bind] in *; try discriminate; try congruence.
  injection H as H1 H2. now rewrite H1, H2.
Qed.
