(** Proofs that the written text reads back. *)
From Verif Require Import Base Sort BMap Str M_Names M_Path M_Line M_Source M_Symbol M_Collector M_Object
  S_Line S_Names S_Path S_Source S_Symbol S_Collector S_Object S_Format
  P_Line P_Names P_Path P_Source P_Symbol P_Collector P_Walk P_Tree P_Func P_Calls P_Object P_Merge P_From.

(** *** Words *)
Lemma token_word w r : ~ In c_sp w -> token (w ++ c_sp :: r) = (w, Some r).
Proof.
  induction w as [|c w IH]; cbn [app token]; intros H; [reflexivity|].
  destruct (N.eqb_spec c c_sp) as [->|]; [destruct H; now left|]. rewrite IH; [reflexivity|]. intros Hi; apply H; now right.
Qed.
Lemma word_word w r : ~ In c_sp w -> word (w ++ c_sp :: r) = Some (w, r).
Proof. intros H. unfold word. now rewrite token_word. Qed.
Lemma dec_no c n : c < 48 \/ 57 < c -> ~ In c (dec n).
Proof. intros H Hi. pose proof (proj1 (Forall_forall _ _) (dec_chars n) c Hi). cbn in *. lia. Qed.
Lemma hex_no c n : (c < 48 \/ 57 < c) -> (c < 97 \/ 102 < c) -> ~ In c (hex n).
Proof. intros H1 H2 Hi. pose proof (proj1 (Forall_forall _ _) (hex_chars n) c Hi). cbn in *. lia. Qed.
Lemma hex_word_hex n r : hex_word (hex n ++ c_sp :: r) = Some (n, r).
Proof. unfold hex_word. rewrite word_word by (apply hex_no; vm_compute; auto). cbn [obind fst snd]. now rewrite read_hex_hex. Qed.
Lemma dec_word_dec n r : dec_word (dec n ++ c_sp :: r) = Some (n, r).
Proof. unfold dec_word. rewrite word_word by (apply dec_no; vm_compute; auto). cbn [obind fst snd]. now rewrite read_dec_dec. Qed.
Lemma words_one w : ~ In c_sp w -> words w = [w].
Proof.
  induction w as [|c w IH]; cbn [words]; intros H; [reflexivity|].
  destruct (N.eqb_spec c c_sp) as [->|]; [destruct H; now left|]. rewrite IH; [reflexivity|]. intros Hi; apply H; now right.
Qed.
Lemma words_cons w r : ~ In c_sp w -> words (w ++ c_sp :: r) = w :: words r.
Proof.
  induction w as [|c w IH]; cbn [app words]; intros H; [reflexivity|].
  destruct (N.eqb_spec c c_sp) as [->|]; [destruct H; now left|]. rewrite IH; [reflexivity|]. intros Hi; apply H; now right.
Qed.
Lemma words_join ws : Forall (fun w => ~ In c_sp w) ws -> ws <> [] -> words (join_with c_sp ws) = ws.
Proof.
  induction ws as [|w ws IH]; intros F H; [congruence|]. inversion F; subst. cbn [join_with].
  destruct ws as [|w' ws]; [now apply words_one|]. cbn [app]. rewrite words_cons by auto. rewrite IH; auto. discriminate.
Qed.
Lemma marker_mark (m : bool) n r : marker ((if m then lit "m " else []) ++ hex n ++ c_sp :: r) = (m, hex n ++ c_sp :: r).
Proof.
  unfold marker. destruct m.
  - change (lit "m " ++ hex n ++ c_sp :: r) with (lit "m" ++ c_sp :: hex n ++ c_sp :: r).
    rewrite word_word by (vm_compute; intros [H|[]]; discriminate). reflexivity.
  - cbn [app]. rewrite word_word by (apply hex_no; vm_compute; auto).
    destruct (str_eqb (hex n) (lit "m")) eqn:E; [|reflexivity]. apply str_eqb_eq in E.
    exfalso. apply (hex_no 109 n); [vm_compute; auto|vm_compute; auto|]. rewrite E. now left.
Qed.
Lemma hex_not n c t : (c < 48 \/ 57 < c) -> (c < 97 \/ 102 < c) -> str_eqb (hex n) (c :: t) = false.
Proof.
  intros H1 H2. destruct (str_eqb (hex n) (c :: t)) eqn:E; [|reflexivity]. apply str_eqb_eq in E.
  exfalso. apply (hex_no c n H1 H2). rewrite E. now left.
Qed.

(** *** One record *)
Definition mark (m : bool) : str := if m then lit "m " else [].
Definition print (r : Rec) : str :=
  match r with
  | RModule os cpu id name => lit "MODULE " ++ os ++ c_sp :: cpu ++ c_sp :: id ++ c_sp :: name
  | RInfo t => lit "INFO " ++ t
  | RFile n s => lit "FILE " ++ dec n ++ c_sp :: s
  | ROrigin n s => lit "INLINE_ORIGIN " ++ dec n ++ c_sp :: s
  | RFunc m a n p s => lit "FUNC " ++ mark m ++ hex a ++ c_sp :: hex n ++ c_sp :: hex p ++ c_sp :: s
  | RInline d l f o rs => join_with c_sp ([lit "INLINE"; dec d; dec l; dec f; dec o] ++ flat_map (fun r => [hex (fst r); hex (snd r)]) rs)
  | RLine a n l f => join_with c_sp [hex a; hex n; dec l; dec f]
  | RPublic m a p s => lit "PUBLIC " ++ mark m ++ hex a ++ c_sp :: hex p ++ c_sp :: s
  | RStack t => lit "STACK " ++ t
  end.
Definition rec_ok (r : Rec) : Prop :=
  match r with
  | RModule os cpu id name => one_word os /\ one_word cpu /\ one_word id /\ one_line name
  | RInfo t | RFile _ t | ROrigin _ t | RFunc _ _ _ _ t | RPublic _ _ _ t | RStack t => one_line t
  | RInline _ _ _ _ rs => rs <> []
  | RLine _ _ _ _ => True
  end.
Lemma pairs_flat rs : pairs (flat_map (fun r : N * N => [hex (fst r); hex (snd r)]) rs) = Some rs.
Proof.
  induction rs as [|[a b] rs IH]; cbn [flat_map app pairs fst snd]; [reflexivity|]. now rewrite !read_hex_hex, IH.
Qed.
Lemma parse_print r : rec_ok r -> parse_line (print r) = Some r.
Proof.
  assert (K : forall kind rest, ~ In c_sp kind -> token (kind ++ c_sp :: rest) = (kind, Some rest)) by (intros; now apply token_word).
  destruct r as [os cpu id name|t|n s|n s|m a n p s|d l f o rs|a n l f|m a p s|t]; cbn [rec_ok print]; intros H.
  - destruct H as ((_ & A) & (_ & B) & (_ & C) & _). unfold parse_line.
    change (lit "MODULE " ++ ?x) with (lit "MODULE" ++ c_sp :: x). rewrite K by (vm_compute; intuition discriminate).
    change (str_eqb (lit "MODULE") (lit "MODULE")) with true. cbn iota.
    rewrite word_word by exact A. cbn [obind fst snd]. rewrite word_word by exact B. cbn [obind fst snd]. rewrite word_word by exact C. reflexivity.
  - reflexivity.
  - unfold parse_line. change (lit "FILE " ++ ?x) with (lit "FILE" ++ c_sp :: x). rewrite K by (vm_compute; intuition discriminate).
    cbn iota zeta. change (str_eqb (lit "FILE") (lit "MODULE")) with false. change (str_eqb (lit "FILE") (lit "INFO")) with false.
    change (str_eqb (lit "FILE") (lit "FILE")) with true. cbn iota. now rewrite dec_word_dec.
  - unfold parse_line. change (lit "INLINE_ORIGIN " ++ ?x) with (lit "INLINE_ORIGIN" ++ c_sp :: x). rewrite K by (vm_compute; intuition discriminate).
    cbn iota zeta. change (str_eqb (lit "INLINE_ORIGIN") (lit "MODULE")) with false. change (str_eqb (lit "INLINE_ORIGIN") (lit "INFO")) with false.
    change (str_eqb (lit "INLINE_ORIGIN") (lit "FILE")) with false. change (str_eqb (lit "INLINE_ORIGIN") (lit "INLINE_ORIGIN")) with true. cbn iota. now rewrite dec_word_dec.
  - unfold parse_line, mark. change (lit "FUNC " ++ ?x) with (lit "FUNC" ++ c_sp :: x). rewrite K by (vm_compute; intuition discriminate).
    cbn iota zeta. change (str_eqb (lit "FUNC") (lit "MODULE")) with false. change (str_eqb (lit "FUNC") (lit "INFO")) with false.
    change (str_eqb (lit "FUNC") (lit "FILE")) with false. change (str_eqb (lit "FUNC") (lit "INLINE_ORIGIN")) with false.
    change (str_eqb (lit "FUNC") (lit "INLINE")) with false. change (str_eqb (lit "FUNC") (lit "FUNC")) with true. cbn iota.
    rewrite marker_mark. cbn iota. rewrite hex_word_hex. cbn [obind fst snd]. rewrite hex_word_hex. cbn [obind fst snd]. now rewrite hex_word_hex.
  - cbn [app join_with]. unfold parse_line. rewrite K by (vm_compute; intuition discriminate).
    cbn iota zeta. change (str_eqb (lit "INLINE") (lit "MODULE")) with false. change (str_eqb (lit "INLINE") (lit "INFO")) with false.
    change (str_eqb (lit "INLINE") (lit "FILE")) with false. change (str_eqb (lit "INLINE") (lit "INLINE_ORIGIN")) with false.
    change (str_eqb (lit "INLINE") (lit "INLINE")) with true. cbn iota.
    assert (W : words (dec d ++ c_sp :: dec l ++ c_sp :: dec f ++ c_sp :: join_with c_sp (dec o :: flat_map (fun r => [hex (fst r); hex (snd r)]) rs))
                = dec d :: dec l :: dec f :: dec o :: flat_map (fun r => [hex (fst r); hex (snd r)]) rs).
    { rewrite !words_cons by (apply dec_no; vm_compute; auto). rewrite words_join; [reflexivity| |discriminate].
      constructor; [apply dec_no; vm_compute; auto|]. clear. induction rs as [|r rs IH]; cbn [flat_map app]; [constructor|].
      constructor; [apply hex_no; vm_compute; auto|]. constructor; [apply hex_no; vm_compute; auto|exact IH]. }
    unfold parse_inline. cbn [join_with] in W |- *. rewrite W. rewrite !read_dec_dec. cbn [obind]. rewrite pairs_flat. cbn [obind]. destruct rs; [congruence|reflexivity].
  - cbn [join_with app]. unfold parse_line. rewrite K by (apply hex_no; vm_compute; auto).
    cbn iota zeta.
    repeat (match goal with |- context [str_eqb (hex a) (lit ?k)] => replace (str_eqb (hex a) (lit k)) with false by (symmetry; apply hex_not; vm_compute; auto) end).
    assert (W : words (join_with c_sp [hex a; hex n; dec l; dec f]) = [hex a; hex n; dec l; dec f]).
    { apply words_join; [|discriminate]. repeat constructor; (apply hex_no || apply dec_no); vm_compute; auto. }
    cbn [join_with app] in W. unfold parse_lineno. rewrite W. rewrite !read_hex_hex. cbn [obind]. now rewrite !read_dec_dec.
  - unfold parse_line, mark. change (lit "PUBLIC " ++ ?x) with (lit "PUBLIC" ++ c_sp :: x). rewrite K by (vm_compute; intuition discriminate).
    cbn iota zeta. change (str_eqb (lit "PUBLIC") (lit "MODULE")) with false. change (str_eqb (lit "PUBLIC") (lit "INFO")) with false.
    change (str_eqb (lit "PUBLIC") (lit "FILE")) with false. change (str_eqb (lit "PUBLIC") (lit "INLINE_ORIGIN")) with false.
    change (str_eqb (lit "PUBLIC") (lit "INLINE")) with false. change (str_eqb (lit "PUBLIC") (lit "FUNC")) with false. change (str_eqb (lit "PUBLIC") (lit "PUBLIC")) with true. cbn iota.
    rewrite marker_mark. cbn iota. rewrite hex_word_hex. cbn [obind fst snd]. now rewrite hex_word_hex.
  - reflexivity.
Qed.

(** *** Lines *)
Lemma lines_one l t : one_line l -> lines_of (l ++ c_nl :: t) = l :: lines_of t.
Proof.
  induction l as [|c l IH]; cbn [app lines_of]; intros H; [reflexivity|].
  destruct (N.eqb_spec c c_nl) as [->|]; [destruct H; now left|]. rewrite IH; [reflexivity|]. intros Hi; apply H; now right.
Qed.
Lemma lines_breaks l : length (lines_of (l ++ [c_nl])) = S (breaks l).
Proof.
  unfold breaks. induction l as [|c l IH]; [reflexivity|]. cbn [app lines_of filter]. destruct (c =? c_nl); cbn [length]; [now rewrite IH|].
  destruct (lines_of (l ++ [c_nl])) as [|x t]; [discriminate|exact IH].
Qed.
Lemma breaks_app a b : breaks (a ++ b) = (breaks a + breaks b)%nat.
Proof. unfold breaks. now rewrite filter_app, app_length. Qed.
Lemma breaks_none a : one_line a -> breaks a = 0%nat.
Proof.
  unfold breaks, one_line. induction a as [|c a IH]; intros H; [reflexivity|]. cbn [filter]. destruct (N.eqb_spec c c_nl) as [->|]; [destruct H; now left|]. apply IH. intros I. apply H. now right.
Qed.
Lemma breaks_zero a : breaks a = 0%nat -> one_line a.
Proof.
  unfold breaks, one_line. induction a as [|c a IH]; [auto|]. cbn [filter]. destruct (N.eqb_spec c c_nl) as [->|N]; [discriminate|]. intros H [I|I]; [congruence|now apply IH].
Qed.
Lemma lines_concat ls t : Forall one_line ls -> lines_of (concat (map (fun l => l ++ [c_nl]) ls) ++ t) = ls ++ lines_of t.
Proof.
  induction 1 as [|l ls H F IH]; cbn [map concat app]; [reflexivity|].
  rewrite <- !app_assoc. cbn [app]. rewrite lines_one by exact H. now rewrite IH.
Qed.
Lemma parse_lines_app a b : parse_lines (a ++ b) = obind (parse_lines a) (fun x => obind (parse_lines b) (fun y => Some (x ++ y))).
Proof.
  induction a as [|l a IH]; cbn [app parse_lines].
  - destruct (parse_lines b); reflexivity.
  - destruct (parse_line l); cbn [obind]; [|reflexivity]. rewrite IH. destruct (parse_lines a); cbn [obind]; [|reflexivity]. destruct (parse_lines b); reflexivity.
Qed.
Lemma parse_prints rs : Forall rec_ok rs -> parse_lines (map print rs) = Some rs.
Proof. induction 1 as [|r rs H F IH]; cbn [map parse_lines]; [reflexivity|]. rewrite parse_print by exact H. cbn [obind]. now rewrite IH. Qed.

Lemma one_line_app a b : one_line a -> one_line b -> one_line (a ++ b).
Proof. unfold one_line. intros A B H. apply in_app_or in H as [H|H]; auto. Qed.
Lemma one_line_cons c a : c <> c_nl -> one_line a -> one_line (c :: a).
Proof. unfold one_line. intros A B [H|H]; congruence || auto. Qed.
Lemma one_line_dec n : one_line (dec n). Proof. apply dec_no. vm_compute; auto. Qed.
Lemma one_line_hex n : one_line (hex n). Proof. apply hex_no; vm_compute; auto. Qed.
Lemma one_line_join ws : Forall one_line ws -> one_line (join_with c_sp ws).
Proof.
  induction 1 as [|w ws H F IH]; cbn [join_with]; [intros []|]. destruct ws; [exact H|].
  apply one_line_app; auto. apply one_line_cons; [discriminate|exact IH].
Qed.
Lemma one_line_mark m : one_line (mark m). Proof. destruct m; vm_compute; intuition discriminate. Qed.
Ltac lit_line := vm_compute; intuition discriminate.
Lemma print_line r : rec_ok r -> one_line (print r).
Proof.
  destruct r as [os cpu id name|t|n s|n s|m a n p s|d l f o rs|a n l f|m a p s|t]; cbn [rec_ok print]; intros H;
    repeat (first [match goal with |- one_line (join_with _ _) => fail 2 end | assumption | apply one_line_mark | apply one_line_dec | apply one_line_hex | (apply one_line_cons; [discriminate|])
      | match goal with |- one_line (lit _ ++ _) => apply one_line_app; [lit_line|] end | match goal with |- one_line (_ ++ _) => apply one_line_app end]);
    try (now apply H).
  - apply one_line_join. apply Forall_app. split; [repeat constructor; [lit_line|apply one_line_dec..]|].
    clear. induction rs as [|r rs IH]; cbn [flat_map app]; [constructor|]. constructor; [apply one_line_hex|]. constructor; [apply one_line_hex|exact IH].
  - apply one_line_join. repeat constructor; apply one_line_hex || apply one_line_dec.
Qed.
Definition text_of (rs : list Rec) : str := concat (map (fun r => print r ++ [c_nl]) rs).
Lemma text_app a b : text_of (a ++ b) = text_of a ++ text_of b.
Proof. unfold text_of. now rewrite map_app, concat_app. Qed.
Lemma text_cons r rs : text_of (r :: rs) = (print r ++ [c_nl]) ++ text_of rs.
Proof. reflexivity. Qed.
Lemma parse_text rs stack ls : Forall rec_ok rs -> stack_lines stack ls -> parse_file (text_of rs ++ stack) = Some (rs ++ map RStack ls).
Proof.
  intros F S. unfold parse_file, text_of. rewrite <- (map_map print (fun l => l ++ [c_nl])).
  rewrite lines_concat by (rewrite Forall_map; eapply Forall_impl; [|exact F]; intros; now apply print_line).
  rewrite parse_lines_app, parse_prints by exact F. cbn [obind]. rewrite S.
  assert (P : parse_lines (map (fun l => lit "STACK " ++ l) ls) = Some (map RStack ls)).
  { clear. induction ls as [|l ls IH]; cbn [map parse_lines]; [reflexivity|]. change (parse_line (lit "STACK " ++ l)) with (Some (RStack l)). cbn [obind]. now rewrite IH. }
  now rewrite P.
Qed.

(** *** What the model writes *)
Lemma fmt_numbered_text (f : N -> str -> str) (g : N -> str -> Rec) : (forall n s, f n s = print (g n s) ++ [c_nl]) ->
  forall l n, fmt_numbered f n l = text_of (number_from g n l).
Proof. intros H. induction l as [|x l IH]; cbn [fmt_numbered number_from]; intros n; [reflexivity|]. unfold text_of. cbn [map concat]. now rewrite H, IH. Qed.

Lemma origin_shown s : match trim s with [] => lit "<name omitted>" | _ => s end = origin_text s.
Proof.
  unfold origin_text. destruct (forallb is_ws s) eqn:E.
  - apply trim_nil_iff in E. now rewrite E.
  - destruct (trim s) eqn:T; [|reflexivity]. apply trim_nil_iff in T. congruence.
Qed.
Lemma fmt_inline_print x : fmt_inline x = print (inline_record x) ++ [c_nl].
Proof.
  destruct x as [s rs]. rewrite fmt_inline_text. unfold sp_inline_text, inline_record, print. cbn [fst snd]. f_equal. f_equal. f_equal.
  induction rs as [|r rs IH]; cbn [map flat_map app]; [reflexivity|]. now rewrite IH.
Qed.
Lemma fmt_line_print l : fmt_line l = print (line_record l) ++ [c_nl].
Proof. rewrite fmt_line_text. reflexivity. Qed.

Lemma fmt_lines_all ls : Forall (fun x : Site * list Range => snd x <> []) (ls_inlines ls) ->
  exists inl, fmt_lines ls = Ok (text_of (map inline_record inl ++ map line_record (ls_lines ls))) /\
    Permutation inl (ls_inlines ls) /\ StronglySorted sp_inline_le inl.
Proof.
  intros Hne. exists (ssort inl_leb (ls_inlines ls)). split; [|split].
  - unfold fmt_lines, inline_order.
    replace (forallb has_range (ls_inlines ls)) with true.
    2:{ symmetry; apply forallb_forall. intros x Hx. rewrite Forall_forall in Hne. apply Hne in Hx.
        unfold has_range. destruct (snd x); congruence. }
    cbn [bind]. f_equal. rewrite text_app. unfold text_of. rewrite !map_map. f_equal; f_equal; apply map_ext.
    + apply fmt_inline_print.
    + apply fmt_line_print.
  - symmetry; apply ssort_perm.
  - apply inl_sorted_spec.
    + eapply Permutation_Forall; [apply ssort_perm|exact Hne].
    + apply ssort_sorted; [apply inl_leb_total|apply inl_leb_trans].
Qed.

Lemma fmt_symbol_text s : has_ranges s -> exists rs, fmt_symbol s = Ok (text_of rs) /\ symbol_records s rs /\ (one_line (sy_name s) -> Forall rec_ok rs).
Proof.
  intros H. unfold fmt_symbol, symbol_records, has_ranges in *. destruct (sy_public s).
  - eexists. split; [|split; [reflexivity|intros; constructor; [assumption|constructor]]].
    unfold text_of. cbn [map concat print]. unfold mark. repeat (rewrite <- ?app_assoc; cbn [app]). reflexivity.
  - destruct (fmt_lines_all (sy_source s) (H eq_refl)) as (inl & E & P & S). rewrite E. cbn [bind].
    exists (RFunc (sy_multiple s) (sy_rva s) (sy_len s) (sy_param s) (sy_name s) :: map inline_record inl ++ map line_record (ls_lines (sy_source s))).
    split; [|split; [eauto|]].
    + f_equal. unfold text_of at 2. cbn [map concat]. fold (text_of (map inline_record inl ++ map line_record (ls_lines (sy_source s)))).
      cbn [print]. unfold mark. repeat (rewrite <- ?app_assoc; cbn [app]). reflexivity.
    + intros L. constructor; [exact L|]. apply Forall_app. split; rewrite Forall_map; apply Forall_forall; [|cbn; auto].
      intros x Hx. cbn. intros E0. apply map_eq_nil in E0. apply (Permutation_in _ P) in Hx.
      specialize (H eq_refl). rewrite Forall_forall in H. exact (H x Hx E0).
Qed.
Lemma fmt_symbols_text (m : list (N * Symbol)) : Forall (fun kv => has_ranges (snd kv)) m ->
  exists per ts, mapM (fun kv => fmt_symbol (snd kv)) m = Ok ts /\ concat ts = text_of (concat per) /\
    Forall2 (fun kv r => symbol_records (snd kv) r) m per /\
    (Forall (fun kv => one_line (sy_name (snd kv))) m -> Forall rec_ok (concat per)).
Proof.
  induction 1 as [|[k s] m H F IH].
  - exists [], []. splits; auto. cbn. auto.
  - destruct IH as (per & ts & A & B & C & D). destruct (fmt_symbol_text s H) as (rs & E1 & E2 & E3). exists (rs :: per), (text_of rs :: ts).
    cbn [mapM snd]. rewrite E1. cbn [bind]. rewrite A. cbn [bind concat]. splits; auto.
    + now rewrite text_app, B.
    + intros G. inversion G; subst. apply Forall_app. auto.
Qed.

Lemma code_text_line o c : ob_code_id o = Some c -> clean_head o -> fmt_code_id o = print (RInfo (code_text c (ob_pe_name o))) ++ [c_nl].
Proof.
  intros E (_ & _ & _ & H & Hn). rewrite E in H. destruct H as (_ & (t & x & Ec & Hx)). unfold fmt_code_id. rewrite E. f_equal. unfold trim.
  rewrite trim_start_id by (intros c0 y Eq; vm_compute in Eq; inversion Eq; reflexivity).
  unfold code_text. cbn [print].
  change (lit "INFO " ++ lit "CODE_ID " ++ ?x) with (lit "INFO CODE_ID " ++ x).
  assert (T0 : forall n, n = [] -> trim_end_by is_ws (lit "INFO CODE_ID " ++ c ++ [c_sp] ++ n) = lit "INFO CODE_ID " ++ c ++ []).
  { intros n ->. rewrite !app_nil_r, !app_assoc. rewrite trim_end_app by reflexivity. subst c. rewrite app_assoc, trim_end_stop by exact Hx. now rewrite <- ?app_assoc. }
  destruct (ob_pe_name o) as [n|]; [|now apply T0]. destruct Hn as (_ & [->|(t' & y & -> & Hy)]); [now apply T0|].
  rewrite !app_assoc. rewrite trim_end_stop by exact Hy. repeat (rewrite <- ?app_assoc; cbn [app]).
  destruct (t' ++ [y]) eqn:Et; [destruct t'; discriminate|]. reflexivity.
Qed.

Lemma written_records extra o ls : all_ranges o -> nsorted (ob_syms o) -> clean_head o ->
  exists text rs0, fmt_object extra o = Ok (text ++ ob_stack o) /\ text = text_of rs0 /\ object_records extra ls o (rs0 ++ map RStack ls) /\
    (Forall one_line extra -> clean_names o -> Forall rec_ok rs0).
Proof.
  intros R S CH.
  assert (F : Forall (fun kv : N * Symbol => has_ranges (snd kv)) (ob_syms o)).
  { apply Forall_forall. intros [k s] Hin. apply (R k). now apply nfind_In. }
  destruct (fmt_symbols_text _ F) as (per & ts & A & B & C & D). unfold fmt_object. rewrite A. cbn [bind].
  exists (text_of (RModule (platform_text (ob_platform o)) (ob_cpu o) (ob_debug_id o) (ob_name o)
         :: match ob_code_id o with Some c => [RInfo (code_text c (ob_pe_name o))] | None => [] end
         ++ map RInfo extra
         ++ number_from RFile 0 (sm_ids (ob_files o))
         ++ number_from (fun n s => ROrigin n (origin_text s)) 0 (ob_origins o)
         ++ concat per)).
  eexists. split; [|split; [reflexivity|split]].
  - f_equal. rewrite (fmt_numbered_text fmt_file RFile).
    2:{ intros n s. unfold fmt_file. cbn [print]. repeat (rewrite <- ?app_assoc; cbn [app]). reflexivity. }
    rewrite (fmt_numbered_text fmt_origin (fun n s => ROrigin n (origin_text s))).
    2:{ intros n s. unfold fmt_origin. cbn [print]. rewrite origin_shown. repeat (rewrite <- ?app_assoc; cbn [app]). reflexivity. }
    rewrite B, text_cons, !text_app.
    assert (M : fmt_module o = print (RModule (platform_text (ob_platform o)) (ob_cpu o) (ob_debug_id o) (ob_name o)) ++ [c_nl]).
    { unfold fmt_module. cbn [print]. repeat (rewrite <- ?app_assoc; cbn [app]). reflexivity. }
    rewrite M. rewrite <- !app_assoc. f_equal. f_equal. f_equal.
    { destruct (ob_code_id o) as [c|] eqn:E; [|unfold fmt_code_id; now rewrite E]. rewrite (code_text_line o c E CH). unfold text_of. cbn [map concat]. now rewrite app_nil_r. }
    f_equal. unfold text_of. rewrite map_map. reflexivity.
  - exists per. split; [exact C|]. cbn [app]. f_equal. now rewrite <- !app_assoc.
  - intros Fx (F1 & F2 & F3). destruct CH as (H1 & H2 & H3 & H4 & L2). constructor; [cbn; splits; auto; destruct (ob_platform o); split; lit_line|].
    apply Forall_app. split.
    { destruct (ob_code_id o) as [c|]; [|constructor]. constructor; [|constructor]. cbn [rec_ok]. unfold code_text. destruct H4 as (L1 & _).
      apply one_line_app; [lit_line|]. apply one_line_app; [exact L1|]. destruct (ob_pe_name o) as [[|y n]|]; try (intros []; fail).
      apply one_line_cons; [discriminate|apply L2]. }
    apply Forall_app. split; [rewrite Forall_map; exact Fx|]. apply Forall_app. split; [|apply Forall_app; split; [|exact (D F3)]].
    + clear - F1. revert F1. generalize 0. induction (sm_ids (ob_files o)) as [|x l IH]; cbn [number_from]; intros n G; constructor; inversion G; subst; auto.
    + clear - F2. revert F2. generalize 0. induction (ob_origins o) as [|x l IH]; cbn [number_from]; intros n G; constructor; inversion G; subst; auto.
      cbn [rec_ok]. unfold origin_text. destruct (forallb is_ws x); [lit_line|assumption].
Qed.
Lemma written_parses extra o ls : all_ranges o -> nsorted (ob_syms o) -> clean_head o -> clean_names o -> Forall one_line extra -> stack_lines (ob_stack o) ls ->
  exists text rs, fmt_object extra o = Ok text /\ parse_file text = Some rs /\ object_records extra ls o rs.
Proof.
  intros R S CH CN CE ST. destruct (written_records extra o ls R S CH) as (text & rs0 & A & B & C & D).
  exists (text ++ ob_stack o), (rs0 ++ map RStack ls). splits; auto. rewrite B. apply parse_text; auto.
Qed.

(** *** Merging keeps an object writable *)
Lemma binsert_In {V} (k : Site) (v : V) m x : In x (binsert site_lt k v m) -> x = (k, v) \/ In x m.
Proof.
  induction m as [|[k' v'] m IH]; cbn [binsert]; intros H; [destruct H as [H|[]]; auto|].
  destruct (site_lt k k'); [destruct H as [H|H]; auto|]. destruct (site_lt k' k).
  - destruct H as [H|H]; [right; now left|]. destruct (IH H); auto. right; now right.
  - destruct H as [H|H]; auto. right; now right.
Qed.
Lemma bcollect_In {V} (l : list (Site * V)) x : In x (bcollect site_lt l) -> In x l.
Proof.
  unfold bcollect. assert (G : forall m, In x (fold_left (fun m kv => binsert site_lt (fst kv) (snd kv) m) l m) -> In x m \/ In x l).
  { induction l as [|[k v] l IH]; cbn [fold_left fst snd]; intros m H; auto. destruct (IH _ H) as [H'|H']; [|right; now right].
    apply binsert_In in H' as [->|H']; [right; now left|now left]. }
  intros H. destruct (G [] H) as [[]|]; auto.
Qed.
Lemma mapM_In {A B} (f : A -> res B) l l' y : mapM f l = Ok l' -> In y l' -> exists x, In x l /\ f x = Ok y.
Proof.
  revert l'. induction l as [|x l IH]; cbn [mapM]; intros l' H Hy; [inversion H; subst; destruct Hy|].
  apply bind_ok in H as (b & Hb & H). apply bind_ok in H as (bs & Hbs & [= <-]). destruct Hy as [<-|Hy].
  - exists x. split; auto. now left.
  - destruct (IH bs Hbs Hy) as (x' & A1 & A2). exists x'. split; auto. now right.
Qed.
Definition sym_ok (s : Symbol) : Prop := one_line (sy_name s) /\ has_ranges s.
Lemma sym_ok_multiple s : sym_ok s -> sym_ok (set_multiple s).
Proof. exact (fun H => H). Qed.
Lemma sym_ok_remap fm om s s' : sym_ok s -> remap_symbol fm om s = Ok s' -> sym_ok s'.
Proof.
  intros (A & B) H. unfold remap_symbol in H. apply bind_ok in H as (ls & _ & H). apply bind_ok in H as (is & Hi & [= <-]).
  split; [exact A|]. intros P. cbn [sy_source ls_inlines sy_public] in *. specialize (B P). apply Forall_forall. intros x Hx.
  apply bcollect_In in Hx. destruct (mapM_In _ _ _ _ Hi Hx) as (y & Hy & E). unfold remap_site in E.
  apply bind_ok in E as (i & _ & E). apply bind_ok in E as (o & _ & [= <-]). cbn [snd]. rewrite Forall_forall in B. exact (B y Hy).
Qed.
Definition all_syms (R : Symbol -> Prop) (m : Symbols) : Prop := nsorted m /\ forall k s, nfind k m = Some s -> R s.
Lemma all_insert R k s m : all_syms R m -> R s -> all_syms R (ninsert k s m).
Proof.
  intros (A & B) H. split; [now apply ninsert_sorted|]. intros j w E. rewrite nfind_insert in E by exact A.
  destruct (j =? k); [inversion E; now subst|eauto].
Qed.
Lemma merge_symbol_syms ck fm om k b m m' : all_syms sym_ok m -> sym_ok b -> merge_symbol ck fm om m (k, b) = Ok m' -> all_syms sym_ok m'.
Proof.
  intros F L H. unfold merge_symbol in H.
  assert (K : forall a, nfind k m = Some a -> all_syms sym_ok (ninsert k (set_multiple a) m)).
  { intros a Ha. apply all_insert; auto. apply sym_ok_multiple. exact (proj2 F k a Ha). }
  destruct (sy_public b).
  - apply bind_ok in H as (i & _ & H). destruct i; [inversion H; now subst|].
    destruct (nfind k m) as [a|]; [|inversion H; subst; now apply all_insert].
    destruct (sy_synthetic b); [inversion H; now subst|]. destruct (sy_synthetic a); [inversion H; subst; now apply all_insert|].
    destruct (str_eqb (sy_name a) (sy_name b)); inversion H; subst; auto.
  - destruct (nfind k m) as [a|].
    + destruct (sy_public a).
      * apply bind_ok in H as (s & Hs & [= <-]). apply all_insert; auto. apply sym_ok_multiple. exact (sym_ok_remap _ _ _ _ L Hs).
      * inversion H; subst; auto.
    + apply bind_ok in H as (s & Hs & [= <-]). apply all_insert; auto. exact (sym_ok_remap _ _ _ _ L Hs).
Qed.
Lemma nthN_In {A} (l : list A) i x : nthN l i = Some x -> In x l.
Proof. unfold nthN. apply nth_error_In. Qed.
Lemma srcmap_ids iter self other f o' rm : srcmap_merge iter self other = Ok (f, o', rm) ->
  forall x, In x (sm_ids f) -> In x (sm_ids self) \/ In x (sm_ids other).
Proof.
  intros H. unfold srcmap_merge in H. destruct (sm_ids other) as [|i0 is] eqn:Eo; [inversion H; subst; auto|].
  destruct (sm_ids self) as [|j0 js] eqn:Es.
  - inversion H; subst. cbn. auto.
  - apply bind_ok in H as ([rm' ids] & H & [= <- <- <-]). cbn [sm_ids snd]. clear Eo.
    assert (G : forall st st', foldM (merge_step (sm_ref self) (i0 :: is)) iter st = Ok st' ->
      (forall x, In x (snd st') -> In x (snd st) \/ In x (i0 :: is))).
    { clear H. induction iter as [|[p i] t IH]; cbn [foldM]; intros st st' E x Hx; [inversion E; now subst; auto|].
      apply bind_ok in E as (st1 & E1 & E2). specialize (IH st1 st' E2 x Hx) as [IH|IH]; auto.
      unfold merge_step in E1. destruct st as [r ids0]. destruct (afind str_eqb p (sm_ref self)); destruct (_ <? _); try discriminate.
      - inversion E1; subst; auto.
      - destruct (nthN (i0 :: is) i) eqn:En; [|discriminate]. inversion E1; subst. cbn [snd] in IH. apply in_app_or in IH as [IH|[<-|[]]]; auto.
        right. eapply nthN_In; eauto. }
    intros x Hx. exact (G _ _ H x Hx).
Qed.
Lemma lines_app_nl a b : lines_of (a ++ c_nl :: b) = lines_of (a ++ [c_nl]) ++ lines_of b.
Proof.
  induction a as [|c a IH]; cbn [app lines_of]; [reflexivity|]. destruct (c =? c_nl); [now rewrite IH|]. rewrite IH.
  destruct (lines_of (a ++ [c_nl])) as [|l ls] eqn:E; [|reflexivity]. exfalso. clear - E. destruct a as [|x a]; cbn in E; [discriminate|].
  destruct (x =? c_nl); [discriminate|]. destruct (lines_of (a ++ [c_nl])); discriminate.
Qed.
Lemma lines_add_nl a : a <> [] -> ~ (exists t, a = t ++ [c_nl]) -> lines_of (a ++ [c_nl]) = lines_of a.
Proof.
  induction a as [|c a IH]; [congruence|]. intros _ H. cbn [app lines_of].
  assert (Ha : a = [] \/ a <> []) by (destruct a; [auto|right; discriminate]). destruct Ha as [->|Ha].
  - cbn [app lines_of]. destruct (N.eqb_spec c c_nl) as [->|]; [exfalso; apply H; now exists []|]. reflexivity.
  - rewrite IH; auto. intros (t & ->). apply H. now exists (c :: t).
Qed.
Lemma merge_stack_lines a b la lb : stack_lines a la -> stack_lines b lb -> stack_lines (merge_stack a b) (la ++ lb).
Proof.
  unfold stack_lines. intros A B.
  assert (G : lines_of (merge_stack a b) = lines_of a ++ lines_of b).
  { clear A B. destruct (merge_stack_spec a b) as [(-> & ->)|[(-> & ->)|(Na & Nb & [((t & ->) & ->)|(Ht & ->)])]].
    - reflexivity.
    - now rewrite app_nil_r.
    - rewrite <- app_assoc. cbn [app]. apply lines_app_nl.
    - rewrite lines_app_nl. now rewrite lines_add_nl by auto. }
  rewrite G, A, B. symmetry. apply map_app.
Qed.

Lemma writable_into ck iter l r m la lb : writable la l -> writable lb r -> merge_into ck iter l r = Ok m -> writable (la ++ lb) m.
Proof.
  intros (A1 & A2 & A3 & (A4 & A5 & A6) & A7) (B1 & B2 & B3 & (B4 & B5 & B6) & B7) H. unfold merge_into in H.
  apply bind_ok in H as ([[f o'] rm] & Hf & H).
  destruct (merge_inline_origins (ob_origins l) (ob_origins r)) as [ors om] eqn:EO. apply bind_ok in H as (syms & H & [= <-]).
  assert (SY : all_syms sym_ok syms).
  { assert (Q : forall (o : Obj), nsorted (ob_syms o) -> all_ranges o -> Forall (fun kv : N * Symbol => one_line (sy_name (snd kv))) (ob_syms o) ->
        forall k s, nfind k (ob_syms o) = Some s -> sym_ok s).
    { intros o S R F k s E. split; [|exact (R k s E)]. apply nfind_In in E; [|exact S]. exact (proj1 (Forall_forall _ _) F _ E). }
    revert H. apply (foldM_inv (all_syms sym_ok)); [|split; [exact A1|exact (Q l A1 A2 A6)]].
    intros s [k b] s' Hin Fs E. apply (nfind_In _ _ _ B1) in Hin. eapply merge_symbol_syms; eauto. }
  destruct SY as (S1 & S2). split; [exact S1|]. cbn [ob_syms ob_files ob_origins ob_stack] in *.
  split; [intros k s E; exact (proj2 (S2 k s E))|]. split; [|split; [|now apply merge_stack_lines]].
  - destruct A3 as (C1 & C2 & C3 & C4 & C5), B3 as (D1 & D2 & D3 & D4 & D5). unfold clean_head. cbn.
    split; [exact C1|]. split; [exact C2|]. split; [destruct (ob_stripped r); assumption|]. split; [|exact C5].
    destruct (ob_code_id l); [exact C4|]. destruct (ob_code_id r); [exact D4|exact I].
  - unfold clean_names. cbn. split; [|split].
    + apply Forall_forall. intros x Hx. destruct (srcmap_ids _ _ _ _ _ _ Hf x Hx) as [Hi|Hi]; [exact (proj1 (Forall_forall _ _) A4 x Hi)|exact (proj1 (Forall_forall _ _) B4 x Hi)].
    + unfold merge_inline_origins in EO. destruct (ob_origins r) as [|r0 rs]; [inversion EO; now subst|].
      destruct (ob_origins l) as [|l0 ls]; inversion EO; subst; auto. apply (proj2 (Forall_app _ (l0 :: ls) (r0 :: rs))). auto.
    + apply Forall_forall. intros [k s] Hin. apply (nfind_In _ _ _ S1) in Hin. exact (proj1 (S2 k s Hin)).
Qed.
Lemma writable_merge ck iter x y m lx ly : writable lx x -> writable ly y -> merge_objects ck iter x y = Ok m ->
  exists ls, Permutation ls (lx ++ ly) /\ writable ls m.
Proof.
  intros Wx Wy H. pose proof (merge_same_id _ _ _ _ _ H) as E. rewrite merge_objects_eq in H by exact E.
  destruct (larger_cases x y) as [[E1 E2]|[E1 E2]]; rewrite E1, E2 in H.
  - exists (lx ++ ly). split; [reflexivity|exact (writable_into _ _ _ _ _ _ _ Wx Wy H)].
  - exists (ly ++ lx). split; [apply Permutation_app_comm|exact (writable_into _ _ _ _ _ _ _ Wy Wx H)].
Qed.
Lemma writable_all ck iter os lss : Forall2 writable lss os -> forall acc la m, writable la acc -> merge_all ck iter acc os = Ok m ->
  exists ls, Permutation ls (la ++ concat lss) /\ writable ls m.
Proof.
  induction 1 as [|lo o lss os Wo F IH]; cbn [merge_all concat]; intros acc la m Wa H.
  - inversion H; subst. exists la. rewrite app_nil_r. auto.
  - apply bind_ok in H as (m1 & H1 & H2). destruct (writable_merge _ _ _ _ _ _ _ Wa Wo H1) as (l1 & P1 & W1).
    destruct (IH m1 l1 m W1 H2) as (ls & P & W). exists ls. split; [|exact W]. now rewrite P, P1, app_assoc.
Qed.

(** Freshly processed objects have a range at every call site. *)
Lemma fresh_ranges shown o : fresh shown o -> all_ranges o.
Proof.
  intros (e & pl & main & mn & pe & pn & US & C & X & Sh & H).
  destruct (from_object_inv _ _ _ _ _ _ _ H) as (fs & m0 & s & og & m1 & mini & m2 & m3 & F & H0 & H1 & Hm & H2 & H3 & E1 & E2 & E3).
  specialize (C fs F).
  destruct (consistent_kp (ce_src (run_cenv e pl main)) _ C) as (kp & K).
  destruct (functions_tables (run_cenv e pl main) fs m0 s og kp US K H0) as (P & ns & I & J & S0 & T).
  destruct (funcs_record _ _ _ _ _ H0) as (F0 & _).
  assert (F1 : filed m1).
  { destruct (pa_exceptions main) as [xs|] eqn:EX; [|inversion H1; now subst].
    apply (filed_placeholders _ _ _ _ _ F0) with (2 := H1). intros b x Hb. exact (proj1 (X xs b x EX Hb)). }
  pose proof (filed_publics _ _ _ _ _ _ F1 H2) as F2.
  destruct (placeholders_opt _ _ _ _ _ S0 H1) as (S1 & K1 & N1).
  intros k sym Hk Pk. rewrite E1 in Hk. pose proof (sections_synthetic _ _ _ _ _ (proj1 F2) H3 k) as Y. rewrite Hk in Y.
  destruct (nfind k m2) as [s2|] eqn:Ek2; [|destruct Y as (n & Y); assert (sy_public sym = true) by apply Y; congruence].
  inversion Y; subst s2. destruct (nfind k m1) as [s1|] eqn:Ek1.
  - destruct (publics_kept _ _ _ _ _ _ _ _ S1 H2 Ek1) as (s' & E' & (B1 & B2 & B3 & B4 & B5) & _). assert (s' = sym) by congruence. subst s'.
    rewrite B5. destruct (nfind k m0) as [s0|] eqn:Ek0.
    + pose proof (K1 k s0 Ek0). assert (s0 = s1) by congruence. subst. specialize (T k). destruct (funcs_at k (readable fs)); [congruence|].
      destruct T as (sy & A & _ & (evs & Hfin & _)). assert (sy = s1) by congruence. subst sy. exact (finalize_has_range _ _ _ _ _ Hfin).
    + destruct (N1 k s1 Ek0 Ek1) as (l & x & _ & _ & _ & Q). assert (ls_inlines (sy_source s1) = []) as -> by apply Q. constructor.
  - destruct (publics_new _ _ _ _ _ _ _ _ S1 H2 Ek1 Ek2) as (Q & _). congruence.
Qed.

(** *** Order of the written records *)
Lemma record_addresses_app a b : record_addresses (a ++ b) = record_addresses a ++ record_addresses b.
Proof. induction a as [|[] a IH]; cbn [app record_addresses]; auto; now rewrite IH. Qed.
Lemma record_addresses_none rs : (forall r, In r rs -> record_addresses [r] = []) -> record_addresses rs = [].
Proof.
  induction rs as [|r rs IH]; intros H; auto. change (r :: rs) with ([r] ++ rs). rewrite record_addresses_app, H, IH; auto with datatypes.
Qed.
Lemma number_from_In {A B} (f : N -> A -> B) l : forall n x, In x (number_from f n l) -> exists k a, x = f k a.
Proof. induction l as [|a l IH]; cbn; intros n x H; [destruct H|]. destruct H as [<- |H]; eauto. Qed.
Lemma symbol_addresses s rs : symbol_records s rs -> record_addresses rs = [sy_rva s].
Proof.
  unfold symbol_records. destruct (sy_public s); [intros ->; reflexivity|]. intros (inl & _ & _ & ->). cbn [record_addresses]. f_equal.
  apply record_addresses_none. intros r H. apply in_app_or in H as [H|H]; apply in_map_iff in H as (x & <- & _); reflexivity.
Qed.
Lemma object_addresses extra ls o rs : object_records extra ls o rs -> record_addresses rs = map (fun kv => sy_rva (snd kv)) (ob_syms o).
Proof.
  intros (per & F & ->). cbn [record_addresses]. rewrite !record_addresses_app.
  rewrite (record_addresses_none (match ob_code_id o with Some c => _ | None => _ end)) by (destruct (ob_code_id o); intros r []; [subst; reflexivity|contradiction]).
  rewrite (record_addresses_none (map RInfo extra)) by (intros r H; apply in_map_iff in H as (x & <- & _); reflexivity).
  rewrite (record_addresses_none (number_from RFile _ _)) by (intros r H; apply number_from_In in H as (k & a & ->); reflexivity).
  rewrite (record_addresses_none (number_from _ _ (ob_origins o))) by (intros r H; apply number_from_In in H as (k & a & ->); reflexivity).
  rewrite (record_addresses_none (map RStack ls)) by (intros r H; apply in_map_iff in H as (x & <- & _); reflexivity).
  rewrite app_nil_r. cbn [app]. induction F as [|kv r l l' H F IH]; auto. cbn [concat map].
  rewrite record_addresses_app, (symbol_addresses _ _ H), IH. reflexivity.
Qed.
Lemma filed_addresses m : filed m -> map (fun kv => sy_rva (snd kv)) m = map fst m.
Proof.
  intros (S & K). apply map_ext_in. intros [k s] H. cbn. apply (K k s). now apply nfind_In.
Qed.
Lemma filed_ascending m : filed m -> StronglySorted N.lt (map fst m).
Proof.
  intros (S & _). induction S as [|kv m S IH F]; cbn [map]; constructor; auto.
  apply Forall_forall. intros k H. apply in_map_iff in H as (x & <- & Hx). apply (proj1 (Forall_forall _ _) F) in Hx.
  unfold blt in Hx. now apply N.ltb_lt.
Qed.
Lemma symbol_begins s t : fmt_symbol s = Ok t -> begins_at (sy_rva s) t.
Proof.
  unfold fmt_symbol. intros H.
  assert (M : (if sy_multiple s then lit "m " else []) = [] \/ (if sy_multiple s then lit "m " else []) = lit "m ") by (destruct (sy_multiple s); auto).
  destruct (sy_public s).
  - injection H as <-. eexists _, _, _. split; [right; reflexivity|]. split; [exact M|reflexivity].
  - destruct (fmt_lines (sy_source s)) as [b| |]; try discriminate. injection H as <-.
    eexists _, _, _. split; [left; reflexivity|]. split; [exact M|reflexivity].
Qed.
Lemma written_order extra o text : filed (ob_syms o) -> fmt_object extra o = Ok text ->
  exists head addrs texts, StronglySorted N.lt addrs /\ Forall2 begins_at addrs texts /\
    (forall a, In a addrs <-> exists s, nfind a (ob_syms o) = Some s) /\ text = head ++ concat texts ++ ob_stack o.
Proof.
  intros F H. unfold fmt_object in H. destruct (mapM _ (ob_syms o)) as [ts| |] eqn:E; try discriminate. cbn [bind] in H.
  apply (f_equal (fun r => match r with Ok x => x | _ => [] end)) in H. cbv beta iota in H. subst text.
  exists (fmt_module o ++ fmt_code_id o ++ concat (map (fun l => lit "INFO " ++ l ++ [c_nl]) extra)
      ++ fmt_numbered fmt_file 0 (sm_ids (ob_files o)) ++ fmt_numbered fmt_origin 0 (ob_origins o)), (map fst (ob_syms o)), ts.
  split; [now apply filed_ascending|]. split; [|split].
  - rewrite <- (filed_addresses _ F). clear F. revert ts E. induction (ob_syms o) as [|kv m IH]; intros ts E; cbn [mapM] in E.
    + injection E as <-. constructor.
    + destruct (fmt_symbol (snd kv)) as [t| |] eqn:Et; try discriminate. cbn [bind] in E.
      destruct (mapM _ m) as [ts'| |]; try discriminate. injection E as <-. cbn [map]. constructor; auto. now apply symbol_begins.
  - intros a. split.
    + intros Ha. apply in_map_iff in Ha as ([k s] & <- & Hk). exists s. apply nfind_In; [exact (proj1 F)|exact Hk].
    + intros (s & Hs). apply nfind_In in Hs; [|exact (proj1 F)]. exact (in_map fst _ _ Hs).
  - rewrite <- !app_assoc. reflexivity.
Qed.
