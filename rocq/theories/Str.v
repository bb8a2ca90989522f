(** Rust [str]/[String] as lists of Unicode scalar values, and the std string
    functions the code uses. *)
From Verif Require Import Base.

Definition str := list N.

(** Literals: [lit "abc"]. *)
Definition lit (s : string) : str := map N_of_ascii (list_ascii_of_string s).
Arguments lit s%string.

Definition str_eqb : str -> str -> bool := list_eqb N.eqb.
Lemma str_eqb_eq x y : str_eqb x y = true <-> x = y.
Proof. apply list_eqb_spec, N.eqb_eq. Qed.
Lemma str_eqb_refl x : str_eqb x x = true.
Proof. now apply str_eqb_eq. Qed.
Lemma str_eqb_neq x y : str_eqb x y = false <-> x <> y.
Proof.
  split; intros H; [intros E; apply str_eqb_eq in E; congruence|].
  destruct (str_eqb x y) eqn:E; auto. apply str_eqb_eq in E; contradiction.
Qed.
Lemma str_eq_dec (x y : str) : {x = y} + {x <> y}.
Proof. decide equality; apply N.eq_dec. Defined.

(** Common characters. *)
Definition c_nl : N := 10.
Definition c_sp : N := 32.
Definition c_slash : N := 47.
Definition c_bslash : N := 92.
Definition c_dot : N := 46.

(** Number of UTF-8 bytes of a scalar value ([char::len_utf8]). *)
Definition utf8_len (c : N) : N :=
  if c <? 128 then 1 else if c <? 2048 then 2 else if c <? 65536 then 3 else 4.

(** [str::starts_with], [str::strip_prefix] with a string pattern. *)
Fixpoint strip_prefix (p s : str) : option str :=
  match p, s with
  | [], _ => Some s
  | a :: p', b :: s' => if a =? b then strip_prefix p' s' else None
  | _ :: _, [] => None
  end.
Definition starts_with (p s : str) : bool :=
  match strip_prefix p s with Some _ => true | None => false end.
Lemma strip_prefix_spec p s t : strip_prefix p s = Some t <-> s = p ++ t.
Proof.
  revert s; induction p as [|a p IH]; destruct s as [|b s]; simpl; split; intros H;
    try discriminate; try congruence.
  - destruct (N.eqb_spec a b); [|discriminate]. apply IH in H; congruence.
  - inversion H; subst. rewrite N.eqb_refl. now apply IH.
Qed.
Lemma starts_with_spec p s : starts_with p s = true <-> exists t, s = p ++ t.
Proof.
  unfold starts_with. destruct (strip_prefix p s) as [t|] eqn:E.
  - apply strip_prefix_spec in E. split; eauto.
  - split; [discriminate|]. intros (t & H). apply strip_prefix_spec in H. congruence.
Qed.

Definition ends_with_char (c : N) (s : str) : bool :=
  match last_opt s with Some d => d =? c | None => false end.

Definition contains_char (p : N -> bool) (s : str) : bool := existsb p s.

(** [str::split] on characters satisfying [p]: always at least one piece. *)
Fixpoint split_on (p : N -> bool) (s : str) : list str :=
  match s with
  | [] => [[]]
  | c :: t =>
      if p c then [] :: split_on p t
      else match split_on p t with
           | [] => [[c]]
           | x :: r => (c :: x) :: r
           end
  end.
Lemma split_on_nonempty p s : split_on p s <> [].
Proof. destruct s as [|c s]; simpl; [discriminate|]. destruct (p c); [discriminate|]. destruct (split_on p s); discriminate. Qed.

(** Join with a one-character separator. *)
Fixpoint join_with (sep : N) (l : list str) : str :=
  match l with
  | [] => []
  | [x] => x
  | x :: r => x ++ sep :: join_with sep r
  end.

Lemma join_with_concat sep x l : join_with sep (x :: l) = x ++ concat (map (cons sep) l).
Proof.
  revert x; induction l as [|y l IH]; intros x; [now rewrite app_nil_r|].
  change (join_with sep (x :: y :: l)) with (x ++ sep :: join_with sep (y :: l)).
  rewrite IH. reflexivity.
Qed.
Lemma split_on_pieces p s : Forall (fun x => forallb (fun c => negb (p c)) x = true) (split_on p s).
Proof.
  induction s as [|c s IH]; simpl; [repeat constructor|].
  destruct (p c) eqn:E; [constructor; auto|].
  destruct (split_on p s) as [|x r]; [repeat constructor; simpl; now rewrite E|].
  inversion IH; subst. constructor; auto. simpl. now rewrite E.
Qed.
Lemma split_on_app_sep p x c s : forallb (fun c => negb (p c)) x = true -> p c = true ->
  split_on p (x ++ c :: s) = x :: split_on p s.
Proof.
  intros Hx Hc; induction x as [|d x IH]; simpl; [now rewrite Hc|].
  simpl in Hx. apply andb_true_iff in Hx as (Hd & Hx). apply negb_true_iff in Hd.
  rewrite Hd, IH by auto. reflexivity.
Qed.
Lemma split_on_none p x : forallb (fun c => negb (p c)) x = true -> split_on p x = [x].
Proof.
  induction x as [|d x IH]; simpl; auto. intros H. apply andb_true_iff in H as (Hd & Hx).
  apply negb_true_iff in Hd. now rewrite Hd, IH.
Qed.
Lemma split_join sep l : l <> [] ->
  Forall (fun x => forallb (fun c => negb (c =? sep)) x = true) l ->
  split_on (fun c => c =? sep) (join_with sep l) = l.
Proof.
  induction l as [|x l IH]; [congruence|]. intros _ H. inversion H; subst.
  destruct l as [|y l].
  - cbn [join_with]. now apply split_on_none.
  - change (join_with sep (x :: y :: l)) with (x ++ sep :: join_with sep (y :: l)).
    rewrite split_on_app_sep by (auto; apply N.eqb_refl). f_equal. apply IH; auto. discriminate.
Qed.
Lemma join_split sep s : join_with sep (split_on (fun c => c =? sep) s) = s.
Proof.
  induction s as [|c s IH]; simpl; auto. destruct (N.eqb_spec c sep) as [->|Hne].
  - destruct (split_on (fun c => c =? sep) s) eqn:E; [now apply split_on_nonempty in E|].
    change (join_with sep ([] :: s0 :: l)) with (sep :: join_with sep (s0 :: l)). now rewrite IH.
  - destruct (split_on (fun c => c =? sep) s) as [|x r] eqn:E; [now apply split_on_nonempty in E|].
    destruct r; simpl in *; congruence.
Qed.

(** [char::is_whitespace] (Unicode White_Space). *)
Definition is_ws (c : N) : bool :=
  ((9 <=? c) && (c <=? 13)) || (c =? 32) || (c =? 133) || (c =? 160) || (c =? 5760)
  || ((8192 <=? c) && (c <=? 8202)) || (c =? 8232) || (c =? 8233) || (c =? 8239)
  || (c =? 8287) || (c =? 12288).

Fixpoint trim_start_by (p : N -> bool) (s : str) : str :=
  match s with
  | [] => []
  | c :: t => if p c then trim_start_by p t else s
  end.
Definition trim_end_by (p : N -> bool) (s : str) : str := rev (trim_start_by p (rev s)).
Definition trim (s : str) : str := trim_end_by is_ws (trim_start_by is_ws s).

(** [str::to_lowercase] restricted to ASCII letters. Every use in the code
    compares the result with an ASCII literal without 'k' or 'i'; for those
    the full Unicode mapping gives the same answer. *)
Definition lower_char (c : N) : N := if (65 <=? c) && (c <=? 90) then c + 32 else c.
Definition to_lower (s : str) : str := map lower_char s.
Definition upper_char (c : N) : N := if (97 <=? c) && (c <=? 122) then c - 32 else c.
Definition to_upper (s : str) : str := map upper_char s.

(** [str::rsplit_once] with a string pattern: rightmost occurrence. *)
Fixpoint rsplit_once (p s : str) : option (str * str) :=
  match s with
  | [] => match p with [] => Some ([], []) | _ => None end
  | c :: t =>
      match rsplit_once p t with
      | Some (a, b) => Some (c :: a, b)
      | None => match strip_prefix p s with Some b => Some ([], b) | None => None end
      end
  end.

(** [str::find]/[rfind] style: index of last char satisfying p, split there. *)
Fixpoint replace_all (fuel : nat) (p r s : str) : str :=
  match fuel with
  | O => s
  | S fuel' =>
      match strip_prefix p s with
      | Some t => r ++ replace_all fuel' p r t
      | None => match s with [] => [] | c :: t => c :: replace_all fuel' p r t end
      end
  end.
(** [str::replace] for a non-empty pattern: leftmost, non-overlapping. *)
Definition replace (p r s : str) : str := replace_all (length s) p r s.

(** * Numbers *)
Definition digit_char (d : N) : N := if d <? 10 then 48 + d else 87 + d.
Fixpoint digits_fuel (fuel : nat) (base n : N) (acc : list N) : list N :=
  match fuel with
  | O => n :: acc
  | S f => if n <? base then n :: acc else digits_fuel f base (n / base) (n mod base :: acc)
  end.
Definition digits (base n : N) : list N := digits_fuel (N.size_nat n) base n [].
(** [{}] and [{:x}] formatting of an unsigned integer. *)
Definition dec (n : N) : str := map digit_char (digits 10 n).
Definition hex (n : N) : str := map digit_char (digits 16 n).

Definition digits_val (base : N) (l : list N) : N := fold_left (fun a d => a * base + d) l 0.

Definition dec_digit (c : N) : option N := if (48 <=? c) && (c <=? 57) then Some (c - 48) else None.
Definition hex_digit (c : N) : option N :=
  if (48 <=? c) && (c <=? 57) then Some (c - 48)
  else if (97 <=? c) && (c <=? 102) then Some (c - 87)
  else if (65 <=? c) && (c <=? 70) then Some (c - 55) else None.
Fixpoint all_digits (dig : N -> option N) (s : str) : option (list N) :=
  match s with
  | [] => Some []
  | c :: t => match dig c, all_digits dig t with Some d, Some l => Some (d :: l) | _, _ => None end
  end.

(** [str::parse::<u32>()] / [parse::<usize>()] ([max] = 2^32 or 2^64): an
    optional '+', at least one decimal digit, value below [max]. *)
Definition parse_unsigned (max : N) (s : str) : option N :=
  let body := match s with c :: t => if c =? 43 then t else s | [] => s end in
  match body with
  | [] => None
  | _ => match all_digits dec_digit body with
         | Some l => let v := digits_val 10 l in if v <? max then Some v else None
         | None => None
         end
  end.

Lemma digits_val_app base l d : digits_val base (l ++ [d]) = digits_val base l * base + d.
Proof. unfold digits_val. now rewrite fold_left_app. Qed.

Lemma fold_digits_shift base l a :
  fold_left (fun a d => a * base + d) l a = a * base ^ lenN l + digits_val base l.
Proof.
  revert a. induction l as [|d l IH]; intros a.
  - change (lenN (@nil N)) with 0. rewrite N.pow_0_r. unfold digits_val; simpl. lia.
  - unfold digits_val. cbn [fold_left]. rewrite (IH (a * base + d)), (IH (0 * base + d)).
    rewrite lenN_cons, N.pow_add_r, N.pow_1_r. lia.
Qed.

Lemma digits_fuel_val fuel base n acc : 2 <= base -> n < 2 ^ N.of_nat fuel ->
  digits_val base (digits_fuel fuel base n acc) = n * base ^ lenN acc + digits_val base acc.
Proof.
  intros Hb; revert n acc. induction fuel as [|f IH]; intros n acc Hn.
  - simpl. unfold digits_val; cbn [fold_left]. rewrite fold_digits_shift.
    rewrite N.mul_0_l, N.add_0_l. reflexivity.
  - simpl. destruct (N.ltb_spec n base) as [Hlt|Hge].
    + unfold digits_val; cbn [fold_left]. rewrite fold_digits_shift, N.mul_0_l, N.add_0_l. reflexivity.
    + rewrite IH.
      * unfold digits_val at 1; cbn [fold_left]. rewrite fold_digits_shift, N.mul_0_l, N.add_0_l.
        rewrite lenN_cons, N.pow_add_r, N.pow_1_r.
        rewrite (N.div_mod n base) at 3 by lia. lia.
      * rewrite Nat2N.inj_succ, N.pow_succ_r' in Hn.
        apply N.div_lt_upper_bound; [lia|]. nia.
Qed.

Lemma size_nat_bound n : n < 2 ^ N.of_nat (N.size_nat n).
Proof.
  destruct n as [|p]; [reflexivity|]. simpl N.size_nat.
  induction p as [p IH|p IH|]; simpl Pos.size_nat; rewrite ?Nat2N.inj_succ, ?N.pow_succ_r'.
  - change (N.pos p~1) with (2 * N.pos p + 1). lia.
  - change (N.pos p~0) with (2 * N.pos p). lia.
  - reflexivity.
Qed.

Lemma digits_value base n : 2 <= base -> digits_val base (digits base n) = n.
Proof.
  intros Hb. unfold digits. rewrite digits_fuel_val; auto using size_nat_bound.
  change (lenN (@nil N)) with 0. rewrite N.pow_0_r, N.mul_1_r. change (digits_val base []) with 0. lia.
Qed.

Lemma digits_fuel_range fuel base n acc : 2 <= base -> n < 2 ^ N.of_nat fuel ->
  Forall (fun d => d < base) acc -> Forall (fun d => d < base) (digits_fuel fuel base n acc).
Proof.
  intros Hb; revert n acc; induction fuel as [|f IH]; intros n acc Hn Ha; simpl.
  - constructor; auto. simpl in Hn. lia.
  - destruct (N.ltb_spec n base); [now constructor|]. apply IH.
    + rewrite Nat2N.inj_succ, N.pow_succ_r' in Hn. apply N.div_lt_upper_bound; [lia|]. nia.
    + constructor; auto. apply N.mod_lt. lia.
Qed.
Lemma digits_range base n : 2 <= base -> Forall (fun d => d < base) (digits base n).
Proof. intros; apply digits_fuel_range; auto using size_nat_bound. Qed.
Lemma digits_fuel_nonempty fuel base n acc : digits_fuel fuel base n acc <> [].
Proof. revert n acc; induction fuel; intros; simpl; [discriminate|]. destruct (n <? base); [discriminate|auto]. Qed.

Lemma all_digits_map dig base l : (forall d, d < base -> dig (digit_char d) = Some d) ->
  Forall (fun d => d < base) l -> all_digits dig (map digit_char l) = Some l.
Proof. intros H; induction 1 as [|d l Hd F IH]; simpl; auto. now rewrite H, IH. Qed.
Lemma dec_digit_char d : d < 10 -> dec_digit (digit_char d) = Some d.
Proof.
  intros H; unfold digit_char, dec_digit. destruct (N.ltb_spec d 10); [|lia].
  replace ((48 <=? 48 + d) && (48 + d <=? 57)) with true by lia. f_equal; lia.
Qed.
Lemma hex_digit_char d : d < 16 -> hex_digit (digit_char d) = Some d.
Proof.
  intros H; unfold digit_char, hex_digit. destruct (N.ltb_spec d 10).
  - replace ((48 <=? 48 + d) && (48 + d <=? 57)) with true by lia. f_equal; lia.
  - replace ((48 <=? 87 + d) && (87 + d <=? 57)) with false by lia.
    replace ((97 <=? 87 + d) && (87 + d <=? 102)) with true by lia. f_equal; lia.
Qed.

(** Independent readers used by specifications. *)
Definition read_dec (s : str) : option N :=
  match s with [] => None | _ => option_map (digits_val 10) (all_digits dec_digit s) end.
Definition read_hex (s : str) : option N :=
  match s with [] => None | _ => option_map (digits_val 16) (all_digits hex_digit s) end.

Lemma dec_nonempty n : dec n <> [].
Proof. unfold dec, digits. intros H. apply map_eq_nil in H. now apply digits_fuel_nonempty in H. Qed.
Lemma hex_nonempty n : hex n <> [].
Proof. unfold hex, digits. intros H. apply map_eq_nil in H. now apply digits_fuel_nonempty in H. Qed.
Lemma read_dec_dec n : read_dec (dec n) = Some n.
Proof.
  unfold read_dec. destruct (dec n) eqn:E; [now apply dec_nonempty in E|]. rewrite <- E. unfold dec.
  rewrite (all_digits_map dec_digit 10) by (apply dec_digit_char || apply digits_range; lia).
  simpl. now rewrite digits_value by lia.
Qed.
Lemma read_hex_hex n : read_hex (hex n) = Some n.
Proof.
  unfold read_hex. destruct (hex n) eqn:E; [now apply hex_nonempty in E|]. rewrite <- E. unfold hex.
  rewrite (all_digits_map hex_digit 16) by (apply hex_digit_char || apply digits_range; lia).
  simpl. now rewrite digits_value by lia.
Qed.
Lemma dec_chars n : Forall (fun c => 48 <= c <= 57) (dec n).
Proof.
  unfold dec. rewrite Forall_map. eapply Forall_impl; [|apply (digits_range 10); lia].
  unfold digit_char; intros d Hd; simpl in Hd. destruct (N.ltb_spec d 10); lia.
Qed.
Lemma hex_chars n : Forall (fun c => 48 <= c <= 57 \/ 97 <= c <= 102) (hex n).
Proof.
  unfold hex. rewrite Forall_map. eapply Forall_impl; [|apply (digits_range 16); lia].
  unfold digit_char; intros d Hd; simpl in Hd. destruct (N.ltb_spec d 10); lia.
Qed.

Lemma parse_unsigned_dec max n : n < max -> parse_unsigned max (dec n) = Some n.
Proof.
  intros Hn. unfold parse_unsigned.
  pose proof (dec_chars n) as Hc. pose proof (read_dec_dec n) as Hr. unfold read_dec in Hr.
  destruct (dec n) as [|c t] eqn:E; [discriminate|].
  inversion Hc; subst. destruct (N.eqb_spec c 43); [lia|]. cbn zeta.
  destruct (all_digits dec_digit (c :: t)) as [l|] eqn:El; [|discriminate].
  cbn [option_map] in Hr. inversion Hr as [Hv]. rewrite Hv.
  destruct (N.ltb_spec n max); [reflexivity|lia].
Qed.
