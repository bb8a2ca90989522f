(** Proofs about digests. *)
From Verif Require Import Base Str M_Fs M_Digest S_Digest.

(** *** Constants *)
Lemma cube_root_spec n x : forall acc, acc ^ 3 <= x -> x < (acc + 2 ^ N.of_nat n) ^ 3 ->
  cube_root n x acc ^ 3 <= x < (cube_root n x acc + 1) ^ 3.
Proof.
  induction n as [|n IH]; intros acc A B; cbn [cube_root].
  - cbn [N.of_nat] in B. change (2 ^ 0) with 1 in B. auto.
  - assert (E : 2 ^ N.of_nat (S n) = 2 ^ N.of_nat n + 2 ^ N.of_nat n) by (rewrite Nat2N.inj_succ, N.pow_succ_r'; lia).
    rewrite E in B. assert (C : forall r, r * r * r = r ^ 3) by (intros r; change 3 with (N.succ (N.succ (N.succ 0))); rewrite !N.pow_succ_r', N.pow_0_r; lia).
    rewrite C. destruct (N.leb_spec ((acc + 2 ^ N.of_nat n) ^ 3) x) as [L|L]; apply IH; auto.
    now rewrite <- N.add_assoc.
Qed.
Lemma k_ok : Forall2 cube_fraction primes sha_k.
Proof.
  unfold sha_k. assert (B : Forall (fun p => p < 2 ^ 24) primes) by (apply Forall_forall; intros p H; revert p H; apply Forall_forall; repeat constructor).
  induction B as [|p l Hp _ IH]; cbn [map]; constructor; [|exact IH]. exists (cube_root 72 (p * 2 ^ 192) 0). split; [|reflexivity].
  apply cube_root_spec; [cbn; lia|]. rewrite N.add_0_l. change ((2 ^ N.of_nat 72) ^ 3) with (2 ^ 24 * 2 ^ 192). nia.
Qed.
Lemma iv_ok : Forall2 square_fraction (firstn 8 primes) sha_iv.
Proof.
  unfold sha_iv. induction (firstn 8 primes) as [|p l IH]; cbn [map]; constructor; [|exact IH].
  exists (N.sqrt (p * 2 ^ 128)). split; [|reflexivity]. pose proof (N.sqrt_spec (p * 2 ^ 128) ltac:(lia)) as H. cbn zeta in H. rewrite !N.pow_2_r. rewrite N.add_1_r. exact H.
Qed.
Definition prime_b (p : N) : bool := forallb (fun d => negb (p mod N.of_nat d =? 0)) (seq 2 (N.to_nat p - 2)).
Lemma prime_b_ok p : 2 <= p -> prime_b p = true <-> prime p.
Proof.
  intros P. unfold prime_b, prime. rewrite forallb_forall. split.
  - intros H. split; [exact P|]. intros d D1 D2. specialize (H (N.to_nat d)). rewrite N2Nat.id in H. rewrite in_seq in H. specialize (H ltac:(lia)). intros E. rewrite E in H. discriminate.
  - intros [_ H] d D. apply in_seq in D. specialize (H (N.of_nat d) ltac:(lia) ltac:(lia)). destruct (N.eqb_spec (p mod N.of_nat d) 0); [contradiction|reflexivity].
Qed.
Lemma primes_ok : length primes = 80%nat /\ forall p, p <= 409 -> In p primes <-> prime p.
Proof.
  split; [reflexivity|]. intros p L.
  assert (H : forallb (fun i => Bool.eqb (existsb (N.eqb (N.of_nat i)) primes) ((2 <=? N.of_nat i) && prime_b (N.of_nat i))) (seq 0 410) = true) by (vm_compute; reflexivity).
  rewrite forallb_forall in H. specialize (H (N.to_nat p)). rewrite N2Nat.id, in_seq in H. specialize (H ltac:(lia)). apply Bool.eqb_prop in H.
  assert (I : In p primes <-> existsb (N.eqb p) primes = true).
  { rewrite existsb_exists. split; [intros I; exists p; split; [exact I|apply N.eqb_refl]|]. intros (q & I & E). apply N.eqb_eq in E. now subst. }
  rewrite I, H. destruct (N.leb_spec 2 p) as [G|G]; cbn [andb]; [apply prime_b_ok, G|]. split; [discriminate|]. intros [P _]. lia.
Qed.

(** *** Bytes *)
Lemma to_bytes_len n : forall x, length (to_bytes n x) = n.
Proof. induction n as [|n IH]; intros x; cbn [to_bytes]; [reflexivity|]. rewrite app_length, IH. cbn. lia. Qed.
Lemma to_bytes_bytes n : forall x, bytes (to_bytes n x).
Proof.
  induction n as [|n IH]; intros x; cbn [to_bytes]; [constructor|]. apply Forall_app. split; [apply IH|]. constructor; [|constructor]. apply N.mod_lt. lia.
Qed.
Lemma big_endian_app a b : big_endian (a ++ b) = big_endian a * 256 ^ lenN b + big_endian b.
Proof.
  induction a as [|x a IH]; cbn [app big_endian]; [lia|]. rewrite IH. unfold lenN. rewrite app_length, Nat2N.inj_add, N.pow_add_r. lia.
Qed.
Lemma to_bytes_value n : forall x, big_endian (to_bytes n x) = x mod 256 ^ N.of_nat n.
Proof.
  induction n as [|n IH]; intros x; cbn [to_bytes]; [cbn; now rewrite N.mod_1_r|]. rewrite big_endian_app, IH. cbn [big_endian]. change (lenN [x mod 256]) with 1. change (lenN (@nil N)) with 0.
  rewrite N.pow_1_r, N.pow_0_r, Nat2N.inj_succ, N.pow_succ_r'.
  rewrite N.mod_mul_r by (try apply N.pow_nonzero; lia). lia.
Qed.
Lemma of_bytes_value l : of_bytes l = big_endian l.
Proof.
  unfold of_bytes. assert (H : forall l a, fold_left (fun a b => a * 256 + b) l a = a * 256 ^ lenN l + big_endian l).
  { clear. induction l as [|b l IH]; intros a; cbn [fold_left big_endian]; [change (lenN (@nil N)) with 0; rewrite N.pow_0_r; lia|].
    rewrite IH. unfold lenN. cbn [length]. rewrite Nat2N.inj_succ, N.pow_succ_r'. lia. }
  rewrite H. lia.
Qed.
Lemma pad_ok m : 8 * lenN m < 2 ^ 128 -> padded m (pad m).
Proof.
  intros L. unfold pad, padded. set (z := N.to_nat ((111 + 128 - lenN m mod 128) mod 128)). exists (repeat 0 z), (to_bytes 16 (8 * lenN m)).
  assert (Z : N.of_nat z < 128 /\ (lenN m + 1 + N.of_nat z + 16) mod 128 = 0).
  { unfold z. rewrite N2Nat.id. split; [apply N.mod_lt; lia|]. pose proof (N.mod_lt (lenN m) 128 ltac:(lia)) as M. pose proof (N.div_mod (lenN m) 128 ltac:(lia)) as D.
    set (q := lenN m / 128) in *. set (r := lenN m mod 128) in *.
    destruct (N.le_gt_cases r 111) as [H|H].
    - replace ((111 + 128 - r) mod 128) with (111 - r) by (apply (N.mod_unique _ _ 1); lia). symmetry. apply (N.mod_unique _ _ (q + 1)); lia.
    - replace ((111 + 128 - r) mod 128) with (239 - r) by (apply (N.mod_unique _ _ 0); lia). symmetry. apply (N.mod_unique _ _ (q + 2)); lia. }
  destruct Z as [Z1 Z2]. splits.
  - reflexivity.
  - apply Forall_forall. intros b H. now apply repeat_spec in H.
  - unfold lenN. now rewrite repeat_length.
  - unfold lenN in *. rewrite !app_length. cbn [length]. rewrite app_length, repeat_length, to_bytes_len.
    rewrite <- Z2. f_equal. lia.
  - apply to_bytes_bytes.
  - unfold lenN. now rewrite to_bytes_len.
  - rewrite to_bytes_value. apply N.mod_small. change (256 ^ N.of_nat 16) with (2 ^ 128). exact L.
Qed.

(** *** Bits *)
Lemma small_bits x n : (forall i, n <= i -> N.testbit x i = false) -> x < 2 ^ n.
Proof.
  intros H. destruct (N.eq_dec x 0) as [-> |Z]; [apply N.neq_0_lt_0, N.pow_nonzero; lia|]. apply N.log2_lt_pow2; [lia|].
  destruct (N.lt_ge_cases (N.log2 x) n) as [|G]; [assumption|]. pose proof (N.bit_log2 x Z) as B. now rewrite (H _ G) in B.
Qed.
Lemma high_bits x n i : x < 2 ^ n -> n <= i -> N.testbit x i = false.
Proof. intros L G. rewrite <- (N.mod_small x (2 ^ n) L). apply N.mod_pow2_bits_high. exact G. Qed.
Lemma rotr_ok n x : x < 2 ^ 64 -> 0 < n -> n < 64 -> rotates n x (rotr n x).
Proof.
  intros X N0 N1. unfold rotr, word. assert (B : forall i, N.testbit (N.lor (N.shiftr x n) (N.shiftl x (64 - n) mod 2 ^ 64)) i =
    N.testbit x (i + n) || (if i <? 64 then (if i <? 64 - n then false else N.testbit x (i - (64 - n))) else false)).
  { intros i. rewrite N.lor_spec, N.shiftr_spec by lia. f_equal. destruct (N.ltb_spec i 64) as [L|L].
    - rewrite N.mod_pow2_bits_low by exact L. destruct (N.ltb_spec i (64 - n)) as [K|K]; [apply N.shiftl_spec_low, K|apply N.shiftl_spec_high; lia].
    - apply N.mod_pow2_bits_high, L. }
  split.
  - apply small_bits. intros i G. rewrite B. destruct (N.ltb_spec i 64); [lia|]. rewrite (high_bits x 64) by (assumption || lia). reflexivity.
  - intros i L. rewrite B. destruct (N.ltb_spec i 64); [|lia]. destruct (N.ltb_spec i (64 - n)) as [K|K].
    + rewrite N.mod_small by lia. now rewrite orb_false_r.
    + rewrite (high_bits x 64 (i + n)) by (assumption || lia). cbn [orb]. f_equal. apply (N.mod_unique _ _ 1); lia.
Qed.
Lemma choose_ok x y z i : x < 2 ^ 64 -> y < 2 ^ 64 -> z < 2 ^ 64 -> N.testbit (choose x y z) i = if N.testbit x i then N.testbit y i else N.testbit z i.
Proof.
  intros X Y Z. unfold choose. rewrite N.lxor_spec, !N.land_spec, N.lxor_spec. destruct (N.lt_ge_cases i 64) as [L|L].
  - replace (N.testbit (2 ^ 64 - 1) i) with true by (symmetry; change (2 ^ 64 - 1) with (N.ones 64); now apply N.ones_spec_low).
    destruct (N.testbit x i), (N.testbit y i), (N.testbit z i); reflexivity.
  - rewrite (high_bits x 64 i X L), (high_bits y 64 i Y L), (high_bits z 64 i Z L). now rewrite !andb_false_r.
Qed.
Lemma majority_ok x y z i : N.testbit (majority x y z) i =
  if N.testbit x i then N.testbit y i || N.testbit z i else N.testbit y i && N.testbit z i.
Proof. unfold majority. rewrite !N.lxor_spec, !N.land_spec. destruct (N.testbit x i), (N.testbit y i), (N.testbit z i); reflexivity. Qed.

(** *** Message schedule *)
Lemma extend_len n : forall ws, length (extend n ws) = (n + length ws)%nat.
Proof. induction n as [|n IH]; intros ws; cbn [extend]; [reflexivity|]. rewrite IH. cbn. lia. Qed.
Lemma extend_low n : forall ws t, (t < length ws)%nat -> nth t (rev (extend n ws)) 0 = nth t (rev ws) 0.
Proof.
  induction n as [|n IH]; intros ws t T; cbn [extend]; [reflexivity|]. rewrite IH by (cbn; lia). cbn [rev]. apply app_nth1. now rewrite rev_length.
Qed.
Lemma extend_ok n : forall ws t, (16 <= length ws)%nat -> (length ws <= t < n + length ws)%nat ->
  let w := fun i => nth i (rev (extend n ws)) 0 in w t = (sig1 (w (t - 2)%nat) + w (t - 7)%nat + sig0 (w (t - 15)%nat) + w (t - 16)%nat) mod 2 ^ 64.
Proof.
  induction n as [|n IH]; intros ws t L T; [lia|]. cbn [extend]. cbn zeta. set (x := word _).
  destruct (Nat.eq_dec t (length ws)) as [-> |D]; [|apply IH; cbn; lia].
  rewrite extend_low by (cbn; lia). cbn [rev]. rewrite app_nth2 by (rewrite rev_length; lia). rewrite rev_length, Nat.sub_diag. cbn [nth]. unfold x.
  assert (G : forall i, (1 <= i <= 16)%nat -> nth (length ws - i) (rev (extend n (x :: ws))) 0 = nth (i - 1) ws 0).
  { intros i I. rewrite extend_low by (cbn; lia). cbn [rev]. rewrite app_nth1 by (rewrite rev_length; lia). rewrite rev_nth by lia. f_equal. lia. }
  fold x. rewrite !G by lia. reflexivity.
Qed.
Lemma schedule_len block : length (map of_bytes (chunks 8 16 block)) = 16%nat -> length (schedule block) = 80%nat.
Proof. intros H. unfold schedule. rewrite rev_length, extend_len, rev_length, H. reflexivity. Qed.
Lemma skip_skip {A} a : forall b (l : list A), skipn b (skipn a l) = skipn (a + b) l.
Proof. induction a as [|a IH]; intros b l; [reflexivity|]. destruct l; [now rewrite !skipn_nil|]. apply IH. Qed.
Lemma chunks_nth {A} k f : forall (l : list A) i, (0 < k)%nat -> (length l <= f * k)%nat -> (i * k < length l)%nat -> nth i (chunks k f l) [] = firstn k (skipn (i * k) l).
Proof.
  induction f as [|f IH]; intros l i K F I; [lia|]. destruct l as [|a l]; [cbn in I; lia|]. cbn [chunks]. set (al := a :: l) in *.
  destruct i as [|i]; [reflexivity|]. cbn [nth]. rewrite IH; [|exact K|rewrite skipn_length; lia|rewrite skipn_length; lia]. now rewrite skip_skip.
Qed.
Lemma chunks_len {A} k f : forall (l : list A) n, (0 < k)%nat -> (n <= f)%nat -> length l = (n * k)%nat -> length (chunks k f l) = n.
Proof.
  induction f as [|f IH]; intros l n K F E; [replace n with 0%nat by lia; reflexivity|].
  destruct n as [|n]; [destruct l; [reflexivity|cbn in E; lia]|]. destruct l as [|a l]; [cbn in E; lia|]. cbn [chunks length]. f_equal. apply IH; [exact K|lia|].
  rewrite skipn_length, E. lia.
Qed.
Lemma schedule_ok block : length block = 128%nat -> let w := fun t => nth t (schedule block) 0 in length (schedule block) = 80%nat /\
  (forall t, (t < 16)%nat -> w t = big_endian (firstn 8 (skipn (t * 8) block))) /\
  (forall t, (16 <= t < 80)%nat -> w t = (sig1 (w (t - 2)%nat) + w (t - 7)%nat + sig0 (w (t - 15)%nat) + w (t - 16)%nat) mod 2 ^ 64).
Proof.
  intros L. assert (C : length (chunks 8 16 block) = 16%nat) by (apply chunks_len; lia). assert (C' : length (map of_bytes (chunks 8 16 block)) = 16%nat) by now rewrite map_length.
  cbn zeta. splits; [now apply schedule_len| |].
  - intros t T. unfold schedule. rewrite extend_low by (rewrite rev_length; lia). rewrite rev_involutive.
    rewrite (nth_indep _ 0 (of_bytes [])) by lia. rewrite map_nth, chunks_nth by lia. apply of_bytes_value.
  - intros t T. unfold schedule. apply extend_ok; rewrite rev_length; lia.
Qed.

(** *** Text *)
Lemma hex_pair_ok up b : b < 256 -> length (hex_pair up b) = 2%nat /\ Forall (hex_char up) (hex_pair up b) /\ hex_bytes (hex_pair up b) = [b] /\ map capital (hex_pair false b) = hex_pair true b.
Proof.
  intros B. assert (H : forallb (fun i => let b := N.of_nat i in forallb (fun up : bool =>
      forallb (fun c => (48 <=? c) && (c <=? 57) || (if up then (65 <=? c) && (c <=? 70) else (97 <=? c) && (c <=? 102))) (hex_pair up b) &&
      str_eqb (hex_bytes (hex_pair up b)) [b] && str_eqb (map capital (hex_pair false b)) (hex_pair true b)) [true; false]) (seq 0 256) = true) by (vm_compute; reflexivity).
  rewrite forallb_forall in H. specialize (H (N.to_nat b)). rewrite N2Nat.id, in_seq in H. specialize (H ltac:(lia)). cbn zeta in H. rewrite forallb_forall in H.
  specialize (H up ltac:(destruct up; cbn; tauto)). apply andb_prop in H. destruct H as [H H3]. apply andb_prop in H. destruct H as [H1 H2]. apply str_eqb_eq in H2, H3.
  splits; auto. apply Forall_forall. intros c I. rewrite forallb_forall in H1. specialize (H1 c I). unfold hex_char. destruct up; lia.
Qed.
Lemma hex_text_ok l : bytes l -> forall up, let t := flat_map (hex_pair up) l in
  length t = (2 * length l)%nat /\ Forall (hex_char up) t /\ hex_bytes t = l /\ map capital (flat_map (hex_pair false) l) = flat_map (hex_pair true) l.
Proof.
  induction 1 as [|b l B _ IH]; intros up; cbn zeta; cbn [flat_map]; [splits; constructor|]. destruct (IH up) as (I1 & I2 & I3 & I4). destruct (hex_pair_ok up b B) as (H1 & H2 & H3 & H4).
  splits.
  - rewrite app_length, H1, I1. cbn. lia.
  - apply Forall_app. auto.
  - destruct (hex_pair up b) as [|p [|q [|? ?]]]; try discriminate. cbn [app hex_bytes] in *. rewrite I3. assert (H5 : hd 0 [16 * digit p + digit q] = b) by now rewrite H3. cbn [hd] in H5. now rewrite H5.
  - now rewrite map_app, H4, I4.
Qed.
Lemma round_len s kw : length s = 8%nat -> length (round s kw) = 8%nat.
Proof. intros H. do 9 (destruct s as [|? s]; try discriminate). reflexivity. Qed.
Lemma compress_len ks h b : length h = 8%nat -> length (compress ks h b) = 8%nat.
Proof.
  intros H. unfold compress. rewrite map_length, combine_length, H. assert (E : length (fold_left round (combine ks (schedule b)) h) = 8%nat); [|lia].
  generalize (combine ks (schedule b)). intros l. revert h H. induction l as [|kw l IH]; intros h H; cbn [fold_left]; [exact H|]. apply IH, round_len, H.
Qed.
Lemma sha_len m : length (sha512 m) = 64%nat /\ bytes (sha512 m).
Proof.
  unfold sha512. cbn zeta. assert (E : length (fold_left (compress sha_k) (chunks 128 (length (pad m)) (pad m)) sha_iv) = 8%nat).
  { assert (I : length sha_iv = 8%nat) by reflexivity. revert I. generalize (chunks 128 (length (pad m)) (pad m)). generalize sha_iv. intros h l. revert h.
    induction l as [|b l IH]; intros h H; cbn [fold_left]; [exact H|]. apply IH, compress_len, H. }
  revert E. generalize (fold_left (compress sha_k) (chunks 128 (length (pad m)) (pad m)) sha_iv). intros l E. split.
  - assert (F : forall l0, length (flat_map (to_bytes 8) l0) = (8 * length l0)%nat) by (induction l0 as [|x l0 IH]; [reflexivity|]; cbn [flat_map length]; rewrite app_length, to_bytes_len, IH; lia). now rewrite F, E.
  - apply Forall_flat_map. apply Forall_forall. intros x _. apply to_bytes_bytes.
Qed.

Lemma chunks_concat {A} k f : forall (l : list A), (0 < k)%nat -> (length l <= f)%nat -> concat (chunks k f l) = l.
Proof.
  induction f as [|f IH]; intros l K F; [destruct l; [reflexivity|cbn in F; lia]|]. destruct l as [|a l]; [reflexivity|]. cbn [chunks concat]. rewrite IH; [apply firstn_skipn|exact K|].
  rewrite skipn_length. cbn [length] in *. lia.
Qed.
Lemma chunks_full {A} k f : forall (l : list A) n, (0 < k)%nat -> length l = (n * k)%nat -> Forall (fun b => length b = k) (chunks k f l).
Proof.
  induction f as [|f IH]; intros l n K E; [constructor|]. destruct l as [|a l]; [constructor|]. cbn [chunks]. destruct n as [|n]; [cbn in E; lia|]. set (al := a :: l) in *.
  constructor; [rewrite firstn_length; lia|]. apply (IH _ n K). rewrite skipn_length. lia.
Qed.
Lemma sha_blocks m : 8 * lenN m < 2 ^ 128 -> exists bs, concat bs = pad m /\ Forall (fun b => length b = 128%nat) bs /\
  sha512 m = flat_map (to_bytes 8) (fold_left (compress sha_k) bs sha_iv).
Proof.
  intros L. exists (chunks 128 (length (pad m)) (pad m)). splits; [apply chunks_concat; lia| |reflexivity].
  destruct (pad_ok m L) as (z & len & _ & _ & _ & M & _). apply (chunks_full _ _ _ (N.to_nat (lenN (pad m) / 128))); [lia|].
  pose proof (N.div_mod (lenN (pad m)) 128 ltac:(lia)) as D. unfold lenN in *. lia.
Qed.
Lemma compress_ok ks h b i : length h = 8%nat -> (i < 8)%nat ->
  nth i (compress ks h b) 0 = (nth i h 0 + nth i (fold_left round (combine ks (schedule b)) h) 0) mod 2 ^ 64.
Proof.
  intros H I. unfold compress. assert (E : length (fold_left round (combine ks (schedule b)) h) = 8%nat).
  { generalize (combine ks (schedule b)). intros l. revert h H. induction l as [|kw l IH]; intros h H; cbn [fold_left]; [exact H|]. apply IH, round_len, H. }
  set (r := fold_left _ _ _) in *. set (f := fun p : N * N => word (fst p + snd p)). rewrite (nth_indep _ 0 (f (0, 0))) by (rewrite map_length, combine_length; lia).
  rewrite (map_nth f), combine_nth by lia. reflexivity.
Qed.
