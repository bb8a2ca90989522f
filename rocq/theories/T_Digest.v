(** Theorems C73: digests in mapped paths. *)
From Verif Require Import Base Str M_Fs M_Mapping M_Digest S_Digest P_Digest.

(** ** C73 *)
(** A digest is the SHA-512 of the contents of the file, in hexadecimal. *)
Theorem C73_text : forall os fs upper path t, get_digest os fs upper path = Ok t ->
  exists d, holds os fs path d /\ hex_bytes t = sha512 d /\ lenN t = 128 /\ Forall (hex_char upper) t.
Proof.
  intros os fs up path t. unfold get_digest, read. destruct (fs_get _ _) as [[d|]|] eqn:G; cbn [bind]; intros E; try discriminate. injection E as <-.
  exists d. destruct (sha_len d) as [L B]. destruct (hex_text_ok _ B up) as (H1 & H2 & H3 & _). splits; auto. unfold lenN. rewrite H1, L. reflexivity.
Qed.
Print Assumptions C73_text.
(** Every file has one, whatever its name; {DIGEST} is {digest} in capitals. *)
Theorem C73_every_file : forall os fs path d, holds os fs path d -> exists t,
  get_digest os fs false path = Ok t /\ get_digest os fs true path = Ok (map capital t) /\
  forall os' fs' path', holds os' fs' path' d -> get_digest os' fs' false path' = Ok t.
Proof.
  unfold holds, get_digest, read. intros os fs path d H. rewrite H. cbn [bind]. eexists. splits; [reflexivity| |intros os' fs' path' ->; reflexivity].
  destruct (sha_len d) as [_ B]. now destruct (hex_text_ok _ B true) as (_ & _ & _ & ->).
Qed.
Print Assumptions C73_every_file.
(** Without such a file there is an error, and the path is shown unmapped. *)
Theorem C73_missing : forall os fs upper path, path_exists os fs path = false -> exists m, get_digest os fs upper path = Err m.
Proof. unfold path_exists, get_digest, read. intros os fs up path H. destruct (fs_get _ _); [discriminate|]. cbn. eauto. Qed.
Print Assumptions C73_missing.
(** Not every path that cannot be read is an error: a directory ends the program. *)
Theorem C73_directory_refuted : exists os fs upper path, (forall d, ~ holds os fs path d) /\ is_panic (get_digest os fs upper path) = true.
Proof.
  exists (mkOs [] (fun _ => true) (fun d => d) (fun _ => [])), [([lit "src"], NDir)], false, (lit "/src"). split; [intros d; unfold holds; vm_compute; discriminate|vm_compute; reflexivity].
Qed.
Print Assumptions C73_directory_refuted.

(** The parts of the digest are those of FIPS 180-4: constants, padding, *)
Theorem C73_constants : length primes = 80%nat /\ (forall p, p <= 409 -> In p primes <-> prime p) /\
  Forall2 cube_fraction primes sha_k /\ Forall2 square_fraction (firstn 8 primes) sha_iv.
Proof. destruct primes_ok as [A B]. exact (conj A (conj B (conj k_ok iv_ok))). Qed.
Print Assumptions C73_constants.
Theorem C73_padding : forall m, 8 * lenN m < 2 ^ 128 -> padded m (pad m).
Proof. exact pad_ok. Qed.
Print Assumptions C73_padding.
(** functions on words, *)
Theorem C73_functions : forall x y z, x < 2 ^ 64 -> y < 2 ^ 64 -> z < 2 ^ 64 ->
  (forall i, N.testbit (choose x y z) i = if N.testbit x i then N.testbit y i else N.testbit z i) /\
  (forall i, N.testbit (majority x y z) i = if N.testbit x i then N.testbit y i || N.testbit z i else N.testbit y i && N.testbit z i) /\
  exists r1 r8 r14 r18 r19 r28 r34 r39 r41 r61,
    rotates 1 x r1 /\ rotates 8 x r8 /\ rotates 14 x r14 /\ rotates 18 x r18 /\ rotates 19 x r19 /\ rotates 28 x r28 /\ rotates 34 x r34 /\ rotates 39 x r39 /\ rotates 41 x r41 /\ rotates 61 x r61 /\
    sig0 x = xor3 r1 r8 (x / 2 ^ 7) /\ sig1 x = xor3 r19 r61 (x / 2 ^ 6) /\ big0 x = xor3 r28 r34 r39 /\ big1 x = xor3 r14 r18 r41.
Proof.
  intros x y z X Y Z. splits; [intros i; now apply choose_ok|intros i; apply majority_ok|].
  exists (rotr 1 x), (rotr 8 x), (rotr 14 x), (rotr 18 x), (rotr 19 x), (rotr 28 x), (rotr 34 x), (rotr 39 x), (rotr 41 x), (rotr 61 x).
  splits; try (apply rotr_ok; (assumption || lia)).
  - unfold sig0, xor3. now rewrite N.shiftr_div_pow2, N.lxor_assoc.
  - unfold sig1, xor3. now rewrite N.shiftr_div_pow2, N.lxor_assoc.
  - unfold big0, xor3. now rewrite N.lxor_assoc.
  - unfold big1, xor3. now rewrite N.lxor_assoc.
Qed.
Print Assumptions C73_functions.
(** message schedule, *)
Theorem C73_schedule : forall block, length block = 128%nat -> let w := fun t => nth t (schedule block) 0 in length (schedule block) = 80%nat /\
  (forall t, (t < 16)%nat -> w t = big_endian (firstn 8 (skipn (t * 8) block))) /\
  (forall t, (16 <= t < 80)%nat -> w t = (sig1 (w (t - 2)%nat) + w (t - 7)%nat + sig0 (w (t - 15)%nat) + w (t - 16)%nat) mod 2 ^ 64).
Proof. exact schedule_ok. Qed.
Print Assumptions C73_schedule.
(** rounds *)
Theorem C73_rounds : forall a b c d e f g h k w,
  let t1 := h + big1 e + choose e f g + k + w in let t2 := big0 a + majority a b c in
  round [a; b; c; d; e; f; g; h] (k, w) = [(t1 + t2) mod 2 ^ 64; a; b; c; (d + t1) mod 2 ^ 64; e; f; g].
Proof. intros. unfold round, word. cbn [fst snd]. unfold t2. rewrite (N.add_assoc t1). reflexivity. Qed.
Print Assumptions C73_rounds.

(** and blocks. *)
Theorem C73_blocks : forall m, 8 * lenN m < 2 ^ 128 -> exists bs, concat bs = pad m /\ Forall (fun b => length b = 128%nat) bs /\
  sha512 m = flat_map (to_bytes 8) (fold_left (compress sha_k) bs sha_iv) /\
  (forall x, x < 2 ^ 64 -> bytes (to_bytes 8 x) /\ length (to_bytes 8 x) = 8%nat /\ big_endian (to_bytes 8 x) = x) /\
  forall h b i, length h = 8%nat -> (i < 8)%nat ->
    nth i (compress sha_k h b) 0 = (nth i h 0 + nth i (fold_left round (combine sha_k (schedule b)) h) 0) mod 2 ^ 64.
Proof.
  intros m L. destruct (sha_blocks m L) as (bs & A & B & C). exists bs. splits; auto.
  - intros x X. splits; [apply to_bytes_bytes|apply to_bytes_len|]. rewrite to_bytes_value. now apply N.mod_small.
  - intros h b i. apply compress_ok.
Qed.
Print Assumptions C73_blocks.

Definition dx (m : list N) : str := flat_map (hex_pair false) (sha512 m).
Example C73_ex_empty : dx [] = lit "cf83e1357eefb8bdf1542850d66d8007d620e4050b5715dc83f4a921d36ce9ce47d0d13c5d85f2b0ff8318d2877eec2f63b931bd47417a81a538327af927da3e".
Proof. vm_compute. reflexivity. Qed.
Example C73_ex_abc : dx (lit "abc") = lit "ddaf35a193617abacc417349ae20413112e6fa4e89a97ea20a9eeee64b55d39a2192992a274fc1a836ba3c23a3feebbd454d4423643ce80e2a9ac94fa54ca49f".
Proof. vm_compute. reflexivity. Qed.
(** One and two blocks for 111 and 112 bytes, two for 128. *)
Example C73_ex_111 : dx (repeat 97 111) = lit "fa9121c7b32b9e01733d034cfc78cbf67f926c7ed83e82200ef86818196921760b4beff48404df811b953828274461673c68d04e297b0eb7b2b4d60fc6b566a2".
Proof. vm_compute. reflexivity. Qed.
Example C73_ex_112 : dx (repeat 97 112) = lit "c01d080efd492776a1c43bd23dd99d0a2e626d481e16782e75d54c2503b5dc32bd05f0f1ba33e568b88fd2d970929b719ecbb152f58f130a407c8830604b70ca".
Proof. vm_compute. reflexivity. Qed.
Example C73_ex_128 : dx (repeat 97 128) = lit "b73d1929aa615934e61a871596b3f3b33359f42b8175602e89f7e06e5f658a243667807ed300314b95cacdd579f3e33abdfbe351909519a846d465c59582f321".
Proof. vm_compute. reflexivity. Qed.
Example C73_ex_padding : 8 * lenN (lit "abc") < 2 ^ 128 /\ length (pad (lit "abc")) = 128%nat /\ skipn 120 (pad (lit "abc")) = [0; 0; 0; 0; 0; 0; 0; 24].
Proof. vm_compute. auto. Qed.
(** A rule with the digest of a file that exists, and one that does not. *)
Definition dx_os : Os := mkOs [] (fun _ => true) (fun d => d) (fun _ => []).
Definition dx_fs : FS := [([lit "src"], NDir); ([lit "a.c"; lit "src"], NFile (lit "abc"))].
Definition dx_me : MapEnv := mkMapEnv (fun re p => if starts_with re p then Some (fun n => if n =? 0 then Some p else None) else None) (get_digest dx_os dx_fs).
Example C73_ex_mapping : holds dx_os dx_fs (lit "/src/./a.c") (lit "abc") /\ exists g, gen_new (fun _ => true) (lit "/src") (lit "s3:{DIGEST}") [] [] = Ok g /\
  gen_apply dx_me g (lit "/src/./a.c") = Ok (Some (lit "s3:" ++ map capital (dx (lit "abc")))) /\
  gen_apply dx_me g (lit "/src/b.c") = Err "metadata" /\ is_panic (gen_apply dx_me g (lit "/src")) = true.
Proof. split; [unfold holds; vm_compute; reflexivity|]. eexists. split; [vm_compute; reflexivity|]. splits; vm_compute; reflexivity. Qed.
