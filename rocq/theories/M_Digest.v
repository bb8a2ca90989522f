(** Digests in path mappings: SHA-512 and reading the source file. *)
From Verif Require Import Base Str M_Fs.

(** *** SHA-512 *)
(** /repo/src/mapping.rs:42 [Sha512::digest] of the crate sha2, after FIPS
    180-4. Words are numbers below 2^64; bytes are numbers below 256. *)
Definition word (x : N) : N := x mod 2 ^ 64.
Definition rotr (n x : N) : N := N.lor (N.shiftr x n) (word (N.shiftl x (64 - n))).
(** The first 80 primes. *)
Definition primes : list N :=
  [2; 3; 5; 7; 11; 13; 17; 19; 23; 29; 31; 37; 41; 43; 47; 53; 59; 61; 67; 71; 73; 79; 83; 89; 97; 101; 103; 107; 109; 113; 127; 131; 137; 139; 149; 151; 157; 163; 167; 173;
   179; 181; 191; 193; 197; 199; 211; 223; 227; 229; 233; 239; 241; 251; 257; 263; 269; 271; 277; 281; 283; 293; 307; 311; 313; 317; 331; 337; 347; 349; 353; 359; 367; 373; 379; 383; 389; 397; 401; 409].
(** The greatest [r] below [acc + 2^n] with [r^3 <= x], bit by bit. *)
Fixpoint cube_root (n : nat) (x acc : N) : N :=
  match n with
  | O => acc
  | S n => let r := acc + 2 ^ N.of_nat n in cube_root n x (if r * r * r <=? x then r else acc)
  end.
(** First 64 bits of the fractional parts of the roots of the primes. *)
Definition sha_k : list N := map (fun p => word (cube_root 72 (p * 2 ^ 192) 0)) primes.
Definition sha_iv : list N := map (fun p => word (N.sqrt (p * 2 ^ 128))) (firstn 8 primes).

(** Big-endian words and bytes. *)
Definition of_bytes (l : list N) : N := fold_left (fun a b => a * 256 + b) l 0.
Fixpoint to_bytes (n : nat) (x : N) : list N :=
  match n with O => [] | S n => to_bytes n (x / 256) ++ [x mod 256] end.
(** The message, a one bit, zeros up to 112 bytes modulo 128, and the number
    of bits as a 128-bit number. *)
Definition pad (m : list N) : list N :=
  m ++ 128 :: repeat 0 (N.to_nat ((111 + 128 - lenN m mod 128) mod 128)) ++ to_bytes 16 (8 * lenN m).
Fixpoint chunks {A} (k : nat) (fuel : nat) (l : list A) : list (list A) :=
  match fuel, l with
  | S f, _ :: _ => firstn k l :: chunks k f (skipn k l)
  | _, _ => []
  end.
(** The 80 words of a block, newest first. *)
Definition sig0 (x : N) : N := N.lxor (N.lxor (rotr 1 x) (rotr 8 x)) (N.shiftr x 7).
Definition sig1 (x : N) : N := N.lxor (N.lxor (rotr 19 x) (rotr 61 x)) (N.shiftr x 6).
Fixpoint extend (n : nat) (ws : list N) : list N :=
  match n with
  | O => ws
  | S n => extend n (word (sig1 (nth 1 ws 0) + nth 6 ws 0 + sig0 (nth 14 ws 0) + nth 15 ws 0) :: ws)
  end.
Definition schedule (block : list N) : list N := rev (extend 64 (rev (map of_bytes (chunks 8 16 block)))).
Definition big0 (x : N) : N := N.lxor (N.lxor (rotr 28 x) (rotr 34 x)) (rotr 39 x).
Definition big1 (x : N) : N := N.lxor (N.lxor (rotr 14 x) (rotr 18 x)) (rotr 41 x).
Definition choose (x y z : N) : N := N.lxor (N.land x y) (N.land (N.lxor x (2 ^ 64 - 1)) z).
Definition majority (x y z : N) : N := N.lxor (N.lxor (N.land x y) (N.land x z)) (N.land y z).
Definition round (s : list N) (kw : N * N) : list N :=
  match s with
  | [a; b; c; d; e; f; g; h] =>
      let t1 := h + big1 e + choose e f g + fst kw + snd kw in
      [word (t1 + big0 a + majority a b c); a; b; c; word (d + t1); e; f; g]
  | _ => s
  end.
Definition compress (ks h block : list N) : list N :=
  map (fun p => word (fst p + snd p)) (combine h (fold_left round (combine ks (schedule block)) h)).
Definition sha512 (m : list N) : list N :=
  let p := pad m in
  flat_map (to_bytes 8) (fold_left (compress sha_k) (chunks 128 (length p) p) sha_iv).

(** *** The digest of a file *)
(** [format!("{:x}")] and [format!("{:X}")] of a byte array: two digits each. *)
Definition hex_pair (upper : bool) (b : N) : str :=
  let d n := if n <? 10 then 48 + n else (if upper then 55 else 87) + n in [d (b / 16); d (b mod 16)].
(** /repo/src/utils.rs:205-222 [read]. Files that exist can be opened; a
    directory can be opened but not read. *)
Definition read (os : Os) (fs : FS) (path : str) : res (list N) :=
  match fs_get fs (locate (os_cwd os) path) with
  | None => Err "metadata"
  | Some NDir => Panic "Unable to read the file"
  | Some (NFile d) => Ok d
  end.
(** /repo/src/mapping.rs:40-48 [get_digest]. *)
Definition get_digest (os : Os) (fs : FS) (upper : bool) (path : str) : res str :=
  data <- read os fs path ;; Ok (flat_map (hex_pair upper) (sha512 data)).
