(** Specification of digests, after FIPS 180-4. *)
From Verif Require Import Base Str M_Fs.

(** [k] is the first 64 bits of the fractional part of the cube root, or of the
    square root, of [p]. *)
Definition cube_fraction (p k : N) : Prop := exists r, r ^ 3 <= p * 2 ^ 192 < (r + 1) ^ 3 /\ k = r mod 2 ^ 64.
Definition square_fraction (p k : N) : Prop := exists r, r ^ 2 <= p * 2 ^ 128 < (r + 1) ^ 2 /\ k = r mod 2 ^ 64.
Definition prime (p : N) : Prop := 2 <= p /\ forall d, 2 <= d -> d < p -> p mod d <> 0.

(** The number written by big-endian bytes. *)
Fixpoint big_endian (l : list N) : N :=
  match l with [] => 0 | b :: t => b * 256 ^ lenN t + big_endian t end.
Definition bytes (l : list N) : Prop := Forall (fun b => b < 256) l.
(** A padded message: a one bit, as few zeros as possible to fill blocks of
    1024 bits, and the length in bits as a 128-bit number. *)
Definition padded (m p : list N) : Prop :=
  exists zeros len, p = m ++ [128] ++ zeros ++ len /\ Forall (fun b => b = 0) zeros /\ lenN zeros < 128 /\
    lenN p mod 128 = 0 /\ bytes len /\ lenN len = 16 /\ big_endian len = 8 * lenN m.

(** Rotation and bitwise functions, bit by bit. *)
Definition rotates (n x y : N) : Prop := y < 2 ^ 64 /\ forall i, i < 64 -> N.testbit y i = N.testbit x ((i + n) mod 64).
Definition xor3 (x y z : N) : N := N.lxor x (N.lxor y z).

(** Hexadecimal text. *)
Definition hex_char (upper : bool) (c : N) : Prop := 48 <= c <= 57 \/ (if upper then 65 <= c <= 70 else 97 <= c <= 102).
Definition capital (c : N) : N := if (97 <=? c) && (c <=? 122) then c - 32 else c.
(** Value of a digit. *)
Definition digit (c : N) : N := if c <? 58 then c - 48 else if c <? 71 then c - 55 else c - 87.
Fixpoint hex_bytes (t : str) : list N :=
  match t with a :: b :: u => (16 * digit a + digit b) :: hex_bytes u | _ => [] end.
(** Contents of a file. *)
Definition holds (os : Os) (fs : FS) (path : str) (d : list N) : Prop := fs_get fs (locate (os_cwd os) path) = Some (NFile d).
