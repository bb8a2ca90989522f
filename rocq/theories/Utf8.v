(** UTF-8 as used by [String::from_utf8]: bytes to characters. *)
From Verif Require Import Base Str.

(** A Unicode scalar value. *)
Definition scalar (c : N) : Prop := c < 55296 \/ (57344 <= c /\ c < 1114112).

(** Encoding of one character. *)
Definition enc (c : N) : list N :=
  if c <? 128 then [c]
  else if c <? 2048 then [192 + c / 64; 128 + c mod 64]
  else if c <? 65536 then [224 + c / 4096; 128 + (c / 64) mod 64; 128 + c mod 64]
  else [240 + c / 262144; 128 + (c / 4096) mod 64; 128 + (c / 64) mod 64; 128 + c mod 64].
Definition encode (s : str) : list N := flat_map enc s.

Definition cont (b : N) : bool := (128 <=? b) && (b <? 192).
Definition is_scalar (c : N) : bool := (c <? 55296) || ((57344 <=? c) && (c <? 1114112)).

(** Strict decoder: no overlong forms, no surrogates, nothing above 0x10ffff. *)
Fixpoint decode (l : list N) : option str :=
  match l with
  | [] => Some []
  | a :: t =>
      if a <? 128 then option_map (cons a) (decode t)
      else match t with
      | b :: t2 =>
          if (192 <=? a) && (a <? 224) then
            let c := (a - 192) * 64 + (b - 128) in
            if cont b && (128 <=? c) then option_map (cons c) (decode t2) else None
          else match t2 with
          | b2 :: t3 =>
              if (224 <=? a) && (a <? 240) then
                let c := (a - 224) * 4096 + (b - 128) * 64 + (b2 - 128) in
                if cont b && cont b2 && (2048 <=? c) && is_scalar c then option_map (cons c) (decode t3) else None
              else match t3 with
              | b3 :: t4 =>
                  let c := (a - 240) * 262144 + (b - 128) * 4096 + (b2 - 128) * 64 + (b3 - 128) in
                  if (240 <=? a) && (a <? 248) && cont b && cont b2 && cont b3 && (65536 <=? c) && is_scalar c
                  then option_map (cons c) (decode t4) else None
              | [] => None
              end
          | [] => None
          end
      | [] => None
      end
  end.

Lemma decode_enc c t : scalar c -> decode (enc c ++ t) = option_map (cons c) (decode t).
Proof.
  intros H. unfold enc.
  destruct (c <? 128) eqn:E1.
  - cbn [app decode]. now rewrite E1.
  - destruct (c <? 2048) eqn:E2; [|destruct (c <? 65536) eqn:E3]; cbn [app decode].
    + replace (192 + c / 64 <? 128) with false by lia.
      replace ((192 <=? 192 + c / 64) && (192 + c / 64 <? 224)) with true by lia.
      replace ((192 + c / 64 - 192) * 64 + (128 + c mod 64 - 128)) with c by lia.
      unfold cont. replace (128 <=? c) with true by lia.
      replace ((128 <=? 128 + c mod 64) && (128 + c mod 64 <? 192)) with true by lia. reflexivity.
    + replace (224 + c / 4096 <? 128) with false by lia.
      replace ((192 <=? 224 + c / 4096) && (224 + c / 4096 <? 224)) with false by lia.
      replace ((224 <=? 224 + c / 4096) && (224 + c / 4096 <? 240)) with true by lia.
      replace ((224 + c / 4096 - 224) * 4096 + (128 + (c / 64) mod 64 - 128) * 64 + (128 + c mod 64 - 128)) with c by lia.
      unfold cont. replace (2048 <=? c) with true by lia.
      replace ((128 <=? 128 + c mod 64) && (128 + c mod 64 <? 192)) with true by lia.
      replace ((128 <=? 128 + (c / 64) mod 64) && (128 + (c / 64) mod 64 <? 192)) with true by lia.
      replace (is_scalar c) with true; [reflexivity|]. unfold is_scalar, scalar in *. lia.
    + assert (c < 1114112) by (unfold scalar in H; lia).
      replace (240 + c / 262144 <? 128) with false by lia.
      replace ((192 <=? 240 + c / 262144) && (240 + c / 262144 <? 224)) with false by lia.
      replace ((224 <=? 240 + c / 262144) && (240 + c / 262144 <? 240)) with false by lia.
      replace ((240 + c / 262144 - 240) * 262144 + (128 + (c / 4096) mod 64 - 128) * 4096 +
         (128 + (c / 64) mod 64 - 128) * 64 + (128 + c mod 64 - 128)) with c by lia.
      replace (240 <=? 240 + c / 262144) with true by lia.
      replace (240 + c / 262144 <? 248) with true by lia.
      unfold cont. replace (65536 <=? c) with true by lia.
      replace ((128 <=? 128 + c mod 64) && (128 + c mod 64 <? 192)) with true by lia.
      replace ((128 <=? 128 + (c / 64) mod 64) && (128 + (c / 64) mod 64 <? 192)) with true by lia.
      replace ((128 <=? 128 + (c / 4096) mod 64) && (128 + (c / 4096) mod 64 <? 192)) with true by lia.
      replace (is_scalar c) with true; [reflexivity|]. unfold is_scalar, scalar in *. lia.
Qed.

Lemma decode_encode s : Forall scalar s -> decode (encode s) = Some s.
Proof.
  induction 1 as [|c s Hc _ IH]; [reflexivity|].
  change (encode (c :: s)) with (enc c ++ encode s). rewrite decode_enc, IH by trivial. reflexivity.
Qed.

Lemma decode_sound n : forall bs s, (length bs <= n)%nat -> decode bs = Some s -> Forall scalar s /\ bs = encode s.
Proof.
  induction n as [|n IH]; intros bs s Hn H.
  - destruct bs; [|cbn in Hn; lia]. injection H as <-. split; constructor.
  - destruct bs as [|a t]; [injection H as <-; split; constructor|].
    cbn [decode] in H. cbn [length] in Hn.
    assert (step : forall c rest s, decode rest = Some s -> (length rest <= n)%nat -> scalar c -> forall pre,
              enc c = pre -> Forall scalar (c :: s) /\ pre ++ rest = encode (c :: s)).
    { intros c rest s0 Hd Hl Hs pre Hp. destruct (IH _ _ Hl Hd) as [F ->].
      split; [now constructor|]. change (encode (c :: s0)) with (enc c ++ encode s0). now rewrite Hp. }
    destruct (a <? 128) eqn:E1.
    { destruct (decode t) as [s'|] eqn:D; [|discriminate]. injection H as <-.
      apply (step a t s' D ltac:(lia)) with (pre := [a]); [unfold scalar; lia|]. unfold enc. now rewrite E1. }
    destruct t as [|b t2]; [discriminate|]. cbn [length] in Hn.
    destruct ((192 <=? a) && (a <? 224)) eqn:E2.
    { destruct (cont b && (128 <=? (a - 192) * 64 + (b - 128))) eqn:C; [|discriminate].
      destruct (decode t2) as [s'|] eqn:D; [|discriminate]. injection H as <-. unfold cont in C.
      apply (step ((a - 192) * 64 + (b - 128)) t2 s' D ltac:(lia)) with (pre := [a; b]); [unfold scalar; lia|].
      unfold enc. set (c := (a - 192) * 64 + (b - 128)) in *.
      replace (c <? 128) with false by lia. replace (c <? 2048) with true by lia.
      replace (c / 64) with (a - 192) by lia. replace (c mod 64) with (b - 128) by lia. repeat f_equal; lia. }
    destruct t2 as [|b2 t3]; [discriminate|]. cbn [length] in Hn.
    destruct ((224 <=? a) && (a <? 240)) eqn:E3.
    { set (c := (a - 224) * 4096 + (b - 128) * 64 + (b2 - 128)) in *.
      destruct (cont b && cont b2 && (2048 <=? c) && is_scalar c) eqn:C; [|discriminate].
      destruct (decode t3) as [s'|] eqn:D; [|discriminate]. injection H as <-. unfold cont, is_scalar in C.
      apply (step c t3 s' D ltac:(lia)) with (pre := [a; b; b2]); [unfold scalar; lia|].
      unfold enc.
      replace (c <? 128) with false by lia. replace (c <? 2048) with false by lia. replace (c <? 65536) with true by lia.
      replace (c / 4096) with (a - 224) by lia. replace ((c / 64) mod 64) with (b - 128) by lia.
      replace (c mod 64) with (b2 - 128) by lia. repeat f_equal; lia. }
    destruct t3 as [|b3 t4]; [discriminate|]. cbn [length] in Hn.
    set (c := (a - 240) * 262144 + (b - 128) * 4096 + (b2 - 128) * 64 + (b3 - 128)) in *.
    destruct ((240 <=? a) && (a <? 248) && cont b && cont b2 && cont b3 && (65536 <=? c) && is_scalar c) eqn:C; [|discriminate].
    destruct (decode t4) as [s'|] eqn:D; [|discriminate]. injection H as <-. unfold cont, is_scalar in C.
    apply (step c t4 s' D ltac:(lia)) with (pre := [a; b; b2; b3]); [unfold scalar; lia|].
    unfold enc.
    replace (c <? 128) with false by lia. replace (c <? 2048) with false by lia. replace (c <? 65536) with false by lia.
    replace (c / 262144) with (a - 240) by lia. replace ((c / 4096) mod 64) with (b - 128) by lia.
    replace ((c / 64) mod 64) with (b2 - 128) by lia.
    replace (c mod 64) with (b3 - 128) by lia. repeat f_equal; lia.
Qed.

(** The decoder is the exact inverse of encoding. *)
Lemma decode_spec bs s : decode bs = Some s <-> Forall scalar s /\ bs = encode s.
Proof.
  split; [apply (decode_sound (length bs)); lia|]. intros [F ->]. now apply decode_encode.
Qed.
