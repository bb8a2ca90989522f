(** Specification of the command line. *)
From Verif Require Import Base Str M_Cli.

(** Decimal number that fits 64 bits, with an optional plus sign. *)
Definition number (s : str) (n : N) : Prop := n < 2 ^ 64 /\ exists ds, (s = ds \/ s = 43 :: ds) /\ read_dec ds = Some n.
(** Upper-case keyword, blank, any text. *)
Definition info_text (s : str) : Prop :=
  exists k t, s = k ++ 32 :: t /\ k <> [] /\ Forall (fun c => 65 <= c <= 90 \/ c = 95) k.
(** What is logged: only errors unless another level is named. *)
Definition level_names : list (str * Level) := [(lit "off", LOff); (lit "warn", LWarn); (lit "info", LInfo); (lit "debug", LDebug); (lit "trace", LTrace)].
Definition logs (s : str) (l : Level) : Prop := In (s, l) level_names \/ l = LError /\ ~ In s (map fst level_names).
