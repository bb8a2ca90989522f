(** Specification of name handling. *)
From Verif Require Import Base Str M_Names.

(** A decimal number below 2^32 as Rust reads it: optional '+', digits. *)
Definition num_text (b : str) (n : N) : Prop :=
  n < two32 /\ exists ds, (b = ds \/ b = 43 :: ds) /\ read_dec ds = Some n.

Definition no_at (f : str) : Prop := ~ In 64 f.

(** s is  a ++ "@@" ++ number. *)
Definition vectorcall (s a : str) (n : N) : Prop := exists b, s = a ++ [64; 64] ++ b /\ num_text b n.

(** Compiler decorations: ".tag", ".tag.123" and "[clone ...]" with an optional
    blank on each side. *)
Definition tags : list str :=
  map lit ["cold"; "constprop"; "llvm"; "localalias"; "lto_priv"; "isra"; "part"; "str"]%string.
Inductive deco : str -> Prop :=
| deco_tag t : In t tags -> deco (46 :: t)
| deco_tag_num t ds : In t tags -> ds <> [] -> Forall (fun c => 48 <= c <= 57) ds ->
    deco (46 :: t ++ 46 :: ds)
| deco_clone b x e : b = [] \/ b = [32] -> e = [] \/ e = [32] -> ~ In 93 x ->
    deco (b ++ lit "[clone" ++ x ++ [93] ++ e).
Inductive decos : str -> Prop :=
| decos_nil : decos []
| decos_app d e : deco d -> decos e -> decos (d ++ e).

(** p is what remains of s after removing its longest decoration suffix. *)
Definition stripped (s p : str) : Prop :=
  exists d, s = p ++ d /\ decos d /\
    forall p' d', s = p' ++ d' -> decos d' -> (length p <= length p')%nat.

(** Substring, and substitution of all occurrences written as a decomposition:
    s = g0 w g1 w ... gn becomes g0 r g1 r ... gn, no gi containing w. *)
Definition occurs (w s : str) : Prop := exists a b, s = a ++ w ++ b.
Definition subst_all (w r s t : str) : Prop :=
  exists g0 gs, s = g0 ++ flat_map (app w) gs /\ t = g0 ++ flat_map (app r) gs /\
    Forall (fun g => ~ occurs w g) (g0 :: gs).

(** The complete decision table of parse_c_decorated. *)
Definition sp_decorated (s : str) (r : res WinName) : Prop :=
  (exists a n, vectorcall s a n /\ r = Ok (mkWin a (Some n))) \/
  ((forall a n, ~ vectorcall s a n) /\
   match s with
   | [] => r = Ok (mkWin [] None)
   | c :: rest =>
       if 127 <? c then is_panic r = true
       else if (c =? 64) || (c =? 95) then
         (exists a b n, rest = a ++ [64] ++ b /\ num_text b n /\ r = Ok (mkWin a (Some n))) \/
         ((forall a b n, rest = a ++ [64] ++ b -> ~ num_text b n) /\
          r = Ok (if c =? 95 then mkWin rest None else mkWin s None))
       else r = Ok (mkWin s None)
   end).

(** Names without ':' and '('. *)
Definition no_punct (s : str) : Prop := ~ In 58 s /\ ~ In 40 s.

(** Names as they are shown. The compiler's decorations are removed and the
    anonymous namespace is written one way; names in C (language 1) stay like
    that, others are demangled if possible. *)
Definition cleaned (s t : str) : Prop :=
  exists p, stripped s p /\ subst_all (lit "`anonymous namespace'") (lit "(anonymous namespace)") p t.
Definition if_possible (d : Demangler) (n : Name) (t : str) : Prop :=
  dm_demangle d n = Some t \/ (dm_demangle d n = None /\ t = nm_str n).
Definition shown_name (d : Demangler) (n : Name) (t : str) : Prop :=
  exists c, cleaned (nm_str n) c /\ ((nm_lang n = 1 /\ t = c) \/ (nm_lang n <> 1 /\ if_possible d (mkName c (nm_mangling n) (nm_lang n)) t)).
(** Names of publics: nothing is done if no language (0) is recognised. *)
Definition public_name (d : Demangler) (s t : str) : Prop :=
  (dm_detect d s = 0 /\ t = s) \/ (dm_detect d s <> 0 /\ exists c, cleaned s c /\ if_possible d (mkName c 1 (dm_detect d s)) t).
(** Names of inlined functions have no control characters. *)
Inductive printable : str -> str -> Prop :=
| pr_nil : printable [] []
| pr_control c s t : c < 32 \/ c = 127 -> printable s t -> printable (c :: s) t
| pr_kept c s t : 32 <= c -> c <> 127 -> printable s t -> printable (c :: s) (c :: t).
Definition origin_name (d : Demangler) (n : Name) (t : str) : Prop := exists u, shown_name d n u /\ printable u t.
