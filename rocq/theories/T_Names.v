(** Property theorems C34 and C35 (symbol names). *)
From Verif Require Import Base Str Regex M_Names S_Names P_Names.

(** ** C34: Windows C-decorated names *)
Theorem C34_stdcall : forall f n, no_at f -> no_punct f -> n < two32 ->
  parse_unknown ([95] ++ f ++ [64] ++ dec n) = Ok (mkWin f (Some n)).
Proof. exact decode_stdcall. Qed.
Print Assumptions C34_stdcall.

Theorem C34_fastcall : forall f n, no_at f -> no_punct f -> n < two32 ->
  parse_unknown ([64] ++ f ++ [64] ++ dec n) = Ok (mkWin f (Some n)).
Proof. exact decode_fastcall. Qed.
Print Assumptions C34_fastcall.

Theorem C34_vectorcall : forall f n, no_punct f -> n < two32 ->
  parse_unknown (f ++ [64; 64] ++ dec n) = Ok (mkWin f (Some n)).
Proof. exact decode_vectorcall. Qed.
Print Assumptions C34_vectorcall.

Theorem C34_cdecl : forall f, no_at f -> no_punct f ->
  parse_unknown ([95] ++ f) = Ok (mkWin f None).
Proof. exact decode_cdecl. Qed.
Print Assumptions C34_cdecl.

Theorem C34_undecorated_unchanged : forall c s, c <= 127 -> c <> 64 -> c <> 95 ->
  (forall a n, ~ vectorcall (c :: s) a n) -> parse_unknown (c :: s) = Ok (mkWin (c :: s) None).
Proof. exact decode_plain. Qed.
Print Assumptions C34_undecorated_unchanged.

Theorem C34_punctuated_unchanged : forall s, ~ no_punct s -> parse_unknown s = Ok (mkWin s None).
Proof. exact parse_unknown_punct. Qed.
Print Assumptions C34_punctuated_unchanged.

Theorem C34_panics_exactly : forall s, is_panic (parse_unknown s) = true <->
  no_punct s /\ (exists c t, s = c :: t /\ 127 < c) /\ forall a n, ~ vectorcall s a n.
Proof. exact parse_unknown_panics. Qed.
Print Assumptions C34_panics_exactly.

(** The whole decision table, for every string. *)
Theorem C34_decision_table : forall s, sp_decorated s (parse_c_decorated s).
Proof. exact parse_c_decorated_table. Qed.
Print Assumptions C34_decision_table.

Example C34_examples :
  parse_unknown (lit "_foo@12") = Ok (mkWin (lit "foo") (Some 12)) /\
  parse_unknown (lit "@foo@12") = Ok (mkWin (lit "foo") (Some 12)) /\
  parse_unknown (lit "foo@@12") = Ok (mkWin (lit "foo") (Some 12)) /\
  parse_unknown (lit "_foo") = Ok (mkWin (lit "foo") None) /\
  parse_unknown (lit "foo@12") = Ok (mkWin (lit "foo@12") None) /\
  parse_unknown (lit "_foo@4294967296") = Ok (mkWin (lit "foo@4294967296") None) /\
  parse_unknown (lit "a::b@@1") = Ok (mkWin (lit "a::b@@1") None) /\
  is_panic (parse_unknown (233 :: lit "t")) = true /\
  parse_unknown (233 :: lit "t@@8") = Ok (mkWin (233 :: lit "t") (Some 8)).
Proof. vm_compute. repeat split. Qed.
Example C34_hyps : no_at (lit "foo") /\ no_punct (lit "foo") /\ 12 < two32.
Proof.
  split; [|split; [split|]]; try (intros H; vm_compute in H; repeat (destruct H as [H|H]; [discriminate|]); exact H).
  reflexivity.
Qed.

(** ** C35: compiler suffixes and anonymous namespaces *)
Theorem C35_fix_name : forall s, exists p, stripped s p /\ subst_all anon_msvc anon_std p (fix_text s).
Proof. exact fix_text_spec. Qed.
Print Assumptions C35_fix_name.

Theorem C35_result_clean : forall s, ~ occurs anon_msvc (fix_text s) /\ stripped (fix_text s) (fix_text s).
Proof. exact fix_text_clean. Qed.
Print Assumptions C35_result_clean.

Theorem C35_idempotent : forall s, fix_text (fix_text s) = fix_text s.
Proof. exact fix_text_idem. Qed.
Print Assumptions C35_idempotent.

Theorem C35_untouched : forall s, (forall p d, s = p ++ d -> deco d -> False) ->
  ~ occurs anon_msvc s -> fix_text s = s.
Proof. exact fix_text_untouched. Qed.
Print Assumptions C35_untouched.

(** What is removed is unique: [stripped] is a function of s. *)
Theorem C35_stripped_unique : forall s p q, stripped s p -> stripped s q -> p = q.
Proof. exact stripped_unique. Qed.
Print Assumptions C35_stripped_unique.

(** The unit tests of common.rs:56-102. *)
Example C35_examples :
  fix_text (lit "hello.llvm.1234567890") = lit "hello" /\
  fix_text (lit "hello.str.158.llvm.1786438672924483777") = lit "hello" /\
  fix_text (lit "hello [clone .constprop.0] [clone .isra.0] [clone .cold]") = lit "hello" /\
  fix_text (lit "hello.localalias") = lit "hello" /\
  fix_text (lit "hello.constprop.0.isra.0") = lit "hello" /\
  fix_text (lit "hello [clone foo][bar]") = lit "hello [clone foo][bar]" /\
  fix_text (lit "a::`anonymous namespace'::b.cold") = lit "a::(anonymous namespace)::b".
Proof. vm_compute. repeat split. Qed.

(** ** C79: shown names *)
Theorem C79_function : forall d n t, demangle d n = t <-> shown_name d n t.
Proof. intros d n t. split; [intros <-; apply demangle_shown|apply shown_unique, demangle_shown]. Qed.
Print Assumptions C79_function.
Theorem C79_public : forall d s t, demangle_str d s = t <-> public_name d s t.
Proof. intros d s t. split; [intros <-; apply demangle_str_public|apply public_name_unique, demangle_str_public]. Qed.
Print Assumptions C79_public.
Theorem C79_inlined : forall d n t, demangle_and_sanitize d n = t <-> origin_name d n t.
Proof. intros d n t. split; [intros <-; apply demangle_origin|apply origin_unique, demangle_origin]. Qed.
Print Assumptions C79_inlined.
(** The two differ only in control characters, which the text of an inlined
    function never has. *)
Theorem C79_no_control : forall d n c, In c (demangle_and_sanitize d n) <-> In c (demangle d n) /\ 32 <= c /\ c <> 127.
Proof. intros d n c. unfold demangle_and_sanitize. rewrite filter_In. unfold is_ascii_control. split; intros (A & B); (split; [exact A|lia]). Qed.
Print Assumptions C79_no_control.

Definition nx_dm : Demangler := mkDemangler (fun n => if str_eqb (nm_str n) (lit "_Z1fv") then Some (lit "f()") else None) (fun s => if starts_with (lit "_Z") s then 2 else 0).
Example C79_examples :
  demangle nx_dm (mkName (lit "_Z1fv.cold") 1 2) = lit "f()" /\ demangle nx_dm (mkName (lit "_Z1fv.cold") 1 1) = lit "_Z1fv" /\
  demangle nx_dm (mkName (lit "_Z1gv.cold") 1 2) = lit "_Z1gv" /\ demangle_str nx_dm (lit "_Z1fv.part.0") = lit "f()" /\
  demangle_str nx_dm (lit "f.cold") = lit "f.cold" /\ demangle_str nx_dm (lit "_Z2.cold") = lit "_Z2" /\
  demangle nx_dm (mkName (104 :: 9 :: 105 :: [127]) 1 0) = [104; 9; 105; 127] /\ demangle_and_sanitize nx_dm (mkName (104 :: 9 :: 105 :: [127]) 1 0) = [104; 105].
Proof. vm_compute. repeat split. Qed.
