(** Property theorems C18, C22, C23, C32 (file and origin numbering). *)
From Verif Require Import Base Str Utf8 M_Names M_Path M_Source S_Source P_Source.

(** ** C18: file numbers *)
Theorem C18_numbers_denote_paths : forall e rs, consistent rs ->
  exists ns s, lookups e rs src_new = Ok (ns, s) /\
    Forall2 (fun r i => nthN (sf_ids s) i = Some (sp_shown e (env_path e r))) rs ns /\
    (forall i j r r' n m, nthN rs i = Some r -> nthN rs j = Some r' -> nthN ns i = Some n -> nthN ns j = Some m ->
       (n = m <-> env_path e r = env_path e r')) /\
    (forall k, k < lenN (sf_ids s) -> exists r, In r rs /\ In k ns /\ nthN (sf_ids s) k = Some (sp_shown e (env_path e r))).
Proof. exact numbering. Qed.
Print Assumptions C18_numbers_denote_paths.

Theorem C18_numbers_never_change : forall e rs1 rs2, consistent (rs1 ++ rs2) ->
  exists ns1 s1 ns2 s2, lookups e rs1 src_new = Ok (ns1, s1) /\
    lookups e (rs1 ++ rs2) src_new = Ok (ns1 ++ ns2, s2) /\ exists more, sf_ids s2 = sf_ids s1 ++ more.
Proof. exact numbering_stable. Qed.
Print Assumptions C18_numbers_never_change.

(** Without consistency of string addresses the wrong file is named. *)
Theorem C18_inconsistent_pointers_refuted : exists e r r' n s, ~ consistent [r; r'] /\
  lookups e [r; r'] src_new = Ok ([n; n], s) /\ nthN (sf_ids s) n <> Some (sp_shown e (env_path e r')).
Proof.
  exists (mkSrcEnv (fun _ => None) Linux false (fun _ => None)),
    (mkFileRef 1 (lit "/b") 2 (lit "/d") 3 (lit "a.c")), (mkFileRef 1 (lit "/b") 2 (lit "/d") 3 (lit "b.c")), 0.
  eexists. split; [|split; [reflexivity|vm_compute; discriminate]].
  intros C. destruct (C _ _ (or_introl eq_refl) (or_intror (or_introl eq_refl)) eq_refl eq_refl eq_refl eq_refl eq_refl eq_refl) as (_ & _ & H).
  discriminate.
Qed.
Print Assumptions C18_inconsistent_pointers_refuted.

Definition c18_env := mkSrcEnv (fun _ => None) Linux false
  (fun p => if starts_with (lit "/build/") p then Some (lit "git:" ++ p) else None).
Definition c18_history :=
  [mkFileRef 1 (lit "/build") 2 (lit "src") 3 (lit "a.c"); mkFileRef 1 (lit "/build") 2 (lit "src") 4 (lit "b.c");
   mkFileRef 1 (lit "/build") 5 (lit "/build/src") 3 (lit "a.c"); mkFileRef 1 (lit "/build") 2 (lit "src") 4 (lit "b.c")].
Example C18_hypotheses : consistent c18_history.
Proof.
  intros r r' H H'. cbn in H, H'.
  repeat match goal with H : _ \/ _ |- _ => destruct H as [<-|H] | H : False |- _ => destruct H end;
    cbn; intros; try discriminate; auto.
Qed.
Example C18_example : exists s, lookups c18_env c18_history src_new = Ok ([0; 1; 0; 1], s) /\
  sf_ids s = [lit "git:/build/src/a.c"; lit "git:/build/src/b.c"].
Proof. eexists. split; reflexivity. Qed.

(** ** C22: origin numbers *)
Theorem C22_numbers_denote_names : forall d reqs, exists is o, origins d reqs orig_new = (is, o) /\
  Forall2 (fun n i => nthN (og_names o) i = Some (demangle_and_sanitize d n)) reqs is /\
  (forall i j n m a b, nthN reqs i = Some n -> nthN reqs j = Some m -> nthN is i = Some a -> nthN is j = Some b ->
     (a = b <-> n = m)) /\
  (forall k, k < lenN (og_names o) -> In k is).
Proof. exact origin_numbering. Qed.
Print Assumptions C22_numbers_denote_names.

Theorem C22_numbers_never_change : forall d r1 r2, exists i1 o1 i2 o2 more, origins d r1 orig_new = (i1, o1) /\
  origins d (r1 ++ r2) orig_new = (i1 ++ i2, o2) /\ og_names o2 = og_names o1 ++ more.
Proof. exact origin_numbering_stable. Qed.
Print Assumptions C22_numbers_never_change.

Theorem C22_no_control_characters : forall d n c, In c (demangle_and_sanitize d n) -> 32 <= c /\ c <> 127.
Proof. exact sanitized. Qed.
Print Assumptions C22_no_control_characters.

Definition c22_dem := mkDemangler (fun n => if str_eqb (nm_str n) (lit "_Z3foov") then Some (lit "foo" ++ [10] ++ lit "()") else None) (fun _ => 2).
Example C22_example : origins c22_dem [mkName (lit "_Z3foov") 1 2; mkName (lit "bar.cold") 0 1; mkName (lit "_Z3foov") 1 2] orig_new
  = ([0; 1; 0], mkOrig [lit "foo()"; lit "bar"] [(mkName (lit "_Z3foov") 1 2, 0); (mkName (lit "bar.cold") 0 1, 1)]).
Proof. vm_compute. reflexivity. Qed.

(** ** C23: merging origin lists *)
Theorem C23_merge : forall l r m ren, merge_inline_origins l r = (m, ren) ->
  (exists more, m = l ++ more) /\ length ren = length r /\
  (forall i s, nthN r i = Some s -> exists j, nthN ren i = Some j /\ nthN m j = Some s) /\
  (forall s, In s m -> In s l \/ In s r) /\ length m = (length l + length r)%nat.
Proof. exact merge_origins_spec. Qed.
Print Assumptions C23_merge.

Example C23_example : merge_inline_origins [lit "a"; lit "b"] [lit "b"; lit "c"] = ([lit "a"; lit "b"; lit "b"; lit "c"], [2; 3]) /\
  merge_inline_origins [] [lit "b"; lit "c"] = ([lit "b"; lit "c"], [0; 1]) /\ merge_inline_origins [lit "a"] [] = ([lit "a"], []).
Proof. repeat split. Qed.

(** ** C32: INLINE_ORIGIN lines *)
Theorem C32_origin_lines : forall d reqs is o k name, origins d reqs orig_new = (is, o) ->
  nthN (og_names o) k = Some name ->
  exists shown, fmt_origin k name = lit "INLINE_ORIGIN " ++ dec k ++ [32] ++ shown ++ [10] /\
  one_line (fmt_origin k name) /\ visible shown /\ (visible name -> shown = name).
Proof. exact origin_line_any. Qed.
Print Assumptions C32_origin_lines.

Example C32_example : let o := snd (origins c22_dem [mkName [10; 32; 9] 1 2] orig_new) in
  nthN (og_names o) 0 = Some [32] /\ fmt_origin 0 [32] = lit "INLINE_ORIGIN 0 <name omitted>" ++ [10].
Proof. vm_compute. split; reflexivity. Qed.
