(** Property theorems C07-C11, C36 (symbol table). *)
From Verif Require Import Base BMap Str M_Names M_Path M_Line M_Symbol S_Symbol P_Symbol P_Win.

(** ** C10: the containment test *)
Theorem C10_containment_exact : forall ck m a, nsorted m ->
  (forall k s, closest m a k s -> sy_rva s + sy_len s < two32) ->
  exists b, is_inside_symbol ck a m = Ok b /\ (b = true <-> sp_inside m a).
Proof. exact inside_exact. Qed.
Print Assumptions C10_containment_exact.

Theorem C10_overflow : forall m a k s, nsorted m -> closest m a k s -> sy_rva s < two32 -> sy_len s < two32 ->
  two32 <= sy_rva s + sy_len s ->
  is_panic (is_inside_symbol true a m) = true /\
  is_inside_symbol false a m = Ok (a <? sy_rva s + sy_len s - two32).
Proof. exact inside_overflow. Qed.
Print Assumptions C10_overflow.

Definition fn_at (a l : N) : Symbol := mkSymbol (lit "f") false false false a l 0 lines_new.
Definition tbl1 : Symbols := [(16, fn_at 16 32); (64, fn_at 64 0); (128, fn_at 128 16)].
Example C10_hypotheses : nsorted tbl1 /\ ends_fit tbl1 /\ filed tbl1.
Proof.
  assert (S : nsorted tbl1) by (unfold tbl1; repeat constructor).
  splits; auto; [|split; auto];
    intros k s H; apply nfind_In in H; auto; cbn in H;
    repeat (destruct H as [H|H]; [inversion H; subst; cbn; unfold two32; lia|]); easy.
Qed.
Example C10_example : map (fun a => is_inside_symbol true a tbl1) [8; 16; 47; 48; 65; 128; 143; 144]
  = map Ok [false; false; true; false; false; false; true; false].
Proof. reflexivity. Qed.
(** A record that ends beyond 2^32: the release build misses the containment. *)
Example C10_overflow_example :
  let m := [(4294967040, fn_at 4294967040 512)] in
  is_inside_symbol false 4294967050 m = Ok false /\ is_panic (is_inside_symbol true 4294967050 m) = true.
Proof. split; reflexivity. Qed.

(** ** C07: publics and existing records *)
Theorem C07_records_kept : forall ck pl dm pubs m m' k s, nsorted m -> collect_publics ck pl dm pubs m = Ok m' ->
  nfind k m = Some s -> exists s', nfind k m' = Some s' /\ pub_kept pl dm k pubs s s'.
Proof. exact publics_kept. Qed.
Print Assumptions C07_records_kept.
Theorem C07_new_records : forall ck pl dm pubs m m' k s, nsorted m -> collect_publics ck pl dm pubs m = Ok m' ->
  nfind k m = None -> nfind k m' = Some s -> pub_new pl dm k pubs s.
Proof. exact publics_new. Qed.
Print Assumptions C07_new_records.
Theorem C07_other_addresses : forall ck pl dm pubs m m' k, nsorted m -> collect_publics ck pl dm pubs m = Ok m' ->
  pubs_at k pubs = [] -> nfind k m' = nfind k m.
Proof. exact publics_frame. Qed.
Print Assumptions C07_other_addresses.
Theorem C07_no_panic : forall ck pl dm pubs m, nsorted m ->
  ck = false \/ (ends_fit m /\ Forall (fun p => pb_addr p mod two32 + pb_size p mod two32 < two32) pubs) ->
  pl <> Win \/ Forall ascii_name pubs -> exists m', collect_publics ck pl dm pubs m = Ok m'.
Proof. exact publics_ok. Qed.
Print Assumptions C07_no_panic.
(** Exactly what one public does to a record at its address; publics are dealt
    with one after another. *)
Theorem C07_effect : forall ck pl dm m p m' s, nsorted m -> ends_fit m -> ~ sp_inside m (pb_addr p mod two32) -> ~ constant_pub p ->
  nfind (pb_addr p mod two32) m = Some s -> collect_public ck pl dm m p = Ok m' ->
  exists s', m' = ninsert (pb_addr p mod two32) s' m /\ pub_effect pl dm p s s'.
Proof. exact public_effect. Qed.
Print Assumptions C07_effect.
(** What all publics together make of the name and the parameter size of a
    function of a Windows file, at an address that is inside of nothing. *)
Theorem C07_windows : forall ck dm pubs m m' k s, filed m -> (forall j w, nfind j m = Some w -> clear_of k j (sy_len w) /\ sy_len w < two32) ->
  Forall (fun p => clear_of k (pb_addr p mod two32) (pb_size p mod two32)) pubs -> nfind k m = Some s -> sy_public s = false ->
  collect_publics ck Win dm pubs m = Ok m' ->
  exists s', nfind k m' = Some s' /\ win_named dm (sy_name s) (sy_param s) (pubs_at k pubs) (sy_name s') (sy_param s').
Proof. intros ck dm pubs m m' k s. exact (win_names ck dm k pubs m m' s). Qed.
Print Assumptions C07_windows.
Theorem C07_windows_unique : forall dm n a pubs n1 a1 n2 a2, win_named dm n a pubs n1 a1 -> win_named dm n a pubs n2 a2 -> n1 = n2 /\ a1 = a2.
Proof. exact win_named_fun. Qed.
Print Assumptions C07_windows_unique.
Theorem C07_in_order : forall ck pl dm p pubs m, collect_publics ck pl dm (p :: pubs) m = (m1 <- collect_public ck pl dm m p ;; collect_publics ck pl dm pubs m1).
Proof. reflexivity. Qed.
Print Assumptions C07_in_order.

Definition dm0 : Demangler := mkDemangler (fun _ => None) (fun _ => lang_unknown).
Definition pubs1 := [mkPub 16 0 (Some (lit "_f@8")); mkPub 20 0 (Some (lit "inner")); mkPub 200 4 (Some (lit "_g")); mkPub 200 4 None;
  mkPub 64 0 (Some (lit "h@@12")); mkPub 300 0 (Some (lit "__real@3f80"))].
Example C07_example : exists m', collect_publics true Win dm0 pubs1 tbl1 = Ok m' /\
  map (fun kv => (fst kv, sy_name (snd kv), sy_public (snd kv), sy_multiple (snd kv), sy_param (snd kv))) m' =
  [(16, lit "f", false, false, 8); (64, lit "h", false, false, 12); (128, lit "f", false, false, 0);
   (200, lit "g", true, true, 0)].
Proof. eexists. split; reflexivity. Qed.
(** The function at 16 is in nothing and gets its name and 8 bytes of parameters
    from the first public. *)
Example C07_ex_windows : win_named dm0 (lit "f0") 0 (pubs_at 16 pubs1) (lit "f") 8 /\ Forall (fun p => clear_of 16 (pb_addr p mod two32) (pb_size p mod two32)) pubs1.
Proof.
  split; [|repeat constructor; unfold clear_of; vm_compute; intuition discriminate].
  change (pubs_at 16 pubs1) with [mkPub 16 0 (Some (lit "_f@8"))].
  eapply (wn_name _ _ _ _ (lit "_f@8") (mkWin (lit "f") (Some 8)) (lit "f")); [reflexivity| |vm_compute; reflexivity|vm_compute; intuition discriminate|reflexivity|constructor].
  intros (y & [= <-] & C). apply skip_constant in C. discriminate.
Qed.
Example C07_hypotheses : Forall ascii_name pubs1 /\ Forall (fun p => pb_addr p mod two32 + pb_size p mod two32 < two32) pubs1.
Proof. split; repeat constructor. Qed.

Example C07_effect_example : exists s s', nfind 16 tbl1 = Some s /\ ~ sp_inside tbl1 16 /\
  collect_public true Win dm0 tbl1 (mkPub 16 0 (Some (lit "_f@8"))) = Ok (ninsert 16 s' tbl1) /\ sy_param s <> sy_param s'.
Proof.
  eexists _, _. split; [reflexivity|]. split; [|split; [vm_compute; reflexivity|vm_compute; discriminate]].
  intros (k & s & (A & B & _) & _). apply nfind_In in A; [|vm_compute; repeat constructor]. vm_compute in A.
  repeat (destruct A as [A|A]; [inversion A; subst; lia|]). destruct A.
Qed.

(** ** C08: the containment rule for publics *)
(** [m] is the table at the moment the public is looked at. *)
Theorem C08_inside_dropped : forall ck pl dm m p, nsorted m -> ends_fit m -> sp_inside m (pb_addr p mod two32) ->
  collect_public ck pl dm m p = Ok m.
Proof. exact public_inside. Qed.
Print Assumptions C08_inside_dropped.
Theorem C08_free_added : forall ck pl dm m p m', nsorted m -> ends_fit m -> ~ sp_inside m (pb_addr p mod two32) ->
  ~ constant_pub p -> nfind (pb_addr p mod two32) m = None -> collect_public ck pl dm m p = Ok m' ->
  exists s, m' = ninsert (pb_addr p mod two32) s m /\ sy_public s = true /\ sy_rva s = pb_addr p mod two32 /\
    sy_len s = pb_size p mod two32.
Proof. exact public_added. Qed.
Print Assumptions C08_free_added.
Theorem C08_list_is_steps : forall ck pl dm a b m m', collect_publics ck pl dm (a ++ b) m = Ok m' <->
  exists m1, collect_publics ck pl dm a m = Ok m1 /\ collect_publics ck pl dm b m1 = Ok m'.
Proof. exact publics_app. Qed.
Print Assumptions C08_list_is_steps.
(** With publics in address order the rule holds in the final table. *)
Theorem C08_final_table_sorted : forall ck pl dm pubs m m' k, nsorted m -> ends_fit m ->
  Forall (fun p => pb_addr p mod two32 + pb_size p mod two32 < two32) pubs ->
  StronglySorted addr32_le pubs -> collect_publics ck pl dm pubs m = Ok m' ->
  nfind k m = None -> nfind k m' <> None -> ~ sp_inside m' k.
Proof. exact publics_sorted_final. Qed.
Print Assumptions C08_final_table_sorted.
(** In another order it does not: the enclosing public may come later. *)
Theorem C08_final_table_unsorted_refuted : exists ck pl dm pubs m' k,
  Forall (fun p => pb_addr p mod two32 + pb_size p mod two32 < two32) pubs /\
  collect_publics ck pl dm pubs [] = Ok m' /\ nfind k m' <> None /\ sp_inside m' k.
Proof.
  exists true, Linux, dm0, [mkPub 24 0 (Some (lit "inner")); mkPub 16 32 (Some (lit "outer"))]. eexists. exists 24.
  splits; [repeat constructor|reflexivity|discriminate|].
  exists 16. eexists. split; [split; [reflexivity|split; [lia|]]|cbn; lia].
  intros j w H Hj. apply nfind_In in H; [|repeat constructor]. cbn in H.
  destruct H as [H|[H|[]]]; inversion H; subst; lia.
Qed.
Print Assumptions C08_final_table_unsorted_refuted.
Example C08_hypotheses : sp_inside tbl1 20 /\ ~ sp_inside tbl1 200 /\ nfind 200 tbl1 = None.
Proof.
  assert (S : nsorted tbl1) by (unfold tbl1; repeat constructor). splits; auto.
  - exists 16, (fn_at 16 32). split; [apply closest_last; auto|cbn; lia].
  - intros (k & s & C & H). apply closest_last in C; auto. cbn in C. inversion C; subst. cbn in H. lia.
Qed.

(** ** C36: compiler constants *)
Theorem C36_constants_ignored : forall ck pl dm m p, nsorted m -> ck = false \/ ends_fit m -> constant_pub p ->
  collect_public ck pl dm m p = Ok m.
Proof. exact public_constant. Qed.
Print Assumptions C36_constants_ignored.
Theorem C36_constants_removable : forall ck pl dm (keep : Pub -> bool) pubs m m',
  (forall p, In p pubs -> keep p = false -> constant_pub p) ->
  collect_publics ck pl dm pubs m = Ok m' -> collect_publics ck pl dm (filter keep pubs) m = Ok m'.
Proof. exact publics_without_constants. Qed.
Print Assumptions C36_constants_removable.
Theorem C36_constant_names : forall n, should_skip_symbol n = true <-> sp_constant n.
Proof. exact skip_constant. Qed.
Print Assumptions C36_constant_names.
Example C36_example : constant_pub (mkPub 300 0 (Some (lit "__real@3f80"))) /\
  ~ constant_pub (mkPub 300 0 (Some (lit "__realm"))).
Proof.
  split.
  - exists (lit "__real@3f80"). split; auto. exists (lit "__real@"), (lit "3f80"). split; auto. cbn; auto.
  - intros H. apply is_constant_pub_spec in H. discriminate.
Qed.

(** ** C09: placeholders *)
Theorem C09_only_fill_holes : forall ck mn xs m m', nsorted m -> collect_placeholders ck mn xs m = Ok m' ->
  nsorted m' /\
  (forall k s, nfind k m = Some s -> nfind k m' = Some s) /\
  (forall k s, nfind k m = None -> nfind k m' = Some s ->
     exists e, In (Some (k, e)) xs /\ k <= e /\ placeholder_of mn k e s).
Proof. exact placeholders_spec. Qed.
Print Assumptions C09_only_fill_holes.
Theorem C09_at_most_one_each : forall ck mn xs m m', collect_placeholders ck mn xs m = Ok m' ->
  (length m' <= length m + length xs)%nat.
Proof. exact placeholders_count. Qed.
Print Assumptions C09_at_most_one_each.
Theorem C09_entry : forall ck mn m b e, nsorted m -> ends_fit m -> b <= e ->
  (sp_inside m b -> collect_placeholder ck (unknown_name mn) m (Some (b, e)) = Ok m) /\
  (nfind b m <> None -> collect_placeholder ck (unknown_name mn) m (Some (b, e)) = Ok m) /\
  (~ sp_inside m b -> nfind b m = None -> exists s, collect_placeholder ck (unknown_name mn) m (Some (b, e)) = Ok (ninsert b s m) /\
     placeholder_of mn b e s).
Proof. exact placeholder_exact. Qed.
Print Assumptions C09_entry.
Theorem C09_bad_entries_ignored : forall ck name m b e, e < b -> collect_placeholder ck name m (Some (b, e)) = Ok m.
Proof. exact placeholder_bad. Qed.
Print Assumptions C09_bad_entries_ignored.
Theorem C09_no_panic : forall ck mn xs m, nsorted m ->
  ck = false \/ (ends_fit m /\ forall b e, In (Some (b, e)) xs -> e < two32) ->
  exists m', collect_placeholders ck mn xs m = Ok m'.
Proof. exact placeholders_ok. Qed.
Print Assumptions C09_no_panic.
Example C09_example : exists m', collect_placeholders true (lit "a.dll") [Some (20, 30); Some (16, 30); None; Some (48, 60); Some (50, 55); Some (80, 70)] tbl1 = Ok m' /\
  map (fun kv => (fst kv, sy_name (snd kv), sy_len (snd kv))) m' =
  [(16, lit "f", 32); (48, lit "<unknown in a.dll>", 12); (64, lit "f", 0); (128, lit "f", 16)].
Proof. eexists. split; reflexivity. Qed.

(** ** C11: synthetic symbols *)
Theorem C11_elf_sections : forall name secs m k, nsorted m ->
  (forall s, nfind k m = Some s -> nfind k (fold_left (add_section name) secs m) = Some s) /\
  (nfind k m = None ->
     match sections_at k secs with
     | [] => nfind k (fold_left (add_section name) secs m) = None
     | h :: _ => exists s, nfind k (fold_left (add_section name) secs m) = Some s /\
                           synthetic_at k (sp_section_name name (se_name h)) s
     end).
Proof. exact sections_spec. Qed.
Print Assumptions C11_elf_sections.
Theorem C11_pe_trailing : forall ck mn m k s, filed m -> last_record m k s -> after_last s < two32 ->
  exists s', append_dummy ck mn m = Ok (ninsert (after_last s) s' m) /\
    nfind (after_last s) m = None /\ synthetic_at (after_last s) (sp_unknown mn) s'.
Proof. exact dummy_spec. Qed.
Print Assumptions C11_pe_trailing.
Theorem C11_pe_empty : forall ck mn, append_dummy ck mn [] = Ok [].
Proof. exact dummy_empty. Qed.
Print Assumptions C11_pe_empty.
(** Beyond 2^32: abort, or a symbol at the wrapped address. *)
Theorem C11_pe_overflow : forall mn m k s, filed m -> last_record m k s -> sy_len s < two32 -> two32 <= after_last s ->
  is_panic (append_dummy true mn m) = true /\
  exists s', append_dummy false mn m = Ok (or_insert (after_last s - two32) s' m) /\
     synthetic_at (after_last s - two32) (sp_unknown mn) s'.
Proof. exact dummy_overflow. Qed.
Print Assumptions C11_pe_overflow.
Example C11_hypotheses : last_record tbl1 128 (fn_at 128 16) /\ after_last (fn_at 128 16) = 144.
Proof. split; [apply last_opt_record; [unfold tbl1; repeat constructor|reflexivity]|reflexivity]. Qed.
Example C11_example : map (fun kv => (fst kv, sy_name (snd kv)))
    (fold_left (add_section (lit "m")) [mkSection 8 true (Some (lit ".init")); mkSection 128 true (Some (lit ".text"));
                                        mkSection 256 false (Some (lit ".data")); mkSection 256 true None] tbl1) =
  [(8, lit "<.init ELF section in m>"); (16, lit "f"); (64, lit "f"); (128, lit "f"); (256, lit "<unknown ELF section in m>")].
Proof. reflexivity. Qed.

(** ** C12, collection steps (functions: T_Collector, merges: T_Merge) *)
Theorem C12_publics_filed : forall ck pl dm pubs m m', filed m -> collect_publics ck pl dm pubs m = Ok m' -> filed m'.
Proof. exact filed_publics. Qed.
Print Assumptions C12_publics_filed.
Theorem C12_placeholders_filed : forall ck mn xs m m', filed m -> (forall b e, In (Some (b, e)) xs -> b < two32) ->
  collect_placeholders ck mn xs m = Ok m' -> filed m'.
Proof. exact filed_placeholders. Qed.
Print Assumptions C12_placeholders_filed.
Theorem C12_sections_filed : forall ck b mn m m', filed m -> add_executable_section_symbols ck b mn m = Ok m' -> filed m'.
Proof. exact filed_sections. Qed.
Print Assumptions C12_sections_filed.
