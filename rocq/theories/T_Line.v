(** Property theorems C01-C05 (line tables of one function). *)
From Verif Require Import Base Sort BMap Str M_Line S_Line P_Line.

(** ** C01 *)
Theorem C01_lines_stable_and_tiled : forall ck rva len is,
  (ck = false \/ Forall sp_ins_ok is) ->
  exists ls, finalize ck rva len (build is) = Ok ls /\
    stable_by_addr (inserted_lines is) (map triple (ls_lines ls)) /\
    tiles (fn_end rva len) (ls_lines ls).
Proof. exact finalize_tiles. Qed.
Print Assumptions C01_lines_stable_and_tiled.

(** Without inline ranges nothing is assumed, in either build mode. *)
Theorem C01_lines_only_never_panics : forall ck rva len is, only_lines is ->
  exists ls, finalize ck rva len (build is) = Ok ls /\
    stable_by_addr (inserted_lines is) (map triple (ls_lines ls)) /\
    tiles (fn_end rva len) (ls_lines ls).
Proof. exact finalize_tiles_lines. Qed.
Print Assumptions C01_lines_only_never_panics.

(** The unit test of line.rs:254-294. *)
Example C01_example :
  (ls <- finalize true 16 9 (build [InsLine 16 100 0; InsLine 24 102 0; InsLine 20 101 0; InsLine 28 103 0]) ;;
   Ok (ls_lines ls)) =
  Ok [mkLine 16 4 100 0; mkLine 20 4 101 0; mkLine 24 4 102 0; mkLine 28 0 103 0].
Proof. reflexivity. Qed.
Example C01_example_ties :
  (ls <- finalize true 16 20 (build [InsLine 24 1 0; InsLine 16 2 0; InsLine 16 3 1; InsInline (mkSite 0 0 5 0) (mkRange 16 4)]) ;;
   Ok (ls_lines ls)) =
  Ok [mkLine 16 0 2 0; mkLine 16 8 3 1; mkLine 24 12 1 0].
Proof. reflexivity. Qed.

(** ** C02 *)
Theorem C02_lookup : forall ck rva len is ls a,
  finalize ck rva len (build is) = Ok ls ->
  (forall t, In t (inserted_lines is) -> a < t_addr t) /\ filter (in_line a) (ls_lines ls) = [] \/
  exists b, is_best a (inserted_lines is) b /\
    ((before_end a (fn_end rva len) (inserted_lines is) /\
      exists l, filter (in_line a) (ls_lines ls) = [l] /\ triple l = b) \/
     (~ before_end a (fn_end rva len) (inserted_lines is) /\ filter (in_line a) (ls_lines ls) = [])).
Proof. exact finalize_lookup. Qed.
Print Assumptions C02_lookup.

Example C02_example : exists ls,
  finalize true 16 20 (build [InsLine 24 1 0; InsLine 16 2 0; InsLine 16 3 1]) = Ok ls /\
  filter (in_line 20) (ls_lines ls) = [mkLine 16 8 3 1] /\
  is_best 20 (inserted_lines [InsLine 24 1 0; InsLine 16 2 0; InsLine 16 3 1]) (16, 3, 1).
Proof.
  eexists; split; [reflexivity|split; [reflexivity|]].
  exists [(24, 1, 0); (16, 2, 0)], []. repeat split; try (vm_compute; congruence).
  - intros t [<-|[<-|[]]]; vm_compute; congruence.
  - intros t [].
Qed.

(** ** C03 *)
Theorem C03_ranges_merge : forall ck rva len is ls, Forall sp_ins_ok is ->
  finalize ck rva len (build is) = Ok ls ->
  NoDup (map fst (ls_inlines ls)) /\
  (forall s, In s (map fst (ls_inlines ls)) <-> exists r, In (InsInline s r) is) /\
  forall s rs, In (s, rs) (ls_inlines ls) ->
    StronglySorted (fun x y => r_rva x <= r_rva y) rs /\ no_abut rs /\
    forall a, cover_count a rs = cover_count a (inserted_ranges sp_site_eqb s is).
Proof. exact finalize_ranges. Qed.
Print Assumptions C03_ranges_merge.

Theorem C03_never_panics : forall ck rva len is, (ck = false \/ Forall sp_ins_ok is) ->
  exists ls, finalize ck rva len (build is) = Ok ls.
Proof. exact finalize_ok. Qed.
Print Assumptions C03_never_panics.

(** Beyond the 32-bit bound: with overflow checks finalising panics, without
    them the merged range becomes empty and its coverage is lost. *)
Theorem C03_overflow_refuted : exists is s a,
  finalize true 0 0 (build is) = Panic "attempt to add with overflow" /\
  exists ls rs, finalize false 0 0 (build is) = Ok ls /\ In (s, rs) (ls_inlines ls) /\
    cover_count a rs <> cover_count a (inserted_ranges sp_site_eqb s is).
Proof.
  exists [InsInline (mkSite 0 0 1 0) (mkRange 0 4294967295); InsInline (mkSite 0 0 1 0) (mkRange 4294967295 1)],
         (mkSite 0 0 1 0), 7.
  split; [vm_compute; reflexivity|]. eexists; eexists; split; [vm_compute; reflexivity|].
  split; [left; reflexivity|vm_compute; discriminate].
Qed.
Print Assumptions C03_overflow_refuted.

Example C03_example :
  let s := mkSite 0 0 1 0 in
  let is := [InsInline s (mkRange 30 5); InsInline s (mkRange 10 5); InsInline s (mkRange 15 5)] in
  Forall sp_ins_ok is /\
  (ls <- finalize true 0 100 (build is) ;; Ok (ls_inlines ls)) = Ok [(s, [mkRange 10 10; mkRange 30 5])].
Proof. split; [repeat constructor|reflexivity]. Qed.

(** ** C04 *)
Theorem C04_inline_records : forall ck rva len is ls,
  finalize ck rva len (build is) = Ok ls ->
  exists recs,
    fmt_lines ls = Ok (concat (map (fun kv => sp_inline_text (fst kv) (snd kv)) recs)
                       ++ concat (map sp_line_text (ls_lines ls))) /\
    Permutation recs (ls_inlines ls) /\ StronglySorted sp_inline_le recs /\
    NoDup (map fst recs) /\ (forall s, In s (map fst recs) <-> exists r, In (InsInline s r) is).
Proof.
  intros ck rva len is ls H. destruct (fmt_lines_text _ _ _ _ _ H) as (recs & A & B & C).
  destruct (finalize_sites _ _ _ _ _ H) as (D & E). exists recs. pose proof (Permutation_map fst B) as P. repeat split; auto.
  - exact (Permutation_NoDup (Permutation_sym P) D).
  - intros Hs. apply E. exact (Permutation_in _ P Hs).
  - intros Hs. apply E in Hs. exact (Permutation_in _ (Permutation_sym P) Hs).
Qed.
Print Assumptions C04_inline_records.

Example C04_example :
  (ls <- finalize true 16 16 (build [InsLine 16 7 0; InsInline (mkSite 3 1 8 0) (mkRange 16 2);
     InsInline (mkSite 5 0 7 1) (mkRange 16 4); InsInline (mkSite 3 1 8 0) (mkRange 24 2)]) ;; fmt_lines ls) =
  Ok (lit "INLINE 0 7 1 5 10 4" ++ [c_nl] ++ lit "INLINE 1 8 0 3 10 2 18 2" ++ [c_nl] ++ lit "10 10 7 0" ++ [c_nl]).
Proof. vm_compute. reflexivity. Qed.

Example C04_example_files :
  (ls <- finalize true 16 16 (build [InsInline (mkSite 3 0 8 0) (mkRange 16 2); InsInline (mkSite 3 0 8 1) (mkRange 24 2)]) ;; fmt_lines ls) =
  Ok (lit "INLINE 0 8 0 3 10 2" ++ [c_nl] ++ lit "INLINE 0 8 1 3 18 2" ++ [c_nl]).
Proof. vm_compute. reflexivity. Qed.

(** ** C05 *)
Theorem C05_insertion_order : forall ck rva len is1 is2, Permutation is1 is2 ->
  NoDup (map t_addr (inserted_lines is1)) ->
  (forall s, NoDup (map r_rva (inserted_ranges sp_site_eqb s is1))) ->
  observe (finalize ck rva len (build is1)) = observe (finalize ck rva len (build is2)).
Proof. exact build_perm_obs. Qed.
Print Assumptions C05_insertion_order.

Theorem C05_same_text : forall ck rva len is1 is2, Permutation is1 is2 ->
  NoDup (map t_addr (inserted_lines is1)) ->
  (forall s, NoDup (map r_rva (inserted_ranges sp_site_eqb s is1))) ->
  (ls <- finalize ck rva len (build is1) ;; fmt_lines ls) = (ls <- finalize ck rva len (build is2) ;; fmt_lines ls).
Proof. exact build_perm_text. Qed.
Print Assumptions C05_same_text.

(** The hypothesis on distinct addresses is needed. *)
Theorem C05_ties_refuted : exists is1 is2, Permutation is1 is2 /\
  observe (finalize true 0 10 (build is1)) <> observe (finalize true 0 10 (build is2)).
Proof.
  exists [InsLine 0 1 0; InsLine 0 2 0], [InsLine 0 2 0; InsLine 0 1 0].
  split; [apply perm_swap|vm_compute; discriminate].
Qed.
Print Assumptions C05_ties_refuted.

Example C05_example :
  let is1 := [InsLine 8 1 0; InsLine 0 2 0; InsInline (mkSite 0 0 1 0) (mkRange 4 2); InsInline (mkSite 0 0 1 0) (mkRange 0 2)] in
  NoDup (map t_addr (inserted_lines is1)) /\
  (forall s, NoDup (map r_rva (inserted_ranges sp_site_eqb s is1))) /\
  observe (finalize true 0 10 (build is1)) =
    Ok ([mkLine 0 8 2 0; mkLine 8 2 1 0], [(mkSite 0 0 1 0, [mkRange 0 2; mkRange 4 2])]).
Proof.
  split; [repeat constructor; simpl; intuition discriminate|split; [|reflexivity]].
  intros s. simpl. destruct (sp_site_eqb _ s); repeat constructor; simpl; intuition discriminate.
Qed.
