(** Theorems about the written symbol file. *)
From Verif Require Import Base Sort BMap Str M_Names M_Path M_Line M_Source M_Symbol M_Collector M_Object
  S_Line S_Names S_Path S_Source S_Symbol S_Collector S_Object S_Format P_Line P_Names P_Path P_Source P_Symbol P_Collector P_Walk P_Tree P_Func P_Calls
  P_Object P_Merge P_From P_Format T_Collector T_Object.

(** ** C31: reading back *)
Theorem C31_parse_back : forall extra ls o, writable ls o -> Forall one_line extra ->
  exists text rs, fmt_object extra o = Ok text /\ parse_file text = Some rs /\ object_records extra ls o rs.
Proof. intros extra ls o (A & B & C & D & E) F. exact (written_parses extra o ls B A C D F E). Qed.
Print Assumptions C31_parse_back.
(** What processing returns can always be written ... *)
Theorem C31_fresh_writable : forall shown ls o, fresh shown o -> clean_head o -> clean_names o -> stack_lines (ob_stack o) ls -> writable ls o.
Proof.
  intros shown ls o F C D E. split; [exact (proj1 (proj1 (fresh_ok shown o F)))|]. split; [exact (fresh_ranges shown o F)|auto].
Qed.
Print Assumptions C31_fresh_writable.
(** ... also after any number of merges; the CFI lines are those of all objects. *)
Theorem C31_merged_writable : forall ck iter os lss x lx m, writable lx x -> Forall2 writable lss os ->
  merge_all ck iter x os = Ok m -> exists ls, Permutation ls (lx ++ concat lss) /\ writable ls m.
Proof. intros ck iter os lss x lx m W F. exact (writable_all ck iter os lss F x lx m W). Qed.
Print Assumptions C31_merged_writable.
(** Writing never panics, whatever the names. *)
Theorem C31_write_total : forall shown extra o, fresh shown o -> clean_head o -> exists text, fmt_object extra o = Ok text.
Proof.
  intros shown extra o F C. destruct (written_records extra o [] (fresh_ranges shown o F) (proj1 (proj1 (fresh_ok shown o F))) C) as (t & rs & E & _). eauto.
Qed.
Print Assumptions C31_write_total.

Definition bytes_line (s : str) : bool := forallb (fun c => negb (c =? c_nl)) s.
Lemma bytes_line_ok s : bytes_line s = true -> one_line s.
Proof. unfold bytes_line. intros H Hi. apply (proj1 (forallb_forall _ _) H) in Hi. discriminate. Qed.
Lemma names_check o : forallb bytes_line (sm_ids (ob_files o)) && forallb bytes_line (ob_origins o)
  && forallb (fun kv => bytes_line (sy_name (snd kv))) (ob_syms o) = true -> clean_names o.
Proof.
  intros H. apply andb_prop in H as (H & H3). apply andb_prop in H as (H1 & H2).
  assert (G : forall {A} (f : A -> str) l, forallb (fun x => bytes_line (f x)) l = true -> Forall (fun x => one_line (f x)) l).
  { intros A f l E. apply Forall_forall. intros x Hx. apply bytes_line_ok. exact (proj1 (forallb_forall _ _) E x Hx). }
  split; [exact (G _ (fun x => x) _ H1)|]. split; [exact (G _ (fun x => x) _ H2)|exact (G _ (fun kv : N * Symbol => sy_name (snd kv)) _ H3)].
Qed.
Lemma head_check o cpu id name code : ob_cpu o = cpu -> ob_debug_id o = id -> ob_name o = name -> ob_code_id o = code -> ob_pe_name o = None ->
  one_word cpu -> one_word id -> one_line name -> match code with Some c => one_line c /\ exists t x, c = t ++ [x] /\ is_ws x = false | None => True end ->
  clean_head o.
Proof. intros <- <- <- <- E A B C D. unfold clean_head. rewrite E. auto. Qed.
Example C31_example : writable [lit "CFI INIT 10 20 x"] ox_a /\ writable [lit "CFI INIT 10 20 x"] ox_b /\
  exists m text rs, merge_objects true (fun l => l) ox_a ox_b = Ok m /\ fmt_object [lit "X y"] m = Ok text /\ parse_file text = Some rs /\
    rs = [RModule (lit "Linux") (lit "x86_64") (lit "AB12") (lit "libx.so"); RInfo (lit "CODE_ID C0DE"); RInfo (lit "X y");
          RFile 0 (lit "/b/s/f1.c"); RFile 1 (lit "/b/s/f0.c"); RFile 2 (lit "/b/s/f2.c"); ROrigin 0 (lit "in0"); ROrigin 1 (lit "in2");
          RFunc true 4096 32 0 (lit "fn0"); RInline 0 7 1 1 [(4100, 8)]; RLine 4096 4 7 1; RLine 4100 8 52 2; RLine 4108 20 7 1;
          RFunc true 8192 32 0 (lit "fn1"); RLine 8192 32 8 0;
          RFunc false 12288 32 0 (lit "fn2"); RInline 0 9 2 0 [(12290, 8)]; RLine 12288 2 9 2; RLine 12290 8 50 1; RLine 12298 22 9 2;
          RStack (lit "CFI INIT 10 20 x"); RStack (lit "CFI INIT 10 20 x")].
Proof.
  destruct C24_hypotheses as (Fa & Fb & _).
  assert (W1 : one_word (lit "x86_64")) by (split; vm_compute; intuition discriminate).
  assert (W2 : one_word (lit "AB12")) by (split; vm_compute; intuition discriminate).
  assert (W3 : one_line (lit "libx.so")) by (vm_compute; intuition discriminate).
  split; [|split].
  - apply (C31_fresh_writable (fun p => p)); [exact Fa| |apply names_check; vm_compute; reflexivity|vm_compute; reflexivity].
    eapply head_check; try (vm_compute; reflexivity); auto.
  - apply (C31_fresh_writable (fun p => p)); [exact Fb| |apply names_check; vm_compute; reflexivity|vm_compute; reflexivity].
    eapply (head_check ox_b _ _ _ (Some (lit "C0DE"))); try (vm_compute; reflexivity); auto.
    split; [vm_compute; intuition discriminate|]. exists (lit "C0D"), 69. split; reflexivity.
  - eexists _, _, _. split; [vm_compute; reflexivity|]. split; [vm_compute; reflexivity|]. split; [vm_compute; reflexivity|]. reflexivity.
Qed.

(** ** C33: names with line breaks *)
(** One line each if the name has no line break ... *)
Theorem C33_one_line_partial : forall n name s body, one_line name -> one_line (sy_name s) ->
  lines_of (fmt_file n name) = [lit "FILE " ++ dec n ++ [c_sp] ++ name] /\
  (sy_public s = true -> fmt_symbol s = Ok body -> exists l, lines_of body = [l]) /\
  (sy_public s = false -> fmt_symbol s = Ok body -> exists l rest, fmt_lines (sy_source s) = Ok rest /\ lines_of body = l :: lines_of rest).
Proof.
  intros n name s body L1 L2. split; [|split].
  - unfold fmt_file. rewrite !app_assoc. rewrite lines_one; [reflexivity|]. repeat apply one_line_app; auto; try lit_line. apply one_line_dec.
  - intros P H. unfold fmt_symbol in H. rewrite P in H. match type of H with Ok ?x = Ok _ => assert (Eb : body = x) by congruence end. rewrite Eb. clear H Eb. eexists.
    rewrite !app_assoc. rewrite lines_one; [reflexivity|]. fold (mark (sy_multiple s)). repeat apply one_line_app; auto using one_line_hex, one_line_mark; lit_line.
  - intros P H. unfold fmt_symbol in H. rewrite P in H. apply bind_ok in H as (rest & E & H). match type of H with Ok ?x = Ok _ => assert (Eb : body = x) by congruence end. rewrite Eb. clear H Eb. eexists _, rest. split; [exact E|].
    change ([c_nl] ++ rest) with (c_nl :: rest). rewrite !app_assoc. rewrite lines_one; [reflexivity|]. fold (mark (sy_multiple s)). repeat apply one_line_app; auto using one_line_hex, one_line_mark; lit_line.
Qed.
Print Assumptions C33_one_line_partial.
(** ... and in general one more line for every line break of the name: a record
    is one line exactly if its name is. *)
Theorem C33_line_count : forall n name s body,
  length (lines_of (fmt_file n name)) = S (breaks name) /\
  (sy_public s = true -> fmt_symbol s = Ok body -> length (lines_of body) = S (breaks (sy_name s))) /\
  (sy_public s = false -> fmt_symbol s = Ok body -> exists rest, fmt_lines (sy_source s) = Ok rest /\ length (lines_of body) = (S (breaks (sy_name s)) + length (lines_of rest))%nat).
Proof.
  intros n name s body. split; [|split].
  - unfold fmt_file. rewrite !app_assoc. rewrite lines_breaks, !breaks_app. rewrite (breaks_none (dec n)) by apply one_line_dec. reflexivity.
  - intros P H. unfold fmt_symbol in H. rewrite P in H. match type of H with Ok ?x = Ok _ => assert (Eb : body = x) by congruence end. rewrite Eb. clear H Eb.
    rewrite !app_assoc. rewrite lines_breaks. fold (mark (sy_multiple s)). rewrite !breaks_app. rewrite !(breaks_none (hex _)) by apply one_line_hex. rewrite (breaks_none (mark _)) by apply one_line_mark. reflexivity.
  - intros P H. unfold fmt_symbol in H. rewrite P in H. apply bind_ok in H as (rest & E & H). match type of H with Ok ?x = Ok _ => assert (Eb : body = x) by congruence end. rewrite Eb. clear H Eb.
    exists rest. split; [exact E|]. change ([c_nl] ++ rest) with (c_nl :: rest). rewrite !app_assoc. rewrite lines_app_nl, app_length, lines_breaks. fold (mark (sy_multiple s)). rewrite !breaks_app.
    rewrite !(breaks_none (hex _)) by apply one_line_hex. rewrite (breaks_none (mark _)) by apply one_line_mark. reflexivity.
Qed.
Print Assumptions C33_line_count.
Theorem C33_one_line_iff : forall n name, length (lines_of (fmt_file n name)) = 1%nat <-> one_line name.
Proof. intros n name. rewrite (proj1 (C33_line_count n name (mkSymbol [] true false false 0 0 0 lines_default) [])). split; [intros [= H]; now apply breaks_zero|intros H; now rewrite breaks_none]. Qed.
Print Assumptions C33_one_line_iff.
Example C33_ex_count : breaks (lit "f" ++ [c_nl] ++ lit "g") = 1%nat /\ length (lines_of (fmt_file 3 (lit "f" ++ [c_nl] ++ lit "g"))) = 2%nat.
Proof. vm_compute. auto. Qed.
(** ... but names are written as they are: a function name with a line break
    puts a record into the file that the object does not have. *)
Definition evil_name : str := lit "f" ++ [c_nl] ++ lit "PUBLIC 9999 0 evil".
Definition evil_obj : Obj := ox_get (ox_obj [Some (mkFun 4096 32 (cx_name evil_name) [cx_line 4096 32 7 0] [])] [] None true).
Theorem C33_injected_refuted : exists shown o text rs, fresh shown o /\ fmt_object [] o = Ok text /\ parse_file text = Some rs /\
  In (RPublic false 39321 0 (lit "evil")) rs /\ nfind 39321 (ob_syms o) = None.
Proof.
  exists (fun p => p), evil_obj. eexists _, _.
  split; [apply (ox_fresh [Some (mkFun 4096 32 (cx_name evil_name) [cx_line 4096 32 7 0] [])] [] None true); [consistent_tac|vm_compute; reflexivity]|].
  split; [vm_compute; reflexivity|]. split; [vm_compute; reflexivity|]. split; [vm_compute; tauto|vm_compute; reflexivity].
Qed.
Print Assumptions C33_injected_refuted.
(** The same for a public symbol and for a file name. *)
Definition evil_pub : Obj := ox_get (ox_obj [] [mkPub 8192 8 (Some evil_name)] None true).
Definition evil_file : Obj := ox_get (ox_obj [Some (mkFun 4096 32 (cx_name (lit "f")) [mkDLine 4096 (Some 32) 7 (mkFileRef 1 (lit "/b") 2 (lit "s") 3 (lit "a.c" ++ [c_nl] ++ lit "oops"))] [])] [] None true).
Theorem C33_public_and_file_refuted : exists shown o text rs o' text', fresh shown o /\ fmt_object [] o = Ok text /\ parse_file text = Some rs /\
  In (RPublic false 39321 0 (lit "evil")) rs /\ nfind 39321 (ob_syms o) = None /\
  fresh shown o' /\ fmt_object [] o' = Ok text' /\ parse_file text' = None.
Proof.
  exists (fun p => p), evil_pub. eexists _, _. exists evil_file. eexists.
  split; [apply (ox_fresh [] [mkPub 8192 8 (Some evil_name)] None true); [consistent_tac|vm_compute; reflexivity]|].
  split; [vm_compute; reflexivity|]. split; [vm_compute; reflexivity|]. split; [vm_compute; tauto|]. split; [vm_compute; reflexivity|].
  split; [apply (ox_fresh [Some (mkFun 4096 32 (cx_name (lit "f")) [mkDLine 4096 (Some 32) 7 (mkFileRef 1 (lit "/b") 2 (lit "s") 3 (lit "a.c" ++ [c_nl] ++ lit "oops"))] [])] [] None true); [consistent_tac|vm_compute; reflexivity]|].
  split; vm_compute; reflexivity.
Qed.
Print Assumptions C33_public_and_file_refuted.

(** ** C12: order of writing *)
(** After the head of the file comes one text per record, ascending; any names. *)
Theorem C12_written_ascending : forall extra o text, filed (ob_syms o) -> fmt_object extra o = Ok text ->
  exists head addrs texts, StronglySorted N.lt addrs /\ Forall2 begins_at addrs texts /\
    (forall a, In a addrs <-> exists s, nfind a (ob_syms o) = Some s) /\ text = head ++ concat texts ++ ob_stack o.
Proof. exact written_order. Qed.
Print Assumptions C12_written_ascending.
(** What a reader finds, for names without line breaks. *)
Theorem C12_read_ascending : forall extra ls o, filed (ob_syms o) -> writable ls o -> Forall one_line extra ->
  exists text rs, fmt_object extra o = Ok text /\ parse_file text = Some rs /\ StronglySorted N.lt (record_addresses rs) /\
    (forall a, In a (record_addresses rs) <-> exists s, nfind a (ob_syms o) = Some s).
Proof.
  intros extra ls o F W X. destruct (C31_parse_back extra ls o W X) as (t & rs & A & B & C). exists t, rs.
  rewrite (object_addresses _ _ _ _ C), (filed_addresses _ F). repeat split; auto; [now apply filed_ascending| |].
  - intros H. apply in_map_iff in H as ([k s] & <- & Hk). exists s. apply nfind_In; [exact (proj1 F)|exact Hk].
  - intros (s & Hs). apply nfind_In in Hs; [|exact (proj1 F)]. exact (in_map fst _ _ Hs).
Qed.
Print Assumptions C12_read_ascending.
Example C12_written_example : exists m text rs, merge_objects true (fun l => l) ox_a ox_b = Ok m /\ filed (ob_syms m) /\
  fmt_object [] m = Ok text /\ parse_file text = Some rs /\ record_addresses rs = [4096; 8192; 12288].
Proof.
  destruct C24_hypotheses as (Fa & Fb & _).
  destruct (merge_objects true (fun l => l) ox_a ox_b) as [m| |] eqn:E; [|exfalso; vm_compute in E; discriminate..].
  exists m. assert (F : filed (ob_syms m)).
  { apply (C12_merge_filed true (fun l => l) ox_a [ox_b] m); [exact (C12_fresh_filed _ _ Fa)|constructor; [exact (C12_fresh_filed _ _ Fb)|constructor]|].
    unfold merge_all. cbn [foldM]. rewrite E. reflexivity. }
  vm_compute in E. injection E as <-. eexists _, _. splits; [reflexivity|exact F|vm_compute; reflexivity|vm_compute; reflexivity|reflexivity].
Qed.
