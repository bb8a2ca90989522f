(** Theorems C44, C45 (directory) and C56: storing a module. *)
From Verif Require Import Base Str Utf8 M_Path S_Path P_Path M_Source M_Symbol M_Collector M_Object M_Fs S_Fs P_Fs M_Store S_Store P_Store T_Object.

(** ** C44 *)
(** Without CFI nothing at all is touched. *)
Theorem C44_no_cfi : forall os extra out o w, ob_stack o = [] -> store os extra out true o w = (w, Err "No CFI data").
Proof. intros os extra out o w E. unfold store. now rewrite E. Qed.
Print Assumptions C44_no_cfi.

(** Otherwise a successful run has put the complete text at each destination. *)
Theorem C44_complete : forall os extra out ck o w w' text, proper (ob_name o) -> proper (ob_debug_id o) -> healthy os -> fmt_object extra o = Ok text ->
  store os extra out ck o w = (w', Ok tt) -> delivered os text out o w w'.
Proof. exact store_complete. Qed.
Print Assumptions C44_complete.

(** It succeeds when the files can be created. *)
Theorem C44_succeeds : forall os extra out ck o w text, proper (ob_name o) -> proper (ob_debug_id o) -> healthy os -> (forall l, os_may os l = true) ->
  fmt_object extra o = Ok text -> (ck = true -> ob_stack o <> []) ->
  (forall l, file_target os out l -> room (w_fs w) l) ->
  (forall l, store_target os out o l -> room_below (w_fs w) l) ->
  (forall l t k, file_target os out l -> store_target os out o t -> t = k ++ l -> k = []) ->
  exists w', store os extra out ck o w = (w', Ok tt).
Proof. exact store_ok. Qed.
Print Assumptions C44_succeeds.

(** And only then: after a success no file is above the destination in the store
    and no directory in its place; the directory of the other destination is
    there, and was there before unless the store may have made it. *)
Theorem C44_needs_room : forall os extra out ck o w w', proper (ob_name o) -> proper (ob_debug_id o) -> tree (w_fs w) -> store os extra out ck o w = (w', Ok tt) ->
  (forall l, store_target os out o l -> room_below (w_fs w) l) /\
  (forall l, file_target os out l -> fs_get (w_fs w) l <> Some NDir /\
     exists n up, l = n :: up /\ fs_get (w_fs w') up = Some NDir /\ ((forall f dir, out <> OBoth f dir) -> fs_get (w_fs w) up = Some NDir)).
Proof. exact store_needs. Qed.
Print Assumptions C44_needs_room.

(** Whatever the outcome, only the destinations and directories above the one
    in the store change. *)
Theorem C44_nothing_else : forall os extra out ck o w w' r l, proper (ob_name o) -> proper (ob_debug_id o) -> store os extra out ck o w = (w', r) ->
  ~ file_target os out l -> ~ store_target os out o l ->
  fs_get (w_fs w') l = fs_get (w_fs w) l \/
  (fs_get (w_fs w) l = None /\ fs_get (w_fs w') l = Some NDir /\ exists t k, store_target os out o t /\ t = k ++ l /\ k <> []).
Proof. exact store_frame. Qed.
Print Assumptions C44_nothing_else.

(** Whatever the disk does: after a success each destination holds what the
    disk took of the text, and at most its last 8192 bytes are missing. *)
Theorem C44_kept : forall os extra out ck o w w' text l, proper (ob_name o) -> proper (ob_debug_id o) -> fmt_object extra o = Ok text ->
  store os extra out ck o w = (w', Ok tt) -> file_target os out l \/ store_target os out o l -> kept os text w' l.
Proof. exact store_kept. Qed.
Print Assumptions C44_kept.

(** On a full disk storing reports success for a text that is cut short. *)
Definition stx_text : str := match fmt_object [] ox_a with Ok t => t | _ => [] end.
Definition stx_os (disk : list N -> list N) : Os := mkOs [lit "work"] (fun _ => true) disk (fun d => map (fun _ => 1) d).
Definition stx_w : World := mkWorld [([lit "work"], NDir); ([lit "out"; lit "work"], NFile (lit "old"))] [] [].
Theorem C44_full_disk_refuted : exists os extra out o w w' text, proper (ob_name o) /\ proper (ob_debug_id o) /\ fmt_object extra o = Ok text /\
  store os extra out true o w = (w', Ok tt) /\ ~ delivered os text out o w w'.
Proof.
  exists (stx_os (fun d => firstn 5 d)), [], (OFile (FPath (lit "out"))), ox_a, stx_w. eexists. exists stx_text.
  assert (P : forall s, forallb (fun c => negb (c =? 47) && negb (c =? 46)) s = true -> s <> [] -> proper s).
  { intros s F N. rewrite forallb_forall in F. unfold proper. splits; [exact N| | |]; [intros ->|intros ->|intros I]; [specialize (F 46 (or_introl eq_refl))|specialize (F 46 (or_introl eq_refl))|specialize (F 47 I)]; discriminate. }
  splits; [unfold proper; splits; [vm_compute; discriminate..|vm_compute; intuition discriminate]|apply P; [vm_compute; reflexivity|vm_compute; discriminate]|
    vm_compute; reflexivity|vm_compute; reflexivity|].
  intros (H & _). vm_compute in H. discriminate.
Qed.
Print Assumptions C44_full_disk_refuted.

Example C44_ex_names : proper (ob_name ox_a) /\ proper (ob_debug_id ox_a) /\ ob_stack ox_a <> [] /\ healthy (stx_os (fun d => d)) /\ fmt_object [] ox_a = Ok stx_text.
Proof. unfold proper. splits; try (vm_compute; discriminate); vm_compute; intuition discriminate. Qed.
Example C44_ex_both : exists w', store (stx_os (fun d => d)) [] (OBoth (FPath (lit "out")) (lit "/s/t")) true ox_a stx_w = (w', Ok tt) /\
  fs_get (w_fs w') [lit "out"; lit "work"] = Some (NFile (encode stx_text)) /\
  fs_get (w_fs w') (map lit ["libx.so.sym"; "AB12"; "libx.so"; "t"; "s"]%string) = Some (NFile (encode stx_text)).
Proof. eexists. vm_compute. auto. Qed.
Example C44_ex_room : (forall l, file_target (stx_os (fun d => d)) (OBoth (FPath (lit "out")) (lit "/s/t")) l -> room (w_fs stx_w) l) /\
  (forall l, store_target (stx_os (fun d => d)) (OBoth (FPath (lit "out")) (lit "/s/t")) ox_a l -> room_below (w_fs stx_w) l).
Proof.
  split.
  - intros l E. cbn in E. subst l. exists (lit "out"), [lit "work"]. splits; [vm_compute; reflexivity|vm_compute; reflexivity|vm_compute; discriminate].
  - intros l (_ & S).
    assert (X : l = map lit ["libx.so.sym"; "AB12"; "libx.so"; "t"; "s"]%string).
    { apply (stored_unique (stx_os (fun d => d)) (lit "/s/t") ox_a); [apply C44_ex_names|exact S|].
      assert (E : map lit ["libx.so.sym"; "AB12"; "libx.so"; "t"; "s"]%string = locate [lit "work"] (path_push (lit "/s/t") (get_path_for_sym (ob_name ox_a) (ob_debug_id ox_a)))) by (vm_compute; reflexivity).
      rewrite E. apply (store_loc (stx_os (fun d => d)) (lit "/s/t") ox_a); [apply C44_ex_names|apply C44_ex_names|reflexivity]. }
    subst l. unfold room_below. splits; [discriminate|vm_compute; discriminate|]. intros k up d E K.
    do 5 (destruct k as [|? k]; [try easy; cbn in E; subst up; vm_compute; discriminate|injection E as _ E]). destruct k; cbn in E; subst; vm_compute; try discriminate.
Qed.
Lemma tree_check (fs : FS) : forallb (fun e => match fst e with [] => true | _ :: up => match fs_get fs up with Some NDir => true | _ => false end end) fs = true -> tree fs.
Proof.
  intros F n up x G. rewrite forallb_forall in F. assert (I : exists e, In e fs /\ fst e = n :: up).
  { clear F. unfold fs_get in G. destruct (afind loc_eqb (n :: up) fs) as [y|] eqn:A; [|discriminate]. clear G. induction fs as [|[k v] fs IH]; [discriminate|]. cbn [afind] in A.
    destruct (loc_eqb (n :: up) k) eqn:E; [apply loc_eqb_eq in E; subst; exists (n :: up, v); split; [now left|reflexivity]|]. destruct (IH A) as (e & I & J). exists e. split; [now right|exact J]. }
  destruct I as (e & I & J). specialize (F e I). cbn beta in F. destruct e as [e v]. cbn [fst] in *. subst e. destruct (fs_get fs up) as [[|]|]; try discriminate. reflexivity.
Qed.
Example C44_ex_tree : tree (w_fs stx_w).
Proof. apply tree_check. vm_compute. reflexivity. Qed.
Example C44_ex_in_the_way : exists m m', store (stx_os (fun d => d)) [] (OStore (lit "out/s")) false ox_a stx_w = (stx_w, Err m) /\ store (stx_os (fun d => d)) [] (OFile (FPath (lit "none/out"))) false ox_a stx_w = (stx_w, Panic m').
Proof. eexists _, _. split; vm_compute; reflexivity. Qed.
(** The same with a longer text; a loss before the last flush is noticed. *)
Definition stx_long : Obj := mkObj [] (mkSrcMap [] []) [] (lit "x") (lit "x86") (lit "1") None None (repeat 65 (N.to_nat 9000)) false Linux.
Example C44_ex_long : exists w', store (stx_os (fun d => firstn (N.to_nat 8192) d)) [] (OFile (FPath (lit "out"))) true stx_long stx_w = (w', Ok tt) /\
  match fs_get (w_fs w') [lit "out"; lit "work"] with Some (NFile d) => lenN d =? 8192 | _ => false end = true.
Proof. eexists. split; vm_compute; reflexivity. Qed.
Example C44_ex_noticed : match store (stx_os (fun d => firstn (N.to_nat 8191) d)) [] (OFile (FPath (lit "out"))) true stx_long stx_w with (_, Err m) => m | _ => ""%string end = "write"%string.
Proof. vm_compute. reflexivity. Qed.
Example C44_ex_stdout : store (stx_os (fun d => d)) [] (OBoth FStdout []) false ox_a stx_w = (mkWorld (w_fs stx_w) (encode stx_text) [], Ok tt).
Proof. vm_compute. reflexivity. Qed.
(** What is already on the standard streams stays; when the store fails nothing else is written. *)
Example C44_ex_append : store (stx_os (fun d => d)) [] (OFile FStdout) false ox_a (mkWorld [] (lit "o") (lit "e")) = (mkWorld [] (lit "o" ++ encode stx_text) (lit "e"), Ok tt) /\
  store (stx_os (fun d => d)) [] (OFile FStderr) false ox_a (mkWorld [] (lit "o") (lit "e")) = (mkWorld [] (lit "o") (lit "e" ++ encode stx_text), Ok tt).
Proof. vm_compute. auto. Qed.
Example C44_ex_store_fails : exists m, store (mkOs [lit "work"] (fun l => match l with [_] => false | _ => true end) (fun d => d) (fun _ => [])) [] (OBoth (FPath (lit "out")) (lit "/s")) false ox_a stx_w = (stx_w, Err m).
Proof. eexists. vm_compute. reflexivity. Qed.
Example C44_ex_no_cfi : store (stx_os (fun d => d)) [] (OBoth (FPath (lit "out")) (lit "/s")) true (mkObj [] (mkSrcMap [] []) [] (lit "x") [] (lit "1") None None [] false Linux) stx_w
  = (stx_w, Err "No CFI data").
Proof. vm_compute. reflexivity. Qed.

(** ** C45 *)
(** In the file system the module lies at DIR/BASE/ID/FILE.sym. *)
Theorem C45_directory : forall os dir o p, proper (ob_name o) -> proper (ob_debug_id o) -> sym_store_path dir o = Some p ->
  stored_at os dir o (locate (os_cwd os) p).
Proof. intros os dir o p Hn Hi P. now destruct (store_loc os dir o p Hn Hi P) as (_ & S & _). Qed.
Print Assumptions C45_directory.
Theorem C45_no_directory : forall dir o, sym_store_path dir o = None <-> dir = [].
Proof. intros dir o. unfold sym_store_path. destruct dir; split; congruence. Qed.
Print Assumptions C45_no_directory.
Example C45_ex_directory : exists p, sym_store_path (lit "s/./t") ox_a = Some p /\ locate [lit "work"] p = map lit ["libx.so.sym"; "AB12"; "libx.so"; "t"; "s"; "work"]%string.
Proof. eexists. vm_compute. auto. Qed.

(** ** C56 *)
(** A module whose name is a directory entry is stored below the directory. *)
Theorem C56_inside_partial : forall os extra dir o w w' r l, proper (ob_name o) -> proper (ob_debug_id o) ->
  store os extra (OStore dir) false o w = (w', r) -> fs_get (w_fs w') l <> fs_get (w_fs w) l ->
  (exists d, fs_get (w_fs w') l = Some (NFile d)) -> exists k, l = k ++ locate (os_cwd os) dir /\ length k = 3%nat.
Proof.
  intros os extra dir o w w' r l Hn Hi S D (d & F).
  assert (T : ~ ~ store_target os (OStore dir) o l).
  { intros NT. destruct (store_frame os extra (OStore dir) false o w w' r l Hn Hi S (fun x => x) NT) as [E|(_ & E & _)]; [contradiction|congruence]. }
  assert (G : dir <> []). { intros ->. apply T. intros (N & _). contradiction. }
  destruct (sym_store_path dir o) as [p|] eqn:P; [|apply C45_no_directory in P; contradiction].
  pose proof (C45_directory os dir o p Hn Hi P) as At.
  destruct (list_eq_dec str_eq_dec l (locate (os_cwd os) p)) as [->|N].
  - destruct At as (b & f & _ & _ & ->). now exists [f; ob_debug_id o; b].
  - exfalso. apply T. intros (_ & At'). apply N. now apply (stored_unique os dir o).
Qed.
Print Assumptions C56_inside_partial.

(** Full claim: every module. It fails for an ELF file that calls itself "..":
    its symbols are put outside of the store. *)
Definition stx_dots : Parsed := mkParsed (Some []) (lit "AB12") None (lit "x86_64") true false None [] 4096 [] (fun _ _ => None) true (lit "STACK CFI INIT 10 20 x")
  (BElf []) (Some (lit "..")).
Theorem C56_climbs_refuted : exists e main os dir w o w' l d, from_object e Linux main (lit "libx.so") None None = Ok o /\
  store os [] (OStore dir) false o w = (w', Ok tt) /\ fs_get (w_fs w) l = None /\ fs_get (w_fs w') l = Some (NFile d) /\
  (forall k, l <> k ++ locate (os_cwd os) dir).
Proof.
  exists (ox_env true (fun _ => Ok None)), stx_dots, (stx_os (fun d => d)), (lit "store"), stx_w. do 2 eexists.
  exists [lit "...sym"; lit "AB12"; lit "work"]. eexists.
  splits; [vm_compute; reflexivity|vm_compute; reflexivity|vm_compute; reflexivity|vm_compute; reflexivity|].
  intros k E. assert (L : locate (os_cwd (stx_os (fun d => d))) (lit "store") = [lit "store"; lit "work"]) by (vm_compute; reflexivity). rewrite L in E.
  apply (f_equal (@rev str)) in E. rewrite rev_app_distr in E. vm_compute in E. discriminate.
Qed.
Print Assumptions C56_climbs_refuted.
Example C56_ex : exists w', store (stx_os (fun d => d)) [] (OStore (lit "s")) false ox_a stx_w = (w', Ok tt) /\
  fs_get (w_fs w') (map lit ["libx.so.sym"; "AB12"; "libx.so"; "s"; "work"]%string) = Some (NFile (encode stx_text)).
Proof. eexists. vm_compute. auto. Qed.
(** No other names occur: those of modules have no slash. *)
Theorem C56_names : forall e platform main name pe pe_name o, from_object e platform main name pe pe_name = Ok o -> ~ In 47 (ob_name o).
Proof. exact from_object_name. Qed.
Print Assumptions C56_names.
Theorem C56_merged_names : forall ck iter a b o, merge_objects ck iter a b = Ok o -> ~ In 47 (ob_name a) -> ~ In 47 (ob_name b) -> ~ In 47 (ob_name o).
Proof. exact merge_name. Qed.
Print Assumptions C56_merged_names.
(** The three names that are no directory entries: the middle part of the place
    is missing for "" and ".", and with ".." the place is beside the directory. *)
Theorem C56_places : forall os extra dir o w w' r l d, proper (ob_debug_id o) -> ~ In 47 (ob_name o) -> store os extra (OStore dir) false o w = (w', r) ->
  fs_get (w_fs w') l = Some (NFile d) -> fs_get (w_fs w) l <> Some (NFile d) ->
  (proper (ob_name o) /\ stored_at os dir o l) \/
  (ob_name o = [] /\ l = lit ".sym" :: ob_debug_id o :: locate (os_cwd os) dir) \/
  (ob_name o = lit "." /\ l = lit "..sym" :: ob_debug_id o :: locate (os_cwd os) dir) \/
  (ob_name o = lit ".." /\ l = lit "...sym" :: ob_debug_id o :: tl (locate (os_cwd os) dir)).
Proof. exact store_any_name. Qed.
Print Assumptions C56_places.
(** So a module whose name is not ".." stays below the directory. *)
Theorem C56_below : forall os extra dir o w w' r l d, proper (ob_debug_id o) -> ~ In 47 (ob_name o) -> ob_name o <> lit ".." -> store os extra (OStore dir) false o w = (w', r) ->
  fs_get (w_fs w') l = Some (NFile d) -> fs_get (w_fs w) l <> Some (NFile d) -> exists k, l = k ++ locate (os_cwd os) dir /\ (2 <= length k <= 3)%nat.
Proof.
  intros os extra dir o w w' r l d Hi N D S F G.
  destruct (C56_places os extra dir o w w' r l d Hi N S F G) as [(_ & b & f & _ & _ & ->)|[(_ & ->)|[(_ & ->)|(X & _)]]]; [| | |contradiction].
  - exists [f; ob_debug_id o; b]. cbn. split; [reflexivity|lia].
  - exists [lit ".sym"; ob_debug_id o]. cbn [length]. split; [reflexivity|lia].
  - exists [lit "..sym"; ob_debug_id o]. cbn [length]. split; [reflexivity|lia].
Qed.
Print Assumptions C56_below.
Definition stx_named (n : str) : Obj := mkObj [] (mkSrcMap [] []) [] n (lit "x86") (lit "AB12") None None (lit "STACK") false Linux.
Example C56_ex_names : forallb (fun nl => match store (stx_os (fun d => d)) [] (OStore (lit "s")) false (stx_named (lit (fst nl))) stx_w with
  | (w', Ok _) => match fs_get (w_fs w') (map lit (snd nl)) with Some (NFile _) => true | _ => false end | _ => false end)
  [(""%string, [".sym"; "AB12"; "s"; "work"]%string); ("."%string, ["..sym"; "AB12"; "s"; "work"]%string);
   (".."%string, ["...sym"; "AB12"; "work"]%string); ("x.pdb"%string, ["x.sym"; "AB12"; "x.pdb"; "s"; "work"]%string)] = true.
Proof. vm_compute. reflexivity. Qed.
