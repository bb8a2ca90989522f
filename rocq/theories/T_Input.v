(** Theorems C51-C53 and C57-C61: from the input file to the module. *)
From Verif Require Import Base Str Utf8 M_Path S_Path P_Path M_Source M_Symbol M_Collector M_Object M_Fs S_Fs P_Fs M_Cache S_Cache P_Cache M_Store S_Store P_Store
  M_Input S_Input P_Input T_Object.

(** Examples: the first byte tells the format, the number of bytes is the debug id. *)
Definition ix_obj (id : str) : Parsed :=
  mkParsed (Some ox_a_fs) id (Some (lit "c0de")) (lit "x86_64") true false None [mkPub 8192 0 (Some (lit "pub"))] 4096 [] (fun _ _ => None) true
    (lit "STACK CFI INIT 10 20 x" ++ [c_nl]) BOther None.
Definition ix_ps : Parsers := mkParsers
  (fun d => match d with 69 :: _ => FmtElf | 68 :: _ => FmtPdb | 80 :: _ => FmtPe | 77 :: _ => FmtMachO | _ => FmtOther end)
  (fun d => match d with 69 :: t => Some (ix_obj t) | _ => None end)
  (fun d => match d with 80 :: t => Some (mkPeFile (lenN d) (Some (lit "C:\b\x.pdb")) (ix_obj t)) | _ => None end)
  (fun d => match d with 68 :: t => Some (mkPdbFile (lenN d) (ix_obj t)) | _ => None end)
  (fun d => match d with
    | [77; 49] => Some [Some (7, ix_obj (lit "A"))]
    | [77; 48] => Some [None]
    | [77; 50] => Some [Some (1, ix_obj (lit "A")); None; Some (2, ix_obj (lit "B")); Some (2, ix_obj (lit "C"))]
    | _ => None end).
Definition ix_cab (d : list N) : option Cab := match d with 67 :: t => Some [(lit "x.dll", Some t); (lit "x.pdb", Some t)] | _ => None end.
Definition ix_os : Os := mkOs [lit "w"; lit "home"] (fun _ => true) (fun d => d) (fun _ => []).
Definition ix : Ext := mkExt ix_ps (M_Cache.mkCEnv ix_os ix_cab (fun _ => true)) (mkNet (fun _ => None) (fun _ => None)) (fun l => l) None.
Definition ix_env : RunEnv := ox_env true (fun _ => Ok None).
Lemma ix_proper s : forallb (fun c => negb (c =? 47)) s = true -> (2 < length s)%nat -> proper s.
Proof.
  intros F L. rewrite forallb_forall in F. unfold proper. splits; [intros ->; cbn in L; lia|intros ->; cbn in L; lia|intros ->; cbn in L; lia|].
  intros I. specialize (F 47 I). discriminate.
Qed.
Lemma no_file_dec fs l : match fs_get fs l with Some (NFile _) => false | _ => true end = true -> no_file fs l.
Proof. unfold no_file. destruct (fs_get fs l) as [[d|]|]; try discriminate; intros _ d'; discriminate. Qed.

(** ** C51 *)
Theorem C51_chosen : forall ps e buf name arch objs p, ps_archive ps buf = Some objs -> chosen arch objs p ->
  from_macho ps e buf name arch = from_object e Mac p name None None.
Proof. intros ps e buf name arch objs p A C. unfold from_macho. now rewrite A, (select_chosen _ _ _ C). Qed.
Print Assumptions C51_chosen.
(** Conversely only that object is ever dumped. *)
Theorem C51_only : forall ps e buf name arch o, from_macho ps e buf name arch = Ok o ->
  exists objs p, ps_archive ps buf = Some objs /\ chosen arch objs p /\ from_object e Mac p name None None = Ok o.
Proof.
  intros ps e buf name arch o. unfold from_macho. destruct (ps_archive ps buf) as [objs|]; [|discriminate].
  destruct (select_object objs arch) as [[p|]|m|m] eqn:S; cbn [bind]; try discriminate. intros F. exists objs, p. splits; auto. now apply select_ok.
Qed.
Print Assumptions C51_only.
(** An error if there is none, unless the only object is unreadable. *)
Theorem C51_none_partial : forall ps e buf name arch objs, ps_archive ps buf = Some objs -> objs <> [None] -> (forall p, ~ chosen arch objs p) ->
  exists m, from_macho ps e buf name arch = Err m.
Proof.
  intros ps e buf name arch objs A N C. unfold from_macho. rewrite A. destruct (select_total objs arch N) as [(p & H)|H]; [now elim (C p)|].
  rewrite H. cbn [bind]. eauto.
Qed.
Print Assumptions C51_none_partial.
(** A file whose only object cannot be read makes the program panic. *)
Theorem C51_unreadable : forall ps e buf name arch, ps_archive ps buf = Some [None] -> is_panic (from_macho ps e buf name arch) = true.
Proof. intros ps e buf name arch A. unfold from_macho. rewrite A. reflexivity. Qed.
Print Assumptions C51_unreadable.
Theorem C51_unreadable_refuted : exists ps e buf name arch objs, ps_archive ps buf = Some objs /\ (forall p, ~ chosen arch objs p) /\
  is_panic (from_macho ps e buf name arch) = true.
Proof.
  exists ix_ps, ix_env, (lit "M0"), (lit "x"), 2, [None]. splits; [reflexivity| |reflexivity]. intros p H. inversion H as [|l1 l2 q N K E].
  destruct l1 as [|y [|z l1]]; discriminate.
Qed.
Print Assumptions C51_unreadable_refuted.
Example C51_ex_only : exists o, from_macho ix_ps ix_env (lit "M1") (lit "x") 2 = Ok o /\ ob_debug_id o = lit "A".
Proof. eexists. vm_compute. auto. Qed.
Example C51_ex_first : chosen 2 [Some (1, ix_obj (lit "A")); None; Some (2, ix_obj (lit "B")); Some (2, ix_obj (lit "C"))] (ix_obj (lit "B")) /\
  exists o, from_macho ix_ps ix_env (lit "M2") (lit "x") 2 = Ok o /\ ob_debug_id o = lit "B".
Proof.
  split; [|eexists; vm_compute; auto].
  apply (ch_first 2 [Some (1, ix_obj (lit "A")); None] [Some (2, ix_obj (lit "C"))]); [discriminate|]. intros q [H|[H|[]]]; discriminate.
Qed.
Example C51_ex_none : exists m, from_macho ix_ps ix_env (lit "M2") (lit "x") 3 = Err m.
Proof. eexists. vm_compute. reflexivity. Qed.

(** ** C52 *)
(** The first match in the order dll, dl_, exe, ex_ is returned ... *)
Theorem C52_found : forall os cab ps fs dir n stem before ext rep after id d, proper n -> stem_of n stem -> pe_exts = before ++ (ext, rep) :: after ->
  Forall (fun p => no_pe cab ps fs (locate (os_cwd os) dir) (stem ++ lit "." ++ fst p) id) before ->
  is_pe cab ps fs (locate (os_cwd os) dir) (stem ++ lit "." ++ ext) id d ->
  find_pe_for_pdb os cab ps fs (path_push dir n) id = Ok (Some (stem ++ lit "." ++ rep, d)).
Proof. exact find_pe_found. Qed.
Print Assumptions C52_found.
(** ... and nothing else ever is. *)
Theorem C52_sound : forall os cab ps fs dir n stem id name d, proper n -> stem_of n stem ->
  find_pe_for_pdb os cab ps fs (path_push dir n) id = Ok (Some (name, d)) ->
  exists before ext rep after, pe_exts = before ++ (ext, rep) :: after /\ name = stem ++ lit "." ++ rep /\
    is_pe cab ps fs (locate (os_cwd os) dir) (stem ++ lit "." ++ ext) id d /\
    Forall (fun p => no_pe cab ps fs (locate (os_cwd os) dir) (stem ++ lit "." ++ fst p) id) before.
Proof. exact find_pe_sound. Qed.
Print Assumptions C52_sound.
Theorem C52_none : forall os cab ps fs dir n stem id, proper n -> stem_of n stem ->
  Forall (fun p => no_pe cab ps fs (locate (os_cwd os) dir) (stem ++ lit "." ++ fst p) id) pe_exts ->
  find_pe_for_pdb os cab ps fs (path_push dir n) id = Ok None.
Proof. exact find_pe_none. Qed.
Print Assumptions C52_none.
(** The dump gets a parsed PE with the debug id of the PDB, or none. *)
Theorem C52_dump : forall x e fs buf dir n filename pdb, proper n -> ps_pdb (ex_ps x) buf = Some pdb ->
  get_pdb_object_info x e fs buf (path_push dir n) filename = from_object e Win (pd_obj pdb) filename None None \/
  (exists pe pe_name, pf_id pe = pd_id pdb /\
    get_pdb_object_info x e fs buf (path_push dir n) filename = from_object e Win (pd_obj pdb) filename (Some (pf_obj pe)) (Some pe_name)) \/
  is_panic (find_pe_for_pdb (ex_os x) (ex_cab x) (ex_ps x) fs (path_push dir n) (pd_id pdb)) = true.
Proof.
  intros x e fs buf dir n filename pdb Hn P. unfold get_pdb_object_info. rewrite P.
  assert (S : exists stem, stem_of n stem).
  { destruct (path_extension n) as [ext|] eqn:X.
    - apply (extension_single n ext Hn) in X. destruct X as (stem & Hs & E & He). exists stem. left. exists ext. splits; auto.
    - exists n. right. split; [reflexivity|]. intros a ext E. destruct a as [|c a]; [reflexivity|exfalso].
      assert (Q : exists a' e', n = a' ++ 46 :: e' /\ a' <> [] /\ ~ In 46 e').
      { clear X Hn. subst n. revert c a. induction ext as [|h ext IH] using rev_ind; intros c a.
        - exists (c :: a), []. splits; auto; discriminate.
        - destruct (N.eq_dec h 46) as [->|Nh].
          + exists ((c :: a) ++ 46 :: ext), []. splits; [now rewrite <- app_assoc|discriminate|intros []].
          + destruct (IH c a) as (a' & e' & E' & A & K). exists a', (e' ++ [h]). splits; [|exact A|intros I; apply in_app_or in I; destruct I as [I|[I|[]]]; congruence].
            change ((c :: a) ++ 46 :: ext ++ [h]) with ((c :: a) ++ (46 :: ext) ++ [h]). rewrite app_assoc, E', <- app_assoc. reflexivity. }
      destruct Q as (a' & e' & E' & A & K). assert (Y : path_extension n = Some e') by (apply (extension_single n e' Hn); eauto). congruence. }
  destruct S as (stem & S).
  destruct (find_pe_for_pdb (ex_os x) (ex_cab x) (ex_ps x) fs (path_push dir n) (pd_id pdb)) as [[[name d]|]|m|m] eqn:F; cbn [bind].
  - right. left. destruct (find_pe_sound _ _ _ _ _ _ _ _ _ _ Hn S F) as (b & x1 & r & a & _ & _ & (_ & pe & Pe & I) & _). rewrite Pe. exists pe, name. auto.
  - now left.
  - exfalso. revert F. destruct (scan_cases (ex_os x) (ex_cab x) (ex_ps x) fs dir stem (pd_id pdb) pe_exts (exts_proper n stem Hn S)) as [Q|(b & x1 & r & a & E & Q & [(d' & K)|(K & K')])]; intros F.
    + rewrite (find_pe_none _ _ _ _ _ _ _ _ Hn S Q) in F. discriminate.
    + rewrite (find_pe_found _ _ _ _ _ _ _ _ _ _ _ _ _ Hn S E Q K) in F. discriminate.
    + pose proof (find_pe_unreadable _ _ _ _ _ _ _ _ _ _ _ _ Hn S E Q K K') as Z. rewrite F in Z. discriminate.
  - right. right. reflexivity.
Qed.
Print Assumptions C52_dump.
(** A candidate that is a damaged archive is not passed over: the program panics. *)
Theorem C52_damaged_panics : forall os cab ps fs dir n stem before ext rep after id, proper n -> stem_of n stem -> pe_exts = before ++ (ext, rep) :: after ->
  Forall (fun p => no_pe cab ps fs (locate (os_cwd os) dir) (stem ++ lit "." ++ fst p) id) before ->
  ~ no_file fs ((stem ++ lit "." ++ ext) :: locate (os_cwd os) dir) ->
  (forall d, ~ content cab fs ((stem ++ lit "." ++ ext) :: locate (os_cwd os) dir) (stem ++ lit "." ++ ext) d) ->
  is_panic (find_pe_for_pdb os cab ps fs (path_push dir n) id) = true.
Proof. exact find_pe_unreadable. Qed.
Print Assumptions C52_damaged_panics.

Definition ix_pe_fs : FS := [([lit "d"], NDir); ([lit "x.dll"; lit "d"], NFile (lit "P")); ([lit "x.dl_"; lit "d"], NFile (lit "CPP")); ([lit "x.exe"; lit "d"], NFile (lit "PP"))].
Example C52_ex_found : proper (lit "x.pdb") /\ stem_of (lit "x.pdb") (lit "x") /\
  Forall (fun p => no_pe ix_cab ix_ps ix_pe_fs [lit "d"] (lit "x" ++ lit "." ++ fst p) 2) [(lit "dll", lit "dll")] /\
  is_pe ix_cab ix_ps ix_pe_fs [lit "d"] (lit "x" ++ lit "." ++ lit "dl_") 2 (lit "PP") /\
  find_pe_for_pdb ix_os ix_cab ix_ps ix_pe_fs (path_push (lit "/d") (lit "x.pdb")) 2 = Ok (Some (lit "x.dll", lit "PP")).
Proof.
  splits.
  - apply ix_proper; [reflexivity|cbn; lia].
  - left. exists (lit "pdb"). splits; [reflexivity|discriminate|cbn; intuition discriminate].
  - constructor; [|constructor]. right. exists (lit "P"). split; [exists (lit "P"); split; [reflexivity|left; split; reflexivity]|]. intros pe [= <-]. cbn. discriminate.
  - split; [exists (lit "CPP"); split; [reflexivity|apply cabinet_spec; [apply ix_proper; [reflexivity|cbn; lia]|vm_compute; reflexivity]]|]. eexists. split; reflexivity.
  - vm_compute. reflexivity.
Qed.
Example C52_ex_none : find_pe_for_pdb ix_os ix_cab ix_ps ix_pe_fs (path_push (lit "/d") (lit "x.pdb")) 3 = Ok None /\
  find_pe_for_pdb ix_os ix_cab ix_ps ix_pe_fs (path_push (lit "/d") (lit "x.pdb")) 1 = Ok (Some (lit "x.dll", lit "P")).
Proof. vm_compute. auto. Qed.
(** A file that is no PE is passed over. *)
Example C52_ex_no_pe : find_pe_for_pdb ix_os ix_cab ix_ps [([lit "x.dll"; lit "d"], NFile (lit "?")); ([lit "x.exe"; lit "d"], NFile (lit "PP"))] (path_push (lit "/d") (lit "x.pdb")) 2
  = Ok (Some (lit "x.exe", lit "PP")).
Proof. vm_compute. reflexivity. Qed.
Example C52_ex_damaged : is_panic (find_pe_for_pdb ix_os ix_cab ix_ps [([lit "y.dl_"; lit "d"], NFile (lit "CPP")); ([lit "y.exe"; lit "d"], NFile (lit "PP"))] (path_push (lit "/d") (lit "y.pdb")) 2) = true.
Proof. vm_compute. reflexivity. Qed.
Example C52_ex_dump : exists o, get_pdb_object_info ix ix_env ix_pe_fs (lit "DD") (lit "/d/x.pdb") (lit "x.pdb") = Ok o /\ ob_pe_name o = Some (lit "x.dll").
Proof. eexists. vm_compute. auto. Qed.

(** ** C53 *)
(** The first of the places where there is a file gives the PDB, unchecked. *)
Theorem C53_local : forall x fs dir pe_name buf servers pe recorded r n stem l name d, proper pe_name -> Forall proper (os_cwd (ex_os x)) ->
  ps_pe (ex_ps x) buf = Some pe -> pf_pdb pe = Some recorded -> slashed_path recorded r -> last_name r n -> stem_of n stem ->
  first_file fs (pdb_places (os_cwd (ex_os x)) (locate (os_cwd (ex_os x)) dir) r n (stem ++ lit ".pd_")) l name ->
  content (ex_cab x) fs l name d ->
  get_pe_pdb_buf x fs (path_push dir pe_name) buf servers = Ok (Some (pe, d, n), fs).
Proof. exact pe_pdb_local. Qed.
Print Assumptions C53_local.
(** Otherwise the caches and servers are asked, under the debug id of the PE. *)
Theorem C53_servers : forall x fs dir pe_name buf servers pe recorded r n stem, proper pe_name -> Forall proper (os_cwd (ex_os x)) ->
  ps_pe (ex_ps x) buf = Some pe -> pf_pdb pe = Some recorded -> slashed_path recorded r -> last_name r n -> stem_of n stem ->
  Forall (fun p => no_file fs (fst p)) (pdb_places (os_cwd (ex_os x)) (locate (os_cwd (ex_os x)) dir) r n (stem ++ lit ".pd_")) ->
  get_pe_pdb_buf x fs (path_push dir pe_name) buf servers =
  match search_file (ex_env x) (ex_net x) (ex_sched x) fs n (pa_debug_id (pf_obj pe)) servers with
  | Ok l => Ok (match lk_data l with Some d => Some (pe, d, n) | None => None end, lk_fs l)
  | Err m => Err m
  | Panic m => Panic m
  end.
Proof. exact pe_pdb_servers. Qed.
Print Assumptions C53_servers.
Theorem C53_no_name : forall x fs path buf servers pe recorded r, ps_pe (ex_ps x) buf = Some pe ->
  pf_pdb pe = None \/ (pf_pdb pe = Some recorded /\ slashed_path recorded r /\ nameless r) ->
  get_pe_pdb_buf x fs path buf servers = Ok (None, fs).
Proof.
  intros x fs path buf servers pe recorded r P [R|(R & S & N)]; [unfold get_pe_pdb_buf; now rewrite P, R|exact (pe_pdb_nameless x fs path buf servers pe recorded r P R S N)].
Qed.
Print Assumptions C53_no_name.
(** A file there that is a damaged archive makes the program panic. *)
Theorem C53_damaged_panics : forall x fs dir pe_name buf servers pe recorded r n stem l name, proper pe_name -> Forall proper (os_cwd (ex_os x)) ->
  ps_pe (ex_ps x) buf = Some pe -> pf_pdb pe = Some recorded -> slashed_path recorded r -> last_name r n -> stem_of n stem ->
  first_file fs (pdb_places (os_cwd (ex_os x)) (locate (os_cwd (ex_os x)) dir) r n (stem ++ lit ".pd_")) l name ->
  (forall d, ~ content (ex_cab x) fs l name d) ->
  is_panic (get_pe_pdb_buf x fs (path_push dir pe_name) buf servers) = true.
Proof. exact pe_pdb_unreadable. Qed.
Print Assumptions C53_damaged_panics.
(** The working directory itself is not searched, although the comment in the
    program (windows/utils.rs:25) says so. *)
Theorem C53_working_directory_refuted : exists x fs path buf pe recorded n raw, ps_pe (ex_ps x) buf = Some pe /\ pf_pdb pe = Some recorded /\
  after_backslash recorded n /\ fs_get fs (n :: os_cwd (ex_os x)) = Some (NFile raw) /\ get_pe_pdb_buf x fs path buf None = Ok (None, fs).
Proof.
  exists ix, [([lit "x.pdb"; lit "w"; lit "home"], NFile (lit "DD"))], (lit "/d/x.dll"), (lit "PP"). eexists _, _, (lit "x.pdb"), _. splits; try reflexivity.
  split; [cbn; intuition discriminate|]. right. exists (lit "C:\b"). reflexivity.
Qed.
Print Assumptions C53_working_directory_refuted.
Definition ix_pdb_fs : FS := [([lit "d"], NDir); ([lit "x.pd_"; lit "d"], NFile (lit "CDD")); ([lit "x.pdb"; lit "home"], NFile (lit "DDD"))].
Example C53_ex_local : proper (lit "x.dll") /\ Forall proper (os_cwd ix_os) /\ slashed_path (lit "C:\b\x.pdb") (lit "C:/b/x.pdb") /\
  last_name (lit "C:/b/x.pdb") (lit "x.pdb") /\ stem_of (lit "x.pdb") (lit "x") /\
  first_file ix_pdb_fs (pdb_places (os_cwd ix_os) [lit "d"] (lit "C:/b/x.pdb") (lit "x.pdb") (lit "x" ++ lit ".pd_")) [lit "x.pd_"; lit "d"] (lit "x.pd_") /\
  content ix_cab ix_pdb_fs [lit "x.pd_"; lit "d"] (lit "x.pd_") (lit "DD") /\
  get_pe_pdb_buf ix ix_pdb_fs (path_push (lit "/d") (lit "x.dll")) (lit "PP") None
    = Ok (Some (mkPeFile 2 (Some (lit "C:\b\x.pdb")) (ix_obj (lit "P")), lit "DD", lit "x.pdb"), ix_pdb_fs).
Proof.
  splits.
  - apply ix_proper; [reflexivity|cbn; lia].
  - assert (P : forall s, forallb (fun c => negb (c =? 47) && negb (c =? 46)) s = true -> s <> [] -> proper s).
    { intros s F N. rewrite forallb_forall in F. unfold proper. splits; [exact N| | |]; [intros ->|intros ->|intros I]; [specialize (F 46 (or_introl eq_refl))|specialize (F 46 (or_introl eq_refl))|specialize (F 47 I)]; discriminate. }
    repeat constructor; cbn; try discriminate; intuition discriminate.
  - apply slashed_unix. reflexivity.
  - split; [apply ix_proper; [reflexivity|cbn; lia]|]. right. exists (lit "C:/b"). reflexivity.
  - left. exists (lit "pdb"). splits; [reflexivity|discriminate|cbn; intuition discriminate].
  - exists [(locate (os_cwd ix_os) (lit "C:/b/x.pdb"), lit "x.pdb"); ([lit "x.pdb"; lit "d"], lit "x.pdb")], [([lit "x.pdb"; lit "home"], lit "x.pdb")].
    split; [reflexivity|]. split; [repeat constructor; apply no_file_dec; vm_compute; reflexivity|]. intros N. now apply (N (lit "CDD")).
  - exists (lit "CDD"). split; [reflexivity|apply cabinet_spec; [apply ix_proper; [reflexivity|cbn; lia]|vm_compute; reflexivity]].
  - vm_compute. reflexivity.
Qed.
(** The order of the places: the recorded path, next to the PE, there in an
    archive, beside the working directory, and then the servers. *)
Definition ix_places : list (Loc * Node) :=
  [(map lit ["x.pdb"; "b"; "C:"; "w"; "home"]%string, NFile (lit "D1")); ([lit "x.pdb"; lit "d"], NFile (lit "D2"));
   ([lit "x.pd_"; lit "d"], NFile (lit "CD3")); ([lit "x.pdb"; lit "home"], NFile (lit "D4"))].
Definition ix_net1 : Net := mkNet (fun u => if str_eqb u (lit "https://s/x.pdb/PID/x.pdb") then Some 200 else Some 404) (fun _ => Some (lit "D5")).
Definition ix1 : Ext := mkExt ix_ps (M_Cache.mkCEnv ix_os ix_cab (fun _ => true)) ix_net1 (fun l => l) None.
Definition ix_got (fs : FS) := match get_pe_pdb_buf ix1 fs (lit "/d/x.dll") (lit "PPID") (Some (parse_sympath None (lit "srv*https://s"))) with
  | Ok (Some (_, d, n), _) => Some (d, n) | _ => None end.
Example C53_ex_order : map (fun k => ix_got (skipn k ix_places)) [0; 1; 2; 3; 4]%nat =
  [Some (lit "D1", lit "x.pdb"); Some (lit "D2", lit "x.pdb"); Some (lit "D3", lit "x.pdb"); Some (lit "D4", lit "x.pdb"); Some (lit "D5", lit "x.pdb")].
Proof. vm_compute. reflexivity. Qed.
Example C53_ex_nameless : slashed_path (lit "..\") (lit "../") /\ nameless (lit "../").
Proof. split; [apply slashed_unix; reflexivity|]. intros p H. vm_compute in H. destruct H as [<-|[<-|[]]]; [right; right; reflexivity|left; reflexivity]. Qed.

(** ** C57: the format decides *)
Theorem C57_elf : forall x e fs buf path name arch sv o, ps_peek (ex_ps x) buf = FmtElf -> ps_object (ex_ps x) buf = Some o ->
  get_object_info x e fs buf path name arch sv = (fs, from_object e Linux o name None None).
Proof. intros x e fs buf path name arch sv o F P. unfold get_object_info, from_elf. now rewrite F, P. Qed.
Print Assumptions C57_elf.
Theorem C57_macho : forall x e fs buf path name arch sv, ps_peek (ex_ps x) buf = FmtMachO ->
  get_object_info x e fs buf path name arch sv = (fs, from_macho (ex_ps x) e buf name arch).
Proof. intros x e fs buf path name arch sv F. unfold get_object_info. now rewrite F. Qed.
Print Assumptions C57_macho.
Theorem C57_pdb : forall x e fs buf path name arch sv, ps_peek (ex_ps x) buf = FmtPdb ->
  get_object_info x e fs buf path name arch sv = (fs, get_pdb_object_info x e fs buf path name).
Proof. intros x e fs buf path name arch sv F. unfold get_object_info. now rewrite F. Qed.
Print Assumptions C57_pdb.
(** A PE with a usable PDB is dumped from the PDB ... *)
Theorem C57_pe_with_pdb : forall x e fs buf path name arch sv servers pe d n fs' pdb o, ps_peek (ex_ps x) buf = FmtPe ->
  get_sym_servers (ex_os x) fs (ex_home x) sv = Ok servers -> get_pe_pdb_buf x fs path buf servers = Ok (Some (pe, d, n), fs') -> ps_pdb (ex_ps x) d = Some pdb ->
  from_object e Win (pd_obj pdb) n (Some (pf_obj pe)) (Some name) = Ok o ->
  get_object_info x e fs buf path name arch sv = (fs', Ok o).
Proof.
  intros x e fs buf path name arch sv servers pe d n fs' pdb o F Sv G P O. unfold get_object_info, get_pe_pdb_object_info. rewrite F, Sv. cbn [bind]. rewrite G, P. unfold from_pdb. cbn [option_map]. now rewrite O.
Qed.
Print Assumptions C57_pe_with_pdb.
(** ... and from the PE itself when there is none, it is damaged or it cannot be
    dumped; the module then has the name recorded in the PE. *)
Theorem C57_pe_alone : forall x e fs buf path name arch sv servers pe found fs' base, ps_peek (ex_ps x) buf = FmtPe -> ps_pe (ex_ps x) buf = Some pe ->
  get_sym_servers (ex_os x) fs (ex_home x) sv = Ok servers -> get_pe_pdb_buf x fs path buf servers = Ok (found, fs') ->
  (forall q d n, found = Some (q, d, n) -> forall pdb, ps_pdb (ex_ps x) d = Some pdb -> exists m, from_object e Win (pd_obj pdb) n (Some (pf_obj q)) (Some name) = Err m) ->
  after_backslash (match pf_pdb pe with Some r => r | None => name end) base ->
  get_object_info x e fs buf path name arch sv =
  (fs', from_object (mkRunEnv (re_ck e) (re_host e) (re_canon e) (fun _ => Ok None) (re_dm e) false (re_sort e)) Win (pf_obj pe) base None (Some name)).
Proof.
  intros x e fs buf path name arch sv servers pe found fs' base F P Sv G N B. rewrite (after_backslash_unique _ _ _ B (after_backslash_spec _)).
  unfold get_object_info, get_pe_pdb_object_info, get_pe_object_info. rewrite F, Sv. cbn [bind]. rewrite G, P.
  destruct found as [[[q d] n]|]; [|reflexivity]. destruct (ps_pdb (ex_ps x) d) as [pdb|] eqn:D; [|reflexivity].
  destruct (N q d n eq_refl pdb D) as (m & E). unfold from_pdb. cbn [option_map]. now rewrite E.
Qed.
Print Assumptions C57_pe_alone.
Theorem C57_unknown : forall x e fs buf path name arch sv, ps_peek (ex_ps x) buf = FmtOther ->
  exists m, get_object_info x e fs buf path name arch sv = (fs, Err m).
Proof. intros x e fs buf path name arch sv F. unfold get_object_info. rewrite F. eauto. Qed.
Print Assumptions C57_unknown.
(** A file that only looks like a PE ends the program. *)
Theorem C57_broken_pe : forall x e fs buf path name arch sv, ps_peek (ex_ps x) buf = FmtPe -> ps_pe (ex_ps x) buf = None ->
  ~ broken_config (ex_os x) fs (ex_home x) sv -> exists m, get_object_info x e fs buf path name arch sv = (fs, Panic m) /\ get_pe_object_info x e buf name = Panic m.
Proof.
  intros x e fs buf path name arch sv F P B. destruct (P_Cache.servers_broken (ex_os x) fs (ex_home x) sv) as [Bp Be]. unfold get_object_info, get_pe_pdb_object_info, get_pe_pdb_buf, get_pe_object_info. rewrite F, P.
  destruct (get_sym_servers _ _ _ _) as [l|m|m]; cbn [bind]; [eauto|now elim (Be m)|]. elim B. now apply Bp.
Qed.
Print Assumptions C57_broken_pe.
(** So does any PE file when the configuration file cannot be read, be its PDB
    beside it or not. *)
Theorem C57_broken_config : forall x e fs buf path name arch sv, ps_peek (ex_ps x) buf = FmtPe -> broken_config (ex_os x) fs (ex_home x) sv ->
  exists m, get_object_info x e fs buf path name arch sv = (fs, Panic m).
Proof.
  intros x e fs buf path name arch sv F B. apply P_Cache.servers_broken in B. unfold get_object_info, get_pe_pdb_object_info. rewrite F.
  destruct (get_sym_servers _ _ _ _) as [l|m|m]; [discriminate|discriminate|]. cbn [bind]. eauto.
Qed.
Print Assumptions C57_broken_config.
(** The debug id of the module need not be that of the PE: a PDB of another
    build found next to it is used. *)
Theorem C57_other_build_refuted : exists x e fs buf path name arch sv pe o fs', ps_peek (ex_ps x) buf = FmtPe /\ ps_pe (ex_ps x) buf = Some pe /\
  get_object_info x e fs buf path name arch sv = (fs', Ok o) /\ ob_debug_id o <> pa_debug_id (pf_obj pe).
Proof.
  exists ix, ix_env, ix_pdb_fs, (lit "PPP"), (lit "/d/x.dll"), (lit "x.dll"), 1, None. eexists _, _, _.
  splits; [reflexivity|reflexivity|vm_compute; reflexivity|vm_compute; discriminate].
Qed.
Print Assumptions C57_other_build_refuted.
Definition ix_broken : Ext := mkExt (mkParsers (ps_peek ix_ps) (ps_object ix_ps) (fun _ => None) (ps_pdb ix_ps) (ps_archive ix_ps)) (ex_env ix) (ex_net ix) (ex_sched ix) None.
Example C57_ex_broken : ps_peek (ex_ps ix_broken) (lit "PP") = FmtPe /\ ps_pe (ex_ps ix_broken) (lit "PP") = None /\
  is_panic (snd (get_object_info ix_broken ix_env [] (lit "PP") (lit "/x.dll") (lit "x.dll") 1 None)) = true.
Proof. vm_compute. auto. Qed.
Definition ix_home : Ext := mkExt ix_ps (ex_env ix) (ex_net ix) (ex_sched ix) (Some (lit "/h")).
Definition ix_conf (n : Node) : FS := fs_set ix_pdb_fs [lit "config"; lit ".dump_syms"; lit "h"] n.
Example C57_ex_config : broken_config (ex_os ix_home) (ix_conf NDir) (ex_home ix_home) None /\ broken_config (ex_os ix_home) (ix_conf (NFile [128])) (ex_home ix_home) None /\
  is_panic (snd (get_object_info ix_home ix_env (ix_conf NDir) (lit "PP") (lit "/d/x.dll") (lit "x.dll") 1 None)) = true /\
  (exists o, get_object_info ix_home ix_env (ix_conf (NFile (lit "srv"))) (lit "PP") (lit "/d/x.dll") (lit "x.dll") 1 None = (ix_conf (NFile (lit "srv")), Ok o) /\ ob_name o = lit "x.pdb").
Proof.
  split; [|split; [|split; [vm_compute; reflexivity|eexists; vm_compute; auto]]].
  - split; [reflexivity|]. exists (lit "/h"). split; [reflexivity|]. left. reflexivity.
  - split; [reflexivity|]. exists (lit "/h"). split; [reflexivity|]. right. exists [128]. split; [reflexivity|]. intros s F E. pose proof (Utf8.decode_encode s F) as D. rewrite <- E in D. discriminate.
Qed.
Example C57_ex_pe : (exists o, get_object_info ix ix_env ix_pdb_fs (lit "PP") (lit "/d/x.dll") (lit "x.dll") 1 None = (ix_pdb_fs, Ok o) /\ ob_name o = lit "x.pdb" /\ ob_debug_id o = lit "D") /\
  (exists o, get_object_info ix ix_env [] (lit "PP") (lit "/d/x.dll") (lit "x.dll") 1 None = ([], Ok o) /\ ob_name o = lit "x.pdb" /\ ob_debug_id o = lit "P" /\ ob_pe_name o = Some (lit "x.dll")).
Proof. split; eexists; vm_compute; auto. Qed.
Example C57_ex_elf : exists o, get_object_info ix ix_env [] (lit "EAB") (lit "/d/libx.so") (lit "libx.so") 1 None = ([], Ok o) /\ ob_name o = lit "libx.so" /\ ob_debug_id o = lit "AB".
Proof. eexists. vm_compute. auto. Qed.
Example C57_ex_backslash : after_backslash (lit "C:\b\x.pdb") (lit "x.pdb").
Proof. split; [cbn; intuition discriminate|]. right. exists (lit "C:\b"). reflexivity. Qed.

(** ** C58: one file from the command line to the destination *)
Theorem C58_complete : forall x e extra cf w f w', (forall fs o, load_file x e cf (w_fs w) f = (fs, Ok o) -> proper (ob_name o) /\ proper (ob_debug_id o)) -> healthy (ex_os x) ->
  cf_output cf <> OStore [] -> single_file x e extra cf w f = (w', Ok tt) ->
  exists fs o text, load_file x e cf (w_fs w) f = (fs, Ok o) /\ fmt_object extra o = Ok text /\ delivered (ex_os x) text (cf_output cf) o (set_fs w fs) w' /\
    (cf_check_cfi cf = true -> ob_stack o <> []).
Proof. exact single_ok. Qed.
Print Assumptions C58_complete.
(** Nothing is written to a destination for a file that cannot be loaded. *)
Theorem C58_failure : forall x e extra cf w f fs r, load_file x e cf (w_fs w) f = (fs, r) -> (forall o, r <> Ok o) ->
  exists r', single_file x e extra cf w f = (mkWorld fs (w_out w) (w_err w), r') /\ r' <> Ok tt.
Proof. exact single_fails. Qed.
Print Assumptions C58_failure.
(** Without a configured server loading changes no file. *)
Theorem C58_offline : forall x e cf fs f fs' r, (forall l, get_sym_servers (ex_os x) fs (ex_home x) (cf_symbol_server cf) <> Ok (Some l)) ->
  load_file x e cf fs f = (fs', r) -> fs' = fs.
Proof. exact load_offline. Qed.
Print Assumptions C58_offline.
(** With an id (the debug id before the code id) the file comes from a cache or
    server under its name and that id, never from the path. *)
Theorem C58_by_id : forall x e cf fs f dir n id servers, proper n -> f = path_push dir n -> get_sym_servers (ex_os x) fs (ex_home x) (cf_symbol_server cf) = Ok servers ->
  (cf_debug_id cf = Some id \/ (cf_debug_id cf = None /\ cf_code_id cf = Some id)) ->
  match search_file (ex_env x) (ex_net x) (ex_sched x) fs n id servers with
  | Ok l =>
      match lk_data l with
      | None => exists m, load_file x e cf fs f = (lk_fs l, Err m)
      | Some buf => forall m arch, cf_map cf = Ok m -> cf_arch cf = Some arch ->
          load_file x e cf fs f = get_object_info x (set_map e m (cf_inlines cf)) (lk_fs l) buf f n arch (cf_symbol_server cf)
      end
  | Err m => load_file x e cf fs f = (fs, Err m)
  | Panic m => load_file x e cf fs f = (fs, Panic m)
  end.
Proof.
  intros x e cf fs f dir n id servers Hn -> Sv I. unfold load_file, get_filename. rewrite file_name_push by exact Hn. cbn [next]. unfold get_from_id.
  assert (E : (match cf_debug_id cf with Some i => Some i | None => cf_code_id cf end) = Some id) by (destruct I as [-> |(-> & ->)]; reflexivity). rewrite E, Sv. cbn [bind].
  destruct (search_file _ _ _ _ _ _ _) as [l|m|m]; try reflexivity. destruct (lk_data l) as [buf|]; [|eexists; reflexivity].
  intros m arch Em Ea. cbn [next]. rewrite Em. cbn [next]. now rewrite Ea.
Qed.
Print Assumptions C58_by_id.
Theorem C58_broken_config : forall x e cf fs f dir n id, proper n -> f = path_push dir n -> cf_debug_id cf = Some id \/ (cf_debug_id cf = None /\ cf_code_id cf = Some id) ->
  broken_config (ex_os x) fs (ex_home x) (cf_symbol_server cf) -> exists m, load_file x e cf fs f = (fs, Panic m).
Proof.
  intros x e cf fs f dir n id Hn -> I B. unfold load_file, get_filename. rewrite file_name_push by exact Hn. cbn [next]. unfold get_from_id.
  assert (E : (match cf_debug_id cf with Some i => Some i | None => cf_code_id cf end) = Some id) by (destruct I as [-> |(-> & ->)]; reflexivity). rewrite E.
  apply P_Cache.servers_broken in B. destruct (get_sym_servers _ _ _ _) as [l|m|m]; [discriminate|discriminate|]. cbn [bind]. exists m. reflexivity.
Qed.
Print Assumptions C58_broken_config.
(** Without an id the file at the path is processed. *)
Theorem C58_by_path : forall x e cf fs dir n buf m arch, proper n -> cf_debug_id cf = None -> cf_code_id cf = None ->
  content (ex_cab x) fs (locate (os_cwd (ex_os x)) (path_push dir n)) n buf -> cf_map cf = Ok m -> cf_arch cf = Some arch ->
  load_file x e cf fs (path_push dir n) = get_object_info x (set_map e m (cf_inlines cf)) fs buf (path_push dir n) n arch (cf_symbol_server cf).
Proof.
  intros x e cf fs dir n buf m arch Hn I1 I2 C Em Ea. unfold load_file, get_filename. rewrite file_name_push by exact Hn. cbn [next]. unfold get_from_id.
  rewrite I1, I2, (read_push _ _ _ _ _ _ Hn C). cbn [next]. rewrite Em. cbn [next]. now rewrite Ea.
Qed.
Print Assumptions C58_by_path.
(** Nothing is processed without a mapping that was understood and an
    architecture. *)
Theorem C58_bad_options : forall x e cf fs f, (forall m, cf_map cf <> Ok m) \/ cf_arch cf = None -> forall fs' o, load_file x e cf fs f <> (fs', Ok o).
Proof.
  intros x e cf fs f B fs' o. unfold load_file. destruct (get_filename f) as [n| |]; cbn [next]; try discriminate.
  destruct (get_from_id x cf fs f n) as [fs1 [b| |]]; cbn [next]; try discriminate. destruct (cf_map cf) as [m| |] eqn:E; cbn [next]; try discriminate.
  destruct B as [B| -> ]; [now elim (B m)|discriminate].
Qed.
Print Assumptions C58_bad_options.
(** Path mapping and inlines are those of the configuration. *)
Theorem C58_settings : forall x e e' cf fs f, re_ck e' = re_ck e -> re_host e' = re_host e -> re_canon e' = re_canon e -> re_dm e' = re_dm e -> re_sort e' = re_sort e ->
  load_file x e' cf fs f = load_file x e cf fs f /\
  forall m inl, re_map (set_map e m inl) = m /\ re_inl (set_map e m inl) = inl.
Proof.
  intros x e e' cf fs f E1 E2 E3 E4 E5. split; [|auto]. assert (S : forall m inl, set_map e' m inl = set_map e m inl) by (intros; unfold set_map; congruence).
  unfold load_file. destruct (get_filename f) as [n| |]; cbn [next]; auto. destruct (get_from_id x cf fs f n) as [fs1 [b| |]]; cbn [next]; auto.
  destruct (cf_map cf) as [m| |]; cbn [next]; auto. now rewrite S.
Qed.
Print Assumptions C58_settings.
Definition ix_cf (out : Output) : Config := mkConfig out None None None (Some 1) true true (Ok (fun _ => Ok None)).
Example C58_ex_settings : let e' := mkRunEnv (re_ck ix_env) (re_host ix_env) (re_canon ix_env) (fun _ => Ok (Some (lit "x"))) (re_dm ix_env) (negb (re_inl ix_env)) (re_sort ix_env) in
  e' <> ix_env /\ exists fs o, load_file ix e' (ix_cf (OFile FStdout)) [([lit "libx.so"], NFile (lit "EAB12"))] (lit "/libx.so") = (fs, Ok o) /\ ob_origins o <> [].
Proof. split; [intros E; apply (f_equal re_inl) in E; vm_compute in E; discriminate|]. do 2 eexists. split; [vm_compute; reflexivity|vm_compute; discriminate]. Qed.
Definition ix_w : World := mkWorld [([lit "w"; lit "home"], NDir); ([lit "libx.so"; lit "w"; lit "home"], NFile (lit "EAB12"))] [] [].
Example C58_ex_complete : (forall fs o, load_file ix ix_env (ix_cf (OFile FStdout)) (w_fs ix_w) (lit "libx.so") = (fs, Ok o) -> proper (ob_name o) /\ proper (ob_debug_id o)) /\
  healthy (ex_os ix) /\ exists w', single_file ix ix_env [] (ix_cf (OFile FStdout)) ix_w (lit "libx.so") = (w', Ok tt) /\
  starts_with (encode (lit "MODULE Linux x86_64 AB12 libx.so")) (w_out w') = true /\ w_fs w' = w_fs ix_w.
Proof.
  splits.
  - intros fs o H. destruct (load_file ix ix_env (ix_cf (OFile FStdout)) (w_fs ix_w) (lit "libx.so")) as [fs1 r1] eqn:E.
    assert (P : match r1 with Ok o => str_eqb (ob_name o) (lit "libx.so") && str_eqb (ob_debug_id o) (lit "AB12") | _ => false end = true).
    { replace r1 with (snd (load_file ix ix_env (ix_cf (OFile FStdout)) (w_fs ix_w) (lit "libx.so"))) by (now rewrite E). vm_compute. reflexivity. }
    injection H as _ ->. apply andb_true_iff in P. destruct P as [P1 P2]. apply str_eqb_eq in P1, P2. rewrite P1, P2. split; apply ix_proper; reflexivity || (cbn; lia).
  - intros d. reflexivity.
  - eexists. split; [vm_compute; reflexivity|]. split; vm_compute; reflexivity.
Qed.
(** With both ids the debug id is asked for; a failure to read the mapping, to
    store, or a missing CFI is reported. *)
Definition ix_net2 : Net := mkNet (fun u => if str_eqb u (lit "https://s/x.so/DID/x.so") then Some 200 else Some 404) (fun _ => Some (lit "EDID")).
Definition ix2 (may : Loc -> bool) : Ext := mkExt ix_ps (M_Cache.mkCEnv (mkOs [lit "w"; lit "home"] may (fun d => d) (fun _ => [])) ix_cab (fun _ => true)) ix_net2 (fun l => l) None.
Definition ix_cf2 (out : Output) (m : res (str -> res (option str))) : Config := mkConfig out (Some (lit "srv*https://s")) (Some (lit "DID")) (Some (lit "CID")) (Some 1) true true m.
Definition ix_ids (c : option str * option str) : option str :=
  match snd (load_file (ix2 (fun _ => true)) ix_env (mkConfig (OFile FStdout) (Some (lit "srv*https://s")) (fst c) (snd c) (Some 1) true true (Ok (fun _ => Ok None))) [] (lit "x.so")) with
  | Ok o => Some (ob_debug_id o) | _ => None end.
Example C58_ex_ids : map ix_ids [(Some (lit "DID"), Some (lit "CID")); (None, Some (lit "DID")); (Some (lit "CID"), Some (lit "DID"))] = [Some (lit "DID"); Some (lit "DID"); None].
Proof. vm_compute. reflexivity. Qed.
Example C58_ex_config : broken_config (ex_os ix_home) (ix_conf NDir) (ex_home ix_home) None /\
  is_panic (snd (load_file ix_home ix_env (mkConfig (OFile FStdout) None (Some (lit "DID")) None (Some 1) true true (Ok (fun _ => Ok None))) (ix_conf NDir) (lit "/d/x.pdb"))) = true /\
  is_panic (snd (load_file ix_home ix_env (mkConfig (OFile FStdout) (Some []) (Some (lit "DID")) None (Some 1) true true (Ok (fun _ => Ok None))) (ix_conf NDir) (lit "/d/x.pdb"))) = false.
Proof. split; [exact (proj1 C57_ex_config)|]. vm_compute. auto. Qed.
Example C58_ex_mapping : load_file (ix2 (fun _ => true)) ix_env (ix_cf2 (OFile FStdout) (Err "regex")) [] (lit "x.so") = ([], Err "regex").
Proof. vm_compute. reflexivity. Qed.
Example C58_ex_not_stored : exists m, single_file (ix2 (fun _ => false)) ix_env [] (ix_cf2 (OStore (lit "/s")) (Ok (fun _ => Ok None))) (mkWorld [] [] []) (lit "x.so") = (mkWorld [] [] [], Err m).
Proof. eexists. vm_compute. reflexivity. Qed.
Definition ix_bare : Ext := mkExt (mkParsers (ps_peek ix_ps) (fun _ => Some (mkParsed (Some []) (lit "AB12") None (lit "x86") true false None [] 0 [] (fun _ _ => None) false [] BOther None)) (ps_pe ix_ps) (ps_pdb ix_ps) (ps_archive ix_ps))
  (ex_env ix) (ex_net ix) (ex_sched ix) None.
Example C58_ex_no_cfi : single_file ix_bare ix_env [] (ix_cf (OFile FStdout)) ix_w (lit "libx.so") = (ix_w, Err "No CFI data").
Proof. vm_compute. reflexivity. Qed.
Example C58_ex_failure : exists fs m, load_file ix ix_env (ix_cf (OFile FStdout)) [([lit "a"], NFile (lit "?"))] (lit "/a") = (fs, Err m).
Proof. eexists _, _. vm_compute. reflexivity. Qed.

(** ** C59: bundles *)
Theorem C59_bundle : forall os cab fs p n d, proper n -> fs_get fs (locate (os_cwd os) p) = Some NDir -> fs_get fs (dwarf_dir (locate (os_cwd os) p)) = Some NDir ->
  only_entry fs (dwarf_dir (locate (os_cwd os) p)) n -> content cab fs (n :: dwarf_dir (locate (os_cwd os) p)) n d ->
  read_file os cab fs p = Ok d.
Proof. exact bundle_read. Qed.
Print Assumptions C59_bundle.
(** Any other directory is refused (by a panic); no choice is made among several files. *)
Theorem C59_refused : forall os cab fs p, fs_get fs (locate (os_cwd os) p) = Some NDir ->
  (fs_get fs (dwarf_dir (locate (os_cwd os) p)) = Some NDir -> forall n, ~ only_entry fs (dwarf_dir (locate (os_cwd os) p)) n) ->
  is_panic (read_file os cab fs p) = true.
Proof. exact directory_panics. Qed.
Print Assumptions C59_refused.
Definition ix_bundle : FS := [([lit "DWARF"; lit "Resources"; lit "Contents"; lit "x.dSYM"], NDir); ([lit "x.dSYM"], NDir);
  ([lit "XUL"; lit "DWARF"; lit "Resources"; lit "Contents"; lit "x.dSYM"], NFile (lit "M1"))].
Example C59_ex_bundle : read_file ix_os ix_cab ix_bundle (lit "/x.dSYM/") = Ok (lit "M1") /\ only_entry ix_bundle (dwarf_dir [lit "x.dSYM"]) (lit "XUL") /\
  is_panic (read_file ix_os ix_cab (([lit "B"; lit "DWARF"; lit "Resources"; lit "Contents"; lit "x.dSYM"], NFile (lit "M2")) :: ix_bundle) (lit "/x.dSYM/")) = true.
Proof.
  splits; [vm_compute; reflexivity| |vm_compute; reflexivity]. intros m. rewrite <- children_spec.
  assert (E : fs_children ix_bundle (dwarf_dir [lit "x.dSYM"]) = [lit "XUL"]) by (vm_compute; reflexivity). rewrite E. cbn [In]. intuition.
Qed.

(** ** C60: listing architectures *)
Theorem C60_listed : forall ps arch_name buf name objs list, ps_archive ps buf = Some (map Some objs) -> listed (map (fun o => arch_name (fst o)) objs) list ->
  print_macho_architectures ps arch_name buf name =
  Ok (name ++ lit " contains the following architecture" ++ (if lenN objs =? 1 then [] else lit "s") ++ lit ":" ++ [10] ++ list ++ [10]).
Proof. exact print_readable. Qed.
Print Assumptions C60_listed.
(** One unreadable object and the program panics instead of listing the others. *)
Theorem C60_unreadable_refuted : exists ps arch_name buf name objs, ps_archive ps buf = Some objs /\ In (Some (1, ix_obj (lit "A"))) objs /\
  is_panic (print_macho_architectures ps arch_name buf name) = true.
Proof.
  exists ix_ps, dec, (lit "M2"), (lit "x"). eexists. splits; [reflexivity|now left|vm_compute; reflexivity].
Qed.
Print Assumptions C60_unreadable_refuted.
Theorem C60_panics : forall ps arch_name buf name objs, ps_archive ps buf = Some objs -> In None objs ->
  is_panic (print_macho_architectures ps arch_name buf name) = true.
Proof. exact print_unreadable. Qed.
Print Assumptions C60_panics.
Example C60_ex : print_macho_architectures ix_ps dec (lit "M1") (lit "x") = Ok (lit "x contains the following architecture:" ++ [10] ++ lit "7" ++ [10]) /\
  listed (map lit ["a"; "b"; "c"]%string) (lit "a, b, c").
Proof. split; [vm_compute; reflexivity|]. apply (li_more (lit "a") (lit "b") [lit "c"] (lit "b, c")). apply (li_more (lit "b") (lit "c") [] (lit "c")). constructor. Qed.

(** ** C61: several modules, one destination *)
(** On standard output the modules follow one another ... *)
Theorem C61_stdout : forall os extra ck l w w', store_seq os extra (OFile FStdout) ck l w = (w', Ok tt) ->
  exists texts, Forall2 (fun o t => fmt_object extra o = Ok t) l texts /\ w_out w' = w_out w ++ encode (concat texts) /\ w_fs w' = w_fs w.
Proof. exact stdout_all. Qed.
Print Assumptions C61_stdout.
(** ... but a file only keeps the last one. *)
Theorem C61_last_wins : forall os extra p ck l o w w' text, healthy os -> fmt_object extra o = Ok text ->
  store_seq os extra (OFile (FPath p)) ck (l ++ [o]) w = (w', Ok tt) ->
  fs_get (w_fs w') (locate (os_cwd os) p) = Some (NFile (encode text)).
Proof. exact last_wins. Qed.
Print Assumptions C61_last_wins.
Definition ix_a : Obj := match ox_obj ox_a_fs [] None true with Ok o => o | _ => ox_a end.
Theorem C61_overwritten_refuted : exists os extra p a b w w' text, healthy os /\ store_seq os extra (OFile (FPath p)) true [a; b] w = (w', Ok tt) /\
  fmt_object extra a = Ok text /\ text <> [] /\ forall l d, fs_get (w_fs w') l = Some (NFile d) -> d <> encode text.
Proof.
  exists ix_os, [], (lit "out"), ix_a, ox_b, (mkWorld [([lit "w"; lit "home"], NDir)] [] []). eexists _, _. splits.
  - intros d. reflexivity.
  - vm_compute. reflexivity.
  - vm_compute. reflexivity.
  - discriminate.
  - intros l d G. destruct (loc_eqb l [lit "out"; lit "w"; lit "home"]) eqn:E.
    + apply loc_eqb_eq in E. subst l. vm_compute in G. injection G as <-. vm_compute. discriminate.
    + exfalso. cbn [w_fs] in G. unfold fs_get in G. destruct l as [|a l]; [discriminate|]. cbn [afind] in G. revert G.
      change ([[111; 117; 116]; [119]; [104; 111; 109; 101]]) with [lit "out"; lit "w"; lit "home"]. rewrite E.
      clear E. destruct (loc_eqb (a :: l) _); discriminate.
Qed.
Print Assumptions C61_overwritten_refuted.
Example C61_ex : exists w' text, store_seq ix_os [] (OFile FStdout) true [ix_a; ox_b] (mkWorld [] [] []) = (w', Ok tt) /\
  starts_with (encode (lit "MODULE")) (w_out w') = true /\ fmt_object [] ix_a = Ok text /\ lenN text < lenN (w_out w').
Proof. eexists _, _. splits; vm_compute; reflexivity. Qed.

(** ** C69: compressed files *)
(** Data that is no archive is read as it is; an archive gives its first member
    called like the file with its last letter restored, else the program panics. *)
Theorem C69_read_partial : forall os cab fs dir n raw, proper n -> fs_get fs (locate (os_cwd os) (path_push dir n)) = Some (NFile raw) ->
  (forall d, read_file os cab fs (path_push dir n) = Ok d <-> unpacked cab raw n d) /\
  ((forall d, ~ unpacked cab raw n d) -> is_panic (read_file os cab fs (path_push dir n)) = true).
Proof. exact read_unpacks. Qed.
Print Assumptions C69_read_partial.
(** What data is read is determined by the specification. *)
Theorem C69_determined : forall cab raw n d d', unpacked cab raw n d -> unpacked cab raw n d' -> d = d'.
Proof. exact unpacked_fun. Qed.
Print Assumptions C69_determined.
(** Members are not found when the extension is in upper case, although the
    place of such a file in caches is chosen without regard to case. *)
Theorem C69_upper_case_refuted : exists os cab fs dir n raw files d, proper n /\ fs_get fs (locate (os_cwd os) (path_push dir n)) = Some (NFile raw) /\
  cab raw = Some files /\ get_base n = lit "x.pdb" /\ first_member (lit "x.pdb") files (Some d) /\
  is_panic (read_file os cab fs (path_push dir n)) = true.
Proof.
  exists ix_os, (fun _ => Some [(lit "x.pdb", Some (lit "D"))]), [([lit "d"], NDir); ([lit "x.PD_"; lit "d"], NFile (lit "C"))], (lit "/d"), (lit "x.PD_"), (lit "C").
  eexists _, (lit "D"). splits; [apply ix_proper; [reflexivity|cbn; lia]|reflexivity|reflexivity|vm_compute; reflexivity| |vm_compute; reflexivity].
  constructor. apply file_name_spec. reflexivity.
Qed.
Print Assumptions C69_upper_case_refuted.
(** Nor in an archive without extension, whatever it holds. *)
Theorem C69_no_extension_refuted : exists os cab fs dir n raw files d, proper n /\ fs_get fs (locate (os_cwd os) (path_push dir n)) = Some (NFile raw) /\
  cab raw = Some files /\ first_member n files (Some d) /\ is_panic (read_file os cab fs (path_push dir n)) = true.
Proof.
  exists ix_os, (fun _ => Some [(lit "libx", Some (lit "D"))]), [([lit "d"], NDir); ([lit "libx"; lit "d"], NFile (lit "C"))], (lit "/d"), (lit "libx"), (lit "C").
  eexists _, (lit "D"). splits; [apply ix_proper; [reflexivity|cbn; lia]|reflexivity|reflexivity| |vm_compute; reflexivity].
  constructor. apply file_name_spec. reflexivity.
Qed.
Print Assumptions C69_no_extension_refuted.
(** Of several members the first with the right name counts, in any folder. *)
Definition ix_cab3 : Cab := [(lit "a/x.dll", Some (lit "L")); (lit "b/x.pdb", Some (lit "D")); (lit "x.pdb", None)].
Example C69_ex_dll : read_file ix_os (fun _ => Some ix_cab3) [([lit "x.dl_"; lit "d"], NFile (lit "C"))] (path_push (lit "/d") (lit "x.dl_")) = Ok (lit "L") /\
  read_file ix_os (fun _ => Some ix_cab3) [([lit "x.pd_"; lit "d"], NFile (lit "C"))] (path_push (lit "/d") (lit "x.pd_")) = Ok (lit "D") /\
  is_panic (read_file ix_os (fun _ => Some ix_cab3) [([lit "x.ex_"; lit "d"], NFile (lit "C"))] (path_push (lit "/d") (lit "x.ex_"))) = true.
Proof. vm_compute. auto. Qed.
Example C69_ex : unpacked (fun _ => Some ix_cab3) (lit "C") (lit "x.pd_") (lit "D") /\
  unpacked (fun _ => None) (lit "raw") (lit "x.pd_") (lit "raw") /\ made_of (lit "x.dl_") (lit "x.dll") /\ made_of (lit "x.sys") (lit "x.sys").
Proof.
  assert (P : forall s, forallb (fun c => negb (c =? 47)) s = true -> (2 < length s)%nat -> proper s) by exact ix_proper.
  splits; [apply cabinet_spec; [apply P; [reflexivity|cbn; lia]|vm_compute; reflexivity]|now left| |].
  - apply (mo_packed (lit "x") (lit "dl") (lit "dll") (lit "_")); [cbn; auto|discriminate|cbn; intuition discriminate].
  - apply (mo_other (lit "x") (lit "sys")); [discriminate|cbn; intuition discriminate|]. intros p t r [[= <- <-]|[[= <- <-]|[[= <- <-]|[[= <- <-]|[]]]]]; discriminate.
Qed.
