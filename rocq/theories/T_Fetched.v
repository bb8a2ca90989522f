(** Theorems C87: several files that have their PDBs downloaded into caches. *)
From Verif Require Import Base BMap Str Utf8 M_Path M_Line M_Source M_Symbol M_Collector M_Object M_Fs M_Cache M_Store M_Input M_Sched M_Cli M_Args M_Many M_Shared M_Main M_Beside
  S_Path S_Fs S_Cache S_Symbol S_Collector S_Object S_Format S_Store S_Input S_Sched S_Many S_Shared S_Cli S_Main S_Whole S_Plain S_Beside S_Fetched
  P_Fs P_Path P_Cache P_Input P_Many P_Shared P_Several P_Plain P_Fetched T_Format T_Input T_Many T_Shared T_Whole T_Plain.

(** What the other files download does not matter for a file: processed at any
    time it gives the module it gives at first, and only new directories and
    downloaded PDBs are added to the file system. C80 to C86 ask for this. *)
Theorem C87_steady : forall u sv rs files fs0, downloads (u_ext u) fs0 sv rs files -> steady u files fs0 (fetched (u_ext u) sv rs fs0).
Proof. exact downloads_steady. Qed.
Print Assumptions C87_steady.
(** Hence the order of the files does not matter. *)
Theorem C87_order : forall u sv rs files fs0 l f, downloads (u_ext u) fs0 sv rs files -> incl l files -> In f files ->
  fetched (u_ext u) sv rs fs0 (after u fs0 l) /\ snd (u_job u (after u fs0 l) f) = snd (u_job u fs0 f).
Proof.
  intros u sv rs files fs0 l f D I Ff. destruct (C87_steady u sv rs files fs0 D) as (S1 & S2).
  assert (Q : forall fs, fetched (u_ext u) sv rs fs0 fs -> fetched (u_ext u) sv rs fs0 (fold_left (fun fs f => fst (u_job u fs f)) l fs)).
  { clear Ff f. induction l as [|g l IH]; intros fs RF; [exact RF|]. cbn [fold_left]. apply IH; [intros y Hy; apply I; now right|]. apply S2; [exact RF|apply I; now left]. }
  pose proof (Q fs0 S1) as RF. split; [exact RF|]. now apply S2.
Qed.
Print Assumptions C87_order.
(** With one cache it is enough that names and ids are names of directory entries
    and that nothing is in the way in the cache. *)
Theorem C87_one_cache : forall x sv rs fs0 c, caches sv = [c] -> (forall r, In r rs -> proper (fst r) /\ proper (snd r)) ->
  (forall r, In r (reqs x rs) -> fs_get fs0 (kept_at (ex_os x) r c) <> Some NDir) ->
  (forall r k up d, In r (reqs x rs) -> kept_at (ex_os x) r c = k ++ up -> k <> [] -> fs_get fs0 up <> Some (NFile d)) ->
  (forall l, os_may (ex_os x) l = true) -> tidy (ex_os x) sv fs0 (reqs x rs) /\ own_places (ex_os x) sv (reqs x rs).
Proof.
  intros x sv rs fs0 c E P N1 N2 M. assert (Ic : forall c', In c' (caches sv) -> c' = c) by (rewrite E; intros c' [<-|[]]; reflexivity). split.
  - unfold tidy. splits; [| | | |exact M].
    + intros r I. unfold reqs in I. apply in_map_iff in I as (p & <- & I). exact (P p I).
    + intros r r' c1 c2 l I I' I1 I2 X. rewrite (Ic c1 I1), (Ic c2 I2) in X. apply (f_equal (@length str)) in X. rewrite app_length in X. unfold kept_at, entry_loc in X. cbn [length] in X. destruct l; [reflexivity|cbn in X; lia].
    + intros r c1 I I1. rewrite (Ic c1 I1). now apply N1.
    + intros r c1 l up d I I1 X. rewrite (Ic c1 I1) in X. now apply (N2 r l up d).
  - intros r r' c1 c2 I I' I1 I2 X. unfold reqs in I, I'. apply in_map_iff in I as (p & <- & I). apply in_map_iff in I' as (p' & <- & I').
    rewrite (Ic c1 I1), (Ic c2 I2) in X. unfold kept_at, entry_loc in X. cbn [rq_name rq_id] in X. injection X as X1 X2 _. now rewrite X1, X2.
Qed.
Print Assumptions C87_one_cache.

Lemma fetched_storable u files fs0 dir sv rs : sort_perm (re_sort (u_env u)) -> sane (ex_ps (u_ext u)) -> new_store (u_os u) dir fs0 -> store_apart (u_ext u) sv rs dir -> Forall one_line (u_extra u) ->
  (forall f, In f files -> exists o ls, snd (u_job u fs0 f) = Ok o /\ plain_module (u_check u) ls o) -> forall d, candidate u files fs0 d -> storable u dir (fetched (u_ext u) sv rs fs0) d.
Proof.
  intros SP SA NW AP OL PM d (os & M). destruct (plain_texts u files fs0 (u_check u) (u_extra u) d os SP SA M PM OL) as (Q1 & Q2 & Q3 & lss & ls & text & rs' & _ & _ & Ft & _).
  unfold storable. splits; [exact Q1|exact Q2|now exists text|exact Q3|]. intros fs l RF Sd. exact (room_new _ _ _ _ _ (fetched_new_store _ _ _ _ _ _ RF AP NW) Sd).
Qed.
(** Several files, symbol servers and a new store that is apart from the caches:
    when the program ends its status is 0, the store has for every file the records
    of the module made of the files with its debug id, as processing gives them at
    first; outside of the store there are at most new directories above it and
    what was downloaded. *)
Theorem C87_program : forall m argv w v n c p a dir sv rs, let u := used m c p a (OStore dir) in let files := ar_files (cm_args c) in let info := info_of m c in
  asks_several m argv (w_fs w) c p a (OStore dir) -> dir <> [] -> sort_perm (re_sort (ma_env m)) -> sane (ex_ps (ma_ext m)) -> iterates (ma_iter m) ->
  downloads (ma_ext m) (w_fs w) sv rs files -> store_apart (ma_ext m) sv rs dir -> new_store (u_os u) dir (w_fs w) -> Forall one_line info ->
  all_read u files (w_fs w) -> (forall f, In f files -> exists o ls, snd (u_job u (w_fs w) f) = Ok o /\ plain_module (cm_check_cfi c) ls o) ->
  program m argv w v n ->
  n = 0 /\ w_out v = w_out w /\ w_err v = w_err w /\
  (forall f o, In f files -> snd (u_job u (w_fs w) f) = Ok o -> exists d os lss ls l text rs',
     made_from (re_ck (ma_env m)) (ma_iter m) (fun f => snd (u_job u (w_fs w) f)) files d os /\ In o os /\
     stored_at (u_os u) dir d l /\ fs_get (w_fs v) l = Some (NFile (encode text)) /\
     Forall2 writable lss os /\ Permutation ls (concat lss) /\ parse_file text = Some rs' /\ object_records info ls d rs') /\
  exists fs1, fetched (ma_ext m) sv rs (w_fs w) fs1 /\ processed u files (w_fs w) fs1 /\
  forall l, (forall k, l <> k ++ locate (os_cwd (u_os u)) dir) -> fs_get (w_fs v) l = fs_get fs1 l \/
     fs_get fs1 l = None /\ fs_get (w_fs v) l = Some NDir /\ exists k, locate (os_cwd (u_os u)) dir = k ++ l.
Proof.
  intros m argv w v n c p a dir sv rs u files info A DIR SP SA It D AP NW OL G PM P.
  assert (ST : steady u files (w_fs w) (fetched (ma_ext m) sv rs (w_fs w))) by now apply (C87_steady u).
  assert (CAN : forall d, candidate u files (w_fs w) d -> storable u dir (fetched (ma_ext m) sv rs (w_fs w)) d) by now apply (fetched_storable u).
  assert (MAY : forall l, os_may (u_os u) l = true) by (destruct D as (_ & _ & _ & _ & (_ & _ & _ & _ & X) & _); exact X).
  destruct (C83_store m argv w v n c p a dir _ A DIR SP SA It MAY ST CAN G P) as (E & O1 & O2 & F & fs1 & R1 & PR & OS). splits; auto.
  - intros f o Ff Pf. destruct (F f o Ff Pf) as (d & l & text & (os & M) & Ed & Sd & Ft & Hd).
    destruct (plain_texts u files (w_fs w) (cm_check_cfi c) info d os SP SA M PM OL) as (_ & _ & _ & lss & ls & text' & rs' & F2 & Pm & Ft' & Pf' & Or). change (info_of m c) with info in Ft. assert (text' = text) by congruence. subst text'.
    exists d, os, lss, ls, l, text, rs'. splits; auto. destruct M as (_ & _ & AL & _). apply (AL f o); auto.
  - exists fs1. splits; [exact R1|exact PR|]. intros l NL. destruct (option_node_dec (fs_get (w_fs v) l) (fs_get fs1 l)) as [X|X]; [now left|right].
    destruct (OS l X) as (d & t & x & _ & (b & s & _ & _ & ->) & Et & Nx). change ([s; ob_debug_id d; b] ++ locate (os_cwd (u_os u)) dir = x ++ l) in Et.
    destruct (app_eq_app _ _ _ _ Et) as (z & [(E1 & E2)|(E1 & E2)]); [exfalso; now apply (NL z)|].
    destruct Nx as (Y1 & Y2). { intros ->. apply (NL [s; ob_debug_id d; b]). symmetry. exact Et. } splits; auto. now exists z.
Qed.
Print Assumptions C87_program.
Theorem C87_program_ends : forall m argv w c p a dir sv rs j, let u := used m c p a (OStore dir) in let files := ar_files (cm_args c) in
  asks_several m argv (w_fs w) c p a (OStore dir) -> dir <> [] -> sort_perm (re_sort (ma_env m)) -> sane (ex_ps (ma_ext m)) -> iterates (ma_iter m) ->
  downloads (ma_ext m) (w_fs w) sv rs files -> store_apart (ma_ext m) sv rs dir -> new_store (u_os u) dir (w_fs w) -> Forall one_line (info_of m c) ->
  all_read u files (w_fs w) -> (forall f, In f files -> exists o ls, snd (u_job u (w_fs w) f) = Ok o /\ plain_module (cm_check_cfi c) ls o) ->
  jobs_asked m c j -> 2 <= j -> exists v, program m argv w v 0.
Proof.
  intros m argv w c p a dir sv rs j u files A DIR SP SA It D AP NW OL G PM J J2.
  apply (C83_can_end m argv w c p a dir (fetched (ma_ext m) sv rs (w_fs w)) j); auto.
  - destruct D as (_ & _ & _ & _ & (_ & _ & _ & _ & X) & _). exact X.
  - now apply (C87_steady u).
  - now apply (fetched_storable u).
Qed.
Print Assumptions C87_program_ends.

(** *** Examples *)
(** Two PE files with the same PDB name and different ids; the server has both
    PDBs. *)
Definition fe_ps : Parsers := mkParsers
  (fun d => match d with 80 :: _ => FmtPe | 68 :: _ => FmtPdb | _ => FmtOther end)
  (fun _ => None)
  (fun d => match d with 80 :: i :: t => Some (mkPeFile (lenN d) (Some (lit "C:\b\x.pdb")) (mx_obj (i - 48) false t)) | _ => None end)
  (fun d => match d with 68 :: i :: t => Some (mkPdbFile (lenN d) (mx_obj (i - 48) true t)) | _ => None end)
  (fun _ => None).
Definition fe_net : Net := mkNet
  (fun u => if str_eqb u (lit "https://s/x.pdb/AB/x.pdb") || str_eqb u (lit "https://s/x.pdb/CD/x.pdb") then Some 200 else Some 404)
  (fun u => if str_eqb u (lit "https://s/x.pdb/AB/x.pdb") then Some (lit "D3AB") else if str_eqb u (lit "https://s/x.pdb/CD/x.pdb") then Some (lit "D4CD") else None).
Definition fe_ext : Ext := mkExt fe_ps (M_Cache.mkCEnv ix_os ix_cab (fun _ => true)) fe_net (fun l => l) (Some (lit "/h")).
Definition fe_m : Machine := mkMachine (lit "x86_64") (lit "2.3") 2 fe_ext ix_env (fun _ => true) (fun _ _ => None) (fun v => v) (fun _ => None) (fun s => if str_eqb s (lit "x86_64") then Some 0%N else None)
  dec (fun l => l) (fun _ => []).
Definition fe_files : list str := [lit "/d/a.dll"; lit "/d/b.dll"].
Definition fe_fs : FS := [([lit "config"; lit ".dump_syms"; lit "h"], NFile (lit "srv*/cache*https://s")); ([lit "a.dll"; lit "d"], NFile (lit "P1AB")); ([lit "b.dll"; lit "d"], NFile (lit "P2CD"))].
Definition fe_sv : list SymbolServer := [mkServer (Some (lit "/cache")) (lit "https://s")].
Definition fe_rs : list (str * str) := [(lit "x.pdb", lit "AB"); (lit "x.pdb", lit "CD")].
Definition fe_u (out : Output) : Setup := mkSetup fe_ext ix_env (fun l => l) (fun _ => Ok None) 0 true [] out true.
Lemma fe_proper (l : list str) : forallb (fun n => negb (str_eqb n []) && negb (str_eqb n (lit ".")) && negb (str_eqb n (lit "..")) && forallb (fun c => negb (c =? 47)) n) l = true -> Forall proper l.
Proof.
  intros H. apply Forall_forall. intros n I. rewrite forallb_forall in H. specialize (H n I). apply andb_prop in H as (H & H4). apply andb_prop in H as (H & H3). apply andb_prop in H as (H1 & H2).
  apply negb_true_iff in H1, H2, H3. unfold proper. splits; [intros X; subst n; now rewrite (proj2 (str_eqb_eq _ _) eq_refl) in H1|intros X; subst n; now rewrite (proj2 (str_eqb_eq _ _) eq_refl) in H2|intros X; subst n; now rewrite (proj2 (str_eqb_eq _ _) eq_refl) in H3|].
  intros J. rewrite forallb_forall in H4. specialize (H4 47 J). discriminate.
Qed.
Lemma fe_kept r c : In r (reqs fe_ext fe_rs) -> In c (caches fe_sv) -> exists i, kept_at (ex_os fe_ext) r c = [lit "x.pdb"; i; lit "x.pdb"; lit "cache"] /\ (i = lit "AB" \/ i = lit "CD").
Proof. intros [<- |[<- |[]]] [<- |[]]; [exists (lit "AB")|exists (lit "CD")]; (split; [vm_compute; reflexivity|auto]). Qed.
Lemma fe_configured fs : fs_get fs [lit "config"; lit ".dump_syms"; lit "h"] = Some (NFile (lit "srv*/cache*https://s")) -> configured fe_ext fs fe_sv.
Proof.
  intros G. exists (lit "/h"), (lit "srv*/cache*https://s"), [lit "srv*/cache*https://s"]. splits; [reflexivity| | | | |discriminate].
  - change (config_at (ex_os fe_ext) (lit "/h")) with [lit "config"; lit ".dump_syms"; lit "h"]. rewrite G. reflexivity.
  - apply Forall_forall. intros x I. vm_compute in I. unfold scalar. repeat destruct I as [<- |I]; try easy; lia.
  - apply pieces_iff. vm_compute. reflexivity.
  - apply servers_iff. vm_compute. reflexivity.
Qed.
(** Nothing is in the way in the cache. *)
Lemma fe_tidy fs : (forall i, fs_get fs [lit "x.pdb"; i; lit "x.pdb"; lit "cache"] = None) ->
  (forall k up d i, k ++ up = [lit "x.pdb"; i; lit "x.pdb"; lit "cache"] -> i = lit "AB" \/ i = lit "CD" -> k <> [] -> fs_get fs up <> Some (NFile d)) ->
  tidy (ex_os fe_ext) fe_sv fs (reqs fe_ext fe_rs) /\ own_places (ex_os fe_ext) fe_sv (reqs fe_ext fe_rs).
Proof.
  intros G1 G2. apply (C87_one_cache fe_ext fe_sv fe_rs fs (lit "/cache")); [reflexivity| | | |reflexivity].
  - intros r I. assert (P : Forall proper [lit "x.pdb"; lit "AB"; lit "CD"]) by (apply fe_proper; vm_compute; reflexivity). inversion P as [|? ? P1 P']; inversion P' as [|? ? P2 P'']; inversion P'' as [|? ? P3 _]; subst.
    destruct I as [<- |[<- |[]]]; split; assumption.
  - intros r I. destruct (fe_kept r (lit "/cache") I (or_introl eq_refl)) as (i & E & _). rewrite E, G1. discriminate.
  - intros r k up d I X N. destruct (fe_kept r (lit "/cache") I (or_introl eq_refl)) as (i & E & Hi). rewrite E in X. symmetry in X. now apply (G2 k up d i).
Qed.
Lemma fe_elsewhere l : length l <> 4%nat -> elsewhere (ex_os fe_ext) fe_sv (reqs fe_ext fe_rs) l.
Proof. intros N r c I Ic ->. destruct (fe_kept r c I Ic) as (i & E & _). rewrite E in N. now apply N. Qed.
Lemma fe_in_place : in_place fe_ext fe_sv fe_rs fe_fs fe_files.
Proof.
  intros f Ff.
  assert (Q : exists n raw i, f = lit "/d/" ++ n /\ raw = 80 :: i /\ Forall proper [n] /\ fs_get fe_fs (locate (os_cwd (ex_os fe_ext)) f) = Some (NFile raw) /\ length (locate (os_cwd (ex_os fe_ext)) f) = 2%nat /\
    match ps_pe fe_ps raw with Some pe => pf_pdb pe = Some (lit "C:\b\x.pdb") /\ In (lit "x.pdb", pa_debug_id (pf_obj pe)) fe_rs | None => False end).
  { destruct Ff as [<- |[<- |[]]]; [exists (lit "a.dll"), (lit "P1AB"), (lit "1AB")|exists (lit "b.dll"), (lit "P2CD"), (lit "2CD")];
      (splits; [reflexivity|reflexivity|apply fe_proper; vm_compute; reflexivity|vm_compute; reflexivity|vm_compute; reflexivity|]); vm_compute; auto. }
  destruct Q as (n & raw & i & -> & -> & P & G & L & PE). inversion P as [|? ? Hn _]; subst. exists n, (80 :: i). splits.
  - split; [exact Hn|]. right. now exists (lit "/d").
  - exact G.
  - intros m. apply fe_elsewhere. destruct (locate _ _); [discriminate|]. cbn in L |- *. lia.
  - intros d pe recorded p U _ Pe Pd Sl. assert (d = 80 :: i) as -> by (destruct U as [(_ & X)|(fs & w & X & _)]; [exact X|discriminate]). change (ex_ps fe_ext) with fe_ps in Pe. rewrite Pe in PE. destruct PE as (E & I).
    assert (recorded = lit "C:\b\x.pdb") by congruence. subst recorded. apply slashed_unix in Sl. subst p. right. exists (lit "x.pdb").
    assert (Px : Forall proper [lit "x.pdb"]) by (apply fe_proper; vm_compute; reflexivity). inversion Px as [|? ? Hx _]; subst. splits; [|exact I| |].
    + split; [exact Hx|]. right. exists (lit "C:/b"). vm_compute. reflexivity.
    + apply fe_elsewhere. vm_compute. discriminate.
    + apply fe_elsewhere. vm_compute. discriminate.
Qed.
Lemma fe_none (fs : FS) l : forallb (fun p => negb (Nat.eqb (length (fst p)) (length l))) fs = true -> l <> [] -> fs_get fs l = None.
Proof.
  intros F N. unfold fs_get. destruct l as [|a l]; [easy|]. induction fs as [|[k nd] fs IH]; [reflexivity|]. cbn [forallb fst] in F. apply andb_prop in F as (F1 & F2). cbn [afind].
  destruct (loc_eqb (a :: l) k) eqn:E; [|now apply IH]. apply loc_eqb_eq in E. subst k. now rewrite Nat.eqb_refl in F1.
Qed.
Lemma fe_downloads : downloads fe_ext fe_fs fe_sv fe_rs fe_files.
Proof.
  destruct (fe_tidy fe_fs) as (T1 & T2).
  - intros i. apply fe_none; [reflexivity|discriminate].
  - intros k up d i E Hi Nk. assert (X : up = [] \/ up = [lit "cache"] \/ up = [lit "x.pdb"; lit "cache"] \/ up = [i; lit "x.pdb"; lit "cache"]).
    { destruct k as [|k1 [|k2 [|k3 [|k4 [|]]]]]; [easy|..]; cbn [app] in E; try discriminate; injection E; intros; subst; auto 10. }
    destruct X as [-> |[-> |[-> | ->]]]; try (vm_compute; discriminate). destruct Hi as [-> | ->]; vm_compute; discriminate.
  - unfold downloads. splits; [apply fe_configured; reflexivity|intros l; reflexivity|apply fe_proper; vm_compute; reflexivity|intros js; apply Permutation_refl|exact T1|exact T2|exact fe_in_place].
Qed.
(** The modules of both files, in any order, and what is downloaded. *)
Example C87_ex_order : downloads (u_ext (fe_u (OStore (lit "/s")))) fe_fs fe_sv fe_rs fe_files /\
  map (fun l => map (fun f => match snd (u_job (fe_u (OStore (lit "/s"))) (after (fe_u (OStore (lit "/s"))) fe_fs l) f) with Ok o => Some (ob_debug_id o) | _ => None end) fe_files) [[]; fe_files; rev fe_files]
    = repeat [Some (lit "AB"); Some (lit "CD")] 3 /\
  map (fun i => fs_get (after (fe_u (OStore (lit "/s"))) fe_fs fe_files) [lit "x.pdb"; lit i; lit "x.pdb"; lit "cache"]) ["AB"; "CD"; "EF"]%string = [Some (NFile (lit "D3AB")); Some (NFile (lit "D4CD")); None].
Proof. splits; [exact fe_downloads|vm_compute; reflexivity|vm_compute; reflexivity]. Qed.
(** The whole program. *)
Definition fe_argv : list str := map lit ["/d/a.dll"; "/d/b.dll"; "--store"; "/s"; "--check-cfi"; "--inlines"; "--no-generator"]%string.
Definition fe_c : Cmd := wm_args fe_files (Some (lit "/s")).
Definition fe_w : World := mkWorld fe_fs [] [].
Definition fe_st : Setup := fe_u (OStore (lit "/s")).
Lemma fe_asks : asks_several fe_m fe_argv fe_fs fe_c wm_p 0 (OStore (lit "/s")).
Proof. unfold asks_several. splits; [vm_compute; reflexivity|cbn; lia|reflexivity|constructor|reflexivity|reflexivity|reflexivity]. Qed.
Lemma fe_used : used fe_m fe_c wm_p 0 (OStore (lit "/s")) = fe_st.
Proof. reflexivity. Qed.
Lemma fe_sane : sane fe_ps.
Proof.
  intros p H. assert (Q : exists i two id, p = mx_obj i two id).
  { destruct H as (d & [H|[(pe & H & <-)|[(pd & H & <-)|(l & a & H & _)]]]); try discriminate; cbn in H;
      repeat (match type of H with context [match ?x with _ => _ end] => destruct x; try discriminate end); injection H as <-; cbn; eauto. }
  destruct Q as (i & two & id & ->). split; [|intros xs b e' E; discriminate].
  intros fs [= <-] r r' A B _ _ _ _ _ _. assert (Q : forall q, In q (flat_map fun_refs (readable (Some (T_Object.ox_fun 4096 i []) :: (if two then [Some (T_Object.ox_fun 8192 i [])] else [])))) -> q = T_Collector.cx_file i).
  { intros q Hq. destruct two; cbn in Hq; intuition. }
  rewrite (Q r A), (Q r' B). auto.
Qed.
Definition fe_at (f : str) : Obj := match snd (u_job fe_st fe_fs f) with Ok o => o | _ => T_Object.ox_a end.
Lemma fe_job f : In f fe_files -> snd (u_job fe_st fe_fs f) = Ok (fe_at f).
Proof. intros [<- |[<- |[]]]; vm_compute; reflexivity. Qed.
Lemma fe_read : all_read fe_st fe_files fe_fs.
Proof.
  intros f Ff. exists (fe_at f). split; [now apply fe_job|]. right. destruct Ff as [<- |[<- |[]]]; (apply fits_dec; [vm_compute; reflexivity|vm_compute; repeat constructor]).
Qed.
Lemma fe_plain f : In f fe_files -> exists o ls, snd (u_job fe_st fe_fs f) = Ok o /\ plain_module true ls o.
Proof.
  intros F. exists (fe_at f), [lit "CFI INIT 10 20 x"]. split; [now apply fe_job|].
  assert (W1 : one_word (lit "x86_64")) by (split; vm_compute; intuition discriminate).
  assert (W2 : one_word (lit "AB")) by (split; vm_compute; intuition discriminate).
  assert (W3 : one_word (lit "CD")) by (split; vm_compute; intuition discriminate).
  assert (PE : forall n, bytes_line n = true -> is_ws (last n 32) = false -> one_line n /\ (n = [] \/ exists t x, n = t ++ [x] /\ is_ws x = false)).
  { intros n B L. split; [now apply bytes_line_ok|]. destruct n as [|y n]; [now left|right]. exists (removelast (y :: n)), (last (y :: n) 32). split; [now apply app_removelast_last|exact L]. }
  destruct F as [<- |[<- |[]]]; unfold plain_module; (splits; [vm_compute; intuition discriminate|vm_compute; intuition discriminate| | | | ]);
    try (vm_compute; reflexivity); try (apply names_check; vm_compute; reflexivity); try (intros _; vm_compute; discriminate).
  - unfold clean_head. change (ob_cpu (fe_at (lit "/d/a.dll"))) with (lit "x86_64"). change (ob_debug_id (fe_at (lit "/d/a.dll"))) with (lit "AB"). change (ob_name (fe_at (lit "/d/a.dll"))) with (lit "x.pdb").
    change (ob_code_id (fe_at (lit "/d/a.dll"))) with (@None str). change (ob_pe_name (fe_at (lit "/d/a.dll"))) with (Some (lit "a.dll")).
    split; [exact W1|]. split; [exact W2|]. split; [apply bytes_line_ok; reflexivity|]. split; [exact I|]. apply PE; reflexivity.
  - unfold clean_head. change (ob_cpu (fe_at (lit "/d/b.dll"))) with (lit "x86_64"). change (ob_debug_id (fe_at (lit "/d/b.dll"))) with (lit "CD"). change (ob_name (fe_at (lit "/d/b.dll"))) with (lit "x.pdb").
    change (ob_code_id (fe_at (lit "/d/b.dll"))) with (@None str). change (ob_pe_name (fe_at (lit "/d/b.dll"))) with (Some (lit "b.dll")).
    split; [exact W1|]. split; [exact W3|]. split; [apply bytes_line_ok; reflexivity|]. split; [exact I|]. apply PE; reflexivity.
Qed.
Lemma fe_new : new_store (u_os fe_st) (lit "/s") fe_fs.
Proof.
  change (locate (os_cwd (u_os fe_st)) (lit "/s")) with [lit "s"]. split; change (locate (os_cwd (u_os fe_st)) (lit "/s")) with [lit "s"].
  - intros k K. assert (L : forall a b l, last (a :: b :: l) (lit "s") <> lit "s" -> k ++ [lit "s"] <> a :: b :: l).
    { intros a b l H E. apply H. rewrite <- E. apply last_last. }
    change fe_fs with (fs_set (fs_set (fs_set [] [lit "b.dll"; lit "d"] (NFile (lit "P2CD"))) [lit "a.dll"; lit "d"] (NFile (lit "P1AB"))) [lit "config"; lit ".dump_syms"; lit "h"] (NFile (lit "srv*/cache*https://s"))).
    rewrite !fs_get_other by (intros X; symmetry in X; revert X; apply L; vm_compute; discriminate). destruct (k ++ [lit "s"]) eqn:X; [now destruct k|reflexivity].
  - intros k up d E. destruct k as [|x k].
    + cbn in E. subst up. discriminate.
    + cbn in E. injection E as _ E. symmetry in E. apply app_eq_nil in E as (_ & ->). discriminate.
Qed.
Lemma fe_apart : store_apart fe_ext fe_sv fe_rs (lit "/s").
Proof.
  intros r c k I Ic. destruct (fe_kept r c I Ic) as (i & E & _). rewrite E. change (locate (os_cwd (ex_os fe_ext)) (lit "/s")) with [lit "s"]. split; intros X.
  - apply (f_equal (fun l => last l [])) in X. rewrite last_last in X. vm_compute in X. discriminate.
  - apply (f_equal (@length str)) in X. rewrite app_length in X. cbn in X. lia.
Qed.
(** The hypotheses hold, the program can end, and at the end the module of the
    second file is in the store and its PDB in the cache. *)
Example C87_ex_program : downloads (ma_ext fe_m) fe_fs fe_sv fe_rs fe_files /\ store_apart (ma_ext fe_m) fe_sv fe_rs (lit "/s") /\ new_store (u_os fe_st) (lit "/s") fe_fs /\
  all_read fe_st fe_files fe_fs /\ (forall f, In f fe_files -> exists o ls, snd (u_job fe_st fe_fs f) = Ok o /\ plain_module true ls o) /\ (exists v, program fe_m fe_argv fe_w v 0) /\
  forall v n, program fe_m fe_argv fe_w v n -> n = 0 /\ exists l ls d text rs, ob_debug_id d = lit "CD" /\ stored_at (u_os fe_st) (lit "/s") d l /\
    fs_get (w_fs v) l = Some (NFile (encode text)) /\ parse_file text = Some rs /\ object_records [] ls d rs.
Proof.
  assert (J : jobs_asked fe_m fe_c 2) by (right; split; [intros n (_ & ds & [<- |X] & Y); [discriminate Y|discriminate X]|reflexivity]).
  assert (OL : Forall one_line (info_of fe_m fe_c)) by constructor.
  splits; [exact fe_downloads|exact fe_apart|exact fe_new|exact fe_read|exact fe_plain| |].
  - apply (C87_program_ends fe_m fe_argv fe_w fe_c wm_p 0 (lit "/s") fe_sv fe_rs 2); [apply fe_asks|discriminate|apply mx_sorts|exact fe_sane|intros l; reflexivity|exact fe_downloads|exact fe_apart|exact fe_new|exact OL|exact fe_read|exact fe_plain|exact J|lia].
  - intros v n P. destruct (C87_program fe_m fe_argv fe_w v n fe_c wm_p 0 (lit "/s") fe_sv fe_rs fe_asks) as (E & _ & _ & F & _); [discriminate|apply mx_sorts|exact fe_sane|intros l; reflexivity|exact fe_downloads|exact fe_apart|exact fe_new|exact OL|exact fe_read|exact fe_plain|exact P|].
    split; [exact E|]. destruct (F (lit "/d/b.dll") (fe_at (lit "/d/b.dll"))) as (d & os & lss & ls & l & text & rs & M & Io & Sd & H & _ & _ & Pf & Or); [right; now left|apply fe_job; right; now left|].
    exists l, ls, d, text, rs. splits; auto. destruct M as (_ & IN & _). destruct (IN _ Io) as (_ & _ & _ & <-). vm_compute. reflexivity.
Qed.

(** A PE file in the directory where the PDB of another one is kept: which PDB it
    gets depends on the order. Nothing else is unusual. *)
Definition fe_beside : list str := [lit "/d/a.dll"; lit "/cache/x.pdb/AB/b.dll"].
Definition fe_fs2 : FS := [([lit "config"; lit ".dump_syms"; lit "h"], NFile (lit "srv*/cache*https://s")); ([lit "a.dll"; lit "d"], NFile (lit "P1AB"));
  ([lit "b.dll"; lit "AB"; lit "x.pdb"; lit "cache"], NFile (lit "P2CD")); ([lit "AB"; lit "x.pdb"; lit "cache"], NDir); ([lit "x.pdb"; lit "cache"], NDir); ([lit "cache"], NDir)].
Theorem C87_beside_refuted : exists u sv rs fs0 f g o o', configured (u_ext u) fs0 sv /\ healthy (u_os u) /\ Forall proper (os_cwd (u_os u)) /\ (forall js, Permutation (ex_sched (u_ext u) js) js) /\
  tidy (u_os u) sv fs0 (reqs (u_ext u) rs) /\ own_places (u_os u) sv (reqs (u_ext u) rs) /\
  snd (u_job u fs0 g) = Ok o /\ snd (u_job u (after u fs0 [f]) g) = Ok o' /\ ob_debug_id o <> ob_debug_id o'.
Proof.
  exists fe_st, fe_sv, fe_rs, fe_fs2, (lit "/d/a.dll"), (lit "/cache/x.pdb/AB/b.dll"). do 2 eexists. destruct (fe_tidy fe_fs2) as (T1 & T2).
  - intros i. change fe_fs2 with (firstn 2 fe_fs2 ++ ([lit "b.dll"; lit "AB"; lit "x.pdb"; lit "cache"], NFile (lit "P2CD")) :: skipn 3 fe_fs2). unfold fs_get. cbn [firstn skipn fe_fs2 app afind].
    repeat match goal with |- context [loc_eqb ?a ?b] => destruct (loc_eqb a b) eqn:E; [exfalso; apply loc_eqb_eq in E; first [apply (f_equal (@length str)) in E; discriminate E|apply (f_equal (fun l => hd [] l)) in E; vm_compute in E; discriminate E]|clear E] end. reflexivity.
  - intros k up d i E Hi Nk. assert (X : up = [] \/ up = [lit "cache"] \/ up = [lit "x.pdb"; lit "cache"] \/ up = [i; lit "x.pdb"; lit "cache"]).
    { destruct k as [|k1 [|k2 [|k3 [|k4 [|]]]]]; [easy|..]; cbn [app] in E; try discriminate; injection E; intros; subst; auto 10. }
    destruct X as [-> |[-> |[-> | ->]]]; try (vm_compute; discriminate). destruct Hi as [-> | ->]; vm_compute; discriminate.
  - splits; [apply fe_configured; reflexivity|intros l; reflexivity|apply fe_proper; vm_compute; reflexivity|intros js; apply Permutation_refl|exact T1|exact T2|vm_compute; reflexivity|vm_compute; reflexivity|vm_compute; discriminate].
Qed.
Print Assumptions C87_beside_refuted.
