(** Proofs about what downloads leave behind. *)
From Verif Require Import Base Str Utf8 M_Path S_Path P_Path M_Source M_Symbol M_Object M_Fs S_Fs P_Fs M_Cache S_Cache P_Cache M_Store M_Input P_Input M_Sched M_Many M_Shared S_Shared S_Added.
Local Open Scope N_scope.

Lemma file_name_proper s n : path_file_name s = Some n -> proper n.
Proof.
  unfold path_file_name, components. pose proof (split_on_pieces is_slash s) as F.
  assert (G : forall b p, forallb (fun c => negb (is_slash c)) p = true -> In (Normal n) (piece_comp b p) -> proper n).
  { intros b p Fp I. unfold piece_comp in I. destruct (str_eqb p []) eqn:E1; [easy|]. destruct (str_eqb p (lit ".")) eqn:E2; [destruct b; cbn in I; intuition discriminate|].
    destruct (str_eqb p (lit "..")) eqn:E3; [cbn in I; intuition discriminate|]. destruct I as [[= <-]|[]]. unfold proper. splits.
    - intros ->. now rewrite (proj2 (str_eqb_eq _ _) eq_refl) in E1.
    - intros ->. now rewrite (proj2 (str_eqb_eq _ _) eq_refl) in E2.
    - intros ->. now rewrite (proj2 (str_eqb_eq _ _) eq_refl) in E3.
    - intros I. rewrite forallb_forall in Fp. specialize (Fp 47 I). discriminate Fp. }
  destruct (split_on is_slash s) as [|p0 ps]; [discriminate|]. inversion F as [|? ? F0 Fs]; subst.
  destruct (last_opt _) as [y|] eqn:L; [|discriminate]. destruct y as [| | |m]; try discriminate. intros [= ->].
  apply last_opt_some in L as (l & L).
  assert (I : In (Normal n) ((if starts_with [c_slash] s then [RootDir] else piece_comp true p0) ++ flat_map (piece_comp false) ps)) by (rewrite L; apply in_or_app; right; now left).
  apply in_app_or in I as [I|I].
  - destruct (starts_with _ _); [destruct I as [X|[]]; discriminate X|]. exact (G true p0 F0 I).
  - apply in_flat_map in I as (p & Ip & I). rewrite Forall_forall in Fs. exact (G false p (Fs p Ip) I).
Qed.

Section Added.
Variable os : Os.
Variable sv : list SymbolServer.
Variable W : str -> str -> Prop.
Lemma added_refl fs : added os sv W fs fs.
Proof. intros l. now left. Qed.
Lemma added_some fs fs' l n : added os sv W fs fs' -> fs_get fs l = Some n -> fs_get fs' l = Some n.
Proof. intros A G. destruct (A l) as [E|(E & _)]; congruence. Qed.
Lemma added_trans a b c : added os sv W a b -> added os sv W b c -> added os sv W a c.
Proof.
  intros A B l. destruct (A l) as [E|(E & c0 & name & id & I & Wn & Pn & Pi & D)].
  - rewrite <- E. destruct (B l) as [F|(F & X)]; [now left|]. right. auto.
  - right. split; [exact E|]. exists c0, name, id. splits; trivial. destruct D as [(-> & d & D)|(D & X)]; [left; split; [reflexivity|]; exists d|right; split; [|exact X]]; now apply (added_some b c).
Qed.
End Added.

Lemma copy_added e sv (W : str -> str -> Prop) fs s c id name d b fs' : let base := get_base name in W name id -> In s sv -> sv_cache s = Some c -> proper base -> proper id -> proper name -> fs_get fs (entry_loc (ce_os e) c base id name) = None ->
  copy_in_cache e fs (Some (entry_path c base id name)) d = Ok (b, fs') -> added (ce_os e) sv W fs fs'.
Proof.
  intros base Wn Is Sc Hb Hi Hn U H. set (os := ce_os e) in *. set (K := entry_loc os c base id name) in *.
  assert (Ic : In c (caches sv)).
  { clear - Is Sc. unfold caches. induction sv as [|y t IH]; [easy|]. cbn [filter_map]. destruct Is as [-> |Is]; [rewrite Sc; now left|]. destruct (sv_cache y); [right|]; auto. }
  unfold copy_in_cache in H. destruct d as [|x d]; [injection H as _ <-; apply added_refl|]. destruct (starts_with _ _); [injection H as _ <-; apply added_refl|].
  apply bind_ok in H as (fs1 & H1 & H). unfold entry_path in H1, H. set (q := path_push (path_push c base) id) in *.
  assert (LQ : locate (os_cwd os) q = id :: base :: locate (os_cwd os) c) by (unfold q; now rewrite !locate_push).
  assert (D : dirs_added fs fs1 (locate (os_cwd os) q)).
  { destruct (path_parent (path_push q name)) as [z|] eqn:P.
    - destruct (path_exists (ce_os e) fs z); [inversion H1; subst; intros y; now left|]. unfold create_dir_all in H1.
      rewrite (locate_parent _ _ _ _ Hn P) in H1. destruct (mkdirs _ _ _) as [f|] eqn:M; [|discriminate]. inversion H1; subst. now apply mkdirs_spec in M.
    - inversion H1; subst. intros y. now left. }
  destruct (file_create (ce_os e) fs1 (path_push q name)) as [fs2|] eqn:F; [|discriminate]. apply file_create_spec in F as (_ & -> & _).
  unfold buf_write in H. fold os in H. rewrite locate_push, LQ in H by exact Hn. change (name :: id :: base :: locate (os_cwd os) c) with K in H.
  destruct (str_eqb _ _); [|discriminate]. injection H as _ <-. assert (NK : K <> []) by discriminate. rewrite LQ in D.
  intros l. destruct (list_eq_dec str_eq_dec l K) as [-> |Nl].
  - right. split; [exact U|]. exists c, name, id. splits; trivial. left. split; [reflexivity|]. eexists. now apply fs_get_same.
  - rewrite !fs_get_other by congruence. destruct (D l) as [X|(X1 & X2 & k & X3)]; [now left|]. right. split; [exact X1|]. exists c, name, id. splits; trivial. right. split; [exact X2|].
    exists (name :: k). split; [|discriminate]. cbn [app]. now rewrite <- X3.
Qed.
Lemma search_added e n sched fs name id sv (W : str -> str -> Prop) lk : W name id -> proper name -> proper id -> (forall js, Permutation (sched js) js) -> search_file e n sched fs name id (Some sv) = Ok lk -> added (ce_os e) sv W fs (lk_fs lk).
Proof.
  intros Wn Hn Hi P H. pose proof (base_proper _ Hn) as Hb.
  destruct (search_in_cache e fs sv id (get_base name) name) as [p|] eqn:S.
  { rewrite (search_file_cached _ _ _ _ _ _ _ _ (proj1 Hn) S) in H. apply bind_ok in H as (d & _ & H). injection H as <-. apply added_refl. }
  apply (search_none e fs sv id _ _ Hb Hi Hn) in S.
  destruct (lookup_inv _ _ _ _ _ _ _ _ Hn Hi S P H) as (us & _ & [(_ & ->)|(u & s & uss & _ & _ & Is & _ & _ & _ & M)]); [apply added_refl|].
  destruct (nt_get n u) as [buf|]; [|destruct M as (_ & ->); apply added_refl]. destruct M as [(_ & _ & ->)|(d & Wc & D & Rc & C)]; [apply added_refl|].
  destruct (sv_cache s) as [c|] eqn:Sc; cbn [option_map] in C.
  - assert (Ic : In c (caches sv)).
    { clear - Is Sc. unfold caches. induction sv as [|y t IH]; [easy|]. cbn [filter_map]. destruct Is as [-> |Is]; [rewrite Sc; now left|]. destruct (sv_cache y); [right|]; auto. }
    exact (copy_added e sv W fs s c id name buf true _ Wn Is Sc Hb Hi Hn (S c Ic) C).
  - unfold copy_in_cache in C. destruct buf; [discriminate|]. destruct (starts_with _ _); [discriminate|]. injection C as C. rewrite <- C. apply added_refl.
Qed.

Section Load.
Variable x : Ext.
Hypothesis SC : forall js, Permutation (ex_sched x js) js.
Hypothesis ID : proper_ids x.
Notation os := (ex_os x).

Lemma named_iff arg fs sv : get_sym_servers os fs (ex_home x) arg = Ok (Some sv) <-> named_servers x arg fs sv.
Proof.
  split.
  - intros H.
    assert (A : forall s, read_config_from_str (ex_home x) s = Some sv -> exists l, pieces entry_end s l /\ servers_of (ex_home x) l sv /\ sv <> []).
    { intros s E. unfold read_config_from_str in E. destruct (parse_sympath (ex_home x) s) as [|y t] eqn:Q; [discriminate|]. injection E as <-. apply config_iff in Q as (l & L1 & L2). exists l. splits; auto. discriminate. }
    destruct arg as [s|]; cbn [get_sym_servers] in H.
    + injection H as H. destruct (A s H) as (l & L). exists s, l. split; [now left|exact L].
    + unfold read_config in H. destruct (ex_home x) as [h|] eqn:Hh; [|discriminate]. rewrite config_located in H. destruct (fs_get fs _) as [[d|]|] eqn:G; [|discriminate..]. destruct (decode d) as [s|] eqn:Dd; [|discriminate].
      injection H as H. destruct (A s H) as (l & L). apply decode_spec in Dd as (F & ->). exists s, l. rewrite Hh. split; [right; split; [reflexivity|]; exists h; auto|exact L].
  - intros (s & l & A & P & S & N). assert (E : parse_sympath (ex_home x) s = sv) by (apply config_iff; now exists l). destruct (servers_source os fs (ex_home x) arg) as (Q1 & _ & Q3). destruct A as [-> |(-> & h & Hh & G & F)].
    + rewrite (Q1 s eq_refl), E. destruct sv; [easy|reflexivity].
    + rewrite (proj2 (Q3 h eq_refl Hh) s F G), E. destruct sv; [easy|reflexivity].
Qed.
Lemma kept_refl arg W fs : kept_there x arg W fs fs.
Proof. now left. Qed.
Lemma kept_trans arg W a b c : kept_there x arg W a b -> kept_there x arg W b c -> kept_there x arg W a c.
Proof.
  intros [E|(sv & S & A)] B.
  - destruct B as [F|(sv & S & B)]; [left; intros l; now rewrite F, E|]. right. exists sv. split.
    + destruct S as (s & l & [-> |(-> & h & Hh & G & Fs)] & L); exists s, l; (split; [|exact L]); [now left|right]. split; [reflexivity|]. exists h. rewrite <- E. auto.
    + intros l. rewrite <- E. apply B.
  - right. exists sv. split; [exact S|]. destruct B as [F|(sv' & S' & B)]; [intros l; rewrite F; apply A|].
    assert (S2 : named_servers x arg b sv).
    { destruct S as (s & l & [-> |(-> & h & Hh & G & Fs)] & L); exists s, l; (split; [|exact L]); [now left|right]. split; [reflexivity|]. exists h. splits; auto. now apply (added_some os sv W a b). }
    apply named_iff in S', S2. assert (sv' = sv) by congruence. subst sv'. exact (added_trans _ _ _ _ _ _ A B).
Qed.
Lemma search_kept arg (W : str -> str -> Prop) fs name id servers l : W name id -> get_sym_servers os fs (ex_home x) arg = Ok servers -> proper name -> proper id ->
  search_file (ex_env x) (ex_net x) (ex_sched x) fs name id servers = Ok l -> kept_there x arg W fs (lk_fs l).
Proof.
  intros Wn G Hn Hi H. destruct servers as [sv|].
  - right. exists sv. split; [now apply named_iff|]. exact (search_added _ _ _ _ _ _ _ W _ Wn Hn Hi SC H).
  - unfold search_file in H. destruct name; injection H as <-; apply kept_refl.
Qed.
Lemma kept_more arg (W W' : str -> str -> Prop) a b : (forall n i, W n i -> W' n i) -> kept_there x arg W a b -> kept_there x arg W' a b.
Proof.
  intros I [E|(sv & S & A)]; [now left|]. right. exists sv. split; [exact S|]. intros l. destruct (A l) as [E|(E & c & n & i & Ic & Wn & R)]; [now left|]. right. split; [exact E|]. exists c, n, i. auto.
Qed.
Lemma info_kept e fs buf path name arch server : kept_there x server (recorded_pdb x) fs (fst (get_object_info x e fs buf path name arch server)).
Proof.
  unfold get_object_info. destruct (ps_peek (ex_ps x) buf); try apply kept_refl.
  assert (A : kept_there x server (recorded_pdb x) fs (fst (get_pe_pdb_object_info x e fs buf path name server))).
  { unfold get_pe_pdb_object_info. destruct (get_sym_servers _ _ _ _) as [sv|m|m] eqn:GS; cbn [bind fst]; [|apply kept_refl..].
    destruct (get_pe_pdb_buf x fs path buf sv) as [[r g]|m|m] eqn:G; cbn [fst]; [|apply kept_refl..].
    assert (B : kept_there x server (recorded_pdb x) fs g); [|destruct r as [[[pe b] nm]|]; exact B]. unfold get_pe_pdb_buf in G. destruct (ps_pe (ex_ps x) buf) as [pe|] eqn:Pe; [|discriminate]. destruct (pf_pdb pe) as [f|] eqn:Pf; [|injection G as _ <-; apply kept_refl].
    destruct (os_specific_try_to_find_pdb _ _ _ _ _) as [[d nm]|m|m] eqn:T; cbn [bind] in G; [|discriminate..]. destruct nm as [|y nm]; [injection G as _ <-; apply kept_refl|]. destruct d as [d|]; [injection G as _ <-; apply kept_refl|].
    destruct (search_file _ _ _ _ _ _ _) as [l|m|m] eqn:S; cbn [bind] in G; [|discriminate..]. injection G as _ <-. unfold os_specific_try_to_find_pdb in T. destruct (path_file_name (unix_path f)) as [k|] eqn:Fn; [|discriminate]. destruct (if is_file _ _ _ then _ else _) as [z|m|m]; cbn [bind] in T; [|discriminate..]. injection T as _ Tn. rewrite <- Tn in S. refine (search_kept _ _ _ _ _ _ _ _ GS (file_name_proper _ _ Fn) (ID _ _ Pe) S). now exists buf, pe, f. }
  destruct (get_pe_pdb_object_info x e fs buf path name server) as [g [o|m|m]]; exact A.
Qed.
Lemma load_kept e cf fs f : (forall i, cf_debug_id cf = Some i \/ cf_code_id cf = Some i -> proper i) -> kept_there x (cf_symbol_server cf) (asked_for x cf f) fs (fst (load_file x e cf fs f)).
Proof.
  intros PI. unfold load_file. destruct (get_filename f) as [nm|m|m] eqn:Fn; cbn [next fst]; [|apply kept_refl..].
  assert (Hn : proper nm) by (unfold get_filename in Fn; destruct (path_file_name f) as [k|] eqn:E; [|discriminate]; injection Fn as <-; exact (file_name_proper _ _ E)).
  assert (A : kept_there x (cf_symbol_server cf) (asked_for x cf f) fs (fst (get_from_id x cf fs f nm))).
  { unfold get_from_id. destruct (match cf_debug_id cf with Some i => Some i | None => _ end) as [id|] eqn:Ei; [|apply kept_refl]. destruct (get_sym_servers _ _ _ _) as [sv|m|m] eqn:GS; cbn [bind fst]; [|apply kept_refl..].
    destruct (search_file _ _ _ _ _ _ _) as [l|m|m] eqn:S; cbn [fst]; [|apply kept_refl..]. refine (search_kept _ _ _ _ _ _ _ _ GS Hn _ S); [|apply PI; destruct (cf_debug_id cf); [left|right]; congruence]. left. split; [unfold get_filename in Fn; destruct (path_file_name f); [now injection Fn as ->|discriminate]|]. destruct (cf_debug_id cf); [left|right]; auto. }
  destruct (get_from_id x cf fs f nm) as [g [b|m|m]]; cbn [next fst] in A |- *; [|exact A..]. destruct (cf_map cf) as [mp|m|m]; cbn [next fst]; [|exact A..].
  destruct (cf_arch cf) as [arch|]; [|exact A]. refine (kept_trans _ _ _ _ _ A (kept_more _ _ _ _ _ _ (info_kept _ _ _ _ _ _ _))). intros n i R. now right.
Qed.
End Load.
Lemma job_kept u fs f : (forall js, Permutation (ex_sched (u_ext u) js) js) -> proper_ids (u_ext u) -> kept_there (u_ext u) None (recorded_pdb (u_ext u)) fs (fst (u_job u fs f)).
Proof.
  intros SC ID. unfold u_job, get_job. destruct (get_filename f) as [nm|m|m]; cbn [next fst]; [|apply kept_refl..]. destruct (read_file _ _ _ _) as [b|m|m]; cbn [next fst]; [|apply kept_refl..]. now apply info_kept.
Qed.
Lemma after_kept u l : (forall js, Permutation (ex_sched (u_ext u) js) js) -> proper_ids (u_ext u) -> forall fs, kept_there (u_ext u) None (recorded_pdb (u_ext u)) fs (after u fs l).
Proof.
  intros SC ID. unfold after. induction l as [|f l IH]; intros fs; [apply kept_refl|]. cbn [fold_left]. eapply kept_trans; [now apply job_kept|apply IH].
Qed.
