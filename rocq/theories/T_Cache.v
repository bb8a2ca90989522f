(** Theorems C40 to C43: symbol servers and caches. *)
From Verif Require Import Base Str Utf8 M_Path S_Path M_Fs S_Fs P_Fs M_Cache S_Cache P_Cache.

(** ** C40 *)
(** The servers of a configuration are those of its entries, in order. *)
Theorem C40_servers : forall home s r, parse_sympath home s = r <-> exists l, pieces entry_end s l /\ servers_of home l r.
Proof. exact config_iff. Qed.
Print Assumptions C40_servers.

(** A single entry; no entry describes two servers. *)
Theorem C40_entry : forall home e s, parse_srv home e = Some s <-> entry home e s.
Proof. intros. symmetry. apply entry_iff. Qed.
Print Assumptions C40_entry.

(** The argument wins over the configuration file; no server is no list. *)
Theorem C40_source : forall os fs home arg,
  (forall s, arg = Some s -> get_sym_servers os fs home arg = Ok (match parse_sympath home s with [] => None | l => Some l end)) /\
  (arg = None -> home = None -> get_sym_servers os fs home arg = Ok None) /\
  (forall h, arg = None -> home = Some h ->
     (fs_get fs (config_at os h) = None -> get_sym_servers os fs home arg = Ok None) /\
     (forall s, Forall scalar s -> fs_get fs (config_at os h) = Some (NFile (encode s)) ->
        get_sym_servers os fs home arg = Ok (match parse_sympath home s with [] => None | l => Some l end))).
Proof. exact servers_source. Qed.
Print Assumptions C40_source.
(** A configuration file that is a directory or no text ends the program. *)
Theorem C40_broken : forall os fs home arg, (is_panic (get_sym_servers os fs home arg) = true <-> broken_config os fs home arg) /\
  (forall m, get_sym_servers os fs home arg <> Err m).
Proof. exact servers_broken. Qed.
Print Assumptions C40_broken.
Definition cx_conf_os : Os := mkOs [lit "work"] (fun _ => true) (fun d => d) (fun _ => []).
Example C40_ex_source : get_sym_servers cx_conf_os [(config_at cx_conf_os (lit "/home/u"), NFile (encode (lit "srv*https://a")))] (Some (lit "/home/u")) None = Ok (Some [mkServer None (lit "https://a")]) /\
  get_sym_servers cx_conf_os [(config_at cx_conf_os (lit "/home/u"), NFile [255])] (Some (lit "/home/u")) (Some (lit "srv*https://b")) = Ok (Some [mkServer None (lit "https://b")]) /\
  is_panic (get_sym_servers cx_conf_os [(config_at cx_conf_os (lit "/home/u"), NFile [255])] (Some (lit "/home/u")) None) = true.
Proof. vm_compute. auto. Qed.

Example C40_ex : parse_sympath (Some (lit "/home/u")) (lit " SRV * ~/c * https://a ;nope;srv*https://b
srv;srv*a*b*c;Srv*~") =
  [mkServer (Some (lit "/home/u/c")) (lit "https://a"); mkServer None (lit "https://b"); mkServer None default_store; mkServer None (lit "~")].
Proof. vm_compute. reflexivity. Qed.
Example C40_ex_entry : entry None (lit " SRV *x* https://a ") (mkServer (Some (lit "x")) (lit "https://a")).
Proof. apply entry_iff. vm_compute. reflexivity. Qed.

(** ** C41 *)
(** Once downloaded through a server with a cache, a file is served from there:
    the same data, no request, whatever the network and the schedule. *)
Theorem C41_later_lookup : forall e n sched fs name id sv l d, healthy (ce_os e) -> proper name -> proper id ->
  uncached (ce_os e) fs sv (get_base name) id name -> not_nested (ce_os e) sv (get_base name) id name ->
  (forall js, Permutation (sched js) js) ->
  search_file e n sched fs name id (Some sv) = Ok l -> lk_data l = Some d -> (forall u, In u (lk_gets l) -> only_cached sv name id u) ->
  forall n' sched', search_file e n' sched' (lk_fs l) name id (Some sv) = Ok (mkLookup (Some d) (lk_fs l) []).
Proof. exact later_lookup. Qed.
Print Assumptions C41_later_lookup.

(** Empty and "Symbol Not Found" responses are neither returned nor stored. *)
Theorem C41_bad_response : forall e n sched fs name id sv l u buf, proper name -> proper id ->
  uncached (ce_os e) fs sv (get_base name) id name -> (forall js, Permutation (sched js) js) ->
  search_file e n sched fs name id (Some sv) = Ok l -> In u (lk_gets l) -> nt_get n u = Some buf -> ~ worth_caching buf ->
  lk_data l = None /\ lk_fs l = fs.
Proof.
  intros e n sched fs name id sv l u buf Hn Hi U P H Iu G W.
  destruct (lookup_inv _ _ _ _ _ _ _ _ Hn Hi U P H) as (us & _ & [[_ ->]|(u' & s & uss & _ & _ & _ & _ & _ & Eg & X)]); [contradiction|].
  rewrite Eg in Iu. destruct Iu as [<-|[]]. rewrite G in X. destruct X as [(_ & X)|(d & W' & _)]; [exact X|contradiction].
Qed.
Print Assumptions C41_bad_response.

(** A lookup that returns nothing leaves every file as it was. *)
Theorem C41_miss_unchanged : forall e n sched fs name id sv l, proper name -> proper id ->
  uncached (ce_os e) fs sv (get_base name) id name -> (forall js, Permutation (sched js) js) ->
  search_file e n sched fs name id (Some sv) = Ok l -> lk_data l = None -> lk_fs l = fs.
Proof.
  intros e n sched fs name id sv l Hn Hi U P H E.
  destruct (lookup_inv _ _ _ _ _ _ _ _ Hn Hi U P H) as (us & _ & [[_ ->]|(u' & s & uss & _ & _ & _ & _ & _ & _ & X)]); [reflexivity|].
  destruct (nt_get n u') as [buf|]; [|tauto]. destruct X as [(_ & _ & X)|(d & _ & X & _)]; [exact X|congruence].
Qed.
Print Assumptions C41_miss_unchanged.

(** Example: one server without and one with a cache; data starting with "MSCF"
    is an archive holding x.pdb. *)
Definition kx_os : Os := mkOs [lit "work"] (fun _ => true) (fun d => d) (fun _ => []).
Definition kx_env : CEnv := mkCEnv kx_os
  (fun d => match strip_prefix (lit "MSCF") d with Some t => Some [(lit "dir/x.pdb", Some t)] | None => None end) (fun _ => true).
Definition kx_sv : list SymbolServer := parse_sympath (Some (lit "/home/u")) (lit "srv*https://b;srv*~/c*https://a").
Definition kx_fs : FS := [([lit "home"], NDir); ([lit "u"; lit "home"], NDir); ([lit "work"], NDir)].
Definition kx_name : str := lit "x.pdb".
Definition kx_id : str := lit "ABC1".
Definition kx_url : str := lit "https://a/x.pdb/ABC1/x.pd_".
Definition kx_net : Net := mkNet (fun u => if str_eqb u kx_url then Some 200 else Some 404) (fun u => if str_eqb u kx_url then Some (lit "MSCFdata") else None).
Definition kx_down : Net := mkNet (fun _ => None) (fun _ => None).
Definition kx_fs1 : FS := match search_file kx_env kx_net (fun l => rev l) kx_fs kx_name kx_id (Some kx_sv) with Ok l => lk_fs l | _ => [] end.
Ltac proper_tac := unfold proper; splits; [discriminate|discriminate|discriminate|cbn; intuition discriminate].
Example C41_ex_names : proper kx_name /\ proper kx_id.
Proof. split; proper_tac. Qed.
Example C41_ex_uncached : uncached kx_os kx_fs kx_sv (get_base kx_name) kx_id kx_name /\ not_nested kx_os kx_sv (get_base kx_name) kx_id kx_name.
Proof.
  assert (E : caches kx_sv = [lit "/home/u/c"]) by (vm_compute; reflexivity). unfold uncached, not_nested. rewrite E. split.
  - intros c [<-|[]]. vm_compute. reflexivity.
  - intros c c' l [<-|[]] [<-|[]] H. apply (f_equal (@length str)) in H. rewrite app_length in H. destruct l; [reflexivity|cbn in H; lia].
Qed.
Example C41_ex_first : search_file kx_env kx_net (fun l => rev l) kx_fs kx_name kx_id (Some kx_sv) = Ok (mkLookup (Some (lit "data")) kx_fs1 [kx_url]) /\
  fs_get kx_fs1 (map lit ["x.pdb"; "ABC1"; "x.pdb"; "c"; "u"; "home"]%string) = Some (NFile (lit "MSCFdata")).
Proof. vm_compute. auto. Qed.
Example C41_ex_only_cached : only_cached kx_sv kx_name kx_id kx_url.
Proof.
  intros s us I (stem & c & E & ->) Iu. assert (Es : stem = lit "x.pd" /\ c = 98) by (apply (app_inj_tail (lit "x.pd") stem 98 c) in E; intuition).
  destruct Es as [-> ->]. assert (Esv : kx_sv = [mkServer None (lit "https://b"); mkServer (Some (lit "/home/u/c")) (lit "https://a")]) by (vm_compute; reflexivity).
  rewrite Esv in I. destruct I as [<-|[<-|[]]]; [|discriminate]. vm_compute in Iu. destruct Iu as [Iu|[Iu|[]]]; discriminate.
Qed.
Example C41_ex_later : search_file kx_env kx_down (fun l => l) kx_fs1 kx_name kx_id (Some kx_sv) = Ok (mkLookup (Some (lit "data")) kx_fs1 []).
Proof. vm_compute. reflexivity. Qed.
(** With two caches the second one is used too. *)
Example C41_ex_second : exists fs1, let sv := parse_sympath None (lit "srv*/p*https://b;srv*/q*https://a") in
  search_file kx_env kx_net (fun l => l) kx_fs kx_name kx_id (Some sv) = Ok (mkLookup (Some (lit "data")) fs1 [kx_url]) /\
  fs_get fs1 (map lit ["x.pdb"; "ABC1"; "x.pdb"; "p"]%string) = None /\
  fs_get fs1 (map lit ["x.pdb"; "ABC1"; "x.pdb"; "q"]%string) = Some (NFile (lit "MSCFdata")) /\
  search_file kx_env kx_down (fun l => l) fs1 kx_name kx_id (Some sv) = Ok (mkLookup (Some (lit "data")) fs1 []).
Proof. eexists. vm_compute. auto. Qed.
Example C41_ex_bad : exists l, search_file kx_env (mkNet (nt_head kx_net) (fun _ => Some (lit "Symbol Not Found: x"))) (fun l => l) kx_fs kx_name kx_id (Some kx_sv) = Ok l
  /\ lk_data l = None /\ lk_fs l = kx_fs /\ lk_gets l = [kx_url].
Proof. eexists. vm_compute. auto. Qed.

(** ** C42 *)
(** The claim fails: a file cut short by a crash is returned by every later
    lookup as if it were complete. *)
Theorem C42_truncated_served : forall e n sched fs fs' name id sv c data k, proper name -> proper id -> In c (caches sv) ->
  uncached (ce_os e) fs sv (get_base name) id name ->
  fs' = fs_set fs (entry_loc (ce_os e) c (get_base name) id name) (NFile (firstn k data)) -> ce_cab e (firstn k data) = None ->
  search_file e n sched fs' name id (Some sv) = Ok (mkLookup (Some (firstn k data)) fs' []).
Proof. exact truncated_served. Qed.
Print Assumptions C42_truncated_served.
Theorem C42_refuted : exists e n sched fs fs' name id sv c data d, In c (caches sv) /\
  uncached (ce_os e) fs sv (get_base name) id name /\
  crashed fs (entry_loc (ce_os e) c (get_base name) id name) data fs' /\
  search_file e n sched fs' name id (Some sv) = Ok (mkLookup (Some d) fs' []) /\ d <> data.
Proof.
  exists kx_env, kx_net, (fun l => l), kx_fs, (fs_set kx_fs (entry_loc kx_os (lit "/home/u/c") (get_base kx_name) kx_id kx_name) (NFile (firstn 3 (lit "complete")))),
    kx_name, kx_id, kx_sv, (lit "/home/u/c"), (lit "complete"), (lit "com").
  splits; [vm_compute; auto|apply C41_ex_uncached|exists 3%nat; cbn; split; [lia|reflexivity]|vm_compute; reflexivity|discriminate].
Qed.
Print Assumptions C42_refuted.

(** A full disk has the same effect without a crash: a short file is buffered
    and the error of the final flush is ignored. *)
Theorem C42_full_disk_refuted : exists e n sched fs name id sv l d n' sched' l' d', 
  search_file e n sched fs name id (Some sv) = Ok l /\ lk_data l = Some d /\
  search_file e n' sched' (lk_fs l) name id (Some sv) = Ok l' /\ lk_data l' = Some d' /\ lk_gets l' = [] /\ d <> d'.
Proof.
  exists (mkCEnv (mkOs [] (fun _ => true) (fun d => firstn 2 d) (fun _ => [])) (fun _ => None) (fun _ => true)),
    (mkNet (nt_head kx_net) (fun _ => Some (lit "data"))), (fun l => l), kx_fs, kx_name, kx_id, kx_sv.
  eexists. eexists. exists kx_down, (fun l => l). eexists. eexists.
  splits; [vm_compute; reflexivity|vm_compute; reflexivity|vm_compute; reflexivity|vm_compute; reflexivity|vm_compute; reflexivity|discriminate].
Qed.
Print Assumptions C42_full_disk_refuted.

(** What holds: a crash while only directories have been created leaves the
    file uncached, so that it is looked up on the network again. *)
Theorem C42_directories_partial : forall e fs fs' sv name id c, not_nested (ce_os e) sv (get_base name) id name -> In c (caches sv) ->
  uncached (ce_os e) fs sv (get_base name) id name ->
  dirs_added fs fs' (tl (entry_loc (ce_os e) c (get_base name) id name)) -> uncached (ce_os e) fs' sv (get_base name) id name.
Proof. exact dirs_only. Qed.
Print Assumptions C42_directories_partial.
Example C42_ex : dirs_added kx_fs (fs_set kx_fs [lit "c"; lit "u"; lit "home"] NDir) (tl (entry_loc kx_os (lit "/home/u/c") (get_base kx_name) kx_id kx_name)).
Proof.
  intros x. destruct (list_eq_dec str_eq_dec [lit "c"; lit "u"; lit "home"] x) as [<-|N]; [|left; now apply fs_get_other].
  right. splits; [vm_compute; reflexivity|vm_compute; reflexivity|]. exists [lit "ABC1"; lit "x.pdb"]. vm_compute. reflexivity.
Qed.

(** ** C43 *)
(** The candidates are probed and at most one of them that answered 200 is
    downloaded, whatever the order of the answers; nothing if none did. *)
Theorem C43_download : forall e n sched fs name id sv l, proper name -> proper id ->
  uncached (ce_os e) fs sv (get_base name) id name -> (forall js, Permutation (sched js) js) ->
  search_file e n sched fs name id (Some sv) = Ok l ->
  exists us, candidates sv name id us /\
  (((forall u, In u us -> nt_head n u <> Some 200) /\ l = mkLookup None fs []) \/
   (exists u, In u us /\ nt_head n u = Some 200 /\ lk_gets l = [u])).
Proof.
  intros e n sched fs name id sv l Hn Hi U P H.
  destruct (lookup_inv _ _ _ _ _ _ _ _ Hn Hi U P H) as (us & C & [X|(u & s & uss & I1 & I2 & _ & _ & _ & Eg & _)]); exists us; (split; [exact C|]); [now left|].
  right. exists u. auto.
Qed.
Print Assumptions C43_download.

(** The lookup gets as far as asking the servers exactly if the candidates can be
    asked for; it panics otherwise, without a request. *)
Theorem C43_nobody_answers : forall e n sched fs name id sv, proper name -> proper id ->
  uncached (ce_os e) fs sv (get_base name) id name -> (forall js, Permutation (sched js) js) ->
  can_be_asked (ce_url e) sv name id ->
  (forall us u, candidates sv name id us -> In u us -> nt_head n u <> Some 200) ->
  search_file e n sched fs name id (Some sv) = Ok (mkLookup None fs []).
Proof. exact nobody_answers. Qed.
Print Assumptions C43_nobody_answers.

Theorem C43_cannot_be_asked : forall e n sched fs name id sv, proper name -> proper id ->
  uncached (ce_os e) fs sv (get_base name) id name -> ~ can_be_asked (ce_url e) sv name id ->
  is_panic (search_file e n sched fs name id (Some sv)) = true.
Proof. exact cannot_be_asked. Qed.
Print Assumptions C43_cannot_be_asked.

(** With servers that keep no cache and answer every download with a plain file,
    the lookup returns one of the downloads. *)
Theorem C43_somebody_answers : forall e n sched fs name id sv us, proper name -> proper id ->
  caches sv = [] -> (forall js, Permutation (sched js) js) -> can_be_asked (ce_url e) sv name id -> candidates sv name id us ->
  (exists u, In u us /\ nt_head n u = Some 200) ->
  (forall u, In u us -> nt_head n u = Some 200 -> exists d, nt_get n u = Some d /\ worth_caching d /\ ce_cab e d = None) ->
  exists u, In u us /\ nt_head n u = Some 200 /\ search_file e n sched fs name id (Some sv) = Ok (mkLookup (nt_get n u) fs [u]).
Proof. exact somebody_answers. Qed.
Print Assumptions C43_somebody_answers.

(** The full claim fails for other names: the compressed name is formed by
    cutting the last byte. *)
Theorem C43_multibyte_refuted : exists e n sched fs name id sv, (forall u, ce_url e u = true) /\ proper name /\ proper id /\
  is_panic (search_file e n sched fs name id (Some sv)) = true.
Proof.
  exists kx_env, kx_net, (fun l => l), kx_fs, [120; 46; 233], kx_id, kx_sv. splits; [reflexivity|proper_tac|proper_tac|vm_compute; reflexivity].
Qed.
Print Assumptions C43_multibyte_refuted.

Example C43_ex_asked : can_be_asked (ce_url kx_env) kx_sv kx_name kx_id /\ ~ can_be_asked (ce_url kx_env) kx_sv [120; 46; 233] kx_id.
Proof.
  split.
  - right. exists (lit "x.pd"), 98. eexists. splits; [reflexivity|lia|exists (lit "x.pd"), 98; split; reflexivity|]. apply Forall_forall. reflexivity.
  - intros [X|(stem & c & us & E & H & _)]; [discriminate X|]. apply (app_inj_tail [120; 46] stem 233 c) in E as (_ & <-). lia.
Qed.
Example C43_ex_plain : let sv := [mkServer None (lit "https://b"); mkServer None (lit "https://a")] in
  caches sv = [] /\ search_file kx_env (mkNet (nt_head kx_net) (fun _ => Some (lit "data"))) (fun l => rev l) kx_fs kx_name kx_id (Some sv) = Ok (mkLookup (Some (lit "data")) kx_fs [kx_url]).
Proof. vm_compute. auto. Qed.
Example C43_ex_candidates : exists js, get_jobs kx_env kx_sv kx_id kx_name kx_name = Ok js /\
  map cj_url js = [lit "https://b/x.pdb/ABC1/x.pdb"; lit "https://b/x.pdb/ABC1/x.pd_"; lit "https://a/x.pdb/ABC1/x.pdb"; lit "https://a/x.pdb/ABC1/x.pd_"].
Proof. eexists. vm_compute. auto. Qed.
Example C43_ex_race : exists l1 l2, let net := mkNet (fun u => Some 200) (fun u => Some (lit "d")) in
  search_file kx_env net (fun l => l) kx_fs kx_name kx_id (Some kx_sv) = Ok l1 /\
  search_file kx_env net (fun l => rev l) kx_fs kx_name kx_id (Some kx_sv) = Ok l2 /\
  lk_gets l1 = [lit "https://b/x.pdb/ABC1/x.pdb"] /\ lk_gets l2 = [kx_url].
Proof. do 2 eexists. vm_compute. auto. Qed.
