(** Specification of several files that have their PDBs downloaded. *)
From Verif Require Import Base Str Utf8 M_Path S_Path M_Source M_Symbol M_Object M_Fs S_Fs M_Cache S_Cache M_Store M_Input S_Input M_Sched M_Many M_Shared S_Shared M_Beside S_Beside.

(** Names and debug ids of PDBs, as requests. *)
Definition reqs (x : Ext) (rs : list (str * str)) : list Req := map (fun p => mkReq (fst p) (snd p) (ex_sched x)) rs.
(** Different PDBs are kept at different places. *)
Definition own_places (os : Os) (sv : list SymbolServer) (qs : list Req) : Prop :=
  forall r r' c c', In r qs -> In r' qs -> In c (caches sv) -> In c' (caches sv) -> kept_at os r c = kept_at os r' c' -> r = r'.
(** What may be different from [fs0]: there are new directories above places where
    PDBs are kept, and a PDB that was in no cache may be kept at one of its places,
    as a file that gives what looking the PDB up gave at first. *)
Definition fetched (x : Ext) (sv : list SymbolServer) (rs : list (str * str)) (fs0 fs : FS) : Prop := forall l,
  fs_get fs l = fs_get fs0 l \/
  (fs_get fs0 l = None /\ fs_get fs l = Some NDir /\ exists r c k, In r (reqs x rs) /\ In c (caches sv) /\ kept_at (ex_os x) r c = k ++ l /\ k <> []) \/
  (exists r c raw d, In r (reqs x rs) /\ In c (caches sv) /\ l = kept_at (ex_os x) r c /\ (forall c', In c' (caches sv) -> fs_get fs0 (kept_at (ex_os x) r c') = None) /\
    fs_get fs l = Some (NFile raw) /\ unpacked (ex_cab x) raw (rq_name r) d /\ by_itself (ex_env x) (ex_net x) sv fs0 r = Ok (Some d)).
(** No PDB is kept there. *)
Definition elsewhere (os : Os) (sv : list SymbolServer) (qs : list Req) (l : Loc) : Prop :=
  forall r c, In r qs -> In c (caches sv) -> l <> kept_at os r c.
(** The files are there and have names, no PDB is kept beside one of them; the PDB
    of a PE file is among [rs], and none is kept where it is looked for before
    servers are asked. *)
Definition in_place (x : Ext) (sv : list SymbolServer) (rs : list (str * str)) (fs0 : FS) (files : list str) : Prop := forall f, In f files ->
  exists n raw, last_name f n /\ fs_get fs0 (locate (os_cwd (ex_os x)) f) = Some (NFile raw) /\
  (forall m, elsewhere (ex_os x) sv (reqs x rs) (m :: tl (locate (os_cwd (ex_os x)) f))) /\
  forall d pe recorded p, unpacked (ex_cab x) raw n d -> ps_peek (ex_ps x) d = FmtPe -> ps_pe (ex_ps x) d = Some pe -> pf_pdb pe = Some recorded -> slashed_path recorded p ->
    nameless p \/
    exists k, last_name p k /\ In (k, pa_debug_id (pf_obj pe)) rs /\ elsewhere (ex_os x) sv (reqs x rs) (locate (os_cwd (ex_os x)) p) /\
      elsewhere (ex_os x) sv (reqs x rs) (k :: tl (os_cwd (ex_os x))).
(** The configuration file in the home directory names the servers [sv]. *)
Definition configured (x : Ext) (fs0 : FS) (sv : list SymbolServer) : Prop := exists h s l,
  ex_home x = Some h /\ fs_get fs0 (config_at (ex_os x) h) = Some (NFile (encode s)) /\ Forall scalar s /\ pieces entry_end s l /\ servers_of (Some h) l sv /\ sv <> [].
(** What the downloads need. *)
Definition downloads (x : Ext) (fs0 : FS) (sv : list SymbolServer) (rs : list (str * str)) (files : list str) : Prop :=
  configured x fs0 sv /\ healthy (ex_os x) /\ Forall proper (os_cwd (ex_os x)) /\ (forall js, Permutation (ex_sched x js) js) /\
  tidy (ex_os x) sv fs0 (reqs x rs) /\ own_places (ex_os x) sv (reqs x rs) /\ in_place x sv rs fs0 files.
(** No PDB is kept in the store or above it. *)
Definition store_apart (x : Ext) (sv : list SymbolServer) (rs : list (str * str)) (dir : str) : Prop := forall r c k,
  In r (reqs x rs) -> In c (caches sv) ->
  kept_at (ex_os x) r c <> k ++ locate (os_cwd (ex_os x)) dir /\ locate (os_cwd (ex_os x)) dir <> k ++ kept_at (ex_os x) r c.
