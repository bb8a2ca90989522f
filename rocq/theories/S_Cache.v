(** Specification of symbol servers, caches and lookups. *)
From Verif Require Import Base Str Utf8 M_Path M_Fs S_Fs M_Cache S_Path.

(** *** Configuration *)
Definition is_blank (s : str) : Prop := Forall (fun c => is_ws c = true) s.
(** [t] is [s] without blanks at both ends. *)
Definition trimmed (s t : str) : Prop :=
  exists a b, s = a ++ t ++ b /\ is_blank a /\ is_blank b /\
    (forall c u, t = c :: u -> is_ws c = false) /\ (forall c u, t = u ++ [c] -> is_ws c = false).
Definition srv_word (s : str) : Prop := exists t, trimmed s t /\ ci t (lit "srv").
Definition no_star (s : str) : Prop := ~ In 42 s.
(** The home directory in place of a leading '~'. *)
Definition tilde (home : option str) (s t : str) : Prop :=
  match home with
  | Some h => (exists u, s = 126 :: u /\ t = h ++ u) \/ ((forall u, s <> 126 :: u) /\ t = s)
  | None => t = s
  end.
(** Server described by an entry. *)
Inductive entry (home : option str) : str -> SymbolServer -> Prop :=
| ent_default e : no_star e -> srv_word e -> entry home e (mkServer None (lit "https://msdl.microsoft.com/download/symbols"))
| ent_store a s s' : no_star a -> no_star s -> srv_word a -> trimmed s s' -> entry home (a ++ 42 :: s) (mkServer None s')
| ent_cache a c s c' c'' s' : no_star a -> no_star c -> no_star s -> srv_word a -> trimmed c c' -> trimmed s s' -> tilde home c' c'' ->
    entry home (a ++ 42 :: c ++ 42 :: s) (mkServer (Some c'') s').
(** Splitting at separators: pieces without separators, joined by them. *)
Inductive pieces (sep : N -> bool) : str -> list str -> Prop :=
| pc_one s : Forall (fun c => sep c = false) s -> pieces sep s [s]
| pc_more s c t l : Forall (fun c => sep c = false) s -> sep c = true -> pieces sep t l -> pieces sep (s ++ c :: t) (s :: l).
(** Entries end at a semicolon or line break. *)
Definition entry_end (c : N) : bool := (c =? 59) || (c =? 10).
(** The servers of the entries that describe one, in order. *)
Inductive servers_of (home : option str) : list str -> list SymbolServer -> Prop :=
| so_nil : servers_of home [] []
| so_yes e s l r : entry home e s -> servers_of home l r -> servers_of home (e :: l) (s :: r)
| so_no e l r : (forall s, ~ entry home e s) -> servers_of home l r -> servers_of home (e :: l) r.

(** *** Lookups *)
(** Candidate URLs. *)
Definition candidates (servers : list SymbolServer) (name id : str) (urls : list str) : Prop :=
  exists stem c, name = stem ++ [c] /\
  urls = flat_map (fun s => (sv_server s ++ lit "/" ++ name ++ lit "/" ++ id ++ lit "/" ++ name) ::
    (if c =? 95 then [] else [sv_server s ++ lit "/" ++ name ++ lit "/" ++ id ++ lit "/" ++ stem ++ lit "_"])) servers.
(** The candidates exist as URLs: the last character of the name is one byte
    long, so that it can be replaced, and all of them are valid URLs. *)
Definition can_be_asked (valid : str -> bool) (servers : list SymbolServer) (name id : str) : Prop :=
  servers = [] \/ exists stem c us, name = stem ++ [c] /\ c < 128 /\ candidates servers name id us /\ Forall (fun u => valid u = true) us.
(** Where a cache keeps a file: cache/base/id/name. *)
Definition entry_loc (os : Os) (cache base id name : str) : Loc := name :: id :: base :: locate (os_cwd os) cache.
Definition caches (servers : list SymbolServer) : list str := filter_map sv_cache servers.
(** No cache keeps the file inside the place where another would. *)
Definition not_nested (os : Os) (servers : list SymbolServer) (base id name : str) : Prop :=
  forall c c' l, In c (caches servers) -> In c' (caches servers) ->
    entry_loc os c' base id name = l ++ entry_loc os c base id name -> l = [].
(** The data is stored in no cache. *)
Definition uncached (os : Os) (fs : FS) (servers : list SymbolServer) (base id name : str) : Prop :=
  forall c, In c (caches servers) -> fs_get fs (entry_loc os c base id name) = None.
(** What a crash in the middle of writing [data] to [l] leaves: the state
    before the file was created or any beginning of the data. *)
Definition crashed (before : FS) (l : Loc) (data : list N) (fs : FS) : Prop :=
  exists k, (k <= length data)%nat /\ fs = fs_set before l (NFile (firstn k data)).
(** A response that is kept: not empty and not "Symbol Not Found...". *)
Definition worth_caching (d : list N) : Prop := d <> [] /\ forall t, d <> lit "Symbol Not Found" ++ t.
(** Every server that may have given [u] has a cache. *)
Definition only_cached (sv : list SymbolServer) (name id u : str) : Prop :=
  forall s us, In s sv -> candidates [s] name id us -> In u us -> sv_cache s <> None.

(** The configuration file in the home directory. *)
Definition config_at (os : Os) (h : str) : Loc := lit "config" :: lit ".dump_syms" :: locate (os_cwd os) h.
(** It is asked, there, and no text. *)
Definition broken_config (os : Os) (fs : FS) (home arg : option str) : Prop :=
  arg = None /\ exists h, home = Some h /\
    (fs_get fs (config_at os h) = Some NDir \/ exists d, fs_get fs (config_at os h) = Some (NFile d) /\ forall s, Forall scalar s -> d <> encode s).
