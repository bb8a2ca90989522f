(** Path mappings (src/mapping.rs). *)
From Verif Require Import Base Str M_Source.

Notation c_open := 123%N.
Notation c_close := 125%N.
Notation c_eq := 61%N.

(** Hash maps from strings to strings are lists of pairs; only lookups are used. *)
Definition Vars := list (str * str).
Definition var_get (k : str) (m : Vars) : option str := afind str_eqb k m.
Definition var_insert (k v : str) (m : Vars) : Vars := (k, v) :: filter (fun kv => negb (str_eqb k (fst kv))) m.

(** /repo/src/mapping.rs:50-63 [ActionKind], [Action]. *)
Inductive Kind := KGroup (n : N) | KVar (v : str) | KDigest (upper : bool) | KNone.
Record Action := mkAction { ac_kind : Kind; ac_start : N; ac_end : N }.
(** /repo/src/mapping.rs:65-71. Regular expressions are kept as their source
    text; matching is an oracle. *)
Record Gen := mkGen { g_re : str; g_actions : list Action; g_mapping : str; g_files : list str }.

(** Slice of a vector with in-range bounds ([Panic] otherwise). *)
Definition slice (s : str) (a b : N) : res str :=
  if (a <=? b) && (b <=? lenN s) then Ok (firstn (N.to_nat (b - a)) (skipn (N.to_nat a) s)) else Panic "slice index out of range".

(** /repo/src/mapping.rs:106-116. *)
Definition action_kind (vars : Vars) (action : str) : option Kind :=
  if str_eqb action (lit "DIGEST") then Some (KDigest true)
  else if str_eqb action (lit "digest") then Some (KDigest false)
  else match var_get action vars with
  | Some v => Some (KVar v)
  | None => match parse_unsigned two64 action with Some n => Some (KGroup n) | None => None end
  end.

(** /repo/src/mapping.rs:91-125: the loop over the template; works on
    characters instead of bytes ('{' and '}' are single bytes in UTF-8).
    State: chunk_start, chunk_end, open, actions in reverse. *)
Fixpoint scan (vars : Vars) (mapping : str) (rest : str) (i start end_ : N) (open : bool) (acts : list Action)
    : res (N * list Action) :=
  match rest with
  | [] => Ok (start, acts)
  | c :: t =>
      if c =? c_open then scan vars mapping t (i + 1) start i true acts
      else if c =? c_close then
        if open then
          action <- slice mapping (end_ + 1) i ;;
          match action_kind vars action with
          | Some k => scan vars mapping t (i + 1) (i + 1) end_ false (mkAction k start end_ :: acts)
          | None => Err "Invalid action in mapping string"
          end
        else scan vars mapping t (i + 1) start end_ open acts
      else scan vars mapping t (i + 1) start end_ open acts
  end.

(** /repo/src/mapping.rs:82-141 [PathMappingGenerator::new]; [re_ok] tells
    whether [Regex::new] succeeds. *)
Definition gen_new (re_ok : str -> bool) (re mapping : str) (vars : Vars) (files : list str) : res Gen :=
  if re_ok re then
    ' sa <- scan vars mapping mapping 0 0 0 false [] ;;
    let '(start, acts) := sa in
    let acts := rev acts in
    Ok (mkGen re (if start <? lenN mapping then acts ++ [mkAction KNone start (lenN mapping)] else acts) mapping files)
  else Err "regex".

(** Environment of a lookup: regular-expression matching (groups by number) and
    the digest of a file (M_Digest). *)
Record MapEnv := mkMapEnv {
  me_caps : str -> str -> option (N -> option str);
  me_digest : bool -> str -> res str
}.
(** /repo/src/mapping.rs:146-173: the loop over actions (host: not Windows). *)
Fixpoint run_actions (e : MapEnv) (file : str) (caps : N -> option str) (mapping : str) (acts : list Action) (buf : str) : res (option str) :=
  match acts with
  | [] => Ok (Some buf)
  | a :: t =>
      chunk <- slice mapping (ac_start a) (ac_end a) ;;
      let buf := buf ++ chunk in
      match ac_kind a with
      | KGroup n => match caps n with
                    | Some g => run_actions e file caps mapping t (buf ++ g)
                    | None => Ok None
                    end
      | KVar v => run_actions e file caps mapping t (buf ++ v)
      | KDigest u => d <- me_digest e u file ;; run_actions e file caps mapping t (buf ++ d)
      | KNone => run_actions e file caps mapping t buf
      end
  end.
(** /repo/src/mapping.rs:144: [files.is_empty() || files.contains(file_str)]. *)
Definition listed (files : list str) (file : str) : bool :=
  match files with [] => true | _ => existsb (str_eqb file) files end.
(** /repo/src/mapping.rs:143-177 [apply]. *)
Definition gen_apply (e : MapEnv) (g : Gen) (file : str) : res (option str) :=
  if listed (g_files g) file then
    match me_caps e (g_re g) file with
    | Some caps => run_actions e file caps (g_mapping g) (g_actions g) []
    | None => Ok None
    end
  else Ok None.

(** A rule of the mapping file (/repo/src/mapping.rs:17-28). *)
Record Rule := mkRule { ru_source : str; ru_dest : str; ru_files : list str }.
(** Contents of the mapping file. *)
Record RuleFile := mkRuleFile { rf_vars : Vars; rf_rules : list Rule }.

(** [str::splitn(2, '=')]: text before and after the first '='. *)
Fixpoint split_eq (s : str) : str * option str :=
  match s with
  | [] => ([], None)
  | c :: t => if c =? c_eq then ([], Some t) else let '(a, b) := split_eq t in (c :: a, b)
  end.
(** /repo/src/mapping.rs:209-219 [get_variables]. *)
Definition get_variables (vars : option (list str)) : res Vars :=
  match vars with
  | None => Ok []
  | Some l => foldM (fun m v => match split_eq v with (k, Some x) => Ok (var_insert k x m) | (_, None) => Err "Invalid pair" end) l []
  end.
Definition opt_len {A} (o : option (list A)) : N := match o with Some l => lenN l | None => 0 end.
(** /repo/src/mapping.rs:221-249 [get_mappings]. *)
Definition get_mappings (re_ok : str -> bool) (vars : Vars) (sources dests : option (list str)) : res (list Gen) :=
  match sources, dests with
  | None, None => Ok []
  | _, _ =>
      if opt_len sources =? opt_len dests then
        match sources, dests with
        | Some ss, Some ds => mapM (fun sd => gen_new re_ok (fst sd) (snd sd) vars []) (combine ss ds)
        | _, _ => Panic "called `Option::unwrap()` on a `None` value"
        end
      else Err "mapping-src and mapping-dest must have the same number of elements"
  end.
(** /repo/src/mapping.rs:251-293 [get_mappings_from_file]; [file] is the result of
    reading and decoding the file, if there is one.
    [order] is the iteration order of the command-line variables. *)
Definition get_mappings_from_file (re_ok : str -> bool) (order : Vars -> Vars) (vars : Vars) (file : option (res RuleFile)) : res (list Gen) :=
  match file with
  | None => Ok []
  | Some (Err m) => Err m
  | Some (Panic m) => Panic m
  | Some (Ok f) =>
      let vs := fold_left (fun m kv => var_insert (fst kv) (snd kv) m) (order vars) (rf_vars f) in
      gs <- mapM (fun r => gen_new re_ok (ru_source r) (ru_dest r) vs (ru_files r)) (rf_rules f) ;;
      Ok (filter (fun g => negb (match g_files g with [] => true | _ => false end)) gs
          ++ filter (fun g => match g_files g with [] => true | _ => false end) gs)
  end.
(** /repo/src/mapping.rs:187-207 [PathMappings::new]. *)
Definition mappings_new (re_ok : str -> bool) (order : Vars -> Vars) (variables sources dests : option (list str)) (file : option (res RuleFile))
    : res (option (list Gen)) :=
  vars <- get_variables variables ;;
  a <- get_mappings_from_file re_ok order vars file ;;
  b <- get_mappings re_ok vars sources dests ;;
  Ok (match a ++ b with [] => None | gs => Some gs end).

(** /repo/src/mapping.rs:318-325: first rule that applies. *)
Fixpoint first_mapping (e : MapEnv) (gs : list Gen) (file : str) : res (option str) :=
  match gs with
  | [] => Ok None
  | g :: t => r <- gen_apply e g file ;; match r with Some s => Ok (Some s) | None => first_mapping e t file end
  end.
(** /repo/src/mapping.rs:295-336 [map] for a path that is valid UTF-8: answer
    and new cache. *)
Definition map_path (e : MapEnv) (gs : list Gen) (cache : Vars) (file : str) : res (option str) * Vars :=
  match var_get file cache with
  | Some r => (Ok (Some r), cache)
  | None =>
      match first_mapping e gs file with
      | Ok (Some r) => (Ok (Some r), var_insert file r cache)
      | x => (x, cache)
      end
  end.
