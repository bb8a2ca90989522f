(** Specification of path mappings. *)
From Verif Require Import Base Str M_Mapping.

(** A template: literal text and {actions}, then literal text. Literal text
    holds no '{' with a '}' after it; actions hold no brace. *)
Definition literal (t : str) : Prop := forall a b, t = a ++ 125 :: b -> ~ In 123 a.
Definition action_text (t : str) : Prop := ~ In 123 t /\ ~ In 125 t.
Definition decomposed (s : str) (parts : list (str * str)) (tail : str) : Prop :=
  Forall (fun p => literal (fst p) /\ action_text (snd p)) parts /\ literal tail /\
  s = concat (map (fun p => fst p ++ 123 :: snd p ++ [125]) parts) ++ tail.
(** Meaning of an action: digest, variable or regex group. *)
Inductive Meaning := MGroup (n : N) | MVar (v : str) | MDigest (upper : bool).
(** [x] is the value of the variable [k]. *)
Definition stands (vars : Vars) (k x : str) : Prop := exists a b, vars = a ++ (k, x) :: b /\ ~ In k (map fst a).
(** [a] is the decimal number [n], which fits in 64 bits. *)
Definition number (a : str) (n : N) : Prop := n < 2 ^ 64 /\ exists ds, (a = ds \/ a = 43 :: ds) /\ read_dec ds = Some n.
Definition means (vars : Vars) (a : str) (m : Meaning) : Prop :=
  (a = lit "DIGEST" /\ m = MDigest true) \/
  (a = lit "digest" /\ m = MDigest false) \/
  (a <> lit "DIGEST" /\ a <> lit "digest" /\
   ((exists v, stands vars a v /\ m = MVar v) \/
    (~ In a (map fst vars) /\ exists n, number a n /\ m = MGroup n))).
(** Value of an action on a path; expansion of the whole template. A missing
    group makes the rule not apply, a digest that cannot be made is a failure. *)
Definition value (e : MapEnv) (file : str) (caps : N -> option str) (m : Meaning) : res (option str) :=
  match m with
  | MGroup n => Ok (caps n)
  | MVar v => Ok (Some v)
  | MDigest u => d <- me_digest e u file ;; Ok (Some d)
  end.
Fixpoint expand (e : MapEnv) (file : str) (caps : N -> option str) (parts : list (str * Meaning)) (tail : str) : res (option str) :=
  match parts with
  | [] => Ok (Some tail)
  | (t, m) :: rest =>
      v <- value e file caps m ;;
      match v with
      | None => Ok None
      | Some x => r <- expand e file caps rest tail ;; Ok (option_map (fun y => t ++ x ++ y) r)
      end
  end.

(** Whether a rule lists files. *)
Definition restricted (r : Rule) : bool := match ru_files r with [] => false | _ => true end.
(** Whether a rule may be used for a path. *)
Definition covers (files : list str) (path : str) : Prop := files = [] \/ In path files.

(** *** Concurrent lookups *)
(** Memo and the answers computed but not yet stored; each lookup checks the
    memo in one step and stores its answer in a later one. *)
Definition Memo := (Vars * list (str * str))%type.
Inductive lookup_step (e : MapEnv) (gs : list Gen) : Memo -> str -> res (option str) -> Memo -> Prop :=
| look_hit c p f r : var_get f c = Some r -> lookup_step e gs (c, p) f (Ok (Some r)) (c, p)
| look_found c p f r : var_get f c = None -> first_mapping e gs f = Ok (Some r) -> lookup_step e gs (c, p) f (Ok (Some r)) (c, (f, r) :: p)
| look_other c p f x : var_get f c = None -> first_mapping e gs f = x -> (forall r, x <> Ok (Some r)) -> lookup_step e gs (c, p) f x (c, p).
Inductive reachable (e : MapEnv) (gs : list Gen) : Memo -> Prop :=
| reach_start : reachable e gs ([], [])
| reach_look m f x m' : reachable e gs m -> lookup_step e gs m f x m' -> reachable e gs m'
| reach_store c a f r b : reachable e gs (c, a ++ (f, r) :: b) -> reachable e gs (var_insert f r c, a ++ b).

(** *** Several lookups one after the other *)
Fixpoint lookups (e : MapEnv) (gs : list Gen) (cache : Vars) (l : list str) : list (res (option str)) :=
  match l with
  | [] => []
  | f :: t => let '(x, c) := map_path e gs cache f in x :: lookups e gs c t
  end.

(** *** Command-line arguments *)
(** [v] is key=value with no '=' in the key. *)
Definition is_pair (v : str) (kx : str * str) : Prop := v = fst kx ++ 61 :: snd kx /\ ~ In 61 (fst kx).
(** [x] is the value of the last pair for [k]. *)
Definition last_value (ps : list (str * str)) (k x : str) : Prop :=
  exists a b, ps = a ++ (k, x) :: b /\ ~ In k (map fst b).
Definition overrides (cli file both : Vars) : Prop :=
  forall k x, stands both k x <-> stands cli k x \/ (~ In k (map fst cli) /\ stands file k x).
(** [g] is rule [r] with the variables [vs]. *)
Definition built (re_ok : str -> bool) (vs : Vars) (r : Rule) (g : Gen) : Prop :=
  gen_new re_ok (ru_source r) (ru_dest r) vs (ru_files r) = Ok g.
Definition cli_rules (sources dests : list str) : list Rule := map (fun sd => mkRule (fst sd) (snd sd) []) (combine sources dests).
Definition opt_list {A} (o : option (list A)) : list A := match o with Some l => l | None => [] end.
