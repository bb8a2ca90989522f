(** Specification of the command line, after the help texts in
    /repo/src/main.rs:21-138. *)
From Verif Require Import Base Str M_Cli M_Args.

(** The documented names. *)
Definition named (o : Opt) (n : str) : Prop :=
  match o with
  | AOutput => n = lit "output" | AStore => n = lit "store" | ADebugId => n = lit "debug-id" | ACodeId => n = lit "code-id" | AServer => n = lit "symbol-server"
  | AVerbose => n = lit "verbose" | AArch => n = lit "arch" | AType => n = lit "type" | AJobs => False | AVar => n = lit "mapping-var" | ASrc => n = lit "mapping-src"
  | ADest => n = lit "mapping-dest" | AMapFile => n = lit "mapping-file" | AExtra => n = lit "extra-info"
  end.
Definition lettered (o : Opt) (c : str) : Prop :=
  match o with AOutput => c = lit "o" | AStore => c = lit "s" | AArch => c = lit "a" | AType => c = lit "t" | AJobs => c = lit "j" | _ => False end.
Definition switch_named (w : Switch) (n : str) : Prop :=
  match w with WCfi => n = lit "check-cfi" | WList => n = lit "list-arch" | WInlines => n = lit "inlines" | WNoGen => n = lit "no-generator" end.
Definition repeatable (o : Opt) : Prop := In o [AVar; ASrc; ADest; AExtra].

(** *** Spellings *)
Inductive Item :=
| IFile (t : str)                     (* file *)
| ISwitch (w : Switch) (n : str)      (* --name *)
| ILong (o : Opt) (n v : str)         (* --name value *)
| IJoined (o : Opt) (n v : str)       (* --name=value *)
| IShort (o : Opt) (c v : str)        (* -c value *)
| IStuck (o : Opt) (c v : str)        (* -cvalue *)
| IEquals (o : Opt) (c v : str).      (* -c=value *)
Definition text (i : Item) : list str :=
  match i with
  | IFile t => [t]
  | ISwitch _ n => [lit "--" ++ n]
  | ILong _ n v => [lit "--" ++ n; v]
  | IJoined _ n v => [lit "--" ++ n ++ lit "=" ++ v]
  | IShort _ c v => [lit "-" ++ c; v]
  | IStuck _ c v => [lit "-" ++ c ++ v]
  | IEquals _ c v => [lit "-" ++ c ++ lit "=" ++ v]
  end.
(** Does not look like an option. *)
Definition plain (t : str) : Prop := t = lit "-" \/ forall r, t <> lit "-" ++ r.
Definition well_formed (i : Item) : Prop :=
  match i with
  | IFile t => plain t
  | ISwitch w n => switch_named w n
  | ILong o n v => named o n /\ plain v
  | IJoined o n v => named o n
  | IShort o c v => lettered o c /\ plain v
  | IStuck o c v => lettered o c /\ v <> [] /\ forall r, v <> lit "=" ++ r
  | IEquals o c v => lettered o c
  end.
(** [tail]: what stands behind "--". *)
Definition arguments (items : list Item) (tail : option (list str)) : list str :=
  concat (map text items) ++ match tail with None => [] | Some l => lit "--" :: l end.
Definition asks_help (t : str) : Prop := t = lit "--help" \/ t = lit "--version" \/ exists r, t = lit "-h" ++ r \/ t = lit "-V" ++ r.

(** *** Meaning *)
Definition item_file (i : Item) : list str := match i with IFile t => [t] | _ => [] end.
Definition item_value (i : Item) : list (Opt * str) :=
  match i with ILong o _ v | IJoined o _ v | IShort o _ v | IStuck o _ v | IEquals o _ v => [(o, v)] | _ => [] end.
Definition item_switch (i : Item) : list Switch := match i with ISwitch w _ => [w] | _ => [] end.
(** [vs] are the values of [o] in their order. *)
Inductive given (o : Opt) : list (Opt * str) -> list str -> Prop :=
| gi_none : given o [] []
| gi_this v l vs : given o l vs -> given o ((o, v) :: l) (v :: vs)
| gi_other o' v l vs : o' <> o -> given o l vs -> given o ((o', v) :: l) vs.
(** Nothing is given twice that may be given once. *)
Definition once (items : list Item) : Prop :=
  (forall o vs, given o (concat (map item_value items)) vs -> repeatable o \/ lenN vs <= 1) /\ NoDup (concat (map item_switch items)).
Definition optional (o : Opt) (items : list Item) (r : option str) : Prop :=
  given o (concat (map item_value items)) (match r with Some v => [v] | None => [] end).
Definition defaulted (o : Opt) (items : list Item) (d r : str) : Prop := optional o items (Some r) \/ optional o items None /\ r = d.
Definition collected_values (o : Opt) (items : list Item) (r : option (list str)) : Prop :=
  match r with Some vs => vs <> [] /\ given o (concat (map item_value items)) vs | None => given o (concat (map item_value items)) [] end.
Definition switch_is (w : Switch) (items : list Item) (b : bool) : Prop := b = true <-> In w (concat (map item_switch items)).
(** Names of architectures the program may be built for. *)
Definition native (target a : str) : Prop :=
  let table := [(lit "x86", lit "x86"); (lit "x86_64", lit "x86_64"); (lit "arm", lit "arm"); (lit "aarch64", lit "arm64"); (lit "mips", lit "mips"); (lit "mips64", lit "mips64");
                (lit "powerpc", lit "ppc"); (lit "powerpc64", lit "ppc64")] in
  In (target, a) table \/ (~ In target (map fst table) /\ a = lit "unknown").
Definition asks (target : str) (items : list Item) (tail : option (list str)) (c : Cmd) : Prop :=
  ar_files (cm_args c) = concat (map item_file items) ++ match tail with Some l => l | None => [] end /\
  optional AOutput items (ar_output (cm_args c)) /\ optional AStore items (ar_store (cm_args c)) /\
  defaulted AVerbose items (lit "error") (ar_verbose (cm_args c)) /\ defaulted AJobs items [] (ar_jobs (cm_args c)) /\
  switch_is WList items (ar_list_arch (cm_args c)) /\ given AExtra (concat (map item_value items)) (ar_extra (cm_args c)) /\ switch_is WNoGen items (ar_no_generator (cm_args c)) /\
  optional AServer items (cm_server c) /\ optional ADebugId items (cm_debug_id c) /\ optional ACodeId items (cm_code_id c) /\
  (exists a, native target a /\ defaulted AArch items a (cm_arch c)) /\ switch_is WCfi items (cm_check_cfi c) /\ switch_is WInlines items (cm_inlines c) /\
  collected_values AVar items (cm_var c) /\ collected_values ASrc items (cm_src c) /\ collected_values ADest items (cm_dest c) /\ optional AMapFile items (cm_map_file c).
