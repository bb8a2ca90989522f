(** Model of /repo/src/symbol.rs (symbol table and synthetic symbols) and of the
    publics and placeholders of /repo/src/collector.rs. *)
From Verif Require Import Base BMap Str M_Names M_Path M_Line.

(** /repo/src/symbol.rs:16-25 [struct Symbol]. *)
Record Symbol := mkSymbol {
  sy_name : str;
  sy_public : bool;
  sy_multiple : bool;
  sy_synthetic : bool;
  sy_rva : N;
  sy_len : N;
  sy_param : N;
  sy_source : Lines
}.
(** /repo/src/symbol.rs:27 [type Symbols = BTreeMap<u32, Symbol>]. *)
Definition Symbols := nmap Symbol.

(** [sym.is_multiple = true]. *)
Definition set_multiple (s : Symbol) : Symbol :=
  mkSymbol (sy_name s) (sy_public s) true (sy_synthetic s) (sy_rva s) (sy_len s) (sy_param s) (sy_source s).

(** /repo/src/symbol.rs:33-38 [is_inside_symbol]: the last record with a key
    strictly below [rva]; [rva + len] is a u32 addition. *)
Definition is_inside_symbol (ck : bool) (rva : N) (syms : Symbols) : res bool :=
  match last_below rva syms with
  | Some (_, last) => e <- add32 ck (sy_rva last) (sy_len last) ;; Ok (rva <? e)
  | None => Ok false
  end.

(** A public symbol as reported by [Object::symbols]. *)
Record Pub := mkPub { pb_addr : N; pb_size : N; pb_name : option str }.

(** /repo/src/collector.rs:382-398: an existing record at the address of a public. *)
Definition merge_public (dm : Demangler) (parsed : option WinName) (s : Symbol) : Symbol :=
  if sy_public s then set_multiple s
  else match parsed with
  | Some w =>
      mkSymbol (if contains_char (fun c => c =? 40) (sy_name s) then sy_name s else demangle_str dm (w_name w))
               (sy_public s) (sy_multiple s) (sy_synthetic s) (sy_rva s) (sy_len s)
               (match w_param w with Some n => n | None => sy_param s end) (sy_source s)
  | None => s
  end.

(** /repo/src/collector.rs:399-420: a new PUBLIC record. *)
Definition new_public (dm : Demangler) (parsed : option WinName) (p : Pub) : Symbol :=
  mkSymbol (match parsed, pb_name p with
            | Some w, _ => demangle_str dm (w_name w)
            | None, Some n => demangle_str dm n
            | None, None => lit "<name omitted>"
            end)
           true false false (u32 (pb_addr p)) (u32 (pb_size p))
           (match parsed with Some w => match w_param w with Some n => n | None => 0 end | None => 0 end)
           lines_default.

(** /repo/src/collector.rs:364-421: one public symbol. *)
Definition collect_public (ck : bool) (pl : Platform) (dm : Demangler) (syms : Symbols) (p : Pub) : res Symbols :=
  inside <- is_inside_symbol ck (u32 (pb_addr p)) syms ;;
  if inside then Ok syms
  else if match pb_name p with Some n => should_skip_symbol n | None => false end then Ok syms
  else
    parsed <- (match pl, pb_name p with
               | Win, Some n => w <- parse_unknown n ;; Ok (Some w)
               | _, _ => Ok None
               end) ;;
    match nfind (u32 (pb_addr p)) syms with
    | Some s => Ok (ninsert (u32 (pb_addr p)) (merge_public dm parsed s) syms)
    | None => Ok (ninsert (u32 (pb_addr p)) (new_public dm parsed p) syms)
    end.
(** /repo/src/collector.rs:363-423 [collect_publics]. *)
Definition collect_publics (ck : bool) (pl : Platform) (dm : Demangler) (pubs : list Pub) (syms : Symbols) : res Symbols :=
  foldM (collect_public ck pl dm) pubs syms.

(** /repo/src/collector.rs:431-436 and /repo/src/symbol.rs:142-146. *)
Definition unknown_name (module_name : str) : str :=
  match module_name with
  | [] => lit "<unknown>"
  | _ => lit "<unknown in " ++ module_name ++ lit ">"
  end.

(** /repo/src/collector.rs:437-463: one exception entry; [None] is an entry
    goblin could not read. *)
Definition collect_placeholder (ck : bool) (name : str) (syms : Symbols) (x : option (N * N)) : res Symbols :=
  match x with
  | None => Ok syms
  | Some (b, e) =>
      match checked_sub32 e b with
      | None => Ok syms
      | Some size =>
          inside <- is_inside_symbol ck b syms ;;
          if inside then Ok syms
          else match nfind b syms with
          | Some _ => Ok syms
          | None => Ok (ninsert b (mkSymbol name false false true b size 0 lines_default) syms)
          end
      end
  end.
(** /repo/src/collector.rs:426-464 [collect_placeholder_functions]. *)
Definition collect_placeholders (ck : bool) (module_name : str) (xs : list (option (N * N))) (syms : Symbols) : res Symbols :=
  foldM (collect_placeholder ck (unknown_name module_name)) xs syms.

(** A PUBLIC synthetic record. *)
Definition synthetic_public (name : str) (rva : N) : Symbol :=
  mkSymbol name true false true rva 0 0 lines_new.
(** BTreeMap [entry(k).or_insert(v)]. *)
Definition or_insert (k : N) (s : Symbol) (syms : Symbols) : Symbols :=
  match nfind k syms with Some _ => syms | None => ninsert k s syms end.

(** An ELF section header: address, executable flag, name if readable. *)
Record Section_ := mkSection { se_addr : N; se_exec : bool; se_name : option str }.

(** /repo/src/symbol.rs:106-123: one ELF section. *)
Definition add_section (name : str) (syms : Symbols) (h : Section_) : Symbols :=
  if se_exec h then
    let name := match name with [] => lit "unknown" | _ => name end in
    let sec := match se_name h with Some s => s | None => lit "unknown" end in
    let rva := u32 (se_addr h) in
    or_insert rva (synthetic_public (lit "<" ++ sec ++ lit " ELF section in " ++ name ++ lit ">") rva) syms
  else syms.

(** /repo/src/symbol.rs:133-160 [append_dummy_symbol_pe_pdb]. *)
Definition append_dummy (ck : bool) (name : str) (syms : Symbols) : res Symbols :=
  match last_opt syms with
  | None => Ok syms
  | Some (_, last) =>
      rva <- (if sy_len last =? 0 then add32 ck (sy_rva last) 1 else add32 ck (sy_rva last) (sy_len last)) ;;
      Ok (or_insert rva (synthetic_public (unknown_name name) rva) syms)
  end.

(** What goblin recognises in the object's bytes (/repo/src/symbol.rs:103-129). *)
Inductive Bytes := BElf (secs : list Section_) | BPe | BPdb | BOther.
(** /repo/src/symbol.rs:98-131 [add_executable_section_symbols]. *)
Definition add_executable_section_symbols (ck : bool) (b : Bytes) (name : str) (syms : Symbols) : res Symbols :=
  match b with
  | BElf secs => Ok (fold_left (add_section name) secs syms)
  | BPe | BPdb => append_dummy ck name syms
  | BOther => Ok syms
  end.

(** /repo/src/symbol.rs:40-67 [impl Display for Symbol]. *)
Definition fmt_symbol (s : Symbol) : res str :=
  let m := if sy_multiple s then lit "m " else [] in
  if sy_public s then
    Ok (lit "PUBLIC " ++ m ++ hex (sy_rva s) ++ [c_sp] ++ hex (sy_param s) ++ [c_sp] ++ sy_name s ++ [c_nl])
  else
    body <- fmt_lines (sy_source s) ;;
    Ok (lit "FUNC " ++ m ++ hex (sy_rva s) ++ [c_sp] ++ hex (sy_len s) ++ [c_sp] ++ hex (sy_param s) ++ [c_sp]
        ++ sy_name s ++ [c_nl] ++ body).
