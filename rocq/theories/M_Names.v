(** Model of the name handling of /repo/src/symbol.rs and /repo/src/common.rs. *)
From Verif Require Import Base Str Regex.

(** A [symbolic::common::Name]: text, mangling flag and language; equality and
    hashing derive from the three fields (symbolic-common, [derive(Eq, Hash)]). *)
Record Name := mkName { nm_str : str; nm_mangling : N; nm_lang : N }.
Definition name_eqb (a b : Name) : bool :=
  str_eqb (nm_str a) (nm_str b) && (nm_mangling a =? nm_mangling b) && (nm_lang a =? nm_lang b).
(** Numbering of [symbolic::common::Language] values used by the code. *)
Definition lang_unknown : N := 0.
Definition lang_c : N := 1.
(** [NameMangling::Mangled]. *)
Definition mangled : N := 1.

(** The demangler (symbolic-demangle): an oracle giving the demangled text with
    the options of /repo/src/common.rs:17-19, and the language detected for a
    mangled text. *)
Record Demangler := mkDemangler {
  dm_demangle : Name -> option str;
  dm_detect : str -> N
}.

(** /repo/src/symbol.rs:183-187 [struct ParsedWinFuncName]. *)
Record WinName := mkWin { w_name : str; w_param : option N }.

Definition c_at : N := 64.
Definition c_us : N := 95.

(** /repo/src/symbol.rs:206-244 [ParsedWinFuncName::parse_c_decorated].
    [split_at(1)] panics when the first character takes more than one byte. *)
Definition parse_c_decorated (s : str) : res WinName :=
  let others :=
    match s with
    | [] => Ok (mkWin s None)
    | c :: rest =>
        if negb (utf8_len c =? 1) then Panic "byte index 1 is not a char boundary"
        else if (c =? c_at) || (c =? c_us) then
          let cdecl := if c =? c_us then Ok (mkWin rest None) else Ok (mkWin s None) in
          match rsplit_once [c_at] rest with
          | Some (name, ps) =>
              match parse_unsigned two32 ps with
              | Some n => Ok (mkWin name (Some n))
              | None => cdecl
              end
          | None => cdecl
          end
        else Ok (mkWin s None)
    end in
  match rsplit_once [c_at; c_at] s with
  | Some (name, ps) =>
      match parse_unsigned two32 ps with
      | Some n => Ok (mkWin name (Some n))
      | None => others
      end
  | None => others
  end.

(** /repo/src/symbol.rs:197-203 [ParsedWinFuncName::parse_unknown]. *)
Definition parse_unknown (s : str) : res WinName :=
  if contains_char (fun c => (c =? 58) || (c =? 40)) s then Ok (mkWin s None)
  else parse_c_decorated s.

(** /repo/src/symbol.rs:247-249 [is_constant_string]. *)
Definition is_constant_string (s : str) : bool := starts_with (lit "??_C") s.
(** /repo/src/symbol.rs:251-257 [is_constant_number]. *)
Definition is_constant_number (s : str) : bool :=
  match strip_prefix (lit "__") s with
  | Some t => starts_with (lit "real@") t || starts_with (lit "xmm@") t || starts_with (lit "ymm@") t
  | None => false
  end.
(** /repo/src/symbol.rs:259-261 [should_skip_symbol]. *)
Definition should_skip_symbol (s : str) : bool := is_constant_string s || is_constant_number s.

Definition is_digit (c : N) : bool := (48 <=? c) && (c <=? 57).

(** /repo/src/common.rs:46 the regular expression COMPILER_NNN (the end anchor
    is handled by [strip_end]). *)
Definition re_unit : re :=
  Alt (Cat (Cat (rlit (lit ".")) (alts [rlit (lit "cold"); rlit (lit "constprop"); rlit (lit "llvm");
                rlit (lit "localalias"); rlit (lit "lto_priv"); rlit (lit "isra"); rlit (lit "part"); rlit (lit "str")]))
           (opt (Cat (rlit (lit ".")) (plus (Cls is_digit)))))
      (Cat (Cat (Cat (opt (rlit (lit " "))) (rlit (lit "[clone"))) (Star (Cls (fun c => negb (c =? 93)))))
           (Cat (rlit (lit "]")) (opt (rlit (lit " "))))).
Definition compiler_nnn : re := plus re_unit.

Definition anon_msvc : str := lit "`anonymous namespace'".
Definition anon_std : str := lit "(anonymous namespace)".

(** /repo/src/common.rs:38-41 [normalize_anonymous_namespace]. *)
Definition normalize_anonymous_namespace (s : str) : str := replace anon_msvc anon_std s.

(** /repo/src/common.rs:43-54 [fix_symbol_name], on the text; mangling and
    language are kept. *)
Definition fix_text (s : str) : str := normalize_anonymous_namespace (strip_end compiler_nnn s).
Definition fix_symbol_name (n : Name) : Name :=
  mkName (fix_text (nm_str n)) (nm_mangling n) (nm_lang n).

(** /repo/src/collector.rs:55-69 [Collector::demangle] and
    /repo/src/inline_origins.rs:41-55 [InlineOrigins::demangle] (same code). *)
Definition demangle (d : Demangler) (n : Name) : str :=
  let n := fix_symbol_name n in
  if nm_lang n =? lang_c then nm_str n
  else match dm_demangle d n with Some t => t | None => nm_str n end.

(** /repo/src/collector.rs:71-87 [Collector::demangle_str]. *)
Definition demangle_str (d : Demangler) (s : str) : str :=
  let lang := dm_detect d s in
  if lang =? lang_unknown then s
  else
    let n := fix_symbol_name (mkName s mangled lang) in
    match dm_demangle d n with Some t => t | None => nm_str n end.

(** /repo/src/inline_origins.rs:32-39 [demangle_and_sanitize];
    [char::is_ascii_control]: 0-31 and 127. *)
Definition is_ascii_control (c : N) : bool := (c <? 32) || (c =? 127).
Definition demangle_and_sanitize (d : Demangler) (n : Name) : str :=
  filter (fun c => negb (is_ascii_control c)) (demangle d n).
