(** Specification of the symbol table operations. A table is a list of
    (address, record) sorted by address ([nsorted]); [nfind] looks an address up. *)
From Verif Require Import Base BMap Str M_Names M_Path M_Line M_Symbol.

(** (k, s) is the closest record strictly before a. *)
Definition closest (m : Symbols) (a k : N) (s : Symbol) : Prop :=
  nfind k m = Some s /\ k < a /\ forall j w, nfind j m = Some w -> j < a -> j <= k.
Definition sp_inside (m : Symbols) (a : N) : Prop :=
  exists k s, closest m a k s /\ a < sy_rva s + sy_len s.
(** No record reaches the end of the 32-bit address space. *)
Definition ends_fit (m : Symbols) : Prop := forall k s, nfind k m = Some s -> sy_rva s + sy_len s < two32.
(** Every record is filed under its own address, no address twice, ascending. *)
Definition filed (m : Symbols) : Prop :=
  nsorted m /\ forall k s, nfind k m = Some s -> sy_rva s = k /\ k < two32.

(** Names of compiler constants. *)
Definition sp_constant (n : str) : Prop :=
  exists p t, In p (map lit ["??_C"; "__real@"; "__xmm@"; "__ymm@"]%string) /\ n = p ++ t.
Definition constant_pub (p : Pub) : Prop := exists n, pb_name p = Some n /\ sp_constant n.

(** Everything but name, parameter size and 'm' is the same. *)
Definition same_body (s s' : Symbol) : Prop :=
  sy_public s' = sy_public s /\ sy_synthetic s' = sy_synthetic s /\ sy_rva s' = sy_rva s /\
  sy_len s' = sy_len s /\ sy_source s' = sy_source s.
(** The publics at a 32-bit address. *)
Definition pubs_at (k : N) (pubs : list Pub) : list Pub :=
  filter (fun p => pb_addr p mod two32 =? k) pubs.

(** Exception entries. *)
Definition sp_size (x : N * N) : option N := if fst x <=? snd x then Some (snd x - fst x) else None.

(** Module mentioned in the name of an unknown function. *)
Definition sp_unknown (module_name : str) : str :=
  match module_name with [] => lit "<unknown>" | _ => lit "<unknown in " ++ module_name ++ lit ">" end.
Definition sp_section_name (module_name : str) (sec : option str) : str :=
  lit "<" ++ match sec with Some s => s | None => lit "unknown" end ++ lit " ELF section in "
  ++ match module_name with [] => lit "unknown" | _ => module_name end ++ lit ">".
(** An empty synthetic PUBLIC. *)
Definition synthetic_at (k : N) (name : str) (s : Symbol) : Prop :=
  sy_name s = name /\ sy_public s = true /\ sy_synthetic s = true /\ sy_multiple s = false /\
  sy_rva s = k /\ sy_len s = 0 /\ sy_param s = 0 /\ ls_lines (sy_source s) = [] /\ ls_inlines (sy_source s) = [].
Definition sections_at (k : N) (secs : list Section_) : list Section_ :=
  filter (fun h => se_exec h && (se_addr h mod two32 =? k)) secs.

(** What a list of publics can do to an existing record at k ([parse_unknown] is
    the decoding of C34). *)
Definition pub_kept (pl : Platform) (dm : Demangler) (k : N) (pubs : list Pub) (s s' : Symbol) : Prop :=
  same_body s s' /\
  (sy_public s = true -> sy_name s' = sy_name s /\ sy_param s' = sy_param s) /\
  (sy_public s = false -> sy_multiple s' = sy_multiple s) /\
  (pl <> Win -> sy_name s' = sy_name s /\ sy_param s' = sy_param s) /\
  (sy_multiple s = true -> sy_multiple s' = true) /\
  (sy_multiple s' = true -> sy_multiple s = true \/ pubs_at k pubs <> []) /\
  (sy_name s' <> sy_name s -> exists p n w, In p (pubs_at k pubs) /\ pb_name p = Some n /\ parse_unknown n = Ok w /\
      sy_name s' = demangle_str dm (w_name w)) /\
  (sy_param s' <> sy_param s -> exists p n w, In p (pubs_at k pubs) /\ pb_name p = Some n /\ parse_unknown n = Ok w /\
      w_param w = Some (sy_param s')).

(** What one public that is neither constant nor inside another record makes of
    the record at its address. 40 is the opening parenthesis. *)
Inductive pub_effect (pl : Platform) (dm : Demangler) (p : Pub) (s s' : Symbol) : Prop :=
| pe_again : sy_public s = true -> same_body s s' -> sy_name s' = sy_name s -> sy_param s' = sy_param s -> sy_multiple s' = true ->
    pub_effect pl dm p s s'
| pe_func : sy_public s = false -> pl <> Win \/ pb_name p = None -> s' = s -> pub_effect pl dm p s s'
| pe_win n w : sy_public s = false -> pl = Win -> pb_name p = Some n -> parse_unknown n = Ok w -> same_body s s' ->
    sy_multiple s' = sy_multiple s -> (In 40 (sy_name s) -> sy_name s' = sy_name s) -> (~ In 40 (sy_name s) -> sy_name s' = demangle_str dm (w_name w)) ->
    sy_param s' = match w_param w with Some v => v | None => sy_param s end -> pub_effect pl dm p s s'.

(** Windows: the name [n] and parameter size [a] of a function after the publics
    at its address have been dealt with. *)
Inductive win_named (dm : Demangler) : str -> N -> list Pub -> str -> N -> Prop :=
| wn_none n a : win_named dm n a [] n a
| wn_skip n a p pubs n' a' : constant_pub p \/ pb_name p = None -> win_named dm n a pubs n' a' -> win_named dm n a (p :: pubs) n' a'
| wn_name n a p x w n1 pubs n' a' : pb_name p = Some x -> ~ constant_pub p -> parse_unknown x = Ok w ->
    (In 40 n -> n1 = n) -> (~ In 40 n -> n1 = demangle_str dm (w_name w)) ->
    win_named dm n1 (match w_param w with Some v => v | None => a end) pubs n' a' -> win_named dm n a (p :: pubs) n' a'.
(** [k] is not inside of the [n] bytes at [a], other than at their start. *)
Definition clear_of (k a n : N) : Prop := ~ (a < k < a + n).

(** A record created at k by a list of publics. *)
Definition pub_new (pl : Platform) (dm : Demangler) (k : N) (pubs : list Pub) (s : Symbol) : Prop :=
  sy_public s = true /\ sy_synthetic s = false /\ sy_rva s = k /\ sy_source s = lines_default /\
  (exists p, In p (pubs_at k pubs) /\ ~ constant_pub p /\ sy_len s = pb_size p mod two32 /\
     ((exists n w, pl = Win /\ pb_name p = Some n /\ parse_unknown n = Ok w /\ sy_name s = demangle_str dm (w_name w) /\
         sy_param s = match w_param w with Some v => v | None => 0 end)
      \/ (exists n, pl <> Win /\ pb_name p = Some n /\ sy_name s = demangle_str dm n /\ sy_param s = 0)
      \/ (pb_name p = None /\ sy_name s = lit "<name omitted>" /\ sy_param s = 0))) /\
  (sy_multiple s = true -> (2 <= length (pubs_at k pubs))%nat).

(** A placeholder FUNC for an exception entry (b, e). *)
Definition placeholder_of (module_name : str) (b e : N) (s : Symbol) : Prop :=
  sy_name s = sp_unknown module_name /\ sy_public s = false /\ sy_synthetic s = true /\ sy_multiple s = false /\
  sy_rva s = b /\ sy_len s = e - b /\ sy_param s = 0 /\ ls_lines (sy_source s) = [] /\ ls_inlines (sy_source s) = [].
(** Where the trailing PE/PDB symbol goes. *)
Definition after_last (s : Symbol) : N := if sy_len s =? 0 then sy_rva s + 1 else sy_rva s + sy_len s.
Definition last_record (m : Symbols) (k : N) (s : Symbol) : Prop :=
  nfind k m = Some s /\ forall j w, nfind j m = Some w -> j <= k.

(** Order of 32-bit addresses; first character of the name is ASCII. *)
Definition addr32_le (p q : Pub) : Prop := pb_addr p mod two32 <= pb_addr q mod two32.
Definition ascii_name (p : Pub) : Prop :=
  match pb_name p with Some (c :: _) => c < 128 | _ => True end.
