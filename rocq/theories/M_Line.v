(** Model of /repo/src/line.rs: line records, inline records, finalisation and
    text output of one function. u32 fields are [N]; range facts are hypotheses
    where they matter. *)
From Verif Require Import Base Sort BMap Str.

(** /repo/src/line.rs:12-22 [struct Line]. *)
Record Line := mkLine { l_rva : N; l_len : N; l_num : N; l_file : N }.

(** /repo/src/line.rs:36-46 [struct InlineSite]. *)
Record Site := mkSite { s_origin : N; s_depth : N; s_line : N; s_file : N }.

(** /repo/src/line.rs:35 [derive(PartialOrd, Ord)]: lexicographic in field
    declaration order. *)
Definition site_lt (a b : Site) : bool :=
  (s_origin a <? s_origin b) || ((s_origin a =? s_origin b) &&
  ((s_depth a <? s_depth b) || ((s_depth a =? s_depth b) &&
  ((s_line a <? s_line b) || ((s_line a =? s_line b) &&
  (s_file a <? s_file b)))))).

(** /repo/src/line.rs:61-66 [struct InlineAddressRange]. *)
Record Range := mkRange { r_rva : N; r_len : N }.

(** /repo/src/line.rs:86-104 [struct Lines]; the BTreeMap is an association
    list strictly sorted by [site_lt]. *)
Record Lines := mkLines {
  ls_lines : list Line;
  ls_inlines : list (Site * list Range);
  ls_sorted : bool;
  ls_last : N
}.

(** /repo/src/line.rs:151-158 [Lines::new]. *)
Definition lines_new : Lines := mkLines [] [] true 0.

(** /repo/src/line.rs:85 [derive(Default)]: like [new] but [are_lines_sorted]
    is false. *)
Definition lines_default : Lines := mkLines [] [] false 0.

(** /repo/src/line.rs:160-172 [Lines::add_line]. *)
Definition add_line (rva num file_id : N) (ls : Lines) : Lines :=
  mkLines (ls_lines ls ++ [mkLine rva 0 num file_id]) (ls_inlines ls)
          (ls_sorted ls && (ls_last ls <=? rva)) rva.

(** /repo/src/line.rs:174-179 [Lines::add_inline]. *)
Definition add_inline (site : Site) (r : Range) (ls : Lines) : Lines :=
  mkLines (ls_lines ls)
          (binsert site_lt site
             (match bfind site_lt site (ls_inlines ls) with Some rs => rs ++ [r] | None => [r] end)
             (ls_inlines ls))
          (ls_sorted ls) (ls_last ls).

(** /repo/src/line.rs:238-245, [Vec::dedup_by]: [current] is the last kept
    element; [next] is merged into it when [current] ends exactly at [next]. *)
Fixpoint dedup_ranges (ck : bool) (current : Range) (l : list Range) : res (list Range) :=
  match l with
  | [] => Ok [current]
  | next :: t =>
      if option_eqb N.eqb (checked_add32 (r_rva current) (r_len current)) (Some (r_rva next)) then
        len <- add32 ck (r_len current) (r_len next) ;;
        dedup_ranges ck (mkRange (r_rva current) len) t
      else
        rest <- dedup_ranges ck next t ;; Ok (current :: rest)
  end.

(** /repo/src/line.rs:237-245: sort one range list (stable) and merge. *)
Definition order_ranges (ck : bool) (l : list Range) : res (list Range) :=
  match sort_by_key r_rva l with
  | [] => Ok []
  | r :: t => dedup_ranges ck r t
  end.

(** /repo/src/line.rs:228-247 [Lines::ensure_order]. *)
Definition ensure_order (ck : bool) (ls : Lines) : res Lines :=
  let lines := if ls_sorted ls then ls_lines ls else sort_by_key l_rva (ls_lines ls) in
  inl <- mapM (fun kv => rs <- order_ranges ck (snd kv) ;; Ok (fst kv, rs)) (ls_inlines ls) ;;
  Ok (mkLines lines inl true (ls_last ls)).

(** /repo/src/line.rs:207 [windows(2).map(|w| w[1].rva - w[0].rva)]. *)
Fixpoint window_lens (ck : bool) (l : list Line) : res (list N) :=
  match l with
  | a :: (b :: _) as t => d <- sub32 ck (l_rva b) (l_rva a) ;; ds <- window_lens ck t ;; Ok (d :: ds)
  | _ => Ok []
  end.

Definition set_len (l : Line) (n : N) : Line := mkLine (l_rva l) n (l_num l) (l_file l).

(** /repo/src/line.rs:209-221: all but the last line get their window length;
    the last one reaches to the function end, if there is one after it. *)
Fixpoint assign_lens (ck : bool) (fend : option N) (ls : list Line) (lens : list N) : res (list Line) :=
  match ls, lens with
  | [], _ => Ok []
  | [last], _ =>
      match fend with
      | Some e => if l_rva last <? e
                  then n <- sub32 ck e (l_rva last) ;; Ok [set_len last n]
                  else Ok [last]
      | None => Ok [last]
      end
  | l :: t, n :: ns => r <- assign_lens ck fend t ns ;; Ok (set_len l n :: r)
  | l :: t, [] => r <- assign_lens ck fend t [] ;; Ok (l :: r)
  end.

(** /repo/src/line.rs:186-222 [Lines::compute_len]. *)
Definition compute_len (ck : bool) (sym_rva sym_len : N) (ls : Lines) : res Lines :=
  match ls_lines ls with
  | [] => Ok ls
  | _ =>
      if negb (ls_sorted ls) then Panic "Call ensure_order() before calling compute_len()"
      else
        lens <- window_lens ck (ls_lines ls) ;;
        lines <- assign_lens ck (checked_add32 sym_rva sym_len) (ls_lines ls) lens ;;
        Ok (mkLines lines (ls_inlines ls) (ls_sorted ls) (ls_last ls))
  end.

(** /repo/src/line.rs:181-184 [Lines::finalize]. *)
Definition finalize (ck : bool) (sym_rva sym_len : N) (ls : Lines) : res Lines :=
  ls1 <- ensure_order ck ls ;; compute_len ck sym_rva sym_len ls1.

(** /repo/src/line.rs:136-137: the order in which INLINE records are written;
    [ranges.first().unwrap()] panics on an empty range list. *)
Definition inl_key (kv : Site * list Range) : N * N :=
  (match snd kv with r :: _ => r_rva r | [] => 0 end, s_depth (fst kv)).
Definition pair_leb (a b : N * N) : bool :=
  (fst a <? fst b) || ((fst a =? fst b) && (snd a <=? snd b)).
Definition inl_leb (a b : Site * list Range) : bool := pair_leb (inl_key a) (inl_key b).
Definition has_range (kv : Site * list Range) : bool :=
  match snd kv with [] => false | _ => true end.
Definition inline_order (m : list (Site * list Range)) : res (list (Site * list Range)) :=
  if forallb has_range m then Ok (ssort inl_leb m)
  else Panic "called `Option::unwrap()` on a `None` value".

(** /repo/src/line.rs:106-121 [write_inline_record]. *)
Definition fmt_inline (kv : Site * list Range) : str :=
  let s := fst kv in
  lit "INLINE " ++ dec (s_depth s) ++ [c_sp] ++ dec (s_line s) ++ [c_sp] ++ dec (s_file s)
  ++ [c_sp] ++ dec (s_origin s)
  ++ concat (map (fun r => [c_sp] ++ hex (r_rva r) ++ [c_sp] ++ hex (r_len r)) (snd kv))
  ++ [c_nl].

(** /repo/src/line.rs:123-129 [write_line_record]. *)
Definition fmt_line (l : Line) : str :=
  hex (l_rva l) ++ [c_sp] ++ hex (l_len l) ++ [c_sp] ++ dec (l_num l) ++ [c_sp] ++ dec (l_file l) ++ [c_nl].

(** /repo/src/line.rs:131-148 [impl Display for Lines]. A sort_by_key on an
    empty or one-element vector never calls the key function in std; the
    unwrap panic is modelled for every length, which only matters for a
    single site without ranges (no API builds one). *)
Definition fmt_lines (ls : Lines) : res str :=
  inl <- inline_order (ls_inlines ls) ;;
  Ok (concat (map fmt_inline inl) ++ concat (map fmt_line (ls_lines ls))).

(** The way the rest of the program builds a [Lines]: starting from [new],
    any sequence of insertions. *)
Inductive Ins := InsLine (rva num file : N) | InsInline (s : Site) (r : Range).
Definition ins (ls : Lines) (i : Ins) : Lines :=
  match i with
  | InsLine a n f => add_line a n f ls
  | InsInline s r => add_inline s r ls
  end.
Definition build (is : list Ins) : Lines := fold_left ins is lines_new.
