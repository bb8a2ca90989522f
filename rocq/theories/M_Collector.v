(** Model of function collection in /repo/src/collector.rs. *)
From Verif Require Import Base Sort BMap Str M_Names M_Path M_Line M_Source M_Symbol.

(** A line record of the debug info (symbolic [LineInfo]); the file entry is
    paired with the compilation directory of its function. *)
Record DLine := mkDLine { d_addr : N; d_size : option N; d_line : N; d_file : FileRef }.

(** A function of the debug info (symbolic [Function]) with its inlined calls. *)
Inductive Fun := mkFun (addr size : N) (name : Name) (lines : list DLine) (inlinees : list Fun).
Definition f_addr (f : Fun) := match f with mkFun a _ _ _ _ => a end.
Definition f_size (f : Fun) := match f with mkFun _ s _ _ _ => s end.
Definition f_name (f : Fun) := match f with mkFun _ _ n _ _ => n end.
Definition f_lines (f : Fun) := match f with mkFun _ _ _ l _ => l end.
Definition f_inl (f : Fun) := match f with mkFun _ _ _ _ i => i end.

(** One element of [inline_ranges] (/repo/src/collector.rs:195-206): start, end, origin. *)
Record IR := mkIR { i_start : N; i_end : N; i_origin : N }.

(** Fixed during a run: overflow checks, path environment, demangler, whether
    inlines are collected, and the unstable sort of
    /repo/src/collector.rs:220. *)
Record CEnv := mkCEnv {
  ce_ck : bool;
  ce_src : SrcEnv;
  ce_dm : Demangler;
  ce_inl : bool;
  ce_sort : list IR -> list IR
}.

(** Start and end of a line record (/repo/src/collector.rs:204-205, 232-233). *)
Definition line_end (ck : bool) (l : DLine) : res N :=
  add64 ck (d_addr l) (match d_size l with Some s => s | None => 1 end).
(** /repo/src/collector.rs:203-207. *)
Definition line_ranges (ck : bool) (oid : N) (ls : list DLine) : res (list IR) :=
  mapM (fun l => e <- line_end ck l ;; Ok (mkIR (d_addr l) e oid)) ls.

Definition info_eqb (a b : N * N) : bool := (fst a =? fst b) && (snd a =? snd b).

(** /repo/src/collector.rs:284-325: the loop over the addresses of one line
    record. It consumes inline ranges; the calls to [add_line] and [add_inline]
    are returned as a list (the [Lines] object is only written to). Result:
    (current_address, remaining inline ranges, prev_line_info, calls). *)
Fixpoint line_loop (ck : bool) (depth line_no file lend : N) (inl : list IR) (cur : N) (prev : option (N * N))
    : res (N * list IR * option (N * N) * list Ins) :=
  if cur <? lend then
    let covered := match inl with [] => false | r :: _ => negb (cur <? i_start r) end in
    let fresh := negb covered && negb (option_eqb info_eqb prev (Some (line_no, file))) in
    let out := if fresh then [InsLine (u32 cur) line_no file] else [] in
    let prev := if fresh then Some (line_no, file) else prev in
    match inl with
    | r :: t =>
        if i_start r <? lend then
          len <- sub64 ck (i_end r) (i_start r) ;;
          ' q <- line_loop ck depth line_no file lend t (i_end r) None ;;
          let '(c, i, p, o) := q in
          Ok (c, i, p, out ++ InsInline (mkSite (i_origin r) depth line_no file)
                                       (mkRange (u32 (i_start r)) (u32 len)) :: o)
        else Ok (lend, inl, prev, out)
    | [] => Ok (lend, inl, prev, out)
    end
  else Ok (cur, inl, prev, []).

(** /repo/src/collector.rs:222-340: the walk over the line records. [skip] is
    the value of current_address after the previous record; records that start
    before it are skipped (336-338). *)
Fixpoint walk_lines (e : CEnv) (depth : N) (ls : list DLine) (skip : option N) (inl : list IR)
    (prev : option (N * N)) (s : Src) : res (list Ins * Src) :=
  match ls with
  | [] => Ok ([], s)
  | l :: t =>
      if match skip with Some c => d_addr l <? c | None => false end then walk_lines e depth t skip inl prev s
      else
        lend <- line_end (ce_ck e) l ;;
        ' fs <- src_lookup (ce_src e) (d_file l) s ;;
        ' q <- line_loop (ce_ck e) depth (u32 (d_line l)) (fst fs) lend inl (d_addr l) prev ;;
        let '(c, i, p, o) := q in
        ' r <- walk_lines e depth t (Some c) i p (snd fs) ;;
        Ok (o ++ fst r, snd r)
  end.

(** /repo/src/collector.rs:165-340 [collect_function_with_inlines_recursive].
    The depth is not truncated to 32 bits (the recursion would overflow the
    stack long before). Result: calls on [Lines], file table, origin table. *)
Definition CState := (list Ins * Src * Orig)%type.
Fixpoint collect_rec (e : CEnv) (f : Fun) (depth : N) (s : Src) (o : Orig) {struct f} : res CState :=
  match f with
  | mkFun _ _ _ lines inls =>
      let go :=
        fix go (gs : list Fun) (irs : list IR) (s : Src) (o : Orig) {struct gs} : res (list IR * CState) :=
          match gs with
          | [] => Ok (irs, ([], s, o))
          | g :: t =>
              match f_lines g with
              | [] => go t irs s o
              | _ =>
                  let '(oid, o1) := orig_get_id (ce_dm e) (f_name g) o in
                  rs <- line_ranges (ce_ck e) oid (f_lines g) ;;
                  ' st <- collect_rec e g (depth + 1) s o1 ;;
                  let '(ev, s2, o2) := st in
                  ' r <- go t (irs ++ rs) s2 o2 ;;
                  let '(irs', (ev', s3, o3)) := r in
                  Ok (irs', (ev ++ ev', s3, o3))
              end
          end in
      ' r <- go inls [] s o ;;
      let '(irs, (ev, s1, o1)) := r in
      ' w <- walk_lines e depth lines None (ce_sort e irs) None s1 ;;
      Ok (ev ++ fst w, snd w, o1)
  end.

(** /repo/src/collector.rs:139-162 [collect_function_without_inlines]. *)
Fixpoint collect_flat (e : SrcEnv) (ls : list DLine) (prev : option (N * N)) (s : Src) : res (list Ins * Src) :=
  match ls with
  | [] => Ok ([], s)
  | l :: t =>
      if d_line l =? 0 then collect_flat e t prev s
      else
        let '(file, s1) := src_get_id e (d_file l) s in
        let info := (d_line l, file) in
        if option_eqb info_eqb prev (Some info) then collect_flat e t prev s1
        else
          ' ts <- src_get_true_id file s1 ;;
          ' r <- collect_flat e t (Some info) (snd ts) ;;
          Ok (InsLine (u32 (d_addr l)) (u32 (d_line l)) (fst ts) :: fst r, snd r)
  end.

(** /repo/src/collector.rs:90-137 [collect_function]. *)
Definition collect_events (e : CEnv) (f : Fun) (s : Src) (o : Orig) : res CState :=
  if ce_inl e then collect_rec e f 0 s o
  else ' r <- collect_flat (ce_src e) (f_lines f) None s ;; Ok (fst r, snd r, o).
Definition fun_symbol (e : CEnv) (f : Fun) (ls : Lines) : Symbol :=
  mkSymbol (demangle (ce_dm e) (f_name f)) false false false (u32 (f_addr f)) (u32 (f_size f)) 0 ls.
Definition Coll := (Symbols * Src * Orig)%type.
Definition collect_function (e : CEnv) (st : Coll) (f : Fun) : res Coll :=
  let '(syms, s, o) := st in
  if f_addr f =? 0 then Ok st
  else
    match nfind (u32 (f_addr f)) syms with
    | Some sym =>
        if negb (sy_public sym) then Ok (ninsert (u32 (f_addr f)) (set_multiple sym) syms, s, o)
        else
          ' c <- collect_events e f s o ;;
          let '(ev, s1, o1) := c in
          ls <- finalize (ce_ck e) (u32 (f_addr f)) (u32 (f_size f)) (build ev) ;;
          Ok (ninsert (u32 (f_addr f)) (fun_symbol e f ls) syms, s1, o1)
    | None =>
        ' c <- collect_events e f s o ;;
        let '(ev, s1, o1) := c in
        ls <- finalize (ce_ck e) (u32 (f_addr f)) (u32 (f_size f)) (build ev) ;;
        Ok (ninsert (u32 (f_addr f)) (fun_symbol e f ls) syms, s1, o1)
    end.

(** /repo/src/collector.rs:342-360 [collect_functions]; [None] is a function the
    reader failed on (logged and skipped). *)
Definition collect_functions (e : CEnv) (fs : list (option Fun)) (st : Coll) : res Coll :=
  foldM (fun st f => match f with Some f => collect_function e st f | None => Ok st end) fs st.
