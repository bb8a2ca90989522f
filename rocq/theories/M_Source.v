(** Model of /repo/src/source.rs (file numbering) and
    /repo/src/inline_origins.rs. *)
From Verif Require Import Base Str Utf8 M_Names M_Path.

(** Association lists stand for hash maps: a key is inserted only after a failed
    lookup, so the newest entry can be put last. *)
Fixpoint afind {K V} (eqb : K -> K -> bool) (k : K) (l : list (K * V)) : option V :=
  match l with
  | [] => None
  | (k', v) :: t => if eqb k k' then Some v else afind eqb k t
  end.

(** A file entry of a line record together with the memory addresses of its
    three byte strings (compilation directory; directory and file name as
    returned by symbolic's [dir_str]/[name_str], already decoded). *)
Record FileRef := mkFileRef {
  fr_cptr : N; fr_cdir : list N;
  fr_dptr : N; fr_dir : str;
  fr_nptr : N; fr_name : str
}.

(** Length in bytes of a string. *)
Definition byte_len (s : str) : N := lenN (encode s).

(** /repo/src/source.rs:17 [SliceRef] and :26 the cache key. *)
Definition Key := ((N * N) * (N * N) * (N * N))%type.
Definition key_eqb (a b : Key) : bool :=
  match a, b with
  | (((a1, a2), (a3, a4)), (a5, a6)), (((b1, b2), (b3, b4)), (b5, b6)) =>
      (a1 =? b1) && (a2 =? b2) && (a3 =? b3) && (a4 =? b4) && (a5 =? b5) && (a6 =? b6)
  end.
(** /repo/src/source.rs:54-56 [cast_ptr] and :98-102. *)
Definition fr_key (r : FileRef) : Key :=
  ((fr_cptr r, lenN (fr_cdir r)), (fr_dptr r, byte_len (fr_dir r)), (fr_nptr r, byte_len (fr_name r))).

(** What is fixed during a run (/repo/src/source.rs:20-28): platform,
    canonicalisation flag, [fs::canonicalize] and the path mapping; a mapping
    error counts as no mapping (/repo/src/source.rs:112-122). *)
Record SrcEnv := mkSrcEnv {
  se_canon : str -> option str;
  se_platform : Platform;
  se_canonicalize : bool;
  se_map : str -> option str
}.
Definition env_path (e : SrcEnv) (r : FileRef) : str :=
  get_path (se_canon e) (se_platform e) (se_canonicalize e) (fr_cdir r) (fr_dir r) (fr_name r).

(** /repo/src/source.rs:19-28 [struct SourceFiles]. Numbers are not truncated
    to 32 bits: that would need 2^32 distinct source paths. *)
Record Src := mkSrc {
  sf_cache : list (Key * N);
  sf_ref : list (str * N);
  sf_fake : list (option N * str);
  sf_ids : list str
}.
(** /repo/src/source.rs:37-51 [SourceFiles::new]. *)
Definition src_new : Src := mkSrc [] [] [] [].

(** /repo/src/source.rs:95-133 [SourceFiles::get_id]. *)
Definition src_get_id (e : SrcEnv) (r : FileRef) (s : Src) : N * Src :=
  match afind key_eqb (fr_key r) (sf_cache s) with
  | Some id => (id, s)
  | None =>
      let path := env_path e r in
      match afind str_eqb path (sf_ref s) with
      | Some id =>
          (id, mkSrc (sf_cache s ++ [(fr_key r, id)]) (sf_ref s) (sf_fake s) (sf_ids s))
      | None =>
          let id := lenN (sf_fake s) in
          let shown := match se_map e path with Some q => q | None => path end in
          (id, mkSrc (sf_cache s ++ [(fr_key r, id)]) (sf_ref s ++ [(path, id)])
                     (sf_fake s ++ [(None, shown)]) (sf_ids s))
      end
  end.

(** /repo/src/source.rs:137-147 [SourceFiles::get_true_id]; an unknown
    provisional id is an index panic. *)
Definition src_get_true_id (fake : N) (s : Src) : res (N * Src) :=
  match nthN (sf_fake s) fake with
  | None => Panic "index out of bounds"
  | Some (Some id, _) => Ok (id, s)
  | Some (None, name) =>
      let id := lenN (sf_ids s) in
      Ok (id, mkSrc (sf_cache s) (sf_ref s) (set_nthN (sf_fake s) fake (Some id, name)) (sf_ids s ++ [name]))
  end.

(** The two calls in sequence, as in /repo/src/collector.rs:240-241. *)
Definition src_lookup (e : SrcEnv) (r : FileRef) (s : Src) : res (N * Src) :=
  let '(fake, s) := src_get_id e r s in src_get_true_id fake s.

(** /repo/src/source.rs:31-34 [struct SourceMap]. *)
Record SrcMap := mkSrcMap { sm_ref : list (str * N); sm_ids : list str }.
(** /repo/src/source.rs:149-154 [SourceFiles::get_mapping]. *)
Definition src_mapping (s : Src) : SrcMap := mkSrcMap (sf_ref s) (sf_ids s).

(** /repo/src/source.rs:180-190: one turn of the merging loop. [remapping[id]]
    and [other.id_to_ref[id]] panic out of range. *)
Definition merge_step (self_ref : list (str * N)) (other_ids : list str)
    (st : list N * list str) (kv : str * N) : res (list N * list str) :=
  let '(remap, ids) := st in
  let '(path, id) := kv in
  match afind str_eqb path self_ref with
  | Some an_id =>
      if id <? lenN remap then Ok (set_nthN remap id an_id, ids) else Panic "index out of bounds"
  | None =>
      if id <? lenN remap then
        match nthN other_ids id with
        | Some name => Ok (set_nthN remap id (lenN ids), ids ++ [name])
        | None => Panic "index out of bounds"
        end
      else Panic "index out of bounds"
  end.
(** /repo/src/source.rs:162-193 [SourceMap::merge]: (new self, new other,
    renumbering of other's files). [iter] is the order in which the hash map
    [other.ref_to_id] is iterated. *)
Definition srcmap_merge (iter : list (str * N)) (self other : SrcMap) : res (SrcMap * SrcMap * option (list N)) :=
  match sm_ids other with
  | [] => Ok (self, other, None)
  | _ =>
      match sm_ids self with
      | [] => Ok (mkSrcMap (sm_ref other) (sm_ids other), mkSrcMap (sm_ref self) (sm_ids self), None)
      | _ =>
          ' st <- foldM (merge_step (sm_ref self) (sm_ids other)) iter
                    (repeat 0 (length (sm_ids other)), sm_ids self) ;;
          Ok (mkSrcMap (sm_ref self) (snd st), other, Some (fst st))
      end
  end.

(** /repo/src/inline_origins.rs:9-13 [struct InlineOrigins]. *)
Record Orig := mkOrig { og_names : list str; og_index : list (Name * N) }.
Definition orig_new : Orig := mkOrig [] [].

(** /repo/src/inline_origins.rs:16-26 [InlineOrigins::get_id]; numbers are not
    truncated to 32 bits. *)
Definition orig_get_id (d : Demangler) (n : Name) (o : Orig) : N * Orig :=
  match afind name_eqb n (og_index o) with
  | Some i => (i, o)
  | None =>
      let i := lenN (og_names o) in
      (i, mkOrig (og_names o ++ [demangle_and_sanitize d n]) (og_index o ++ [(n, i)]))
  end.

(** Numbers [a, a+1, ..., a+n-1]. *)
Fixpoint countN (a : N) (n : nat) : list N :=
  match n with O => [] | S n => a :: countN (a + 1) n end.

(** /repo/src/inline_origins.rs:60-82 [merge_inline_origins]: (merged list,
    renumbering of the right list). *)
Definition merge_inline_origins (left right : list str) : list str * list N :=
  match right with
  | [] => (left, [])
  | _ =>
      match left with
      | [] => (right, countN 0 (length right))
      | _ => (left ++ right, countN (lenN left) (length right))
      end
  end.

(** /repo/src/object_info.rs:67-74: text of one INLINE_ORIGIN record. *)
Definition fmt_origin (n : N) (name : str) : str :=
  let name := match trim name with [] => lit "<name omitted>" | _ => name end in
  lit "INLINE_ORIGIN " ++ dec n ++ [c_sp] ++ name ++ [c_nl].
