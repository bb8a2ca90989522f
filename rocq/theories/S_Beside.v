(** Specification of lookups made at the same time. *)
From Verif Require Import Base Str M_Path M_Fs M_Cache S_Path S_Fs S_Cache M_Beside.

(** Where the file of a request is kept in a cache. *)
Definition kept_at (os : Os) (r : Req) (c : str) : Loc := entry_loc os c (get_base (rq_name r)) (rq_id r) (rq_name r).
(** Names and ids of directory entries; no place to keep a file is inside another
    or a directory; nothing above one is a file; everything may be written. *)
Definition tidy (os : Os) (sv : list SymbolServer) (fs : FS) (rs : list Req) : Prop :=
  (forall r, In r rs -> proper (rq_name r) /\ proper (rq_id r)) /\
  (forall r r' c c' l, In r rs -> In r' rs -> In c (caches sv) -> In c' (caches sv) -> kept_at os r' c' = l ++ kept_at os r c -> l = []) /\
  (forall r c, In r rs -> In c (caches sv) -> fs_get fs (kept_at os r c) <> Some NDir) /\
  (forall r c l x d, In r rs -> In c (caches sv) -> kept_at os r c = l ++ x -> l <> [] -> fs_get fs x <> Some (NFile d)) /\
  (forall l, os_may os l = true).
(** The whole data is written. *)
Definition whole (cut : list N -> list (list N)) : Prop := forall d, concat (cut d) = d.
(** What a lookup gives that nobody disturbs. *)
Definition by_itself (e : CEnv) (n : Net) (sv : list SymbolServer) (fs : FS) (r : Req) : res (option (list N)) :=
  match search_file e n (rq_sched r) fs (rq_name r) (rq_id r) (Some sv) with Ok l => Ok (lk_data l) | Err m => Err m | Panic m => Panic m end.
(** Different files: no request of [b] has its file kept where [r] has. *)
Definition other_files (os : Os) (sv : list SymbolServer) (r : Req) (b : list Req) : Prop :=
  forall r' c c', In r' b -> In c (caches sv) -> In c' (caches sv) -> kept_at os r' c' <> kept_at os r c.
(** A copy of [d] that is not complete: it may be shorter and have zeros in it. *)
Definition partly (d t : list N) : Prop := (length t <= length d)%nat /\ forall i x, nth_error t i = Some x -> x = 0 \/ nth_error d i = Some x.
(** What reading a file of the cache with the data [t] gives. *)
Definition read_as (e : CEnv) (name : str) (t : list N) (q : res (option (list N))) : Prop :=
  match q with
  | Ok (Some d) => read_cabinet (ce_cab e) t name = Ok (Some d)
  | Ok None => False
  | _ => forall d, read_cabinet (ce_cab e) t name <> Ok (Some d)
  end.
(** All servers that have the file give the same data. *)
Definition one_body (n : Net) (sv : list SymbolServer) (r : Req) (d : list N) : Prop :=
  forall us u b, candidates sv (rq_name r) (rq_id r) us -> In u us -> nt_head n u = Some 200 -> nt_get n u = Some b -> b = d.
