(** Specification of line tables, independent of the model's helpers. It only
    uses the record types of M_Line. *)
From Verif Require Import Base Str M_Line.

(** The inserted lines, in insertion order. *)
Fixpoint inserted_lines (is : list Ins) : list (N * N * N) :=
  match is with
  | [] => []
  | InsLine a n f :: t => (a, n, f) :: inserted_lines t
  | InsInline _ _ :: t => inserted_lines t
  end.
(** The inserted ranges of one call site, in insertion order. *)
Fixpoint inserted_ranges (site_eqb : Site -> Site -> bool) (s : Site) (is : list Ins) : list Range :=
  match is with
  | [] => []
  | InsLine _ _ _ :: t => inserted_ranges site_eqb s t
  | InsInline s' r :: t =>
      if site_eqb s' s then r :: inserted_ranges site_eqb s t else inserted_ranges site_eqb s t
  end.
Definition sp_site_eqb (a b : Site) : bool :=
  (s_origin a =? s_origin b) && (s_depth a =? s_depth b) && (s_line a =? s_line b) && (s_file a =? s_file b).

Definition triple (l : Line) : N * N * N := (l_rva l, l_num l, l_file l).
Definition t_addr (t : N * N * N) : N := fst (fst t).

(** [l'] is the stable address-sorted arrangement of [l]. *)
Definition stable_by_addr (l l' : list (N * N * N)) : Prop :=
  StronglySorted (fun a b => t_addr a <= t_addr b) l' /\
  forall a, filter (fun t => t_addr t =? a) l' = filter (fun t => t_addr t =? a) l.

(** End address of a function, when it is representable. *)
Definition fn_end (rva len : N) : option N := if rva + len <? two32 then Some (rva + len) else None.

(** Each record reaches exactly to the next one, the last one to the end of
    the function if it starts before it, otherwise it is empty. *)
Fixpoint tiles (fend : option N) (l : list Line) : Prop :=
  match l with
  | [] => True
  | [x] => match fend with
           | Some e => if l_rva x <? e then l_rva x + l_len x = e else l_len x = 0
           | None => l_len x = 0
           end
  | x :: (y :: _) as t => l_rva x + l_len x = l_rva y /\ tiles fend t
  end.

(** An address is in a line record / in a range. *)
Definition in_line (a : N) (l : Line) : bool := (l_rva l <=? a) && (a <? l_rva l + l_len l).
Definition in_range (a : N) (r : Range) : bool := (r_rva r <=? a) && (a <? r_rva r + r_len r).

(** The inserted line that should describe address [a]: the last inserted among
    those with the greatest start not above [a]. *)
Definition is_best (a : N) (l : list (N * N * N)) (b : N * N * N) : Prop :=
  exists pre post, l = pre ++ b :: post /\ t_addr b <= a /\
    (forall t, In t pre -> t_addr t <= a -> t_addr t <= t_addr b) /\
    (forall t, In t post -> t_addr t <= a -> t_addr t < t_addr b).

(** Address [a] is before the end of the table: some line starts after it or
    the function ends after it. *)
Definition before_end (a : N) (fend : option N) (l : list (N * N * N)) : Prop :=
  (exists t, In t l /\ a < t_addr t) \/ (exists e, fend = Some e /\ a < e).

Definition cover_count (a : N) (l : list Range) : nat := length (filter (in_range a) l).

Definition range_fits (r : Range) : Prop := r_rva r + r_len r < two32.

(** Number of inserted ranges and sites. *)
Definition sp_ins_ok (i : Ins) : Prop :=
  match i with
  | InsLine a _ _ => a < two32
  | InsInline _ r => range_fits r
  end.

(** Neighbouring ranges do not abut. *)
Fixpoint no_abut (l : list Range) : Prop :=
  match l with
  | x :: (y :: _) as t => r_rva x + r_len x <> r_rva y /\ no_abut t
  | _ => True
  end.

(** Text of the records: fields separated by single spaces, one line each. *)
Definition sp_inline_text (s : Site) (rs : list Range) : str :=
  join_with c_sp
    ([lit "INLINE"; dec (s_depth s); dec (s_line s); dec (s_file s); dec (s_origin s)]
     ++ flat_map (fun r => [hex (r_rva r); hex (r_len r)]) rs) ++ [c_nl].
Definition sp_line_text (l : Line) : str :=
  join_with c_sp [hex (l_rva l); hex (l_len l); dec (l_num l); dec (l_file l)] ++ [c_nl].

(** Order of INLINE records: by address of the first range, then depth. *)
Definition sp_inline_le (x y : Site * list Range) : Prop :=
  match snd x, snd y with
  | r :: _, q :: _ => r_rva r < r_rva q \/ (r_rva r = r_rva q /\ s_depth (fst x) <= s_depth (fst y))
  | _, _ => False
  end.

(** What is seen of a finished table. *)
Definition observe (r : res Lines) : res (list Line * list (Site * list Range)) :=
  ls <- r ;; Ok (ls_lines ls, ls_inlines ls).

(** No inline range is inserted. *)
Definition only_lines (is : list Ins) : Prop := forall s r, ~ In (InsInline s r) is.
