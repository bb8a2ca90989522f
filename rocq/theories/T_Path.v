(** Property theorems C19, C20, C21, C45 (paths). *)
From Verif Require Import Base Str Utf8 M_Path S_Path P_Path.

(** ** C19: source paths *)
Theorem C19_absolute_dir_kept : forall canon p cd dir name, sp_abs p dir ->
  get_path canon p false cd dir name = join_paths p dir name.
Proof. exact get_path_abs. Qed.
Print Assumptions C19_absolute_dir_kept.

(** Full statement: without the condition that a Windows directory is not
    empty. It is false, see C19_windows_empty_dir_refuted. *)
Theorem C19_relative_dir_partial : forall canon p cd dir name, ~ sp_abs p dir ->
  (p = Win -> dir <> []) -> cd <> [] ->
  get_path canon p false cd dir name = join_paths p (join_paths p (path_to_string cd) dir) name.
Proof. exact get_path_rel. Qed.
Print Assumptions C19_relative_dir_partial.

Theorem C19_windows_empty_dir_refuted : exists cd dir name, ~ sp_abs Win dir /\ cd <> [] /\
  forall canon, get_path canon Win false cd dir name = lit "\a.c" /\
  get_path canon Win false cd dir name <> join_paths Win (join_paths Win (path_to_string cd) dir) name.
Proof.
  exists (lit "C:\src"), [], (lit "a.c"). split; [|split; [discriminate|]].
  - intros H. apply (proj2 (or_comm _ _)) in H. destruct H as [(_ & x & t & E & _)|(c & t & E & _)]; [destruct x|]; discriminate.
  - intros canon. split; [reflexivity|vm_compute; discriminate].
Qed.
Print Assumptions C19_windows_empty_dir_refuted.

(** A file with neither directory nor compilation directory gets an absolute path. *)
Theorem C19_no_directory_refuted : exists p name, forall canon,
  get_path canon p false [] [] name = 47 :: name /\ ~ sp_abs p name.
Proof.
  exists Linux, (lit "a.c"). intros canon. split; [reflexivity|].
  intros [(c & t & [= <- <-] & H)|[[=] _]]. discriminate.
Qed.
Print Assumptions C19_no_directory_refuted.

(** These are all cases: without a compilation directory, and for a Windows file
    without a directory, the directory is taken as it is. *)
Theorem C19_no_compdir : forall canon p dir name, get_path canon p false [] dir name = join_paths p dir name.
Proof. intros canon p dir name. unfold get_path. now rewrite andb_false_r. Qed.
Print Assumptions C19_no_compdir.
Theorem C19_windows_no_dir : forall canon cd name, exists t, get_path canon Win false cd [] name = 92 :: t /\ no_leading Win name t.
Proof. exact get_path_win_nil. Qed.
Print Assumptions C19_windows_no_dir.

Theorem C19_utf8_compdir : forall s, Forall scalar s -> path_to_string (encode s) = s.
Proof. exact path_to_string_utf8. Qed.
Print Assumptions C19_utf8_compdir.

Theorem C19_latin1_compdir : forall bs, (forall s, Forall scalar s -> bs <> encode s) -> path_to_string bs = bs.
Proof. exact path_to_string_latin1. Qed.
Print Assumptions C19_latin1_compdir.

Theorem C19_canonical_or_normalised : forall canon p cd dir name,
  get_path canon p true cd dir name =
  match canon (get_path canon p false cd dir name) with
  | Some q => q
  | None => normalize_path (get_path canon p false cd dir name)
  end.
Proof. exact get_path_canon. Qed.
Print Assumptions C19_canonical_or_normalised.

(** The absolute-path test of the platform, for every string. *)
Theorem C19_absolute_test : forall p s, is_absolute_path p s = true <-> sp_abs p s \/ (p = Win /\ s = []).
Proof. exact is_absolute_spec. Qed.
Print Assumptions C19_absolute_test.

Example C19_examples :
  get_path (fun _ => None) Linux false (lit "/build") (lit "../src") (lit "a.c") = lit "/build/../src/a.c" /\
  get_path (fun _ => None) Linux true (lit "/build") (lit "../src") (lit "a.c") = lit "/src/a.c" /\
  get_path (fun _ => None) Linux false (lit "/build") [] (lit "a.c") = lit "/build/a.c" /\
  get_path (fun _ => None) Linux false (lit "/build") (lit "/usr/include") (lit "a.h") = lit "/usr/include/a.h" /\
  get_path (fun _ => None) Win false (lit "C:\build") (lit "x/y") (lit "a.c") = lit "C:\build\x/y\a.c" /\
  path_to_string [99; 195; 169] = [99; 233] /\ path_to_string [99; 233] = [99; 233] /\
  sp_abs Win (lit "D:\x") /\ ~ sp_abs Linux (lit "../src").
Proof.
  repeat split; try reflexivity.
  - right. split; [reflexivity|]. exists (lit "D"), (lit "\x"). split; [reflexivity|]. split; [|now right].
    intros c [<-|[]] [H|H]; discriminate.
  - intros [(c & t & [= <- <-] & H)|[[=] _]]. discriminate.
Qed.

(** ** C20: joining *)
Theorem C20_one_separator_at_the_seam : forall p l r l' r', no_trailing p l l' -> no_leading p r r' ->
  exists sep, sp_sep p sep /\ join_paths p l r = l' ++ [sep] ++ r'.
Proof. exact join_seam. Qed.
Print Assumptions C20_one_separator_at_the_seam.

Theorem C20_unix_text : forall p l r l' r', p <> Win -> no_trailing p l l' -> no_leading p r r' ->
  join_paths p l r = l' ++ [47] ++ r'.
Proof. exact join_unix. Qed.
Print Assumptions C20_unix_text.

Theorem C20_windows_text : forall l r l' r', no_trailing Win l l' -> no_leading Win r r' ->
  join_paths Win l r = l' ++ [if starts_with (lit "/") l' then 47 else 92] ++ r'.
Proof. exact join_win. Qed.
Print Assumptions C20_windows_text.

Theorem C20_absolute_preserved : forall p l r, sp_abs p l -> sp_abs p (join_paths p l r).
Proof. exact join_abs. Qed.
Print Assumptions C20_absolute_preserved.

Theorem C20_unix_associative : forall p a b c, p <> Win ->
  join_paths p (join_paths p a b) c = join_paths p a (join_paths p b c).
Proof. exact join_assoc. Qed.
Print Assumptions C20_unix_associative.

(** Full statement: the Windows joiner uses '/' exactly when the left side
    starts with '/'. False for a left side made of separators only: *)
Theorem C20_windows_root_refuted : exists l r, (exists t, l = 47 :: t) /\
  join_paths Win l r = 92 :: r /\ join_paths Win l r <> 47 :: r.
Proof. exists (lit "/"), (lit "a.c"). repeat split; [now exists []|vm_compute; discriminate]. Qed.
Print Assumptions C20_windows_root_refuted.

(** It is true exactly when there is something besides separators. *)
Theorem C20_windows_slash_partial : forall l r,
  join_paths Win l r = trim_end_by is_sep l ++ [47] ++ trim_start_by is_sep r <->
  exists t, l = 47 :: t /\ exists c, In c l /\ ~ sp_sep Win c.
Proof. exact join_win_slash. Qed.
Print Assumptions C20_windows_slash_partial.

Theorem C20_windows_not_associative_refuted : exists a b c,
  join_paths Win (join_paths Win a b) c <> join_paths Win a (join_paths Win b c).
Proof. exists (lit "C:"), (lit "/x"), (lit "y"). vm_compute. discriminate. Qed.
Print Assumptions C20_windows_not_associative_refuted.

Example C20_examples :
  join_paths Linux (lit "/home//") (lit "//x") = lit "/home/x" /\
  join_paths Win (lit "C:\") (lit "x") = lit "C:\x" /\ join_paths Win (lit "/a") (lit "x") = lit "/a/x" /\
  no_trailing Linux (lit "/home//") (lit "/home") /\ no_leading Linux (lit "//x") (lit "x") /\ sp_abs Linux (lit "/home//").
Proof.
  repeat split.
  - exists (lit "//"). repeat split.
    + intros c [<-|[<-|[]]]; reflexivity.
    + intros x c H. apply (f_equal (@rev N)) in H. rewrite rev_app_distr in H. cbn in H. injection H as <- _. discriminate.
  - exists (lit "//"). repeat split.
    + intros c [<-|[<-|[]]]; reflexivity.
    + intros c x [= <- <-]. discriminate.
  - left. exists 47, (lit "home//"). split; reflexivity.
Qed.

(** ** C21: normalisation *)
Theorem C21_no_dots : forall s, exists names, normalize_path s = sp_render (sp_abs_unix s) names /\
  Forall proper names /\
  (names <> [] -> sp_pieces (normalize_path s) = (if sp_abs_unix s then [[]] else []) ++ names).
Proof. exact normalize_clean. Qed.
Print Assumptions C21_no_dots.

Theorem C21_idempotent : forall s, normalize_path (normalize_path s) = normalize_path s.
Proof. exact normalize_idem. Qed.
Print Assumptions C21_idempotent.

Theorem C21_absolute_meaning : forall s cwd, sp_abs_unix s = true ->
  sp_walk cwd (normalize_path s) = sp_walk cwd s /\ sp_abs_unix (normalize_path s) = true.
Proof. exact normalize_walk_abs. Qed.
Print Assumptions C21_absolute_meaning.

(** The result for every path: the walk from an empty stack. *)
Theorem C21_exact : forall s, exists names, normalize_path s = sp_render (sp_abs_unix s) names /\
  Forall proper names /\ rev names = sp_walk [] s.
Proof. exact normalize_spec. Qed.
Print Assumptions C21_exact.

(** Relative paths that climb change their meaning. *)
Theorem C21_relative_meaning_refuted : exists s cwd, sp_walk cwd (normalize_path s) <> sp_walk cwd s.
Proof. exists (lit "../a"), [lit "d"]. vm_compute. discriminate. Qed.
Print Assumptions C21_relative_meaning_refuted.

Example C21_examples :
  normalize_path (lit "/a/./b//../c") = lit "/a/c" /\ normalize_path (lit "/../x") = lit "/x" /\
  normalize_path (lit "../a") = lit "a" /\ normalize_path (lit "./a/..") = [] /\ sp_abs_unix (lit "/a/./b") = true.
Proof. repeat split. Qed.

(** ** C45: the store path *)
Theorem C45_shape : forall n id, no_slash n -> n <> [] -> no_slash id -> id <> [] ->
  exists base f, sp_base n base /\ sp_sym n f /\ no_slash base /\ no_slash f /\
    get_path_for_sym n id = base ++ [47] ++ id ++ [47] ++ f.
Proof. exact store_path. Qed.
Print Assumptions C45_shape.

Theorem C45_injective : forall n id n' id', no_slash n -> n <> [] -> no_slash id -> id <> [] ->
  no_slash n' -> n' <> [] -> no_slash id' -> id' <> [] ->
  get_path_for_sym n id = get_path_for_sym n' id' -> n = n' /\ id = id'.
Proof. exact store_path_inj. Qed.
Print Assumptions C45_injective.

(** The non-emptiness conditions are needed. *)
Theorem C45_empty_parts_refuted : exists n id n' id', no_slash n /\ no_slash id /\ no_slash n' /\ no_slash id' /\
  (n, id) <> (n', id') /\ get_path_for_sym n id = get_path_for_sym n' id'.
Proof.
  exists [], (lit ".pdb"), (lit ".pdb"), [].
  repeat split; try (intros H; vm_compute in H; intuition congruence).
Qed.
Print Assumptions C45_empty_parts_refuted.

Example C45_examples :
  get_path_for_sym (lit "xul.pdb") (lit "ABC0") = lit "xul.pdb/ABC0/xul.sym" /\
  get_path_for_sym (lit "xul.PD_") (lit "ABC0") = lit "xul.pdb/ABC0/xul.PD_.sym" /\
  get_path_for_sym (lit "libxul.so") (lit "ABC0") = lit "libxul.so/ABC0/libxul.so.sym" /\
  no_slash (lit "xul.pdb") /\ no_slash (lit "ABC0").
Proof. repeat split; intros H; vm_compute in H; intuition congruence. Qed.
