(** Several files in a simple setting. *)
From Verif Require Import Base BMap Str Utf8 M_Path M_Line M_Source M_Symbol M_Collector M_Object M_Fs M_Cache M_Store M_Input M_Sched M_Cli M_Many M_Shared
  S_Path S_Fs S_Cache S_Symbol S_Object S_Format S_Store S_Sched S_Many S_Shared S_Plain P_Cache P_Object P_Merge P_Many.

Lemma servers_none x fs : no_servers x fs -> get_sym_servers (ex_os x) fs (ex_home x) None = Ok None.
Proof.
  intros N. destruct (servers_source (ex_os x) fs (ex_home x) None) as (_ & A & B). destruct (ex_home x) as [h|] eqn:E; [|now apply A]. apply (B h); auto.
Qed.
Lemma job_same x e m arch inl fs f : no_servers x fs -> fst (get_job x e m arch inl fs f) = fs.
Proof.
  intros N. unfold get_job, next. destruct (get_filename f) as [n|s|s]; [|reflexivity..]. destruct (read_file _ _ _ _) as [b|s|s]; [|reflexivity..].
  unfold get_object_info. destruct (ps_peek _ _); try reflexivity.
  unfold get_pe_pdb_object_info. rewrite (servers_none x fs N). cbn [bind]. unfold get_pe_pdb_buf.
  destruct (ps_pe (ex_ps x) b) as [pe|]; [|reflexivity]. destruct (pf_pdb pe) as [q|]; [|reflexivity].
  destruct (os_specific_try_to_find_pdb _ _ _ _ _) as [[pdb name]|s|s]; [|reflexivity..]. cbn [bind].
  destruct name as [|c name]; [reflexivity|]. destruct pdb as [d|]; [|reflexivity].
  destruct (ps_pdb (ex_ps x) d) as [z|]; [|reflexivity]. destruct (from_pdb _ _ _ _ _); reflexivity.
Qed.
Lemma steady_plain u files fs0 : no_servers (u_ext u) fs0 -> steady u files fs0 (eq fs0).
Proof. intros N. split; [reflexivity|]. intros fs f <- _. split; [|reflexivity]. symmetry. unfold u_job. now apply job_same. Qed.

Lemma merged_name (P : str -> Prop) ck iter os m : merged_from ck iter os m -> (forall o, In o os -> P (ob_name o)) -> P (ob_name m).
Proof.
  induction 1 as [o|a b x y m Ha IHa Hb IHb E]; intros F; [apply F; now left|].
  assert (X : P (ob_name x)) by (apply IHa; intros o Ho; apply F; apply in_or_app; auto). assert (Y : P (ob_name y)) by (apply IHb; intros o Ho; apply F; apply in_or_app; auto).
  assert (G : forall s t, merge_into ck iter s t = Ok m -> ob_name m = (if ob_stripped t then ob_name t else ob_name s)).
  { intros s t. unfold merge_into. destruct (srcmap_merge _ _ _) as [[[f w] rm]| |]; cbn [bind]; [|discriminate..]. destruct (merge_inline_origins _ _) as [og om].
    destruct (foldM _ _ _) as [z| |]; cbn [bind]; [|discriminate..]. intros H. injection H as <-. reflexivity. }
  unfold merge_objects in E. destruct (negb _); [discriminate|]. destruct (_ <? _); apply G in E; rewrite E; destruct (ob_stripped _); assumption.
Qed.
Lemma merged_stack ck iter os m : merged_from ck iter os m -> (forall o, In o os -> ob_stack o <> []) -> ob_stack m <> [].
Proof.
  induction 1 as [o|a b x y m Ha IHa Hb IHb E]; intros F; [apply F; now left|].
  assert (X : ob_stack x <> []) by (apply IHa; intros o Ho; apply F; apply in_or_app; auto). assert (Y : ob_stack y <> []) by (apply IHb; intros o Ho; apply F; apply in_or_app; auto).
  assert (G : forall s t, merge_into ck iter s t = Ok m -> ob_stack m = merge_stack (ob_stack s) (ob_stack t)).
  { intros s t. unfold merge_into. destruct (srcmap_merge _ _ _) as [[[f w] rm]| |]; cbn [bind]; [|discriminate..]. destruct (merge_inline_origins _ _) as [og om].
    destruct (foldM _ _ _) as [z| |]; cbn [bind]; [|discriminate..]. intros H. injection H as <-. reflexivity. }
  assert (Q : forall s t, s <> [] -> t <> [] -> merge_stack s t <> []).
  { intros [|c s] [|d t] A B; try easy. unfold merge_stack. destruct (ends_with_char _ _); discriminate. }
  unfold merge_objects in E. destruct (negb _); [discriminate|]. destruct (_ <? _); apply G in E; rewrite E; apply Q; assumption.
Qed.
Lemma each_has {A B} (R : B -> A -> Prop) (l : list A) : (forall x, In x l -> exists y, R y x) -> exists ys, Forall2 R ys l.
Proof.
  induction l as [|a l IH]; intros H; [exists []; constructor|]. destruct (H a (or_introl eq_refl)) as (y & Y). destruct IH as (ys & F); [intros x Hx; apply H; now right|]. exists (y :: ys). now constructor.
Qed.
Lemma room_new os dir fs d l : new_store os dir fs -> stored_at os dir d l -> room_below fs l.
Proof.
  intros (N1 & N2) (b & f & _ & _ & ->). set (D := locate (os_cwd os) dir) in *. unfold room_below. splits; [discriminate| |].
  - change (f :: ob_debug_id d :: b :: D) with ([f; ob_debug_id d; b] ++ D). rewrite N1; discriminate.
  - intros k up x E NK. change (f :: ob_debug_id d :: b :: D) with ([f; ob_debug_id d; b] ++ D) in E. destruct (app_eq_app _ _ _ _ E) as (z & [(E1 & E2)|(E1 & E2)]).
    + destruct z as [|c z]; [cbn in E2; subst up; apply (N2 []); reflexivity|]. rewrite E2, N1; discriminate.
    + now apply (N2 z).
Qed.

Lemma option_node_dec : forall x y : option Node, {x = y} + {x <> y}.
Proof. repeat decide equality. Qed.
