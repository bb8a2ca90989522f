(** Proofs about the command line. *)
From Verif Require Import Base Str M_Source M_Mapping M_Cli M_Args S_Args.

Lemma opt_eqb o o' : Opt_beq o o' = true <-> o = o'.
Proof. split; [apply internal_Opt_dec_bl|apply internal_Opt_dec_lb]. Qed.
Lemma switch_eqb w w' : Switch_beq w w' = true <-> w = w'.
Proof. split; [apply internal_Switch_dec_bl|apply internal_Switch_dec_lb]. Qed.
Lemma seen_opt o so : existsb (Opt_beq o) so = true <-> In o so.
Proof. rewrite existsb_exists. split; [intros (x & I & E); apply opt_eqb in E; now subst|]. intros I. exists o. split; [exact I|now apply opt_eqb]. Qed.
Lemma seen_switch w sw : existsb (Switch_beq w) sw = true <-> In w sw.
Proof. rewrite existsb_exists. split; [intros (x & I & E); apply switch_eqb in E; now subst|]. intros I. exists w. split; [exact I|now apply switch_eqb]. Qed.
Lemma appends_spec o : appends o = true <-> repeatable o.
Proof. unfold repeatable. split; [destruct o; cbn; intros E; (discriminate || tauto)|]. intros H. cbn in H. repeat (destruct H as [<- |H]; [reflexivity|]). destruct H. Qed.
Lemma dashed_plain t : dashed t = false <-> plain t.
Proof.
  unfold plain. destruct t as [|a [|b t]]; cbn [dashed].
  - split; [intros _; right; intros r; discriminate|reflexivity].
  - split; [intros _|reflexivity]. destruct (N.eq_dec a 45) as [-> |D]; [now left|]. right. intros r E. apply D. now injection E.
  - destruct (N.eqb_spec a 45) as [-> |D]; (split; [intros E|]); try discriminate; try reflexivity.
    + intros [E|E]; [discriminate|]. now elim (E (b :: t)).
    + right. intros r F. apply D. now injection F.
Qed.

(** *** One spelling *)
Definition ev (i : Item) : Ev :=
  match i with
  | IFile t => EFile t
  | ISwitch w _ => ESwitch w
  | ILong o _ v | IJoined o _ v | IShort o _ v | IStuck o _ v | IEquals o _ v => EOpt o v
  end.
Definition so_add (i : Item) (so : list Opt) : list Opt := map fst (item_value i) ++ so.
Definition sw_add (i : Item) (sw : list Switch) : list Switch := item_switch i ++ sw.
Definition dup (so : list Opt) (sw : list Switch) (i : Item) : bool :=
  match i with IFile _ => false | ISwitch w _ => existsb (Switch_beq w) sw | ILong o _ _ | IJoined o _ _ | IShort o _ _ | IStuck o _ _ | IEquals o _ _ => again so o end.

Lemma scan_file so sw t rest : plain t -> scan_args so sw (t :: rest) = cons_out (EFile t) (scan_args so sw rest).
Proof.
  intros P. apply dashed_plain in P. destruct t as [|a [|c r]]; try reflexivity. cbn [dashed] in P. cbn [scan_args]. now rewrite P.
Qed.
Lemma split_eq_none n : ~ In c_eq n -> split_eq n = (n, None).
Proof.
  induction n as [|c n IH]; intros H; cbn [split_eq]; [reflexivity|]. destruct (N.eqb_spec c c_eq) as [-> |D]; [elim H; now left|]. rewrite IH; [reflexivity|]. intros I. apply H. now right.
Qed.
Lemma split_eq_some n v : ~ In c_eq n -> split_eq (n ++ c_eq :: v) = (n, Some v).
Proof.
  induction n as [|c n IH]; intros H; cbn [app split_eq]; [reflexivity|]. destruct (N.eqb_spec c c_eq) as [-> |D]; [elim H; now left|]. rewrite IH; [reflexivity|]. intros I. apply H. now right.
Qed.
Lemma split_eq_inv s n a : split_eq s = (n, a) -> ~ In c_eq n /\ s = n ++ match a with Some v => c_eq :: v | None => [] end.
Proof.
  revert n a. induction s as [|c s IH]; intros n a; cbn [split_eq]; [intros [= <- <-]; split; [easy|reflexivity]|].
  destruct (N.eqb_spec c c_eq) as [-> |D]; [intros [= <- <-]; split; [easy|reflexivity]|]. destruct (split_eq s) as [n' a'] eqn:E. intros [= <- <-].
  destruct (IH _ _ eq_refl) as [H1 H2]. split; [|cbn; now rewrite <- H2]. intros [C|C]; [congruence|contradiction].
Qed.
(** The meaning of a long name. *)
Lemma long_opts_named n o : afind str_eqb n long_opts = Some o <-> named o n.
Proof.
  split.
  - unfold long_opts. cbn [afind]. repeat match goal with |- context [str_eqb n ?t] => let E := fresh "E" in destruct (str_eqb n t) eqn:E; [intros [= <-]; apply str_eqb_eq in E; exact E|clear E] end. discriminate.
  - destruct o; cbn [named]; try contradiction; intros -> ; vm_compute; reflexivity.
Qed.
Lemma long_switches_named n w : afind str_eqb n long_switches = Some w <-> switch_named w n.
Proof.
  split.
  - unfold long_switches. cbn [afind]. repeat match goal with |- context [str_eqb n ?t] => let E := fresh "E" in destruct (str_eqb n t) eqn:E; [intros [= <-]; apply str_eqb_eq in E; exact E|clear E] end. discriminate.
  - destruct w; cbn [switch_named]; intros -> ; vm_compute; reflexivity.
Qed.
Lemma named_shape o n : named o n -> n <> [] /\ ~ In c_eq n.
Proof. destruct o; cbn [named]; try contradiction; intros -> ; (split; [discriminate|]); vm_compute; intros H; repeat (destruct H as [H|H]; [discriminate|]); exact H. Qed.
Lemma switch_shape w n : switch_named w n -> n <> [] /\ ~ In c_eq n /\ afind str_eqb n long_opts = None.
Proof. destruct w; cbn [switch_named]; intros -> ; (split; [discriminate|]); (split; [|vm_compute; reflexivity]); vm_compute; intros H; repeat (destruct H as [H|H]; [discriminate|]); exact H. Qed.
Lemma short_lettered c o : short_opt c = Some o <-> lettered o [c].
Proof.
  unfold short_opt. split.
  - repeat match goal with |- context [c =? ?k] => destruct (N.eqb_spec c k) as [-> |?]; [intros [= <-]; vm_compute; reflexivity|] end. discriminate.
  - destruct o; cbn [lettered]; try contradiction; intros E; injection E as -> ; reflexivity.
Qed.
Lemma lettered_one o c : lettered o c -> exists k, c = [k] /\ short_opt k = Some o /\ k <> 45.
Proof. destruct o; cbn [lettered]; try contradiction; intros -> ; eexists; (split; [vm_compute; reflexivity|]); (split; [reflexivity|discriminate]). Qed.

Lemma scan_item so sw i rest : well_formed i ->
  scan_args so sw (text i ++ rest) = if dup so sw i then Usage else cons_out (ev i) (scan_args (so_add i so) (sw_add i sw) rest).
Proof.
  destruct i as [t|w n|o n v|o n v|o c v|o c v|o c v]; cbn [well_formed text dup ev app so_add sw_add item_value item_switch map fst].
  - intros P. now apply scan_file.
  - intros W. destruct (switch_shape w n W) as (NE & NQ & NO). destruct n as [|a n]; [now elim NE|]. apply long_switches_named in W.
    change (lit "--" ++ a :: n) with (45 :: 45 :: a :: n). cbn [scan_args]. cbn [N.eqb Pos.eqb]. rewrite (split_eq_none _ NQ), NO, W. reflexivity.
  - intros [W P]. destruct (named_shape o n W) as (NE & NQ). destruct n as [|a n]; [now elim NE|]. apply long_opts_named in W. apply dashed_plain in P.
    change (lit "--" ++ a :: n) with (45 :: 45 :: a :: n). cbn [scan_args]. cbn [N.eqb Pos.eqb]. rewrite (split_eq_none _ NQ), W, P. reflexivity.
  - intros W. destruct (named_shape o n W) as (NE & NQ). destruct n as [|a n]; [now elim NE|]. apply long_opts_named in W.
    change (lit "--" ++ (a :: n) ++ lit "=" ++ v) with (45 :: 45 :: (a :: n) ++ c_eq :: v). remember ((a :: n) ++ c_eq :: v) as s eqn:Es.
    assert (Ss : split_eq s = (a :: n, Some v)) by (subst s; now apply split_eq_some). destruct s as [|s0 s]; [discriminate|]. cbn [scan_args]. cbn [N.eqb Pos.eqb]. rewrite Ss, W. reflexivity.
  - intros [W P]. destruct (lettered_one o c W) as (k & -> & S & K). apply dashed_plain in P. change (lit "-" ++ [k]) with [45; k]. cbn [scan_args]. cbn [N.eqb Pos.eqb].
    destruct (N.eqb_spec k 45); [contradiction|]. rewrite S, P. reflexivity.
  - intros (W & NE & NQ). destruct (lettered_one o c W) as (k & -> & S & K). destruct v as [|d v]; [now elim NE|]. change (lit "-" ++ [k] ++ d :: v) with (45 :: k :: d :: v). cbn [scan_args]. cbn [N.eqb Pos.eqb].
    destruct (N.eqb_spec k 45); [contradiction|]. rewrite S. destruct (N.eqb_spec d 61) as [-> |D]; [now elim (NQ v)|]. reflexivity.
  - intros W. destruct (lettered_one o c W) as (k & -> & S & K). change (lit "-" ++ [k] ++ lit "=" ++ v) with (45 :: k :: 61 :: v). cbn [scan_args]. cbn [N.eqb Pos.eqb].
    destruct (N.eqb_spec k 45); [contradiction|]. rewrite S. reflexivity.
Qed.
Lemma scan_end so sw rest : scan_args so sw (lit "--" :: rest) = Got (map EFile rest).
Proof. reflexivity. Qed.
Lemma scan_help so sw h rest : asks_help h -> scan_args so sw (h :: rest) = Shown.
Proof. intros [-> |[-> |(r & [-> | -> ])]]; reflexivity. Qed.

(** *** Every argument list *)
Lemma shapes l : l <> [] -> (exists i r, well_formed i /\ l = text i ++ r) \/ (exists r, l = lit "--" :: r) \/ (exists h r, asks_help h /\ l = h :: r) \/
  forall so sw, scan_args so sw l = Usage.
Proof.
  destruct l as [|t rest]; [now intros H|]. intros _.
  destruct (dashed t) eqn:Ed; [|left; exists (IFile t), rest; split; [now apply dashed_plain|reflexivity]].
  destruct t as [|a [|c r]]; try discriminate. cbn [dashed] in Ed. apply N.eqb_eq in Ed. subst a.
  destruct (N.eqb_spec c 45) as [-> |C].
  - destruct r as [|b r]; [right; left; exists rest; reflexivity|]. set (br := b :: r) in *.
    destruct (split_eq br) as [n at_] eqn:Es. pose proof (split_eq_inv _ _ _ Es) as (NQ & Eb).
    destruct (afind str_eqb n long_opts) as [o|] eqn:Eo.
    { apply long_opts_named in Eo. destruct at_ as [v|].
      - left. exists (IJoined o n v), rest. split; [exact Eo|]. cbn [text app]. now rewrite Eb.
      - rewrite app_nil_r in Eb. destruct rest as [|v rest].
        + right; right; right. intros so sw. apply long_opts_named in Eo. unfold br in *. cbn [scan_args]. cbn [N.eqb Pos.eqb]. rewrite Es, Eo. reflexivity.
        + destruct (dashed v) eqn:Dv.
          * right; right; right. intros so sw. apply long_opts_named in Eo. unfold br in *. cbn [scan_args]. cbn [N.eqb Pos.eqb]. rewrite Es, Eo, Dv. reflexivity.
          * left. exists (ILong o n v), rest. split; [split; [exact Eo|now apply dashed_plain]|]. cbn [text app]. now rewrite Eb. }
    destruct (afind str_eqb n long_switches) as [w|] eqn:Ew.
    { destruct at_ as [v|].
      - right; right; right. intros so sw. unfold br in *. cbn [scan_args]. cbn [N.eqb Pos.eqb]. rewrite Es, Eo, Ew. reflexivity.
      - rewrite app_nil_r in Eb. left. exists (ISwitch w n), rest. split; [now apply long_switches_named|]. cbn [text app]. now rewrite Eb. }
    destruct at_ as [v|].
    + right; right; right. intros so sw. unfold br in *. cbn [scan_args]. cbn [N.eqb Pos.eqb]. rewrite Es, Eo, Ew. reflexivity.
    + rewrite app_nil_r in Eb. destruct (is_help n) eqn:Eh.
      * right; right; left. exists (45 :: 45 :: n), rest. split; [|now rewrite Eb]. unfold is_help in Eh. apply orb_prop in Eh. destruct Eh as [E|E]; apply str_eqb_eq in E; rewrite E; [left; reflexivity|right; left; reflexivity].
      * right; right; right. intros so sw. unfold br in *. cbn [scan_args]. cbn [N.eqb Pos.eqb]. rewrite Es, Eo, Ew, Eh. reflexivity.
  - destruct (short_opt c) as [o|] eqn:Eo.
    + pose proof (proj1 (short_lettered c o) Eo) as L. destruct r as [|d r].
      * destruct rest as [|v rest].
        -- right; right; right. intros so sw. cbn [scan_args]. cbn [N.eqb Pos.eqb]. destruct (N.eqb_spec c 45); [contradiction|]. rewrite Eo. reflexivity.
        -- destruct (dashed v) eqn:Dv.
           ++ right; right; right. intros so sw. cbn [scan_args]. cbn [N.eqb Pos.eqb]. destruct (N.eqb_spec c 45); [contradiction|]. rewrite Eo, Dv. reflexivity.
           ++ left. exists (IShort o [c] v), rest. split; [split; [exact L|now apply dashed_plain]|reflexivity].
      * destruct (N.eq_dec d 61) as [-> |D].
        -- left. exists (IEquals o [c] r), rest. split; [exact L|reflexivity].
        -- left. exists (IStuck o [c] (d :: r)), rest. split; [|reflexivity]. split; [exact L|]. split; [discriminate|]. intros q E. apply D. now injection E.
    + destruct ((c =? 104) || (c =? 86)) eqn:Eh.
      * right; right; left. exists (45 :: c :: r), rest. split; [|reflexivity]. right; right. exists r. apply orb_prop in Eh. destruct Eh as [E|E]; apply N.eqb_eq in E; subst c; [left|right]; reflexivity.
      * right; right; right. intros so sw. cbn [scan_args]. cbn [N.eqb Pos.eqb]. destruct (N.eqb_spec c 45); [contradiction|]. rewrite Eo, Eh. reflexivity.
Qed.
Lemma text_shorter i : text i <> [].
Proof. destruct i; discriminate. Qed.

(** Repetitions within the items, given what was seen before. *)
Fixpoint fine (so : list Opt) (sw : list Switch) (items : list Item) : Prop :=
  match items with [] => True | i :: t => dup so sw i = false /\ fine (so_add i so) (sw_add i sw) t end.
Fixpoint adds (items : list Item) (so : list Opt) : list Opt := match items with [] => so | i :: t => adds t (so_add i so) end.
Fixpoint addw (items : list Item) (sw : list Switch) : list Switch := match items with [] => sw | i :: t => addw t (sw_add i sw) end.
Definition app_out (l : list Ev) (r : Out (list Ev)) : Out (list Ev) := match r with Got m => Got (l ++ m) | Usage => Usage | Shown => Shown end.
Lemma scan_items items rest : forall so sw, Forall well_formed items -> fine so sw items ->
  scan_args so sw (concat (map text items) ++ rest) = app_out (map ev items) (scan_args (adds items so) (addw items sw) rest).
Proof.
  induction items as [|i items IH]; intros so sw W F; cbn [map concat app adds addw].
  - destruct (scan_args so sw rest); reflexivity.
  - inversion W as [|? ? Wi Wt]; subst. destruct F as [Fi Ft]. rewrite <- app_assoc, (scan_item _ _ _ _ Wi), Fi, (IH _ _ Wt Ft). destruct (scan_args (adds items (so_add i so)) _ rest); reflexivity.
Qed.
Lemma scan_cases n : forall l so sw, (length l <= n)%nat -> scan_args so sw l <> Usage ->
  exists items, Forall well_formed items /\ fine so sw items /\
    ((exists tail, l = arguments items tail /\ scan_args so sw l = Got (map ev items ++ map EFile (match tail with Some t => t | None => [] end))) \/
     (exists h rest, asks_help h /\ l = concat (map text items) ++ h :: rest /\ scan_args so sw l = Shown)).
Proof.
  induction n as [|n IH]; intros l so sw L NU.
  - destruct l; [|cbn in L; lia]. exists []. split; [constructor|]. split; [exact I|]. left. exists None. split; reflexivity.
  - destruct l as [|t l0] eqn:El; [exists []; split; [constructor|]; split; [exact I|]; left; exists None; split; reflexivity|]. rewrite <- El in *.
    assert (Hn : l <> []) by (rewrite El; discriminate). destruct (shapes l Hn) as [(i & r & W & E)|[(r & E)|[(h & r & H & E)|U]]]; [ | | |elim NU; apply U].
    + rewrite E in *. rewrite (scan_item _ _ _ _ W) in *. destruct (dup so sw i) eqn:D; [now elim NU|].
      assert (Lr : (length r <= n)%nat). { rewrite app_length in L. pose proof (text_shorter i). destruct (text i); [contradiction|cbn in L; lia]. }
      assert (NU' : scan_args (so_add i so) (sw_add i sw) r <> Usage) by (intros U; rewrite U in NU; now elim NU).
      destruct (IH r _ _ Lr NU') as (items & Wi & Fi & H). exists (i :: items). split; [now constructor|]. split; [split; assumption|].
      destruct H as [(tail & E1 & E2)|(h & rest & A & E1 & E2)].
      * left. exists tail. split; [|rewrite E2; reflexivity]. rewrite E1. unfold arguments. cbn [map concat]. now rewrite app_assoc.
      * right. exists h, rest. split; [exact A|]. split; [|rewrite E2; reflexivity]. rewrite E1. cbn [map concat]. now rewrite app_assoc.
    + exists []. split; [constructor|]. split; [exact I|]. left. exists (Some r). rewrite E. split; reflexivity.
    + exists []. split; [constructor|]. split; [exact I|]. right. exists h, r. split; [exact H|]. split; [exact E|]. rewrite E. now apply scan_help.
Qed.

(** *** Values *)
Lemma given_fun o l vs : given o l vs -> forall vs', given o l vs' -> vs = vs'.
Proof. induction 1; intros vs' G; inversion G; subst; try congruence. f_equal. now apply IHgiven. now apply IHgiven. Qed.
Definition vals (o : Opt) (items : list Item) : list str := flat_map (fun p => if Opt_beq o (fst p) then [snd p] else []) (concat (map item_value items)).
Lemma given_vals_list o l : given o l (flat_map (fun p : Opt * str => if Opt_beq o (fst p) then [snd p] else []) l).
Proof.
  induction l as [|[o' v] l IH]; cbn [flat_map fst snd]; [constructor|]. destruct (Opt_beq o o') eqn:E.
  - apply opt_eqb in E. subst. now constructor.
  - cbn [app]. constructor; [|exact IH]. intros ->. rewrite (proj2 (opt_eqb o o) eq_refl) in E. discriminate.
Qed.
Lemma given_vals o items vs : given o (concat (map item_value items)) vs <-> vs = vals o items.
Proof. split; [intros G; eapply given_fun; [exact G|apply given_vals_list]|intros ->; apply given_vals_list]. Qed.
Lemma values_files o tail : values o (map EFile tail) = [].
Proof. induction tail; cbn; auto. Qed.
Lemma vals_cons o i items : vals o (i :: items) = flat_map (fun p => if Opt_beq o (fst p) then [snd p] else []) (item_value i) ++ vals o items.
Proof. unfold vals. cbn [map concat]. now rewrite flat_map_app. Qed.
Lemma values_items o items tail : values o (map ev items ++ map EFile tail) = vals o items.
Proof.
  unfold values. rewrite flat_map_app. fold (values o (map EFile tail)). rewrite values_files, app_nil_r.
  induction items as [|i items IH]; [reflexivity|]. rewrite vals_cons, <- IH. destruct i; cbn [map flat_map ev item_value fst snd app]; rewrite ?app_nil_r; reflexivity.
Qed.
Lemma files_items items tail : files_of (map ev items ++ map EFile tail) = concat (map item_file items) ++ tail.
Proof.
  unfold files_of. rewrite flat_map_app. f_equal.
  - induction items as [|i items IH]; [reflexivity|]. cbn [map flat_map concat]. rewrite IH. destruct i; reflexivity.
  - induction tail as [|t tail IH]; [reflexivity|]. cbn [map flat_map]. now rewrite IH.
Qed.
Lemma switched_items w items tail : switched w (map ev items ++ map EFile tail) = true <-> In w (concat (map item_switch items)).
Proof.
  unfold switched. rewrite existsb_app. assert (F : existsb (fun e => match e with ESwitch w' => Switch_beq w w' | _ => false end) (map EFile tail) = false) by (induction tail; cbn; auto).
  rewrite F, orb_false_r. induction items as [|i items IH]; [cbn; split; [discriminate|easy]|]. cbn [map existsb concat]. rewrite in_app_iff, orb_true_iff, IH.
  destruct i; cbn [ev item_switch In]; rewrite ?switch_eqb; intuition congruence.
Qed.

(** *** Repetitions *)
Definition fine_opts (so : list Opt) (items : list Item) : Prop := forall o, repeatable o \/ (if existsb (Opt_beq o) so then vals o items = [] else lenN (vals o items) <= 1).
Definition fine_switches (sw : list Switch) (items : list Item) : Prop := NoDup (concat (map item_switch items)) /\ forall w, In w sw -> ~ In w (concat (map item_switch items)).
Lemma again_false so o : again so o = false <-> repeatable o \/ ~ In o so.
Proof.
  unfold again. rewrite andb_false_iff, negb_false_iff, appends_spec, <- seen_opt. destruct (existsb _ so); intuition congruence.
Qed.
Lemma fine_opts_value so o v items i : item_value i = [(o, v)] -> again so o = false /\ fine_opts (o :: so) items <-> fine_opts so (i :: items).
Proof.
  intros Ei. unfold fine_opts. rewrite again_false.
  assert (VC : forall o', vals o' (i :: items) = (if Opt_beq o' o then [v] else []) ++ vals o' items) by (intros o'; rewrite vals_cons, Ei; cbn [flat_map fst snd]; now rewrite app_nil_r).
  cbn [existsb]. split.
  - intros [A H] o'. rewrite VC. destruct (H o') as [R|H']; [now left|]. destruct (Opt_beq o' o) eqn:E; cbn [orb app] in *.
    + apply opt_eqb in E. subst o'. destruct A as [R|A]; [now left|]. right. destruct (existsb (Opt_beq o) so) eqn:S; [apply seen_opt in S; contradiction|]. rewrite H'. cbn. lia.
    + right. exact H'.
  - intros H. split.
    + destruct (H o) as [R|H']; [now left|]. right. intros I. apply seen_opt in I. rewrite VC, I, (proj2 (opt_eqb o o) eq_refl) in H'. discriminate.
    + intros o'. destruct (H o') as [R|H']; [now left|]. rewrite VC in H'. right. destruct (Opt_beq o' o) eqn:E; cbn [orb app] in *; [|exact H'].
      destruct (existsb (Opt_beq o') so); [discriminate|]. destruct (vals o' items); [reflexivity|]. unfold lenN in H'. cbn [length] in H'. lia.
Qed.
Lemma fine_opts_none so items i : item_value i = [] -> fine_opts so items <-> fine_opts so (i :: items).
Proof. intros Ei. unfold fine_opts. assert (VC : forall o, vals o (i :: items) = vals o items) by (intros o; rewrite vals_cons, Ei; reflexivity). split; intros H o; specialize (H o); rewrite VC in *; exact H. Qed.
Lemma fine_switches_none sw items i : item_switch i = [] -> fine_switches sw items <-> fine_switches sw (i :: items).
Proof. intros Ei. unfold fine_switches. cbn [map concat]. rewrite Ei. reflexivity. Qed.
Lemma fine_switches_some sw items i w : item_switch i = [w] -> existsb (Switch_beq w) sw = false /\ fine_switches (w :: sw) items <-> fine_switches sw (i :: items).
Proof.
  intros Ei. unfold fine_switches. cbn [map concat]. rewrite Ei. cbn [app]. rewrite NoDup_cons_iff. pose proof (seen_switch w sw) as S. split.
  - intros (A & B & C). splits; [apply C; now left|exact B|]. intros w' I [E|J]; [subst; apply S in I; congruence|]. apply (C w'); [now right|exact J].
  - intros ((A & B) & C). splits; [|exact B|].
    + destruct (existsb (Switch_beq w) sw); [|reflexivity]. elim (C w); [now apply S|now left].
    + intros w' [<- |I] J; [contradiction|]. apply (C w' I). now right.
Qed.
Lemma fine_spec items : forall so sw, fine so sw items <-> fine_opts so items /\ fine_switches sw items.
Proof.
  induction items as [|i items IH]; intros so sw; cbn [fine].
  - split; [intros _|easy]. split; [intros o; right; destruct (existsb _ so); [reflexivity|cbn; lia]|]. split; [constructor|easy].
  - rewrite IH. destruct i as [t|w n|o n v|o n v|o c v|o c v|o c v]; unfold so_add, sw_add; cbn [dup item_value item_switch map fst app].
    + rewrite (fine_opts_none so items (IFile t) eq_refl), (fine_switches_none sw items (IFile t) eq_refl). tauto.
    + rewrite (fine_opts_none so items (ISwitch w n) eq_refl), <- (fine_switches_some sw items (ISwitch w n) w eq_refl). tauto.
    + rewrite <- (fine_opts_value so o v items (ILong o n v) eq_refl), (fine_switches_none sw items (ILong o n v) eq_refl). tauto.
    + rewrite <- (fine_opts_value so o v items (IJoined o n v) eq_refl), (fine_switches_none sw items (IJoined o n v) eq_refl). tauto.
    + rewrite <- (fine_opts_value so o v items (IShort o c v) eq_refl), (fine_switches_none sw items (IShort o c v) eq_refl). tauto.
    + rewrite <- (fine_opts_value so o v items (IStuck o c v) eq_refl), (fine_switches_none sw items (IStuck o c v) eq_refl). tauto.
    + rewrite <- (fine_opts_value so o v items (IEquals o c v) eq_refl), (fine_switches_none sw items (IEquals o c v) eq_refl). tauto.
Qed.
Lemma fine_once items : fine [] [] items <-> once items.
Proof.
  rewrite fine_spec. unfold once, fine_opts, fine_switches. cbn [existsb]. split.
  - intros (A & B & _). split; [|exact B]. intros o vs G. apply given_vals in G. subst. apply A.
  - intros (A & B). splits; [|exact B|easy]. intros o. apply A. now apply given_vals.
Qed.
Lemma fine_dec items : forall so sw, fine so sw items \/ ~ fine so sw items.
Proof. induction items as [|i items IH]; intros so sw; cbn [fine]; [now left|]. destruct (dup so sw i); [right; now intros []|]. destruct (IH (so_add i so) (sw_add i sw)); [left|right]; tauto. Qed.
Lemma scan_not_fine items rest : forall so sw, Forall well_formed items -> ~ fine so sw items -> scan_args so sw (concat (map text items) ++ rest) = Usage.
Proof.
  induction items as [|i items IH]; intros so sw W F; cbn [map concat fine] in *; [now elim F|].
  inversion W as [|? ? Wi Wt]; subst. rewrite <- app_assoc, (scan_item _ _ _ _ Wi). destruct (dup so sw i) eqn:D; [reflexivity|]. rewrite (IH _ _ Wt); [reflexivity|]. intros H. apply F. now split.
Qed.

(** *** The command *)
Lemma native_spec target a : native target a <-> a = compile_time_arch target.
Proof.
  unfold native, compile_time_arch. cbv zeta. generalize (lit "unknown"). intros u.
  set (table := [_; _; _; _; _; _; _; _] : list (str * str)). assert (ND : NoDup (map fst table)).
  { vm_compute. repeat (constructor; [intros H; repeat (destruct H as [H|H]; [discriminate|]); exact H|]). constructor. }
  clearbody table. destruct (afind str_eqb target table) as [b|] eqn:E; cbn [or_default].
  - assert (I : In (target, b) table). { clear ND. induction table as [|[k v] t IH]; [discriminate|]. cbn [afind] in E. destruct (str_eqb target k) eqn:K; [apply str_eqb_eq in K; injection E as <-; subst; now left|right; now apply IH]. }
    split; [|intros ->; now left]. intros [J|[J _]]; [|elim J; apply (in_map fst) in I; exact I].
    clear E. induction table as [|[k v] t IH]; [destruct I|]. cbn [map fst] in ND. apply NoDup_cons_iff in ND. destruct ND as [K ND].
    destruct I as [I|I], J as [J|J]; try congruence; [|..|now apply IH].
    + injection I as -> ->. elim K. apply (in_map fst) in J. exact J.
    + injection J as -> ->. elim K. apply (in_map fst) in I. exact I.
  - assert (I : ~ In target (map fst table)). { clear ND. induction table as [|[k v] t IH]; [easy|]. cbn [afind] in E. destruct (str_eqb target k) eqn:K; [discriminate|]. intros [J|J]; [|now apply IH]. cbn in J. subst. now rewrite str_eqb_refl in K. }
    split; [intros [J|[_ J]]; [elim I; apply (in_map fst) in J; exact J|exact J]|intros ->; right; now split].
Qed.
Lemma optional_spec o items r : once items -> ~ repeatable o -> optional o items r <-> r = match vals o items with [] => None | v :: _ => Some v end.
Proof.
  intros O R. assert (H : lenN (vals o items) <= 1). { destruct (proj1 O o (vals o items)) as [C|C]; [now apply given_vals|contradiction|exact C]. }
  unfold optional. rewrite given_vals. destruct (vals o items) as [|v [|w l]]; [| |unfold lenN in H; cbn in H; lia]; destruct r; split; congruence.
Qed.
Lemma collected_spec o items r : collected_values o items r <-> r = match vals o items with [] => None | vs => Some vs end.
Proof.
  unfold collected_values. destruct r as [vs|]; rewrite given_vals.
  - destruct (vals o items); split; [intros [H ->]; now elim H|discriminate|intros [_ ->]; reflexivity|intros [= ->]; split; [discriminate|reflexivity]].
  - destruct (vals o items); split; congruence.
Qed.
Lemma defaulted_spec o items d r : once items -> ~ repeatable o -> defaulted o items d r <-> r = or_default d (match vals o items with [] => None | v :: _ => Some v end).
Proof.
  intros O R. unfold defaulted. rewrite !(optional_spec o items _ O R). destruct (vals o items); cbn [or_default]; split; [intros [H|[_ ->]]; congruence|intros ->; right; now split|intros [H|[H _]]; congruence|intros ->; now left].
Qed.
Lemma switch_spec w items tail b : switch_is w items b <-> b = switched w (map ev items ++ map EFile tail).
Proof. unfold switch_is. rewrite <- (switched_items w items tail). destruct b, (switched w _); split; intuition congruence. Qed.
Definition cmd_of (target : str) (l : list Ev) : Cmd :=
  mkCmd (mkArgs (files_of l) (value AOutput l) (value AStore l) (or_default (lit "error") (value AVerbose l)) (or_default [] (value AJobs l)) (switched WList l) (values AExtra l) (switched WNoGen l))
    (value AServer l) (value ADebugId l) (value ACodeId l) (or_default (compile_time_arch target) (value AArch l)) (switched WCfi l) (switched WInlines l)
    (many AVar l) (many ASrc l) (many ADest l) (value AMapFile l).
Lemma command_def target argv : command target argv =
  match scan_args [] [] argv with Got l => match files_of l with [] => Usage | _ => Got (cmd_of target l) end | Usage => Usage | Shown => Shown end.
Proof. unfold command, cmd_of. destruct (scan_args [] [] argv) as [l| |]; try reflexivity. destruct (files_of l); reflexivity. Qed.
Definition tail_of (tail : option (list str)) : list str := match tail with Some l => l | None => [] end.
Lemma asks_spec target items tail c : once items -> asks target items tail c <-> c = cmd_of target (map ev items ++ map EFile (tail_of tail)).
Proof.
  intros O. unfold asks.
  assert (N1 : forall o, ~ In o [AVar; ASrc; ADest; AExtra] -> ~ repeatable o) by (intros o H; exact H).
  assert (V : forall o, value o (map ev items ++ map EFile (tail_of tail)) = match vals o items with [] => None | v :: _ => Some v end) by (intros o; unfold value; now rewrite values_items).
  assert (M : forall o, many o (map ev items ++ map EFile (tail_of tail)) = match vals o items with [] => None | vs => Some vs end) by (intros o; unfold many; now rewrite values_items).
  assert (NR : forall o, appends o = false -> ~ repeatable o) by (intros o H R; apply appends_spec in R; congruence).
  rewrite !(fun o r => optional_spec o items r O) by (apply NR; reflexivity).
  rewrite (defaulted_spec AVerbose items _ _ O (NR AVerbose eq_refl)), (defaulted_spec AJobs items _ _ O (NR AJobs eq_refl)).
  rewrite !(fun w b => switch_spec w items (tail_of tail) b), !collected_spec, given_vals.
  assert (A : (exists a, native target a /\ defaulted AArch items a (cm_arch c)) <-> cm_arch c = or_default (compile_time_arch target) (match vals AArch items with [] => None | v :: _ => Some v end)).
  { split; [intros (a & H & D); apply native_spec in H; subst a; now apply (defaulted_spec AArch items _ _ O (NR AArch eq_refl)) in D|]. intros H. eexists. split; [now apply native_spec|]. now apply (defaulted_spec AArch items _ _ O (NR AArch eq_refl)). }
  rewrite A. fold (tail_of tail). unfold cmd_of. rewrite files_items, !V, !M, values_items. split.
  - destruct c as [[a1 a2 a3 a4 a5 a6 a7 a8] b1 b2 b3 b4 b5 b6 b7 b8 b9 b10]. cbn [ar_files ar_output ar_store ar_verbose ar_jobs ar_list_arch ar_extra ar_no_generator cm_args cm_server cm_debug_id cm_code_id cm_arch cm_check_cfi cm_inlines cm_var cm_src cm_dest cm_map_file].
    intros H. repeat match goal with H : _ /\ _ |- _ => destruct H end. subst. reflexivity.
  - intros ->. cbn [ar_files ar_output ar_store ar_verbose ar_jobs ar_list_arch ar_extra ar_no_generator cm_args cm_server cm_debug_id cm_code_id cm_arch cm_check_cfi cm_inlines cm_var cm_src cm_dest cm_map_file].
    splits; reflexivity.
Qed.
Lemma scan_arguments items tail : Forall well_formed items -> once items -> scan_args [] [] (arguments items tail) = Got (map ev items ++ map EFile (tail_of tail)).
Proof.
  intros W O. unfold arguments. rewrite (scan_items items _ [] [] W (proj2 (fine_once items) O)). destruct tail as [l|]; [rewrite scan_end|]; cbn [app_out scan_args tail_of map]; reflexivity.
Qed.
Lemma understood target argv c : command target argv = Got c <->
  exists items tail, Forall well_formed items /\ once items /\ argv = arguments items tail /\ ar_files (cm_args c) <> [] /\ asks target items tail c.
Proof.
  rewrite command_def. split.
  - intros E. assert (NU : scan_args [] [] argv <> Usage) by (intros U; rewrite U in E; discriminate).
    destruct (scan_cases (length argv) argv [] [] (le_n _) NU) as (items & W & F & [(tail & E1 & E2)|(h & rest & _ & _ & E2)]); rewrite E2 in E; [|discriminate].
    apply fine_once in F. exists items, tail. fold (tail_of tail) in E. destruct (files_of _) eqn:Ef in E; [discriminate|]. injection E as <-. splits; try assumption.
    + cbn [cmd_of cm_args ar_files]. rewrite Ef. discriminate.
    + now apply asks_spec.
  - intros (items & tail & W & O & -> & NE & A). apply (asks_spec _ _ _ _ O) in A. rewrite (scan_arguments items tail W O). subst c. cbn [cmd_of cm_args ar_files] in NE. destruct (files_of _) eqn:Ef; [now elim NE|]. reflexivity.
Qed.
Lemma shown target argv : command target argv = Shown <-> exists items h rest, Forall well_formed items /\ once items /\ asks_help h /\ argv = concat (map text items) ++ h :: rest.
Proof.
  rewrite command_def. split.
  - intros E. assert (NU : scan_args [] [] argv <> Usage) by (intros U; rewrite U in E; discriminate).
    destruct (scan_cases (length argv) argv [] [] (le_n _) NU) as (items & W & F & [(tail & E1 & E2)|(h & rest & A & E1 & E2)]); rewrite E2 in E; [destruct (files_of _); discriminate|].
    apply fine_once in F. now exists items, h, rest.
  - intros (items & h & rest & W & O & A & ->). rewrite (scan_items items _ [] [] W (proj2 (fine_once items) O)), (scan_help _ _ h rest A). reflexivity.
Qed.
Lemma twice target items rest : Forall well_formed items -> ~ once items -> command target (concat (map text items) ++ rest) = Usage.
Proof. intros W O. rewrite command_def, scan_not_fine; [reflexivity|exact W|]. intros F. apply O. now apply fine_once. Qed.
Lemma scan_prefix_usage items rest : Forall well_formed items -> (forall so sw, scan_args so sw rest = Usage) -> scan_args [] [] (concat (map text items) ++ rest) = Usage.
Proof. intros W U. destruct (fine_dec items [] []) as [F|F]; [|now apply scan_not_fine]. rewrite (scan_items items rest [] [] W F), U. reflexivity. Qed.
(** A long name nobody knows. *)
Lemma unknown_long target items n v rest : Forall well_formed items -> n <> [] -> ~ In c_eq n -> (forall o, ~ named o n) -> (forall w, ~ switch_named w n) -> n <> lit "help" -> n <> lit "version" ->
  command target (concat (map text items) ++ (lit "--" ++ n ++ match v with Some v => lit "=" ++ v | None => [] end) :: rest) = Usage.
Proof.
  intros W NE NQ NO NW NH NV. rewrite command_def, scan_prefix_usage; [reflexivity|exact W|]. intros so sw.
  assert (Eo : afind str_eqb n long_opts = None). { destruct (afind str_eqb n long_opts) as [o|] eqn:E; [|reflexivity]. apply long_opts_named in E. now elim (NO o). }
  assert (Ew : afind str_eqb n long_switches = None). { destruct (afind str_eqb n long_switches) as [w|] eqn:E; [|reflexivity]. apply long_switches_named in E. now elim (NW w). }
  assert (Eh : is_help n = false). { unfold is_help. destruct (str_eqb n (lit "help")) eqn:E1; [apply str_eqb_eq in E1; contradiction|]. destruct (str_eqb n (lit "version")) eqn:E2; [apply str_eqb_eq in E2; contradiction|]. reflexivity. }
  destruct n as [|a n]; [now elim NE|].
  change (lit "--" ++ (a :: n) ++ match v with Some v => lit "=" ++ v | None => [] end) with (45 :: 45 :: a :: (n ++ match v with Some v => lit "=" ++ v | None => [] end)).
  assert (Es : split_eq (a :: (n ++ match v with Some v => lit "=" ++ v | None => [] end)) = (a :: n, v)).
  { destruct v as [v|]; [exact (split_eq_some (a :: n) v NQ)|rewrite app_nil_r; exact (split_eq_none (a :: n) NQ)]. }
  cbn [scan_args]. cbn [N.eqb Pos.eqb]. rewrite Es, Eo, Ew, Eh. destruct v; reflexivity.
Qed.
(** A letter nobody knows. *)
Lemma unknown_short target items c r rest : Forall well_formed items -> (forall o, ~ lettered o [c]) -> c <> 45 -> [c] <> lit "h" -> [c] <> lit "V" ->
  command target (concat (map text items) ++ (lit "-" ++ c :: r) :: rest) = Usage.
Proof.
  intros W NL ND NH NV. rewrite command_def, scan_prefix_usage; [reflexivity|exact W|]. intros so sw.
  assert (Eo : short_opt c = None). { destruct (short_opt c) as [o|] eqn:E; [|reflexivity]. apply short_lettered in E. now elim (NL o). }
  change (lit "-" ++ c :: r) with (45 :: c :: r). cbn [scan_args]. cbn [N.eqb Pos.eqb]. destruct (N.eqb_spec c 45); [contradiction|]. rewrite Eo.
  destruct (N.eqb_spec c 104) as [-> |]; [now elim NH|]. destruct (N.eqb_spec c 86) as [-> |]; [now elim NV|]. reflexivity.
Qed.
(** An option without its value: the end, or something like an option, follows. *)
Lemma without_value target items t rest : Forall well_formed items -> (exists o n, named o n /\ t = lit "--" ++ n) \/ (exists o c, lettered o c /\ t = lit "-" ++ c) ->
  match rest with [] => True | v :: _ => ~ plain v end -> command target (concat (map text items) ++ t :: rest) = Usage.
Proof.
  intros W T P. rewrite command_def, scan_prefix_usage; [reflexivity|exact W|]. intros so sw.
  destruct T as [(o & n & H & ->)|(o & c & H & ->)].
  - destruct (named_shape o n H) as (NE & NQ). destruct n as [|a n]; [now elim NE|]. apply long_opts_named in H. change (lit "--" ++ a :: n) with (45 :: 45 :: a :: n). cbn [scan_args]. cbn [N.eqb Pos.eqb].
    rewrite (split_eq_none _ NQ), H. destruct rest as [|v rest]; [reflexivity|]. destruct (dashed v) eqn:D; [reflexivity|]. apply dashed_plain in D. contradiction.
  - destruct (lettered_one o c H) as (k & -> & S & K). change (lit "-" ++ [k]) with [45; k]. cbn [scan_args]. cbn [N.eqb Pos.eqb]. destruct (N.eqb_spec k 45); [contradiction|]. rewrite S.
    destruct rest as [|v rest]; [reflexivity|]. destruct (dashed v) eqn:D; [reflexivity|]. apply dashed_plain in D. contradiction.
Qed.
Lemma no_file target items tail : Forall well_formed items -> concat (map item_file items) ++ tail_of tail = [] -> command target (arguments items tail) = Usage.
Proof.
  intros W F. rewrite command_def. destruct (fine_dec items [] []) as [G|G].
  - rewrite (scan_arguments items tail W (proj1 (fine_once items) G)), files_items, F. reflexivity.
  - unfold arguments. rewrite scan_not_fine; [reflexivity|exact W|exact G].
Qed.
