(** Proofs about processing several files. *)
From Verif Require Import Base Str M_Sched S_Sched.
Local Open Scope nat_scope.

(** ** Counting *)
Definition b2n (b : bool) : nat := if b then 1 else 0.
Definition cnt {A} (P : A -> bool) (l : list A) : nat := length (filter P l).
Lemma cnt_app {A} (P : A -> bool) a b : cnt P (a ++ b) = cnt P a + cnt P b.
Proof. unfold cnt. now rewrite filter_app, app_length. Qed.
Lemma cnt_cons {A} (P : A -> bool) x l : cnt P (x :: l) = b2n (P x) + cnt P l.
Proof. unfold cnt. cbn [filter]. destruct (P x); reflexivity. Qed.
Lemma cnt_nil {A} (P : A -> bool) : cnt P [] = 0. Proof. reflexivity. Qed.
Lemma cnt_all {A} (l : list A) : cnt (fun _ => true) l = length l.
Proof. induction l as [|x l IH]; [reflexivity|]. rewrite cnt_cons, IH. reflexivity. Qed.
Lemma cnt_perm {A} (P : A -> bool) l l' : Permutation l l' -> cnt P l = cnt P l'.
Proof. induction 1; rewrite ?cnt_cons; lia. Qed.
Lemma cnt_In {A} (P : A -> bool) x l : In x l -> P x = true -> 1 <= cnt P l.
Proof. induction l as [|y l IH]; [easy|]. rewrite cnt_cons. intros [->|H] E; [rewrite E; cbn; lia|]. specialize (IH H E). lia. Qed.
Lemma cnt_pos {A} (P : A -> bool) l : 1 <= cnt P l -> exists x, In x l /\ P x = true.
Proof.
  induction l as [|y l IH]; [cbn; lia|]. rewrite cnt_cons. destruct (P y) eqn:E; intros H; [exists y; split; [now left|exact E]|].
  destruct IH as (x & I & X); [exact H|]. exists x. split; [now right|exact X].
Qed.
Lemma cnt_ext {A} (P Q : A -> bool) l : (forall x, In x l -> P x = Q x) -> cnt P l = cnt Q l.
Proof.
  induction l as [|y l IH]; [reflexivity|]. intros H. rewrite !cnt_cons, (H y (or_introl eq_refl)), IH; [reflexivity|]. intros x Hx. apply H. now right.
Qed.
Lemma cnt_map {A B} (f : A -> B) P l : cnt P (map f l) = cnt (fun x => P (f x)) l.
Proof. induction l as [|y l IH]; [reflexivity|]. cbn [map]. rewrite !cnt_cons, IH. reflexivity. Qed.
Lemma cnt_zero {A} (P : A -> bool) l : (forall x, In x l -> P x = false) -> cnt P l = 0.
Proof. induction l as [|y l IH]; [reflexivity|]. intros H. rewrite cnt_cons, (H y (or_introl eq_refl)), IH; [reflexivity|]. intros x Hx. apply H. now right. Qed.

Section P.
Context {I : Type}.
Implicit Types (S : Sys I) (s : St I) (w : WState I) (ws : list (WState I)) (q : list (Msg I)) (h : Shared I).

(** ** Workers *)
Definition wsum (f : WState I -> nat) ws : nat := list_sum (map f ws).
Lemma wsum_app f a b : wsum f (a ++ b) = wsum f a + wsum f b.
Proof. unfold wsum. now rewrite map_app, list_sum_app. Qed.
Lemma wsum_cons f w b : wsum f (w :: b) = f w + wsum f b.
Proof. reflexivity. Qed.
Lemma wsum_zero f ws : wsum f ws = 0 <-> forall w, In w ws -> f w = 0.
Proof.
  induction ws as [|w ws IH]; [easy|]. rewrite wsum_cons. split.
  - intros H x [<-|X]; [lia|]. apply IH; [lia|exact X].
  - intros H. rewrite (H w (or_introl eq_refl)). apply IH. intros x X. apply H. now right.
Qed.
Lemma wsum_le f g ws : (forall w, f w <= g w) -> wsum f ws <= wsum g ws.
Proof. intros H. induction ws as [|w ws IH]; [cbn; lia|]. rewrite !wsum_cons. specialize (H w). lia. Qed.
Lemma wsum_repeat f w n : wsum f (repeat w n) = n * f w.
Proof. induction n as [|n IH]; [reflexivity|]. cbn [repeat]. rewrite wsum_cons, IH. lia. Qed.
Lemma split_set ws i w : nth_error ws i = Some w -> exists a b, ws = a ++ w :: b /\ length a = i /\ forall w', set_nth ws i w' = a ++ w' :: b.
Proof.
  revert i. induction ws as [|x ws IH]; intros [|i] H; cbn in H; try discriminate.
  - injection H as ->. exists [], ws. splits; reflexivity.
  - destruct (IH i H) as (a & b & -> & L & E). exists (x :: a), b. splits; [reflexivity|cbn; lia|]. intros w'. cbn [set_nth app]. now rewrite E.
Qed.

(** What a message, worker or main thread holds. *)
Definition m_files (m : MState) : list str := match m with MSend fs => fs | _ => [] end.
Definition is_stop (m : Msg I) : bool := match m with MStop => true | _ => false end.
Definition g_msg (P : str -> bool) (m : Msg I) : bool := match m with MGet f => P f | _ => false end.
Definition d_msg (m : Msg I) : list I := match m with MDump d => [d] | _ => [] end.
Definition q_mods q : list I := flat_map d_msg q.
Definition n_get (P : str -> bool) w : nat := match w with WGet f => b2n (P f) | _ => 0 end.
Definition n_have (P : str -> bool) w : nat := match w with WMerge f _ => b2n (P f) | _ => 0 end.
Definition n_pend w : nat := match w with WCheck | WDec => 1 | _ => 0 end.
Definition n_ok w : nat := match w with WExit XOk => 1 | _ => 0 end.
Definition n_bad w : nat := match w with WExit XErr | WExit XPanic | WPoison _ => 1 | _ => 0 end.
Definition n_poison w : nat := match w with WPoison _ => 1 | _ => 0 end.
Definition n_lock w : nat := match w with WLock => 1 | _ => 0 end.
Definition n_sender w : nat := match w with WLock | WOnly _ | WSend _ => 1 | _ => 0 end.
Definition n_holder w : nat := match w with WOnly _ | WSend _ => 1 | _ => 0 end.
Definition n_stop (nj : nat) w : nat := match w with WLock | WOnly _ => nj | WSend ms => cnt is_stop ms | _ => 0 end.
Definition w_mods w : list I := match w with WOnly d | WDump d => [d] | WSend ms => q_mods ms | _ => [] end.
Definition w_send w : list (Msg I) := match w with WSend ms => ms | _ => [] end.
Definition mods s : list I :=
  map snd (h_results (s_shared s)) ++ flat_map w_mods (s_workers s) ++ q_mods (h_queue (s_shared s)) ++ stored s.
Definition keyed S (k : str) (d : I) : bool := str_eqb (sy_key S d) k.
(** No dump after a stop. *)
Fixpoint ordered q : bool := match q with [] => true | MStop :: t => forallb is_stop t | _ :: t => ordered t end.
Definition msgs s : list (Msg I) := h_queue (s_shared s) ++ flat_map w_send (s_workers s).

Lemma ordered_tail m q : ordered (m :: q) = true -> ordered q = true.
Proof.
  destruct m; cbn [ordered]; auto. intros H. destruct q as [|x q]; [reflexivity|]. cbn in H. destruct x; try discriminate. exact H.
Qed.
Lemma ordered_stops q n : cnt is_stop q = 0 -> ordered (q ++ repeat MStop n) = true.
Proof.
  induction q as [|m q IH]; intros H.
  - cbn [app]. destruct n as [|n]; [reflexivity|]. cbn [repeat ordered]. induction n as [|n IHn]; [reflexivity|]. exact IHn.
  - rewrite cnt_cons in H. destruct m; cbn in H; try discriminate; cbn [app ordered]; apply IH; lia.
Qed.
Lemma ordered_none q : cnt is_stop q = 0 -> ordered q = true.
Proof. intros H. rewrite <- (app_nil_r q). now apply (ordered_stops q 0). Qed.
Lemma q_mods_app a b : q_mods (a ++ b) = q_mods a ++ q_mods b.
Proof. apply flat_map_app. Qed.
Lemma Forall_swap (P : WState I -> Prop) a w b w' : Forall P (a ++ w :: b) -> P w' -> Forall P (a ++ w' :: b).
Proof. intros H W. apply Forall_app in H. destruct H as [H1 H2]. apply Forall_cons_iff in H2. apply Forall_app. split; [exact H1|]. constructor; [exact W|apply H2]. Qed.
Lemma q_mods_cons m q : q_mods (m :: q) = d_msg m ++ q_mods q.
Proof. reflexivity. Qed.
Lemma q_mods_nil : q_mods [] = [].
Proof. reflexivity. Qed.
Lemma q_mods_dumps l : q_mods (map MDump l) = l.
Proof. unfold q_mods. induction l as [|d l IH]; [reflexivity|]. cbn. now rewrite IH. Qed.
Lemma q_mods_stops n : q_mods (repeat MStop n) = [].
Proof. induction n as [|n IH]; [reflexivity|exact IH]. Qed.
Lemma stops_dumps (l : list I) : cnt is_stop (map MDump l) = 0.
Proof. induction l as [|d l IH]; [reflexivity|exact IH]. Qed.
Lemma stops_repeat n : cnt is_stop (repeat (@MStop I) n) = n.
Proof. induction n as [|n IH]; [reflexivity|]. cbn [repeat]. now rewrite cnt_cons, IH. Qed.
Lemma stops_gets n : cnt (g_msg (fun _ => true)) (repeat (@MStop I) n) = 0.
Proof. induction n as [|n IH]; [reflexivity|exact IH]. Qed.
Lemma no_send ws : wsum n_sender ws = 0 -> flat_map w_send ws = [].
Proof.
  intros H. rewrite wsum_zero in H. induction ws as [|w ws IH]; [reflexivity|]. cbn [flat_map]. rewrite IH by (intros x X; apply H; now right).
  specialize (H w (or_introl eq_refl)). destruct w; try discriminate; reflexivity.
Qed.

(** A merge of the files of its group that have been merged so far. *)
Definition complete_group S (mf : list str) (d : I) : Prop :=
  exists g, merge_in_order S g d /\ forall P, cnt P g = cnt (fun f => P f && has_key S (sy_key S d) f) mf.

(** ** Invariant *)
Record inv S (nj : nat) (files : list str) s (mf : list str) (nl : nat) (sent : bool) : Prop := mkInv {
  i_counter : h_counter (s_shared s) = N.of_nat (length (m_files (s_main s)) + cnt (g_msg (fun _ => true)) (h_queue (s_shared s)) +
    wsum (n_get (fun _ => true)) (s_workers s) + wsum (n_have (fun _ => true)) (s_workers s) + wsum n_pend (s_workers s) + nl + b2n sent);
  i_sent : sent = true -> h_counter (s_shared s) = 1%N;
  i_unsent : sent = false -> flat_map w_mods (s_workers s) ++ q_mods (h_queue (s_shared s)) ++ stored s = [] /\ wsum n_sender (s_workers s) = 0;
  i_files : nl = 0 -> forall P, cnt P files = cnt P (m_files (s_main s)) + cnt (g_msg P) (h_queue (s_shared s)) +
    wsum (n_get P) (s_workers s) + wsum (n_have P) (s_workers s) + cnt P mf;
  i_have : Forall (fun w => match w with WMerge f d => sy_proc S f = Ok d | WSend ms => cnt (g_msg (fun _ => true)) ms = 0 | _ => True end) (s_workers s);
  i_keys : Forall (fun kd => fst kd = sy_key S (snd kd)) (h_results (s_shared s));
  i_ok : Forall (fun f => exists d, sy_proc S f = Ok d) mf;
  i_mods : nl = 0 -> Forall (complete_group S mf) (mods s);
  i_once : forall k, cnt (keyed S k) (mods s) <= 1;
  i_all : nl = 0 -> forall f d, In f mf -> sy_proc S f = Ok d -> 1 <= cnt (keyed S (sy_key S d)) (mods s);
  i_bad : nl <= wsum n_bad (s_workers s);
  i_poisoned : wsum n_bad (s_workers s) = 0 -> h_poisoned (s_shared s) = false;
  i_lock : wsum n_bad (s_workers s) = 0 -> wsum n_holder (s_workers s) = b2n (h_lock (s_shared s));
  i_sender : wsum n_bad (s_workers s) = 0 -> wsum n_sender (s_workers s) <= 1;
  i_stops : wsum n_bad (s_workers s) = 0 ->
    cnt is_stop (h_queue (s_shared s)) + wsum (n_stop nj) (s_workers s) + wsum n_ok (s_workers s) = (if sent then nj else 0);
  i_order : wsum n_bad (s_workers s) = 0 -> ordered (msgs s) = true;
  i_last : wsum n_bad (s_workers s) = 0 -> 1 <= wsum n_ok (s_workers s) -> forallb is_stop (msgs s) = true;
  i_lost : wsum n_poison (s_workers s) <= nl;
  i_drained : sent = true -> wsum n_bad (s_workers s) = 0 -> wsum n_lock (s_workers s) = 0 -> h_results (s_shared s) = [];
  i_answers : wsum n_bad (s_workers s) = 0 -> Forall (fun dr => exists u, snd dr = Ok u) (h_log (s_shared s))
}.

(** ** Results *)
Lemma keyed_iff S k d : keyed S k d = true <-> sy_key S d = k.
Proof. apply str_eqb_eq. Qed.
Lemma rremove_Forall P k (l : list (str * I)) : Forall P l -> Forall P (rremove k l).
Proof. induction 1 as [|[k' d] l X F IH]; [constructor|]. cbn [rremove]. destruct (str_eqb k k'); [exact IH|]. now constructor. Qed.
Lemma rfind_none S k (l : list (str * I)) : Forall (fun kd => fst kd = sy_key S (snd kd)) l -> rfind k l = None ->
  cnt (keyed S k) (map snd l) = 0 /\ rremove k l = l.
Proof.
  induction l as [|[k' d] l IH]; intros F E; [split; reflexivity|]. apply Forall_cons_iff in F. destruct F as [F1 F2]. cbn in F1. cbn [rfind rremove map snd] in *.
  destruct (str_eqb k k') eqn:X; [discriminate|]. destruct (IH F2 E) as [A B]. rewrite cnt_cons, A, B. split; [|reflexivity].
  destruct (keyed S k d) eqn:Y; [|reflexivity]. apply keyed_iff in Y. subst. rewrite (proj2 (str_eqb_eq _ _) eq_refl) in X. discriminate.
Qed.
Lemma rremove_none S k (l : list (str * I)) : Forall (fun kd => fst kd = sy_key S (snd kd)) l -> cnt (keyed S k) (map snd l) = 0 -> rremove k l = l.
Proof.
  intros F C. apply (rfind_none S k l F). induction l as [|[k' d] l IH]; [reflexivity|]. apply Forall_cons_iff in F. destruct F as [F1 F2]. cbn in F1.
  cbn [rfind map snd] in *. rewrite cnt_cons in C. destruct (str_eqb k k') eqn:X; [|apply IH; [exact F2|lia]]. apply str_eqb_eq in X. subst.
  rewrite (proj2 (keyed_iff S _ d) eq_refl) in C. cbn in C. lia.
Qed.
Lemma rfind_some S k (l : list (str * I)) prev : Forall (fun kd => fst kd = sy_key S (snd kd)) l -> rfind k l = Some prev ->
  cnt (keyed S k) (map snd l) <= 1 ->
  Permutation (map snd l) (prev :: map snd (rremove k l)) /\ cnt (keyed S k) (map snd (rremove k l)) = 0 /\ sy_key S prev = k.
Proof.
  induction l as [|[k' d] l IH]; intros F E C; [discriminate|]. apply Forall_cons_iff in F. destruct F as [F1 F2]. cbn in F1. cbn [rfind rremove map snd] in *.
  rewrite cnt_cons in C. destruct (str_eqb k k') eqn:X.
  - apply str_eqb_eq in X. injection E as <-. subst. rewrite (proj2 (keyed_iff S _ d) eq_refl) in C. cbn [b2n] in C.
    rewrite (rremove_none S (sy_key S d) l F2) by lia. splits; [reflexivity|lia|reflexivity].
  - destruct (IH F2 E) as (A & B & D); [lia|]. cbn [map snd]. splits; [|rewrite cnt_cons|exact D].
    + rewrite A. apply perm_swap.
    + rewrite B. destruct (keyed S k d) eqn:Y; [|reflexivity]. apply keyed_iff in Y. subst. rewrite (proj2 (str_eqb_eq _ _) eq_refl) in X. discriminate.
Qed.
Lemma group_new S mf f d e : sy_proc S f = Ok d -> sy_key S e <> sy_key S d -> complete_group S mf e -> complete_group S (f :: mf) e.
Proof.
  intros P N (g & M & C). exists g. split; [exact M|]. intros Q. rewrite cnt_cons, C. unfold has_key at 2. rewrite P.
  destruct (str_eqb (sy_key S d) (sy_key S e)) eqn:X; [apply str_eqb_eq in X; congruence|]. now rewrite andb_false_r.
Qed.
Lemma has_key_self S f d : sy_proc S f = Ok d -> has_key S (sy_key S d) f = true.
Proof. intros E. unfold has_key. rewrite E. now apply str_eqb_eq. Qed.

(** ** Permutations of lists of modules *)
Lemma perm_rot {A} (l r y : list A) : Permutation l (r ++ y) -> Permutation l (y ++ r).
Proof. intros H. etransitivity; [exact H|]. apply Permutation_app_comm. Qed.
Ltac perm_norm := repeat rewrite <- !app_assoc; rewrite ?app_nil_r; cbn [app].
Ltac perm_loop n :=
  perm_norm;
  first
    [ apply Permutation_refl
    | match goal with
      | |- Permutation (?x ++ _) (?x ++ _) => apply Permutation_app_head; perm_loop n
      | |- Permutation (?x :: _) (?x :: _) => apply perm_skip; perm_loop n
      end
    | match n with
      | Datatypes.S ?m => match goal with
          | |- Permutation _ (?y ++ ?r) => apply (perm_rot _ r y); perm_loop m
          | |- Permutation _ (?y :: ?r) => apply (perm_rot _ r [y]); perm_loop m
          end
      end ].
Ltac perm := perm_loop 12.

Lemma inv_start S jobs files : inv S (Nat.min jobs (length files)) files (start jobs files) [] 0 false.
Proof.
  assert (R : flat_map w_mods (repeat (@WIdle I) (Nat.min jobs (length files))) = []) by (induction (Nat.min jobs (length files)); auto).
  assert (R2 : flat_map w_send (repeat (@WIdle I) (Nat.min jobs (length files))) = []) by (induction (Nat.min jobs (length files)); auto).
  constructor; cbn [start s_shared s_workers s_main h_queue h_counter h_results h_lock h_poisoned h_log m_files]; unfold mods, msgs, stored;
    cbn [start s_shared s_workers s_main h_queue h_counter h_results h_lock h_poisoned h_log m_files map app q_mods flat_map];
    rewrite ?R, ?R2, ?wsum_repeat; cbn [n_get n_have n_pend n_sender n_bad n_poison n_lock n_holder n_stop n_ok cnt filter length b2n app]; try (intros; lia); auto.
  - unfold lenN. lia.
  - intros _ P. rewrite !wsum_repeat. cbn. lia.
  - apply Forall_forall. intros w H. apply repeat_spec in H. subst w. exact Logic.I.
  - intros _ f d [].
Qed.

(** Steps that keep the modules. *)
Lemma mods_same S mf nl s s' : Permutation (mods s') (mods s) ->
  ((nl = 0 -> Forall (complete_group S mf) (mods s)) -> nl = 0 -> Forall (complete_group S mf) (mods s')) /\
  ((forall k, cnt (keyed S k) (mods s) <= 1) -> forall k, cnt (keyed S k) (mods s') <= 1) /\
  ((nl = 0 -> forall f d, In f mf -> sy_proc S f = Ok d -> 1 <= cnt (keyed S (sy_key S d)) (mods s)) ->
   nl = 0 -> forall f d, In f mf -> sy_proc S f = Ok d -> 1 <= cnt (keyed S (sy_key S d)) (mods s')).
Proof.
  intros P. splits.
  - intros H E. eapply Permutation_Forall; [symmetry; exact P|auto].
  - intros H k. rewrite (cnt_perm _ _ _ P). auto.
  - intros H E f d Hf Hp. rewrite (cnt_perm _ _ _ P). eauto.
Qed.
Ltac cbs := cbn [s_shared s_workers s_main h_queue h_counter h_results h_lock h_poisoned h_log set_queue set_counter set_results set_lock poison add_log push m_files n_get n_have n_pend n_ok n_bad n_poison n_lock n_sender n_holder n_stop w_mods w_send b2n g_msg is_stop d_msg] in *.
Ltac wn := repeat (rewrite ?wsum_app, ?wsum_cons, ?cnt_app, ?cnt_cons, ?cnt_nil, ?flat_map_app, ?q_mods_app, ?q_mods_cons, ?q_mods_nil, ?q_mods_stops, ?q_mods_dumps, ?stops_dumps, ?stops_repeat, ?map_app in *; cbs; cbn [flat_map map app fst snd] in *).
(** The same in the goal or in one hypothesis. *)
Ltac wg := repeat (rewrite ?wsum_app, ?wsum_cons, ?cnt_app, ?cnt_cons, ?cnt_nil, ?flat_map_app, ?q_mods_app, ?q_mods_cons, ?q_mods_nil, ?q_mods_stops, ?q_mods_dumps, ?stops_dumps, ?stops_repeat, ?map_app; cbn [s_shared s_workers s_main h_queue h_counter h_results h_lock h_poisoned h_log set_queue set_counter set_results set_lock poison add_log push m_files n_get n_have n_pend n_ok n_bad n_poison n_lock n_sender n_holder n_stop w_mods w_send b2n g_msg is_stop d_msg flat_map map app fst snd]).
Ltac wh H := repeat (rewrite ?wsum_app, ?wsum_cons, ?cnt_app, ?cnt_cons, ?cnt_nil, ?flat_map_app, ?q_mods_app, ?q_mods_cons, ?q_mods_nil, ?q_mods_stops, ?q_mods_dumps, ?stops_dumps, ?stops_repeat, ?map_app in H; cbn [s_shared s_workers s_main h_queue h_counter h_results h_lock h_poisoned h_log set_queue set_counter set_results set_lock poison add_log push m_files n_get n_have n_pend n_ok n_bad n_poison n_lock n_sender n_holder n_stop w_mods w_send b2n g_msg is_stop d_msg flat_map map app fst snd] in H).
Ltac ari := wg; intros; first [lia|congruence].

Ltac nilgoal U := apply length_zero_iff_nil; apply (f_equal (@length _)) in U; rewrite ?app_length in *; cbn [length] in *; lia.
Ltac unsent_tac Hu := let E := fresh in let U1 := fresh in let U2 := fresh in
  unfold stored; wg; intros E; try discriminate E; try (destruct (Hu E) as [U1 U2]; first [exfalso; lia|split; [nilgoal U1|lia]]).
Ltac have_tac Hh := apply (Forall_swap _ _ _ _ _ Hh); try exact Logic.I; auto.
Ltac files_tac Hf := let E := fresh in let P := fresh in intros E P; first [discriminate E|specialize (Hf E P); wh Hf; wg; lia].
Ltac order_tac Hor := let E := fresh in unfold msgs; wg; intros E; first [exfalso; lia|apply Hor; lia].
Ltac last_tac Hla := let E := fresh in let E2 := fresh in unfold msgs; wg; intros E E2; first [exfalso; lia|apply Hla; lia|specialize (Hla ltac:(lia) ltac:(lia)); cbn [app forallb is_stop] in Hla; first [discriminate|exact Hla]].
Ltac poi_tac Hp := let E := fresh in wg; intros E; first [exfalso; lia|apply Hp; lia].
Ltac dr_tac Hdr Hs Hc Hu := let A := fresh in let B := fresh in let C := fresh in wg; intros A B C; try discriminate A;
  first [reflexivity|apply Hdr; [exact A|lia|lia]|exfalso; lia].
Ltac an_tac Han := let A := fresh in wg; intros A;
  first [exfalso; lia|apply Han; lia|apply Forall_app; split; [apply Han; lia|repeat constructor; eexists; reflexivity]].
Ltac open_inv H := destruct H as [Hc Hs Hu Hf Hh Hk Ho Hm H1 Ha Hb Hp Hl Hse Hst Hor Hla Hlo Hdr Han].
(** [nl'] lost files, same modules. *)
Ltac keep S mf nl' sent' OLD NEW Hc Hs Hu Hf Hh Hk Ho Hm H1 Ha Hb Hp Hl Hse Hst Hor Hla Hdr Han :=
  exists mf, nl', sent';
  let M1 := fresh "M1" in let M2 := fresh "M2" in let M3 := fresh "M3" in
  destruct (mods_same S mf nl' OLD NEW) as (M1 & M2 & M3); [unfold mods, stored; wn; first [perm|match goal with D : Permutation _ _ |- _ => rewrite D; wn; perm end]|];
  unfold msgs, stored in *; wn; constructor;
  [ try ari | try ari | try unsent_tac Hu | try files_tac Hf | try (have_tac Hh)
  | try exact Hk | try exact Ho | try (apply M1; first [exact Hm|intros; lia]) | try (apply M2; exact H1) | try (apply M3; first [exact Ha|intros; lia])
  | try ari | try poi_tac Hp | try ari | try ari | try ari | try order_tac Hor | try last_tac Hla | try ari | try dr_tac Hdr Hs Hc Hu | try an_tac Han ].

Lemma worker_inv S nj files h a w b m c h' w' mf nl sent : key_kept S -> legal S c ->
  inv S nj files (mkSt h (a ++ w :: b) m) mf nl sent -> worker_step S nj c h w = Some (h', w') ->
  exists mf' nl' sent', inv S nj files (mkSt h' (a ++ w' :: b) m) mf' nl' sent'.
Proof.
  intros KK LC Inv E. destruct h as [q cn rs lk po lg]. pose proof Inv as Inv0. open_inv Inv0. cbs.
  destruct w as [|f|f d|[|n]| | | |d|ms|d|x]; cbn [worker_step h_queue h_counter h_results h_lock h_poisoned h_log] in E.
  - (* recv *) destruct q as [|msg q]; [discriminate|]. injection E as <- <-. cbs. destruct msg as [f|d|].
    + keep S mf nl sent (mkSt (mkShared (MGet f :: q) cn rs lk po lg) (a ++ WIdle :: b) m) (mkSt (mkShared q cn rs lk po lg) (a ++ (WGet f) :: b) m) Hc Hs Hu Hf Hh Hk Ho Hm H1 Ha Hb Hp Hl Hse Hst Hor Hla Hdr Han.
    + keep S mf nl sent (mkSt (mkShared (MDump d :: q) cn rs lk po lg) (a ++ WIdle :: b) m) (mkSt (mkShared q cn rs lk po lg) (a ++ (WDump d) :: b) m) Hc Hs Hu Hf Hh Hk Ho Hm H1 Ha Hb Hp Hl Hse Hst Hor Hla Hdr Han.
    + keep S mf nl sent (mkSt (mkShared (MStop :: q) cn rs lk po lg) (a ++ WIdle :: b) m) (mkSt (mkShared q cn rs lk po lg) (a ++ (WExit XOk) :: b) m) Hc Hs Hu Hf Hh Hk Ho Hm H1 Ha Hb Hp Hl Hse Hst Hor Hla Hdr Han.
      { intros B. unfold msgs in *. wn. apply (ordered_tail MStop). apply Hor. lia. }
      { intros B _. unfold msgs in *. wn. apply Hor. lia. }
  - (* process *) destruct (sy_proc S f) as [d|e|e] eqn:Ep; injection E as <- <-.
    + keep S mf nl sent (mkSt (mkShared q cn rs lk po lg) (a ++ (WGet f) :: b) m) (mkSt (mkShared q cn rs lk po lg) (a ++ (WMerge f d) :: b) m) Hc Hs Hu Hf Hh Hk Ho Hm H1 Ha Hb Hp Hl Hse Hst Hor Hla Hdr Han.
    + keep S mf (Datatypes.S nl) sent (mkSt (mkShared q cn rs lk po lg) (a ++ (WGet f) :: b) m) (mkSt (mkShared q cn rs lk po lg) (a ++ (WExit XErr) :: b) m) Hc Hs Hu Hf Hh Hk Ho Hm H1 Ha Hb Hp Hl Hse Hst Hor Hla Hdr Han.
    + keep S mf (Datatypes.S nl) sent (mkSt (mkShared q cn rs lk po lg) (a ++ (WGet f) :: b) m) (mkSt (mkShared q cn rs lk po lg) (a ++ (WExit XPanic) :: b) m) Hc Hs Hu Hf Hh Hk Ho Hm H1 Ha Hb Hp Hl Hse Hst Hor Hla Hdr Han.
  - (* merge *) destruct lk; [discriminate|]. destruct po.
    { injection E as <- <-. keep S mf (Datatypes.S nl) sent (mkSt (mkShared q cn rs false true lg) (a ++ (WMerge f d) :: b) m) (mkSt (mkShared q cn rs false true lg) (a ++ (WExit XPanic) :: b) m) Hc Hs Hu Hf Hh Hk Ho Hm H1 Ha Hb Hp Hl Hse Hst Hor Hla Hdr Han. }
    assert (Hpr : sy_proc S f = Ok d). { rewrite Forall_forall in Hh. apply (Hh (WMerge f d)). apply in_or_app. right. now left. }
    assert (sent = false). { destruct sent; [|reflexivity]. specialize (Hs eq_refl). exfalso. wn. lia. } subst sent.
    assert (Em : forall ws r, flat_map w_mods ws = flat_map w_mods (a ++ WMerge f d :: b) ->
      mods (mkSt (mkShared q cn r false false lg) ws m) = map snd r).
    { intros ws r W. unfold mods. cbs. rewrite W. destruct (Hu eq_refl) as [U _]. unfold stored in *. cbs. rewrite U. apply app_nil_r. }
    assert (Em' : forall ws r l p, flat_map w_mods ws = flat_map w_mods (a ++ WMerge f d :: b) -> mods (mkSt (mkShared q cn r l p lg) ws m) = map snd r).
    { intros ws r l p W. rewrite <- (Em ws r W). reflexivity. }
    rewrite (Em _ _ eq_refl) in Hm, H1, Ha.
    destruct (rfind (sy_key S d) rs) as [prev|] eqn:Ef.
    + destruct (rfind_some S _ rs prev Hk Ef (H1 _)) as (PR & C0 & Kp).
      assert (Hk' : Forall (fun kd => fst kd = sy_key S (snd kd)) (rremove (sy_key S d) rs)) by (now apply rremove_Forall).
      assert (H1' : forall k, cnt (keyed S k) (map snd (rremove (sy_key S d) rs)) <= 1).
      { intros k. specialize (H1 k). rewrite (cnt_perm _ _ _ PR), cnt_cons in H1. lia. }
      destruct (sy_merge S d prev) as [mm|e|e] eqn:Eme; injection E as <- <-.
      * pose proof (KK d prev mm (eq_sym Kp) Eme) as Km. unfold rinsert. rewrite Km, (rremove_none S _ _ Hk' C0).
        assert (EM : mods (mkSt (mkShared q cn ((sy_key S d, mm) :: rremove (sy_key S d) rs) false false lg) (a ++ WCheck :: b) m) = map snd ((sy_key S d, mm) :: rremove (sy_key S d) rs)) by (apply Em'; rewrite !flat_map_app; reflexivity).
        unfold set_results, set_lock, poison; cbn [h_queue h_counter h_results h_lock h_poisoned h_log]. exists (f :: mf), nl, false. unfold msgs, stored in Hu, Hor, Hla; wn; constructor; rewrite ?EM; cbs.
        -- ari.
        -- ari.
        -- unsent_tac Hu.
        -- files_tac Hf.
        -- have_tac Hh.
        -- constructor; [cbn; congruence|exact Hk'].
        -- constructor; [eauto|exact Ho].
        -- intros B. specialize (Hm B). cbn [map snd]. eapply Permutation_Forall in Hm; [|exact PR]. apply Forall_cons_iff in Hm. destruct Hm as [Hm1 Hm2]. constructor.
           ++ destruct Hm1 as (g & G1 & G2). exists (f :: g). split; [now apply mo_more with d prev|]. intros P. rewrite !cnt_cons, G2. cbn [snd]. rewrite Km, (has_key_self S f d Hpr), andb_true_r, Kp. reflexivity.
           ++ apply Forall_forall. intros e He. rewrite Forall_forall in Hm2. apply (group_new S mf f d e Hpr); [|now apply Hm2].
              intros X. apply (proj2 (keyed_iff S _ e)) in X. pose proof (cnt_In _ _ _ He X). lia.
        -- intros k. cbn [map snd]. rewrite cnt_cons. destruct (keyed S k mm) eqn:X; [|apply H1'].
           apply keyed_iff in X. subst k. rewrite Km, C0. cbn. lia.
        -- intros B f' d' I' P'. cbn [map snd]. rewrite cnt_cons. destruct I' as [<-|I'].
           ++ rewrite Hpr in P'. injection P' as <-. rewrite (proj2 (keyed_iff S _ mm) Km). cbn. lia.
           ++ specialize (Ha B f' d' I' P'). rewrite (cnt_perm _ _ _ PR), cnt_cons in Ha.
              destruct (keyed S (sy_key S d') prev) eqn:X; [|cbn in Ha; lia]. apply keyed_iff in X. rewrite (proj2 (keyed_iff S _ mm)) by congruence. cbn. lia.
        -- ari.
        -- poi_tac Hp.
        -- ari.
        -- ari.
        -- ari.
        -- order_tac Hor.
        -- last_tac Hla.
        -- ari.
        -- dr_tac Hdr Hs Hc Hu.
        -- an_tac Han.
      * assert (EM : mods (mkSt (mkShared q cn (rremove (sy_key S d) rs) true false lg) (a ++ (WPoison nj) :: b) m) = map snd (rremove (sy_key S d) rs)) by (apply Em'; rewrite !flat_map_app; reflexivity).
        unfold set_results, set_lock, poison; cbn [h_queue h_counter h_results h_lock h_poisoned h_log]. exists mf, (Datatypes.S nl), false. unfold msgs, stored in Hu, Hor, Hla; wn; constructor; rewrite ?EM; cbs.
        1,2,4,8,10-18: ari.
        -- unsent_tac Hu.
        -- have_tac Hh.
        -- exact Hk'.
        -- exact Ho.
        -- exact H1'.
        -- dr_tac Hdr Hs Hc Hu.
        -- an_tac Han.
      * assert (EM : mods (mkSt (mkShared q cn (rremove (sy_key S d) rs) false true lg) (a ++ (WExit XPanic) :: b) m) = map snd (rremove (sy_key S d) rs)) by (apply Em'; rewrite !flat_map_app; reflexivity).
        unfold set_results, set_lock, poison; cbn [h_queue h_counter h_results h_lock h_poisoned h_log]. exists mf, (Datatypes.S nl), false. unfold msgs, stored in Hu, Hor, Hla; wn; constructor; rewrite ?EM; cbs.
        1,2,4,8,10-18: ari.
        -- unsent_tac Hu.
        -- have_tac Hh.
        -- exact Hk'.
        -- exact Ho.
        -- exact H1'.
        -- dr_tac Hdr Hs Hc Hu.
        -- an_tac Han.
    + destruct (rfind_none S _ rs Hk Ef) as (C0 & Er). injection E as <- <-. unfold rinsert. rewrite !Er.
      assert (EM : mods (mkSt (mkShared q cn ((sy_key S d, d) :: rs) false false lg) (a ++ WCheck :: b) m) = map snd ((sy_key S d, d) :: rs)) by (apply Em'; rewrite !flat_map_app; reflexivity).
        unfold set_results, set_lock, poison; cbn [h_queue h_counter h_results h_lock h_poisoned h_log]. exists (f :: mf), nl, false. unfold msgs, stored in Hu, Hor, Hla; wn; constructor; rewrite ?EM; cbs.
      * ari.
      * ari.
      * unsent_tac Hu.
      * files_tac Hf.
      * have_tac Hh.
      * constructor; [reflexivity|exact Hk].
      * constructor; [eauto|exact Ho].
      * intros B. cbn [map snd]. constructor.
        -- exists [f]. split; [now constructor|]. intros P. rewrite !cnt_cons, (has_key_self S f d Hpr), andb_true_r, cnt_nil.
           rewrite (cnt_zero _ mf); [reflexivity|]. intros f' I'. destruct (has_key S (sy_key S d) f') eqn:X; [|apply andb_false_r]. exfalso.
           unfold has_key in X. destruct (sy_proc S f') as [d'| |] eqn:P'; try discriminate. apply str_eqb_eq in X. specialize (Ha B f' d' I' P'). rewrite X in Ha. lia.
        -- apply Forall_forall. intros e He. specialize (Hm B). rewrite Forall_forall in Hm. apply (group_new S mf f d e Hpr); [|now apply Hm].
           intros X. apply (proj2 (keyed_iff S _ e)) in X. pose proof (cnt_In _ _ _ He X). lia.
      * intros k. cbn [map snd]. rewrite cnt_cons. destruct (keyed S k d) eqn:X; [|apply H1].
        apply keyed_iff in X. subst k. rewrite C0. cbn. lia.
      * intros B f' d' I' P'. cbn [map snd]. rewrite cnt_cons. destruct I' as [<-|I'].
        -- rewrite Hpr in P'. injection P' as <-. rewrite (proj2 (keyed_iff S _ d) eq_refl). cbn. lia.
        -- specialize (Ha B f' d' I' P'). lia.
      * ari.
      * poi_tac Hp.
      * ari.
      * ari.
      * ari.
      * order_tac Hor.
      * last_tac Hla.
      * ari.
      * dr_tac Hdr Hs Hc Hu.
      * an_tac Han.
  - (* poisoned *) injection E as <- <-. keep S mf nl sent (mkSt (mkShared q cn rs lk po lg) (a ++ (WPoison 0) :: b) m) (mkSt (mkShared q cn rs false po lg) (a ++ (WExit XErr) :: b) m) Hc Hs Hu Hf Hh Hk Ho Hm H1 Ha Hb Hp Hl Hse Hst Hor Hla Hdr Han.
  - (* poison *) destruct (full nj (mkShared q cn rs lk po lg)); [discriminate|]. injection E as <- <-. keep S mf nl sent (mkSt (mkShared q cn rs lk po lg) (a ++ (WPoison (Datatypes.S n)) :: b) m) (mkSt (mkShared (q ++ [MStop]) cn rs lk po lg) (a ++ (WPoison n) :: b) m) Hc Hs Hu Hf Hh Hk Ho Hm H1 Ha Hb Hp Hl Hse Hst Hor Hla Hdr Han.
  - (* check *) injection E as <- <-. destruct (cn =? 1)%N eqn:Ec.
    + assert (sent = false) by (destruct sent; [exfalso; wn; lia|reflexivity]). subst sent. destruct (Hu eq_refl) as [U1 U2].
      keep S mf nl true (mkSt (mkShared q cn rs lk po lg) (a ++ WCheck :: b) m) (mkSt (mkShared q cn rs lk po lg) (a ++ WLock :: b) m) Hc Hs Hu Hf Hh Hk Ho Hm H1 Ha Hb Hp Hl Hse Hst Hor Hla Hdr Han.
    + keep S mf nl sent (mkSt (mkShared q cn rs lk po lg) (a ++ WCheck :: b) m) (mkSt (mkShared q cn rs lk po lg) (a ++ WDec :: b) m) Hc Hs Hu Hf Hh Hk Ho Hm H1 Ha Hb Hp Hl Hse Hst Hor Hla Hdr Han.
  - (* dec *) injection E as <- <-. assert (Ec : (cn =? 0)%N = false) by (wn; lia). rewrite Ec. keep S mf nl sent (mkSt (mkShared q cn rs lk po lg) (a ++ WDec :: b) m) (mkSt (mkShared q (cn - 1)%N rs lk po lg) (a ++ WIdle :: b) m) Hc Hs Hu Hf Hh Hk Ho Hm H1 Ha Hb Hp Hl Hse Hst Hor Hla Hdr Han.
    intros ->. specialize (Hs eq_refl). exfalso. wn. lia.
  - (* lock *) destruct lk; [discriminate|]. destruct po.
    { injection E as <- <-. keep S mf nl sent (mkSt (mkShared q cn rs false true lg) (a ++ WLock :: b) m) (mkSt (mkShared q cn rs false true lg) (a ++ (WExit XPanic) :: b) m) Hc Hs Hu Hf Hh Hk Ho Hm H1 Ha Hb Hp Hl Hse Hst Hor Hla Hdr Han. }
    destruct LC as [LD _]. destruct rs as [|[k d] [|x rs]]; injection E as <- <-.
    + pose proof (LD []) as DR.
      keep S mf nl sent (mkSt (mkShared q cn [] false false lg) (a ++ WLock :: b) m)
        (mkSt (mkShared q cn [] true false lg) (a ++ (WSend (map MDump (ch_drain c []) ++ repeat MStop nj)) :: b) m) Hc Hs Hu Hf Hh Hk Ho Hm H1 Ha Hb Hp Hl Hse Hst Hor Hla Hdr Han.
      { cbn. rewrite cnt_app, stops_gets. rewrite cnt_zero; [reflexivity|]. intros x0 X. apply in_map_iff in X. destruct X as (y & <- & _). reflexivity. }
      { intros B. unfold msgs in *. wn. rewrite (no_send a), (no_send b) by lia. cbn [app]. rewrite app_nil_r, app_assoc. apply ordered_stops. rewrite cnt_app, stops_dumps. destruct sent; [lia|destruct (Hu eq_refl); lia]. }
      { intros B B2. exfalso. wn. destruct sent; [lia|destruct (Hu eq_refl); lia]. }
    + keep S mf nl sent (mkSt (mkShared q cn [(k, d)] false false lg) (a ++ WLock :: b) m) (mkSt (mkShared q cn [] true false lg) (a ++ (WOnly d) :: b) m) Hc Hs Hu Hf Hh Hk Ho Hm H1 Ha Hb Hp Hl Hse Hst Hor Hla Hdr Han.
      constructor.
    + pose proof (LD ((k, d) :: x :: rs)) as DR.
      keep S mf nl sent (mkSt (mkShared q cn ((k, d) :: x :: rs) false false lg) (a ++ WLock :: b) m)
        (mkSt (mkShared q cn [] true false lg) (a ++ (WSend (map MDump (ch_drain c ((k, d) :: x :: rs)) ++ repeat MStop nj)) :: b) m) Hc Hs Hu Hf Hh Hk Ho Hm H1 Ha Hb Hp Hl Hse Hst Hor Hla Hdr Han.
      { cbn. rewrite cnt_app, stops_gets. rewrite cnt_zero; [reflexivity|]. intros x0 X. apply in_map_iff in X. destruct X as (y & <- & _). reflexivity. }
      { constructor. }
      { intros B. unfold msgs in *. wn. rewrite (no_send a), (no_send b) by lia. cbn [app]. rewrite app_nil_r, app_assoc. apply ordered_stops. rewrite cnt_app, stops_dumps. destruct sent; [lia|destruct (Hu eq_refl); lia]. }
      { intros B B2. exfalso. wn. destruct sent; [lia|destruct (Hu eq_refl); lia]. }
  - (* only *) destruct (ch_store c d) as [u|e|e] eqn:Er; injection E as <- <-.
    + keep S mf nl sent (mkSt (mkShared q cn rs lk po lg) (a ++ (WOnly d) :: b) m) (mkSt (mkShared q cn rs lk po (lg ++ [(d, Ok u)])) (a ++ (WSend (repeat MStop nj)) :: b) m) Hc Hs Hu Hf Hh Hk Ho Hm H1 Ha Hb Hp Hl Hse Hst Hor Hla Hdr Han.
      all: cbs; unfold msgs; cbs.
      { cbn. apply stops_gets. }
      { intros B. unfold msgs in *. wn. destruct sent; [|destruct (Hu eq_refl); exfalso; lia].
        rewrite (no_send a), (no_send b) by lia. cbn [app]. rewrite app_nil_r. apply ordered_stops. lia. }
      { intros B B2. exfalso. wn. destruct sent; [lia|destruct (Hu eq_refl); lia]. }
    + keep S mf nl sent (mkSt (mkShared q cn rs lk po lg) (a ++ (WOnly d) :: b) m) (mkSt (mkShared q cn rs false po (lg ++ [(d, Err e)])) (a ++ (WExit XErr) :: b) m) Hc Hs Hu Hf Hh Hk Ho Hm H1 Ha Hb Hp Hl Hse Hst Hor Hla Hdr Han.
    + keep S mf nl sent (mkSt (mkShared q cn rs lk po lg) (a ++ (WOnly d) :: b) m) (mkSt (mkShared q cn rs false true (lg ++ [(d, Panic e)])) (a ++ (WExit XPanic) :: b) m) Hc Hs Hu Hf Hh Hk Ho Hm H1 Ha Hb Hp Hl Hse Hst Hor Hla Hdr Han.
  - (* send *) destruct ms as [|msg ms].
    + injection E as <- <-. keep S mf nl sent (mkSt (mkShared q cn rs lk po lg) (a ++ (WSend []) :: b) m) (mkSt (mkShared q cn rs false po lg) (a ++ WIdle :: b) m) Hc Hs Hu Hf Hh Hk Ho Hm H1 Ha Hb Hp Hl Hse Hst Hor Hla Hdr Han.
      intros B. wn. destruct lk; cbn [b2n] in *; lia.
    + destruct (full nj (mkShared q cn rs lk po lg)); [discriminate|]. injection E as <- <-.
      assert (G : cnt (g_msg (fun _ => true)) (msg :: ms) = 0). { rewrite Forall_forall in Hh. apply (Hh (WSend (msg :: ms))). apply in_or_app. right. now left. }
      rewrite cnt_cons in G.
      destruct msg as [f|d|]; [exfalso; cbn in G; lia|..].
      * keep S mf nl sent (mkSt (mkShared q cn rs lk po lg) (a ++ (WSend ((MDump d) :: ms)) :: b) m) (mkSt (mkShared (q ++ [(MDump d)]) cn rs lk po lg) (a ++ (WSend ms) :: b) m) Hc Hs Hu Hf Hh Hk Ho Hm H1 Ha Hb Hp Hl Hse Hst Hor Hla Hdr Han.
        { intros B. unfold msgs in *. wn. specialize (Hor ltac:(lia)). rewrite (no_send a) in * by lia. cbn [app] in *. rewrite <- app_assoc. exact Hor. }
        { intros B B2. unfold msgs in *. wn. specialize (Hla ltac:(lia) ltac:(lia)). rewrite (no_send a) in * by lia. cbn [app] in *. rewrite <- app_assoc. exact Hla. }
      * keep S mf nl sent (mkSt (mkShared q cn rs lk po lg) (a ++ (WSend (MStop :: ms)) :: b) m) (mkSt (mkShared (q ++ [MStop]) cn rs lk po lg) (a ++ (WSend ms) :: b) m) Hc Hs Hu Hf Hh Hk Ho Hm H1 Ha Hb Hp Hl Hse Hst Hor Hla Hdr Han.
        { intros B. unfold msgs in *. wn. specialize (Hor ltac:(lia)). rewrite (no_send a) in * by lia. cbn [app] in *. rewrite <- app_assoc. exact Hor. }
        { intros B B2. unfold msgs in *. wn. specialize (Hla ltac:(lia) ltac:(lia)). rewrite (no_send a) in * by lia. cbn [app] in *. rewrite <- app_assoc. exact Hla. }
  - (* dump *) injection E as <- <-. destruct (ch_store c d) as [u|e|e] eqn:Er.
    + keep S mf nl sent (mkSt (mkShared q cn rs lk po lg) (a ++ (WDump d) :: b) m) (mkSt (mkShared q cn rs lk po (lg ++ [(d, Ok u)])) (a ++ WIdle :: b) m) Hc Hs Hu Hf Hh Hk Ho Hm H1 Ha Hb Hp Hl Hse Hst Hor Hla Hdr Han.
    + keep S mf nl sent (mkSt (mkShared q cn rs lk po lg) (a ++ (WDump d) :: b) m) (mkSt (mkShared q cn rs lk po (lg ++ [(d, Err e)])) (a ++ (WExit XErr) :: b) m) Hc Hs Hu Hf Hh Hk Ho Hm H1 Ha Hb Hp Hl Hse Hst Hor Hla Hdr Han.
    + keep S mf nl sent (mkSt (mkShared q cn rs lk po lg) (a ++ (WDump d) :: b) m) (mkSt (mkShared q cn rs lk po (lg ++ [(d, Panic e)])) (a ++ (WExit XPanic) :: b) m) Hc Hs Hu Hf Hh Hk Ho Hm H1 Ha Hb Hp Hl Hse Hst Hor Hla Hdr Han.
  - discriminate.
Qed.

Lemma ordered_get q f : ordered (q ++ [MGet f]) = true <-> cnt is_stop q = 0.
Proof.
  induction q as [|m q IH]; [split; reflexivity|]. rewrite cnt_cons. destruct m; cbn [app ordered is_stop b2n]; rewrite ?IH; try lia.
  rewrite forallb_app. cbn. rewrite andb_false_r. split; intros X; discriminate X.
Qed.

Lemma main_inv S nj files h ws m mf nl sent h' m' :
  inv S nj files (mkSt h ws m) mf nl sent -> main_step nj h ws m = Some (h', m') ->
  inv S nj files (mkSt h' ws m') mf nl sent.
Proof.
  intros Inv E. destruct h as [q cn rs lk po lg]. pose proof Inv as Inv0. open_inv Inv0. cbs. destruct m as [[|f fs]|k| |]; cbn [main_step] in E; cbs.
  - injection E as <- <-. constructor; cbs; auto.
  - destruct (full nj (mkShared q cn rs lk po lg)); [discriminate|]. injection E as <- <-.
    assert (sent = false). { destruct sent; [|reflexivity]. specialize (Hs eq_refl). cbn [length b2n] in Hc. lia. } subst sent.
    destruct (Hu eq_refl) as [U1 U2].
    constructor; cbs; unfold mods, msgs, stored in *; cbs.
    + rewrite Hc, cnt_app. cbn. lia.
    + exact Hs.
    + intros _. rewrite q_mods_app. cbn [q_mods flat_map d_msg app]. rewrite !app_nil_r. auto.
    + intros B P. rewrite (Hf B P), cnt_app, !cnt_cons, cnt_nil. cbn [g_msg]. lia.
    + exact Hh.
    + exact Hk.
    + exact Ho.
    + rewrite q_mods_app. cbn [q_mods flat_map d_msg app]. rewrite !app_nil_r. exact Hm.
    + rewrite q_mods_app. cbn [q_mods flat_map d_msg app]. rewrite !app_nil_r. exact H1.
    + rewrite q_mods_app. cbn [q_mods flat_map d_msg app]. rewrite !app_nil_r. exact Ha.
    + exact Hb.
    + exact Hp.
    + exact Hl.
    + exact Hse.
    + rewrite cnt_app. cbn. intros B. specialize (Hst B). lia.
    + intros B. specialize (Hst B). rewrite (no_send ws U2), app_nil_r. apply ordered_get. lia.
    + intros B B2. specialize (Hst B). lia.
    + exact Hlo.
    + exact Hdr.
    + exact Han.
  - destruct (nth_error ws k) as [[| | | | | | | | | |[]]|]; try discriminate; injection E as <- <-; constructor; cbs; auto.
  - discriminate.
  - discriminate.
Qed.

(** ** Runs *)
Lemma set_nth_split ws i w w' : nth_error ws i = Some w -> exists a b, ws = a ++ w :: b /\ set_nth ws i w' = a ++ w' :: b /\ length a = i.
Proof.
  intros H. destruct (nth_error_split _ _ H) as (a & b & -> & L). exists a, b. splits; auto. subst i. clear H. induction a as [|x a IH]; [reflexivity|]. cbn. now rewrite IH.
Qed.
(** A step is one of the main thread or of one worker. *)
Lemma step_cases S nj s s' : step S nj s s' ->
  (exists h m, main_step nj (s_shared s) (s_workers s) (s_main s) = Some (h, m) /\ s' = mkSt h (s_workers s) m /\ ~ ended s) \/
  (exists c a w b h w', legal S c /\ s_workers s = a ++ w :: b /\ worker_step S nj c (s_shared s) w = Some (h, w') /\
     s' = mkSt h (a ++ w' :: b) (s_main s) /\ ~ ended s).
Proof.
  intros (c & t & L & E). unfold thread_step in E.
  assert (NE : ~ ended s) by (intros [X|X]; rewrite X in E; discriminate).
  assert (E' : match t with
      | Main => match main_step nj (s_shared s) (s_workers s) (s_main s) with Some (h, m') => Some (mkSt h (s_workers s) m') | None => None end
      | Worker i => match nth_error (s_workers s) i with None => None
          | Some w => match worker_step S nj c (s_shared s) w with Some (h, w') => Some (mkSt h (set_nth (s_workers s) i w') (s_main s)) | None => None end end end = Some s').
  { destruct (s_main s); try discriminate; exact E. } clear E. destruct t as [|i].
  - left. destruct (main_step _ _ _ _) as [[h m]|]; [|discriminate]. injection E' as <-. eauto.
  - right. destruct (nth_error (s_workers s) i) as [w|] eqn:N; [|discriminate]. destruct (worker_step _ _ _ _ _) as [[h w']|] eqn:W; [|discriminate].
    injection E' as <-. destruct (set_nth_split _ _ _ w' N) as (a & b & E1 & E2 & _). rewrite E2. exists c, a, w, b, h, w'. splits; auto.
Qed.
Lemma step_inv S nj files s s' mf nl sent : key_kept S -> inv S nj files s mf nl sent -> step S nj s s' ->
  exists mf' nl' sent', inv S nj files s' mf' nl' sent'.
Proof.
  intros K Inv H. destruct (step_cases _ _ _ _ H) as [(h & m & E & -> & _)|(c & a & w & b & h & w' & L & Ew & E & -> & _)].
  - exists mf, nl, sent. destruct s. eapply main_inv; eauto.
  - destruct s as [h0 ws m0]. cbn in *. subst ws. eapply worker_inv; eauto.
Qed.
Lemma reach_inv S jobs files s : key_kept S -> reach S (Nat.min jobs (length files)) (start jobs files) s ->
  exists mf nl sent, inv S (Nat.min jobs (length files)) files s mf nl sent.
Proof.
  intros K H. induction H as [|s s' _ (mf & nl & sent & IH) St].
  - exists [], 0, false. apply inv_start.
  - eapply step_inv; eauto.
Qed.
End P.
