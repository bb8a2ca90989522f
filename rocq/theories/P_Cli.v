(** Proofs about the command line. *)
From Verif Require Import Base Str Regex M_Store M_Cli S_Cli P_Names.

Lemma jobs_number cpus s n : number s n -> num_jobs cpus s = n.
Proof. intros H. apply (parse_unsigned_spec (2 ^ 64)) in H. unfold num_jobs. now rewrite H. Qed.
Lemma jobs_default cpus s : (forall n, ~ number s n) -> num_jobs cpus s = cpus.
Proof.
  intros H. unfold num_jobs. destruct (parse_unsigned (2 ^ 64) s) as [n|] eqn:E; [|reflexivity]. apply parse_unsigned_spec in E. now elim (H n).
Qed.
Lemma info_spec s : info_line_match s = true <-> info_text s.
Proof.
  unfold info_line_match, info_line, info_text, plus. rewrite rmatch_lang, lang_cat_inv. split.
  - intros (a & b & -> & Ha & _). apply lang_cat_inv in Ha. destruct Ha as (k & r & -> & Hk & Hr).
    apply lang_cat_inv in Hk. destruct Hk as (c & k' & -> & Hc & Hk). apply lang_cls_inv in Hc. destruct Hc as (c0 & -> & Hc). apply lang_star_cls in Hk.
    apply lang_cat_inv in Hr. destruct Hr as (sp & t & -> & Hs & _). apply lang_lit in Hs. subst sp.
    exists (c0 :: k'), (t ++ b). splits; [now rewrite <- !app_assoc|discriminate|].
    rewrite forallb_forall in Hk. apply Forall_forall. intros c [<-|I]; [|specialize (Hk c I)]; unfold is_keyword_char in *; lia.
  - intros (k & t & -> & N & F). destruct k as [|c k]; [easy|]. inversion F as [|? ? Fc Fk]; subst. exists ((c :: k) ++ [32]), t. splits.
    + now rewrite <- app_assoc.
    + apply lang_cat_inv. exists (c :: k), [32]. splits; [reflexivity| |].
      * apply lang_cat_inv. exists [c], k. splits; [reflexivity|constructor; unfold is_keyword_char; lia|]. apply lang_star_cls, forallb_forall. intros d I. rewrite Forall_forall in Fk. specialize (Fk d I). unfold is_keyword_char. lia.
      * apply lang_cat_inv. exists [32], []. splits; [reflexivity|now apply lang_lit|constructor].
    + apply lang_star_cls, forallb_forall. auto.
Qed.
Lemma extra_ok version extra ng : Forall info_text extra ->
  get_extra_info version extra ng = Ok (extra ++ (if ng then [] else [lit "GENERATOR mozilla/dump_syms " ++ version])).
Proof.
  intros F. unfold get_extra_info. replace (forallb info_line_match extra) with true; [reflexivity|]. symmetry. apply forallb_forall. intros s I.
  rewrite Forall_forall in F. now apply info_spec, F.
Qed.
Lemma extra_bad version extra ng s : In s extra -> ~ info_text s -> is_panic (get_extra_info version extra ng) = true.
Proof.
  intros I N. unfold get_extra_info. destruct (forallb info_line_match extra) eqn:E; [|reflexivity]. rewrite forallb_forall in E. elim N. now apply info_spec, E.
Qed.

Lemma verbosity_logs s : logs s (verbosity s).
Proof.
  unfold verbosity, logs. repeat match goal with |- context [str_eqb s ?t] => let E := fresh "E" in destruct (str_eqb s t) eqn:E; [apply str_eqb_eq in E; subst s; left; cbn; tauto|] end.
  assert (D : forall t, str_eqb s t = false -> t <> s) by (intros t Q <-; now rewrite str_eqb_refl in Q).
  right. split; [reflexivity|]. cbn. intros H. repeat (destruct H as [H|H]; [now apply D in H|]). exact H.
Qed.
Lemma logs_fun s l l' : logs s l -> logs s l' -> l = l'.
Proof.
  intros [A|[-> A]] [B|[-> B]]; [|elim B; apply in_map_iff; eexists; split; [|exact A]; reflexivity|elim A; apply in_map_iff; eexists; split; [|exact B]; reflexivity|reflexivity].
  cbn in A, B. repeat (destruct A as [A|A]; [injection A as <- <-; repeat (destruct B as [B|B]; [congruence|]); destruct B|]). destruct A.
Qed.
