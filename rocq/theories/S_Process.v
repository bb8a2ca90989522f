(** Specification of processing one object: where the header comes from, and
    that no address is lost. *)
From Verif Require Import Base BMap Str M_Names M_Path M_Line M_Source M_Symbol M_Collector M_Object S_Symbol S_Collector S_Object.

(** *** Header *)
(** [u] is [c] with ASCII letters in upper case. *)
Definition upper_of (c u : str) : Prop := Forall2 (fun a b => 97 <= a <= 122 /\ b + 32 = a \/ ~ (97 <= a <= 122) /\ b = a) c u.
(** The code id: that of the PE if there is one with a code id, else that of the
    main object. *)
Inductive module_code (main : Parsed) : option Parsed -> option str -> Prop :=
| mc_pe p c u : pa_code_id p = Some c -> upper_of c u -> module_code main (Some p) (Some u)
| mc_main pe c u : (forall p, pe = Some p -> pa_code_id p = None) -> pa_code_id main = Some c -> upper_of c u -> module_code main pe (Some u)
| mc_none pe : (forall p, pe = Some p -> pa_code_id p = None) -> pa_code_id main = None -> module_code main pe None.
(** The CFI text: that of the PE if it has unwind information, else that of the
    main object if it has. *)
Inductive module_cfi (main : Parsed) : option Parsed -> str -> Prop :=
| mf_pe p : pa_unwind p = true -> module_cfi main (Some p) (pa_cfi p)
| mf_main pe : (forall p, pe = Some p -> pa_unwind p = false) -> pa_unwind main = true -> module_cfi main pe (pa_cfi main)
| mf_none pe : (forall p, pe = Some p -> pa_unwind p = false) -> pa_unwind main = false -> module_cfi main pe [].
(** [n] is what follows the last slash of [s]. *)
Definition after_slash (s n : str) : Prop := ~ In 47 n /\ (s = n \/ exists d, s = d ++ 47 :: n).

(** *** Addresses *)
(** There is a record at [k], or [k] lies inside of one. *)
Definition covered (m : Symbols) (k : N) : Prop :=
  (exists s, nfind k m = Some s) \/ exists j s, nfind j m = Some s /\ j < k /\ k < sy_rva s + sy_len s.
(** The publics of the first section with minidebuginfo. *)
Definition no_debugdata (l : list (option str * N * N)) : Prop := forall a n, ~ In (Some (lit ".gnu_debugdata"), a, n) l.
Inductive mini_publics (p : Parsed) : list Pub -> Prop :=
| mp_none : no_debugdata (pa_secs p) -> mini_publics p []
| mp_first l a n r pubs : pa_secs p = l ++ (Some (lit ".gnu_debugdata"), a, n) :: r -> no_debugdata l -> a + n <= pa_size p ->
    pa_unxz p a (a + n) = Some (Some pubs) -> mini_publics p pubs
| mp_bad l a n r : pa_secs p = l ++ (Some (lit ".gnu_debugdata"), a, n) :: r -> no_debugdata l -> a + n <= pa_size p ->
    (forall pubs, pa_unxz p a (a + n) <> Some (Some pubs)) -> mini_publics p [].
(** Section sizes are 64-bit numbers. *)
Definition sizes_u64 (p : Parsed) : Prop := forall s a n, In (s, a, n) (pa_secs p) -> n < two64.
(** The record [s] at [k] stands for an executable ELF section, or for what
    follows the last record of a PE or PDB. *)
Definition stands_for (main : Parsed) (name : str) (m : Symbols) (k : N) (s : Symbol) : Prop :=
  (exists secs h t, pa_bytes main = BElf secs /\ sections_at k secs = h :: t /\ synthetic_at k (sp_section_name name (se_name h)) s) \/
  ((pa_bytes main = BPe \/ pa_bytes main = BPdb) /\ synthetic_at k (sp_unknown name) s /\
   exists j w, nfind j m = Some w /\ j <> k /\ k = after_last w mod two32 /\ forall i v, nfind i m = Some v -> i = k \/ i <= j).
