(** Several files and the file system and streams that the workers share
    (/repo/src/dumper.rs:186-246 and 388-453). Processing a file is one step; storing
    a module is many steps, between which other workers go on. *)
From Verif Require Import Base Str Utf8 M_Path M_Source M_Symbol M_Object M_Fs M_Cache M_Store M_Input M_Sched M_Cli M_Many.

(** *** What storing does, operation by operation *)
(** [std::io::BufWriter::write_all] of [n] bytes with [b] bytes in the buffer: the
    sizes of the writes that follow and the bytes in the buffer afterwards. A
    write of no bytes stands for no write. *)
Definition buf_emit (b n : N) : list N * N :=
  if n <? buf_capacity - b then ([], b + n)
  else
    let '(ws, b) := if buf_capacity - b <? n then ([b], 0) else ([], b) in
    if buf_capacity <=? n then (ws ++ [n], b) else (ws, b + n).
(** All the pieces of a text of [total] bytes and the drop of the writer. *)
Fixpoint buf_emits (cuts : list N) (total b : N) : list N :=
  match cuts with
  | [] => let '(ws, b) := buf_emit b total in ws ++ [b]
  | c :: t => let n := N.min c total in let '(ws, b) := buf_emit b n in ws ++ buf_emits t (total - n) b
  end.
Fixpoint cut_up (sizes : list N) (data : list N) : list (list N) :=
  match sizes with [] => [] | n :: t => firstn (N.to_nat n) data :: cut_up t (skipn (N.to_nat n) data) end.
(** What is written at once of a text. *)
Definition chunks (os : Os) (data : list N) : list (list N) := cut_up (buf_emits (os_cuts os data) (lenN data) 0) data.

(** Operations on the world: [fs::create_dir_all], [File::create], a write to an open
    file at the position of its handle, a write to a standard stream (the line
    buffer of standard output passes on what it gets in order). Every write is
    carried out as a whole. *)
Inductive Act := ADirs (p : str) | ACreate (p : str) | AWrite (p : str) (off : N) (data : list N) | AOut (data : list N) | AErr (data : list N).
(** A write at [off]; a gap is filled with zeros, a write of no bytes does nothing. *)
Definition write_at (off : N) (data old : list N) : list N :=
  match data with
  | [] => old
  | _ => firstn (N.to_nat off) old ++ repeat 0 (N.to_nat off - length old) ++ data ++ skipn (N.to_nat off + length data) old
  end.
(** One operation. The disk is not full (see M_Store for one that is); a write to a
    file whose directory entry is gone has no effect here (nothing is deleted). *)
Definition act_step (os : Os) (w : World) (a : Act) : World * res unit :=
  match a with
  | ADirs p => match create_dir_all os (w_fs w) p with Some fs => (set_fs w fs, Ok tt) | None => (w, Err "create_dir_all") end
  | ACreate p => match file_create os (w_fs w) p with Some fs => (set_fs w fs, Ok tt) | None => (w, Panic "Cannot open file for writing") end
  | AWrite p off data =>
      let l := locate (os_cwd os) p in
      (match fs_get (w_fs w) l with Some (NFile old) => set_fs w (fs_set (w_fs w) l (NFile (write_at off data old))) | _ => w end, Ok tt)
  | AOut data => (mkWorld (w_fs w) (w_out w ++ data) (w_err w), Ok tt)
  | AErr data => (mkWorld (w_fs w) (w_out w) (w_err w ++ data), Ok tt)
  end.

Fixpoint file_writes (p : str) (off : N) (cs : list (list N)) : list Act :=
  match cs with [] => [] | c :: t => AWrite p off c :: file_writes p (off + lenN c) t end.
(** Operations and their result when none of them fails. *)
Definition Plan := (list Act * res unit)%type.
(** /repo/src/dumper.rs:186-201 [get_writer_for_sym] and /repo/src/object_info.rs:294-297
    [ObjectInfo::dump]; as in M_Store, nothing is written of a text that cannot be
    formatted. *)
Definition sym_plan (os : Os) (extra : list str) (fo : FileOutput) (o : Obj) : Plan :=
  let opened := match fo with FPath p => [ACreate p] | _ => [] end in
  match fmt_object extra o with
  | Ok text =>
      let cs := chunks os (encode text) in
      (opened ++ match fo with FPath p => file_writes p 0 cs | FStdout => map AOut cs | FStderr => map AErr cs end, Ok tt)
  | Err e => (opened, Err e)
  | Panic m => (opened, Panic m)
  end.
Definition plan_then (a b : Plan) : Plan := match snd a with Ok _ => (fst a ++ fst b, snd b) | _ => a end.
(** /repo/src/dumper.rs:203-246 [store]. *)
Definition store_plan (os : Os) (extra : list str) (out : Output) (check_cfi : bool) (o : Obj) : Plan :=
  if check_cfi && match ob_stack o with [] => true | _ => false end then ([], Err "No CFI data")
  else
    plan_then
      (match output_store out o with
       | Some p =>
           match path_parent p with
           | None => ([], Panic "called `Option::unwrap()` on a `None` value")
           | Some d => plan_then ([ADirs d], Ok tt) (sym_plan os extra (FPath p) o)
           end
       | None => ([], Ok tt)
       end)
      (match output_file out with Some f => sym_plan os extra f o | None => ([], Ok tt) end).
(** A plan carried out without interruption. *)
Fixpoint run_plan (os : Os) (w : World) (acts : list Act) (r : res unit) : World * res unit :=
  match acts with
  | [] => (w, r)
  | a :: t => match act_step os w a with (w, Ok _) => run_plan os w t r | (w, q) => (w, q) end
  end.

(** *** The workers *)
(** The world, the threads (M_Sched) and for each worker that is storing what it
    still has to do. *)
Record Work := mkWork { k_world : World; k_threads : St Obj; k_busy : nat -> option Plan }.
Definition set_busy (b : nat -> option Plan) (i : nat) (p : option Plan) : nat -> option Plan := fun j => if (j =? i)%nat then p else b j.

(** What all workers have: the platform, the settings and the output. *)
Record Setup := mkSetup {
  u_ext : Ext;
  u_env : RunEnv;
  u_iter : list (str * N) -> list (str * N);
  u_map : str -> res (option str);
  u_arch : N;
  u_inl : bool;
  u_extra : list str;
  u_out : Output;
  u_check : bool
}.
Definition u_os (u : Setup) : Os := ex_os (u_ext u).
(** /repo/src/dumper.rs:410-417 on the file system as it is. *)
Definition u_job (u : Setup) (fs : FS) (f : str) : FS * res Obj := get_job (u_ext u) (u_env u) (u_map u) (u_arch u) (u_inl u) fs f.
Definition u_plan (u : Setup) (d : Obj) : Plan := store_plan (u_os u) (u_extra u) (u_out u) (u_check u) d.
(** The threads when the file system is [fs]; answers of [store] come from the plans. *)
Definition u_sys (u : Setup) (fs : FS) : Sys Obj :=
  several_sys (u_ext u) (u_env u) (u_iter u) (u_map u) (u_arch u) (u_inl u) fs (fun _ _ => True).
Definition answer (drain : list (str * Obj) -> list Obj) (r : res unit) : Choice Obj := mkChoice drain (fun _ => r).

(** One step of a thread; [drain] is the order in which the results are drained. *)
Definition work_step (u : Setup) (nj : nat) (drain : list (str * Obj) -> list Obj) (t : Thread) (k : Work) : option Work :=
  let w := k_world k in
  let s := k_threads k in
  let go (w' : World) (b : nat -> option Plan) (r : res unit) :=
    match thread_step (u_sys u (w_fs w)) nj (answer drain r) t s with Some s' => Some (mkWork w' s' b) | None => None end in
  match t with
  | Main => go w (k_busy k) (Ok tt)
  | Worker i =>
      match nth_error (s_workers s) i with
      | Some (WGet f) => go (set_fs w (fst (u_job u (w_fs w) f))) (k_busy k) (Ok tt)
      | Some (WOnly d) | Some (WDump d) =>
          match s_main s with
          | MDone | MPanic => None
          | _ =>
              match k_busy k i with
              | None => Some (mkWork w s (set_busy (k_busy k) i (Some (u_plan u d))))
              | Some (a :: rest, r) =>
                  let '(w', q) := act_step (u_os u) w a in
                  Some (mkWork w' s (set_busy (k_busy k) i (Some (match q with Ok _ => (rest, r) | _ => ([], q) end))))
              | Some ([], r) => go w (set_busy (k_busy k) i None) r
              end
          end
      | _ => go w (k_busy k) (Ok tt)
      end
  end.
Definition work_start (w : World) (jobs : nat) (files : list str) : Work := mkWork w (start jobs files) (fun _ => None).
(** The states that can be reached. *)
Inductive worked (u : Setup) (nj : nat) (k0 : Work) : Work -> Prop :=
| worked_start : worked u nj k0 k0
| worked_step k k' drain t : worked u nj k0 k -> (forall l, Permutation (drain l) (map snd l)) -> work_step u nj drain t k = Some k' -> worked u nj k0 k'.
(** A run of a scheduler, for examples. *)
Fixpoint work_run (u : Setup) (nj : nat) (ts : list Thread) (k : Work) : option Work :=
  match ts with
  | [] => Some k
  | t :: ts => match work_step u nj (map snd) t k with Some k' => work_run u nj ts k' | None => None end
  end.
