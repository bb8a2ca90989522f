(** Model of /repo/src/dumper.rs:339-507: processing several files with worker
    threads. One step is one blocking operation or one access to shared state;
    everything a thread does while it has the lock and does not block is one
    step. *)
From Verif Require Import Base Str.

(** What processing depends on: reading and processing one file
    ([utils::read_file] and [get_object_info]), the debug id of a module,
    [ObjectInfo::merge] and what [store] may answer. *)
Record Sys (I : Type) := mkSys {
  sy_proc : str -> res I;
  sy_key : I -> str;
  sy_merge : I -> I -> res I;
  sy_store : I -> res unit -> Prop
}.
Arguments mkSys {I}.
Arguments sy_proc {I}.
Arguments sy_key {I}.
Arguments sy_merge {I}.
Arguments sy_store {I}.

Section Sched.
Context {I : Type}.

(** /repo/src/dumper.rs:339-350 [JobType], [JobItem]; None is [MStop]. *)
Inductive Msg := MGet (f : str) | MDump (d : I) | MStop.
(** How a worker ended. *)
Inductive Exit := XOk | XErr | XPanic.
(** Where a worker is, in [consumer] (/repo/src/dumper.rs:388-453). *)
Inductive WState :=
| WIdle                          (* 398 recv *)
| WGet (f : str)                 (* 411-417 read and process *)
| WMerge (f : str) (d : I)       (* 419 lock; 420-427 merge *)
| WPoison (n : nat)              (* 422 poison_queue after a failed merge, with the lock *)
| WCheck                         (* 435 load *)
| WDec                           (* 448 fetch_sub *)
| WLock                          (* 438 lock *)
| WOnly (d : I)                  (* 360-362 the only module, with the lock *)
| WSend (ms : list Msg)          (* 363-377, 380-385 with the lock *)
| WDump (d : I)                  (* 430 *)
| WExit (x : Exit).
(** The main thread, in [several_files] (/repo/src/dumper.rs:455-507). *)
Inductive MState := MSend (fs : list str) | MJoin (k : nat) | MDone | MPanic.
(** What the threads share: queue (first element is received next), counter of
    remaining files, results, lock held, lock poisoned; and the modules given
    to [store], with its answer. *)
Record Shared := mkShared {
  h_queue : list Msg;
  h_counter : N;
  h_results : list (str * I);
  h_lock : bool;
  h_poisoned : bool;
  h_log : list (I * res unit)
}.
Record St := mkSt { s_shared : Shared; s_workers : list WState; s_main : MState }.

Definition set_queue (h : Shared) (q : list Msg) : Shared := mkShared q (h_counter h) (h_results h) (h_lock h) (h_poisoned h) (h_log h).
Definition set_counter (h : Shared) (c : N) : Shared := mkShared (h_queue h) c (h_results h) (h_lock h) (h_poisoned h) (h_log h).
Definition set_results (h : Shared) (r : list (str * I)) : Shared := mkShared (h_queue h) (h_counter h) r (h_lock h) (h_poisoned h) (h_log h).
Definition set_lock (h : Shared) (b : bool) : Shared := mkShared (h_queue h) (h_counter h) (h_results h) b (h_poisoned h) (h_log h).
(** A panic while the lock is held poisons it and releases it. *)
Definition poison (h : Shared) : Shared := mkShared (h_queue h) (h_counter h) (h_results h) false true (h_log h).
Definition add_log (h : Shared) (d : I) (r : res unit) : Shared :=
  mkShared (h_queue h) (h_counter h) (h_results h) (h_lock h) (h_poisoned h) (h_log h ++ [(d, r)]).

(** HashMap [remove] and lookup. *)
Fixpoint rfind (k : str) (l : list (str * I)) : option I :=
  match l with [] => None | (k', d) :: t => if str_eqb k k' then Some d else rfind k t end.
Fixpoint rremove (k : str) (l : list (str * I)) : list (str * I) :=
  match l with [] => [] | (k', d) :: t => if str_eqb k k' then rremove k t else (k', d) :: rremove k t end.
(** HashMap [insert]. *)
Definition rinsert (k : str) (d : I) (l : list (str * I)) : list (str * I) := (k, d) :: rremove k l.

(** What the environment chooses at a step: the order in which the results are
    drained and the answer of [store]. *)
Record Choice := mkChoice { ch_drain : list (str * I) -> list I; ch_store : I -> res unit }.
Definition legal (S : Sys I) (c : Choice) : Prop :=
  (forall l, Permutation (ch_drain c l) (map snd l)) /\ forall d, sy_store S d (ch_store c d).

(** /repo/src/dumper.rs:465-468: threads and capacity of the queue. *)
Definition capacity (nj : nat) : nat := S nj.
Definition full (nj : nat) (h : Shared) : bool := (capacity nj <=? length (h_queue h))%nat.
Definition push (h : Shared) (m : Msg) : Shared := set_queue h (h_queue h ++ [m]).

(** A step of a worker; None when it has to wait or has ended. The channel is
    never disconnected: every worker has both ends and the main thread keeps
    both. *)
Definition worker_step (S : Sys I) (nj : nat) (c : Choice) (h : Shared) (w : WState) : option (Shared * WState) :=
  match w with
  | WIdle =>
      match h_queue h with
      | [] => None
      | m :: q =>
          Some (set_queue h q, match m with MGet f => WGet f | MDump d => WDump d | MStop => WExit XOk end)
      end
  | WGet f =>
      match sy_proc S f with
      | Ok d => Some (h, WMerge f d)
      | Err _ => Some (h, WExit XErr)
      | Panic _ => Some (h, WExit XPanic)
      end
  | WMerge f d =>
      if h_lock h then None
      else if h_poisoned h then Some (h, WExit XPanic)
      else
        let rest := rremove (sy_key S d) (h_results h) in
        match rfind (sy_key S d) (h_results h) with
        | Some prev =>
            match sy_merge S d prev with
            | Ok m => Some (set_results h (rinsert (sy_key S m) m rest), WCheck)
            | Err _ => Some (set_lock (set_results h rest) true, WPoison nj)
            | Panic _ => Some (poison (set_results h rest), WExit XPanic)
            end
        | None => Some (set_results h (rinsert (sy_key S d) d rest), WCheck)
        end
  | WPoison O => Some (set_lock h false, WExit XErr)
  | WPoison (Datatypes.S n) => if full nj h then None else Some (push h MStop, WPoison n)
  | WCheck => Some (h, if h_counter h =? 1 then WLock else WDec)
  | WDec => Some (set_counter h (if h_counter h =? 0 then two64 - 1 else h_counter h - 1), WIdle)
  | WLock =>
      if h_lock h then None
      else if h_poisoned h then Some (h, WExit XPanic)
      else
        let h' := set_lock (set_results h []) true in
        match h_results h with
        | [(_, d)] => Some (h', WOnly d)
        | l => Some (h', WSend (map MDump (ch_drain c l) ++ repeat MStop nj))
        end
  | WOnly d =>
      let r := ch_store c d in
      let h' := add_log h d r in
      match r with
      | Ok _ => Some (h', WSend (repeat MStop nj))
      | Err _ => Some (set_lock h' false, WExit XErr)
      | Panic _ => Some (poison h', WExit XPanic)
      end
  | WSend [] => Some (set_lock h false, WIdle)
  | WSend (m :: ms) => if full nj h then None else Some (push h m, WSend ms)
  | WDump d =>
      let r := ch_store c d in
      Some (add_log h d r, match r with Ok _ => WIdle | Err _ => WExit XErr | Panic _ => WExit XPanic end)
  | WExit _ => None
  end.

(** A step of the main thread. Joining a worker that panicked panics. *)
Definition main_step (nj : nat) (h : Shared) (ws : list WState) (m : MState) : option (Shared * MState) :=
  match m with
  | MSend [] => Some (h, MJoin 0)
  | MSend (f :: fs) => if full nj h then None else Some (push h (MGet f), MSend fs)
  | MJoin k =>
      match nth_error ws k with
      | None => Some (h, MDone)
      | Some (WExit XPanic) => Some (h, MPanic)
      | Some (WExit _) => Some (h, MJoin (S k))
      | Some _ => None
      end
  | MDone | MPanic => None
  end.

Fixpoint set_nth (l : list WState) (i : nat) (w : WState) : list WState :=
  match l, i with
  | [], _ => []
  | _ :: t, O => w :: t
  | x :: t, S i => x :: set_nth t i w
  end.
Inductive Thread := Main | Worker (i : nat).
(** The process ends with its main thread. *)
Definition thread_step (S : Sys I) (nj : nat) (c : Choice) (t : Thread) (s : St) : option St :=
  match s_main s with
  | MDone | MPanic => None
  | m =>
      match t with
      | Main => match main_step nj (s_shared s) (s_workers s) m with
                | Some (h, m') => Some (mkSt h (s_workers s) m') | None => None end
      | Worker i =>
          match nth_error (s_workers s) i with
          | None => None
          | Some w => match worker_step S nj c (s_shared s) w with
                      | Some (h, w') => Some (mkSt h (set_nth (s_workers s) i w') m) | None => None end
          end
      end
  end.

(** /repo/src/dumper.rs:455-491: start. *)
Definition start (jobs : nat) (files : list str) : St :=
  mkSt (mkShared [] (lenN files) [] false false []) (repeat WIdle (Nat.min jobs (length files))) (MSend files).
(** Steps under some choices, and the states a run can reach. *)
Definition step (S : Sys I) (nj : nat) (s s' : St) : Prop := exists c t, legal S c /\ thread_step S nj c t s = Some s'.
Inductive reach (S : Sys I) (nj : nat) (s0 : St) : St -> Prop :=
| reach_start : reach S nj s0 s0
| reach_step s s' : reach S nj s0 s -> step S nj s s' -> reach S nj s0 s'.
(** A run of a scheduler, for examples. *)
Fixpoint run (S : Sys I) (nj : nat) (c : Choice) (ts : list Thread) (s : St) : option St :=
  match ts with
  | [] => Some s
  | t :: ts => match thread_step S nj c t s with Some s' => run S nj c ts s' | None => None end
  end.
End Sched.
Arguments Msg : clear implicits.
Arguments WState : clear implicits.
Arguments Shared : clear implicits.
Arguments St : clear implicits.
Arguments Choice : clear implicits.
