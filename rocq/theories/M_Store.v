(** Model of /repo/src/dumper.rs:25-75 and 186-246: destinations and storing. *)
From Verif Require Import Base Str Utf8 M_Path M_Source M_Symbol M_Object M_Fs.

(** /repo/src/dumper.rs:27-33 [enum FileOutput]. *)
Inductive FileOutput := FPath (p : str) | FStdout | FStderr.
(** /repo/src/dumper.rs:35-43 [FileOutput::from]. *)
Definition file_output (s : str) : FileOutput := if str_eqb s (lit "-") then FStdout else FPath s.
(** /repo/src/dumper.rs:55-67 [enum Output]. *)
Inductive Output := OFile (f : FileOutput) | OStore (dir : str) | OBoth (f : FileOutput) (dir : str).

(** The file system and what has been written to the standard streams. *)
Record World := mkWorld { w_fs : FS; w_out : list N; w_err : list N }.
Definition set_fs (w : World) (fs : FS) : World := mkWorld fs (w_out w) (w_err w).

(** /repo/src/dumper.rs:186-201 [get_writer_for_sym], then
    /repo/src/object_info.rs:294-297 [ObjectInfo::dump] and the drop of the
    writer. If formatting panics the file has some beginning of the text, which
    is modelled as an empty file. Writing to the standard streams succeeds. *)
Definition write_sym (os : Os) (extra : list str) (fo : FileOutput) (o : Obj) (w : World) : World * res unit :=
  match fo with
  | FPath p =>
      match file_create os (w_fs w) p with
      | None => (w, Panic "Cannot open file for writing")
      | Some fs1 =>
          match fmt_object extra o with
          | Ok text => let '(fs2, ok) := buf_write os fs1 p (os_cuts os (encode text)) (encode text) in (set_fs w fs2, if ok then Ok tt else Err "write")
          | Err e => (set_fs w fs1, Err e)
          | Panic m => (set_fs w fs1, Panic m)
          end
      end
  | FStdout =>
      match fmt_object extra o with
      | Ok text => (mkWorld (w_fs w) (w_out w ++ encode text) (w_err w), Ok tt)
      | Err e => (w, Err e) | Panic m => (w, Panic m)
      end
  | FStderr =>
      match fmt_object extra o with
      | Ok text => (mkWorld (w_fs w) (w_out w) (w_err w ++ encode text), Ok tt)
      | Err e => (w, Err e) | Panic m => (w, Panic m)
      end
  end.

(** /repo/src/dumper.rs:206-217 [sym_store_path]. Paths are UTF-8. *)
Definition sym_store_path (dir : str) (o : Obj) : option str :=
  match dir with [] => None | _ => Some (path_push dir (get_path_for_sym (ob_name o) (ob_debug_id o))) end.
(** /repo/src/dumper.rs:219-226. *)
Definition output_file (out : Output) : option FileOutput := match out with OFile f | OBoth f _ => Some f | OStore _ => None end.
Definition output_store (out : Output) (o : Obj) : option str :=
  match out with OFile _ => None | OStore dir | OBoth _ dir => sym_store_path dir o end.
(** /repo/src/dumper.rs:228-236. *)
Definition write_store (os : Os) (extra : list str) (p : str) (o : Obj) (w : World) : World * res unit :=
  match path_parent p with
  | None => (w, Panic "called `Option::unwrap()` on a `None` value")
  | Some d =>
      match create_dir_all os (w_fs w) d with
      | None => (w, Err "create_dir_all")
      | Some fs1 => write_sym os extra (FPath p) o (set_fs w fs1)
      end
  end.
(** Continue unless it failed. *)
Definition andThen (r : World * res unit) (f : World -> World * res unit) : World * res unit :=
  match snd r with Ok _ => f (fst r) | _ => r end.
(** /repo/src/dumper.rs:203-246 [store]; [ob_stack] is not empty when there is
    CFI (/repo/src/object_info.rs:307-309 [has_stack]). *)
Definition store (os : Os) (extra : list str) (out : Output) (check_cfi : bool) (o : Obj) (w : World) : World * res unit :=
  if check_cfi && match ob_stack o with [] => true | _ => false end then (w, Err "No CFI data")
  else andThen (match output_store out o with Some p => write_store os extra p o w | None => (w, Ok tt) end)
    (fun w => match output_file out with Some f => write_sym os extra f o w | None => (w, Ok tt) end).
