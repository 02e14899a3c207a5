(** The log file, written by all threads of the mounted process. *)
From Coq Require Import Strings.String.
From Verif Require Import Base TextModel FuseModel.
Local Open Scope list_scope.

(** A call of the logger: its level, the head of the line (severity, thread, time, function
    and line number, logger.cpp 79-90) as a function of the time, the pieces in which
    the formatting writes the message, and the message of the exception it ends with, if any. *)
Record lcall := mkCall { lc_level : level; lc_head : Z -> bytes; lc_body : list bytes; lc_exn : option bytes }.

(** POSIXColourSetter, common_platform.cpp 58-98, for the three codes used *)
Definition esc (s : String.string) : bytes := x1b :: str s.
Definition colour_code (lv : level) : bytes := match lv with LWarning => esc "[0;33m" | LError => esc "[1;31m" | _ => [] end.
Definition colour_default : bytes := esc "[0;39m".
Definition is_loud (lv : level) : bool := match lv with LWarning | LError => true | _ => false end.

(** What a thread is about to do. *)
Inductive lpc :=
| LIdle                                 (* between calls *)
| LChecked (c : lcall)                  (* log_v2 has looked at the level, logger.cpp 112-114; or the tracer has, fuse_tracer_v2.cpp 166-221 *)
| LTimed (c : lcall) (now : Z)          (* prelog has looked at the level again and read the clock, 59-64 *)
| LWriting (rest : list bytes)          (* the writes that remain, 67-90, 99-104, 117-123 *)
| LFlush                                (* fflush, 105 *)
| LUnlock.                              (* funlockfile, 106 *)
Record lthread := mkLT { lt_pc : lpc; lt_todo : list lcall }.

(** The stream with its buffer and its lock.  [ls_undef]: a thread has unlocked a lock it
    does not hold. *)
(** m_fp and m_level of Logger, sources/logger.h, and stdio's own lock and
    buffer. *)
Record lstate := mkLS { ls_out : bytes; ls_buf : bytes; ls_owner : option nat; ls_level : level; ls_clock : Z;
                        ls_thr : nat -> lthread; ls_undef : bool }.

(** Helper (no code): update of the state. *)
Definition set_thr (s : lstate) (t : nat) (x : lthread) : lstate :=
  mkLS (ls_out s) (ls_buf s) (ls_owner s) (ls_level s) (ls_clock s) (fun u => if u =? t then x else ls_thr s u) (ls_undef s).
(** Environment: stdio puts bytes in the stream's buffer. *)
Definition put (s : lstate) (b : bytes) : lstate :=
  mkLS (ls_out s) (ls_buf s ++ b) (ls_owner s) (ls_level s) (ls_clock s) (ls_thr s) (ls_undef s).

Section Log.
Variable colour : bool.      (* the stream is a terminal *)

Definition message (c : lcall) : list bytes :=
  lc_body c ++ match lc_exn c with Some m => [str "Logging itself throws exception: " ++ m] | None => [] end.
(** postlog, 95-104 *)
Definition tail (c : lcall) : list bytes := (if colour && is_loud (lc_level c) then [colour_default] else []) ++ [[x0a]].

(** One step of a thread, [None] if it has to wait or has nothing to do.  The lock of a
    stream is taken by flockfile and, for a single call, by every function of stdio. *)
(** sources/logger.cpp 79-120 and sources/fuse_tracer_v2.cpp 166-221, one call
    of stdio at a time. *)
Definition lstep (t : nat) (s : lstate) : option lstate :=
  let th := ls_thr s t in
  let free := match ls_owner s with None => true | Some u => u =? t end in
  match lt_pc th with
  | LIdle =>
    match lt_todo th with
    | [] => None
    | c :: r => Some (set_thr s t (mkLT (if level_le (ls_level s) (lc_level c) then LChecked c else LIdle) r))
    end
  | LChecked c =>
    Some (set_thr s t (mkLT (if level_le (ls_level s) (lc_level c) then LTimed c (ls_clock s)
                             else LWriting (message c ++ tail c)) (lt_todo th)))
  | LTimed c now =>
    if free then
      let s1 := mkLS (ls_out s) (ls_buf s) (Some t) (ls_level s) (ls_clock s) (ls_thr s) (ls_undef s) in
      Some (set_thr s1 t (mkLT (LWriting ((if colour then [colour_code (lc_level c)] else []) ++ [lc_head c now] ++ message c ++ tail c)) (lt_todo th)))
    else None
  | LWriting (b :: r) => if free then Some (set_thr (put s b) t (mkLT (LWriting r) (lt_todo th))) else None
  | LWriting [] => Some (set_thr s t (mkLT LFlush (lt_todo th)))
  | LFlush =>
    if free then
      Some (set_thr (mkLS (ls_out s ++ ls_buf s) [] (ls_owner s) (ls_level s) (ls_clock s) (ls_thr s) (ls_undef s)) t (mkLT LUnlock (lt_todo th)))
    else None
  | LUnlock =>
    match ls_owner s with
    | Some u => if u =? t then Some (set_thr (mkLS (ls_out s) (ls_buf s) None (ls_level s) (ls_clock s) (ls_thr s) (ls_undef s)) t (mkLT LIdle (lt_todo th)))
                else Some (mkLS (ls_out s) (ls_buf s) (ls_owner s) (ls_level s) (ls_clock s) (ls_thr s) true)
    | None => Some (mkLS (ls_out s) (ls_buf s) None (ls_level s) (ls_clock s) (ls_thr s) true)
    end
  end.

(** What can happen: a step of a thread, the clock shows something, stdio writes the
    first [n] bytes of its buffer, or the level is set (Logger::set_level, logger.h 74). *)
Inductive laction := AStep (t : nat) | AClock (z : Z) | AWriteOut (n : nat) | ALevel (lv : level).
Definition ldo (a : laction) (s : lstate) : lstate :=
  match a with
  | AStep t => match lstep t s with Some s' => s' | None => s end
  | AClock z => mkLS (ls_out s) (ls_buf s) (ls_owner s) (ls_level s) z (ls_thr s) (ls_undef s)
  | AWriteOut n => mkLS (ls_out s ++ firstn n (ls_buf s)) (skipn n (ls_buf s)) (ls_owner s) (ls_level s) (ls_clock s) (ls_thr s) (ls_undef s)
  | ALevel lv => mkLS (ls_out s) (ls_buf s) (ls_owner s) lv (ls_clock s) (ls_thr s) (ls_undef s)
  end.
Definition lrun (l : list laction) (s : lstate) : lstate := fold_left (fun s a => ldo a s) l s.
End Log.

(** The start: what is in the file, the level, and what each thread will log. *)
(** Environment (no code): the start. *)
Definition lstart (file : bytes) (lv : level) (todo : nat -> list lcall) : lstate :=
  mkLS file [] None lv 0%Z (fun t => mkLT LIdle (todo t)) false.
