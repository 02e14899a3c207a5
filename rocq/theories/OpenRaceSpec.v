(** A file that is opened and closed: nothing has been put into it yet ([None]), or it is
    an array of bytes; and the handles that are open. *)
From Verif Require Import Base StreamSpec ConcModel HandleModel OpenRaceModel.

Definition ofile : Type := option bytes * (nat -> bool).
Definition new_file : ofile := (None, fun _ => false).

(** Opening for writing makes an empty array out of nothing; opening for reading does not,
    and is refused (EBADF).  An array is opened as it is. *)
Definition ofile_step (writable : nat -> bool) (f : ofile) (c : fcall) : ofile * sout :=
  let '(content, opened) := f in
  match c with
  | FOpen h =>
    match content with
    | Some d => ((Some d, upd opened h true), ODone)
    | None => if writable h then ((Some [], upd opened h true), ODone) else (f, OFail (EPosix 9))
    end
  | FIo h o =>
    match opened h, content with
    | true, Some d => let '(d', r) := spec_step d o in ((Some d', opened), r)
    | _, _ => (f, OFail EUndef)
    end
  | FClose h => ((content, upd opened h false), ODone)
  end.

(** Calls through their own handle, within the limit, and that do not write or resize
    through a handle for reading. *)
Definition fair_call (lim : nat) (writable : nat -> bool) (h : nat) (c : fcall) : Prop :=
  match c with
  | FOpen h' | FClose h' => h' = h
  | FIo h' o => h' = h /\ sop_within lim o /\
      match o with SWrite _ _ | SResize _ => writable h = true | _ => True end
  end.
