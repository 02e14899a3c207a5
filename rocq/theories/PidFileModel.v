(** Model of what a mount prepares before it serves: the limit of open files
    (OSService::raise_fd_limit, sources/unix.cpp 476-500) and the file with the number of the
    process named by SECUREFS_PID_FILE (internal_mount, sources/internal_mount.cpp 288-318),
    step by step, for any number of processes that are given the same name. *)
From Coq Require Import Strings.String DecimalString.
From Verif Require Import Base.
Local Open Scope list_scope.

(** absl::StrCat of a number, internal_mount.cpp 308. *)
Definition decimal (n : N) : bytes := list_byte_of_string (NilZero.string_of_uint (N.to_uint n)).

(** Environment: the name, the files it has stood for, which of them the processes may
    write, and whether they may make and remove entries of its directory. *)
Record phost : Type := mkPH {
  ph_name : option nat;
  ph_data : nat -> bytes;
  ph_mine : nat -> bool;
  ph_next : nat;
  ph_dir : bool;
  ph_open : N -> option nat }.        (* the open stream of each process *)
(** Helper (no code): update of the state. *)
Definition set_data (h : phost) (i : nat) (d : bytes) : phost :=
  mkPH (ph_name h) (fun j => if j =? i then d else ph_data h j) (ph_mine h) (ph_next h) (ph_dir h) (ph_open h).
(** Helper (no code): update of the state. *)
Definition set_open (h : phost) (p : N) (v : option nat) : phost :=
  mkPH (ph_name h) (ph_data h) (ph_mine h) (ph_next h) (ph_dir h) (fun q => if (q =? p)%N then v else ph_open h q).

(** What happens; [bad] is a failure of the host, and [cut] how much was written before one. *)
(** sources/internal_mount.cpp 306-318. *)
Inductive pev : Type :=
| PStart (p : N) (bad : bool)            (* open_file_stream with O_CREAT and O_TRUNC, 306-307 *)
| PWrite (p : N) (cut : option nat)      (* write, 309; then the stream is closed *)
| PEnd (p : N).                          (* the DEFER, 316-318: remove_file_nothrow *)

Definition p_step (h : phost) (e : pev) : phost :=
  match e with
  | PStart p bad =>
    if bad then set_open h p None
    else match ph_name h with
         | Some i => if ph_mine h i then set_open (set_data h i []) p (Some i) else set_open h p None
         | None =>
           if ph_dir h then
             let i := ph_next h in
             set_open (mkPH (Some i) (fun j => if j =? i then [] else ph_data h j) (fun j => if j =? i then true else ph_mine h j) (S i) true (ph_open h)) p (Some i)
           else set_open h p None
         end
  | PWrite p cut =>
    match ph_open h p with
    | None => h
    | Some i =>
      let text := match cut with Some n => firstn n (decimal p) | None => decimal p end in
      set_open (set_data h i (text ++ skipn (length text) (ph_data h i))) p None
    end
  | PEnd p => if ph_dir h then mkPH None (ph_data h) (ph_mine h) (ph_next h) (ph_dir h) (ph_open h) else h
  end.
(** Helper (no code): a history. *)
Definition p_run (h : phost) (es : list pev) : phost := fold_left p_step es h.

(** The events of one mount, with or without the variable ([None]: not set). *)
(** internal_mount, sources/internal_mount.cpp 302-318.  [served] is what the rest of the
    mount, 320-329, gives: a return value or an error. *)
Definition events_of (var : option bytes) (p : N) (bad : bool) (cut : option nat) : list pev :=
  match var with
  | None | Some [] => []
  | Some _ => [PStart p bad; PWrite p cut]
  end.
Definition events_at_end (var : option bytes) (p : N) : list pev :=
  match var with None | Some [] => [] | Some _ => [PEnd p] end.
Definition mount_with (var : option bytes) (p : N) (bad : bool) (cut : option nat) (served : phost -> phost * res N) (h : phost) : phost * res N :=
  let '(h1, r) := served (p_run h (events_of var p bad cut)) in
  (p_run h1 (events_at_end var p), r).

(** ** The limit of open files *)
(** Environment: getrlimit and setrlimit with RLIMIT_NOFILE. *)
Record rlim : Type := mkRlim { soft : N; hard : N }.
(** OSService::raise_fd_limit, sources/unix.cpp 476-500: the limits afterwards, and what is
    reported.  The conversion of the report to a signed number is left out. *)
Definition raise_fd_limit (get_ok set_ok : bool) (l : rlim) : rlim * N :=
  if negb get_ok then (l, 1024%N)
  else if (hard l <=? soft l)%N then (l, soft l)
  else if set_ok then (mkRlim (hard l) (hard l), hard l) else (l, soft l).
