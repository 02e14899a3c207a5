(** Model of serving and of stopping: sources/fuse2_workaround.cpp 40-214 (worker_loop,
    my_fuse_main with its waiter thread, the pipe that signals are written to).
    The threads take steps in any order.  From libfuse and the C library is taken: receiving a
    request (fuse_session_receive_buf) either hands over one request or none, and cancelling a
    thread in it takes effect before a request is taken from the kernel, never after;
    a thread whose cancellation is disabled is not affected by pthread_cancel.
    Not modelled: fuse_setup and its failures (140-167), the fuse-t branch (136-139), the limit
    of the pipe (a write to a full pipe is dropped while bytes are waiting), signals before the
    handlers are installed (176-178), and read on the pipe failing (190-196). *)
From Verif Require Import Base.
Local Open Scope nat_scope.
Local Open Scope list_scope.

(** ** The threads *)
(** Where a worker is in worker_loop, 65-98. *)
Inductive wpc :=
| WTest                  (* 72: fuse_session_exited *)
| WReceiving             (* 79-81: in fuse_session_receive_buf, cancellation enabled *)
| WProcessing (q : nat)  (* 82-96: has request [q], cancellation disabled *)
| WLeaving               (* leaving the function: the DEFER of line 70 *)
| WEnded.
Record worker := mkW { w_pc : wpc; w_cancel : bool (* pthread_cancel has been called *) }.
(** The waiter, 180-204. *)
Inductive waiter := AWaiting | AWoken | ACancelling (i : nat) | ADone.
(** What fuse_session_receive_buf returns: -EINTR, another error, 0, or a request. *)
Inductive received := RInterrupted | RError (e : N) | REnd | RRequest (q : nat).
(** What is seen of the requests. *)
(** Helper (no code): what is observed. *)
Inductive seen := Taken (q : nat) | Completed (q : nat).

Record state := mkS {
  s_workers : list worker;
  s_exited : bool;            (* fuse_session_exit has been called *)
  s_pipe : nat;               (* bytes in the pipe *)
  s_waiter : waiter;
  s_error : N;                (* error_code, without its sign *)
  s_seen : list seen;
  s_return : option N         (* my_fuse_main has returned this *)
}.
(** my_fuse_main, 169-180, with [n] workers. *)
Definition start (n : nat) : state := mkS (repeat (mkW WTest false) n) false 0 AWaiting 0 [] None.
(** 170: the number of workers; hardware_concurrency may be 0 if it is not known. *)
Definition worker_count (multithreaded : bool) (hardware_concurrency : nat) : nat := if multithreaded then hardware_concurrency else 1.

(** Helper (no code): update of a sequence. *)
Definition set_nth {A} (i : nat) (x : A) (l : list A) : list A := firstn i l ++ x :: skipn (S i) l.
(** Helper (no code): update of the state. *)
Definition with_worker (s : state) (i : nat) (w : worker) : state :=
  mkS (set_nth i w (s_workers s)) (s_exited s) (s_pipe s) (s_waiter s) (s_error s) (s_seen s) (s_return s).
(** Helper (no code): update of the state. *)
Definition with_pipe (s : state) (n : nat) : state := mkS (s_workers s) (s_exited s) n (s_waiter s) (s_error s) (s_seen s) (s_return s).
(** Helper (no code): update of the state. *)
Definition with_waiter (s : state) (a : waiter) : state := mkS (s_workers s) (s_exited s) (s_pipe s) a (s_error s) (s_seen s) (s_return s).
(** Helper (no code): update of the state. *)
Definition with_seen (s : state) (x : seen) : state := mkS (s_workers s) (s_exited s) (s_pipe s) (s_waiter s) (s_error s) (s_seen s ++ [x]) (s_return s).
(** Helper (no code): update of the state. *)
Definition with_error (s : state) (e : N) : state := mkS (s_workers s) (s_exited s) (s_pipe s) (s_waiter s) e (s_seen s) (s_return s).

(** ** Steps *)
Inductive label :=
| LTest (i : nat)                    (* worker [i] tests whether the session has ended *)
| LReceive (i : nat) (r : received)  (* receiving returns in worker [i] *)
| LCancelled (i : nat)               (* worker [i] is cancelled *)
| LComplete (i : nat) (stop : bool)  (* worker [i] has processed its request; [stop]: it was the request to unmount (clean_exit_fuse, 126) *)
| LLeave (i : nat)                   (* worker [i] writes to the pipe and ends *)
| LSignal                            (* SIGINT, SIGTERM or SIGHUP: self_pipe_signal_handler, 45-52 *)
| LWake                              (* the waiter reads a byte, 186-189 *)
| LExit                              (* 198: fuse_session_exit *)
| LCancel                            (* 200-203: the next pthread_cancel, or the end of the loop *)
| LReturn.                           (* 205-212: everything is joined *)

(** Helper (no code): the worker's thread has returned. *)
Definition ended (w : worker) : bool := match w_pc w with WEnded => true | _ => false end.
Definition step (l : label) (s : state) : option state :=
  match s_return s with
  | Some _ => None
  | None =>
    let worker_step := fun i (f : worker -> option state) => match nth_error (s_workers s) i with Some w => f w | None => None end in
    let move := fun i w pc => with_worker s i (mkW pc (w_cancel w)) in
    match l with
    | LTest i => worker_step i (fun w => match w_pc w with WTest => Some (move i w (if s_exited s then WLeaving else WReceiving)) | _ => None end)
    | LReceive i r => worker_step i (fun w =>
        match w_pc w with
        | WReceiving =>
          match r with
          | RInterrupted => Some (move i w WTest)                                  (* 82-83 *)
          | RError e => Some (with_error (move i w WLeaving) e)                    (* 84-91 *)
          | REnd => Some (move i w WLeaving)                                       (* 92-95 *)
          | RRequest q => Some (with_seen (move i w (WProcessing q)) (Taken q))
          end
        | _ => None
        end)
    | LCancelled i => worker_step i (fun w => match w_pc w, w_cancel w with WReceiving, true => Some (move i w WLeaving) | _, _ => None end)
    | LComplete i stop => worker_step i (fun w =>
        match w_pc w with
        | WProcessing q =>
          let s' := with_seen (move i w WTest) (Completed q) in                    (* 96 *)
          Some (if stop then with_pipe s' (S (s_pipe s)) else s')
        | _ => None
        end)
    | LLeave i => worker_step i (fun w => match w_pc w with WLeaving => Some (with_pipe (move i w WEnded) (S (s_pipe s))) | _ => None end)
    | LSignal => Some (with_pipe s (S (s_pipe s)))
    | LWake => match s_waiter s, s_pipe s with AWaiting, S n => Some (with_waiter (with_pipe s n) AWoken) | _, _ => None end
    | LExit => match s_waiter s with AWoken => Some (mkS (s_workers s) true (s_pipe s) (ACancelling 0) (s_error s) (s_seen s) (s_return s)) | _ => None end
    | LCancel =>
      match s_waiter s with
      | ACancelling i =>
        match nth_error (s_workers s) i with
        | Some w => Some (with_waiter (with_worker s i (mkW (w_pc w) true)) (ACancelling (S i)))
        | None => Some (with_waiter s ADone)
        end
      | _ => None
      end
    | LReturn =>
      match s_waiter s with
      | ADone => if forallb ended (s_workers s) then Some (mkS (s_workers s) (s_exited s) (s_pipe s) ADone (s_error s) (s_seen s) (Some (s_error s))) else None
      | _ => None
      end
    end
  end.
Fixpoint run (ls : list label) (s : state) : option state :=
  match ls with
  | [] => Some s
  | l :: ls => match step l s with Some s' => run ls s' | None => None end
  end.
