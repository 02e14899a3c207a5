(** Model of the command that mounts in the background while it waits for its child:
    MountCommand::execute, sources/commands.cpp 933-960, with POSIXChildProcess::exit_code,
    sources/unix.cpp 754-801, and what goes on around it.

    Left out: how the child is started and gets its input ([WinModel.feed]), and what it
    does when it mounts ([MountModel]). *)
From Verif Require Import Base.
Local Open Scope list_scope.

(** Environment: what waitpid(2) with WNOHANG answers. *)
Inductive waited := WRunning | WEnded (status : N) | WNoChild | WFailed.

(** Environment: the macros of <sys/wait.h>. *)
Definition wifexited (status : N) : bool := (status mod 128 =? 0)%N.
Definition wexitstatus (status : N) : N := (status / 256 mod 256)%N.
Definition wifsignaled (status : N) : bool := (0 <? status mod 128)%N && (status mod 128 <? 127)%N.
Definition wtermsig (status : N) : N := (status mod 128)%N.

(** POSIXChildProcess::exit_code, sources/unix.cpp 754-801.  [valid] is m_pid > 0. *)
Definition exit_code (valid : bool) (w : waited) : bool * option Z :=
  if negb valid then (valid, None)
  else match w with
       | WRunning => (valid, None)
       | WEnded status =>
         (valid, Some (if wifexited status then Z.of_N (wexitstatus status)
                       else if wifsignaled status then (128 + Z.of_N (wtermsig status))%Z
                       else (-1)%Z))
       | WNoChild => (false, None)
       | WFailed => (valid, None)
       end.

(** Environment: what is mounted on the directory, the last one first: by the child, by
    another process of securefs, or something else. *)
Inductive mounter := ByChild | BySecurefs | ByOther.
(** Environment: the mounts, and how the child has ended. *)
Record world : Type := mkW { w_mounts : list mounter; w_child : option N }.
Definition top_is_securefs (l : list mounter) : bool := match l with ByChild :: _ | BySecurefs :: _ => true | _ => false end.

(** Where the loop is, sources/commands.cpp 943-958. *)
Inductive wpc := WPoll | WAsk | WSleep | WReturned (code : Z).
Record wst : Type := mkWst { ws_world : world; ws_valid : bool; ws_pc : wpc }.

(** What happens: the child mounts, unmounts or ends, others mount and unmount, and the
    command takes a step.  [answers]: the look at the mount point is not disturbed by
    some error.  [calm]: waitpid does not fail for another reason than that there is no
    such child. *)
Inductive wev :=
| EvMount | EvUnmount | EvEnd (status : N)
| EvOther (m : mounter) | EvOtherGone
| EvCommand (answers calm : bool).

(** Environment: mounts go with the process that serves them. *)
Definition not_child (m : mounter) : bool := match m with ByChild => false | _ => true end.
Definition without_child (l : list mounter) : list mounter := filter not_child l.

(** Environment.  A parent that ignores SIGCHLD has no children to wait for
    once they have ended (waitpid(2)). *)
Definition waitpid (ignoring calm : bool) (w : world) : waited :=
  if negb calm then WFailed
  else match w_child w with
       | None => WRunning
       | Some status => if ignoring then WNoChild else WEnded status
       end.

(** The loop, sources/commands.cpp 943-958, and the rest of the world. *)
Definition wstep (ignoring : bool) (s : wst) (e : wev) : wst :=
  let w := ws_world s in
  match e with
  | EvMount => match w_child w with None => mkWst (mkW (ByChild :: w_mounts w) None) (ws_valid s) (ws_pc s) | Some _ => s end
  | EvUnmount => mkWst (mkW (without_child (w_mounts w)) (w_child w)) (ws_valid s) (ws_pc s)
  | EvEnd status =>
    match w_child w with
    | None => mkWst (mkW (without_child (w_mounts w)) (Some status)) (ws_valid s) (ws_pc s)
    | Some _ => s
    end
  | EvOther ByChild => s
  | EvOther m => mkWst (mkW (m :: w_mounts w) (w_child w)) (ws_valid s) (ws_pc s)
  | EvOtherGone =>
    match w_mounts w with
    | ByChild :: _ | [] => s
    | _ :: l => mkWst (mkW l (w_child w)) (ws_valid s) (ws_pc s)
    end
  | EvCommand answers calm =>
    match ws_pc s with
    | WPoll => mkWst w (ws_valid s) (if answers && top_is_securefs (w_mounts w) then WReturned 0 else WAsk)
    | WAsk =>
      let '(valid, code) := exit_code (ws_valid s) (waitpid ignoring calm w) in
      mkWst w valid (match code with Some c => WReturned (if (c =? 0)%Z then -1 else c)%Z | None => WSleep end)
    | WSleep => mkWst w (ws_valid s) WPoll
    | WReturned _ => s
    end
  end.
Definition wrun (ignoring : bool) (l : list wev) (s : wst) : wst := fold_left (wstep ignoring) l s.
(** The child has been started, sources/commands.cpp 940-942. *)
Definition wstart (mounts : list mounter) : wst := mkWst (mkW mounts None) true WPoll.
