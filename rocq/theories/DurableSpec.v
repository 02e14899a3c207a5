(** What [fsync] promises: a file as a user sees it, with what was synced last. *)
From Verif Require Import Base StreamSpec CrashModel CrashSpec DurableModel.

(** Content, attributes and whether both are flushed; the same three as of the last fsync;
    the calls since then. *)
Record user := mkUser {
  u_now : bytes; u_attr : bytes; u_flushed : bool;
  u_synced : option (bytes * bytes * bool);
  u_later : list call }.

Definition changes (o : sop) : bool := match o with SWrite _ _ | SResize _ => true | _ => false end.

Definition user_step (u : user) (c : call) : user :=
  match c with
  | COp o => mkUser (fst (spec_step (u_now u) o)) (u_attr u) (u_flushed u && negb (changes o)) (u_synced u) (u_later u ++ [c])
  | CAttr h => mkUser (u_now u) h false (u_synced u) (u_later u ++ [c])
  | CFlush => mkUser (u_now u) (u_attr u) true (u_synced u) (u_later u ++ [c])
  | CFsync => mkUser (u_now u) (u_attr u) (u_flushed u) (Some (u_now u, u_attr u, u_flushed u)) []
  end.
Definition user_run (u : user) (l : list call) : user := fold_left user_step l u.
(** A new file. *)
Definition user_new (h : bytes) : user := mkUser [] h false None [].

(** The range [off, off + len) of the content [c] lies in blocks that none of the calls [l]
    touches ([untouched], CrashSpec). *)
Fixpoint spared (bs : nat) (c : bytes) (l : list call) (off len : nat) : Prop :=
  match l with
  | [] => off + len <= length c
  | COp o :: l' => untouched bs (length c) o off len /\ spared bs (fst (spec_step c o)) l' off len
  | _ :: l' => spared bs c l' off len
  end.

(** Calls that change nothing. *)
Definition quiet (c : call) : Prop := match c with COp o => changes o = false | CFlush => True | CAttr _ | CFsync => False end.

Definition call_within (limit hs : nat) (c : call) : Prop :=
  match c with COp o => sop_within limit o | CAttr h => length h <= hs | _ => True end.
