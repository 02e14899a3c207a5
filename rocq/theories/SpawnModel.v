(** Model of the descriptors and resources of OSService::execute_child_process_with_data
    (sources/unix.cpp 804-942).  What is written into the pipe is in WinModel ([feed]). *)
From Verif Require Import Base.
Local Open Scope list_scope.

(** Environment: what descriptors refer to, and whether they are closed on exec. *)
Inductive object := OFile (n : nat) | OPipeRead | OPipeWrite.
Definition entry : Type := object * bool.
(** Environment: the table of descriptors of a process. *)
Definition table := list (option entry).
Definition look (t : table) (fd : nat) : option entry := nth fd t None.
Fixpoint put (t : table) (fd : nat) (v : option entry) : table :=
  match fd, t with
  | 0, [] => [v]
  | 0, _ :: t' => v :: t'
  | S n, [] => None :: put [] n v
  | S n, x :: t' => x :: put t' n v
  end.
Fixpoint lowest_free (t : table) : nat :=
  match t with Some _ :: t' => S (lowest_free t') | _ => 0 end.
(** Environment: pipe(2) takes the two lowest free descriptors, reading end first, and
    does not close them on exec. *)
Definition os_pipe (t : table) : table * nat * nat :=
  let r := lowest_free t in
  let t1 := put t r (Some (OPipeRead, false)) in
  let w := lowest_free t1 in
  (put t1 w (Some (OPipeWrite, false)), r, w).
Definition os_close (t : table) (fd : nat) : table := put t fd None.
(** Environment: dup2(2) as an action of posix_spawn: the copy is kept on exec, also if
    it is the same descriptor. *)
Definition os_dup2 (t : table) (from to_ : nat) : table :=
  put t to_ (match look t from with Some (o, _) => Some (o, false) | None => None end).
Definition os_exec (t : table) : table :=
  map (fun e => match e with Some (_, true) => None | _ => e end) t.

Inductive action := AClose (fd : nat) | ADup2 (from to_ : nat).
Definition act (t : table) (a : action) : table :=
  match a with AClose fd => os_close t fd | ADup2 a b => os_dup2 t a b end.
(** Environment: posix_spawnp(3) does the actions in the child, in order, and then execs. *)
Definition os_spawn (t : table) (actions : list action) : table := os_exec (fold_left act actions t).

(** The calls that can fail, in order, and the error if they do. *)
Record answers : Type := mkAns {
  a_pipe : option N; a_actions_init : option N; a_close_write : option N; a_dup2 : option N; a_close_read : option N;
  a_attr_init : option N; a_setflags : option N; a_spawn : option N }.

(** What is known to the cleanup at the end, sources/unix.cpp 829-846. *)
Record vars : Type := mkVars { v_read : option nat; v_write : option nat; v_actions : bool; v_attr : bool }.
Record world : Type := mkWorld { w_table : table; w_actions : bool; w_attr : bool; w_child : option table }.
Definition cleanup (v : vars) (w : world) : world :=
  let t1 := match v_read v with Some r => os_close (w_table w) r | None => w_table w end in
  let t2 := match v_write v with Some x => os_close t1 x | None => t1 end in
  mkWorld t2 (if v_actions v then false else w_actions w) (if v_attr v then false else w_attr w) (w_child w).

(** execute_child_process_with_data, sources/unix.cpp 829-942.  [fed]: how writing into
    the pipe ended, 909-936. *)
Definition execute (args : list bytes) (a : answers) (fed : res unit) (t : table) : res unit * world :=
  let w0 := mkWorld t false false None in
  let v0 := mkVars None None false false in
  match args with
  | [] => (Err EInval, w0)                                                       (* 808-811 *)
  | _ =>
  match a_pipe a with Some e => (Err (EPosix e), cleanup v0 w0) | None =>          (* 848 *)
  let '(t1, r, x) := os_pipe t in
  let w1 := mkWorld t1 false false None in
  let v1 := mkVars (Some r) (Some x) false false in
  match a_actions_init a with Some e => (Err (EPosix e), cleanup v1 w1) | None =>  (* 853 *)
  let w2 := mkWorld t1 true false None in
  let v2 := mkVars (Some r) (Some x) true false in
  match a_close_write a with Some e => (Err (EPosix e), cleanup v2 w2) | None =>   (* 860 *)
  match a_dup2 a with Some e => (Err (EPosix e), cleanup v2 w2) | None =>          (* 865 *)
  match a_close_read a with Some e => (Err (EPosix e), cleanup v2 w2) | None =>    (* 871 *)
  let actions := [AClose x; ADup2 r 0; AClose r] in
  match a_attr_init a with Some e => (Err (EPosix e), cleanup v2 w2) | None =>     (* 876 *)
  let w3 := mkWorld t1 true true None in
  let v3 := mkVars (Some r) (Some x) true true in
  match a_setflags a with Some e => (Err (EPosix e), cleanup v3 w3) | None =>      (* 891 *)
  match a_spawn a with Some e => (Err (EPosix e), cleanup v3 w3) | None =>         (* 897 *)
  let w4 := mkWorld (os_close t1 r) true true (Some (os_spawn t1 actions)) in      (* 904 *)
  let v4 := mkVars None (Some x) true true in
  match fed with
  | Err e => (Err e, cleanup v4 w4)                                              (* 917-931 *)
  | Ok _ => (Ok tt, cleanup (mkVars None None true true) (mkWorld (os_close (w_table w4) x) true true (w_child w4)))   (* 938 *)
  end end end end end end end end end
  end.
