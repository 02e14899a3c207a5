(** A tree of files that each have a mode, an owner and times. *)
From Verif Require Import Base NameModel LongNameModel LongNameSpec UnixPathModel UnixPathSpec AttrPathModel.
Local Open Scope list_scope.

(** The file that a path stands for: down from the repository's directory, name by name. *)
Definition place (trans : translator) (t : htree) (dir : nat) (path : bytes) : res nat :=
  match t_encrypt trans path with
  | Err e => Err e
  | Ok (P, _) => match down t dir (comps P) with Some n => Ok n | None => Err (EPosix 2) end
  end.

(** What the calls mean: they read or change what the path stands for, and nothing else.
    [refused]: the host refuses. *)
Definition sp_set (refused : option err) (where_ : res nat) (f : attrs -> attrs) (m : nat -> attrs) : (nat -> attrs) * aout :=
  match where_, refused with
  | Err e, _ => (m, ADone (Err e))
  | Ok _, Some e => (m, ADone (Err e))
  | Ok n, None => ((fun k => if k =? n then f (m k) else m k), ADone (Ok tt))
  end.
(** A refusal by ENOTSUP (95) makes the program try once more. *)
Definition refusal (bad1 bad2 : option err) : option err :=
  match bad1 with Some (EPosix 95) => bad2 | _ => bad1 end.
Definition sp_step (find : bytes -> res nat) (m : nat -> attrs) (o : aop) : (nat -> attrs) * aout :=
  match o with
  | AStat p => (m, AAttr (match find p with Ok n => Ok (m n) | Err e => Err e end))
  | AChmod p mode b1 b2 => sp_set (refusal b1 b2) (find p) (fun a => mkAttrs mode (at_uid a) (at_gid a) (at_atime a) (at_mtime a)) m
  | AChown p u g b1 b2 =>
    sp_set (refusal b1 b2) (find p)
      (fun a => mkAttrs (at_mode a) (if (u =? 4294967295)%N then at_uid a else u) (if (g =? 4294967295)%N then at_gid a else g) (at_atime a) (at_mtime a)) m
  | AUtimens p ta tm now b =>
    let t new old := if (snd new =? 1073741823)%N then now else if (snd new =? 1073741822)%N then old else new in
    sp_set b (find p) (fun a => mkAttrs (at_mode a) (at_uid a) (at_gid a) (t ta (at_atime a)) (t tm (at_mtime a))) m
  end.
Fixpoint sp_run (find : bytes -> res nat) (m : nat -> attrs) (ops : list aop) : (nat -> attrs) * list aout :=
  match ops with
  | [] => (m, [])
  | o :: ops' => let '(m1, r) := sp_step find m o in let '(m2, rs) := sp_run find m1 ops' in (m2, r :: rs)
  end.

Definition path_in (o : aop) : bytes :=
  match o with AStat p | AChmod p _ _ _ | AChown p _ _ _ _ | AUtimens p _ _ _ _ => p end.
(** No symbolic link on the way to the last name: the kernel asks for the directories of a
    path one by one and follows links itself. *)
Definition no_link_on_way (h : lhost) (dir : nat) (names : list bytes) : Prop :=
  forall before rest n, names = before ++ rest -> before <> [] -> rest <> [] -> down (lh_tree h) dir before = Some n -> lh_link h n = None.
(** The host can change this of the file itself: it is no link, or the host can do it to links. *)
Definition can (h : lhost) (able_mode able_owner : bool) (o : aop) (n : nat) : Prop :=
  lh_link h n = None \/
  match o with
  | AChmod _ _ b1 _ => able_mode = true /\ b1 <> Some (EPosix 95)
  | AChown _ _ _ b1 _ => able_owner = true /\ b1 <> Some (EPosix 95)
  | _ => True
  end.
(** A call with a path of FUSE's, see above. *)
Definition as_handed_over (trans : translator) (h : lhost) (dir : nat) (able_mode able_owner : bool) (o : aop) : Prop :=
  (exists names, names_path (path_in o) names) /\
  (forall P l, t_encrypt trans (path_in o) = Ok (P, l) -> no_link_on_way h dir (comps P)) /\
  (forall n, place trans (lh_tree h) dir (path_in o) = Ok n -> can h able_mode able_owner o n).
