(** What Windows makes of command lines and paths. *)
From Verif Require Import Base.
Local Open Scope list_scope.

(** ** Command lines

    CommandLineToArgvW and the start-up code of C programs, by their documentation: the
    program's name ends at the next quote if it begins with one, else at a blank or
    control character; in the arguments, blanks and tabs separate, quotes group,
    backslashes are literal but before a quote, where two stand for one, and an odd one
    makes the quote literal.  Two quotes within quotes are a literal one for some
    versions ([twin]). *)
Definition blank (c : byte) : bool := Byte.eqb c x20 || Byte.eqb c x09.
Fixpoint argv_rest (twin : bool) (st : option (bool * bytes)) (bsl : nat) (l : bytes) : list bytes :=
  match l with
  | [] => match st with None => [] | Some (_, cur) => [cur ++ repeat x5c bsl] end
  | c :: l' =>
    let inq := match st with None => false | Some (q, _) => q end in
    let cur := match st with None => [] | Some (_, x) => x end in
    if blank c && negb inq then
      match st with None => argv_rest twin None 0 l' | Some _ => (cur ++ repeat x5c bsl) :: argv_rest twin None 0 l' end
    else if Byte.eqb c x5c then argv_rest twin (Some (inq, cur)) (S bsl) l'
    else if Byte.eqb c x22 then
      let cur := cur ++ repeat x5c (bsl / 2) in
      if Nat.odd bsl then argv_rest twin (Some (inq, cur ++ [x22])) 0 l'
      else
        match l' with
        | d :: l'' => if twin && inq && Byte.eqb d x22 then argv_rest twin (Some (true, cur ++ [x22])) 0 l''
                      else argv_rest twin (Some (negb inq, cur)) 0 l'
        | [] => argv_rest twin (Some (negb inq, cur)) 0 l'
        end
    else argv_rest twin (Some (inq, cur ++ repeat x5c bsl ++ [c])) 0 l'
  end.
Fixpoint cut_at (stop : byte -> bool) (l : bytes) : bytes * bytes :=
  match l with
  | [] => ([], [])
  | c :: l' => if stop c then ([], l') else let (a, r) := cut_at stop l' in (c :: a, r)
  end.
Definition argv (twin : bool) (l : bytes) : list bytes :=
  match l with
  | [] => []
  | c :: l' =>
    let (a, r) := if Byte.eqb c x22 then cut_at (Byte.eqb x22) l' else cut_at (fun c => (b2n c <=? 32)%N) l in
    a :: argv_rest twin None 0 r
  end.

(** ** Paths *)
Definition sep (c : byte) : Prop := c = x2f \/ c = x5c.
Definition ends_name (p : bytes) : Prop := match p with [] => True | c :: _ => sep c end.
Record plain (x : bytes) : Prop := {
  pl_some : x <> [];
  pl_seps : Forall (fun c => ~ sep c) x;
  pl_dot : x <> [x2e];
  pl_up : x <> [x2e; x2e] }.
(** Paths that do not depend on the directory of the repository: none at all, those that begin
    with a slash of either kind, and those with a colon after the first character. *)
Definition absolute (p : bytes) : Prop := p = [] \/ (exists c p', p = c :: p' /\ sep c) \/ (exists c p', p = c :: x3a :: p').
Inductive comp := Name (x : bytes) | Up.
(** How a path is spelled. *)
Inductive spells : bytes -> list comp -> Prop :=
| sp_end : spells [] []
| sp_sep c p l : sep c -> spells p l -> spells (c :: p) l
| sp_dot p l : ends_name p -> spells p l -> spells (x2e :: p) l
| sp_up p l : ends_name p -> spells p l -> spells (x2e :: x2e :: p) (Up :: l)
| sp_name x p l : plain x -> ends_name p -> spells p l -> spells (x ++ p) (Name x :: l).
(** Where it leads from [at_]; there is nothing above the top. *)
Fixpoint walk (at_ : list bytes) (l : list comp) : list bytes :=
  match l with
  | [] => at_
  | Name x :: l' => walk (at_ ++ [x]) l'
  | Up :: l' => walk (removelast at_) l'
  end.
(** With the prefix that tells Windows to leave the path as it is. *)
Definition verbatim (base : bytes) (l : list bytes) : bytes :=
  (if bytes_eqb (firstn 2 base) [x5c; x5c] then [x5c] else [x5c; x5c; x3f]) ++ flat_map (fun x => x5c :: x) l.

(** ** Times: tenths of microseconds since 1601, and since 1970 *)
Definition ticks (low high : N) : Z := (Z.of_N low + Z.of_N high * 2 ^ 32)%Z.

(** ** Opening a file as POSIX has it: reading, writing, content; missing files are [None] *)
Definition posix_open (acc : N) (creat excl trunc : bool) (c : option bytes) : res (bool * bool * bytes) :=
  if (3 <=? acc)%N then Err EInval
  else
    let r := (acc =? 0)%N || (acc =? 2)%N in
    let w := (acc =? 1)%N || (acc =? 2)%N in
    match c with
    | None => if creat then Ok (r, w, []) else Err (EPosix 2)
    | Some d => if creat && excl then Err (EPosix 17) else Ok (r, w, if trunc then [] else d)
    end.
