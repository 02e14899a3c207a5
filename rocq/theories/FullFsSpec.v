(** What a user expects of the full format's directory operations. *)
From Coq Require Import Strings.String.
From Verif Require Import Base TextModel NameModel BtreeModel BtreeSpec FullFsModel.
(** Error numbers, as on Linux: 1 is EPERM, 2 is ENOENT, 17 is EEXIST, 20 is ENOTDIR, 22 is EINVAL, 36 is ENAMETOOLONG, 40 is ELOOP. *)
Local Open Scope list_scope.

(** ** Counting names *)

(** Every directory entry of the repository. *)
Definition all_entries (st : ffs) : list entry := flat_map (fun p => i_dir (snd p)) (nodes st).

(** How many directory entries name the file [id]. *)
Definition refs (st : ffs) (id : bytes) : nat := length (filter (fun e => bytes_eqb (e_id e) id) (all_entries st)).

(** The root has no name but counts as having one. *)
Definition root_bonus (id : bytes) : nat := if bytes_eqb id root_id then 1 else 0.

(** The link count of every file is the number of its names; nothing is stored that
    neither has a name nor is in use; every name leads to a stored file of the type
    the entry says. *)
Record counts_right (st : ffs) : Prop := {
  cr_nlink : forall id nd, get st id = Some nd -> i_nlink nd = N.of_nat (refs st id + root_bonus id);
  cr_stored : forall id, get st id <> None <-> id = root_id \/ refs st id > 0 \/ In id (opened st);
  cr_type : forall e nd, In e (all_entries st) -> get st (e_id e) = Some nd -> i_type nd = e_type e }.

(** ** What names mean *)
Section Names.
Variable cmp : bytes -> bytes -> comparison.

(** The file that the name [n] means in the directory [d]. *)
Definition name_in (st : ffs) (d n : bytes) : option (bytes * N) :=
  match get st d with
  | Some nd => option_map (fun e => (e_id e, e_type e)) (find_name cmp n (i_dir nd))
  | None => None
  end.

(** Path resolution, with the stack of directories walked through (innermost first):
    [leads st k s p r] says that walking the components [p] from [s] ends at [r]
    ([None]: some component does not exist), no symbolic link being followed inside
    the target of another more than [k] deep.  A symbolic link, absolute or not, is
    walked from the directory that holds it. *)
Inductive leads (st : ffs) : nat -> list bytes -> list bytes -> option (list bytes) -> Prop :=
| L_done k s : leads st k s [] (Some s)
| L_dot k s p r : leads st k s p r -> leads st k s (str "." :: p) r
| L_root k d p r : leads st k [d] p r -> leads st k [d] (str ".." :: p) r
| L_up k x d s p r : leads st k (d :: s) p r -> leads st k (x :: d :: s) (str ".." :: p) r
| L_missing k d s nd n p : n <> str "." -> n <> str ".." -> length n <= 255 ->
    get st d = Some nd -> i_type nd = TDIR -> name_in st d n = None ->
    leads st k (d :: s) (n :: p) None
| L_name k d s nd n p r x ty : n <> str "." -> n <> str ".." -> length n <= 255 ->
    get st d = Some nd -> i_type nd = TDIR -> name_in st d n = Some (x, ty) -> ty <> TLINK ->
    leads st k (x :: d :: s) p r -> leads st k (d :: s) (n :: p) r
| L_link_missing k d s nd n p x ln : n <> str "." -> n <> str ".." -> length n <= 255 ->
    get st d = Some nd -> i_type nd = TDIR -> name_in st d n = Some (x, TLINK) ->
    get st x = Some ln -> leads st k (d :: s) (path_comps (i_data ln)) None ->
    leads st (S k) (d :: s) (n :: p) None
| L_link k d s nd n p r x ln s1 : n <> str "." -> n <> str ".." -> length n <= 255 ->
    get st d = Some nd -> i_type nd = TDIR -> name_in st d n = Some (x, TLINK) ->
    get st x = Some ln -> leads st k (d :: s) (path_comps (i_data ln)) (Some s1) ->
    leads st (S k) s1 p r -> leads st (S k) (d :: s) (n :: p) r.

(** The errors of path resolution: a name looked up in something that is no directory,
    a name that is too long, or symbolic links inside the targets of others more than
    [k] deep. *)
Inductive fails (st : ffs) : nat -> list bytes -> list bytes -> err -> Prop :=
| X_dot k s p e : fails st k s p e -> fails st k s (str "." :: p) e
| X_root k d p e : fails st k [d] p e -> fails st k [d] (str ".." :: p) e
| X_up k x d s p e : fails st k (d :: s) p e -> fails st k (x :: d :: s) (str ".." :: p) e
| X_notdir k d s nd n p : n <> str "." -> n <> str ".." ->
    get st d = Some nd -> i_type nd <> TDIR -> fails st k (d :: s) (n :: p) (EPosix 1)
| X_long k d s nd n p : n <> str "." -> n <> str ".." ->
    get st d = Some nd -> i_type nd = TDIR -> length n > 255 -> fails st k (d :: s) (n :: p) (EPosix 36)
| X_name k d s nd n p x ty e : n <> str "." -> n <> str ".." -> length n <= 255 ->
    get st d = Some nd -> i_type nd = TDIR -> name_in st d n = Some (x, ty) -> ty <> TLINK ->
    fails st k (x :: d :: s) p e -> fails st k (d :: s) (n :: p) e
| X_loop d s nd n p x : n <> str "." -> n <> str ".." -> length n <= 255 ->
    get st d = Some nd -> i_type nd = TDIR -> name_in st d n = Some (x, TLINK) ->
    fails st 0 (d :: s) (n :: p) (EPosix 40)
| X_in k d s nd n p x ln e : n <> str "." -> n <> str ".." -> length n <= 255 ->
    get st d = Some nd -> i_type nd = TDIR -> name_in st d n = Some (x, TLINK) ->
    get st x = Some ln -> fails st k (d :: s) (path_comps (i_data ln)) e ->
    fails st (S k) (d :: s) (n :: p) e
| X_after k d s nd n p x ln s1 e : n <> str "." -> n <> str ".." -> length n <= 255 ->
    get st d = Some nd -> i_type nd = TDIR -> name_in st d n = Some (x, TLINK) ->
    get st x = Some ln -> leads st k (d :: s) (path_comps (i_data ln)) (Some s1) ->
    fails st (S k) s1 p e -> fails st (S k) (d :: s) (n :: p) e.

(** The directory and name that a path designates. *)
Definition designates (st : ffs) (path : bytes) (d n : bytes) : Prop :=
  (path_comps path = [] /\ d = root_id /\ n = []) \/
  (path_comps path <> [] /\ n = last (path_comps path) [] /\
   exists s, leads st 15 [root_id] (removelast (path_comps path)) (Some (d :: s))).

Definition is_dir (st : ffs) (id : bytes) : Prop := exists nd, get st id = Some nd /\ i_type nd = TDIR.
Definition is_full_dir (st : ffs) (id : bytes) : Prop := exists nd, get st id = Some nd /\ i_dir nd <> [].

(** The file at which a whole path ends ([None]: it does not exist), the last link
    being followed or not. *)
Definition ends_at (st : ffs) (path : bytes) (follow : bool) (o : option bytes) : Prop :=
  if bytes_eqb path [] || bytes_eqb path (str "/") then o = Some root_id else
  exists d n, designates st path d n /\ is_dir st d /\ length n <= 255 /\
  match name_in st d n with
  | None => o = None
  | Some (x, ty) =>
    if follow && (ty =? TLINK)%N then
      exists ln s r, get st x = Some ln /\
        leads st 15 [root_id] (removelast (path_comps path)) (Some (d :: s)) /\
        leads st 15 (d :: s) (path_comps (i_data ln)) r /\
        o = match r with Some (y :: _) => Some y | _ => None end
    else o = Some x
  end.

(** The error with which a whole path fails. *)
Definition fails_at (st : ffs) (path : bytes) (follow : bool) (e : err) : Prop :=
  path <> [] /\ path <> str "/" /\
  (fails st 15 [root_id] (removelast (path_comps path)) e \/
   (leads st 15 [root_id] (removelast (path_comps path)) None /\ e = (EPosix 2)) \/
   exists d s n, leads st 15 [root_id] (removelast (path_comps path)) (Some (d :: s)) /\ n = last (path_comps path) [] /\
     ((~ is_dir st d /\ e = (EPosix 1)) \/ (is_dir st d /\ length n > 255 /\ e = (EPosix 36)) \/
      exists x ln, is_dir st d /\ length n <= 255 /\ name_in st d n = Some (x, TLINK) /\ follow = true /\
        get st x = Some ln /\ fails st 15 (d :: s) (path_comps (i_data ln)) e)).

(** A set of names of symbolic links in the root that lead to each other. *)
Definition link_loop (st : ffs) (P : bytes -> Prop) : Prop := forall n, P n ->
  n <> str "." /\ n <> str ".." /\ length n <= 255 /\
  exists x ln m rest, name_in st root_id n = Some (x, TLINK) /\ get st x = Some ln /\ path_comps (i_data ln) = m :: rest /\ P m.

(** The walk along plain names: no links, no dots. *)
Fixpoint plain_walk (st : ffs) (d : bytes) (comps : list bytes) : option bytes :=
  match comps with
  | [] => Some d
  | n :: p =>
    if bytes_eqb n (str ".") || bytes_eqb n (str "..") || (255 <? length n) then None else
    match get st d with
    | None => None
    | Some nd => if (i_type nd =? TDIR)%N then
        match name_in st d n with
        | Some (x, ty) => if (ty =? TLINK)%N then None else plain_walk st x p
        | None => None
        end
      else None
    end
  end.

(** The error with which the directory of a path fails; with which a place for a new
    name does; with which the file of a path does. *)
Definition base_fails (st : ffs) (path : bytes) (e : err) : Prop :=
  fails st 15 [root_id] (removelast (path_comps path)) e \/
  (leads st 15 [root_id] (removelast (path_comps path)) None /\ e = (EPosix 2)).
Definition bad_place (st : ffs) (path : bytes) (e : err) : Prop :=
  base_fails st path e \/
  exists d n, designates st path d n /\ ((~ is_dir st d /\ e = (EPosix 1)) \/ (is_dir st d /\ length n > 255 /\ e = (EPosix 36))).
Definition no_file (st : ffs) (path : bytes) (e : err) : Prop :=
  bad_place st path e \/
  exists d n, designates st path d n /\ is_dir st d /\ length n <= 255 /\ name_in st d n = None /\ e = (EPosix 2).
Definition taken (st : ffs) (path : bytes) (e : err) : Prop :=
  exists d n, designates st path d n /\ name_in st d n <> None /\ e = (EPosix 17).

(** ** Histories

    What the kernel checks before it calls, and the one thing it does not: that a
    directory about to be replaced is empty. *)

(** A place where a name can be made: in a directory, and the name is not too long. *)
Definition place_ok (st : ffs) (path : bytes) : Prop :=
  forall d n, designates st path d n -> is_dir st d /\ length n <= 255.

Definition careful (o : fop) (st : ffs) : Prop :=
  match o with
  | FCreate path _ _ _ | FMkdir path _ _ _ | FSymlink _ path _ _ => place_ok st path
  | FLink src _ => forall x, ends_at st src true (Some x) -> ~ is_dir st x
  | FUnlink path => forall d n x, designates st path d n -> name_in st d n = Some x -> ~ is_full_dir st (fst x)
  | FRmdir path => forall d n x, designates st path d n -> name_in st d n = Some x -> is_dir st (fst x) /\ ~ is_full_dir st (fst x)
  | FRename from to => place_ok st to /\
      forall d n x d' n' y, designates st from d n -> name_in st d n = Some x ->
        designates st to d' n' -> name_in st d' n' = Some y -> fst x <> fst y -> ~ is_full_dir st (fst y)
  | _ => True
  end.
Fixpoint careful_run (ops : list fop) (st : ffs) : Prop :=
  match ops with
  | [] => True
  | o :: ops' => careful o st /\ careful_run ops' (fst (fs_step cmp o st))
  end.

(** The states that careful histories of less than 2^32 - 1 operations reach. *)
Definition reached (st : ffs) : Prop :=
  exists ops, careful_run ops new_repo /\ (N.of_nat (length ops) < 2 ^ 32 - 1)%N /\ fs_run cmp ops new_repo = st.

(** The same files: nothing differs but the parents remembered in memory. *)
Definition same_files (st st' : ffs) : Prop :=
  map (fun p => (fst p, with_parent root_id (snd p))) (nodes st) =
  map (fun p => (fst p, with_parent root_id (snd p))) (nodes st') /\ opened st = opened st'.

(** ** What each operation does *)

(** A change of what one name means. *)
Definition set_name (f : bytes -> bytes -> option (bytes * N)) (d n : bytes) (v : option (bytes * N)) : bytes -> bytes -> option (bytes * N) :=
  fun d' n' => if bytes_eqb d' d && same_name cmp n' n then v else f d' n'.
Definition same_names (f g : bytes -> bytes -> option (bytes * N)) : Prop := forall d n, f d n = g d n.

(** Nothing but directories, counts and parents changes. *)
Definition same_contents (st st' : ffs) : Prop := forall id nd', get st' id = Some nd' ->
  exists nd, get st id = Some nd /\ i_mode nd' = i_mode nd /\ i_data nd' = i_data nd.

(** [x], of type [ty], permissions [perm] and contents [data], appears under a name
    that meant nothing; all else is as before. *)
Definition made (st : ffs) (path x : bytes) (ty perm : N) (data : bytes) (st' : ffs) : Prop :=
  get st x = None /\
  (exists d n, designates st path d n /\ name_in st d n = None /\ same_names (name_in st') (set_name (name_in st) d n (Some (x, ty)))) /\
  (exists nd, get st' x = Some nd /\ i_mode nd = (perm mod 512 + ty * 4096)%N /\ i_dir nd = [] /\ i_data nd = data) /\
  (forall id nd', id <> x -> get st' id = Some nd' -> exists nd, get st id = Some nd /\ i_mode nd' = i_mode nd /\ i_data nd' = i_data nd).

Definition renamed (st : ffs) (from to : bytes) (st' : ffs) : Prop :=
  exists d n d' n' x, designates st from d n /\ designates st to d' n' /\ name_in st d n = Some x /\
  ((exists y, name_in st d' n' = Some y /\ fst y = fst x /\ same_names (name_in st') (name_in st)) \/
   ((forall y, name_in st d' n' = Some y -> fst y = fst x -> d = d' /\ same_name cmp n n' = true) /\
    same_names (name_in st') (set_name (set_name (name_in st) d n None) d' n' (Some x)))).


(** Only the mode and contents of [x] change, by [f]. *)
Definition changed (st : ffs) (x : bytes) (f : N * bytes -> N * bytes) (st' : ffs) : Prop :=
  same_names (name_in st') (name_in st) /\
  forall id nd', get st' id = Some nd' -> exists nd, get st id = Some nd /\
    (i_mode nd', i_data nd') = if bytes_eqb id x then f (i_mode nd, i_data nd) else (i_mode nd, i_data nd).

Definition resized (len : nat) (d : bytes) : bytes := firstn len (d ++ repeat x00 (len - length d)).

(** When an operation may fail, and how. *)
Definition refused (o : fop) (st : ffs) (e : err) : Prop :=
  let lost path follow := fails_at st path follow e \/ (ends_at st path follow None /\ e = (EPosix 2)) in
  let wrong path follow ty := lost path follow \/
    exists x nd, ends_at st path follow (Some x) /\ get st x = Some nd /\ i_type nd <> ty /\ e = (EPosix 1) in
  let handle id ty bad := (~ In id (opened st) /\ e = EUndef) \/ (In id (opened st) /\ exists nd, get st id = Some nd /\ i_type nd <> ty /\ e = bad) in
  match o with
  | FCreate path _ x bad | FMkdir path _ x bad | FSymlink _ path x bad =>
      bad_place st path e \/ bad = Some e \/ (bad = None /\ ((get st x <> None /\ e = (EPosix 17)) \/ taken st path e))
  | FLink src dest => lost src true \/ bad_place st dest e \/ taken st dest e
  | FUnlink path | FRmdir path => no_file st path e
  | FRename from to => no_file st from e \/ base_fails st to e
  | FOpen path false => lost path true
  | FOpen path true | FTruncate path _ => wrong path true TREG
  | FChattr path _ | FGetattr path => lost path false
  | FReadlink path => wrong path false TLINK
  | FOpendir path => lost path true \/ exists x nd, ends_at st path true (Some x) /\ get st x = Some nd /\ i_type nd <> TDIR /\ e = (EPosix 20)
  | FRead id | FWrite id _ => handle id TREG (EPosix 1)
  | FReaddir id => handle id TDIR (EPosix 20)
  | FClose id dir => if dir then handle id TDIR (EPosix 20) else handle id TREG (EPosix 22)
  | FEvict _ => False
  end.

Definition effect (o : fop) (st : ffs) (r : res fout) (st' : ffs) : Prop :=
  match r with
  | Err e => refused o st e /\ same_names (name_in st') (name_in st) /\ same_contents st st' /\ opened st' = opened st
  | Ok out =>
    match o with
    | FCreate path perm x _ => made st path x TREG perm [] st' /\ opened st' = x :: opened st /\ out = FOId x
    | FMkdir path perm x _ => made st path x TDIR perm [] st' /\ opened st' = opened st
    | FSymlink target path x _ => made st path x TLINK 420 target st' /\ opened st' = opened st
    | FLink src dest => same_contents st st' /\ opened st' = opened st /\
        exists x nx d n, ends_at st src true (Some x) /\ get st x = Some nx /\ designates st dest d n /\ name_in st d n = None /\
          same_names (name_in st') (set_name (name_in st) d n (Some (x, i_type nx)))
    | FUnlink path | FRmdir path => same_contents st st' /\ opened st' = opened st /\
        exists d n x, designates st path d n /\ name_in st d n = Some x /\ same_names (name_in st') (set_name (name_in st) d n None)
    | FRename from to => same_contents st st' /\ opened st' = opened st /\ renamed st from to st'
    | FOpen path trunc => exists x, out = FOId x /\ ends_at st path true (Some x) /\ opened st' = x :: opened st /\
        changed st x (fun v => if trunc then (fst v, []) else v) st'
    | FOpendir path => exists x nd, out = FOId x /\ ends_at st path true (Some x) /\ get st x = Some nd /\ i_type nd = TDIR /\
        opened st' = x :: opened st /\ changed st x (fun v => v) st'
    | FRead id => same_files st st' /\ exists nd, get st id = Some nd /\ i_type nd = TREG /\ out = FOBytes (i_data nd)
    | FClose id _ => same_names (name_in st') (name_in st) /\ same_contents st st' /\ opened st' = remove_one id (opened st)
    | FWrite id data => changed st id (fun v => (fst v, data)) st' /\ opened st' = opened st
    | FTruncate path len => opened st' = opened st /\
        exists x, ends_at st path true (Some x) /\ changed st x (fun v => (fst v, resized len (snd v))) st'
    | FChattr path c => opened st' = opened st /\
        exists x, ends_at st path false (Some x) /\ changed st x (fun v => (match c with ChMode perm => (fst v / 512 * 512 + perm mod 512)%N | _ => fst v end, snd v)) st'
    | FGetattr path => same_files st st' /\ exists x nd, ends_at st path false (Some x) /\ get st x = Some nd /\
        out = FOStat x (i_mode nd) (N.of_nat (refs st x + root_bonus x)) (N.of_nat (length (i_data nd)))
    | FReadlink path => same_files st st' /\ exists x nd, ends_at st path false (Some x) /\ get st x = Some nd /\ i_type nd = TLINK /\ out = FOBytes (i_data nd)
    | FReaddir id => same_files st st' /\ exists nd l, get st id = Some nd /\ i_type nd = TDIR /\ out = FOList l /\
        (forall n x ty, In (n, x, ty) l -> name_in st id n = Some (x, ty)) /\
        (forall n x ty, name_in st id n = Some (x, ty) -> exists n', same_name cmp n n' = true /\ In (n', x, ty) l)
    | FEvict id => same_files st st'
    end
  end.

(** The calls the kernel makes: reads and writes go through handles it holds. *)
Definition well_called (o : fop) (st : ffs) : Prop :=
  match o with
  | FRead id | FWrite id _ | FReaddir id | FClose id _ => In id (opened st)
  | FCreate _ _ _ bad | FMkdir _ _ _ bad | FSymlink _ _ _ bad => bad <> Some EUndef
  | _ => True
  end.
End Names.
