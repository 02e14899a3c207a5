(** When the effects of overlapping calls on names happen. *)
From Coq Require Import Strings.String.
From Verif Require Import Base TextModel NameModel BtreeModel BtreeSpec FullFsModel FullFsSpec FsConcModel FsConcSpec.
(** Error numbers, as on Linux: 1 is EPERM, 2 is ENOENT, 17 is EEXIST, 36 is ENAMETOOLONG, 39 is ENOTEMPTY. *)
Local Open Scope list_scope.

(** The state before the next event of a history. *)
Definition now (l : list (event * world)) : ffs := match l with (_, w) :: _ => files w | [] => new_repo end.

(** The steps of the call that thread [i] is in: the states before and after each,
    oldest first. *)
Fixpoint own_steps (i : nat) (l : list (event * world)) : list (ffs * ffs) :=
  match l with
  | [] => []
  | (ev, w) :: l' =>
    match ev with
    | ECall j _ | ERet j _ _ => if Nat.eqb j i then [] else own_steps i l'
    | EStep j => if Nat.eqb j i then own_steps i l' ++ [(now l', files w)] else own_steps i l'
    | _ => own_steps i l'
    end
  end.

Section Moments.
Variable cmp : bytes -> bytes -> comparison.

(** Every file keeps its mode and contents; one may go if it has no links. *)
Definition kept (s : ffs * ffs) : Prop := forall id nd, get (fst s) id = Some nd ->
  (exists nd', get (snd s) id = Some nd' /\ i_mode nd' = i_mode nd /\ i_data nd' = i_data nd) \/
  (get (snd s) id = None /\ i_nlink nd = 0%N).
(** A step that changes no name and no file. *)
Definition calm (s : ffs * ffs) : Prop := kept s /\
  forall d n, (get (fst s) d <> None -> get (snd s) d <> None) -> name_in cmp (snd s) d n = name_in cmp (fst s) d n.

(** Walking the components [p] from the directory [d] while the files change: every
    component is looked up at a later moment of [ms] than the one before.  [None]: one
    was missing when it was looked up, or its file was gone when it was opened.  What is
    above a directory is what its object remembers. *)
Inductive walks : nat -> list ffs -> bytes -> list bytes -> option bytes -> Prop :=
| M_done k ms d : walks k ms d [] (Some d)
| M_dot k ms d p r : walks k ms d p r -> walks k ms d (str "." :: p) r
| M_up k ms1 m ms2 d nd p r : get m d = Some nd -> walks k ms2 (i_parent nd) p r ->
    walks k (ms1 ++ m :: ms2) d (str ".." :: p) r
| M_up_gone k ms1 m ms2 m' ms3 d nd p : get m d = Some nd -> get m' (i_parent nd) = None ->
    walks k (ms1 ++ m :: ms2 ++ m' :: ms3) d (str ".." :: p) None
| M_missing k ms1 m ms2 d n p : is_dir m d -> name_in cmp m d n = None ->
    walks k (ms1 ++ m :: ms2) d (n :: p) None
| M_gone k ms1 m ms2 m' ms3 d n p x : name_in cmp m d n = Some x -> get m' (fst x) = None ->
    walks k (ms1 ++ m :: ms2 ++ m' :: ms3) d (n :: p) None
| M_name k ms1 m ms2 d n p r x ty : name_in cmp m d n = Some (x, ty) -> ty <> TLINK -> walks k ms2 x p r ->
    walks k (ms1 ++ m :: ms2) d (n :: p) r
| M_link_missing k ms1 m ms2 m' ms3 d n p x ln : name_in cmp m d n = Some (x, TLINK) -> get m' x = Some ln ->
    walks k ms3 d (path_comps (i_data ln)) None ->
    walks (S k) (ms1 ++ m :: ms2 ++ m' :: ms3) d (n :: p) None
| M_link k ms1 m ms2 m' ms3 ms4 d n p r x ln d1 : name_in cmp m d n = Some (x, TLINK) -> get m' x = Some ln ->
    walks k ms3 d (path_comps (i_data ln)) (Some d1) -> walks (S k) ms4 d1 p r ->
    walks (S k) (ms1 ++ m :: ms2 ++ m' :: ms3 ++ ms4) d (n :: p) r.

(** Within [ms] the directory of a path is found to be [d], and [n] is its last name;
    it is not found. *)
Definition base_over (ms : list ffs) (path d n : bytes) : Prop :=
  (path_comps path = [] /\ d = root_id /\ n = []) \/
  (path_comps path <> [] /\ n = last (path_comps path) [] /\ walks 15 ms root_id (removelast (path_comps path)) (Some d)).
Definition base_missing (ms : list ffs) (path : bytes) : Prop :=
  walks 15 ms root_id (removelast (path_comps path)) None.

(** The last name of a path, looked up at one moment. *)
Definition last_over (ms : list ffs) (path d : bytes) (v : option (bytes * N)) (later : list ffs) : Prop :=
  exists ms1 m n, ms = ms1 ++ m :: later /\ base_over ms1 path d n /\ is_dir m d /\ name_in cmp m d n = v.

(** Within [ms] the whole path is found to be the file [x]; it is not found. *)
Definition file_over (ms : list ffs) (path : bytes) (follow : bool) (x : bytes) : Prop :=
  if bytes_eqb path [] || bytes_eqb path (str "/") then x = root_id else
  exists d y ty ms2, last_over ms path d (Some (y, ty)) ms2 /\
  if follow && (ty =? TLINK)%N then
    exists ms3 m' ms4 ln, ms2 = ms3 ++ m' :: ms4 /\ get m' y = Some ln /\ walks 15 ms4 d (path_comps (i_data ln)) (Some x)
  else x = y.
Definition file_missing (ms : list ffs) (path : bytes) (follow : bool) : Prop :=
  path <> [] /\ path <> str "/" /\
  (base_missing ms path \/ exists d ms2,
   last_over ms path d None ms2 \/
   exists y ty ms3 m' ms4, last_over ms path d (Some (y, ty)) ms2 /\ ms2 = ms3 ++ m' :: ms4 /\
     (get m' y = None \/
      follow = true /\ ty = TLINK /\ exists ln, get m' y = Some ln /\ walks 15 ms4 d (path_comps (i_data ln)) None)).

(** ** What a call does, by its own steps *)
Definition before : list (ffs * ffs) -> list ffs := map fst.

(** One step puts [x] under a name that meant nothing; the others change nothing. *)
Definition makes (path x : bytes) (ty : N) (ms : list (ffs * ffs)) : Prop :=
  exists ms1 s ms2 d n, ms = ms1 ++ s :: ms2 /\ Forall calm ms1 /\ Forall calm ms2 /\ base_over (before ms1) path d n /\
  kept s /\ name_in cmp (fst s) d n = None /\ same_names (name_in cmp (snd s)) (set_name cmp (name_in cmp (fst s)) d n (Some (x, ty))).
(** One step makes a file, with one link and nothing in it. *)
Definition new_file (x : bytes) (ty perm : N) (ms : list (ffs * ffs)) : Prop :=
  exists s nd, In s ms /\ get (fst s) x = None /\ get (snd s) x = Some nd /\
  i_mode nd = (perm mod 512 + ty * 4096)%N /\ i_nlink nd = 1%N /\ i_dir nd = [] /\ i_data nd = [].
(** One step takes a name away, and the others change nothing: [x] is what it meant. *)
Definition takes (path : bytes) (x : bytes * N) (ms later : list (ffs * ffs)) : Prop :=
  exists ms1 s d n, ms = ms1 ++ s :: later /\ Forall calm ms1 /\ Forall calm later /\ base_over (before ms1) path d n /\
  kept s /\ name_in cmp (fst s) d n = Some x /\ same_names (name_in cmp (snd s)) (set_name cmp (name_in cmp (fst s)) d n None).
(** One step moves a name, unless both mean one file. *)
Definition moves (from to : bytes) (ms : list (ffs * ffs)) : Prop :=
  exists ms0 ms1 s ms2 d n d' n' x, ms = ms0 ++ ms1 ++ s :: ms2 /\ Forall calm (ms0 ++ ms1) /\ Forall calm ms2 /\
  base_over (before ms0) from d n /\ base_over (before ms1) to d' n' /\ kept s /\ name_in cmp (fst s) d n = Some x /\
  ((exists y, name_in cmp (fst s) d' n' = Some y /\ fst y = fst x /\ same_names (name_in cmp (snd s)) (name_in cmp (fst s))) \/
   ((forall y, name_in cmp (fst s) d' n' = Some y -> fst y = fst x -> d = d' /\ same_name cmp n n' = true) /\
    same_names (name_in cmp (snd s)) (set_name cmp (set_name cmp (name_in cmp (fst s)) d n None) d' n' (Some x)))).
(** One step uses the file of a path. *)
Definition uses (path : bytes) (follow : bool) (P : bytes -> ffs -> ffs -> Prop) (ms : list (ffs * ffs)) : Prop :=
  exists ms1 s ms2 x, ms = ms1 ++ s :: ms2 /\ Forall calm ms1 /\ Forall calm ms2 /\
  file_over (before ms1) path follow x /\ P x (fst s) (snd s).

(** Failures after a name has been taken away. *)
Definition loses (o : fop) (e : err) : Prop :=
  match o with
  | FRmdir _ => e = (EPosix 1) \/ e = (EPosix 39)
  | FRename _ _ => e = (EPosix 1) \/ e = (EPosix 36)
  | _ => False
  end.
Definition source (o : fop) : bytes := match o with FRmdir path => path | FRename from _ => from | _ => [] end.

(** What "no such file" means: the calls that report it found a name missing. *)
Definition nothing_there (o : fop) (ms : list ffs) : Prop :=
  let no_name path := base_missing ms path \/ exists d later, last_over ms path d None later in
  match o with
  | FCreate path _ _ bad | FMkdir path _ _ bad | FSymlink _ path _ bad => base_missing ms path \/ bad = Some (EPosix 2)
  | FLink src dest => file_missing ms src true \/ exists ms1 ms2, ms = ms1 ++ ms2 /\ base_missing ms2 dest
  | FUnlink path | FRmdir path => no_name path
  | FRename from to => no_name from \/ exists ms1 ms2, ms = ms1 ++ ms2 /\ base_missing ms2 to
  | FOpen path _ | FOpendir path | FTruncate path _ => file_missing ms path true
  | FChattr path _ | FGetattr path | FReadlink path => file_missing ms path false
  | _ => False
  end.
(** What "file exists" means. *)
Definition in_the_way (o : fop) (ms : list ffs) : Prop :=
  let name path := exists d x ms1 ms2 later, ms = ms1 ++ ms2 /\ last_over ms2 path d (Some x) later in
  match o with
  | FCreate path _ x bad | FMkdir path _ x bad | FSymlink _ path x bad =>
      name path \/ bad = Some (EPosix 17) \/ exists m, In m ms /\ get m x <> None
  | FLink _ dest => name dest
  | _ => False
  end.

(** [happened o r ms]: the call [o] that answered [r] did, in its steps [ms], what it
    should, each effect in one step. *)
Definition happened (o : fop) (r : res fout) (ms : list (ffs * ffs)) : Prop :=
  match r with
  | Err e =>
    (Forall calm ms \/ (loses o e /\ exists x later, takes (source o) x ms later)) /\
    (e = (EPosix 2) -> nothing_there o (before ms)) /\ (e = (EPosix 17) -> in_the_way o (before ms))
  | Ok out =>
    match o with
    | FCreate path perm x _ => out = FOId x /\ new_file x TREG perm ms /\ makes path x TREG ms
    | FMkdir path perm x _ => new_file x TDIR perm ms /\ makes path x TDIR ms
    | FSymlink target path x _ => exists ms1 s ms2, ms = ms1 ++ s :: ms2 /\ new_file x TLINK 420 ms1 /\ makes path x TLINK ms1 /\
        changed cmp (fst s) x (fun v => (fst v, arr_write (snd v) 0 target)) (snd s) /\ Forall calm ms2
    | FLink src dest => exists ms0 ms1 x ty, ms = ms0 ++ ms1 /\ Forall calm ms0 /\ file_over (before ms0) src true x /\ makes dest x ty ms1 /\
        exists s nd, In s ms1 /\ get (fst s) x = Some nd /\ i_type nd = ty
    | FUnlink path => exists x later, takes path x ms later
    | FRmdir path => exists x later s nd, takes path x ms later /\ In s later /\
        get (fst s) (fst x) = Some nd /\ i_type nd = TDIR /\ i_dir nd = []
    | FRename from to => moves from to ms
    | FOpen path true => uses path true (fun x b a => out = FOId x /\ changed cmp b x (fun v => (fst v, [])) a) ms
    | FOpen path false | FOpendir path => exists x, out = FOId x /\ Forall calm ms /\ file_over (before ms) path true x
    | FTruncate path len => uses path true (fun x b a => changed cmp b x (fun v => (fst v, resized len (snd v))) a) ms
    | FChattr path c => uses path false (fun x b a => changed cmp b x (fun v => (match c with ChMode perm => (fst v / 512 * 512 + perm mod 512)%N | _ => fst v end, snd v)) a) ms
    | FGetattr path => Forall calm ms /\ uses path false (fun x b _ => exists nd, get b x = Some nd /\
        out = FOStat x (i_mode nd) (i_nlink nd) (N.of_nat (length (i_data nd)))) ms
    | FReadlink path => Forall calm ms /\ uses path false (fun x b _ => exists nd, get b x = Some nd /\ i_type nd = TLINK /\ out = FOBytes (i_data nd)) ms
    | FClose _ _ => Forall calm ms
    | _ => True
    end
  end.
End Moments.
