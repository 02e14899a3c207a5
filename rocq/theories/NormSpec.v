(** When two names are one name, and what that means for paths. *)
From Coq Require Import Strings.String.
From Verif Require Import Base TextModel NameModel BtreeModel BtreeSpec FullFsModel FullFsSpec NormModel LongNameModel LongNameSpec.
Local Open Scope list_scope.

(** ** Full format *)

(** What is assumed of the Unicode library: its caseless comparison orders names by
    some text without case ([fold], a list of code points); ASCII text is its own
    normal form; nothing but the empty name, "." and ".." is one of these apart from
    case and normalisation. *)
Fixpoint lex (a b : list N) : comparison :=
  match a, b with
  | [], [] => Eq
  | [], _ :: _ => Lt
  | _ :: _, [] => Gt
  | x :: a', y :: b' => match N.compare x y with Eq => lex a' b' | c => c end
  end.
Definition ascii (s : bytes) : Prop := Forall (fun c => (b2n c < 128)%N) s.
Record unicode_ok (U : unicode) (fold : bytes -> list N) : Prop := {
  uo_caseless : forall a b, u_caseless U a b = lex (fold a) (fold b);
  uo_ascii : forall a, ascii a -> u_nfd U a = a;
  uo_dots_nfd : forall a, In (u_nfd U a) [[]; str "."; str ".."] -> u_nfd U a = a;
  uo_dots_fold : forall a b, In b [[]; str "."; str ".."] -> fold a = fold b -> a = b }.

(** What is left of a name when what the repository does not distinguish is removed. *)
Definition name_key (U : unicode) (fold : bytes -> list N) (case_insensitive normalization_agnostic : bool) (n : bytes) : list N :=
  let n' := if normalization_agnostic then u_nfd U n else n in
  if case_insensitive then fold n' else map b2n n'.

(** Two names alike, none of them too long; two paths alike, name by name. *)
Definition alike (key : bytes -> list N) (a b : bytes) : Prop := key a = key b /\ length a <= 255 /\ length b <= 255.
Definition paths_alike (key : bytes -> list N) (p q : bytes) : Prop :=
  path_comps p <> [] /\ Forall2 (alike key) (path_comps p) (path_comps q).

(** The operations that make no name, with the path replaced. *)
Inductive respelled (key : bytes -> list N) : fop -> fop -> Prop :=
| rs_open p q t : paths_alike key p q -> respelled key (FOpen p t) (FOpen q t)
| rs_opendir p q : paths_alike key p q -> respelled key (FOpendir p) (FOpendir q)
| rs_unlink p q : paths_alike key p q -> respelled key (FUnlink p) (FUnlink q)
| rs_rmdir p q : paths_alike key p q -> respelled key (FRmdir p) (FRmdir q)
| rs_truncate p q n : paths_alike key p q -> respelled key (FTruncate p n) (FTruncate q n)
| rs_chmod p q m : paths_alike key p q -> respelled key (FChattr p m) (FChattr q m)
| rs_getattr p q : paths_alike key p q -> respelled key (FGetattr p) (FGetattr q)
| rs_readlink p q : paths_alike key p q -> respelled key (FReadlink p) (FReadlink q)
| rs_link p q d : paths_alike key p q -> respelled key (FLink p d) (FLink q d).

(** The names that an operation spells at the end of its paths. *)
Definition spelt (o : fop) : list bytes :=
  let end_of path := last (path_comps path) [] in
  match o with
  | FCreate p _ _ _ | FMkdir p _ _ _ | FSymlink _ p _ _ | FLink _ p => [end_of p]
  | FRename p q => [end_of p; end_of q]
  | _ => []
  end.

(** The operations that make a file [x] of type [ty] at a path. *)
Inductive makes (path x : bytes) : N -> fop -> Prop :=
| mk_file perm bad : makes path x TREG (FCreate path perm x bad)
| mk_dir perm bad : makes path x TDIR (FMkdir path perm x bad)
| mk_link target bad : makes path x TLINK (FSymlink target path x bad).

(** The entries that a directory shows. *)
Definition shows (st : ffs) (d n x : bytes) (ty : N) : Prop :=
  exists nd, get st d = Some nd /\ In (mkEntry n x ty) (i_dir nd).

(** A path in the spelling of the directories: each component is shown, as it stands,
    by the directory reached so far, the last one being [x]. *)
Inductive as_shown (st : ffs) : bytes -> list bytes -> bytes -> Prop :=
| as_nil d : as_shown st d [] d
| as_cons d n y ty names x : shows st d n y ty -> as_shown st y names x -> as_shown st d (n :: names) x.

(** ** Lite format *)

(** The normal form of a path: NFC, then case folding, each if asked for. *)
Definition normal (nfc fold : option (bytes -> res bytes)) (path : bytes) : res bytes :=
  rbind (match nfc with Some f => f path | None => Ok path end) (fun p =>
  match fold with Some f => f p | None => Ok p end).

(** The normal form of a path consists of the normal forms [g] of its names. *)
Definition by_names (nfc fold : option (bytes -> res bytes)) (g : bytes -> bytes) : Prop :=
  forall names, Forall (fun n => n <> [] /\ ~ In slash n) names ->
    normal nfc fold (path_of names) = Ok (path_of (map g names)) /\
    Forall (fun n => n <> [] /\ ~ In slash n) (map g names).

(** The same operation on the normal forms of its paths. *)
Definition normal_path (g : bytes -> bytes) (path : bytes) : bytes :=
  path_of (map g (filter (fun w => negb (bytes_eqb w [])) (split_slash path))).
Definition normal_op (g : bytes -> bytes) (o : lop) : lop :=
  match o with
  | LOpen p a b i x y => LOpen (normal_path g p) a b i x y
  | LMkdir p x => LMkdir (normal_path g p) x
  | LSymlink p i x => LSymlink (normal_path g p) i x
  | LLink p q x => LLink (normal_path g p) (normal_path g q) x
  | LUnlink p x => LUnlink (normal_path g p) x
  | LRmdir p x => LRmdir (normal_path g p) x
  | LRename p q x => LRename (normal_path g p) (normal_path g q) x
  end.
