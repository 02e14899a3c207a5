(** What the owner of a repository relies on over the years. *)
From Coq Require Import Strings.String ZArith.
From Verif Require Import Base TextModel NameModel StreamSpec TableIoModel ProtoModel ParamsModel ParamsSpec MountModel MountSpec
  HandleModel LongNameModel LiteFsModel LiteFsSpec FullFsModel FullFsSpec ObjModel RepoModel RepoSpec LifeModel.
Local Open Scope nat_scope.
Local Open Scope list_scope.

Section Lived.
Variable C : pcrypto.
Variables Op Ans P : Type.
(** One session with a plain file system: from its state, by these calls, with these
    answers, to the next state; and the sessions that are spoken of. *)
Variable session : P -> list Op -> list Ans -> P -> Prop.
Variable proper : P -> list Op -> Prop.

(** Nothing is in the way of a change of the password: the host does what it is asked for,
    and argon2 can be computed. *)
Definition nothing_in_the_way (w : weather) (a : argon_params) (new : secrets) (salt : bytes) : Prop :=
  w_create w = None /\ w_write w = None /\ w_rename w = None /\ exists k, gives_key C salt a (fst new) (snd new) k.

(** [lived s p xs rs]: with the secrets [s] in force and the files [p], the commands [xs]
    show [rs].  Whoever has the secrets in force is served by the plain file system, as
    long as they use it properly; whoever has not gets an error and changes nothing.  The
    secrets in force are those of the creation until somebody who has them changes them,
    which works unless something is in the way; a change that is killed takes place or
    does not. *)
Fixpoint lived (s : secrets) (p : P) (xs : list (command Op)) (rs : list (seen Ans)) {struct xs} : Prop :=
  match xs, rs with
  | [], [] => True
  | CMount _ who c ops :: xs', r :: rs' =>
    (who = s -> proper p ops -> exists outs p', r = SServed Ans (Ok outs) /\ session p ops outs p' /\ lived s p' xs' rs') /\
    (who <> s -> (exists e, r = SServed Ans (Err e)) /\ lived s p xs' rs')
  | CChpass _ w suffix old a new iv salt None :: xs', r :: rs' =>
    (old = s -> nothing_in_the_way w a new salt -> r = SDone Ans (Ok tt)) /\
    ((old = s /\ r = SDone Ans (Ok tt) /\ lived new p xs' rs') \/ ((exists e, r = SDone Ans (Err e)) /\ lived s p xs' rs'))
  | CChpass _ w suffix old a new iv salt (Some n) :: xs', r :: rs' =>
    r = SKilled Ans /\ (lived s p xs' rs' \/ (old = s /\ lived new p xs' rs'))
  | _, _ => False
  end.
End Lived.

(** ** The commands spoken of *)
(** Options that every session may choose: all but --insecure (C59), --plain-text-names
    and --normalization, which are about what is stored (C68), and --noflock for a mount in
    the background (C58). *)
Definition usual (env : environment) (dec : Z -> bytes) (c : cmdline) : Prop :=
  cl_insecure c = false /\ cl_plain c = false /\ cl_normalization c = str "none" /\
  (cl_use_ino c = str "true" \/ cl_use_ino c = str "false" \/ (cl_use_ino c = str "auto" /\ exists t, v_fstype env = Ok t)) /\
  (cl_background c = true -> cl_noflock c = false /\ plain_cmdline c).
Definition command_ok {Op} (env : environment) (dec : Z -> bytes) (x : command Op) : Prop :=
  match x with
  | CChpass _ _ suffix _ a _ iv _ _ => length suffix = 16 /\ argon_range a /\ length iv = 12
  | CMount _ _ c _ => usual env dec c
  end.
(** The random suffixes of temporary files. *)
Definition suffixes {Op} (xs : list (command Op)) : list bytes :=
  flat_map (fun x => match x with CChpass _ _ suffix _ _ _ _ _ _ => [suffix] | CMount _ _ _ _ => [] end) xs.
Definition used_secrets {Op} (xs : list (command Op)) : list secrets :=
  flat_map (fun x => match x with CChpass _ _ _ old _ new _ _ _ => [old; new] | CMount _ who _ _ => [who] end) xs.
(** None of the secrets in play opens what was sealed with another (see C38 for what
    happens otherwise). *)
Definition no_accident (C : pcrypto) (json : bytes -> option legacy_params) (d : dec_params) (used : list secrets) : Prop :=
  forall s s' a iv salt e d', In s used -> In s' used -> argon_range a -> length iv = 12 ->
    encrypt_params C d a (fst s) (snd s) iv salt = Ok e -> decrypt_config C json (ser_enc e) (fst s') (snd s') = Ok d' -> s' = s.

(** ** The plain file systems *)
(** Lite format: LiteFsSpec.  At the end of a session everything is closed. *)
Definition lite_session (link_max : nat) (p : pfs) (ops : list vop) (outs : list vout) (p' : pfs) : Prop :=
  exists p1, history link_max ops p outs p1 /\ p' = fst (p_step p1 LiteFsModel.VRemount).
Definition lite_session_exact (p : pfs) (ops : list vop) (outs : list vout) (p' : pfs) : Prop :=
  outs = snd (run_ops p_step p ops) /\ p' = fst (p_step (fst (run_ops p_step p ops)) LiteFsModel.VRemount).
(** Full format: RepoSpec.  The state is the history of calls so far, with which the map
    from ids to inodes is what FullFsModel says; what the kernel sees to is what C72
    speaks of. *)
Definition full_session (cmp : bytes -> bytes -> comparison) (p : list fop) (ops : list rop) (outs : list (res fout)) (p' : list fop) : Prop :=
  let st := fs_run cmp p new_repo in
  Forall2 same_answer outs (RepoSpec.plain_answers cmp ops st) /\ p' = p ++ plain_ops cmp (ops ++ [ORemount]) st.
Definition full_proper (E : senv) (cmp : bytes -> bytes -> comparison) (p : list fop) (ops : list rop) : Prop :=
  let st := fs_run cmp p new_repo in
  may_run E (ops ++ [ORemount]) st /\ careful_run cmp (plain_ops cmp (ops ++ [ORemount]) st) st /\
  (N.of_nat (length (p ++ plain_ops cmp (ops ++ [ORemount]) st)) < 2 ^ 32 - 1)%N.

(** The calls of a session spoken of: as FUSE sends them, with the names [names], each
    proper in its state (LiteFsSpec). *)
Definition lite_proper (block link_max : nat) (threshold : N) (names : list bytes) (p : pfs) (ops : list vop) : Prop :=
  Forall v_from_fuse ops /\ incl (v_names ops) names /\ all_proper (LiteModel.lite_max_blocks * block) link_max (N.to_nat threshold =? 0) ops p.
Definition lite_proper_exact (block link_max : nat) (threshold : N) (names : list bytes) (p : pfs) (ops : list vop) : Prop :=
  Forall v_from_fuse ops /\ incl (v_names ops) names /\ short_links link_max ops /\ run_proper (LiteModel.lite_max_blocks * block) link_max (N.to_nat threshold =? 0) p ops.
(** How names are compared follows from two options of the creation. *)
Definition compare_of (nocase nonorm : bool) : comparison_kind :=
  match nocase, nonorm with true, true => CmpCaseNorm | true, false => CmpCase | false, true => CmpNorm | false, false => CmpBinary end.
(** A full file system with the options it was created with. *)
Definition full_of (o : create_options) (master : bytes) (nocase nonorm : bool) : full_fs :=
  mkFullFs master true (o_block_size o) (o_iv_size o) (o_max_padding o) false
    (compare_of nocase nonorm)
    false false None None nocase true.
