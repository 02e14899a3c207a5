(** What extended attributes should be: every file of the file system of [LiteFsSpec]
    has a set of named values, which belongs to the file and not to its name.
    Nothing here knows of encryption. *)
From Verif Require Import Base StreamSpec HandleModel LongNameModel LongNameSpec LiteTreeSpec LiteFsModel LiteFsSpec NameModel
  XattrModel XattrSpec XattrFsModel.
(** Error numbers, as on Linux: 2 is ENOENT. *)

Record pxs : Type := mkPx { px_fs : pfs; px_attrs : nat -> hx }.
Definition px_empty : pxs := mkPx pf_empty (fun _ => []).

Definition px_on (s : pxs) (path : bytes) (o : xop) : pxs * res (nat * bytes) :=
  match at_path (px_fs s) path with
  | Some (NReg i) =>
    (mkPx (px_fs s) (fun j => if j =? i then fst (plain_xstep o (px_attrs s i)) else px_attrs s j), snd (plain_xstep o (px_attrs s i)))
  | None => (s, Err (EPosix 2))
  | _ => (s, Err EUndef)
  end.
Definition px_step (s : pxs) (c : xcall) : pxs * xout :=
  match c with
  | XCall op => (mkPx (fst (p_step (px_fs s) op)) (px_attrs s), XRes (snd (p_step (px_fs s) op)))
  | XOn path o => (fst (px_on s path o), XAns (seen (snd (px_on s path o))))
  end.

(** What is compared: the return value and as many bytes of the buffer as it says. *)
Definition as_seen (r : xout) : xout := match r with XRes v => XRes v | XAns a => XAns (seen a) end.

(** The attribute calls that the claim is about: on files, with a value that is not
    empty and a buffer that is null or not larger than the value ([lite_fits]). *)
Definition on_proper (xiv_size : nat) (s : pxs) (path : bytes) (o : xop) : Prop :=
  match at_path (px_fs s) path with
  | Some (NReg i) => lite_fits xiv_size o (px_attrs s i)
  | None => lite_fits xiv_size o []
  | _ => False
  end.

Section Histories.
Variable limit link_max : nat.
Variable old : bool.
Variable xiv_size : nat.

(** The histories, with the refusals that [history] allows. *)
Inductive x_history : list xcall -> pxs -> list xout -> pxs -> Prop :=
| xh_nil s : x_history [] s [] s
| xh_call op cs s r f outs s' :
    history link_max [op] (px_fs s) [r] f -> x_history cs (mkPx f (px_attrs s)) outs s' ->
    x_history (XCall op :: cs) s (XRes r :: outs) s'
| xh_on path o cs s outs s' :
    x_history cs (fst (px_on s path o)) outs s' ->
    x_history (XOn path o :: cs) s (XAns (seen (snd (px_on s path o))) :: outs) s'.

Fixpoint x_all_proper (cs : list xcall) (s : pxs) : Prop :=
  match cs with
  | [] => True
  | XCall op :: cs' => proper limit link_max old (px_fs s) op /\
      forall outs f, history link_max [op] (px_fs s) outs f -> x_all_proper cs' (mkPx f (px_attrs s))
  | XOn path o :: cs' => on_proper xiv_size s path o /\ x_all_proper cs' (fst (px_on s path o))
  end.
(** Without refusals. *)
Fixpoint x_run_proper (cs : list xcall) (s : pxs) : Prop :=
  match cs with
  | [] => True
  | c :: cs' =>
    match c with
    | XCall op => proper limit link_max old (px_fs s) op
    | XOn path o => on_proper xiv_size s path o
    end /\ x_run_proper cs' (fst (px_step s c))
  end.
End Histories.

(** The calls as FUSE sends them, and the names in them. *)
Definition x_from_fuse (c : xcall) : Prop :=
  match c with XCall op => v_from_fuse op | XOn path _ => fuse_path path end.
Definition x_paths (c : xcall) : list bytes := match c with XCall op => vop_paths op | XOn path _ => [path] end.
Definition x_names (cs : list xcall) : list bytes := flat_map split_slash (flat_map x_paths cs).
Definition x_short_links (link_max : nat) (cs : list xcall) : Prop :=
  Forall (fun c => match c with XCall op => short_links link_max [op] | XOn _ _ => True end) cs.
