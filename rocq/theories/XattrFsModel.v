(** Model of extended attributes in a mounted lite repository: vlistxattr, vgetxattr,
    vsetxattr and vremovexattr, sources/lite_format.cpp 1071-1152, together with all the
    other calls of [LiteFsModel].

    The host keeps the attributes of a file with its inode.  Left out: attributes of
    directories and symbolic links, and calls with a [position] other than 0, which
    give EINVAL (sources/lite_format.cpp 1091-1094 and 1129-1132). *)
From Verif Require Import Base StreamSpec BlockModel LiteModel NameModel HandleModel LongNameModel LiteFsModel XattrModel.

(** The methods of FuseHighLevelOps, sources/lite_format.cpp 766-1186. *)
Inductive xcall : Type := XCall (op : vop) | XOn (path : bytes) (o : xop).
(** Helper (no code): what a call gives to FUSE. *)
Inductive xout : Type := XRes (r : vout) | XAns (r : res (nat * bytes)).

Section XattrFs.
Variable A : aead.
Variable bs iv_size : nat.
Variable check sparse : bool.
Variable session_key : bytes -> bytes.
Variable padding_of : bytes -> nat.
Variable padded : bool.
Variable rnd : nat -> nat -> bytes.
Variable iv_fuel : nat.
Variable trans : translator.
Variable link_max : nat.
(* xattr_name_cryptor_ and xattr_ (sources/lite_format.h 274-275) *)
Variable xcmac : bytes -> bytes.
Variable xks : bytes -> nat -> bytes.
Variable b64 : bytes -> bytes.
Variable unb64 : bytes -> option bytes.
Variable XA : aead.
Variable xkey : bytes.
Variable xiv_size : nat.
Variable verify : bool.

(** Environment: the host's files, and the attributes of each inode. *)
Record xst : Type := mkXst { xs_fs : lst; xs_attrs : nat -> hx }.

(** Environment: the host changes the attributes of one inode. *)
Definition put_attrs (f : nat -> hx) (i : nat) (a : hx) : nat -> hx := fun j => if j =? i then a else f j.

(** An attribute call finds its file as the others do: root_->getxattr etc. on the
    result of encrypt_full_path (sources/lite_format.cpp 1073, 1099, 1109, 1142 and
    1151).  An empty value is not set, and nothing is looked up for it
    (1133-1136). *)
Definition x_on (s : xst) (path : bytes) (o : xop) : xst * res (nat * bytes) :=
  match o with
  | XSet _ [] _ _ _ _ => (s, Ok (0, []))
  | _ =>
    match locate trans (ls_tree (xs_fs s)) path with
    | Err e => (s, Err e)
    | Ok k =>
      match node_of k with
      | NReg i =>
        let '(a, r) := lite_xstep xcmac xks b64 unb64 XA xkey xiv_size verify o (xs_attrs s i) in
        (mkXst (xs_fs s) (put_attrs (xs_attrs s) i a), r)
      | _ => (s, Err EUndef)
      end
    end
  end.
(** The methods of FuseHighLevelOps, sources/lite_format.cpp 766-1186. *)
Definition x_step (s : xst) (c : xcall) : xst * xout :=
  match c with
  | XCall op =>
    let '(f, r) := v_step A bs iv_size check sparse session_key padding_of padded rnd iv_fuel trans link_max (xs_fs s) op in
    (mkXst f (xs_attrs s), XRes r)
  | XOn path o => let '(s', r) := x_on s path o in (s', XAns r)
  end.
End XattrFs.
