(** Model of extended attributes in a mounted repository of the full format:
    vlistxattr, vgetxattr, vsetxattr and vremovexattr, sources/full_format.cpp 392-458,
    together with all the other calls of [RepoModel], one call after another.

    The host keeps the attributes with the data file and the meta file of an id, and
    drops them when these are removed.  Left out: calls with a [position] other than 0,
    which give EINVAL (sources/full_format.cpp 413-414 and 432-433), and bits of [flags]
    other than XATTR_CREATE and XATTR_REPLACE, which are ignored (435-437). *)
From Verif Require Import Base LiteModel NameModel AttrModel FullFsModel FullStreamModel ObjModel RepoModel RepoSpec XattrModel.

(** The methods of FuseHighLevelOps, sources/full_format.cpp 37-458, and what else
    happens to a repository ([rop]). *)
Inductive rxcall : Type := RxDo (o : rop) | RxOn (path : bytes) (o : xop).
(** Helper (no code): what a call gives to FUSE. *)
Inductive rxout : Type := RxRes (r : res fout) | RxAns (r : res (nat * bytes)).

Section XattrRepo.
Variable E : senv.
(* m_xattr_name_cryptor and the key of m_xattr_enc and m_xattr_dec come from the key
   of the repository and the id of the file (sources/files.cpp 136-169) *)
Variable xcmac : bytes -> bytes -> bytes.
Variable xks : bytes -> bytes -> nat -> bytes.
Variable b64 : bytes -> bytes.
Variable unb64 : bytes -> option bytes.
Variable XA : aead.
Variable xkey : bytes -> bytes.
Variable check : bool.
Variable before : bytes -> fx.     (* what the host and others put on the two files of an id *)

(** Environment: the repository, and the attributes of the two files of each id. *)
Record rxst : Type := mkRx { rx_repo : repo; rx_attrs : bytes -> fx }.

(** Environment: attributes vanish with the file that carries them
    (FileTable::close_internal, sources/file_table_v2.cpp 181-195, unlinks both). *)
Definition rx_settle (rp : repo) (f : bytes -> fx) : bytes -> fx :=
  fun id => match rget id (rp_files rp) with Some _ => f id | None => before id end.

(** open_all(path), then one use of the file under its lock, then the reference is given
    up (sources/full_format.cpp 394-404, 415-421, 438-445 and 449-456).  The use is taken
    after the reference is given up; nothing else is going on. *)
Definition r_find (path : bytes) : rprog (res fout) :=
  r_path E path false (fun h _ o => (o, Ok (FOBytes (fst h)))).
(** The four methods, sources/full_format.cpp 392-458. *)
Definition rx_on (s : rxst) (path : bytes) (o : xop) : rxst * res (nat * bytes) :=
  match r_alone (r_find path) (rx_repo s) with
  | (rp, Ok (FOBytes id)) =>
    let '(a, r) := full_xstep (xcmac id) (xks id) b64 unb64 XA (xkey id) id check o (rx_attrs s id) in
    (mkRx rp (rx_settle rp (fun x => if bytes_eqb x id then a else rx_attrs s x)), r)
  | (rp, Ok _) => (mkRx rp (rx_settle rp (rx_attrs s)), Err EUndef)
  | (rp, Err e) => (mkRx rp (rx_settle rp (rx_attrs s)), Err e)
  end.
(** The methods of FuseHighLevelOps, sources/full_format.cpp 37-458. *)
Definition rx_step (s : rxst) (c : rxcall) : rxst * rxout :=
  match c with
  | RxDo o => let '(rp, r) := r_apply E o (rx_repo s) in (mkRx rp (rx_settle rp (rx_attrs s)), RxRes r)
  | RxOn path o => let '(s', r) := rx_on s path o in (s', RxAns r)
  end.
End XattrRepo.
