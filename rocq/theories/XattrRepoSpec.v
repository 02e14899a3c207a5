(** What extended attributes of the full format should be: every file of the map of
    [FullFsModel], whatever its type, has a set of named values.  It begins empty when
    the file is made and goes with the file. *)
From Verif Require Import Base LiteModel NameModel BtreeModel FullFsModel FullFsSpec FullStreamModel ObjModel RepoModel RepoSpec XattrModel XattrSpec XattrRepoModel.

Record prx : Type := mkPrx { prx_fs : ffs; prx_attrs : bytes -> hx }.
Definition prx_new : prx := mkPrx new_repo (fun _ => []).
Definition while_stored (st : ffs) (f : bytes -> hx) : bytes -> hx :=
  fun id => match get st id with Some _ => f id | None => [] end.

Section Plain.
Variable cmp : bytes -> bytes -> comparison.
(** The file that a stat of the path would be about. *)
Definition file_at (path : bytes) (st : ffs) : res bytes :=
  match snd (fs_step cmp (FGetattr path) st) with
  | Ok (FOStat id _ _ _) => Ok id
  | Ok _ => Err EUndef
  | Err e => Err e
  end.
Definition prx_step (s : prx) (c : rxcall) : prx * rxout :=
  match c with
  | RxDo o =>
    let st := fs_run cmp (as_fops o (prx_fs s)) (prx_fs s) in
    (mkPrx st (while_stored st (prx_attrs s)), RxRes (plain_answer cmp o (prx_fs s)))
  | RxOn path o =>
    let st := fst (fs_step cmp (FGetattr path) (prx_fs s)) in
    match file_at path (prx_fs s) with
    | Ok id =>
      (mkPrx st (while_stored st (fun x => if bytes_eqb x id then fst (plain_xstep o (prx_attrs s id)) else prx_attrs s x)),
       RxAns (snd (plain_xstep o (prx_attrs s id))))
    | Err e => (mkPrx st (while_stored st (prx_attrs s)), RxAns (Err e))
    end
  end.
Fixpoint prx_answers (cs : list rxcall) (s : prx) : list rxout :=
  match cs with [] => [] | c :: cs' => snd (prx_step s c) :: prx_answers cs' (fst (prx_step s c)) end.
End Plain.

(** What an attribute call needs of names and directories is what stat needs. *)
Definition as_rop (c : rxcall) : rop := match c with RxDo o => o | RxOn path _ => OCall (FGetattr path) end.
Definition attrs_fit (c : rxcall) : Prop := match c with RxDo _ => True | RxOn _ o => full_fits o [] end.

Definition same_out (r r' : rxout) : Prop :=
  match r, r' with
  | RxRes a, RxRes b => same_answer a b
  | RxAns a, RxAns b => seen a = seen b
  | _, _ => False
  end.
