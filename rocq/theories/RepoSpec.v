(** What the kernel sees of a mounted repository, against the map from ids to inodes of
    FullFsModel. *)
From Coq Require Import Strings.String Permutation.
From Verif Require Import Base TextModel NameModel BtreeModel BtreeInsert FullFsModel FullFsSpec FullStreamModel ObjModel RepoModel FsConcModel.
Local Open Scope list_scope.

(** Answers agree, but for the size of a directory, which nothing else defines, and the
    order in which a directory is listed. *)
Definition same_answer (r r' : res fout) : Prop :=
  match r, r' with
  | Ok (FOStat id m n s), Ok (FOStat id' m' n' s') => id = id' /\ m = m' /\ n = n' /\ ((m / 4096)%N <> TDIR -> s = s')
  | Ok (FOList l), Ok (FOList l') => Permutation l l'
  | _, _ => r = r'
  end.

(** No file is about to become longer than the format can store. *)
Definition length_ok (E : senv) (n : N) : Prop := forall id, (n + N.of_nat (v_pad E id) <= full_max_blocks_N * N.of_nat (v_bs E))%N.
Definition no_nul (p : bytes) : Prop := ~ In x00 p.
(** What the kernel and the operating system see to: paths are C strings, new ids have
    32 bytes, numbers have the size of their types. *)
Definition ts_fits (t : AttrModel.timespec) : Prop :=
  (- 2 ^ 63 <= AttrModel.tv_sec t < 2 ^ 63)%Z /\ (AttrModel.tv_nsec t < 2 ^ 32)%N.
Definition chattr_fits (c : chattr) : Prop :=
  match c with
  | ChMode _ => True
  | ChOwner uid gid => (uid < 2 ^ 32)%N /\ (gid < 2 ^ 32)%N
  | ChTimes ts unset => ts_fits unset /\ match ts with Some (t0, t1) => ts_fits t0 /\ ts_fits t1 | None => True end
  end.
Definition call_fits (E : senv) (o : fop) : Prop :=
  match o with
  | FCreate path _ x _ | FMkdir path _ x _ => no_nul path /\ length x = 32
  | FSymlink t path x _ => no_nul path /\ length x = 32 /\ length_ok E (N.of_nat (length t))
  | FLink _ dest => no_nul dest
  | FRename from to => no_nul from /\ no_nul to
  | FTruncate _ len => length_ok E (N.of_nat len)
  | FChattr _ c => chattr_fits c
  | _ => True
  end.
Definition io_fits (E : senv) (o : rio) : Prop :=
  match o with
  | IRead _ off len => length_ok E (N.of_nat off + N.of_nat len)
  | IWrite _ off d => length_ok E (N.of_nat off + N.of_nat (length d))
  | ITruncate _ len => length_ok E (N.of_nat len)
  | _ => True
  end.
(** Every directory has room for [k] more names (the B-tree's pages are numbered with
    32 bits). *)
Definition dirs_fit (k : nat) (st : ffs) : Prop := forall id nd, get st id = Some nd -> (N.of_nat (length (i_dir nd) + k) <= MAX_ENTRIES)%N.

(** ** One use of an open file, on the map *)
Definition contents_of (st : ffs) (id : bytes) : bytes := match get st id with Some nd => i_data nd | None => [] end.
Section Plain.
Variable cmp : bytes -> bytes -> comparison.
Definition plain_io (o : rio) (st : ffs) : ffs * res fout :=
  match o with
  | IRead id off len =>
    match fs_step cmp (FRead id) st with
    | (st', Ok (FOBytes d)) => (st', Ok (FOBytes (arr_read d off len)))
    | x => x
    end
  | IWrite id off d => fs_step cmp (FWrite id (arr_write (contents_of st id) off d)) st
  | ITruncate id len => fs_step cmp (FWrite id (arr_resize (contents_of st id) len)) st
  | IStat id => (st, match get st id with
                     | Some nd => Ok (FOStat id (i_mode nd) (i_nlink nd) (N.of_nat (length (i_data nd))))
                     | None => Err EUndef
                     end)
  | IList id => fs_step cmp (FReaddir id) st
  | IFlush _ => (st, Ok FOUnit)
  end.
(** The same as a use of FsConcModel, if it is one. *)
Definition io_as (o : rio) (st : ffs) : option fop :=
  match o with
  | IRead id _ _ => Some (FRead id)
  | IWrite id off d => Some (FWrite id (arr_write (contents_of st id) off d))
  | ITruncate id len => Some (FWrite id (arr_resize (contents_of st id) len))
  | IList id => Some (FReaddir id)
  | IStat _ | IFlush _ => None
  end.

(** ** Runs

    What happens with a repository, as it happens with the map: an event and the
    events of FsConcModel that it is. *)
Inductive seen_as (w : world) : revent -> list event -> Prop :=
| SA_call i o : seen_as w (VCall i o) [ECall i o]
| SA_step i : seen_as w (VStep i) [EStep i]
| SA_ret i o r r' : same_answer r r' -> seen_as w (VRet i o r) [ERet i o r']
| SA_io o r : same_answer r (snd (plain_io o (files w))) ->
    seen_as w (VIo o r) (match io_as o (files w) with Some f => [EIo f (snd (fs_step cmp f (files w)))] | None => [] end)
| SA_evict id : seen_as w (VEvict id) (if bytes_eqb id root_id then [] else [EEvict id])
(* nothing but the parents that are remembered in memory is gone after a remount *)
| SA_remount ids : seen_as w (VRemount (Ok tt)) (map EEvict ids).

Inductive goes : world -> list event -> list (event * world) -> world -> Prop :=
| G_none w : goes w [] [] w
| G_step w e w1 es l w2 : wstep cmp w e w1 -> goes w1 es l w2 -> goes w (e :: es) (l ++ [(e, w1)]) w2.

(** The run [l] of a repository is the run [l'] of the map, with the same open files. *)
Inductive sees (n : nat) : list (revent * rworld) -> list (event * world) -> world -> Prop :=
| Sees_start : sees n [] [] (mkWorld new_repo [] (repeat TIdle n))
| Sees_step l l' w e rw evs new w' : sees n l l' w -> seen_as w e evs -> goes w evs new w' ->
    handles w' = w_handles rw -> sees n ((e, rw) :: l) (new ++ l') w'.
End Plain.

(** What the kernel sees to. *)
Definition event_fits (E : senv) (e : revent) : Prop :=
  match e with
  | VCall _ o => call_fits E o
  | VIo o _ => io_fits E o
  | VRet _ (FClose _ _) (Err _) => False      (* files are released, directories releasedir'ed *)
  | _ => True
  end.

(** ** One call after another *)
Inductive rop := OCall (o : fop) | OIo (o : rio) | OEvict (id : bytes) | ORemount.
(** The repository. *)
Definition r_apply (E : senv) (o : rop) (rp : repo) : repo * res fout :=
  match o with
  | OCall o => r_alone (r_body E o) rp
  | OIo o => r_io E o rp
  | OEvict id => (t_evict id rp, Ok FOUnit)
  | ORemount => let '(rp', r) := mount E (unmount E rp) (rp_time rp) in (rp', rmap (fun _ => FOUnit) r)
  end.
Fixpoint r_answers (E : senv) (ops : list rop) (rp : repo) : list (res fout) :=
  match ops with
  | [] => []
  | o :: ops' => snd (r_apply E o rp) :: r_answers E ops' (fst (r_apply E o rp))
  end.
Section Plainly.
Variable cmp : bytes -> bytes -> comparison.
(** The map: the operations of FullFsModel that an operation stands for, and its answer. *)
Definition as_fops (o : rop) (st : ffs) : list fop :=
  match o with
  | OCall o => [o]
  | OIo o => match io_as o st with Some f => [f] | None => [] end
  | OEvict id => if bytes_eqb id root_id then [] else [FEvict id]
  | ORemount => map FEvict (map fst (nodes st))
  end.
Definition plain_answer (o : rop) (st : ffs) : res fout :=
  match o with
  | OCall o => snd (fs_step cmp o st)
  | OIo o => snd (plain_io cmp o st)
  | OEvict _ | ORemount => Ok FOUnit
  end.
Fixpoint plain_ops (ops : list rop) (st : ffs) : list fop :=
  match ops with
  | [] => []
  | o :: ops' => as_fops o st ++ plain_ops ops' (fs_run cmp (as_fops o st) st)
  end.
Fixpoint plain_answers (ops : list rop) (st : ffs) : list (res fout) :=
  match ops with
  | [] => []
  | o :: ops' => plain_answer o st :: plain_answers ops' (fs_run cmp (as_fops o st) st)
  end.
End Plainly.
(** What the kernel sees to: it uses what it has open, and unmounts when it has nothing
    open. *)
Definition may_do (E : senv) (o : rop) (st : ffs) : Prop :=
  match o with
  | OCall o => may_call o (opened st) /\ call_fits E o
  | OIo o => In (io_file o) (opened st) /\ io_fits E o
  | OEvict _ => True
  | ORemount => opened st = []
  end.
Fixpoint may_run (E : senv) (ops : list rop) (st : ffs) : Prop :=
  match ops with
  | [] => True
  | o :: ops' => may_do E o st /\ dirs_fit 4 st /\ may_run E ops' (fs_run (v_cmp E) (as_fops o st) st)
  end.
