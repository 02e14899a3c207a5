(** [vgetpath] of the full format (sources/full_format.cpp 460-508) as it uses memory: the
    names it has found are [std::string_view]s, addresses of text inside directories that
    it has unlocked and closed again when it puts the path together.  The table of open
    files is that of [TableModel]; other threads may act between any two steps. *)
From Verif Require Import Base FullFsModel BtreeModel TableModel.
Local Open Scope nat_scope.
Local Open Scope list_scope.

(** What get_entry returns (sources/btree_dir.cpp 391): an address inside the directory
    object.  [v_data] is what the directory contained then; while it still contains the
    same, the address holds [v_name].  Simplification: after any change of the directory
    the text counts as gone, though some changes leave it in place. *)
Record view := mkView { v_obj : nat; v_data : bytes; v_name : bytes }.

(** Where the thread is.  [vs] are the elements of [splits] already replaced, last first;
    [h] is the object of [holder]. *)
Inductive pc :=
| PStart (path : list bytes)                                                    (* 479 *)
| PLook (h : nat) (rest : list bytes) (vs : list view)                          (* 486-494 *)
| POpen (h : nat) (id : bytes) (ty : N) (rest : list bytes) (vs : list view)    (* 495, open_as *)
| PDrop (old h : nat) (rest : list bytes) (vs : list view)                      (* 495, the closer of the old holder *)
| PReadId (old h : nat) (rest : list bytes) (vs : list view)
| PClose (id : bytes) (h : nat) (rest : list bytes) (vs : list view)
| PFinish (id : bytes) (h : nat) (rest : list bytes) (vs : list view)
| PText (vs : list view) (text : list bytes)                                    (* 500-506 *)
| PNames (names : list bytes)
| PError (e : err)
| PFreed.                                                                       (* freed or changed memory was read *)

Section Getpath.
(** Environment: what a directory contains, and the comparison of names (C17, C74). *)
Variable entries : bytes -> list entry.
Variable cmp : bytes -> bytes -> comparison.

(** A step of the thread, sources/full_format.cpp 479-507.  [set_parent_id] (496) touches
    nothing that is modelled here.  A step that has to wait leaves everything as it is.
    The closers' own writes succeed. *)
Definition gstep (t : table) (p : pc) : table * pc :=
  match p with
  | PStart path =>
    match tstep (AOpen root_id TDIR None) t with
    | (t1, TObj h) => (t1, PLook h path [])
    | (t1, TErr e) => (t1, PError e)
    | (t1, _) => (t1, p)
    end
  | PLook h [] vs => (t, PText vs [])
  | PLook h (name :: rest) vs =>
    match tstep (ACast h TDIR) t with
    | (_, TDone) =>
      match tstep (ARead h) t with
      | (_, TCont c) =>
        match find (fun e => match cmp name (e_name e) with Eq => true | _ => false end) (entries (c_data c)) with
        | Some e => (t, POpen h (e_id e) (e_type e) rest (mkView h (c_data c) (e_name e) :: vs))
        | None => (t, PError E_NOENT)
        end
      | _ => (t, PFreed)
      end
    | (_, TErr e) => (t, PError e)
    | _ => (t, PFreed)
    end
  | POpen h id ty rest vs =>
    match tstep (AOpen id ty None) t with
    | (t1, TObj h1) => (t1, PDrop h h1 rest vs)
    | (t1, TErr e) => (t1, PError e)
    | (t1, _) => (t1, p)
    end
  | PDrop old h rest vs =>
    match tstep (ADrop old) t with
    | (t1, TDone) => (t1, if in_use t1 old then PLook h rest vs else PReadId old h rest vs)
    | (t1, _) => (t1, PFreed)
    end
  | PReadId old h rest vs =>
    match oget t old with
    | Some o =>
      match tstep (AReadId old) t with
      | (t1, TDead) => (t1, PFreed)
      | (t1, _) => (t1, PClose (o_id o) h rest vs)
      end
    | None => (t, PFreed)
    end
  | PClose id h rest vs =>
    match tstep (AClose id None) t with
    | (t1, TWait) => (t1, if existsb (bytes_eqb id) (closing t) then p else PLook h rest vs)
    | (t1, _) => (t1, PFinish id h rest vs)
    end
  | PFinish id h rest vs =>
    match busy t (shard_of id) with
    | Some (id', _) =>
      if bytes_eqb id' id then let (t1, r) := tstep (AFinish (shard_of id) None) t in (t1, match r with TDead => PFreed | _ => PLook h rest vs end)
      else (t, PLook h rest vs)
    | None => (t, PLook h rest vs)
    end
  | PText [] text => (t, PNames text)
  | PText (v :: vs) text =>
    match oget t (v_obj v) with
    | Some o =>
      if o_dead o then (t, PFreed)
      else if bytes_eqb (c_data (o_cont o)) (v_data v) then (t, PText vs (v_name v :: text))
      else (t, PFreed)
    | None => (t, PFreed)
    end
  | PNames _ | PError _ | PFreed => (t, p)
  end.

(** Environment (no code): a schedule; [None] is a step of this thread, [Some x] a step of
    another one. *)
Fixpoint grun (xs : list (option act)) (t : table) (p : pc) : table * pc :=
  match xs with
  | [] => (t, p)
  | None :: xs' => let (t1, p1) := gstep t p in grun xs' t1 p1
  | Some x :: xs' => grun xs' (fst (tstep x t)) p
  end.
End Getpath.
