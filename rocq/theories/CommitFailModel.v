(** Model of the lite format's operations on names (as in LongNameModel.v) when a table of
    long names cannot be written: sources/lite_long_name_lookup_table.cpp 101-118, where an
    error of the commit is logged and dropped. *)
From Verif Require Import Base TextModel NameModel LongNameModel.
Local Open Scope list_scope.

(** finish, lite_long_name_lookup_table.cpp 101-118: from the rows [m] to [m'], or, when the
    commit fails, not; the database is closed without it. *)
Definition commit_or_not (fail : bool) (d : hpath) (m m' : list (bytes * bytes)) (fs : hfs) : hfs :=
  commit_table d (if fail then m else m') fs.

Section Ops.
Variable trans : translator.

(** process_possible_long_name, sources/lite_format.cpp 1192-1225. *)
Definition process_f (fail : bool) (path : bytes) (act : action) (callback : hpath -> hfs -> hfs * res unit) (fs : hfs) : hfs * res unit :=
  match t_encrypt trans path with
  | Err e => (fs, Err e)
  | Ok (P, []) => callback (comps P) fs
  | Ok (P, enc) =>
    let d := parent (comps P) in
    match open_table d fs with
    | (fs1, Err e) => (fs1, Err e)
    | (fs1, Ok m) =>
      let u := get_last_component P in
      let m' := match act with ACreate => update_mapping u enc m | ADelete => remove_mapping u m end in
      match callback (comps P) fs1 with
      | (fs2, Ok tt) => (commit_or_not fail d m m' fs2, Ok tt)
      | (fs2, Err e) => (fs2, Err e)
      end
    end
  end.

(** vrename, sources/lite_format.cpp 1019-1047.  One commit for both tables; that it fails
    for one of them only is allowed here. *)
Definition rename_f (faila failb : bool) (from to : bytes) (bad : option err) (fs : hfs) : hfs * res unit :=
  match t_encrypt trans from, t_encrypt trans to with
  | Err e, _ | _, Err e => (fs, Err e)
  | Ok (A, []), Ok (B, []) => h_rename bad (comps A) (comps B) fs
  | Ok (A, la), Ok (B, lb) =>
    let da := parent (comps A) in
    let db := parent (comps B) in
    match open_table da fs with
    | (fs1, Err e) => (fs1, Err e)
    | (fs1, Ok _) =>
      match open_table db fs1 with
      | (fs2, Err e) => (fs2, Err e)
      | (fs2, Ok _) =>
        match h_rename bad (comps A) (comps B) fs2 with
        | (fs3, Err e) => (fs3, Err e)
        | (fs3, Ok tt) =>
          let edit (d : hpath) (m : list (bytes * bytes)) :=
            let m1 := if hpath_eqb d da then match la with [] => m | _ => remove_mapping (get_last_component A) m end else m in
            if hpath_eqb d db then match lb with [] => m1 | _ => update_mapping (get_last_component B) lb m1 end else m1 in
          let row (d : hpath) := match open_table d fs2 with (_, Ok m) => m | _ => [] end in
          let fs4 := commit_or_not faila da (row da) (edit da (row da)) fs3 in
          (commit_or_not failb db (row db) (edit db (row db)) fs4, Ok tt)
        end
      end
    end
  end.

(** The methods of sources/lite_format.cpp 945-1047 and open, 1153-1186, as in [lite_step]. *)
Definition step_cf (faila failb : bool) (o : lop) (fs : hfs) : hfs * res unit :=
  match o with
  | LOpen path creat excl ino bad late =>
    let callback p fs0 :=
      match h_open bad creat excl ino p fs0 with
      | (fs1, Ok tt) => (fs1, match late with Some e => Err e | None => Ok tt end)
      | x => x
      end in
    if creat then process_f faila path ACreate callback fs
    else match t_encrypt trans path with
         | Err e => (fs, Err e)
         | Ok (P, _) => callback (comps P) fs
         end
  | LMkdir path bad => process_f faila path ACreate (h_mkdir bad) fs
  | LSymlink path ino bad => process_f faila path ACreate (h_open bad true true ino) fs
  | LLink src dest bad =>
    process_f faila dest ACreate
      (fun p fs0 => match t_encrypt trans src with
                    | Err e => (fs0, Err e)
                    | Ok (P, _) => h_link bad (comps P) p fs0
                    end) fs
  | LUnlink path bad => process_f faila path ADelete (h_unlink bad) fs
  | LRmdir path bad => process_f faila path ADelete (fun p fs0 => h_rmdir bad p (drop_table p fs0)) fs
  | LRename from to bad => rename_f faila failb from to bad fs
  end.

(** Helper (no code): a history of calls, with the commits that fail. *)
Fixpoint run_cf (ops : list (lop * (bool * bool))) (fs : hfs) : hfs * list (res unit) :=
  match ops with
  | [] => (fs, [])
  | (o, (fa, fb)) :: ops' =>
    let '(fs1, r) := step_cf fa fb o fs in
    let '(fs2, rs) := run_cf ops' fs1 in
    (fs2, r :: rs)
  end.
End Ops.
