(** What files, names and handles should do: files are byte arrays, any number of
    names and handles refer to them, and every operation acts on the one array.
    Nothing here knows of encryption. *)
From Verif Require Import Base StreamSpec HandleModel.
(** Error numbers, as on Linux: 2 is ENOENT, 9 is EBADF, 17 is EEXIST. *)

(** A file: its content, and how often it was opened with O_TRUNC.
    A handle: its file, and how often that had been truncated this way when the
    handle was opened. *)
Record pst : Type := mkP {
  p_names : nat -> option nat;
  p_files : nat -> option (bytes * nat);
  p_handles : nat -> option (nat * nat);
  p_next : nat }.
Definition p_empty : pst := mkP (fun _ => None) (fun _ => None) (fun _ => None) 0.

Definition set_content (s : pst) (i : nat) (c : bytes * nat) : pst :=
  mkP (p_names s) (fupd (p_files s) i (Some c)) (p_handles s) (p_next s).
Definition set_p_name (s : pst) (p : nat) (v : option nat) : pst :=
  mkP (fupd (p_names s) p v) (p_files s) (p_handles s) (p_next s).
Definition set_p_handle (s : pst) (h : nat) (v : option (nat * nat)) : pst :=
  mkP (p_names s) (p_files s) (fupd (p_handles s) h v) (p_next s).

(** The file a path or a handle refers to. *)
Definition by_path (s : pst) (p : nat) : option (nat * bytes * nat) :=
  match p_names s p with
  | Some i => match p_files s i with Some (c, g) => Some (i, c, g) | None => None end
  | None => None
  end.
Definition by_handle (s : pst) (h : nat) : option (nat * bytes * nat) :=
  match p_handles s h with
  | Some (i, _) => match p_files s i with Some (c, g) => Some (i, c, g) | None => None end
  | None => None
  end.

Definition pstep (s : pst) (op : hop) : pst * hout :=
  match op with
  | HCreate p h =>
    match p_names s p with
    | Some _ => (s, HOut (OFail (EPosix 17)))
    | None =>
      let i := p_next s in
      (mkP (fupd (p_names s) p (Some i)) (fupd (p_files s) i (Some ([], 0))) (fupd (p_handles s) h (Some (i, 0))) (S i), HDone)
    end
  | HOpen p h trunc =>
    match by_path s p with
    | None => (s, HOut (OFail (EPosix 2)))
    | Some (i, c, g) =>
      if trunc then (set_p_handle (set_content s i ([], S g)) h (Some (i, S g)), HDone)
      else (set_p_handle s h (Some (i, g)), HDone)
    end
  | HIo h o =>
    match by_handle s h with
    | None => (s, HOut (OFail (EPosix 9)))
    | Some (i, c, g) => (set_content s i (fst (spec_step c o), g), HOut (snd (spec_step c o)))
    end
  | HTruncate p n =>
    match by_path s p with
    | None => (s, HOut (OFail (EPosix 2)))
    | Some (i, c, g) => (set_content s i (arr_resize c n, g), HOut ODone)
    end
  | HStat p =>
    match by_path s p with
    | None => (s, HOut (OFail (EPosix 2)))
    | Some (_, c, _) => (s, HOut (OSize (length c)))
    end
  | HUnlink p =>
    match p_names s p with
    | None => (s, HOut (OFail (EPosix 2)))
    | Some _ => (set_p_name s p None, HDone)
    end
  | HLink p q =>
    match p_names s p, p_names s q with
    | None, _ => (s, HOut (OFail (EPosix 2)))
    | Some _, Some _ => (s, HOut (OFail (EPosix 17)))
    | Some i, None => (set_p_name s q (Some i), HDone)
    end
  | HRename p q =>
    match p_names s p with
    | None => (s, HOut (OFail (EPosix 2)))
    | Some i =>
      match p_names s q with
      | Some j => if i =? j then (s, HDone) else (set_p_name (set_p_name s p None) q (Some i), HDone)
      | None => (set_p_name (set_p_name s p None) q (Some i), HDone)
      end
    end
  | HClose h => (set_p_handle s h None, HDone)
  end.

(** A handle is outdated when its file was opened with O_TRUNC after the handle. *)
Definition outdated (s : pst) (h : nat) : Prop :=
  exists i g c g', p_handles s h = Some (i, g) /\ p_files s i = Some (c, g') /\ g <> g'.

(** Operations within the size limit that do not go through an outdated handle. *)
Definition allowed (limit : nat) (s : pst) (op : hop) : Prop :=
  match op with
  | HIo h o => ~ outdated s h /\ sop_within limit o
  | HTruncate _ n => n <= limit
  | _ => True
  end.
Fixpoint all_allowed (limit : nat) (s : pst) (ops : list hop) : Prop :=
  match ops with
  | [] => True
  | op :: ops' => allowed limit s op /\ all_allowed limit (fst (pstep s op)) ops'
  end.
