(** Listing a directory of a lite repository while other threads change it: the
    steps of vreaddir and DirectoryImpl::next, sources/lite_format.cpp 641-715 and
    862-886, between the steps of [LiteConcModel]. *)
From Verif Require Import Base NameModel LongNameModel LiteConcModel.

(** What the listing thread does next: read an entry of the host's directory, open the
    table of long names for the entry [u], or look [u] up in the table with inode [k]. *)
Inductive spc : Type := SReady | SOpen (u : bytes) | SLook (u : bytes) (k : nat).

(** The connection to the table (long_table_, opened when first needed and kept), the
    variable [name] of vreaddir, the names given to FUSE, and the next step. *)
(** sources/lite_format.cpp 716 and 872-878. *)
Record lister : Type := mkLister { s_conn : option nat; s_name : bytes; s_out : list bytes; s_pc : spc }.
(** sources/lite_format.cpp 869-874: the start of vreaddir. *)
Definition lister0 : lister := mkLister None [] [] SReady.

(** Steps: one of [LiteConcModel]; the host's readdir gives the entry [u]; the table is opened;
    a name is looked up.  The last two fail if SQLite does (busy for too long). *)
(** Environment (no code): who takes the next step. *)
Inductive schoice : Type := SWorld (c : choice) | SRead (u : bytes) | SOpened (fail : option err) | SLooked (fail : option err).

Section Steps.
Variable trans : translator.
Variable dir : hpath.

Definition show (li : lister) (n : bytes) : lister := mkLister (s_conn li) n (s_out li ++ [n]) SReady.
(** an exception in decoding is logged and the entry left out, 689-696 *)
Definition skip (li : lister) : lister := mkLister (s_conn li) (s_name li) (s_out li) SReady.

(** next up to the table, 645-673; the file status is left out *)
Definition s_read (u : bytes) (li : lister) : lister :=
  match u with
  | [] => skip li
  | c :: _ =>
    if bytes_eqb u [dot] || bytes_eqb u [dot; dot] then show li u
    else if t_noop trans then show li u
    else if Byte.eqb c dot then skip li
    else match t_decrypt trans u with
         | Err _ => skip li
         | Ok (DName n) => show li n
         | Ok DInvalid => show li (s_name li)
         | Ok DLong => mkLister (s_conn li) (s_name li) (s_out li)
                         (match s_conn li with Some k => SLook u k | None => SOpen u end)
         end
  end.

(** lazy_get_table, 702-711: the table is opened for reading, it is not created *)
Definition s_opened (fail : option err) (u : bytes) (w : world) (li : lister) : lister :=
  match fail, w_tree w dir with
  | None, Some es =>
    match ent kLongNameTableFileName es with
    | Some (KFile k) => mkLister (Some k) (s_name li) (s_out li) (SLook u k)
    | _ => skip li
    end
  | _, _ => skip li
  end.

(** LongNameLookupTable::lookup (lite_long_name_lookup_table.cpp 54-64) and the rest of next, 674-688 *)
Definition s_looked (fail : option err) (u : bytes) (k : nat) (w : world) (li : lister) : lister :=
  match fail with
  | Some _ => skip li
  | None =>
    let enc := match ent u (db_rows (w_db w k)) with Some enc => enc | None => [] end in
    match t_decrypt trans enc with Ok (DName n) => show li n | _ => skip li end
  end.

(** Environment (no code): one step of either side. *)
Definition s_step (c : schoice) (w : world) (li : lister) : option (world * lister) :=
  match c, s_pc li with
  | SWorld c, _ => match c_step trans c w with Some (w1, _) => Some (w1, li) | None => None end
  | SRead u, SReady => Some (w, s_read u li)
  | SOpened f, SOpen u => Some (w, s_opened f u w li)
  | SLooked f, SLook u k => Some (w, s_looked f u k w li)
  | _, _ => None
  end.

(** A run, with the worlds it goes through, first and last included. *)
(** Helper (no code): executions. *)
Fixpoint s_run (cs : list schoice) (w : world) (li : lister) : option (list world * lister) :=
  match cs with
  | [] => Some ([w], li)
  | c :: cs' =>
    match s_step c w li with
    | None => None
    | Some (w1, li1) => match s_run cs' w1 li1 with Some (ws, li2) => Some (w :: ws, li2) | None => None end
    end
  end.
End Steps.
