(** Model of a change of the long-name suffix that is killed, or stopped by an error,
    part of the way: the states of the host that change_long_name_suffix,
    sources/lite_format.cpp 1293-1313, passes through. *)
From Verif Require Import Base TextModel NameModel LongNameModel.
Local Open Scope list_scope.

Section Kill.
Variable old_suffix new_suffix : bytes.

(** The rows of one table, sources/lite_format.cpp 1301-1312: after each rename of an
    entry.  The table is in a transaction (1298), which SQLite rolls back when the
    process is gone or an exception passes (lite_long_name_lookup_table.cpp 101-118), so
    what a later reader finds in it is what was there before. *)
Fixpoint rows_states (d : hpath) (hashes : list bytes) (m : list (bytes * bytes)) (fs : hfs) : list hfs :=
  match hashes with
  | [] => []
  | h :: hs =>
    if ends_with h old_suffix then
      let value := match ent h m with Some v => v | None => [] end in
      let m' := remove_mapping h (update_mapping (new_hash old_suffix new_suffix h) value m) in
      match h_rename None (d ++ [h]) (d ++ [new_hash old_suffix new_suffix h]) fs with
      | (fs1, Ok tt) => fs1 :: rows_states d hs m' fs1
      | (fs1, Err _) => [fs1]
      end
    else rows_states d hs m fs
  end.

(** The directories, 1293-1313: after opening a table, after each rename, after the
    commit of a table; nothing more happens after a failure. *)
Fixpoint dirs_states (dirs : list hpath) (fs : hfs) : list hfs :=
  match dirs with
  | [] => []
  | d :: ds =>
    match open_table d fs with
    | (fs1, Ok m) => fs1 :: rows_states d (map fst m) m fs1
    | (fs1, Err _) => [fs1]
    end ++
    match change_dir old_suffix new_suffix None d fs with
    | (fs2, Ok _) => fs2 :: dirs_states ds fs2
    | (fs2, Err _) => [fs2]
    end
  end.
End Kill.
