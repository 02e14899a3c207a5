(** Model of the walk over a repository that the command which introduces long names,
    or changes their suffix, makes: sources/common_platform.cpp 29-46 on top of
    sources/unix.cpp 231-282; and of what its two callers do with what they see. *)
From Verif Require Import Base TextModel NameModel LongNameModel.
Local Open Scope list_scope.

(** ** What the host shows.  A directory may refuse to be opened, and its listing may
    break off with an error; the listing names what is in it, and for every entry
    whether the host tells its type or says DT_UNKNOWN, as some filesystems do.
    The entries "." and ".." are in it, too: they lead up, where a walk never ends. *)
(** Environment: something in the host's filesystem. *)
Inductive node : Type :=
| NFile
| NLink
| NOther
| NUp
| NDir (opens : option N) (listing : list (bytes * bool * node)) (ends : option N).

(** Environment: the file types of <sys/stat.h>. *)
Definition S_IFMT : N := 61440.
(** Environment: the same. *)
Definition S_IFDIR : N := 16384.
(** Environment: the same. *)
Definition S_IFREG : N := 32768.
(** Environment: the same. *)
Definition S_IFLNK : N := 40960.

(** Environment: the d_type that readdir gives. *)
Inductive dtype : Type := DT_UNKNOWN | DT_DIR | DT_LNK | DT_REG | DT_OTHER.
(** Environment: the same. *)
Definition d_type (shown : bool) (n : node) : dtype :=
  if shown then
    match n with
    | NFile => DT_REG
    | NLink => DT_LNK
    | NOther => DT_OTHER
    | NUp => DT_DIR
    | NDir _ _ _ => DT_DIR
    end
  else DT_UNKNOWN.

(** UnixDirectoryTraverser::next, sources/unix.cpp 257-274: the mode of an entry. *)
Definition st_mode (d : dtype) : N :=
  match d with
  | DT_DIR => S_IFDIR
  | DT_LNK => S_IFLNK
  | DT_REG => S_IFREG
  | _ => 0
  end.

(** OSService::recursive_traverse, sources/common_platform.cpp 29-46, with
    create_traverser, sources/unix.cpp 468-471, 237-242, and the end of a listing,
    249-254.  [dir] is the text of the path, [here] what is there, [s] what the
    callback keeps; an exception of the callback ends the walk. *)
Fixpoint recursive_traverse {S : Type} (callback : bytes -> bytes -> N -> S -> res S)
  (dir : bytes) (here : node) (s : S) : res S :=
  match here with
  | NDir (Some e) _ _ => Err (EPosix e)
  | NDir None listing ends =>
    (fix next (es : list (bytes * bool * node)) (s : S) : res S :=
       match es with
       | [] => match ends with Some e => Err (EPosix e) | None => Ok s end
       | (name, shown, child) :: es' =>
         if bytes_eqb name [dot] || bytes_eqb name [dot; dot] then next es' s else
         let type := N.land S_IFMT (st_mode (d_type shown child)) in
         match callback dir name type s with
         | Err e => Err e
         | Ok s1 =>
           if (type =? S_IFDIR)%N then
             match recursive_traverse callback (dir ++ slash :: name) child s1 with
             | Err e => Err e
             | Ok s2 => next es' s2
             end
           else next es' s1
         end
       end) listing s
  | NUp => Err EFuel
  | _ => Err (EPosix 20)
  end.

(** change_long_name_suffix, sources/lite_format.cpp 1283-1291: the callback that
    collects the directories with a table. *)
Definition note_table (dir name : bytes) (_ : N) (dirs : list bytes) : res (list bytes) :=
  Ok (if bytes_eqb name kLongNameTableFileName then dirs ++ [dir] else dirs).

(** change_long_name_suffix, sources/lite_format.cpp 1263-1317, with the walk.  [old]
    is the suffix of the parameters; the answer is the suffix they have afterwards.
    The host's directories are [fs], and [root] is what a walk over them sees. *)
Definition change_long_name_suffix (old new : bytes) (bad : option err) (root : node) (fs : hfs) : hfs * res bytes :=
  match new with
  | [] => (fs, Err EInval)
  | _ =>
    let old_suffix := match old with [] => kLegacyLongNameSuffix | _ => old end in
    if bytes_eqb old_suffix new then (fs, Ok old) else
    match recursive_traverse note_table [dot] root [] with
    | Err e => (fs, Err e)
    | Ok dirs =>
      match change_dirs old_suffix new bad (map comps dirs) fs with
      | (fs', Err e) => (fs', Err e)
      | (fs', Ok _) => (fs', Ok new)
      end
    end
  end.

(** MigrateLongNameCommand::execute, sources/commands.cpp 1158-1167: the callback. *)
Definition note_length (_ name : bytes) (type : N) (max_filename_length : nat) : res nat :=
  if (type =? S_IFLNK)%N then Err EInval else Ok (Nat.max max_filename_length (length name)).

(** MigrateLongNameCommand::execute, sources/commands.cpp 1155-1176: the threshold of
    a repository that had none. *)
Definition new_threshold (data_dir : bytes) (root : node) : res nat :=
  match recursive_traverse note_length data_dir root 0 with
  | Err e => Err e
  | Ok max_filename_length =>
    Ok (if max_filename_length <? (kDefaultLongNameThreshold + 16) * 8 / 5
        then kDefaultLongNameThreshold
        else max_filename_length * 5 / 8 - 16)
  end.
