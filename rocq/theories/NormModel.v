(** How names are compared in the full format, and the spelling it reports. *)
From Coq Require Import Strings.String.
From Verif Require Import Base TextModel NameModel BtreeModel BtreeSpec FullFsModel.
Local Open Scope list_scope.

(** The calls of the Unicode library (uni_algo, not part of /repo):
    una::norm::to_nfd_utf8 and una::caseless::compare_utf8, of whose result only the
    sign is used. *)
Record unicode := mkUnicode { u_nfd : bytes -> bytes; u_caseless : bytes -> bytes -> comparison }.

(** is_ascii, sources/mystring.cpp 276-286. *)
Definition is_ascii (s : bytes) : bool := forallb (fun c => (b2n c <? 128)%N) s.

Section Compare.
Variable U : unicode.

(** case_insensitive_compare, uni_norm_insensitive_compare and
    case_uni_norm_insensitve_compare, sources/mystring.cpp 288-309. *)
Definition case_insensitive_compare (a b : bytes) : comparison := u_caseless U a b.
Definition uni_norm_insensitive_compare (a b : bytes) : comparison :=
  if is_ascii a && is_ascii b then binary_compare a b
  else binary_compare (u_nfd U a) (u_nfd U b).
Definition case_uni_norm_insensitve_compare (a b : bytes) : comparison :=
  if is_ascii a && is_ascii b then u_caseless U a b
  else u_caseless U (u_nfd U a) (u_nfd U b).

(** params_to_dir_name_comparison, sources/internal_mount.cpp 31-49. *)
Definition dir_name_comparison (case_insensitive unicode_normalization_agnostic : bool) : bytes -> bytes -> comparison :=
  if case_insensitive && unicode_normalization_agnostic then case_uni_norm_insensitve_compare
  else if case_insensitive then case_insensitive_compare
  else if unicode_normalization_agnostic then uni_norm_insensitive_compare
  else binary_compare.
End Compare.

(** vgetpath, sources/full_format.cpp 460-508: the loop over the components, then the
    text.  The code keeps views into the directories it has left; here they are
    copies (a directory changed or evicted meanwhile makes the code read freed
    memory). *)
Section Getpath.
Variable cmp : bytes -> bytes -> comparison.

(** sources/full_format.cpp 480-499. *)
Fixpoint getpath_walk (splits : list bytes) (parent_id : bytes) (h : holder) (st : ffs) : ffs * res (list bytes) :=
  match splits with
  | [] => (st, Ok [])
  | s :: ss =>
    match get_entry cmp h s st with
    | Err e => (st, Err e)
    | Ok None => (st, Err E_NOENT)
    | Ok (Some e) =>
      match open_as (e_id e) (e_type e) st with
      | Err er => (st, Err er)
      | Ok child =>
        match getpath_walk ss (fst child) child (set_parent (e_id e) parent_id st) with
        | (st1, Ok names) => (st1, Ok (e_name e :: names))
        | x => x
        end
      end
    end
  end.

(** [size] is the size of the buffer; a success leaves the text in it, padded with
    NUL to the end. *)
(** sources/full_format.cpp 459-505. *)
Definition getpath (path : bytes) (size : nat) (st : ffs) : ffs * res bytes :=
  let copy_and_return (result : bytes) : res bytes :=
    if size <=? length result then Err E_NAMETOOLONG
    else Ok (result ++ repeat x00 (size - length result)) in
  if bytes_eqb path [] || bytes_eqb path (str "/") then (st, copy_and_return path)
  else match getpath_walk (path_comps path) root_id root_holder st with
       | (st1, Ok names) => (st1, copy_and_return (flat_map (fun n => slash :: n) names))
       | (st1, Err e) => (st1, Err e)
       end.
End Getpath.
