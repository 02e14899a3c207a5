(** Model of a full-format directory (sources/btree_dir.cpp, as in GBtreeModel.v) over a
    host whose calls fail now and then. *)
From Verif Require Import Base CodecModel StreamSpec AdaptorModel BtreeModel GBtreeModel.
Local Open Scope list_scope.

(** Environment: what goes wrong in one call of the host: the error, and how many bytes of
    a write have been written before it.  [None]: nothing goes wrong. *)
Definition fault : Type := option (err * nat).

(** Environment: the stream under a directory (sources/files.h 73, at the bottom the pread
    and pwrite of sources/unix.cpp 105-130) with the faults of the calls to come; none when
    there are no more.  Simplified: the encryption in between is left out, so that a torn
    write leaves a page partly old and partly new, not one that cannot be read. *)
Definition flaky_step (s : bytes * list fault) (o : sop) : (bytes * list fault) * sout :=
  match snd s with
  | Some (e, k) :: plan =>
    match o with
    | SWrite off d => ((arr_write (fst s) off (firstn k d), plan), OFail e)
    | _ => ((fst s, plan), OFail e)
    end
  | plan => let '(c, r) := spec_step (fst s) o in ((c, tl plan), r)
  end.
(** Environment: see [flaky_step]. *)
Definition flaky : strm := mkStrm (bytes * list fault) flaky_step.

Section Dir.
Variable cmp : bytes -> bytes -> comparison.
Variable junk : N -> bytes.

(** Helper (no code): the host during one operation. *)
Definition with_plan (plan : list fault) (g : gbt flaky) : gbt flaky := g_set_stream flaky g (fst (g_stream flaky g), plan).

(** The calls of Directory, sources/files.h 454-489, on a BtreeDirectory.  [DReload]: flush,
    and forget the nodes in memory, as when the last user closes it. *)
Definition g_step (o : dop) : GM flaky dout :=
  match o with
  | DGet name => g_bind flaky (g_get_entry flaky cmp name) (fun e => g_ret flaky (OEntry e))
  | DAdd name id ty => g_bind flaky (g_add_entry flaky cmp name id ty) (fun b => g_ret flaky (OBool b))
  | DRemove name => g_bind flaky (g_remove_entry flaky cmp name) (fun e => g_ret flaky (OEntry e))
  | DList => g_bind flaky (g_list_entries flaky) (fun l => g_ret flaky (OList l))
  | DEmpty => g_bind flaky (g_is_empty flaky) (fun b => g_ret flaky (OBool b))
  | DFlush => g_bind flaky (g_subflush flaky cmp junk) (fun _ => g_ret flaky OUnit)
  | DReload => g_bind flaky (g_subflush flaky cmp junk) (fun _ =>
               g_bind flaky (g_modify flaky (fun g => g_set_cache flaky g [])) (fun _ => g_ret flaky OUnit))
  end.

(** Helper (no code): one operation, with what goes wrong during it. *)
Definition f_step (o : dop) (plan : list fault) (g : gbt flaky) : gbt flaky * res dout :=
  let '(g', r) := g_step o (with_plan plan g) in (with_plan [] g', r).

(** Helper (no code): a history of calls. *)
Fixpoint f_run (ops : list (dop * list fault)) (g : gbt flaky) : gbt flaky * list (res dout) :=
  match ops with
  | [] => (g, [])
  | (o, plan) :: ops' =>
    let '(g', r) := f_step o plan g in
    let '(g'', rs) := f_run ops' g' in
    (g'', r :: rs)
  end.
End Dir.

(** A new directory. *)
(** sources/btree_dir.h 111-175 with the flags of sources/files.h 75-97: an empty stream and no root. *)
Definition new_dir : gbt flaky := mkG flaky ([], []) INVALID_PAGE INVALID_PAGE 0 true [].
