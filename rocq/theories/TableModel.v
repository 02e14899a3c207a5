(** The table of open files of the full format, under every interleaving of threads:
    sources/file_table_v2.cpp and .h, with the reference counts of sources/files.h.

    Threads are not named: a schedule is a list of atomic actions, and any action may
    come next.  [open_as], [create_as] and the two halves of [close_internal] run under
    the mutex of one shard and touch only that shard, its objects and their stored
    files; a closer's [decref], its reading of the id and its call of [close] are
    separate actions; what a user does to an object is done under that object's lock.
    A stored file is its mode, link count and everything else as bytes; reading and
    writing it is that of C02, flushing it stores it whole. *)
From Coq Require Import ZArith.
From Verif Require Import Base CodecModel FullFsModel.
Local Open Scope nat_scope.
Local Open Scope list_scope.

(** What is stored of a file: mode, link count, the rest. *)
Record content := mkC { c_mode : N; c_nlink : N; c_data : bytes }.
(** A file with no header yet, FileBase::read_header, files.cpp 183-197. *)
Definition blank : content := mkC (2 ^ 32 - 1) (2 ^ 32 - 1) [].

(** FileBase, files.h 46-63, 311-327: id, class, cached contents, m_refcount; and
    whether the object has been destroyed. *)
Record obj := mkObj { o_id : bytes; o_class : N; o_cont : content; o_ref : Z; o_dead : bool }.

(** FileTable, file_table_v2.h 62-88.  Address 0 is root_; the others are handed out in
    order and never reused. *)
Record table := mkTable {
  heap : list obj;
  live : nat -> list (bytes * nat);       (* live_map of each shard *)
  cached : nat -> list nat;               (* cache of each shard *)
  busy : nat -> option (bytes * nat);     (* shard locked by close_internal, past its checks *)
  disk : bytes -> option content;
  held : list nat;                        (* FilePtrHolders and raw pointers given to the kernel *)
  going : list nat;                       (* closers that have decremented, 338 *)
  closing : list bytes                    (* calls of close(id) about to begin, 340 *)
}.

(** Helper (no code): update of the state. *)
Definition with_heap h t := mkTable h (live t) (cached t) (busy t) (disk t) (held t) (going t) (closing t).
(** Helper (no code): update of the state. *)
Definition with_disk d t := mkTable (heap t) (live t) (cached t) (busy t) d (held t) (going t) (closing t).
(** Helper (no code): update of the state. *)
Definition with_held l t := mkTable (heap t) (live t) (cached t) (busy t) (disk t) l (going t) (closing t).
(** Helper (no code): update of the state. *)
Definition with_going l t := mkTable (heap t) (live t) (cached t) (busy t) (disk t) (held t) l (closing t).
(** Helper (no code): update of the state. *)
Definition with_closing l t := mkTable (heap t) (live t) (cached t) (busy t) (disk t) (held t) (going t) l.

(** Helper (no code): update of a map. *)
Definition upd {A} (f : nat -> A) (k : nat) (v : A) : nat -> A := fun x => if x =? k then v else f x.
(** Helper (no code): live_map of a shard (sources/file_table_v2.h 69-70). *)
Definition with_live s l t := mkTable (heap t) (upd (live t) s l) (cached t) (busy t) (disk t) (held t) (going t) (closing t).
(** Helper (no code): cache of a shard (sources/file_table_v2.h 71). *)
Definition with_cached s l t := mkTable (heap t) (live t) (upd (cached t) s l) (busy t) (disk t) (held t) (going t) (closing t).
(** Helper (no code): mu of a shard (sources/file_table_v2.h 68). *)
Definition with_busy s b t := mkTable (heap t) (live t) (cached t) (upd (busy t) s b) (disk t) (held t) (going t) (closing t).
(** Helper (no code): update of a map. *)
Definition dset (d : bytes -> option content) (id : bytes) (v : option content) : bytes -> option content :=
  fun x => if bytes_eqb x id then v else d x.
(** Helper (no code): what is stored of a file. *)
Definition store id v t := with_disk (dset (disk t) id v) t.

(** Helper (no code): update of a sequence. *)
Fixpoint set_nth {A} (l : list A) (n : nat) (v : A) : list A :=
  match l, n with
  | [], _ => []
  | _ :: l', O => v :: l'
  | x :: l', S n' => x :: set_nth l' n' v
  end.
(** Helper (no code): an object by its address. *)
Definition oget (t : table) (a : nat) : option obj := nth_error (heap t) a.
(** Helper (no code): a change of an object. *)
Definition oset (a : nat) (o : obj) (t : table) : table := with_heap (set_nth (heap t) a o) t.
(** Helper (no code): a change of an object. *)
Definition with_cont c o := mkObj (o_id o) (o_class o) c (o_ref o) (o_dead o).
(** sources/files.h 315-321: a change of m_refcount. *)
Definition with_ref r o := mkObj (o_id o) (o_class o) (o_cont o) r (o_dead o).
(** The destruction of a FileBase (sources/file_table_v2.cpp 178 and 194). *)
Definition kill o := mkObj (o_id o) (o_class o) (o_cont o) (o_ref o) true.

(** Helper (no code): a reference given back. *)
Fixpoint remove_nat (a : nat) (l : list nat) : list nat :=
  match l with [] => [] | x :: l' => if x =? a then l' else x :: remove_nat a l' end.

(** find_shard, 85-92. *)
Definition shard_of (id : bytes) : nat := N.to_nat (inode_number id mod 32).

(** live_map.find and erase. *)
(** sources/file_table_v2.cpp 63 and 146. *)
Fixpoint lfind (id : bytes) (l : list (bytes * nat)) : option nat :=
  match l with [] => None | (i, a) :: l' => if bytes_eqb i id then Some a else lfind id l' end.
(** sources/file_table_v2.cpp 171. *)
Definition lerase (id : bytes) (l : list (bytes * nat)) : list (bytes * nat) :=
  filter (fun p => negb (bytes_eqb (fst p) id)) l.

(** The find_if over the cache, 68-71. *)
Definition has_id (t : table) (id : bytes) (a : nat) : bool :=
  match oget t a with Some o => bytes_eqb (o_id o) id | None => false end.
Definition cfind (t : table) (s : nat) (id : bytes) : option nat := find (has_id t id) (cached t s).

(** create_holder, 41-49. *)
Definition hold_obj (a : nat) (t : table) : table :=
  match oget t a with
  | None => t
  | Some o => with_held (a :: held t) (oset a (with_ref (o_ref o + 1)%Z o) t)
  end.

(** mode_for_type, files.h 111-125, against the mode. *)
Definition kind_of (c : content) : N := (c_mode c / 4096 mod 16)%N.
Definition good_class (ty : N) : bool := ((ty =? TREG) || (ty =? TDIR) || (ty =? TLINK))%N.

(** kMaxCached, kEjectNumber, file_table_v2.h 69. *)
Definition max_cached : nat := 50.
Definition eject_number : nat := 10.

(** The end of close_internal, 181-195. *)
Definition kill_all (l : list nat) (t : table) : table :=
  fold_left (fun t a => match oget t a with Some o => oset a (kill o) t | None => t end) l t.
Definition in_use (t : table) (a : nat) : bool :=
  match oget t a with Some o => (0 <? o_ref o)%Z | None => false end.
Definition evict (s : nat) (t : table) : table :=
  if max_cached <? length (cached t s) then
    if existsb (in_use t) (firstn eject_number (cached t s)) then t
    else kill_all (firstn eject_number (cached t s)) (with_cached s (skipn eject_number (cached t s)) t)
  else t.

(** Environment (no code): who takes the next step. *)
Inductive act :=
| AOpen (id : bytes) (ty : N) (bad : option err)     (* [bad]: the error of io_->open or of the constructor *)
| ACreate (id : bytes) (ty : N) (bad : option err)   (* [id] is the random id *)
| ARead (a : nat)                                    (* anything that only looks *)
| AChange (a : nat) (c : content)                    (* anything that changes the file, unlink() included *)
| ACast (a : nat) (want : N)
| AFlush (a : nat) (bad : option content)            (* [bad]: what a failed flush leaves stored *)
| ADrop (a : nat)
| AReadId (a : nat)
| AClose (id : bytes) (bad : option content)
| AFinish (s : nat) (bad : option content).

(** Helper (no code): what a step gives. *)
Inductive tres :=
| TWait                     (* cannot run now *)
| TDone
| TObj (a : nat)
| TCont (c : content)
| TErr (e : err)
| TRemoved (id : bytes)     (* the stored file has been removed *)
| TDead.                    (* memory of a destroyed object has been accessed *)

(** Helper (no code): somebody has a FilePtrHolder of the object. *)
Definition is_held (a : nat) (t : table) : bool := existsb (Nat.eqb a) (held t).

(** An access to object [a] by someone who holds it. *)
(** Helper: dereferencing a FilePtrHolder; on a destroyed object that is
    undefined. *)
Definition access (a : nat) (t : table) (f : obj -> table * tres) : table * tres :=
  if is_held a t then
    match oget t a with
    | None => (t, TDead)
    | Some o => if o_dead o then (t, TDead) else f o
    end
  else (t, TWait).

Definition tstep (x : act) (t : table) : table * tres :=
  match x with
  | AOpen id ty bad =>                                      (* open_as, 51-84 *)
    if bytes_eqb id root_id then
      if (ty =? TDIR)%N then (hold_obj 0 t, TObj 0) else (t, TErr E_PERM)
    else
      let s := shard_of id in
      match busy t s with
      | Some _ => (t, TWait)
      | None =>
        match lfind id (live t s) with
        | Some a => (hold_obj a t, TObj a)
        | None =>
          match cfind t s id with
          | Some a => (with_live s ((id, a) :: live t s) (with_cached s (remove_nat a (cached t s)) (hold_obj a t)), TObj a)
          | None =>
            match disk t id with
            | None => (t, TErr E_NOENT)
            | Some c =>
              match bad with
              | Some e => (t, TErr e)
              | None =>
                if good_class ty then
                  let a := length (heap t) in
                  (with_live s ((id, a) :: live t s) (hold_obj a (with_heap (heap t ++ [mkObj id ty c 0 false]) t)), TObj a)
                else (t, TErr E_PERM)
              end
            end
          end
        end
      end
  | ACreate id ty bad =>                                    (* create_as, 93-104; an error leaves nothing stored *)
    if bytes_eqb id root_id then (t, TErr EInval)
    else
      let s := shard_of id in
      match busy t s with
      | Some _ => (t, TWait)
      | None =>
        match disk t id with
        | Some _ => (t, TErr E_EXIST)
        | None =>
          match bad with
          | Some e => (t, TErr e)
          | None =>
            if good_class ty then
              match lfind id (live t s) with
              | Some _ => (t, TErr EUndef)                  (* emplace over an existing key *)
              | None =>
                let a := length (heap t) in
                (with_live s ((id, a) :: live t s) (hold_obj a (store id (Some blank) (with_heap (heap t ++ [mkObj id ty blank 0 false]) t))), TObj a)
              end
            else (t, TErr E_PERM)
          end
        end
      end
  | ARead a => access a t (fun o => (t, TCont (o_cont o)))
  | AChange a c => access a t (fun o => (oset a (with_cont c o) t, TDone))
  | ACast a want =>                                         (* cast_as, files.h 357-366 *)
    access a t (fun o =>
      if (o_class o =? kind_of (o_cont o))%N then if (o_class o =? want)%N then (t, TDone) else (t, TErr E_PERM) else (t, TErr E_PERM))
  | AFlush a bad =>                                         (* FileBase::flush, files.cpp 247-276 *)
    access a t (fun o => (store (o_id o) (Some (match bad with Some g => g | None => o_cont o end)) t, TDone))
  | ADrop a =>                                              (* FileTableCloser::operator(), 336-338 *)
    access a t (fun o =>
      let r := (o_ref o - 1)%Z in
      let t1 := oset a (with_ref r o) (with_held (remove_nat a (held t)) t) in
      (if (r <=? 0)%Z then with_going (a :: going t) t1 else t1, TDone))
  | AReadId a =>                                            (* fb->get_id(), 340 *)
    if existsb (Nat.eqb a) (going t) then
      match oget t a with
      | None => (t, TDead)
      | Some o => (with_closing (o_id o :: closing t) (with_going (remove_nat a (going t)) t), if o_dead o then TDead else TDone)
      end
    else (t, TWait)
  | AClose id bad =>                                        (* close, 122-138; close_internal, 141-155 *)
    if existsb (bytes_eqb id) (closing t) then
      let t1 := with_closing (remove_one id (closing t)) t in
      if bytes_eqb id root_id then
        match oget t 0 with
        | None => (t, TDead)
        | Some o => (store id (Some (match bad with Some g => g | None => o_cont o end)) t1, TDone)
        end
      else
        let s := shard_of id in
        match busy t s with
        | Some _ => (t, TWait)
        | None =>
          match lfind id (live t s) with
          | None => (t1, TDone)
          | Some a => if in_use t a then (t1, TDone) else (with_busy s (Some (id, a)) t1, TDone)
          end
        end
    else (t, TWait)
  | AFinish s bad =>                                        (* close_internal, 157-195 *)
    match busy t s with
    | None => (t, TWait)
    | Some (id, a) =>
      match oget t a with
      | None => (t, TDead)
      | Some o =>
        if o_dead o then (t, TDead) else
        let t1 := with_busy s None t in
        if (c_nlink (o_cont o) <=? 0)%N then
          (evict s (store id None (oset a (kill o) (with_live s (lerase id (live t s)) t1))), TRemoved id)
        else
          match bad with
          | Some g => (store id (Some g) t1, TDone)          (* logged by close, 133-136 *)
          | None => (evict s (with_cached s (cached t s ++ [a]) (with_live s (lerase id (live t s)) (store id (Some (o_cont o)) t1))), TDone)
          end
      end
    end
  end.

(** A schedule, with what each action did. *)
(** Helper (no code): executions. *)
Fixpoint trun (xs : list act) (t : table) : table * list (act * tres) :=
  match xs with
  | [] => (t, [])
  | x :: xs' =>
    let (t1, r) := tstep x t in
    let (t2, h) := trun xs' t1 in
    (t2, (x, r) :: h)
  end.

(** FileTable::init, 20-40. *)
Definition root_content : content := mkC (493 + TDIR * 4096) 1 [].
Definition start (d : bytes -> option content) : table :=
  let fresh := match d root_id with Some c => c | None => root_content end in
  mkTable [mkObj root_id TDIR fresh 0 false] (fun _ => []) (fun _ => []) (fun _ => None)
    (match d root_id with Some _ => d | None => dset d root_id (Some blank) end) [] [] [].

(** ~FileTable, 198-216, when every flush succeeds. *)
Definition flush_all (l : list nat) (t : table) : table :=
  fold_left (fun t a => match oget t a with Some o => store (o_id o) (Some (o_cont o)) t | None => t end) l t.
Definition shutdown (t : table) : bytes -> option content :=
  disk (flush_all (0 :: flat_map (fun s => map snd (live t s) ++ cached t s) (seq 0 32)) t).
