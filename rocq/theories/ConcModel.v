(** Threads that work on open files at the same time: which locks they take around an
    operation, and the operation itself in steps that interleave with those of others.
    Models sources/lite_format.h 128-190 (class File), lite_format.cpp 904-944 (vread,
    vwrite, vftruncate) and 836-844 (vfgetattr), unix.cpp 67-90 (flock), lock_guard.h
    9-31; for the full format files.h 47-60 and 559-573, full_format.cpp 54-65, 163-200. *)
From Verif Require Import Base StreamSpec BlockModel LiteModel.
Local Open Scope nat_scope.
Local Open Scope list_scope.

(** ** Programs: steps on the shared state [St] of one file, then a result.  A step sees
    and changes the state at once; between steps anything can happen elsewhere. *)
(** Environment (no code): a function body seen as atomic steps. *)
Inductive prog (St R : Type) : Type :=
| PRet (r : R)
| PStep (upd : St -> St) (next : St -> prog St R).
Arguments PRet {St R} r.
Arguments PStep {St R} upd next.

(** Such a program without interference. *)
(** Environment (no code): the same body with nobody else running. *)
Fixpoint exec {St R} (p : prog St R) (s : St) : St * R :=
  match p with
  | PRet r => (s, r)
  | PStep upd next => exec (next s) (upd s)
  end.

(** ** The threads *)
Section Threads.
Variable St R Op : Type.
Variable obj_of : nat -> nat.          (* the file of a handle *)
Variable mutex_of : nat -> nat.        (* the mutex of a handle *)
Variable flock_on : bool.              (* is_lock_enabled, lock_enabled.cpp; always false for the full format *)
Variable failed : option (N -> R).   (* the answer when flock fails with an error number, if it can *)
Variable body : nat -> Op -> nat -> prog St R.  (* handle, operation, position in the random source *)

(** Where a thread is in LockGuard<File> (sources/lock_guard.h 9-31) around
    File::lock and unlock (sources/lite_format.h 176-193). *)
Inductive thread :=
| TIdle
| TCalled (h : nat) (o : Op) (k : nat)   (* in the function, before the guard *)
| TMutex (h : nat) (o : Op) (k : nat)    (* holds the mutex *)
| TRun (h : nat) (o : Op) (k : nat) (p : prog St R)   (* holds both; [p] is left to do *)
| TLeave (h : nat) (r : R)               (* has let go of the file, still holds the mutex *)
| TOut (r : R).                          (* about to return *)

(** The shared state: the stored files, m_lock of every File
    (sources/lite_format.h 134) and the host's flock (sources/unix.cpp 73, 86).
    *)
Record conf := mkC {
  c_files : nat -> St;
  c_mutex : nat -> option nat;           (* the thread that holds it *)
  c_flock : nat -> option nat;           (* the handle whose descriptor holds the host's lock *)
  c_threads : nat -> thread }.

(** Helper (no code): update of a map. *)
Definition upd {X} (f : nat -> X) (i : nat) (v : X) : nat -> X := fun j => if j =? i then v else f j.

(** Helper (no code): what a caller of sources/lite_format.cpp 905-944 sees. *)
Inductive event := EInv (t h : nat) (o : Op) | ERes (t : nat) (r : R).

Inductive cstep : conf -> option event -> conf -> Prop :=
| S_invoke c t h o k : c_threads c t = TIdle ->
    cstep c (Some (EInv t h o)) (mkC (c_files c) (c_mutex c) (c_flock c) (upd (c_threads c) t (TCalled h o k)))
(* LockGuard, lock_guard.h 18-22: File::lock, lite_format.h 168-180, first the mutex *)
| S_mutex c t h o k : c_threads c t = TCalled h o k -> c_mutex c (mutex_of h) = None ->
    cstep c None (mkC (c_files c) (upd (c_mutex c) (mutex_of h) (Some t)) (c_flock c) (upd (c_threads c) t (TMutex h o k)))
(* then flock, unix.cpp 67-78; a descriptor that holds the lock gets it again *)
| S_flock c t h o k : c_threads c t = TMutex h o k -> flock_on = true ->
    c_flock c (obj_of h) = None \/ c_flock c (obj_of h) = Some h ->
    cstep c None (mkC (c_files c) (c_mutex c) (upd (c_flock c) (obj_of h) (Some h)) (upd (c_threads c) t (TRun h o k (body h o k))))
| S_no_flock c t h o k : c_threads c t = TMutex h o k -> flock_on = false ->
    cstep c None (mkC (c_files c) (c_mutex c) (c_flock c) (upd (c_threads c) t (TRun h o k (body h o k))))
(* flock throws: the mutex is given back, lite_format.h 175-179 *)
| S_flock_fail c t h o k f n : c_threads c t = TMutex h o k -> flock_on = true -> failed = Some f ->
    cstep c None (mkC (c_files c) (c_mutex c) (c_flock c) (upd (c_threads c) t (TLeave h (f n))))
| S_step c t h o k u nx : c_threads c t = TRun h o k (PStep u nx) ->
    cstep c None (mkC (upd (c_files c) (obj_of h) (u (c_files c (obj_of h)))) (c_mutex c) (c_flock c)
                      (upd (c_threads c) t (TRun h o k (nx (c_files c (obj_of h))))))
(* ~LockGuard: File::unlock, lite_format.h 181-185: flock (unix.cpp 80-88), then the mutex *)
| S_unflock c t h o k r : c_threads c t = TRun h o k (PRet r) ->
    cstep c None (mkC (c_files c) (c_mutex c) (if flock_on then upd (c_flock c) (obj_of h) None else c_flock c)
                      (upd (c_threads c) t (TLeave h r)))
| S_unmutex c t h r : c_threads c t = TLeave h r ->
    cstep c None (mkC (c_files c) (upd (c_mutex c) (mutex_of h) None) (c_flock c) (upd (c_threads c) t (TOut r)))
| S_return c t r : c_threads c t = TOut r ->
    cstep c (Some (ERes t r)) (mkC (c_files c) (c_mutex c) (c_flock c) (upd (c_threads c) t TIdle)).

(** Executions, with what threads see of them: invocations and responses. *)
(** Helper (no code): executions. *)
Inductive csteps : conf -> list event -> conf -> Prop :=
| CS_nil c : csteps c [] c
| CS_silent c c1 c2 tr : csteps c tr c1 -> cstep c1 None c2 -> csteps c tr c2
| CS_event c c1 c2 tr e : csteps c tr c1 -> cstep c1 (Some e) c2 -> csteps c (tr ++ [e]) c2.

(** Helper (no code): nobody has called yet. *)
Definition start (files : nat -> St) : conf := mkC files (fun _ => None) (fun _ => None) (fun _ => TIdle).
End Threads.

(** ** The operations of BlockBasedStream in steps: every call of a virtual method is one
    step.  [join] puts the memory of the handle and of the thread (key, padding, random
    source) and the stored file together. *)
Section Steps.
Variable B : backend.
Variable File Loc : Type.
Variable join : File -> Loc -> bk_state B.
Variable file_of : bk_state B -> File.
Variable loc_of : bk_state B -> Loc.
Variable R : Type.

(** Helper (no code): a computation with the handle's own variables. *)
Definition M (X : Type) : Type := Loc -> (X -> Loc -> prog File R) -> prog File R.
(** Helper (no code): return. *)
Definition ret {X} (x : X) : M X := fun l k => k x l.
(** Helper (no code): sequencing. *)
Definition bind {X Y} (m : M X) (f : X -> M Y) : M Y := fun l k => m l (fun x l1 => f x l1 k).
(** Helper: one virtual method of sources/streams.h 100-109 as one step. *)
Definition call {X} (g : bk_state B -> bk_state B * X) : M X := fun l k =>
  PStep (fun f => file_of (fst (g (join f l)))) (fun f => let '(s, x) := g (join f l) in k x (loc_of s)).

(** The call this->size() at sources/streams.cpp 208 and 268. *)
Definition m_size : M nat := call (fun s => (s, bk_size B s)).
(** The calls read_multi_blocks at sources/streams.cpp 187, 192, 244, 251 and
    282. *)
Definition m_read (a b : nat) : M (res bytes) := call (fun s => (s, bk_read B a b s)).
(** The calls write_multi_blocks at sources/streams.cpp 232, 235, 260 and 283.
    *)
Definition m_write (a e r : nat) (d : bytes) : M (res unit) := call (bk_write B a e r d).
(** The call adjust_logical_size at sources/streams.cpp 297. *)
Definition m_adjust (n : nat) : M (res unit) := call (bk_adjust B n).

(** [bind] of computations that may throw. *)
(** Helper (no code): an exception ends the function. *)
Definition tbind {X Y} (m : M (res X)) (f : X -> M (res Y)) : M (res Y) :=
  bind m (fun r => match r with Ok x => f x | Err e => ret (Err e) end).

Notation bs := (bk_bs B).
(** streams.cpp 177-200 *)
Definition p_read (off len : nat) : M (res bytes) :=
  if len <=? 0 then ret (Ok [])
  else
    let sb := off / bs in let sr := off mod bs in
    let eb := (off + len) / bs in let er := (off + len) mod bs in
    if (sr =? 0) && (er =? 0) then m_read sb eb
    else
      tbind (m_read sb (eb + b2nat (0 <? er))) (fun out =>
        ret (if length out <=? sr then Ok [] else Ok (arr_read out sr (min (length out - sr) len)))).

(** streams.cpp 215-261 *)
Definition p_unchecked_write (w : winput) (off : nat) : M (res unit) :=
  let len := winput_len w in
  if len <=? 0 then ret (Ok tt)
  else
    let sb := off / bs in let sr := off mod bs in
    let eb := (off + len) / bs in let er := (off + len) mod bs in
    if (sr =? 0) && (er =? 0) then
      match w with
      | WZero _ => m_write sb eb 0 (zeros ((eb - sb) * bs))
      | WData d => m_write sb eb 0 d
      end
    else
      let buf0 := zeros ((eb - sb + b2nat (0 <? er)) * bs) in
      tbind (if (0 <? sr) && (sb <? eb) then tbind (m_read sb (sb + 1)) (fun out => ret (Ok (put_at buf0 0 out))) else ret (Ok buf0))
        (fun buf1 =>
          tbind (if 0 <? er then tbind (m_read eb (eb + 1)) (fun out => ret (Ok (put_at buf1 ((eb - sb) * bs) out, max er (length out))))
                 else ret (Ok (buf1, 0)))
            (fun '(buf2, eff) =>
              m_write sb eb eff match w with WZero _ => buf2 | WData d => put_at buf2 sr d end)).

(** streams.cpp 270-298 *)
Definition p_unchecked_resize (cur new : nat) : M (res unit) :=
  if new =? cur then ret (Ok tt)
  else if new <? cur then
    let r := new mod bs in
    let bn := new / bs in
    tbind (if 0 <? r then tbind (m_read bn (bn + 1)) (fun out => m_write bn bn r (put_at (zeros bs) 0 out)) else ret (Ok tt))
      (fun _ => m_adjust new)
  else
    let ob := cur / bs in
    let nb := new / bs in
    tbind (if negb (bk_sparse B) || (ob =? nb) then p_unchecked_write (WZero (new - cur)) cur
           else p_unchecked_write (WZero (ob * bs + bs - cur)) cur)
      (fun _ => m_adjust new).

(** streams.cpp 202-213 and 268 *)
Definition p_write (off : nat) (d : bytes) : M (res unit) :=
  if length d <=? 0 then ret (Ok tt)
  else bind m_size (fun cur =>
    tbind (if cur <? off then p_unchecked_resize cur off else ret (Ok tt)) (fun _ => p_unchecked_write (WData d) off)).
Definition p_resize (n : nat) : M (res unit) := bind m_size (fun cur => p_unchecked_resize cur n).

(** sources/lite_format.h 146-165: one call on the crypt stream, in steps. *)
Definition p_step (o : sop) : M sout :=
  match o with
  | SRead off len => bind (p_read off len) (fun r => ret match r with Ok d => OData d | Err e => OFail e end)
  | SWrite off d => bind (p_write off d) (fun r => ret (res_out r))
  | SResize n => bind (p_resize n) (fun r => ret (res_out r))
  | SSize => bind m_size (fun n => ret (OSize n))
  end.
End Steps.

(** The operations on a lite file. *)
Section LiteBody.
Variable A : aead.
Variable bs iv_size : nat.
Variable check sparse : bool.
Variable rnd : nat -> nat -> bytes.
Variable iv_fuel : nat.
(** sources/lite_format.cpp 905-944: what is done between lock and unlock for a
    lite file. *)
Definition lite_body (key pad : bytes) (o : sop) (k : nat) : prog bytes sout :=
  p_step (lite_backend A bs iv_size check sparse rnd iv_fuel) bytes (bytes * bytes * nat)
    (fun f '(key, pad, k) => mkLite f key pad k) l_file (fun s => (l_key s, l_pad s, l_rng s)) sout
    o (key, pad, k) (fun r _ => PRet r).
End LiteBody.

(** The operations on a full-format file: the whole stream belongs to the one object of
    the file (C24), whose mutex all handles share. *)
Definition full_body (B : backend) (o : sop) : prog (bk_state B) sout :=
  p_step B (bk_state B) unit (fun s _ => s) (fun s => s) (fun _ => tt) sout o tt (fun r _ => PRet r).
