(** What may be left of a file when operations on it are cut short, and which blocks an
    operation touches. *)
From Verif Require Import Base StreamSpec CrashModel.

(** Process death and loss of power alike: of the operations [l] on a file [f] any part may
    be missing, in any order, and the bytes in the written ranges may be anything.  All that
    is left is this: no byte outside the written ranges is different, the file is not shorter
    than it was and than the sizes it was cut to, nor longer than it was and than the ends of
    the writes and sizes. *)
Definition reaches (p : phys) (i : nat) : Prop :=
  match p with PWrite off d => off <= i < off + length d | PResize n => n <= i end.
Definition far (p : phys) : nat := match p with PWrite off [] => 0 | PWrite off d => off + length d | PResize n => n end.
Record left_over (f : bytes) (l : list phys) (f' : bytes) : Prop := {
  lo_kept : forall i, i < length f -> i < length f' -> (forall p, In p l -> ~ reaches p i) -> nth i f' x00 = nth i f x00;
  lo_min : forall k, k <= length f -> (forall n, In (PResize n) l -> k <= n) -> k <= length f';
  lo_max : forall k, length f <= k -> (forall p, In p l -> far p <= k) -> length f' <= k
}.

(** The blocks of [bs] bytes that an operation on a file of [n] bytes touches: those the
    written range overlaps; if the file gets longer those from its old end on, if it gets
    shorter those from its new end on. *)
Definition touches (bs n : nat) (o : sop) (i : nat) : Prop :=
  match o with
  | SWrite off d => d <> [] /\ i * bs < off + length d /\ min off n < (i + 1) * bs
  | SResize m => m <> n /\ min m n < (i + 1) * bs
  | SRead _ _ | SSize => False
  end.

(** The range [off, off + len) lies in untouched blocks of the old content. *)
Definition untouched (bs n : nat) (o : sop) (off len : nat) : Prop :=
  off + len <= n /\ forall i, i * bs < off + len -> off < (i + 1) * bs -> ~ touches bs n o i.
