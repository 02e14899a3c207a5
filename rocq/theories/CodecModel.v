(** Integer codec of sources/myutils.h. *)
From Verif Require Import Base.

(** [to_little_endian<T>], myutils.h 269-279, with [w = sizeof(T)]:
    [bytes[i] = value >> (8 * i)]. *)
Definition to_le (w : nat) (value : N) : bytes :=
  map (fun i => n2b (N.shiftr value (8 * N.of_nat i))) (seq 0 w).

(** [from_little_endian<T>], myutils.h 281-293, on exactly [sizeof(T)] bytes:
    [value |= bytes[i] << (8 * i)]. *)
Definition from_le (l : bytes) : N :=
  fold_left (fun v i => N.lor v (N.shiftl (b2n (nth i l x00)) (8 * N.of_nat i)))
            (seq 0 (length l)) 0%N.

(** [to_inode_number], myutils.h 321-326: bitwise complement of the first eight
    bytes of the id read as a 64-bit little-endian number. *)
Definition inode_number (id : bytes) : N :=
  N.lxor (from_le (firstn 8 id)) (N.ones 64).
