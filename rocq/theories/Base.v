(** Common vocabulary: bytes, byte strings, outcomes, and the byte-array
    specification used for both "what a user expects from a file" and "what a
    POSIX file does under pread / pwrite / ftruncate". *)
From Coq Require Export List Arith NArith ZArith Lia Bool.
From Coq Require Export Strings.Byte.
From Coq Require Export ZifyBool ZifyNat ZifyN.
Export ListNotations.

Notation byte := Byte.byte.
Notation bytes := (list Byte.byte).

(** ** Bytes as numbers *)

Definition b2n (b : byte) : N := Byte.to_N b.

(** C++ conversion of an unsigned integer to [unsigned char] (truncation). *)
Definition n2b (n : N) : byte :=
  match Byte.of_N (n mod 256)%N with Some b => b | None => x00 end.

Definition zeros (n : nat) : bytes := repeat x00 n.

(** [is_all_zeros], sources/myutils.h 263-267. *)
Definition all_zero (l : bytes) : bool := forallb (Byte.eqb x00) l.

(** Equality test on byte strings ([memcmp] of equal-length buffers, or
    [std::string::operator==]). *)
Fixpoint bytes_eqb (a b : bytes) : bool :=
  match a, b with
  | [], [] => true
  | x :: a', y :: b' => Byte.eqb x y && bytes_eqb a' b'
  | _, _ => false
  end.

(** ** Outcomes of an operation: a value, or a thrown exception. *)
Inductive err : Set :=
| ETooLong        (* StreamTooLongException *)
| EVerify         (* (Lite)MessageVerificationException, HMAC mismatch, ... *)
| EInval          (* InvalidArgumentException *)
| ECorrupt        (* CorruptedMetaDataException / CorruptedDirectoryException *)
| ERange          (* std::out_of_range, std::range_error *)
| EPosix (n : N)  (* VFSException / POSIXException with an errno *)
| EFuel           (* not a program outcome: the model ran out of fuel *)
| EUndef.         (* undefined behaviour in the C++ program *)

Inductive res (A : Type) : Type :=
| Ok (a : A)
| Err (e : err).
Arguments Ok {A} a.
Arguments Err {A} e.

Definition rbind {A B} (x : res A) (f : A -> res B) : res B :=
  match x with Ok a => f a | Err e => Err e end.

Definition rmap {A B} (f : A -> B) (x : res A) : res B :=
  match x with Ok a => Ok (f a) | Err e => Err e end.

(** ** The byte-array specification

    Also the model of [pread], [pwrite] and [ftruncate] on a regular file
    (sources/unix.cpp, UnixFileStream::read, write, resize). *)

Definition arr_read (c : bytes) (off len : nat) : bytes :=
  firstn len (skipn off c).

Definition arr_resize (c : bytes) (n : nat) : bytes :=
  firstn n c ++ zeros (n - length c).

Definition arr_write (c : bytes) (off : nat) (d : bytes) : bytes :=
  match d with
  | [] => c
  | _ :: _ => firstn off (arr_resize c (max off (length c))) ++ d ++ skipn (off + length d) c
  end.

(** Overwrite part of a fixed-size memory buffer ([memcpy] into it); only used
    where the destination range lies inside the buffer. *)
Definition put_at (buf : bytes) (off : nat) (d : bytes) : bytes :=
  firstn off buf ++ d ++ skipn (off + length d) buf.
