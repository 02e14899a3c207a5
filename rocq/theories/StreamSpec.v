(** Specification of a file's content: a plain byte array.

    This file is the "small separate specification" of C01, C02 and C07.  It
    mentions nothing of blocks, encryption or files on disk. *)
From Verif Require Import Base.

(** The operations a user of a stream can perform
    ([StreamBase::read, write, resize, size], sources/streams.h 24-60). *)
Inductive sop : Type :=
| SRead (off len : nat)
| SWrite (off : nat) (data : bytes)
| SResize (n : nat)
| SSize.

Inductive sout : Type :=
| OData (d : bytes)     (* bytes returned by a read *)
| ODone                 (* write / resize returned normally *)
| OSize (n : nat)
| OFail (e : err).      (* exception *)

Definition spec_step (c : bytes) (o : sop) : bytes * sout :=
  match o with
  | SRead off len => (c, OData (arr_read c off len))
  | SWrite off d => (arr_write c off d, ODone)
  | SResize n => (arr_resize c n, ODone)
  | SSize => (c, OSize (length c))
  end.

(** Run a list of operations with any step function. *)
Fixpoint run_ops {S O R} (step : S -> O -> S * R) (s : S) (l : list O) : S * list R :=
  match l with
  | [] => (s, [])
  | o :: l' =>
      let '(s1, r) := step s o in
      let '(s2, rs) := run_ops step s1 l' in
      (s2, r :: rs)
  end.

(** An operation that stays within the maximal file size [limit]. *)
Definition sop_within (limit : nat) (o : sop) : Prop :=
  match o with
  | SRead off len => off + len <= limit
  | SWrite off d => off + length d <= limit
  | SResize n => n <= limit
  | SSize => True
  end.

(** Histories in which the file may also be closed and opened again. *)
Inductive lop : Type := LOp (o : sop) | LReopen.
Inductive lout : Type := LOut (r : sout) | LReopened.

(** Closing and reopening must change nothing. *)
Definition lspec_step (c : bytes) (o : lop) : bytes * lout :=
  match o with
  | LOp o' => let '(c', r) := spec_step c o' in (c', LOut r)
  | LReopen => (c, LReopened)
  end.

Definition lop_within (limit : nat) (o : lop) : Prop :=
  match o with LOp o' => sop_within limit o' | LReopen => True end.

(** Full-format files carry, beside their content, a header (the stored
    attributes) of at most [hs] bytes; a shorter header is padded with zeros.
    Reading a header before one was written is left unspecified
    ([FAny]: any output is allowed). *)
Inductive fop : Type :=
| FOp (o : sop)
| FWriteHeader (h : bytes)
| FReadHeader (len : nat)
| FFlush
| FReopen.

Inductive fout : Type :=
| FOut (r : sout)
| FHeader (h : option bytes)
| FReopened
| FAny.

Definition fspec_step (hs : nat) (st : bytes * option bytes) (o : fop) : (bytes * option bytes) * fout :=
  let '(c, h) := st in
  match o with
  | FOp o' => let '(c', r) := spec_step c o' in ((c', h), FOut r)
  | FWriteHeader w => ((c, Some (w ++ zeros (hs - length w))), FOut ODone)
  | FReadHeader len =>
      (st, match h with Some p => FHeader (Some (firstn len p)) | None => FAny end)
  | FFlush => (st, FOut ODone)
  | FReopen => (st, FReopened)
  end.

Definition fop_within (limit hs : nat) (o : fop) : Prop :=
  match o with
  | FOp o' => sop_within limit o'
  | FWriteHeader h => length h <= hs
  | FReadHeader len => len <= hs
  | _ => True
  end.

(** Outputs agree wherever the specification fixes them. *)
Definition fout_ok (spec impl : fout) : Prop := spec = FAny \/ spec = impl.

(** A stream implementation (its step function) behaves as the byte array, for
    contents and operations of at most [limit] bytes; [R s c] relates a state to
    the content it stands for. *)
Definition behaves_as_array {St} (step : St -> sop -> St * sout) (R : St -> bytes -> Prop)
    (limit : nat) : Prop :=
  forall s c o, R s c -> length c <= limit -> sop_within limit o ->
    exists s', step s o = (s', snd (spec_step c o)) /\ R s' (fst (spec_step c o)).
