(** A file that has a largest size [M]: which operations fail because of it, and what they
    leave.  Nothing here knows of blocks, apart from the block size in one place. *)
From Verif Require Import Base StreamSpec.
Local Open Scope list_scope.

Section Limit.
Variable sparse : bool.      (* the host knows holes *)
Variable bs M : nat.

(** Growing: refused beyond the limit; with holes only if the file has reached it.
    Shrinking: refused if what remains ends beyond the limit within a block. *)
Definition lim_resize (c : bytes) (n : nat) : bytes * sout :=
  if n =? length c then (c, ODone)
  else if n <? length c then
    if (M <? n) && negb (n mod bs =? 0) then (c, OFail ETooLong) else (firstn n c, ODone)
  else if (if sparse then M <=? length c else M <? n) then (c, OFail ETooLong)
  else (arr_resize c n, ODone).

(** Reading and writing: refused if they end beyond the limit, but a write that begins
    after the end of the file first extends the file up to there. *)
Definition lim_step (c : bytes) (o : sop) : bytes * sout :=
  match o with
  | SRead off len => (c, if (0 <? len) && (M <? off + len) then OFail ETooLong else OData (arr_read c off len))
  | SWrite off d =>
    if length d =? 0 then (c, ODone)
    else
      match (if length c <? off then lim_resize c off else (c, ODone)) with
      | (c1, OFail e) => (c1, OFail e)
      | (c1, _) => if M <? off + length d then (c1, OFail ETooLong) else (arr_write c1 off d, ODone)
      end
  | SResize n => lim_resize c n
  | SSize => (c, OSize (length c))
  end.

(** With closing and opening again (lite), and with headers (full). *)
Definition lim_lite (c : bytes) (o : lop) : bytes * lout :=
  match o with
  | LOp o' => let '(c', r) := lim_step c o' in (c', LOut r)
  | LReopen => (c, LReopened)
  end.
Definition lim_full (hs : nat) (st : bytes * option bytes) (o : fop) : (bytes * option bytes) * fout :=
  match o with
  | FOp o' => let '(c', r) := lim_step (fst st) o' in ((c', snd st), FOut r)
  | _ => fspec_step hs st o
  end.
End Limit.

(** Headers of full files have a fixed room; asking for more is outside of this property. *)
Definition header_within (hs : nat) (o : fop) : Prop :=
  match o with FWriteHeader h => length h <= hs | FReadHeader len => len <= hs | _ => True end.

(** What a call that failed stands for: nothing, or the extension of the file with zeros. *)
Definition leftover (o : sop) (l : list sop) : Prop :=
  l = [] \/ exists off d, o = SWrite off d /\ l = [SResize off].
