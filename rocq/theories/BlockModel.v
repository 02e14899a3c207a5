(** Model of [BlockBasedStream] (sources/streams.h 95-130, sources/streams.cpp
    168-298): a byte-granular stream on top of block-granular virtual methods. *)
From Verif Require Import Base StreamSpec.

(** The virtual methods a concrete stream supplies.

    [bk_read a b s] is [read_multi_blocks(a, b, output)]; on success it gives
    the bytes stored to [output], whose number is the method's return value.
    [bk_write a e r d s] is [write_multi_blocks(a, e, r, d)].
    [bk_max] is the largest accepted block number.
    Simplification: [read_multi_blocks] may scribble on the scratch member
    [m_auxiliary], which carries no information between calls, so reads do not
    return a new state. *)
(** sources/streams.h 95-130: the members a subclass of BlockBasedStream
    supplies (read_multi_blocks, write_multi_blocks, adjust_logical_size, size,
    is_sparse). *)
Record backend := mkBackend {
  bk_state : Type;
  bk_bs : nat;                                    (* m_block_size *)
  bk_max : N;
  bk_sparse : bool;                               (* is_sparse() *)
  bk_size : bk_state -> nat;                      (* size() *)
  bk_read : nat -> nat -> bk_state -> res bytes;
  bk_write : nat -> nat -> nat -> bytes -> bk_state -> bk_state * res unit;
  bk_adjust : nat -> bk_state -> bk_state * res unit   (* adjust_logical_size *)
}.

(** [number > MAX_BLOCKS] (lite_stream.cpp 149, 209) and
    [number > max_block_number] (streams.cpp 386, 435), with the bound kept in
    binary. *)
Definition over_max (max : N) (b : nat) : bool := (max <? N.of_nat b)%N.

(** Helper (no code): bk_max as a nat. *)
Definition bk_maxn (B : backend) : nat := N.to_nat (bk_max B).

Section Block.
  Variable B : backend.
  Notation St := (bk_state B).
  Notation bs := (bk_bs B).

  (** [(end_residue > 0)] used as an integer. *)
  Definition b2nat (b : bool) : nat := if b then 1 else 0.

  (** [BlockBasedStream::read], streams.cpp 177-200. *)
  Definition bb_read (off len : nat) (s : St) : res bytes :=
    if len <=? 0 then Ok []
    else
      let sb := off / bs in let sr := off mod bs in
      let eb := (off + len) / bs in let er := (off + len) mod bs in
      if (sr =? 0) && (er =? 0) then bk_read B sb eb s
      else
        rbind (bk_read B sb (eb + b2nat (0 <? er)) s) (fun out =>
          if length out <=? sr then Ok []
          else Ok (arr_read out sr (min (length out - sr) len))).

  (** The input of [unchecked_write]: data or [ZeroFillTag] with a length. *)
  (** sources/streams.h 112-118: std::variant of a pointer and ZeroFillTag. *)
  Inductive winput := WData (d : bytes) | WZero (len : nat).

  (** Helper: the length argument passed beside the variant (sources/streams.cpp
      215-217). *)
  Definition winput_len (w : winput) : nat :=
    match w with WData d => length d | WZero n => n end.

  (** [BlockBasedStream::unchecked_write], streams.cpp 215-261. *)
  Definition bb_unchecked_write (w : winput) (off : nat) (s : St) : St * res unit :=
    let len := winput_len w in
    if len <=? 0 then (s, Ok tt)
    else
      let sb := off / bs in let sr := off mod bs in
      let eb := (off + len) / bs in let er := (off + len) mod bs in
      if (sr =? 0) && (er =? 0) then
        match w with
        | WZero _ => bk_write B sb eb 0 (zeros ((eb - sb) * bs)) s
        | WData d => bk_write B sb eb 0 d s
        end
      else
        let buf0 := zeros ((eb - sb + b2nat (0 <? er)) * bs) in
        let r1 :=
          if (0 <? sr) && (sb <? eb)
          then rmap (put_at buf0 0) (bk_read B sb (sb + 1) s)
          else Ok buf0 in
        match r1 with
        | Err e => (s, Err e)
        | Ok buf1 =>
            let r2 :=
              if 0 <? er
              then rmap (fun out => (put_at buf1 ((eb - sb) * bs) out, max er (length out)))
                        (bk_read B eb (eb + 1) s)
              else Ok (buf1, 0) in
            match r2 with
            | Err e => (s, Err e)
            | Ok (buf2, eff) =>
                let buf3 := match w with WZero _ => buf2 | WData d => put_at buf2 sr d end in
                bk_write B sb eb eff buf3 s
            end
        end.

  (** Sequencing of two mutating steps; an exception stops the sequence. *)
  (** Helper: C++ sequencing with exceptions. *)
  Definition then_ (x : St * res unit) (k : St -> St * res unit) : St * res unit :=
    match x with
    | (s1, Ok _) => k s1
    | (s1, Err e) => (s1, Err e)
    end.

  (** [BlockBasedStream::zero_fill], streams.cpp 263-266. *)
  Definition bb_zero_fill (off fin : nat) (s : St) : St * res unit :=
    bb_unchecked_write (WZero (fin - off)) off s.

  (** [BlockBasedStream::unchecked_resize], streams.cpp 270-298. *)
  Definition bb_unchecked_resize (cur new : nat) (s : St) : St * res unit :=
    if new =? cur then (s, Ok tt)
    else if new <? cur then
      let r := new mod bs in
      let bn := new / bs in
      then_
        (if 0 <? r then
           match rmap (put_at (zeros bs) 0) (bk_read B bn (bn + 1) s) with
           | Err e => (s, Err e)
           | Ok buf => bk_write B bn bn r buf s
           end
         else (s, Ok tt))
        (bk_adjust B new)
    else
      let ob := cur / bs in
      let nb := new / bs in
      then_
        (if negb (bk_sparse B) || (ob =? nb)
         then bb_zero_fill cur new s
         else bb_zero_fill cur (ob * bs + bs) s)
        (bk_adjust B new).

  (** [BlockBasedStream::resize], streams.cpp 268. *)
  Definition bb_resize (new : nat) (s : St) : St * res unit :=
    bb_unchecked_resize (bk_size B s) new s.

  (** [BlockBasedStream::write], streams.cpp 202-213. *)
  Definition bb_write (off : nat) (d : bytes) (s : St) : St * res unit :=
    if length d <=? 0 then (s, Ok tt)
    else
      let cur := bk_size B s in
      then_
        (if cur <? off then bb_unchecked_resize cur off s else (s, Ok tt))
        (bb_unchecked_write (WData d) off).

  (** Helper (no code): a mutating call's result as an observable. *)
  Definition res_out (r : res unit) : sout :=
    match r with Ok _ => ODone | Err e => OFail e end.

  (** sources/streams.h 126-128: one call of the stream interface on a
      BlockBasedStream. *)
  Definition bb_step (s : St) (o : sop) : St * sout :=
    match o with
    | SRead off len =>
        (s, match bb_read off len s with Ok d => OData d | Err e => OFail e end)
    | SWrite off d => let '(s', r) := bb_write off d s in (s', res_out r)
    | SResize n => let '(s', r) := bb_resize n s in (s', res_out r)
    | SSize => (s, OSize (bk_size B s))
    end.
End Block.
