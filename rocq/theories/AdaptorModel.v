(** Model of the stream adaptors: [HMACStream] (sources/streams.cpp 48-157),
    [PaddedStream] (streams.h 149-187, streams.cpp 594-603) and
    [WriteCachedStream] (streams.h 189-224, streams.cpp 607-660), each over an
    arbitrary stream. *)
From Verif Require Import Base StreamSpec FullStreamModel.

(** A stream object: [StreamBase], streams.h 24-60. *)
Record strm := mkStrm {
  sm_st : Type;
  sm_step : sm_st -> sop -> sm_st * sout
}.

(** A stored file, as a stream ([FileStream], sources/unix.cpp). *)
Definition raw_file : strm := mkStrm bytes spec_step.

(** [PaddedStream::size] and the like subtract the prefix, never below zero. *)
(** sources/streams.h 165-169 and streams.cpp 131-137: the size without the
    prefix, 0 when the inner stream is shorter. *)
Definition minus_prefix (p : nat) (r : sout) : sout :=
  match r with
  | OSize n => OSize (if p <? n then n - p else 0)
  | x => x
  end.

Section Adaptors.
  Variable D : strm.

  (** ** [PaddedStream] *)
  (** sources/streams.h 155-173: every position is shifted by the padding size.
      *)
  Definition padded_step (p : nat) (s : sm_st D) (o : sop) : sm_st D * sout :=
    match o with
    | SRead off len => sm_step D s (SRead (off + p) len)
    | SWrite off d => sm_step D s (SWrite (off + p) d)
    | SResize n => sm_step D s (SResize (n + p))
    | SSize => let '(s', r) := sm_step D s SSize in (s', minus_prefix p r)
    end.

  (** sources/streams.h 149-187 (class PaddedStream) as a stream. *)
  Definition padded (p : nat) : strm := mkStrm (sm_st D) (padded_step p).

  (** Constructor, streams.cpp 594-603; [rnd] are the random bytes drawn. *)
  Definition padded_open (p : nat) (rnd : bytes) (s : sm_st D) : sm_st D * sout :=
    match sm_step D s SSize with
    | (s1, OSize n) => if n <? p then sm_step D s1 (SWrite 0 (firstn p rnd)) else (s1, ODone)
    | (s1, r) => (s1, r)
    end.

  (** ** [HMACStream] with its dirty flag *)
  (** sources/streams.cpp 117-154: read, write, resize, size and flush, with the
      dirty flag of line 54. *)
  Definition hmacd_step (s : sm_st D * bool) (o : sop) : (sm_st D * bool) * sout :=
    let '(d, dirty) := s in
    match o with
    | SRead off len => let '(d', r) := sm_step D d (SRead (off + hmac_len) len) in ((d', dirty), r)
    | SWrite off x => let '(d', r) := sm_step D d (SWrite (off + hmac_len) x) in ((d', true), r)
    | SResize n => let '(d', r) := sm_step D d (SResize (n + hmac_len)) in ((d', true), r)
    | SSize => let '(d', r) := sm_step D d SSize in ((d', dirty), minus_prefix hmac_len r)
    end.

  (** sources/streams.cpp 48-157 (class HMACStream) as a stream. *)
  Definition hmacd : strm := mkStrm (sm_st D * bool) hmacd_step.

  (** ** [WriteCachedStream] *)
  (** sources/streams.h 216-220: the members of WriteCachedStream. *)
  Record wc_st := mkWc {
    wc_d : sm_st D;
    wc_buf : bytes;        (* buffer_, fixed size *)
    wc_start : nat;        (* cached_start_ *)
    wc_len : nat           (* cached_length_ *)
  }.

  (** [flush_cache], streams.cpp 651-660. *)
  Definition wc_flush (s : wc_st) : wc_st * sout :=
    if wc_len s =? 0 then (s, ODone)
    else
      let '(d', r) := sm_step D (wc_d s) (SWrite (wc_start s) (firstn (wc_len s) (wc_buf s))) in
      match r with
      | ODone => (mkWc d' (wc_buf s) 0 0, ODone)
      | _ => (mkWc d' (wc_buf s) (wc_start s) (wc_len s), r)
      end.

  (** Helper (no code): the bytes of a read result. *)
  Definition out_data (r : sout) : bytes := match r with OData d => d | _ => [] end.

  (** [read], streams.cpp 607-637.  Simplification: an exception of the
      delegate in the two straddling cases is not modelled (those cases are
      shown unreachable). *)
  Definition wc_read (off len : nat) (s : wc_st) : wc_st * sout :=
    let '(d', r) :=
      if wc_len s =? 0 then sm_step D (wc_d s) (SRead off len)
      else if (wc_len s + wc_start s <=? off) || (off + len <=? wc_start s)
      then sm_step D (wc_d s) (SRead off len)
      else if (wc_start s <=? off) && (off + len <=? wc_start s + wc_len s)
      then (wc_d s, OData (arr_read (wc_buf s) (off - wc_start s) len))
      else if wc_start s <=? off then
        let cl := wc_len s - (off - wc_start s) in
        let '(d1, r1) := sm_step D (wc_d s) (SRead (off + cl) (len - cl)) in
        (d1, OData (arr_read (wc_buf s) (off - wc_start s) cl ++ out_data r1))
      else
        let cl := off + len - wc_start s in
        let '(d1, r1) := sm_step D (wc_d s) (SRead off (len - cl)) in
        (d1, OData (arr_resize (out_data r1) (len - cl) ++ firstn cl (wc_buf s)))
    in (mkWc d' (wc_buf s) (wc_start s) (wc_len s), r).

  (** [write], streams.cpp 638-650.  The middle branch does not extend
      [cached_length_]. *)
  Definition wc_write (off : nat) (x : bytes) (s : wc_st) : wc_st * sout :=
    if wc_len s =? 0 then
      let '(d', r) := sm_step D (wc_d s) (SWrite off x) in
      (mkWc d' (wc_buf s) (wc_start s) (wc_len s), r)
    else if (wc_start s <=? off) && (off + length x <=? wc_start s + length (wc_buf s)) then
      (mkWc (wc_d s) (put_at (wc_buf s) (off - wc_start s) x) (wc_start s) (wc_len s), ODone)
    else
      match wc_flush s with
      | (s1, ODone) =>
          let '(d', r) := sm_step D (wc_d s1) (SWrite off x) in
          (mkWc d' (wc_buf s1) (wc_start s1) (wc_len s1), r)
      | (s1, r) => (s1, r)
      end.

  (** sources/streams.h 197-212 and streams.cpp 607-650: one call of the class.
      *)
  Definition wc_step (s : wc_st) (o : sop) : wc_st * sout :=
    match o with
    | SRead off len => wc_read off len s
    | SWrite off x => wc_write off x s
    | SResize n =>
        match wc_flush s with
        | (s1, ODone) =>
            let '(d', r) := sm_step D (wc_d s1) (SResize n) in
            (mkWc d' (wc_buf s1) (wc_start s1) (wc_len s1), r)
        | (s1, r) => (s1, r)
        end
    | SSize =>
        let '(d', r) := sm_step D (wc_d s) SSize in
        (mkWc d' (wc_buf s) (wc_start s) (wc_len s),
         match r with OSize n => OSize (max (wc_len s + wc_start s) n) | x => x end)
    end.

  (** sources/streams.h 189-224 (class WriteCachedStream) as a stream. *)
  Definition wcached : strm := mkStrm wc_st wc_step.

  (** Constructor, streams.h 194-197. *)
  Definition wc_open (cache_size : nat) (d : sm_st D) : wc_st := mkWc d (zeros cache_size) 0 0.
End Adaptors.
