(** What RFC 5297 (S2V) and RFC 5869 (HKDF) say, written independently of the code. *)
From Verif Require Import Base.

(** A block read as a big-endian number. *)
Fixpoint be_val (l : bytes) : N :=
  match l with
  | [] => 0
  | b :: l' => b2n b * 2 ^ (8 * N.of_nat (length l')) + be_val l'
  end%N.

(** RFC 5297 2.3, doubling in GF(2^128): multiply by x modulo
    x^128 + x^7 + x^2 + x + 1. *)
Definition gf_double (n : N) : N :=
  (if n <? 2 ^ 127 then 2 * n else N.lxor (2 * n - 2 ^ 128) 135)%N.

(** A sixteen-byte string is the xor of two others, as numbers. *)
Definition is_xor (c a b : bytes) : Prop :=
  length c = 16 /\ be_val c = N.lxor (be_val a) (be_val b).
Definition is_double (c a : bytes) : Prop := length c = 16 /\ be_val c = gf_double (be_val a).

(** RFC 5297 2.4 with at most one associated-data string (absent when empty),
    as a relation between inputs and the synthetic IV. *)
Definition rfc5297_s2v (cmac : bytes -> bytes) (ad p v : bytes) : Prop :=
  exists d, (* D after the associated data *)
    (ad = [] /\ d = cmac (zeros 16) \/
     ad <> [] /\ exists e, is_double e (cmac (zeros 16)) /\ is_xor d e (cmac ad)) /\
    (16 <= length p /\ (exists front last t, p = front ++ last /\ length last = 16 /\ is_xor t last d /\ v = cmac (front ++ t)) \/
     length p < 16 /\ (exists e pad t, is_double e d /\ pad = p ++ [n2b 128] ++ zeros (15 - length p) /\ is_xor t e pad /\ v = cmac t)).

(** RFC 5869 2.3: T(0) is empty, T(n) = HMAC(PRK, T(n-1) | info | n). *)
Fixpoint rfc5869_T (hmac : bytes -> bytes -> bytes) (prk info : bytes) (n : nat) : bytes :=
  match n with
  | 0 => []
  | S m => hmac prk (rfc5869_T hmac prk info m ++ info ++ [n2b (N.of_nat n)])
  end.
(** OKM: the first [len] bytes of T(1) | T(2) | ... *)
Definition rfc5869_okm (hmac : bytes -> bytes -> bytes) (prk info : bytes) (len : nat) : bytes :=
  firstn len (concat (map (rfc5869_T hmac prk info) (seq 1 ((len + 31) / 32)))).
