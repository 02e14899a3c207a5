(** What whoever watches the storage gets to see of a file, and an ideal cipher. *)
From Verif Require Import Base StreamSpec BlockModel LiteModel FullStreamModel CrashModel.

(** ** Everything that is ever written *)
(** The physical operations of a whole history, in order ([lite_trace], [full_trace]:
    CrashModel). *)
Fixpoint lite_history (A : aead) (bs iv_size : nat) (check sparse : bool) (session_key : bytes -> bytes) (padding_of : bytes -> nat)
    (rnd : nat -> nat -> bytes) (iv_fuel : nat) (s : lite_st) (ops : list lop) : list phys :=
  match ops with
  | [] => []
  | o :: l =>
      match o with LOp o' => lite_trace A bs iv_size check sparse rnd iv_fuel s o' | LReopen => [] end
      ++ lite_history A bs iv_size check sparse session_key padding_of rnd iv_fuel
           (fst (lite_step A bs iv_size check sparse session_key padding_of rnd iv_fuel s o)) l
  end.
Fixpoint full_history (A : aead) (hmac : bytes -> bytes -> bytes) (dkey mkey id : bytes) (bs iv_size header_size : nat)
    (check sparse : bool) (rnd : nat -> nat -> bytes) (iv_fuel : nat) (s : full_st) (ops : list fop) : list part :=
  match ops with
  | [] => []
  | o :: l =>
      full_trace A hmac dkey mkey id bs iv_size header_size check sparse rnd iv_fuel s o
      ++ full_history A hmac dkey mkey id bs iv_size header_size check sparse rnd iv_fuel
           (fst (full_step A hmac dkey mkey id bs iv_size header_size check sparse rnd iv_fuel s o)) l
  end.

(** ** The encrypted records among it *)
(** Pieces of [u] bytes. *)
Fixpoint cut (fuel u : nat) (d : bytes) : list bytes :=
  match fuel, d with
  | S f, _ :: _ => firstn u d :: cut f u (skipn u d)
  | _, _ => []
  end.
(** Lite: a write holds records of nonce, ciphertext and tag, one after the other. *)
Definition lite_records (bs iv_size : nat) (p : phys) : list bytes :=
  match p with PWrite _ d => cut (length d) (bs + iv_size + 16) d | PResize _ => [] end.
(** Full: in the metadata file, after the MAC of 32 bytes, the header's nonce, tag and
    ciphertext; then nonce and tag of each block.  Of all of them the nonces. *)
Definition full_nonces (iv_size header_size : nat) (p : part) : list bytes :=
  match p with
  | PMeta (PWrite o d) =>
      if o <? 32 then []
      else if o =? 32 then [firstn iv_size d]
      else map (firstn iv_size) (cut (length d) (iv_size + 16) d)
  | _ => []
  end.

(** ** An ideal cipher: a pad of its own for every key and nonce *)
Definition xor1 (x y : byte) : byte := n2b (N.lxor (b2n x) (b2n y)).
Fixpoint masked (pad : nat -> byte) (p : bytes) : bytes :=
  match p with [] => [] | x :: p' => xor1 x (pad 0) :: masked (fun i => pad (S i)) p' end.
(** [tag key nonce aad ciphertext]: any function. *)
Definition otp (tag : bytes -> bytes -> bytes -> bytes -> bytes) (pad : bytes -> bytes -> nat -> byte) : aead :=
  mkAead (fun k iv ad p => (masked (pad k iv) p, tag k iv ad (masked (pad k iv) p)))
         (fun k iv ad ct mac => (bytes_eqb mac (tag k iv ad ct), masked (pad k iv) ct)).

(** ** Histories that differ in the data only *)
Definition alike (o1 o2 : sop) : Prop :=
  match o1, o2 with
  | SWrite off1 d1, SWrite off2 d2 => off1 = off2 /\ length d1 = length d2
  | _, _ => o1 = o2
  end.
Definition lalike (o1 o2 : lop) : Prop :=
  match o1, o2 with LOp a, LOp b => alike a b | _, _ => o1 = o2 end.
Definition falike (o1 o2 : fop) : Prop :=
  match o1, o2 with FOp a, FOp b => alike a b | FWriteHeader _, FWriteHeader _ => True | _, _ => o1 = o2 end.
