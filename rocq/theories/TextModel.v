(** Text codecs of sources/mystring.cpp: hexadecimal and base32. *)
From Coq Require Import Strings.String.
From Verif Require Import Base.
Local Open Scope list_scope.

(** Helper (no code): a string literal as bytes. *)
Definition str (s : string) : bytes := list_byte_of_string s.

(** ** Hexadecimal *)

(** The table of [hexify], mystring.cpp 160, and the [switch] labels of
    [parse_hex], mystring.cpp 40-144. *)
Definition hex_table : bytes := str "0123456789abcdef".

(** [hexify], mystring.cpp 158-169. *)
Definition hexify (data : bytes) : bytes :=
  flat_map (fun b => [nth (N.to_nat (b2n b / 16)) hex_table x00;
                      nth (N.to_nat (b2n b mod 16)) hex_table x00]) data.

(** Position of a character in a table; the [case] labels. *)
(** Helper: std::strchr (sources/mystring.cpp 249 and 254) and the tables of
    mystring.cpp. *)
Fixpoint index_of (c : byte) (t : bytes) : option nat :=
  match t with
  | [] => None
  | x :: t' => if Byte.eqb c x then Some 0 else option_map S (index_of c t')
  end.

(** The loop of [parse_hex], mystring.cpp 38-145. *)
Fixpoint parse_hex_loop (hex : bytes) : res bytes :=
  match hex with
  | h :: l :: hex' =>
      match index_of h hex_table, index_of l hex_table with
      | Some a, Some b => rmap (cons (n2b (N.of_nat a * 16 + N.of_nat b))) (parse_hex_loop hex')
      | _, _ => Err EInval
      end
  | _ => Ok []
  end.

(** [parse_hex], mystring.cpp 21-28 and 30-36. *)
Definition parse_hex (hex : bytes) : res bytes :=
  if negb (length hex mod 2 =? 0) then Err EInval else parse_hex_loop hex.

(** ** Base32 *)

(** mystring.cpp 171-172. *)
Definition upper32 : bytes := str "ABCDEFGHIJKMNPQRSTUVWXYZ23456789".
Definition lower32 : bytes := str "abcdefghijkmnpqrstuvwxyz23456789".

Local Open Scope N_scope.

(** [get_alphabet_index], mystring.cpp 174-195. *)
Definition get_alphabet_index (b next : N) (i : nat) : N :=
  match i with
  | 0%nat => N.land (N.shiftr b 3) 31
  | 1%nat => N.land (N.shiftr b 2) 31
  | 2%nat => N.land (N.shiftr b 1) 31
  | 3%nat => N.land b 31
  | 4%nat => N.lor (N.shiftl (N.land b 15) 1) (N.shiftr next 7)
  | 5%nat => N.lor (N.shiftl (N.land b 7) 2) (N.shiftr next 6)
  | 6%nat => N.lor (N.shiftl (N.land b 3) 3) (N.shiftr next 5)
  | _ => N.lor (N.shiftl (N.land b 1) 4) (N.shiftr next 4)
  end.

(** [get_base32_pair], mystring.cpp 217-239. *)
Definition get_base32_pair (group : N) (i : nat) : N * N :=
  match i with
  | 0%nat => (N.shiftl group 3, 0)
  | 1%nat => (N.shiftl group 2, 0)
  | 2%nat => (N.shiftl group 1, 0)
  | 3%nat => (group, 0)
  | 4%nat => (N.shiftr group 1, N.shiftl (N.land group 1) 7)
  | 5%nat => (N.shiftr group 2, N.shiftl (N.land group 3) 6)
  | 6%nat => (N.shiftr group 3, N.shiftl (N.land group 7) 5)
  | _ => (N.shiftr group 4, N.shiftl (N.land group 15) 4)
  end.

Local Open Scope nat_scope.

(** The [k]-th iteration of the loop of [base32_encode], mystring.cpp 202-214
    ([bit_index = 5 * k]). *)
Definition encode_group (input : bytes) (k : nat) : N :=
  let byte_index := 5 * k / 8 in
  get_alphabet_index (b2n (nth byte_index input x00))
    (b2n (if byte_index + 1 <? length input then nth (byte_index + 1) input x00 else x00))
    (5 * k mod 8).

(** Number of iterations of [for (bit_index = 0; bit_index < size * 8; bit_index += 5)]. *)
Definition encode_groups (size : nat) : nat := (size * 8 + 4) / 5.

(** [base32_encode], mystring.cpp 197-215. *)
Fixpoint base32_encode_loop (input : bytes) (ks : list nat) : res bytes :=
  match ks with
  | [] => Ok []
  | k :: ks' =>
      let g := encode_group input k in
      if (32 <=? g)%N then Err ERange
      else rmap (cons (nth (N.to_nat g) upper32 x00)) (base32_encode_loop input ks')
  end.
Definition base32_encode (input : bytes) : res bytes :=
  base32_encode_loop input (seq 0 (encode_groups (length input))).

(** [strchr] also finds the terminating NUL. *)
(** sources/mystring.cpp 249 and 254. *)
Definition strchr_index (t : bytes) (c : byte) : option nat := index_of c (t ++ [x00]).

(** sources/mystring.cpp 249-260. *)
Definition decode_group (c : byte) : option nat :=
  match strchr_index upper32 c with
  | Some g => Some g
  | None => strchr_index lower32 c
  end.

(** [out[i] |= v]. *)
(** sources/mystring.cpp 270 and 272. *)
Fixpoint or_at (out : bytes) (i : nat) (v : N) : bytes :=
  match out, i with
  | [], _ => []
  | x :: out', 0 => n2b (N.lor (b2n x) v) :: out'
  | x :: out', S i' => x :: or_at out' i' v
  end.

(** The loop of [base32_decode], mystring.cpp 246-273. *)
Fixpoint base32_decode_loop (input : bytes) (i : nat) (out : bytes) : res bytes :=
  match input with
  | [] => Ok out
  | c :: input' =>
      match decode_group c with
      | None => Err EInval
      | Some g =>
          let byte_index := i * 5 / 8 in
          let '(p1, p2) := get_base32_pair (N.of_nat g) (i * 5 mod 8) in
          if length out <=? byte_index then Err ERange
          else
            let out1 := or_at out byte_index p1 in
            let out2 := if byte_index + 1 <? length out then or_at out1 (byte_index + 1) p2 else out1 in
            base32_decode_loop input' (S i) out2
      end
  end.

(** [base32_decode], mystring.cpp 241-274. *)
Definition base32_decode (input : bytes) : res bytes :=
  base32_decode_loop input 0 (zeros (length input * 5 / 8)).

(** [to_lower], mystring.cpp 10-19. *)
Definition lower_byte (c : byte) : byte :=
  if ((b2n x41 <=? b2n c) && (b2n c <=? b2n x5a))%N then n2b (b2n c + (b2n x61 - b2n x41)) else c.
Definition to_lower (s : bytes) : bytes := map lower_byte s.
