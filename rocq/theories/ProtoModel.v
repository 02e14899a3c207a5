(** The protocol-buffers wire format, as far as sources/params_io.cpp needs it: the
    generated SerializeAsString and ParseFromString of protos/params.proto.

    This is the published encoding (proto3, C++): fields in order of their numbers, fields
    with default values left out, embedded messages merged when they occur again, unknown
    fields and fields with another wire type skipped, strings checked to be UTF-8 when
    parsed, and not when written.  Simplified: unknown fields are dropped, not kept. *)
From Verif Require Import Base.
Local Open Scope N_scope.
Local Open Scope list_scope.

(** ** Numbers *)
(** Protobuf's wire format (libprotobuf, used at sources/params_io.cpp 303, 321 and 347): a varint. *)
Fixpoint enc_varint_ (fuel : nat) (n : N) : bytes :=
  match fuel with
  | O => []
  | S f => if n <? 128 then [n2b n] else n2b (n mod 128 + 128) :: enc_varint_ f (n / 128)
  end.
(** Protobuf's wire format (libprotobuf, used at sources/params_io.cpp 303, 321 and 347): a varint of at most ten bytes. *)
Definition enc_varint (n : N) : bytes := enc_varint_ 10 n.
(** Protobuf's wire format (libprotobuf, used at sources/params_io.cpp 303, 321 and 347): reading a varint. *)
Fixpoint dec_varint_ (fuel : nat) (bs : bytes) : option (N * bytes) :=
  match fuel, bs with
  | S f, b :: r =>
    if b2n b <? 128 then Some (b2n b, r)
    else match dec_varint_ f r with Some (n, r') => Some (b2n b - 128 + 128 * n, r') | None => None end
  | _, _ => None
  end.
Definition dec_varint (bs : bytes) : option (N * bytes) :=
  match dec_varint_ 10 bs with Some (n, r) => Some (n mod 18446744073709551616, r) | None => None end.
(** Tags: at most five bytes, 32 bits.  Lengths: below 2^31 - 16. *)
Definition dec_tag (bs : bytes) : option (N * bytes) :=
  match dec_varint_ 5 bs with Some (n, r) => Some (n mod 4294967296, r) | None => None end.
Definition max_len : N := 2147483632.
Definition dec_len (bs : bytes) : option (nat * bytes) :=
  match dec_varint_ 5 bs with Some (n, r) => if n <? max_len then Some (N.to_nat n, r) else None | None => None end.

(** ** Fields *)
(** Protobuf's wire format (libprotobuf, used at sources/params_io.cpp 303, 321 and 347): wire types 0, 1, 2, 3 and 5. *)
Inductive val :=
| VInt (n : N)
| V64 (b : bytes)
| VLen (b : bytes)
| VGroup (l : list (N * val))
| V32 (b : bytes).
(** Protobuf's wire format (libprotobuf, used at sources/params_io.cpp 303, 321 and 347): field number and value. *)
Definition field := (N * val)%type.

(** Protobuf's wire format (libprotobuf, used at sources/params_io.cpp 303, 321 and 347): writing a field. *)
Definition enc_field (f : field) : bytes :=
  match f with
  | (k, VInt n) => enc_varint (k * 8) ++ enc_varint n
  | (k, V64 b) => enc_varint (k * 8 + 1) ++ b
  | (k, VLen b) => enc_varint (k * 8 + 2) ++ enc_varint (N.of_nat (length b)) ++ b
  | (k, VGroup _) => []                                  (* never written *)
  | (k, V32 b) => enc_varint (k * 8 + 5) ++ b
  end.
(** Protobuf's wire format (libprotobuf, used at sources/params_io.cpp 303, 321 and 347): writing a message. *)
Definition enc_fields (l : list field) : bytes := concat (map enc_field l).

(** Helper (no code): the next bytes of the input. *)
Definition take_bytes (n : nat) (bs : bytes) : option (bytes * bytes) :=
  if (length bs <? n)%nat then None else Some (firstn n bs, skipn n bs).

(** The fields up to the end of the input ([grp = None]) or of group [grp], and the rest. *)
(** Protobuf's wire format (libprotobuf, used at sources/params_io.cpp 303, 321 and 347): reading a message. *)
Fixpoint parse_fields (fuel depth : nat) (grp : option N) (bs : bytes) : option (list field * bytes) :=
  match fuel with
  | O => None
  | S f =>
    match bs with
    | [] => match grp with None => Some ([], []) | Some _ => None end
    | _ :: _ =>
      match dec_tag bs with
      | None => None
      | Some (tag, r) =>
        let num := tag / 8 in
        if tag mod 8 =? 4 then match grp with Some g => if g =? num then Some ([], r) else None | None => None end
        else if num =? 0 then None
        else
          let value :=
            match tag mod 8 with
            | 0 => match dec_varint r with Some (n, r') => Some (VInt n, r') | None => None end
            | 1 => match take_bytes 8 r with Some (b, r') => Some (V64 b, r') | None => None end
            | 2 => match dec_len r with
                   | Some (n, r') => match take_bytes n r' with Some (b, r2) => Some (VLen b, r2) | None => None end
                   | None => None
                   end
            | 3 => match depth with
                   | O => None
                   | S d => match parse_fields f d (Some num) r with Some (l, r') => Some (VGroup l, r') | None => None end
                   end
            | 5 => match take_bytes 4 r with Some (b, r') => Some (V32 b, r') | None => None end
            | _ => None
            end in
          match value with
          | None => None
          | Some (v, r') => match parse_fields f depth grp r' with Some (l, r2) => Some ((num, v) :: l, r2) | None => None end
          end
      end
    end
  end.
(** Protobuf's wire format (libprotobuf, used at sources/params_io.cpp 303, 321 and 347): reading all of the input. *)
Definition parse_message (depth : nat) (bs : bytes) : option (list field) :=
  match parse_fields (S (length bs)) depth None bs with Some (l, _) => Some l | None => None end.

(** ** UTF-8 (RFC 3629) *)
Definition between (lo hi : N) (b : byte) : bool := (lo <=? b2n b) && (b2n b <=? hi).
Definition cont := between 128 191.
Fixpoint valid_utf8 (s : bytes) : bool :=
  match s with
  | [] => true
  | a :: r =>
    if b2n a <? 128 then valid_utf8 r
    else if between 194 223 a then match r with b :: r1 => cont b && valid_utf8 r1 | _ => false end
    else if between 224 239 a then
      match r with
      | b :: c :: r2 => between (if b2n a =? 224 then 160 else 128) (if b2n a =? 237 then 159 else 191) b && cont c && valid_utf8 r2
      | _ => false
      end
    else if between 240 244 a then
      match r with
      | b :: c :: d :: r3 => between (if b2n a =? 240 then 144 else 128) (if b2n a =? 244 then 143 else 191) b && cont c && cont d && valid_utf8 r3
      | _ => false
      end
    else false
  end.

(** ** The messages of protos/params.proto *)
(** DecryptedSecurefsParams.SizeParams *)
(** protos/params.proto 33-38. *)
Record size_params := mkSize { z_block : N; z_iv : N; z_padding : N }.
(** LiteFormatParams *)
(** protos/params.proto 42-50. *)
Record lite_params := mkLite { i_name : bytes; i_content : bytes; i_xattr : bytes; i_padding : bytes; i_threshold : option N; i_suffix : bytes }.
(** FullFormatParams *)
(** protos/params.proto 52-59. *)
Record full_params := mkFullP { u_master : bytes; u_store_time : bool; u_legacy_io : bool; u_nocase : bool; u_nonorm : bool }.
(** protos/params.proto 61-65. *)
Inductive format_params := FNone | FLite (l : lite_params) | FFull (f : full_params).
(** DecryptedSecurefsParams *)
Record dec_params := mkDec { d_size : option size_params; d_format : format_params }.
(** EncryptedSecurefsParams.Argon2idParams, EncryptedSecurefsParams *)
Record argon_params := mkArgon { a_time : N; a_memory : N; a_parallel : N }.
Record enc_params := mkEnc { e_salt : bytes; e_iv : bytes; e_mac : bytes; e_ct : bytes; e_argon : option argon_params }.

(** protos/params.proto 33-38: default values. *)
Definition size0 := mkSize 0 0 0.
(** protos/params.proto 42-50: default values. *)
Definition lite0 := mkLite [] [] [] [] None [].
(** protos/params.proto 52-59: default values. *)
Definition full0 := mkFullP [] false false false false.
(** protos/params.proto 75-80: default values. *)
Definition argon0 := mkArgon 0 0 0.
(** protos/params.proto 31-66: default values. *)
Definition dec0 := mkDec None FNone.
(** protos/params.proto 68-86: default values. *)
Definition enc0 := mkEnc [] [] [] [] None.

(** Writing: default values are left out. *)
(** libprotobuf, used at sources/params_io.cpp 303, 321 and 347: writing a uint32 field of proto3. *)
Definition w_int (k n : N) : list field := if n =? 0 then [] else [(k, VInt n)].
(** libprotobuf, used at sources/params_io.cpp 303, 321 and 347: writing a bool field of proto3. *)
Definition w_bool (k : N) (b : bool) : list field := if b then [(k, VInt 1)] else [].
(** libprotobuf, used at sources/params_io.cpp 303, 321 and 347: writing a bytes or string field of proto3. *)
Definition w_bytes (k : N) (b : bytes) : list field := match b with [] => [] | _ => [(k, VLen b)] end.
(** protos/params.proto 33-38. *)
Definition size_fields (s : size_params) : list field := w_int 1 (z_block s) ++ w_int 2 (z_iv s) ++ w_int 3 (z_padding s).
(** protos/params.proto 42-50. *)
Definition lite_fields (l : lite_params) : list field :=
  w_bytes 1 (i_name l) ++ w_bytes 2 (i_content l) ++ w_bytes 3 (i_xattr l) ++ w_bytes 4 (i_padding l) ++
  match i_threshold l with Some n => [(5, VInt n)] | None => [] end ++ w_bytes 6 (i_suffix l).
(** protos/params.proto 52-59. *)
Definition full_fields (f : full_params) : list field :=
  w_bytes 1 (u_master f) ++ w_bool 2 (u_store_time f) ++ w_bool 3 (u_legacy_io f) ++ w_bool 4 (u_nocase f) ++ w_bool 5 (u_nonorm f).
(** protos/params.proto 75-80. *)
Definition argon_fields (a : argon_params) : list field := w_int 1 (a_time a) ++ w_int 2 (a_memory a) ++ w_int 3 (a_parallel a).
(** protos/params.proto 31-66. *)
Definition dec_fields (d : dec_params) : list field :=
  match d_size d with Some s => [(1, VLen (enc_fields (size_fields s)))] | None => [] end ++
  match d_format d with
  | FNone => []
  | FLite l => [(2, VLen (enc_fields (lite_fields l)))]
  | FFull f => [(3, VLen (enc_fields (full_fields f)))]
  end.
(** protos/params.proto 68-86. *)
Definition enc_params_fields (e : enc_params) : list field :=
  w_bytes 1 (e_salt e) ++ w_bytes 2 (e_iv e) ++ w_bytes 3 (e_mac e) ++ w_bytes 4 (e_ct e) ++
  match e_argon e with Some a => [(5, VLen (enc_fields (argon_fields a)))] | None => [] end.
(** SerializeAsString of protos/params.proto 31-66. *)
Definition ser_dec (d : dec_params) : bytes := enc_fields (dec_fields d).
(** SerializeAsString of protos/params.proto 68-86. *)
Definition ser_enc (e : enc_params) : bytes := enc_fields (enc_params_fields e).

(** Parsing: one field after the other. *)
(** libprotobuf, used at sources/params_io.cpp 303, 321 and 347: a varint read as uint32. *)
Definition u32 (n : N) : N := n mod 4294967296.
(** libprotobuf, used at sources/params_io.cpp 303, 321 and 347: a varint read as bool. *)
Definition to_bool (n : N) : bool := negb (n =? 0).
(** protos/params.proto 33-38: parsing a field. *)
Definition size_step (s : size_params) (f : field) : option size_params :=
  match f with
  | (1, VInt n) => Some (mkSize (u32 n) (z_iv s) (z_padding s))
  | (2, VInt n) => Some (mkSize (z_block s) (u32 n) (z_padding s))
  | (3, VInt n) => Some (mkSize (z_block s) (z_iv s) (u32 n))
  | _ => Some s
  end.
(** protos/params.proto 42-50: parsing a field. *)
Definition lite_step (l : lite_params) (f : field) : option lite_params :=
  match f with
  | (1, VLen b) => Some (mkLite b (i_content l) (i_xattr l) (i_padding l) (i_threshold l) (i_suffix l))
  | (2, VLen b) => Some (mkLite (i_name l) b (i_xattr l) (i_padding l) (i_threshold l) (i_suffix l))
  | (3, VLen b) => Some (mkLite (i_name l) (i_content l) b (i_padding l) (i_threshold l) (i_suffix l))
  | (4, VLen b) => Some (mkLite (i_name l) (i_content l) (i_xattr l) b (i_threshold l) (i_suffix l))
  | (5, VInt n) => Some (mkLite (i_name l) (i_content l) (i_xattr l) (i_padding l) (Some (u32 n)) (i_suffix l))
  | (6, VLen b) => if valid_utf8 b then Some (mkLite (i_name l) (i_content l) (i_xattr l) (i_padding l) (i_threshold l) b) else None
  | _ => Some l
  end.
(** protos/params.proto 52-59: parsing a field. *)
Definition full_step (p : full_params) (f : field) : option full_params :=
  match f with
  | (1, VLen b) => Some (mkFullP b (u_store_time p) (u_legacy_io p) (u_nocase p) (u_nonorm p))
  | (2, VInt n) => Some (mkFullP (u_master p) (to_bool n) (u_legacy_io p) (u_nocase p) (u_nonorm p))
  | (3, VInt n) => Some (mkFullP (u_master p) (u_store_time p) (to_bool n) (u_nocase p) (u_nonorm p))
  | (4, VInt n) => Some (mkFullP (u_master p) (u_store_time p) (u_legacy_io p) (to_bool n) (u_nonorm p))
  | (5, VInt n) => Some (mkFullP (u_master p) (u_store_time p) (u_legacy_io p) (u_nocase p) (to_bool n))
  | _ => Some p
  end.
(** protos/params.proto 75-80: parsing a field. *)
Definition argon_step (a : argon_params) (f : field) : option argon_params :=
  match f with
  | (1, VInt n) => Some (mkArgon (u32 n) (a_memory a) (a_parallel a))
  | (2, VInt n) => Some (mkArgon (a_time a) (u32 n) (a_parallel a))
  | (3, VInt n) => Some (mkArgon (a_time a) (a_memory a) (u32 n))
  | _ => Some a
  end.
(** Helper (no code): a fold that may fail. *)
Fixpoint ofold {A} (step : A -> field -> option A) (l : list field) (a : A) : option A :=
  match l with [] => Some a | f :: l' => match step a f with Some a' => ofold step l' a' | None => None end end.
(** An embedded message, merged into [a]. *)
(** libprotobuf, used at sources/params_io.cpp 303, 321 and 347: an embedded message (one level deeper, of at most 100). *)
Definition embedded {A} (step : A -> field -> option A) (b : bytes) (a : A) : option A :=
  match parse_message 99 b with Some l => ofold step l a | None => None end.
(** protos/params.proto 31-66: parsing a field. *)
Definition dec_step (d : dec_params) (f : field) : option dec_params :=
  match f with
  | (1, VLen b) =>
    match embedded size_step b (match d_size d with Some s => s | None => size0 end) with Some s => Some (mkDec (Some s) (d_format d)) | None => None end
  | (2, VLen b) =>
    match embedded lite_step b (match d_format d with FLite l => l | _ => lite0 end) with Some l => Some (mkDec (d_size d) (FLite l)) | None => None end
  | (3, VLen b) =>
    match embedded full_step b (match d_format d with FFull p => p | _ => full0 end) with Some p => Some (mkDec (d_size d) (FFull p)) | None => None end
  | _ => Some d
  end.
(** protos/params.proto 68-86: parsing a field. *)
Definition enc_step (e : enc_params) (f : field) : option enc_params :=
  match f with
  | (1, VLen b) => Some (mkEnc b (e_iv e) (e_mac e) (e_ct e) (e_argon e))
  | (2, VLen b) => Some (mkEnc (e_salt e) b (e_mac e) (e_ct e) (e_argon e))
  | (3, VLen b) => Some (mkEnc (e_salt e) (e_iv e) b (e_ct e) (e_argon e))
  | (4, VLen b) => Some (mkEnc (e_salt e) (e_iv e) (e_mac e) b (e_argon e))
  | (5, VLen b) =>
    match embedded argon_step b (match e_argon e with Some a => a | None => argon0 end) with
    | Some a => Some (mkEnc (e_salt e) (e_iv e) (e_mac e) (e_ct e) (Some a))
    | None => None
    end
  | _ => Some e
  end.
(** ParseFromArray of protos/params.proto 31-66. *)
Definition parse_dec (bs : bytes) : option dec_params :=
  match parse_message 100 bs with Some l => ofold dec_step l dec0 | None => None end.
(** ParseFromString of protos/params.proto 68-86. *)
Definition parse_enc (bs : bytes) : option enc_params :=
  match parse_message 100 bs with Some l => ofold enc_step l enc0 | None => None end.
