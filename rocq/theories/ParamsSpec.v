(** What is claimed about configurations, in terms of ParamsModel's inputs and outputs. *)
From Coq Require Import Strings.String.
From Verif Require Import Base TextModel ProtoModel ParamsModel.
Local Open Scope nat_scope.
Local Open Scope list_scope.

(** ** Text *)
(** A Unicode scalar value and its UTF-8 form (RFC 3629, table in section 3). *)
Definition scalar (c : N) : Prop := (c < 55296 \/ 57344 <= c < 1114112)%N.
Definition utf8 (c : N) : bytes :=
  if (c <? 128)%N then [n2b c]
  else if (c <? 2048)%N then [n2b (192 + c / 64); n2b (128 + c mod 64)]
  else if (c <? 65536)%N then [n2b (224 + c / 4096); n2b (128 + (c / 64) mod 64); n2b (128 + c mod 64)]
  else [n2b (240 + c / 262144); n2b (128 + (c / 4096) mod 64); n2b (128 + (c / 64) mod 64); n2b (128 + c mod 64)].
Definition is_text (s : bytes) : Prop := exists cs, Forall scalar cs /\ s = flat_map utf8 cs.

(** ** Parameters that can be stored *)
Definition is_u32 (n : N) : Prop := (n < 4294967296)%N.
(** 256 MiB; the keys of real configurations have 32 bytes. *)
Definition modest (b : bytes) : Prop := (N.of_nat (length b) < 268435456)%N.
Definition storable (d : dec_params) : Prop :=
  match d_size d with Some s => is_u32 (z_block s) /\ is_u32 (z_iv s) /\ is_u32 (z_padding s) | None => True end /\
  match d_format d with
  | FNone => True
  | FLite l =>
    modest (i_name l) /\ modest (i_content l) /\ modest (i_xattr l) /\ modest (i_padding l) /\ modest (i_suffix l) /\
    match i_threshold l with Some n => is_u32 n | None => True end /\ is_text (i_suffix l)
  | FFull f => modest (u_master f)
  end.
Definition argon_range (a : argon_params) : Prop := is_u32 (a_time a) /\ is_u32 (a_memory a) /\ is_u32 (a_parallel a).

(** ** The library *)
(** A key stream as long as asked for, a 16-byte tag; nothing else is assumed. *)
Definition crypto_ok (C : pcrypto) : Prop :=
  (forall k iv n, length (c_stream C k iv n) = n) /\ (forall k iv aad ct, length (c_tag C k iv aad ct) = 16).
(** Messages read from JSON text have 32-bit numbers and no string longer than the text. *)
Definition json_ok (json : bytes -> option legacy_params) : Prop :=
  forall text y, json text = Some y ->
    match y_block_size y with Some n => is_u32 n | None => True end /\ match y_iv_size y with Some n => is_u32 n | None => True end /\
    is_u32 (y_max_padding y) /\ length (y_key y) <= length text.

(** ** Forgery *)
(** [sealed] are the keys, IVs, authenticated headers and plaintexts that have ever been
    encrypted by somebody who knew the key.  Whoever does not know it has not found another
    text with a complete valid tag. *)
Definition unforged (C : pcrypto) (sealed : list (bytes * bytes * bytes * bytes)) (iv aad ct mac : bytes) : Prop :=
  forall k, c_tag C k iv aad ct = mac -> exists p, In (k, iv, aad, p) sealed /\ ct = gcm_crypt C k iv p.

(** The key that password and key file give: argon2id with the salt, or with the HMAC of the
    key file under the salt. *)
Definition gives_key (C : pcrypto) (salt : bytes) (a : argon_params) (pw : bytes) (kf : option bytes) (k : bytes) : Prop :=
  length salt = 32 /\
  c_argon2id C (a_time a) (a_memory a) (a_parallel a) pw (match kf with None => salt | Some file => c_hmac C salt file end) = Some k.

(** ** Legacy configurations *)
(** ASCII text without '|'. *)
Definition ordinary (b : byte) : Prop := (b2n b < 128)%N /\ b2n b <> 124%N.
(** The parameters a legacy configuration with master key [key] stands for. *)
Definition legacy_size (y : legacy_params) : size_params :=
  mkSize (match y_block_size y with Some n => n | None => 4096%N end) (match y_iv_size y with Some n => n | None => 32%N end) (y_max_padding y).
Inductive legacy_meaning (y : legacy_params) : bytes -> dec_params -> Prop :=
| lm_full key : (y_version y = 1 \/ y_version y = 2 \/ y_version y = 3)%N ->
    legacy_meaning y key
      (mkDec (Some (legacy_size y)) (FFull (mkFullP key (if N.eq_dec (y_version y) 3 then true else false) (if N.eq_dec (y_version y) 1 then true else false) false false)))
| lm_lite3 name content xattr : y_version y = 4%N -> length name = 32 -> length content = 32 -> length xattr = 32 ->
    legacy_meaning y (name ++ content ++ xattr)
      (mkDec (Some (legacy_size y)) (FLite (mkLite name content xattr [] (if y_long_name y then Some 128%N else None) [])))
| lm_lite4 name content xattr padding : y_version y = 4%N -> length name = 32 -> length content = 32 -> length xattr = 32 -> length padding = 32 ->
    legacy_meaning y (name ++ content ++ xattr ++ padding)
      (mkDec (Some (legacy_size y)) (FLite (mkLite name content xattr padding (if y_long_name y then Some 128%N else None) []))).

(** The header authenticated with the master key. *)
Definition legacy_header (v : N) : bytes := if N.eq_dec v 4 then str "version=4" else str "version=1".

(** The key derivation function the configuration names. *)
Inductive legacy_derives (C : pcrypto) (y : legacy_params) (pw salt : bytes) : bytes -> Prop :=
| ld_argon2id k : y_pbkdf y = str "argon2id" -> c_argon2id C (y_iterations y) (y_argon2_m y) (y_argon2_p y) pw salt = Some k -> legacy_derives C y pw salt k
| ld_scrypt k : y_pbkdf y = str "scrypt" -> c_scrypt C (y_iterations y) (y_scrypt_r y) (y_scrypt_p y) pw salt = Some k -> legacy_derives C y pw salt k
| ld_pbkdf2 k : y_pbkdf y = str "pkcs5-pbkdf2-hmac-sha256" \/ y_pbkdf y = [] -> c_pbkdf2 C (y_iterations y) pw salt = Some k -> legacy_derives C y pw salt k.

(** The documented ways from password and key file to the wrapping key. *)
Inductive legacy_wrapping (C : pcrypto) (y : legacy_params) (pw salt : bytes) : option bytes -> bytes -> Prop :=
| lw_password k : legacy_derives C y pw salt k -> legacy_wrapping C y pw salt None k
| lw_salted file k : legacy_derives C y pw (c_hmac C salt file) k -> legacy_wrapping C y pw salt (Some file) k
| lw_mixed file k : legacy_derives C y pw salt k -> legacy_wrapping C y pw salt (Some file) (c_hmac C k file).

(** ** Creating *)
Definition options_ok (o : create_options) : Prop :=
  is_u32 (o_iv_size o) /\ is_u32 (o_block_size o) /\ is_u32 (o_max_padding o) /\
  match o_format o with CLite t s => is_u32 t /\ modest s /\ is_text s | CFull _ _ => True end.

(** ** Files *)
(** Changing the password goes through [fst (chpass ...)]; a crash stops at one of these. *)
Definition crash_states (h : TableIoModel.host) (r : run) : list TableIoModel.host := h :: fst r.

(** What creating a repository should record: the sizes asked for; for the lite format
    four keys, one for each purpose, each from its own random draw, and the long-name
    options (threshold 0: no long names); for the full format one master key and the
    two comparison options. *)
Definition created_as (o : create_options) (r1 r2 r3 r4 : bytes) (d : dec_params) : Prop :=
  (exists z, d_size d = Some z /\ z_block z = o_block_size o /\ z_iv z = o_iv_size o /\ z_padding z = o_max_padding o) /\
  match o_format o, d_format d with
  | CLite t s, FLite i => i_name i = r1 /\ i_content i = r2 /\ i_xattr i = r3 /\ i_padding i = r4 /\ i_suffix i = s /\
      i_threshold i = (if (t =? 0)%N then None else Some t)
  | CFull nocase nonorm, FFull u => u_master u = r1 /\ u_nocase u = nocase /\ u_nonorm u = nonorm /\ u_store_time u = false /\ u_legacy_io u = false
  | _, _ => False
  end.
