(** The configuration of a repository: sources/params_io.cpp and the commands create, chpass
    and migrate-long-name of sources/commands.cpp as far as they touch the configuration. *)
From Coq Require Import Strings.String.
From Verif Require Import Base TextModel NameModel ProtoModel TableIoModel.
Local Open Scope nat_scope.
Local Open Scope list_scope.

(** ** The cryptographic library *)
(** HMAC-SHA256, argon2id (time, memory, parallelism), scrypt (N, r, p), PBKDF2 (iterations),
    each giving 32 bytes or failing for parameters it refuses; and AES-GCM as key stream and
    16-byte tag. *)
Record pcrypto := mkPc {
  c_hmac : bytes -> bytes -> bytes;
  c_argon2id : N -> N -> N -> bytes -> bytes -> option bytes;
  c_scrypt : N -> N -> N -> bytes -> bytes -> option bytes;
  c_pbkdf2 : N -> bytes -> bytes -> option bytes;
  c_stream : bytes -> bytes -> nat -> bytes;
  c_tag : bytes -> bytes -> bytes -> bytes -> bytes
}.
Definition xor_byte (a b : byte) : byte := n2b (N.lxor (b2n a) (b2n b)).
Fixpoint xor_bytes (a b : bytes) : bytes :=
  match a, b with x :: a', y :: b' => xor_byte x y :: xor_bytes a' b' | _, _ => [] end.
Definition gcm_crypt (C : pcrypto) (k iv t : bytes) : bytes := xor_bytes t (c_stream C k iv (length t)).
(** EncryptAndAuthenticate with a 16-byte MAC. *)
Definition gcm_seal (C : pcrypto) (k iv aad p : bytes) : bytes * bytes := (gcm_crypt C k iv p, c_tag C k iv aad (gcm_crypt C k iv p)).
(** SetKeyWithIV refuses IVs shorter than 12 bytes; DecryptAndVerify refuses MACs longer
    than the tag and compares as many bytes of the tag as the given MAC has. *)
Definition gcm_open (C : pcrypto) (k iv aad ct mac : bytes) : res (option bytes) :=
  if length iv <? 12 then Err EInval
  else if 16 <? length mac then Err EInval
  else if bytes_eqb mac (firstn (length mac) (c_tag C k iv aad ct)) then Ok (Some (gcm_crypt C k iv ct)) else Ok None.

(** ** Key derivation *)
(** hmac_sha256, 86-103: the key file is read in pieces of 4096 bytes. *)
Fixpoint key_file_pieces (fuel off : nat) (file : bytes) : bytes :=
  match fuel with
  | O => []
  | S f => match arr_read file off 4096 with [] => [] | piece => piece ++ key_file_pieces f (off + length piece) file end
  end.
Definition hmac_sha256 (C : pcrypto) (base_key file : bytes) : bytes := c_hmac C base_key (key_file_pieces (S (length file)) 0 file).

Definition of_opt (o : option bytes) : res bytes := match o with Some k => Ok k | None => Err ECorrupt end.
(** compute_password_derived_key, 155-180: the salt must have the size of a key. *)
Definition password_key (C : pcrypto) (e : enc_params) (pw : bytes) (kf : option bytes) : res bytes :=
  if negb (length (e_salt e) =? 32) then Err ECorrupt
  else
    let effective_salt := match kf with Some f => hmac_sha256 C (e_salt e) f | None => e_salt e end in
    let a := match e_argon e with Some a => a | None => argon0 end in
    of_opt (c_argon2id C (a_time a) (a_memory a) (a_parallel a) pw effective_salt).

(** encrypt, 297-330, with the random IV (12 bytes) and salt (32 bytes) it draws. *)
Definition encrypt_params (C : pcrypto) (d : dec_params) (a : argon_params) (pw : bytes) (kf : option bytes) (iv salt : bytes) : res enc_params :=
  let plaintext := ser_dec d in
  rbind (password_key C (mkEnc salt iv (zeros 16) (zeros (length plaintext)) (Some a)) pw kf) (fun k =>
  let (ct, mac) := gcm_seal C k iv [] plaintext in
  Ok (mkEnc salt iv mac ct (Some a))).

(** decrypt(EncryptedSecurefsParams), 268-296.  A wrong password or key file is [EVerify]. *)
Definition decrypt_params (C : pcrypto) (e : enc_params) (pw : bytes) (kf : option bytes) : res dec_params :=
  rbind (password_key C e pw kf) (fun k =>
  rbind (gcm_open C k (e_iv e) [] (e_ct e) (e_mac e)) (fun o =>
  match o with
  | None => Err EVerify
  | Some plaintext => match parse_dec plaintext with Some d => Ok d | None => Err ECorrupt end
  end)).

(** ** Legacy configurations *)
(** LegacySecurefsJsonParams; the four strings of the wrapped key are hexadecimal. *)
(** protos/params.proto 5-29. *)
Record legacy_params := mkLegacy {
  y_version : N; y_block_size : option N; y_iv_size : option N; y_salt : bytes;
  y_iv : bytes; y_mac : bytes; y_key : bytes;
  y_iterations : N; y_pbkdf : bytes; y_scrypt_r : N; y_scrypt_p : N; y_argon2_m : N; y_argon2_p : N;
  y_max_padding : N; y_long_name : bool }.

(** legacy_compute_password_derived_key, 37-84. *)
Definition legacy_kdf (C : pcrypto) (y : legacy_params) (pw salt : bytes) : res bytes :=
  if bytes_eqb (y_pbkdf y) (str "argon2id") then of_opt (c_argon2id C (y_iterations y) (y_argon2_m y) (y_argon2_p y) pw salt)
  else if bytes_eqb (y_pbkdf y) (str "scrypt") then of_opt (c_scrypt C (y_iterations y) (y_scrypt_r y) (y_scrypt_p y) pw salt)
  else if bytes_eqb (y_pbkdf y) (str "pkcs5-pbkdf2-hmac-sha256") || bytes_eqb (y_pbkdf y) [] then of_opt (c_pbkdf2 C (y_iterations y) pw salt)
  else Err ECorrupt.

(** get_version_header, 125-139. *)
Definition version_header (v : N) : res bytes :=
  match v with
  | 1%N | 2%N | 3%N => Ok (str "version=1")
  | 4%N => Ok (str "version=4")
  | _ => Err EInval
  end.

(** The function tried with each derived key, 197-217. *)
Definition legacy_try (C : pcrypto) (y : legacy_params) (k : bytes) : res (option bytes) :=
  rbind (parse_hex (y_iv y)) (fun iv =>
  rbind (parse_hex (y_mac y)) (fun mac =>
  rbind (parse_hex (y_key y)) (fun ct =>
  rbind (version_header (y_version y)) (fun header =>
  gcm_open C k iv header ct mac)))).

(** try_legacy_password_derived_key, 107-123. *)
Definition legacy_master_key (C : pcrypto) (y : legacy_params) (pw : bytes) (kf : option bytes) : res (option bytes) :=
  rbind (parse_hex (y_salt y)) (fun original_salt =>
  match kf with
  | None => rbind (legacy_kdf C y pw original_salt) (legacy_try C y)
  | Some f =>
    rbind (legacy_kdf C y pw (hmac_sha256 C original_salt f)) (fun k1 =>
    rbind (legacy_try C y k1) (fun o =>
    match o with
    | Some m => Ok (Some m)
    | None => rbind (legacy_kdf C y pw original_salt) (fun k2 => legacy_try C y (hmac_sha256 C k2 f))
    end))
  end).

(** decrypt(LegacySecurefsJsonParams), 182-267.  Not modelled: the warnings about keys that
    do not look random. *)
Definition decrypt_legacy (C : pcrypto) (y : legacy_params) (pw : bytes) (kf : option bytes) : res dec_params :=
  let size := mkSize (match y_block_size y with Some n => n | None => 4096%N end) (match y_iv_size y with Some n => n | None => 32%N end) (y_max_padding y) in
  rbind (legacy_master_key C y pw kf) (fun o =>
  match o with
  | None => Err EVerify
  | Some key =>
    if (y_version y =? 4)%N then
      if negb (length key =? 96) && negb (length key =? 128) then Err ECorrupt
      else
        Ok (mkDec (Some size)
             (FLite (mkLite (firstn 32 key) (firstn 32 (skipn 32 key)) (firstn 32 (skipn 64 key))
                            (if length key =? 128 then firstn 32 (skipn 96 key) else [])
                            (if y_long_name y then Some 128%N else None) [])))
    else Ok (mkDec (Some size) (FFull (mkFullP key (y_version y =? 3)%N (y_version y =? 1)%N false false)))
  end).

(** decrypt(content), 332-349; [json] is JsonStringToMessage. *)
Definition decrypt_config (C : pcrypto) (json : bytes -> option legacy_params) (content pw : bytes) (kf : option bytes) : res dec_params :=
  match parse_enc content with
  | Some e => decrypt_params C e pw kf
  | None => match json content with None => Err ECorrupt | Some y => decrypt_legacy C y pw kf end
  end.

(** ** create *)
(** sources/commands.cpp 309-371: the --format option with what it needs. *)
Inductive create_format := CLite (threshold : N) (suffix : bytes) | CFull (case_insensitive uninorm_insensitive : bool).
Record create_options := mkCreate { o_iv_size : N; o_block_size : N; o_max_padding : N; o_format : create_format }.
(** CreateCommand::execute, commands.cpp 309-371; [r1] to [r4] are the 32-byte keys drawn.
    Not modelled: refusing unknown values of the options. *)
Definition create_params (o : create_options) (r1 r2 r3 r4 : bytes) : dec_params :=
  mkDec (Some (mkSize (o_block_size o) (o_iv_size o) (o_max_padding o)))
    match o_format o with
    | CLite t s => FLite (mkLite r1 r2 r3 r4 (if (0 <? t)%N then Some t else None) s)
    | CFull c u => FFull (mkFullP r1 false false c u)
    end.

(** ** Files *)
(** The configuration file lives in a host directory whose entries are named by the strings
    passed to the host. *)
(** Environment: the host. *)
Definition fget (h : host) (p : bytes) : option hnode := hget h [p].
(** Environment: the host. *)
Definition fput (h : host) (p : bytes) (c : bytes) : host := hput h [p] (HFile c).
(** Environment: the host. *)
Definition fdel (h : host) (p : bytes) : host := hdel h [p].

(** sources/commands.cpp 105-123: the name of the configuration file. *)
Definition config_name : bytes := str ".config.pb".
Definition legacy_config_name : bytes := str ".securefs.json".
(** get_real_config_path_for_reading, commands.cpp 105-123, with the directory of the
    repository as the host directory. *)
Definition config_path (option_value : bytes) (h : host) : res bytes :=
  match option_value with
  | _ :: _ => Ok option_value
  | [] =>
    match fget h config_name with
    | Some _ => Ok config_name
    | None => match fget h legacy_config_name with Some _ => Ok legacy_config_name | None => Err ECorrupt end
    end
  end.

(** How far the host lets a command get: each call may fail, and a write may stop after some
    bytes. *)
(** Environment (no code): how the host behaves. *)
Record weather := mkWeather {
  w_create : option err;           (* creating the file fails for a reason of the host *)
  w_write : option (nat * err);    (* the write fails after so many bytes *)
  w_rename : option err;
  w_remove : bool                  (* removing the temporary file works *)
}.
(** Environment (no code): no failure. *)
Definition fine := mkWeather None None None true.

(** A run: the states the directory goes through, in order, and the result.  Every byte
    written is a state of its own, so that a crash at any moment is one of the states. *)
(** Helper (no code): a run of a command. *)
Definition run := (list host * res unit)%type.
(** Helper (no code): the end of a run. *)
Definition last_state (h : host) (r : run) : host := last (fst r) h.

(** pwrite of [data] to the empty file [p]. *)
(** UnixFileStream::write, sources/unix.cpp 122-129, byte by byte. *)
Definition write_states (h : host) (p data : bytes) (n : nat) : list host := map (fun i => fput h p (firstn i data)) (seq 0 (S n)).

(** ChangePasswordCommand::execute, commands.cpp 492-500, and MigrateLongNameCommand::execute,
    1184-1194: the new content goes to [tmp] (O_CREAT | O_EXCL), then [tmp] is renamed over
    [path]; when an exception leaves the function, [tmp] is removed. *)
Definition replace_file (w : weather) (path tmp data : bytes) (h : host) : run :=
  match fget h tmp with
  | Some _ => ([], Err FullFsModel.E_EXIST)
  | None =>
    match w_create w with
    | Some e => ([], Err e)
    | None =>
      let removed := fun h' => if w_remove w then [fdel h' tmp] else [] in
      match w_write w with
      | Some (n, e) =>
        let n := min n (length data) in
        (write_states h tmp data n ++ removed (fput h tmp (firstn n data)), Err e)
      | None =>
        let written := fput h tmp data in
        match w_rename w with
        | Some e => (write_states h tmp data (length data) ++ removed written, Err e)
        | None => (write_states h tmp data (length data) ++ [fdel (fput written path data) tmp], Ok tt)
        end
      end
    end
  end.

(** open_file_stream and as_string, sources/unix.cpp 326-334 and
    sources/streams.h 54-62. *)
Definition read_file (h : host) (p : bytes) : res bytes :=
  match fget h p with Some (HFile c) => Ok c | Some HDir => Err FullFsModel.E_ISDIR | None => Err FullFsModel.E_NOENT end.

(** Helper (no code): an exception ends the command. *)
Definition on_ok {A} (r : res A) (k : A -> run) : run := match r with Ok a => k a | Err e => ([], Err e) end.

(** ChangePasswordCommand::execute, 474-501.  [suffix] are the 16 random bytes of the name of
    the temporary file. *)
Definition chpass (C : pcrypto) (json : bytes -> option legacy_params) (w : weather) (config : bytes) (suffix : bytes)
    (old_pw : bytes) (old_kf : option bytes) (a : argon_params) (new_pw : bytes) (new_kf : option bytes) (iv salt : bytes) (h : host) : run :=
  on_ok (config_path config h) (fun original_path =>
  on_ok (read_file h original_path) (fun content =>
  on_ok (decrypt_config C json content old_pw old_kf) (fun params =>
  on_ok (encrypt_params C params a new_pw new_kf iv salt) (fun e =>
  replace_file w original_path (original_path ++ hexify suffix) (ser_enc e) h)))).

(** The end of CreateCommand::execute, 373-386. *)
Definition create (C : pcrypto) (w : weather) (config : bytes) (o : create_options) (r1 r2 r3 r4 : bytes)
    (a : argon_params) (pw : bytes) (kf : option bytes) (iv salt : bytes) (h : host) : run :=
  on_ok (encrypt_params C (create_params o r1 r2 r3 r4) a pw kf iv salt) (fun e =>
  let path := match config with [] => config_name | _ => config end in
  match fget h path with
  | Some _ => ([], Err FullFsModel.E_EXIST)
  | None =>
    match w_create w with
    | Some err => ([], Err err)
    | None =>
      let data := ser_enc e in
      match w_write w with
      | Some (n, err) => (write_states h path data (min n (length data)), Err err)
      | None => (write_states h path data (length data), Ok tt)
      end
    end
  end).

(** Nothing between the write and the rename of [replace_file] asks the host to write the data
    to the disk (no fsync): after a power failure the renamed file may hold any part of it. *)
(** Environment (no code): what the disk may hold. *)
Definition after_power_failure (path tmp data : bytes) (kept : nat) (h : host) : host := fdel (fput h path (firstn kept data)) tmp.

(** Opening the repository: mount, commands.cpp 742-767, and info, 1045-1050. *)
Definition open_repo (C : pcrypto) (json : bytes -> option legacy_params) (config : bytes) (pw : bytes) (kf : option bytes) (h : host) : res dec_params :=
  rbind (config_path config h) (fun p => rbind (read_file h p) (fun content => decrypt_config C json content pw kf)).

(** migrate-long-name, 1135-1195: the new parameters.  A repository with long names gets
    another suffix (the end of change_long_name_suffix, lite_format.cpp 1267-1279 and 1316; what
    it does to the stored names is in LongNameModel); one without gets [threshold] (C40) and
    the suffix.  The configuration is replaced through the fixed name ".tmp". *)
Definition migrate_params (d : dec_params) (threshold : N) (suffix : bytes) : res dec_params :=
  match d_format d with
  | FLite l =>
    let with_names := fun t s => mkDec (d_size d) (FLite (mkLite (i_name l) (i_content l) (i_xattr l) (i_padding l) t s)) in
    if (0 <? match i_threshold l with Some n => n | None => 0%N end)%N then
      match suffix with
      | [] => Err EInval
      | _ =>
        let old_suffix := match i_suffix l with [] => kLegacyLongNameSuffix | s => s end in
        Ok (if bytes_eqb old_suffix suffix then d else with_names (i_threshold l) suffix)
      end
    else Ok (with_names (Some (u32 threshold)) suffix)
  | _ => Err ECorrupt
  end.
Definition migrate_config (C : pcrypto) (json : bytes -> option legacy_params) (w : weather) (config : bytes)
    (pw : bytes) (kf : option bytes) (a : argon_params) (threshold : N) (suffix iv salt : bytes) (h : host) : run :=
  on_ok (config_path config h) (fun path =>
  on_ok (read_file h path) (fun content =>
  on_ok (decrypt_config C json content pw kf) (fun params =>
  on_ok (migrate_params params threshold suffix) (fun params' =>
  on_ok (encrypt_params C params' a pw kf iv salt) (fun e =>
  replace_file w path (path ++ str ".tmp") (ser_enc e) h))))).

(** ** Passwords on the command line *)
(** SinglePasswordHolder::get_password, commands.cpp 166-190 (create, mount, info, migrate);
    [pass] and [keyfile] are options, [typed] what the user enters when asked. *)
Definition empty_password : bytes := str " ".
Definition single_password (pass keyfile : option bytes) (askpass : bool) (typed : bytes) : bytes :=
  match pass with
  | Some (c :: p) => c :: p
  | _ => match keyfile with Some (_ :: _) => if askpass then typed else empty_password | _ => typed end
  end.
(** ChangePasswordCommand::parse_cmdline, 442-472, for either password. *)
Definition chpass_password (pass keyfile : option bytes) (ask : bool) (typed : bytes) : bytes :=
  match pass with
  | Some p => p
  | None => match keyfile with Some (_ :: _) => if ask then typed else empty_password | _ => typed end
  end.
