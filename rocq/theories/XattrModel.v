(** Extended attributes: sources/xattr_name.cpp, sources/lite_format.cpp 79-125 and
    1071-1152, sources/files.cpp 284-333 and 360-402. *)
From Coq Require Import Strings.String.
From Verif Require Import Base TextModel CryptoModel LiteModel NameModel LongNameModel.
Local Open Scope list_scope.

(** Environment: errno of the host. *)
Definition ENODATA : err := EPosix 61.
(** Environment: errno of the host. *)
Definition ETOOSMALL : err := EPosix 34. (* the ERANGE of the host *)
Definition EIO : err := EPosix 5.

(** ** The attributes of one stored file, as the host keeps them: getxattr(2),
    setxattr(2), removexattr(2), listxattr(2).  [bad] is a refusal of the host for
    any other reason. *)
Definition hx : Type := list (bytes * bytes).
Inductive xflag := XAny | XCreate | XReplace.

(** Environment: the host's setxattr (sources/unix.cpp 574-579). *)
Fixpoint hx_put (n v : bytes) (s : hx) : hx :=
  match s with
  | [] => [(n, v)]
  | (m, w) :: s' => if bytes_eqb m n then (n, v) :: s' else (m, w) :: hx_put n v s'
  end.
(** Environment: the host's setxattr (sources/unix.cpp 574-579). *)
Definition hx_set (bad : option err) (n v : bytes) (fl : xflag) (s : hx) : hx * res unit :=
  match bad, ent n s, fl with
  | Some e, _, _ => (s, Err e)
  | None, Some _, XCreate => (s, Err EEXIST)
  | None, None, XReplace => (s, Err ENODATA)
  | None, _, _ => (hx_put n v s, Ok tt)
  end.
Definition hx_remove (bad : option err) (n : bytes) (s : hx) : hx * res unit :=
  match bad, ent n s with
  | Some e, _ => (s, Err e)
  | None, None => (s, Err ENODATA)
  | None, Some _ => (ent_del n s, Ok tt)
  end.
(** The return value and the bytes put into a buffer of [size] bytes; size 0 asks
    for the size only. *)
Definition hx_get (bad : option err) (n : bytes) (size : nat) (s : hx) : res (nat * bytes) :=
  match bad, ent n s with
  | Some e, _ => Err e
  | None, None => Err ENODATA
  | None, Some v =>
    match size with
    | O => Ok (length v, [])
    | S _ => if size <? length v then Err ETOOSMALL else Ok (length v, v)
    end
  end.
Definition hx_names (s : hx) : bytes := flat_map (fun e => fst e ++ [x00]) s.
Definition hx_list (bad : option err) (size : nat) (s : hx) : res (nat * bytes) :=
  match bad with
  | Some e => Err e
  | None =>
    match size with
    | O => Ok (length (hx_names s), [])
    | S _ => if size <? length (hx_names s) then Err ETOOSMALL else Ok (length (hx_names s), hx_names s)
    end
  end.

(** ** Names *)
Section XNames.
Variable cmac : bytes -> bytes.
Variable keystream : bytes -> nat -> bytes.
(** absl::WebSafeBase64Escape and WebSafeBase64Unescape. *)
Variable b64 : bytes -> bytes.
Variable unb64 : bytes -> option bytes.

(** sources/xattr_name.cpp 16 and 20: the prefix of stored names. *)
Definition user_prefix : bytes := str "user.".

(** encrypt_xattr_name, xattr_name.cpp 10-16. *)
Definition wrap_name (name : bytes) : bytes := user_prefix ++ b64 (siv_box cmac keystream name).

(** decrypt_xattr_name, 17-44. *)
Definition unwrap_name (w : bytes) : option bytes :=
  if bytes_eqb (firstn 5 w) user_prefix then
    match unb64 (skipn 5 w) with
    | None => None
    | Some d => if length d <=? kSIVSize then None else siv_unbox cmac keystream d
    end
  else None.

(** [absl::StrSplit(names, '\0')]. *)
Fixpoint split_nul (s : bytes) : list bytes :=
  match s with
  | [] => [[]]
  | c :: s' =>
    if Byte.eqb c x00 then [] :: split_nul s' else
    match split_nul s' with
    | w :: ws => (c :: w) :: ws
    | [] => [[c]]
    end
  end.

(** The copying loop, 84-95, over a cleared buffer: what the buffer holds in the
    end.  The subtraction of [size_t]s at its end would wrap around when a name ends
    at the end of the buffer. *)
Fixpoint copy_names (names : list bytes) (size : nat) : res bytes :=
  match names with
  | [] => Ok (zeros size)
  | n :: ns =>
    if size <? length n then Err ETOOSMALL
    else if size <? length n + 1 then Err EUndef
    else rbind (copy_names ns (size - (length n + 1))) (fun r => Ok (n ++ x00 :: r))
  end.

(** wrapped_listxattr, 45-97.  [first] and [second] are the answers of the host to
    the two calls (the list may change between them).  The result is the return
    value and the contents of the caller's buffer, if it was written. *)
Definition wrapped_listxattr (first : res nat) (second : nat -> res (nat * bytes)) (size : option nat)
  : res (nat * bytes) :=
  rbind first (fun rc =>
  match rc with
  | O => Ok (O, [])
  | S _ =>
    rbind (second rc) (fun '(rc2, buf) =>
    match rc2 with
    | O => Ok (O, [])
    | S _ =>
      let names := flat_map (fun w => match unwrap_name w with Some n => [n] | None => [] end)
                            (split_nul (firstn rc2 buf)) in
      let total := fold_right (fun n s => length n + 1 + s) 0 names in
      match size with
      | None | Some O => Ok (total, [])
      | Some sz =>
        if sz <? total then Err ETOOSMALL
        else rbind (copy_names names sz) (fun out => Ok (total, out))
      end
    end)
  end).
End XNames.

(** The arguments of the operations: [size = None] is a null buffer. *)
(** The four methods of sources/lite_format.cpp 1071-1152 and sources/files.cpp
    286-402. *)
Inductive xop :=
| XSet (name value : bytes) (flag : xflag) (iv : bytes) (bad bad2 : option err)
| XGet (name : bytes) (size : option nat) (bad bad2 : option err)
| XRemove (name : bytes) (bad bad2 : option err)
| XList (size : option nat) (bad : option err).

(** ** Lite format *)
Section LiteX.
Variable cmac : bytes -> bytes.
Variable keystream : bytes -> nat -> bytes.
Variable b64 : bytes -> bytes.
Variable unb64 : bytes -> option bytes.
Variable A : aead.
Variable key : bytes.
Variable iv_size : nat.
Variable verify : bool.

Notation wrap := (wrap_name cmac keystream b64).

(** XattrCryptor, lite_format.cpp 79-125. *)
Definition infer_encrypted_size (n : nat) : nat := n + iv_size + mac_size.
Definition infer_decrypted_size (n : nat) : nat := if iv_size + mac_size <=? n then n - (iv_size + mac_size) else 0.
Definition xattr_encrypt (iv value : bytes) : bytes :=
  let '(ct, mac) := a_enc A key iv [] value in iv ++ ct ++ mac.
Definition xattr_decrypt (input : bytes) (out_size : nat) : res bytes :=
  if length input <? infer_encrypted_size out_size then Err EInval else
  let '(ok, out) := a_dec A key (firstn iv_size input) []
                      (firstn (length input - iv_size - mac_size) (skipn iv_size input))
                      (skipn (length input - mac_size) input) in
  if negb ok && verify then Err EVerify else Ok out.

(** vgetxattr, 1083-1120: the buffer handed to the host has room for a value of
    [size] bytes, and all of it is handed to the cipher. *)
Definition lite_getx (name : bytes) (size : option nat) (bad : option err) (s : hx) : res (nat * bytes) :=
  match size with
  | None => rbind (hx_get bad (wrap name) 0 s) (fun '(rc, _) => Ok (infer_decrypted_size rc, []))
  | Some sz =>
    let cap := infer_encrypted_size sz in
    rbind (hx_get bad (wrap name) cap s) (fun '(rc, v) =>
    let underlying := v ++ zeros (cap - length v) in
    rbind (xattr_decrypt underlying sz) (fun out =>
    Ok (infer_decrypted_size rc, firstn (infer_decrypted_size rc) out)))
  end.
(** vsetxattr, 1121-1146. *)
Definition lite_setx (name value : bytes) (fl : xflag) (iv : bytes) (bad : option err) (s : hx) : hx * res unit :=
  match value with
  | [] => (s, Ok tt)
  | _ => hx_set bad (wrap name) (xattr_encrypt iv value) fl s
  end.

(** One operation: the new attributes and the answer (return value and bytes).
    vremovexattr, 1147-1153; vlistxattr, 1071-1082. *)
Definition lite_xstep (o : xop) (s : hx) : hx * res (nat * bytes) :=
  match o with
  | XSet n v fl iv bad _ => let '(s', r) := lite_setx n v fl iv bad s in (s', rbind r (fun _ => Ok (0, [])))
  | XGet n size bad _ => (s, lite_getx n size bad s)
  | XRemove n bad _ => let '(s', r) := hx_remove bad (wrap n) s in (s', rbind r (fun _ => Ok (0, [])))
  | XList size bad =>
    (s, wrapped_listxattr cmac keystream unb64 (rbind (hx_list bad 0 s) (fun '(rc, _) => Ok rc))
          (fun room => hx_list bad room s) size)
  end.
Fixpoint lite_xrun (ops : list xop) (s : hx) : hx * list (res (nat * bytes)) :=
  match ops with
  | [] => (s, [])
  | o :: os => let '(s1, r) := lite_xstep o s in let '(s2, rs) := lite_xrun os s1 in (s2, r :: rs)
  end.
End LiteX.

(** ** Full format: the value is an attribute of the data file, IV and MAC are an
    attribute of the meta file. *)
Section FullX.
Variable cmac : bytes -> bytes.
Variable keystream : bytes -> nat -> bytes.
Variable b64 : bytes -> bytes.
Variable unb64 : bytes -> option bytes.
Variable A : aead.
Variable key : bytes.
Variable id : bytes.
Variable check : bool.
Notation wrap := (wrap_name cmac keystream b64).

(** sources/files.cpp 284. *)
Definition XATTR_IV_LENGTH : nat := 16.
(** sources/files.cpp 284. *)
Definition XATTR_MAC_LENGTH : nat := 16.
(** m_data_stream and m_meta_stream, sources/files.h 54-55: the attributes of
    the two stored files. *)
Record fx := mkFx { fx_data : hx; fx_meta : hx }.

(** getxattr, files.cpp 296-333.  A buffer of 0 bytes that is not null makes the
    cipher write the whole value into it. *)
Definition full_getx (name : bytes) (size : option nat) (bad bad2 : option err) (s : fx) : res (nat * bytes) :=
  let w := wrap name in
  match size with
  | None => hx_get bad w 0 (fx_data s)
  | Some sz =>
    rbind (hx_get bad w sz (fx_data s)) (fun '(true_size, ct) =>
    rbind (hx_get bad2 w (XATTR_IV_LENGTH + XATTR_MAC_LENGTH) (fx_meta s)) (fun '(rc, meta) =>
    if rc =? XATTR_IV_LENGTH + XATTR_MAC_LENGTH then
      if sz <? true_size then Err EUndef else
      let '(ok, out) := a_dec A key (firstn XATTR_IV_LENGTH meta) (id ++ w) ct (skipn XATTR_IV_LENGTH meta) in
      if check && negb ok then Err EVerify else Ok (true_size, out)
    else Err EIO))
  end.
(** setxattr, 360-393. *)
Definition full_setx (name value : bytes) (fl : xflag) (iv : bytes) (bad bad2 : option err) (s : fx) : fx * res unit :=
  let w := wrap name in
  let '(ct, mac) := a_enc A key iv (id ++ w) value in
  match hx_set bad w ct fl (fx_data s) with
  | (d, Err e) => (mkFx d (fx_meta s), Err e)
  | (d, Ok tt) => let '(m, r) := hx_set bad2 w (iv ++ mac) fl (fx_meta s) in (mkFx d m, r)
  end.
(** removexattr, 395-402. *)
Definition full_removex (name : bytes) (bad bad2 : option err) (s : fx) : fx * res unit :=
  let w := wrap name in
  match hx_remove bad w (fx_data s) with
  | (d, Err e) => (mkFx d (fx_meta s), Err e)
  | (d, Ok tt) => let '(m, r) := hx_remove bad2 w (fx_meta s) in (mkFx d m, r)
  end.
(** listxattr, 286-294. *)
Definition full_xstep (o : xop) (s : fx) : fx * res (nat * bytes) :=
  match o with
  | XSet n v fl iv bad bad2 => let '(s', r) := full_setx n v fl iv bad bad2 s in (s', rbind r (fun _ => Ok (0, [])))
  | XGet n size bad bad2 => (s, full_getx n size bad bad2 s)
  | XRemove n bad bad2 => let '(s', r) := full_removex n bad bad2 s in (s', rbind r (fun _ => Ok (0, [])))
  | XList size bad =>
    (s, wrapped_listxattr cmac keystream unb64 (rbind (hx_list bad 0 (fx_data s)) (fun '(rc, _) => Ok rc))
          (fun room => hx_list bad room (fx_data s)) size)
  end.
Fixpoint full_xrun (ops : list xop) (s : fx) : fx * list (res (nat * bytes)) :=
  match ops with
  | [] => (s, [])
  | o :: os => let '(s1, r) := full_xstep o s in let '(s2, rs) := full_xrun os s1 in (s2, r :: rs)
  end.
End FullX.
