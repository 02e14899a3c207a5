(** What the statements about extended attributes mean: the encrypted attributes
    answer as attributes stored in plain text on the host would. *)
From Verif Require Import Base TextModel LiteModel NameModel LongNameModel XattrModel.
(** Error numbers, as on Linux: 34 is ERANGE. *)

(** The return value and as many bytes of the buffer as it says. *)
Definition seen (r : res (nat * bytes)) : res (nat * bytes) :=
  match r with Ok (n, b) => Ok (n, firstn n b) | Err e => Err e end.

Definition or0 (size : option nat) : nat := match size with Some n => n | None => 0 end.
Definition plain_xstep (o : xop) (s : hx) : hx * res (nat * bytes) :=
  match o with
  | XSet n v fl _ bad _ => let '(s', r) := hx_set bad n v fl s in (s', rbind r (fun _ => Ok (0, [])))
  | XGet n size bad _ => (s, hx_get bad n (or0 size) s)
  | XRemove n bad _ => let '(s', r) := hx_remove bad n s in (s', rbind r (fun _ => Ok (0, [])))
  | XList size bad => (s, hx_list bad (or0 size) s)
  end.
Fixpoint plain_xrun (ops : list xop) (s : hx) : hx * list (res (nat * bytes)) :=
  match ops with
  | [] => (s, [])
  | o :: os => let '(s1, r) := plain_xstep o s in let '(s2, rs) := plain_xrun os s1 in (s2, r :: rs)
  end.

(** A name is a non-empty C string. *)
Definition xname (n : bytes) : Prop := n <> [] /\ ~ In x00 n.

(** base64, as a text code: it can be undone and yields no NUL. *)
Definition text_code (b64 : bytes -> bytes) (unb64 : bytes -> option bytes) : Prop :=
  (forall x, unb64 (b64 x) = Some x) /\ (forall x, ~ In x00 (b64 x)).

(** What the stored name [w] contributes to a listing. *)
Inductive xshown (box : bytes -> bytes) (b64 : bytes -> bytes) (unb64 : bytes -> option bytes) : bytes -> list bytes -> Prop :=
| xshown_set n : n <> [] -> xshown box b64 unb64 (user_prefix ++ b64 (box n)) [n]
| xshown_other_space w : (forall s, w <> user_prefix ++ s) -> xshown box b64 unb64 w []
| xshown_not_text s : unb64 s = None -> xshown box b64 unb64 (user_prefix ++ s) []
| xshown_foreign s d : unb64 s = Some d -> (forall n, n <> [] -> d <> box n) -> xshown box b64 unb64 (user_prefix ++ s) [].

(** Calls of the lite format for which the statement is made: a value is not empty,
    and the buffer for reading is null or not larger than the value. *)
Definition lite_fits (iv_size : nat) (o : xop) (s : hx) : Prop :=
  match o with
  | XSet n v _ iv _ _ => xname n /\ v <> [] /\ length iv = iv_size
  | XGet n size _ _ => xname n /\ (forall sz, size = Some sz -> sz <> 0 /\ (forall v, ent n s = Some v -> sz <= length v))
  | XRemove n _ _ => xname n
  | XList _ _ => True
  end.
(** Calls of the full format: the buffer is null or not empty, and the host does not
    refuse the second half of an operation after it has done the first. *)
Definition full_fits (o : xop) (_ : hx) : Prop :=
  match o with
  | XSet n v _ iv _ bad2 => xname n /\ length iv = 16 /\ bad2 = None
  | XGet n size _ bad2 => xname n /\ size <> Some 0 /\ bad2 = None
  | XRemove n _ bad2 => xname n /\ bad2 = None
  | XList _ _ => True
  end.
Fixpoint fits_run (fits : xop -> hx -> Prop) (ops : list xop) (s : hx) : Prop :=
  match ops with
  | [] => True
  | o :: os => fits o s /\ fits_run fits os (fst (plain_xstep o s))
  end.

(** Names put there by others: no NUL in them, and not shown. *)
Definition all_foreign (unwrap : bytes -> option bytes) (s : hx) : Prop :=
  forall w x, In (w, x) s -> unwrap w = None /\ ~ In x00 w.

(** The protocol of listxattr(2) for the given names: the return value and what the
    buffer holds afterwards. *)
Definition nul_joined (names : list bytes) : bytes := concat (map (fun n => n ++ [x00]) names).
Definition list_protocol (names : list bytes) (size : option nat) : res (nat * bytes) :=
  let needed := length (nul_joined names) in
  match size with
  | None | Some O => Ok (needed, [])
  | Some sz => if sz <? needed then Err (EPosix 34) else Ok (needed, nul_joined names ++ repeat x00 (sz - needed))
  end.

(** [made]: file, name, IV and value of every attribute ever set under the key. *)
Definition xattr_log : Type := list (bytes * bytes * bytes * bytes).
(** Of what is stored for the file now, the cipher accepts only what was made by
    setting an attribute. *)
Definition full_xattr_not_forged (A : aead) (key : bytes) (wrap : bytes -> bytes) (made : xattr_log) (s : fx) : Prop :=
  forall w w' ct meta aad p, In (w, ct) (fx_data s) -> In (w', meta) (fx_meta s) ->
    a_dec A key (firstn 16 meta) aad ct (skipn 16 meta) = (true, p) ->
    exists i n v, In (i, n, firstn 16 meta, v) made /\ aad = i ++ wrap n /\
                  a_enc A key (firstn 16 meta) aad v = (ct, skipn 16 meta).
Definition lite_xattr_not_forged (A : aead) (key : bytes) (iv_size : nat) (made : list (bytes * bytes)) (s : hx) : Prop :=
  forall w x k ct mac p, In (w, x) s -> skipn iv_size x ++ repeat x00 k = ct ++ mac ->
    a_dec A key (firstn iv_size x) [] ct mac = (true, p) ->
    exists v, In (firstn iv_size x, v) made /\ a_enc A key (firstn iv_size x) [] v = (ct, mac).
