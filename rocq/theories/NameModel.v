(** Translation of file names and symbolic link targets in the lite format,
    sources/lite_format.cpp 79-615 and 1192-1262. *)
From Coq Require Import Strings.String.
From Verif Require Import Base TextModel CryptoModel.
Local Open Scope list_scope.

(** The character '/' (sources/lite_format.cpp 353). *)
Definition slash : byte := x2f.
(** The character '.' (sources/lite_format.cpp 654 and 670). *)
Definition dot : byte := x2e.

(** [absl::StrSplit(path, '/')]: at least one piece, empty pieces kept. *)
(** sources/lite_format.cpp 353. *)
Fixpoint split_slash (s : bytes) : list bytes :=
  match s with
  | [] => [[]]
  | c :: s' =>
    if Byte.eqb c slash then [] :: split_slash s' else
    match split_slash s' with
    | w :: ws => (c :: w) :: ws
    | [] => [[c]]
    end
  end.

(** [absl::EndsWith]. *)
(** sources/lite_format.cpp 427. *)
Definition ends_with (s suffix : bytes) : bool :=
  (length suffix <=? length s) && bytes_eqb (skipn (length s - length suffix) s) suffix.

(** [std::variant<InvalidNameTag, LongNameTag, std::string>]. *)
(** sources/lite_format.cpp 195 and 424. *)
Inductive decoded : Set := DInvalid | DLong | DName (n : bytes).

(** sources/lite_format.cpp 147. *)
Definition kSIVSize : nat := 16.
Definition kHashSize : nat := 32.
(** sources/lite_format.cpp 333. *)
Definition kComponentSizeInSymlink : nat := 60.
(** sources/lite_format.cpp 335. *)
Definition kLegacyLongNameSuffix : bytes := str "...".
Definition kLongNameTableFileName : bytes := str ".long_names.db".

(** A name translator, sources/lite_format.h 176-213.  [t_encrypt] gives the
    physical path and what is stored through [out_encrypted_last_component]
    (empty when it is left untouched). *)
Record translator := mkTrans {
  t_noop : bool;
  t_encrypt : bytes -> res (bytes * bytes);
  t_decrypt : bytes -> res decoded;
  t_link_enc : bytes -> res bytes;
  t_link_dec : bytes -> res bytes;
  t_max : N -> N }.

Section Names.
(** The keyed primitives: the two halves of AES-SIV and BLAKE2b with a 32-byte
    result, all with the name master key. *)
Variable cmac : bytes -> bytes.
Variable keystream : bytes -> nat -> bytes.
Variable blake : bytes -> bytes.

(** A buffer holding the SIV in its first 16 bytes and the ciphertext after it,
    as prepared at e.g. sources/lite_format.cpp 374-380. *)
Definition siv_box (m : bytes) : bytes :=
  let '(siv, c) := siv_encrypt cmac keystream m [] in siv ++ c.
Definition siv_unbox (b : bytes) : option bytes :=
  let '(ok, p) := siv_decrypt cmac keystream (firstn kSIVSize b) (skipn kSIVSize b) [] in
  if ok : bool then Some p else None.

(** decrypt_path_component after the suffix check, sources/lite_format.cpp
    198-220 and 430-450. *)
Definition decode_component (path : bytes) : res decoded :=
  rbind (base32_decode path) (fun d =>
  if length d <=? kSIVSize then Ok DInvalid else
  match siv_unbox d with Some p => Ok (DName p) | None => Ok DInvalid end).

(** ** Legacy names *)

(** legacy_encrypt_path and legacy_decrypt_path, sources/lite_format.cpp 254-285
    and 287-323, share one loop: [cur] is the slice since the last separator,
    [part] what is done with a non-empty slice. *)
Definition legacy_part (part : bytes -> res bytes) (cur : bytes) : res bytes :=
  match cur with [] => Ok [] | _ :: _ => part cur end.
Fixpoint legacy_loop (part : bytes -> res bytes) (path cur : bytes) : res bytes :=
  match path with
  | [] => legacy_part part cur
  | c :: path' =>
    if Byte.eqb c slash then
      rbind (legacy_part part cur) (fun a =>
      rbind (legacy_loop part path' []) (fun r => Ok (a ++ slash :: r)))
    else legacy_loop part path' (cur ++ [c])
  end.

(** 267-276 *)
Definition legacy_enc_part (slice : bytes) : res bytes :=
  if 2000 <? length slice then Err (EPosix 36) else base32_encode (siv_box slice).
(** 299-316: with fewer than 16 decoded bytes the length handed to the cipher
    wraps around, which is undefined behaviour. *)
Definition legacy_dec_part (slice : bytes) : res bytes :=
  rbind (base32_decode slice) (fun d =>
  if 2032 <=? length d then Err (EPosix 36) else
  if length d <? kSIVSize then Err EUndef else
  match siv_unbox d with Some p => Ok p | None => Err EVerify end).

(** sources/lite_format.cpp 255-285. *)
Definition legacy_encrypt_path (path : bytes) : res bytes := legacy_loop legacy_enc_part path [].
(** sources/lite_format.cpp 286-322. *)
Definition legacy_decrypt_path (path : bytes) : res bytes := legacy_loop legacy_dec_part path [].

(** LegacyNameTranslator::encrypt_full_path, sources/lite_format.cpp 176-195. *)
Definition legacy_encrypt_full (path : bytes) : res (bytes * bytes) :=
  match path with
  | [] => Ok ([], [])
  | [c] => if Byte.eqb c slash then Ok ([dot], []) else
           rbind (legacy_encrypt_path path) (fun s => Ok (s, []))
  | _ =>
    rbind (legacy_encrypt_path path) (fun s =>
    match s with
    | c :: s' => if Byte.eqb c slash then Ok (s', []) else Ok (s, [])
    | [] => Ok ([], [])
    end)
  end.

(** encrypt_path_for_symlink, decrypt_path_from_symlink, 222-245. *)
Definition legacy_link_enc (path : bytes) : res bytes :=
  match path with
  | [] => Ok []
  | _ => if bytes_eqb path [slash] then Ok [dot] else legacy_encrypt_path path
  end.
Definition legacy_link_dec (path : bytes) : res bytes :=
  match path with
  | [] => Ok []
  | _ => if bytes_eqb path [dot] then Ok [slash] else legacy_decrypt_path path
  end.

(** max_virtual_path_component_size, 247-254: [unsigned] product, [size_t]
    difference, result truncated to [unsigned]. *)
Definition u32_times5_div8 (n : N) : N := (((n * 5) mod 2 ^ 32) / 8)%N.
Definition sub_to_u32 (a b : N) : N := ((a + 2 ^ 64 - b) mod 2 ^ 32)%N.
Definition legacy_max (phys : N) : N :=
  if (phys <=? 25)%N then 0%N else sub_to_u32 (u32_times5_div8 phys) 16.

(** sources/lite_format.cpp 167-323. *)
Definition legacy_translator : translator :=
  mkTrans false legacy_encrypt_full decode_component legacy_link_enc legacy_link_dec legacy_max.

(** ** New-style names *)
Section NewStyle.
Variable threshold : nat.
Variable suffix : bytes.

(** NewStyleNameTranslator::encrypt_full_path, one piece of the path, sources/
    lite_format.cpp 365-411. *)
Definition new_component (view : bytes) : res bytes :=
  match view with
  | [] => Ok []
  | _ :: _ =>
    if length view <=? threshold then base32_encode (siv_box view)
    else rbind (base32_encode (siv_box (blake view))) (fun part => Ok (part ++ suffix))
  end.
Fixpoint new_components (views : list bytes) : res bytes :=
  match views with
  | [] => Ok []
  | v :: vs =>
    rbind (new_component v) (fun p =>
    rbind (new_components vs) (fun r => Ok (slash :: p ++ r)))
  end.
(** sources/lite_format.cpp 350-427. *)
Definition new_encrypt_full (path : bytes) : res (bytes * bytes) :=
  let splits := split_slash path in
  rbind (new_components splits) (fun r =>
  let back := last splits [] in
  if threshold <? length back then
    rbind (base32_encode (siv_box back)) (fun l => Ok (dot :: r, l))
  else Ok (dot :: r, [])).

(** decrypt_path_component, 429-456. *)
Definition new_decrypt (path : bytes) : res decoded :=
  if ends_with path suffix then Ok DLong else decode_component path.

(** encrypt_path_for_symlink, 458-480. *)
Fixpoint link_chunks (fuel : nat) (buffer : bytes) : res bytes :=
  match buffer, fuel with
  | [], _ => Ok []
  | _ :: _, O => Err EFuel
  | _ :: _, S f =>
    rbind (base32_encode (firstn kComponentSizeInSymlink buffer)) (fun part =>
    rbind (link_chunks f (skipn kComponentSizeInSymlink buffer)) (fun r =>
    Ok (slash :: part ++ r)))
  end.
Definition new_link_enc (path : bytes) : res bytes :=
  match path with
  | [] => Ok []
  | _ :: _ => let b := siv_box path in link_chunks (length b) b
  end.
(** decrypt_path_from_symlink, 482-514. *)
Definition new_link_dec (path : bytes) : res bytes :=
  match path with
  | [] => Ok []
  | _ :: _ =>
    rbind (base32_decode (filter (fun c => negb (Byte.eqb c slash)) path)) (fun d =>
    if length d <=? kSIVSize then Ok [] else
    match siv_unbox d with Some p => Ok p | None => Err EVerify end)
  end.

(** max_virtual_path_component_size, 516-523. *)
Definition new_max (phys : N) : N :=
  if (phys <=? (N.of_nat threshold + 16) * 8 / 5)%N
  then sub_to_u32 (u32_times5_div8 phys) 16 else 65535%N.

(** sources/lite_format.cpp 325-485. *)
Definition new_translator : translator :=
  mkTrans false new_encrypt_full new_decrypt new_link_enc new_link_dec new_max.
End NewStyle.

(** ** Plain names: NoOpNameTranslator, sources/lite_format.cpp 526-561 *)
Definition noop_encrypt_full (path : bytes) : res (bytes * bytes) :=
  match path with
  | c :: _ => if Byte.eqb c slash then Ok (dot :: path, []) else Ok (dot :: slash :: path, [])
  | [] => Ok ([dot; slash], [])
  end.
Definition noop_translator : translator :=
  mkTrans true noop_encrypt_full (fun p => Ok (DName p)) (fun p => Ok p) (fun p => Ok p) (fun n => n).

(** ** Normalised names: PathNormalizingNameTranslator, sources/lite_format.cpp
    563-614.  [nfc] and [fold] are the Unicode library calls; an exception makes
    the path be used as it is (the delegate's own exceptions are caught too and
    the delegate is called again with the original path). *)
Definition normalizing (delegate : translator) (nfc fold : option (bytes -> res bytes)) : translator :=
  mkTrans (t_noop delegate)
    (fun path =>
       match rbind (match nfc with Some f => f path | None => Ok path end) (fun p =>
             rbind (match fold with Some f => f p | None => Ok p end) (fun q =>
             t_encrypt delegate q)) with
       | Ok x => Ok x
       | Err _ => t_encrypt delegate path
       end)
    (t_decrypt delegate) (t_link_enc delegate) (t_link_dec delegate) (t_max delegate).

(** make_name_translator, sources/lite_format.cpp 1227-1251, and the constructor
    of NewStyleNameTranslator, 336-348. *)
Definition make_translator (no_op : bool) (long_name_threshold : nat) (long_name_suffix : bytes)
    (nfc fold : option (bytes -> res bytes)) : translator :=
  if no_op then noop_translator else
  let inner :=
    if 0 <? long_name_threshold
    then new_translator long_name_threshold
           (match long_name_suffix with [] => kLegacyLongNameSuffix | _ => long_name_suffix end)
    else legacy_translator in
  match nfc, fold with
  | None, None => inner
  | _, _ => normalizing inner nfc fold
  end.
End Names.

(** get_last_component and remove_last_component, sources/lite_format.cpp
    1253-1261 ([npos + 1 = 0]). *)
Definition get_last_component (path : bytes) : bytes := last (split_slash path) [].
Fixpoint remove_last_component (path : bytes) : bytes :=
  match path with
  | [] => []
  | c :: p => if existsb (Byte.eqb slash) (c :: p) then c :: remove_last_component p else []
  end.

(** ** Listing: DirectoryImpl::next called until it returns false with a name
    argument that keeps its value between calls (vreaddir, sources/lite_format.cpp
    866-886 and 641-700).  [table] is LongNameLookupTable::lookup. *)
Section Listing.
Variable trans : translator.
Variable table : bytes -> res bytes.

(** sources/lite_format.cpp 674-688. *)
Definition decode_entry (under name : bytes) : res bytes :=
  rbind (t_decrypt trans under) (fun d =>
  match d with
  | DName n => Ok n
  | DInvalid => Ok name
  | DLong =>
    rbind (table under) (fun enc =>
    rbind (t_decrypt trans enc) (fun d' =>
    match d' with DName n => Ok n | _ => Err EInval (* std::bad_variant_access *) end))
  end).

(** sources/lite_format.cpp 641-700 and 876-883. *)
Fixpoint list_names (under : list bytes) (name : bytes) : list bytes :=
  match under with
  | [] => []
  | u :: us =>
    match u with
    | [] => list_names us name
    | c :: _ =>
      if bytes_eqb u [dot] || bytes_eqb u [dot; dot] then u :: list_names us u
      else if t_noop trans then u :: list_names us u
      else if Byte.eqb c dot then list_names us name
      else match decode_entry u name with
           | Ok n => n :: list_names us n
           | Err _ => list_names us name
           end
    end
  end.
End Listing.

(** ** Reading a link: FuseHighLevelOps::vreadlink, sources/lite_format.cpp
    1002-1018.  [stored] is the physical target; the answer is the C string left in
    the caller's buffer of [size] bytes.  The host cuts what does not fit in
    [2 * size + 126] bytes, and [std::string_view] made from a C string stops at a NUL. *)
Fixpoint until_nul (s : bytes) : bytes :=
  match s with
  | [] => []
  | c :: s' => if Byte.eqb c x00 then [] else c :: until_nul s'
  end.
Definition lite_readlink (trans : translator) (stored : bytes) (size : nat) : res bytes :=
  if size <=? 1 then Ok [] else
  let max_size := size * 2 + 127 in
  rbind (t_link_dec trans (until_nul (firstn (max_size - 1) stored))) (fun resolved =>
  Ok (until_nul (firstn (Nat.min (length resolved) (size - 1)) resolved))).

(** ** Migration: MigrateLongNameCommand::execute, sources/commands.cpp 1136-1176,
    for a repository without long names.  [entries] is what recursive_traverse
    reports: physical names and whether each is a symbolic link. *)
Definition kDefaultLongNameThreshold : nat := 128.
Definition migration_threshold (entries : list (bytes * bool)) : res nat :=
  if existsb snd entries then Err EInval else
  let max_filename_length := fold_right (fun e m => Nat.max (length (fst e)) m) 0 entries in
  Ok (if max_filename_length <? (kDefaultLongNameThreshold + 16) * 8 / 5
      then kDefaultLongNameThreshold
      else max_filename_length * 5 / 8 - 16).
