(** The parts of sources/win.cpp that are logic of their own: command lines of child
    processes, times, paths, targets of symbolic links, ways of opening, splitting of
    reads and writes; and the feeding of a child's standard input, also of unix.cpp.
    Strings are UTF-8; [widen_string] and [narrow_string] (win.cpp), which translate to
    and from UTF-16, are left out: the characters that matter here are ASCII. *)
From Coq Require Import Strings.String.
From Verif Require Import Base TextModel.
Local Open Scope list_scope.

(** The character \ (sources/win.cpp 1401-1450). *)
Definition BSL : byte := x5c.   (* \ *)
Definition DQUOTE : byte := x22.
Definition SLASH : byte := x2f.

(** ** Command lines *)

(** The characters for which quoting is needed, win.cpp 1401. *)
Definition wants_quotes (c : byte) : bool := Byte.eqb c x20 || Byte.eqb c x09 || Byte.eqb c DQUOTE.
(** The inner loop that counts backslashes, win.cpp 1417-1421. *)
Fixpoint count_bsl (l : bytes) : nat :=
  match l with
  | c :: l' => if Byte.eqb c BSL then S (count_bsl l') else 0
  | [] => 0
  end.
(** The outer loop, win.cpp 1412-1450; [l] is what follows the index [i].  The fuel is
    the length of the argument, as every round advances. *)
Fixpoint quote_loop (fuel : nat) (l : bytes) : bytes :=
  match fuel with
  | 0 => []
  | S fuel' =>
    match l with
    | [] => []
    | c :: l' =>
      if Byte.eqb c BSL then
        let n := count_bsl l in
        let rest := skipn n l in
        repeat BSL n ++
        match rest with
        | [] => repeat BSL n
        | d :: _ => if Byte.eqb d DQUOTE then repeat BSL n else []
        end ++ quote_loop fuel' rest
      else if Byte.eqb c DQUOTE then BSL :: DQUOTE :: quote_loop fuel' l'
      else c :: quote_loop fuel' l'
    end
  end.
(** OSService::win_quote_argv, win.cpp 1390-1454. *)
Definition win_quote_argv (arg : bytes) : bytes :=
  if match arg with [] => true | _ => existsb wants_quotes arg end
  then DQUOTE :: quote_loop (length arg) arg ++ [DQUOTE]
  else arg.
(** The loop of OSService::execute_child_process_with_data, win.cpp 1505-1513. *)
Fixpoint command_line (args : list bytes) : bytes :=
  match args with
  | [] => []
  | [a] => win_quote_argv a
  | a :: args' => win_quote_argv a ++ [x20] ++ command_line args'
  end.

(** ** The child's standard input *)

(** What the system answers to a write into the pipe. *)
(** Environment: WriteFile (sources/win.cpp 1576-1610) and write
    (sources/unix.cpp 909-937). *)
Inductive pipe_answer :=
| PTook (n : nat)      (* so many bytes, at most as many as offered *)
| PIntr                (* EINTR, on Unix only *)
| PFail (e : N).
Record child := mkChild { ch_got : bytes; ch_killed : bool; ch_eof : bool }.
(** The loop, win.cpp 1576-1610 ([chunk] is MAX_SINGLE_BLOCK) and unix.cpp 909-937 ([chunk]
    is the number of bytes left; EINTR there, on Windows never).  The answers of the
    system are a list; when it ends, the program is still waiting ([None]).  Then the
    writing end is closed, win.cpp 1612 and unix.cpp 940. *)
Fixpoint feed (unix : bool) (chunk : nat) (answers : list pipe_answer) (left : bytes) (c : child) : option (res unit * child) :=
  match left with
  | [] => Some (Ok tt, mkChild (ch_got c) (ch_killed c) true)
  | _ :: _ =>
    match answers with
    | [] => None
    | PIntr :: answers' =>
      if unix then feed unix chunk answers' left c
      else Some (Err (EPosix 5), mkChild (ch_got c) true true)
    | PFail e :: _ => Some (Err (EPosix e), mkChild (ch_got c) true true)
    | PTook n :: answers' =>
      let asked := if unix then length left else Nat.min chunk (length left) in
      let n := Nat.min n asked in
      if n =? 0 then Some (Err (EPosix 32), mkChild (ch_got c) true true)
      else feed unix chunk answers' (skipn n left) (mkChild (ch_got c ++ firstn n left) (ch_killed c) (ch_eof c))
    end
  end.

(** ** Times *)

(** A FILETIME: two words of 32 bits. *)
Record filetime := mkFt { ft_low : N; ft_high : N }.
Record wtime := mkWt { w_sec : Z; w_nsec : Z }.
(** Conversion to a signed integer of 64 bits. *)
Definition to_i64 (z : Z) : Z := ((z + 2 ^ 63) mod 2 ^ 64 - 2 ^ 63)%Z.
Definition in_i64 (z : Z) : bool := (- 2 ^ 63 <=? z)%Z && (z <? 2 ^ 63)%Z.
Definition EPOCH : Z := 116444736000000000%Z.
(** convert_dword_pair, win.cpp 52-55. *)
Definition dword_pair (low high : N) : N := N.lor low (N.shiftl high 32).
(** filetime_to_unix_time, win.cpp 57-63.  Division of C++ rounds towards zero. *)
Definition filetime_to_unix (ft : filetime) : wtime :=
  let ll := to_i64 (Z.of_N (dword_pair (ft_low ft) (ft_high ft)) - EPOCH) in
  mkWt (Z.quot ll 10000000) (Z.rem ll 10000000 * 100).
(** unix_time_to_filetime, win.cpp 65-73.  Overflow is undefined. *)
Definition unix_to_filetime (t : wtime) : res filetime :=
  let a := (w_sec t * 10000000)%Z in
  let b := (a + Z.quot (w_nsec t) 100)%Z in
  let ll := (b + EPOCH)%Z in
  if in_i64 a && in_i64 b && in_i64 ll
  then Ok (mkFt (Z.to_N (ll mod 2 ^ 32)) (Z.to_N ((ll / 2 ^ 32) mod 2 ^ 32)))
  else Err EUndef.

(** ** Paths *)

(** OSService::is_absolute, win.cpp 776-780. *)
Definition is_absolute (p : bytes) : bool :=
  match p with
  | [] => true
  | c :: p' => Byte.eqb c SLASH || Byte.eqb c BSL || match p' with d :: _ => Byte.eqb d x3a | [] => false end
  end.
Definition is_sep (c : byte) : bool := Byte.eqb c SLASH || Byte.eqb c BSL.
(** absl::StrSplit by any of / and \. *)
(** sources/win.cpp 800-803. *)
Fixpoint split_seps (cur : bytes) (p : bytes) : list bytes :=
  match p with
  | [] => [cur]
  | c :: p' => if is_sep c then cur :: split_seps [] p' else split_seps (cur ++ [c]) p'
  end.
(** sources/win.cpp 800-818: the piece ".". *)
Definition DOT : bytes := [x2e].
Definition DOTDOT : bytes := [x2e; x2e].
(** The loop over the pieces, win.cpp 800-818; [pieces] with the last one first. *)
Fixpoint norm_pieces (l : list bytes) (pieces : list bytes) : list bytes :=
  match l with
  | [] => rev pieces
  | p :: l' =>
    if bytes_eqb p [] || bytes_eqb p DOT then norm_pieces l' pieces
    else if bytes_eqb p DOTDOT then norm_pieces l' (tl pieces)
    else norm_pieces l' (p :: pieces)
  end.
Definition starts_with (pre p : bytes) : bool := bytes_eqb (firstn (length pre) p) pre.
(** OSService::concat_and_norm, win.cpp 782-837. *)
Definition concat_and_norm (base path : bytes) : res bytes :=
  if bytes_eqb base [] || is_absolute path then Ok path
  else if negb (is_absolute base) then Err EInval
  else
    let pieces := norm_pieces (split_seps [] (base ++ [BSL] ++ path)) [] in
    Ok ((if negb (starts_with [BSL; BSL] base) then [BSL; BSL; x3f] else [BSL]) ++
        flat_map (fun p => BSL :: p) pieces).

(** ** Symbolic links *)

(** kSecurefsSymlinkPrefix, win.cpp 32. *)
Definition symlink_prefix : bytes := str "\??\UNC\securefs\P".
Definition replace_byte (a b : byte) (l : bytes) : bytes := map (fun c => if Byte.eqb c a then b else c) l.
(** prepend_symlink_prefix, win.cpp 34-39. *)
Definition prepend_symlink_prefix (p : bytes) : bytes := symlink_prefix ++ replace_byte SLASH BSL p.
(** remove_symlink_prefix, win.cpp 41-50. *)
Definition remove_symlink_prefix (p : bytes) : bytes :=
  if starts_with symlink_prefix p then replace_byte BSL SLASH (skipn (length symlink_prefix) p) else p.
(** OSService::symlink, win.cpp 1056-1069: what is stored as the target. *)
Definition win_symlink (to : bytes) : bytes := prepend_symlink_prefix to.
(** OSService::readlink, win.cpp 1044-1053, of the stored target. *)
Definition win_readlink (target : bytes) (size : nat) : bytes :=
  let stripped := remove_symlink_prefix target in
  firstn (Nat.min size (length stripped)) stripped.
(** st_size of a link in stat_file_handle, win.cpp 513-521. *)
Definition win_link_size (target : bytes) : nat :=
  if length symlink_prefix <? length target then length target - length symlink_prefix else 0.

(** ** Opening *)

(** Access and creation as CreateFileW has them. *)
(** sources/win.cpp 605-625: dwCreationDisposition. *)
Inductive disposition := CREATE_NEW | CREATE_ALWAYS | OPEN_ALWAYS | TRUNCATE_EXISTING | OPEN_EXISTING.
Record oflags := mkOflags { o_acc : N; o_creat : bool; o_excl : bool; o_trunc : bool }.
(** The constructor of WindowsFileStream, win.cpp 592-622. *)
Definition win_access (f : oflags) : res (bool * bool) :=
  match o_acc f with
  | 0%N => Ok (true, false)
  | 1%N => Ok (false, true)
  | 2%N => Ok (true, true)
  | _ => Err EInval
  end.
Definition win_disposition (f : oflags) : disposition :=
  if o_creat f then
    if o_excl f then CREATE_NEW else if o_trunc f then CREATE_ALWAYS else OPEN_ALWAYS
  else if o_trunc f then TRUNCATE_EXISTING
  else OPEN_EXISTING.
(** What CreateFileW does to a file that has the content [c], or is missing: its
    documentation.  Permissions are left out. *)
(** Environment: CreateFileW, called at sources/win.cpp 627. *)
Definition create_file (d : disposition) (writing : bool) (c : option bytes) : res bytes :=
  match d, c with
  | CREATE_NEW, None => Ok []
  | CREATE_NEW, Some _ => Err (EPosix 17)
  | CREATE_ALWAYS, _ => Ok []
  | OPEN_ALWAYS, None => Ok []
  | OPEN_ALWAYS, Some c => Ok c
  | TRUNCATE_EXISTING, None => Err (EPosix 2)
  | TRUNCATE_EXISTING, Some c => if writing then Ok [] else Err EInval   (* needs GENERIC_WRITE *)
  | OPEN_EXISTING, None => Err (EPosix 2)
  | OPEN_EXISTING, Some c => Ok c
  end.
(** sources/win.cpp 589-638. *)
Definition win_open (f : oflags) (c : option bytes) : res (bool * bool * bytes) :=
  match win_access f with
  | Err e => Err e
  | Ok (r, w) => match create_file (win_disposition f) w c with Ok c' => Ok (r, w, c') | Err e => Err e end
  end.

(** ** Reading and writing in pieces *)

(** WindowsFileStream::read, win.cpp 677-692, with MAX_SINGLE_BLOCK as [m]; one ReadFile
    gives what there is up to the length asked for ([arr_read]), at the end of the file
    nothing.  The fuel is the length. *)
Fixpoint win_read (fuel : nat) (m : nat) (c : bytes) (off len : nat) : res bytes :=
  if m <? len then
    match fuel with
    | 0 => Err EFuel
    | S fuel' =>
      let got := arr_read c off m in
      if length got =? 0 then Ok []
      else rmap (fun r => got ++ r) (win_read fuel' m c (off + length got) (len - length got))
    end
  else Ok (arr_read c off len).
(** WindowsFileStream::write, win.cpp 710-720. *)
Fixpoint win_write (fuel : nat) (m : nat) (c : bytes) (off : nat) (d : bytes) : res bytes :=
  if m <? length d then
    match fuel with
    | 0 => Err EFuel
    | S fuel' => win_write fuel' m (arr_write c off (firstn m d)) (off + m) (skipn m d)
    end
  else Ok (arr_write c off d).
