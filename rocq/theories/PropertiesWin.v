(** C79 - C82: starting child processes, and what the code for Windows makes of times,
    paths, links, modes of opening and large transfers. *)
From Coq Require Import Strings.String Lia.
From Verif Require Import Base TextModel WinModel WinSpec WinProofs.
Local Open Scope list_scope.

(** ** C79: child processes get the arguments and the input they are given *)

(** The command line that is built from a program's name and any arguments is taken apart
    into the same again, whichever way two quotes in a row are read.  The name must be
    one a file can have: no quotes, no control characters, no backslash at the end. *)
Theorem C79_arguments : forall twin program args,
  Forall (fun c => (32 <= b2n c)%N /\ c <> x22) program -> last program x41 <> x5c ->
  argv twin (command_line (program :: args)) = program :: args.
Proof. intros twin program args H1 H2. apply argv_ok. now split. Qed.
Print Assumptions C79_arguments.
Example C79_arguments_example : Forall (fun c => (32 <= b2n c)%N /\ c <> x22) (str "C:\Program Files\s.exe") /\ last (str "C:\Program Files\s.exe") x41 <> x5c /\
  let args := [[]; str "a b\"; [x22]; str "x\\" ++ [x22; x5c; x22; x22]; str "\\\"; [x09; x5c; x5c]] in
  command_line (str "C:\Program Files\s.exe" :: args) =
    [x22] ++ str "C:\Program Files\s.exe" ++ [x22; x20; x22; x22; x20; x22] ++ str "a b\\" ++ [x22; x20; x22; x5c; x22; x22; x20; x22] ++ str "x\\\\\" ++ [x22] ++ str "\\\" ++ [x22; x5c; x22; x22; x20] ++
      str "\\\ " ++ [x22; x09; x5c; x5c; x5c; x5c; x22] /\
  argv true (command_line (str "C:\Program Files\s.exe" :: args)) = str "C:\Program Files\s.exe" :: args.
Proof. split; [repeat (constructor; [split; [vm_compute; discriminate|discriminate]|]); constructor|]. split; [discriminate|]. split; vm_compute; reflexivity. Qed.

(** The child reads what it is given, to its end: whatever parts the system takes the data
    in and however often a call is interrupted, the parent returns normally only when all
    of it has been written and the pipe is closed; otherwise it throws and the child,
    which has got a part from the beginning, is killed. *)
Theorem C79_input : forall unix chunk answers data r c,
  feed unix chunk answers data (mkChild [] false false) = Some (r, c) ->
  ch_eof c = true /\ (exists rest, ch_got c ++ rest = data) /\
  (r = Ok tt <-> ch_killed c = false) /\ (r = Ok tt -> ch_got c = data).
Proof.
  intros unix chunk answers data r c H. destruct (feed_ok unix chunk answers data (mkChild [] false false) r c eq_refl eq_refl H) as (n & H1 & H2 & H3 & H4). cbn [ch_got app] in H1.
  split; [exact H2|]. split; [exists (skipn n data); rewrite H1; apply firstn_skipn|]. split; [exact H3|]. intros Hr. now rewrite H1, H4.
Qed.
Print Assumptions C79_input.
Example C79_input_example :
  feed true 100 [PTook 2; PIntr; PTook 7; PFail 9] (str "password") (mkChild [] false false) = Some (Ok tt, mkChild (str "password") false true) /\
  feed false 3 [PTook 5; PTook 2; PFail 9] (str "password") (mkChild [] false false) = Some (Err (EPosix 9), mkChild (str "passw") true true).
Proof. split; reflexivity. Qed.

(** ** C80: times on Windows *)

(** Every time that Windows has for a file is reported as the same instant, to the tenth
    of a microsecond, and set again as the same.  (FILETIMEs are below 2^63.) *)
Theorem C80_kept : forall low high, (low < 2 ^ 32)%N -> (high < 2 ^ 31)%N ->
  let t := filetime_to_unix (mkFt low high) in
  unix_to_filetime t = Ok (mkFt low high) /\
  (w_sec t * 10 ^ 9 + w_nsec t = (ticks low high - 116444736000000000) * 100)%Z.
Proof. exact there_and_back. Qed.
Print Assumptions C80_kept.
(** Every time from 1970 on, up to the year 30828, that is set is reported as that time,
    rounded down to tenths of microseconds. *)
Theorem C80_set : forall sec nsec, (0 <= sec < 910692730085)%Z -> (0 <= nsec < 10 ^ 9)%Z ->
  exists ft, unix_to_filetime (mkWt sec nsec) = Ok ft /\ filetime_to_unix ft = mkWt sec (nsec - nsec mod 100).
Proof. exact back_and_there. Qed.
Print Assumptions C80_set.
Example C80_example : unix_to_filetime (mkWt 1700000000 123456789) = Ok (mkFt 3330266759 31070023) /\
  filetime_to_unix (mkFt 3330266759 31070023) = mkWt 1700000000 123456700.
Proof. split; vm_compute; reflexivity. Qed.
(** Setting a time is defined exactly for the instants whose count of ticks fits. *)
Theorem C80_defined : forall sec nsec, (0 <= nsec < 10 ^ 9)%Z ->
  ((exists ft, unix_to_filetime (mkWt sec nsec) = Ok ft) <->
   (- 2 ^ 63 <= sec * 10 ^ 7 /\ sec * 10 ^ 7 + nsec / 100 + 116444736000000000 < 2 ^ 63)%Z).
Proof.
  intros sec nsec Hn. unfold unix_to_filetime, in_i64. cbn [w_sec w_nsec]. cbv zeta. rewrite Z.quot_div_nonneg by lia.
  assert (He : EPOCH = 116444736000000000%Z) by reflexivity. rewrite He. pose proof (Z.div_pos nsec 100 ltac:(lia) ltac:(lia)).
  match goal with |- context [if ?b then _ else _] => destruct b eqn:E end;
    rewrite ?andb_true_iff, ?andb_false_iff, ?Z.leb_le, ?Z.ltb_lt, ?Z.leb_gt, ?Z.ltb_ge in E.
  - split; [intros _; lia|intros _; eexists; reflexivity].
  - split; [intros [ft H1]; discriminate H1|intros H1; exfalso; lia].
Qed.
Print Assumptions C80_defined.
Example C80_defined_example : unix_to_filetime (mkWt 922337203685 0) = Err EUndef /\ unix_to_filetime (mkWt (-922337203685) 0) <> Err EUndef.
Proof. split; vm_compute; [reflexivity|discriminate]. Qed.
(** Times before 1970 are reported with nanoseconds below zero, which no program expects. *)
Theorem C80_before_1970_refuted : exists low high, (low < 2 ^ 32)%N /\ (high < 2 ^ 31)%N /\ ~ (0 <= w_nsec (filetime_to_unix (mkFt low high)) < 10 ^ 9)%Z.
Proof. exists 3577643007%N, 27111902%N. split; [reflexivity|]. split; [reflexivity|]. vm_compute. intros [H _]. now apply H. Qed.
Print Assumptions C80_before_1970_refuted.

(** ** C81: paths on Windows *)

(** A relative path leads, from the directory of the repository, to where its components
    lead one after another, however it is spelled: slashes of either kind, doubled or
    not, single dots.  The result is in the form that Windows takes literally, so long
    paths and names with dots or blanks at the end mean themselves. *)
Theorem C81_leads : forall base bl path pl, spells base bl -> spells path pl ->
  base <> [] -> is_absolute base = true -> is_absolute path = false ->
  concat_and_norm base path = Ok (verbatim base (walk [] (bl ++ pl))).
Proof. exact concat_ok. Qed.
Print Assumptions C81_leads.
(** Without double dots it stays below that directory. *)
Theorem C81_inside : forall base bl path names, spells base bl -> spells path (map Name names) ->
  base <> [] -> is_absolute base = true -> is_absolute path = false ->
  concat_and_norm base path = Ok (verbatim base (walk [] bl) ++ flat_map (fun x => x5c :: x) names).
Proof.
  intros base bl path names H1 H2 H3 H4 H5. rewrite (concat_ok base bl path _ H1 H2 H3 H4 H5). f_equal. rewrite walk_app, walk_names. unfold verbatim. rewrite flat_map_app. now rewrite app_assoc.
Qed.
Print Assumptions C81_inside.
(** Two paths lead to the same place only if their components do. *)
Theorem C81_distinct : forall base bl p pl q ql r, spells base bl -> spells p pl -> spells q ql ->
  base <> [] -> is_absolute base = true -> is_absolute p = false -> is_absolute q = false ->
  concat_and_norm base p = Ok r -> concat_and_norm base q = Ok r -> walk [] (bl ++ pl) = walk [] (bl ++ ql).
Proof.
  intros base bl p pl q ql r H1 H2 H3 H4 H5 H6 H7 E1 E2. rewrite (concat_ok base bl p pl) in E1 by assumption. rewrite (concat_ok base bl q ql) in E2 by assumption.
  assert (E : verbatim base (walk [] (bl ++ pl)) = verbatim base (walk [] (bl ++ ql))) by congruence. unfold verbatim in E. apply app_inv_head in E.
  apply join_inj; [| |exact E]; (apply walk_plain; [constructor|apply Forall_app; split; eapply spells_plain; eassumption]).
Qed.
Print Assumptions C81_distinct.
Ltac plainly := constructor; [discriminate|repeat (constructor; [intros [H|H]; discriminate H|]); constructor|discriminate|discriminate].
Example C81_example : spells (str "C:\data") [Name (str "C:"); Name (str "data")] /\ spells (str "a//./b.\..") [Name (str "a"); Name (str "b."); Up] /\
  is_absolute (str "C:\data") = true /\ is_absolute (str "a//./b.\..") = false /\
  concat_and_norm (str "C:\data") (str "a//./b.\..") = Ok (str "\\?\C:\data\a") /\ concat_and_norm (str "\\server\share") (str "./x") = Ok (str "\\server\share\x").
Proof.
  split; [apply (sp_name (str "C:") (str "\data")); [plainly|now right|]; apply sp_sep; [now right|]; apply (sp_name (str "data") []); [plainly|exact I|constructor]|].
  split; [|repeat split].
  apply (sp_name (str "a") (str "//./b.\..")); [plainly|now left|]. apply sp_sep; [now left|]. apply sp_sep; [now left|]. apply sp_dot; [now left|]. apply sp_sep; [now left|].
  apply (sp_name (str "b.") (str "\..")); [plainly|now right|]. apply sp_sep; [now right|]. apply sp_up; [exact I|constructor].
Qed.
(** A path that does not depend on the directory is taken as it is, and so is every path if
    there is no directory; a directory that is not absolute is refused. *)
Theorem C81_absolute : forall base path,
  (base = [] \/ absolute path -> concat_and_norm base path = Ok path) /\
  (base <> [] -> ~ absolute path -> ~ absolute base -> concat_and_norm base path = Err EInval) /\
  (is_absolute path = true <-> absolute path).
Proof.
  intros base path. assert (A : forall p, is_absolute p = true <-> absolute p).
  { intros p. unfold absolute. split.
    - destruct p as [|c p]; [now left|]. cbn [is_absolute]. intros H. right. apply orb_prop in H as [H|H].
      + left. exists c, p. split; [reflexivity|]. apply orb_prop in H as [H|H]; apply Byte.byte_dec_bl in H; [now left|now right].
      + right. destruct p as [|d p]; [discriminate H|]. apply Byte.byte_dec_bl in H. subst d. now exists c, p.
    - intros [-> |[(c & p' & -> & [-> | ->])|(c & p' & ->)]]; cbn [is_absolute]; try reflexivity. apply orb_true_r. }
  unfold concat_and_norm. split; [|split; [|apply A]].
  - intros [-> |H]; [reflexivity|]. apply A in H. rewrite H, orb_true_r. reflexivity.
  - intros Hb Hp Hq. destruct base as [|b base]; [contradiction|]. change (bytes_eqb (b :: base) []) with false. cbn [orb].
    destruct (is_absolute path) eqn:E; [now apply A in E|]. destruct (is_absolute (b :: base)) eqn:E'; [now apply A in E'|]. reflexivity.
Qed.
Print Assumptions C81_absolute.
Example C81_absolute_example : absolute (str "D:x") /\ absolute (str "/x") /\ ~ absolute (str "ab:") /\ concat_and_norm (str "C:\a") (str "D:x") = Ok (str "D:x") /\
  concat_and_norm (str "a") (str "x") = Err EInval.
Proof.
  split; [right; right; now exists x44, [x78]|]. split; [right; left; exists x2f, [x78]; now split; [|left]|].
  split; [intros [H|[(c & p & H & [-> | ->])|(c & p & H)]]; discriminate H|]. split; reflexivity.
Qed.
(** Above the top there is nothing, and the drive is below it. *)
Theorem C81_drive_refuted : exists base path r, is_absolute base = true /\ is_absolute path = false /\ concat_and_norm base path = Ok r /\
  (exists drive rest, base = drive :: x3a :: rest) /\ ~ In x3a r.
Proof.
  exists (str "C:\a"), (str "..\..\b"), (str "\\?\b"). repeat split; [now exists x43, (str "\a")|]. cbv. intros H. repeat (destruct H as [H|H]; [discriminate H|]). exact H.
Qed.
Print Assumptions C81_drive_refuted.

(** ** C82: links, opening, reading and writing on Windows *)

(** A link reads as it was made, cut to the size of the buffer, and stat gives its length;
    targets with backslashes excepted. *)
Theorem C82_links : forall target size, ~ In x5c target ->
  win_readlink (win_symlink target) size = firstn size target /\ win_link_size (win_symlink target) = length target.
Proof. intros target size H. apply link_ok. apply Forall_forall. intros c Hc ->. contradiction. Qed.
Print Assumptions C82_links.
Example C82_links_example : ~ In x5c (str "../x/y") /\ win_symlink (str "../x/y") = str "\??\UNC\securefs\P..\x\y" /\ win_readlink (win_symlink (str "../x/y")) 100 = str "../x/y".
Proof. split; [cbv; intros H; repeat (destruct H as [H|H]; [discriminate H|]); exact H|split; vm_compute; reflexivity]. Qed.
Theorem C82_backslash_refuted : exists target, forall size, length target <= size -> win_readlink (win_symlink target) size <> target.
Proof. exists [x61; x5c]. intros size H. cbn [length] in H. destruct size as [|[|size]]; [lia|lia|]. unfold win_readlink. vm_compute (remove_symlink_prefix _). cbn [length Nat.min firstn]. discriminate. Qed.
Print Assumptions C82_backslash_refuted.
(** A link that something else has made is reported with a wrong length. *)
Theorem C82_foreign_link_refuted : exists target, win_link_size target <> length (win_readlink target 1000).
Proof. exists (str "C:\Windows\System32"). vm_compute. discriminate. Qed.
Print Assumptions C82_foreign_link_refuted.

(** Opening creates, refuses and truncates as POSIX says, but for truncating what is
    opened for reading, which POSIX leaves open. *)
Theorem C82_open : forall f c, (o_trunc f = true -> o_acc f <> 0%N) -> win_open f c = posix_open (o_acc f) (o_creat f) (o_excl f) (o_trunc f) c.
Proof. exact open_ok. Qed.
Print Assumptions C82_open.
Example C82_open_example : win_open (mkOflags 2 true false true) (Some (str "old")) = Ok (true, true, []) /\ win_open (mkOflags 1 true true false) (Some (str "old")) = Err (EPosix 17).
Proof. split; reflexivity. Qed.

(** Reads and writes longer than one call can take are those of one call. *)
Theorem C82_read : forall m c off len, 0 < m -> win_read len m c off len = Ok (arr_read c off len).
Proof. intros m c off len H. now apply read_pieces. Qed.
Print Assumptions C82_read.
Theorem C82_write : forall m c off d, 0 < m -> win_write (length d) m c off d = Ok (arr_write c off d).
Proof. intros m c off d H. now apply write_pieces. Qed.
Print Assumptions C82_write.
Example C82_pieces_example : win_read 100 3 (str "hello world") 2 100 = Ok (str "llo world") /\ win_write 7 3 (str "hello world") 2 (str "1234567") = Ok (str "he1234567ld").
Proof. split; reflexivity. Qed.
