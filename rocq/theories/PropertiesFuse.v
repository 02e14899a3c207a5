(** The boundary to FUSE: C55 and C56. *)
From Coq Require Import Strings.String.
From Verif Require Import Base BaseLemmas TextModel FuseModel FuseSpec.
Local Open Scope list_scope.

Lemma traced_rc lg sens c o : snd (traced_call lg sens c o) = code_of o.
Proof. destruct o as [rc c'|e c']; [reflexivity|]. destruct e; reflexivity. Qed.
Lemma quiet_code c o : code_of (quiet c o) = code_of o.
Proof.
  destruct c; try reflexivity. destruct o as [rc c'|e c']; [reflexivity|]. cbn [quiet].
  destruct (error_number e) as [n|] eqn:E; [|reflexivity]. destruct (n =? ENODATA)%Z; [|reflexivity].
  destruct e; cbn [error_number] in E; try discriminate; injection E as <-; reflexivity.
Qed.
Lemma name_spec c : fuse_name c = call_name c.
Proof. destruct c; reflexivity. Qed.
Lemma quiet_after c o : after_of (quiet c o) = match o with Returns _ m | Throws _ m => m end.
Proof. destruct o as [rc c'|e c'], c; try reflexivity. cbn [quiet]. destruct (error_number e) as [n|]; [|reflexivity]. destruct (n =? ENODATA)%Z; reflexivity. Qed.
Lemma is_special_spec p : is_special p = match p with Some p => bytes_eqb p (x2f :: kSpecialFileName) | None => false end.
Proof.
  destruct p as [[|c p]|]; reflexivity.
Qed.

(** ** C55 *)

(** Except for the calls of [special], every call offered reaches the file system
    exactly once, after the idle timer was reset if there is one, and is answered
    with its code and with what it left in the caller's memory; only "no such ioctl" is
    reworded.  Nothing else is offered than what
    the file system offers, and the means to unmount. *)
Theorem C55_transparent :
  forall S (notify clean_exit : S -> S) uid gid fuse_t idle allow inner lg c s,
  special fuse_t c = false ->
  let run := f_run S inner c (if 0 <? idle then notify s else s) in
  match fuse_call S lg (make_fuse_ops S notify clean_exit uid gid fuse_t idle allow inner) c s with
  | Some (s', memory, (_, rc)) =>
    s' = fst run /\ memory = match snd run with Returns _ m | Throws _ m => m end /\ rc = answer fuse_t c (snd run)
  | None => f_has S inner (fuse_name c) = false
  end.
Proof.
  intros S notify clean_exit uid gid fuse_t idle allow inner lg c s Hs run. rewrite name_spec. unfold fuse_call.
  assert (HR : forall ops, f_run S ops c s = run -> 
     forall sens, let '(s1, o) := f_run S ops c s in s1 = fst run /\ after_of (quiet c o) = (match snd run with Returns _ m | Throws _ m => m end) /\ snd (traced_call lg sens c (quiet c o)) = code_of (snd run)).
  { intros ops -> sens. destruct run as [s1 o]. rewrite traced_rc, quiet_code, quiet_after. auto. }
  set (base := if allow then sensitive S (if 0 <? idle then hooked S notify inner else inner) else (if 0 <? idle then hooked S notify inner else inner)).
  assert (Hb : f_run S base c s = run) by (unfold base, run; destruct allow, (0 <? idle); reflexivity).
  assert (Hh : forall n, f_has S base n = f_has S inner n) by (unfold base; destruct allow, (0 <? idle); reflexivity).
  unfold make_fuse_ops. fold base. clearbody base run. destruct fuse_t.
  - assert (HE : f_run S (special_filed S clean_exit uid gid base) c s = run).
    { rewrite <- Hb. cbn [f_run special_filed]. destruct c; try reflexivity; cbn [special] in Hs; rewrite <- is_special_spec in Hs; rewrite Hs; reflexivity. }
    destruct (f_has S (special_filed S clean_exit uid gid base) (call_name c)) eqn:Ef.
    + pose proof (HR _ HE (f_sensitive S (special_filed S clean_exit uid gid base))) as G. rewrite HE in *. destruct run as [s1 o].
      destruct (traced_call lg _ c (quiet c o)) as [ls rc]. cbn [snd] in G. destruct G as [G1 [G3 G2]]. split; [exact G1|]. split; [exact G3|]. rewrite G2.
      destruct c; reflexivity.
    + cbn [f_has special_filed] in Ef. destruct (String.eqb (call_name c) "getattr" || String.eqb (call_name c) "rmdir"); [discriminate|].
      rewrite <- Hh. exact Ef.
  - destruct (f_has S (special_ioctl S clean_exit base) (call_name c)) eqn:Ef.
    + destruct c; try (
        match goal with |- context[quiet ?c _] => pose proof (HR (special_ioctl S clean_exit base) Hb (f_sensitive S (special_ioctl S clean_exit base))) as G;
          change (f_run S (special_ioctl S clean_exit base) c s) with (f_run S base c s) in *; rewrite Hb in *; destruct run as [s1 o];
          destruct (traced_call lg _ c (quiet c o)) as [ls rc]; exact G end).
      cbn [f_run special_ioctl]. cbn [special] in Hs. apply Bool.orb_false_iff in Hs as [Hs1 Hs2]. rewrite Hs1, Hs2, Hb.
      destruct run as [s1 [rc0 c'|e c']].
      * match goal with |- context[traced_call ?a ?b ?c ?o] => pose proof (traced_rc a b c o) as T; destruct (traced_call a b c o) as [ls rc] end.
        cbn [snd quiet code_of fst negb andb after_of] in *. split; [reflexivity|]. split; [reflexivity|]. rewrite T. reflexivity.
      * match goal with |- context[traced_call ?a ?b ?c ?o] => pose proof (traced_rc a b c o) as T; destruct (traced_call a b c o) as [ls rc] end.
        cbn [snd quiet code_of fst negb andb after_of] in *. split; [reflexivity|]. split; [reflexivity|]. rewrite T. reflexivity.
    + cbn [f_has special_ioctl] in Ef. destruct (String.eqb (call_name c) "ioctl"); [discriminate|]. rewrite <- Hh. exact Ef.
Qed.
Print Assumptions C55_transparent.

(** Which calls are offered. *)
Theorem C55_offered :
  forall S (notify clean_exit : S -> S) uid gid fuse_t idle allow inner lg c s,
  fuse_call S lg (make_fuse_ops S notify clean_exit uid gid fuse_t idle allow inner) c s <> None <->
  f_has S inner (fuse_name c) = true \/
  match fuse_t, c with false, FIoctl _ _ _ _ _ _ | true, FGetattr _ _ | true, FRmdir _ => True | _, _ => False end.
Proof.
  intros S notify clean_exit uid gid fuse_t idle allow inner lg c s. rewrite name_spec. unfold fuse_call, make_fuse_ops.
  set (base := if allow then _ else _).
  assert (Hh : forall n, f_has S base n = f_has S inner n) by (unfold base; destruct allow, (0 <? idle); reflexivity). clearbody base.
  destruct fuse_t; cbn [f_has special_filed special_ioctl]; rewrite Hh;
    (destruct c; cbn [call_name traced_args fst String.eqb Ascii.eqb Bool.eqb orb];
     match goal with |- context[if f_has S inner ?n then _ else _] => destruct (f_has S inner n) | _ => idtac end;
     try (match goal with |- context[let '(_, _) := ?r in _] => destruct r as [? ?] end);
     split; intros H; try congruence; auto; try (destruct H as [H|H]; [discriminate|contradiction]); try discriminate).
Qed.
Print Assumptions C55_offered.

(** A failure with a proper code is never taken for success. *)
Theorem C55_failures_are_seen :
  forall S (notify clean_exit : S -> S) uid gid fuse_t idle allow inner lg c s s' m ls rc e after,
  special fuse_t c = false ->
  fuse_call S lg (make_fuse_ops S notify clean_exit uid gid fuse_t idle allow inner) c s = Some (s', m, (ls, rc)) ->
  snd (f_run S inner c (if 0 <? idle then notify s else s)) = Throws e after -> (0 < errno_of e)%Z ->
  (rc < 0)%Z.
Proof.
  intros S notify clean_exit uid gid fuse_t idle allow inner lg c s s' m ls rc e after Hs Hf Hr He.
  pose proof (C55_transparent S notify clean_exit uid gid fuse_t idle allow inner lg c s Hs) as T. rewrite Hf in T.
  destruct T as [_ [_ ->]]. rewrite Hr. destruct fuse_t, c; cbn [answer code_of]; lia.
Qed.
Print Assumptions C55_failures_are_seen.

(** The calls the mount answers itself do not reach the file system: the query
    returns the magic number and changes nothing, looking at the special directory shows
    an open directory of the caller, the others end the mount. *)
Theorem C55_special_calls :
  forall S (notify clean_exit : S -> S) uid gid fuse_t idle allow inner lg c s,
  special fuse_t c = true ->
  exists ls, fuse_call S lg (make_fuse_ops S notify clean_exit uid gid fuse_t idle allow inner) c s =
    Some (match c with FRmdir _ => clean_exit s | FIoctl _ cmd _ _ _ _ => if (cmd =? cmd_query)%N then s else clean_exit s | _ => s end,
          match c with
          | FIoctl p cmd a i f d => if (cmd =? cmd_query)%N then FIoctl p cmd a i f (mkBuf (b_addr d) ([x33; xf9; x0f; x0a] ++ skipn 4 (b_data d))) else c
          | FGetattr p _ => FGetattr p (Some [16895; 2; uid; gid]%Z)
          | _ => c
          end, (ls, 0%Z)).
Proof.
  intros S notify clean_exit uid gid fuse_t idle allow inner lg c s Hs. unfold fuse_call, make_fuse_ops.
  set (base := if allow then _ else _). clearbody base.
  destruct fuse_t, c; try discriminate; cbn [special] in Hs; try rewrite <- is_special_spec in Hs;
    cbn [f_has special_filed special_ioctl call_name traced_args fst String.eqb Ascii.eqb Bool.eqb orb f_run]; try rewrite Hs;
    cbn [traced_call quiet after_of]; [eexists; reflexivity|eexists; reflexivity|].
  destruct (cmd =? cmd_query)%N eqn:Eq.
  - apply N.eqb_eq in Eq. subst cmd. change (negb (ioc_size cmd_query =? 4)%N) with false. cbv iota. eexists. reflexivity.
  - cbn [orb] in Hs. rewrite Hs. eexists. reflexivity.
Qed.
Print Assumptions C55_special_calls.

(** ** C56 *)

Lemma hide_args c d : hide c = hide d -> traced_args false c = traced_args false d.
Proof.
  intros H. destruct c, d; cbn [hide] in H; try discriminate H; try (rewrite H; reflexivity); injection H; intros;
    repeat match goal with E : repeat _ _ = repeat _ _ |- _ => apply (f_equal (@length _)) in E; rewrite !repeat_length in E end; subst;
    cbn [traced_args]; unfold data_arg, size_of; repeat match goal with E : _ = _ :> nat |- _ => rewrite E; clear E | E : _ = _ :> N |- _ => rewrite E; clear E end; reflexivity.
Qed.

(** Unless sensitive logging is allowed, the log does not depend on the contents of
    buffers: file contents, attribute values and lists, and link targets read. *)
Theorem C56_contents_are_not_logged :
  forall S (notify clean_exit : S -> S) uid gid fuse_t idle inner inner' lg c d s s',
  f_sensitive S inner = false -> f_sensitive S inner' = false ->
  (forall n, f_has S inner n = f_has S inner' n) ->
  hide c = hide d ->
  alike (snd (f_run S inner c (if 0 <? idle then notify s else s))) (snd (f_run S inner' d (if 0 <? idle then notify s' else s'))) ->
  option_map snd (fuse_call S lg (make_fuse_ops S notify clean_exit uid gid fuse_t idle false inner) c s) =
  option_map snd (fuse_call S lg (make_fuse_ops S notify clean_exit uid gid fuse_t idle false inner') d s').
Proof.
  intros S notify clean_exit uid gid fuse_t idle inner inner' lg c d s s' H1 H2 Hh Hc Ha.
  assert (HT : forall o o', alike o o' -> traced_call lg false c (quiet c o) = traced_call lg false d (quiet d o')).
  { intros o o' A. assert (A' : alike (quiet c o) (quiet d o')).
    { destruct c, d; cbn [hide] in Hc; try discriminate Hc; try exact A. destruct o as [rc c'|e c'], o' as [rc' d'|e' d']; try contradiction; try exact A.
      destruct A as [-> A]. cbn [quiet]. destruct (error_number e') as [n|]; [|split; [reflexivity|exact A]].
      destruct (n =? ENODATA)%Z; split; auto. }
    unfold traced_call. rewrite (hide_args _ _ Hc).
    destruct (quiet c o) as [rc c'|e c'], (quiet d o') as [rc' d'|e' d']; try contradiction; destruct A' as [-> A2]; cbn [after_of];
      rewrite (hide_args _ _ A2); reflexivity. }
  unfold make_fuse_ops. set (b := if 0 <? idle then hooked S notify inner else inner). set (b' := if 0 <? idle then hooked S notify inner' else inner').
  assert (Hb : forall c, f_run S b c s = f_run S inner c (if 0 <? idle then notify s else s)) by (unfold b; destruct (0 <? idle); reflexivity).
  assert (Hb' : forall c, f_run S b' c s' = f_run S inner' c (if 0 <? idle then notify s' else s')) by (unfold b'; destruct (0 <? idle); reflexivity).
  assert (Hs : f_sensitive S b = false) by (unfold b; destruct (0 <? idle); exact H1).
  assert (Hs' : f_sensitive S b' = false) by (unfold b'; destruct (0 <? idle); exact H2).
  assert (Hbh : forall n, f_has S b n = f_has S b' n) by (unfold b, b'; destruct (0 <? idle); exact Hh).
  rewrite <- Hb, <- Hb' in Ha. clearbody b b'. clear Hb Hb' H1 H2.
  assert (Hn : call_name c = call_name d) by (unfold call_name; rewrite (hide_args _ _ Hc); reflexivity).
  assert (HA : alike (snd (f_run S (if fuse_t then special_filed S clean_exit uid gid b else special_ioctl S clean_exit b) c s))
                     (snd (f_run S (if fuse_t then special_filed S clean_exit uid gid b' else special_ioctl S clean_exit b') d s'))).
  { destruct fuse_t.
    - destruct c, d; cbn [hide] in Hc; try discriminate Hc; try exact Ha; injection Hc; intros; subst; cbn [f_run special_filed];
        try (match goal with |- context[is_special ?p] => destruct (is_special p) end; [split; reflexivity|exact Ha]).
    - destruct c, d; cbn [hide] in Hc; try discriminate Hc; try exact Ha. injection Hc; intros; subst; cbn [f_run special_ioctl].
      match goal with |- context[(?x =? cmd_query)%N] => destruct (x =? cmd_query)%N end.
      + match goal with |- context[if negb ?x then _ else _] => destruct x end; cbn [negb snd alike hide]; (split; [reflexivity|]); [|exact Hc].
        unfold hide_buf in *. cbn [b_addr b_data] in *. match goal with E : b_addr _ = b_addr _ |- _ => rewrite E end.
        match goal with E : repeat _ _ = repeat _ _ |- _ => apply (f_equal (@length _)) in E; rewrite !repeat_length in E; rename E into EL end.
        rewrite !app_length, !skipn_length, EL. reflexivity.
      + match goal with |- context[(?x =? cmd_unmount)%N] => destruct (x =? cmd_unmount)%N end; [split; [reflexivity|exact Hc]|].
        destruct (f_run S b _ s) as [s1 [rc c'|e c']], (f_run S b' _ s') as [s2 [rc' d'|e' d']]; try contradiction; cbn [snd alike] in *; try exact Ha.
        destruct Ha as [-> Ha]. split; [reflexivity|exact Ha]. }
  unfold fuse_call.
  assert (Hhs : f_has S (if fuse_t then special_filed S clean_exit uid gid b else special_ioctl S clean_exit b) (call_name c) =
                f_has S (if fuse_t then special_filed S clean_exit uid gid b' else special_ioctl S clean_exit b') (call_name d)).
  { rewrite Hn. destruct fuse_t; cbn [f_has special_filed special_ioctl]; rewrite Hbh; reflexivity. }
  rewrite Hhs. match goal with |- context[if ?x then _ else None] => destruct x end; [|reflexivity].
  assert (E1 : f_sensitive S (if fuse_t then special_filed S clean_exit uid gid b else special_ioctl S clean_exit b) = false) by (destruct fuse_t; exact Hs).
  assert (E2 : f_sensitive S (if fuse_t then special_filed S clean_exit uid gid b' else special_ioctl S clean_exit b') = false) by (destruct fuse_t; exact Hs').
  rewrite E1, E2. clear E1 E2 Hhs.
  set (B := if fuse_t then special_filed S clean_exit uid gid b else _) in *.
  set (B' := if fuse_t then special_filed S clean_exit uid gid b' else _) in *. clearbody B B'.
  destruct (f_run S B c s) as [s1 o]. destruct (f_run S B' d s') as [s2 o']. cbn [snd option_map] in *. f_equal. apply HT. exact HA.
Qed.
Print Assumptions C56_contents_are_not_logged.

(** The sensitive flag only comes from the option or from the file system itself. *)
Theorem C56_sensitive_only_by_option :
  forall S (notify clean_exit : S -> S) uid gid fuse_t idle allow inner,
  f_sensitive S (make_fuse_ops S notify clean_exit uid gid fuse_t idle allow inner) = allow || f_sensitive S inner.
Proof. intros. unfold make_fuse_ops. destruct fuse_t, allow, (0 <? idle); reflexivity. Qed.
Print Assumptions C56_sensitive_only_by_option.

Lemma quiet_notable c e a : notable c e -> quiet c (Throws e a) = Throws e a.
Proof.
  intros [H1 [H2 H3]]. destruct c; try reflexivity. cbn [quiet]. destruct e; cbn [error_number errno_of] in *; try reflexivity;
    match goal with |- context[(?n =? ENODATA)%Z] => destruct (n =? ENODATA)%Z eqn:E; [apply Z.eqb_eq in E; unfold ENODATA in E; congruence|reflexivity] | _ => idtac end.
Qed.

(** A notable failure is reported with its name and code in one error line, whatever
    the level of the log (trace levels add the lines for the call). *)
Theorem C56_errors_are_logged :
  forall S lv ops c s s' m ls rc e after,
  fuse_call S (Some lv) ops c s = Some (s', m, (ls, rc)) ->
  snd (f_run S ops c s) = Throws e after -> fuse_name after = fuse_name c -> notable c e ->
  exists ln, filter (fun l => match ln_level l with LError => true | _ => false end) ls = [ln] /\
    ln_fun ln = fuse_name c /\ ln_rc ln = Some rc /\ rc = (- errno_of e)%Z /\ ln_what ln = Some (what e).
Proof.
  intros S lv ops c s s' m ls rc e after Hf Hr Ha Hn. rewrite !name_spec in Ha. rewrite name_spec. unfold fuse_call in Hf.
  destruct (f_has S ops (call_name c)); [|discriminate]. destruct (f_run S ops c s) as [s1 o]. cbn [snd] in Hr. subst o.
  rewrite (quiet_notable _ _ _ Hn) in Hf. destruct Hn as [H1 [H2 _]].
  assert (Hrc : match error_number e with Some n => (- n)%Z | None => (- EPERM)%Z end = (- errno_of e)%Z) by (destruct e; reflexivity).
  assert (He : match error_number e with Some n => (n =? EEXIST_)%Z | None => false end = false).
  { destruct e; cbn [error_number errno_of] in *; try reflexivity; unfold EEXIST_; apply Z.eqb_neq; exact H2. }
  assert (Hc : traced_call (Some lv) (f_sensitive S ops) c (Throws e after) =
    (print_function_starts (Some lv) (traced_args (f_sensitive S ops) c) ++
     [mkLine LError (fst (traced_args (f_sensitive S ops) after)) (snd (traced_args (f_sensitive S ops) after)) (Some (- errno_of e)%Z) (Some (what e))], (- errno_of e)%Z)).
  { unfold traced_call. rewrite Hrc. unfold print_function_exception. rewrite He, andb_false_r.
    replace (level_le lv LError) with true by (destruct lv; reflexivity). destruct e; try reflexivity. exfalso. eapply H1. reflexivity. }
  rewrite Hc in Hf. injection Hf as _ _ <- <-.
  eexists. split; [rewrite filter_app; cbn [print_function_starts]; destruct (level_le lv LTrace); reflexivity|].
  cbn [ln_fun ln_rc ln_what]. split; [|split; [reflexivity|split; reflexivity]].
  rewrite <- Ha. unfold call_name. destruct (f_sensitive S ops); [destruct after; reflexivity|reflexivity].
Qed.
Print Assumptions C56_errors_are_logged.

(** Above the trace level nothing else is logged: a call that returns, fails with a
    plain answer of the file system, or looks for an attribute that is not there,
    leaves no line; one that finds its target there already leaves none above the
    verbose level; and without a log there is no line at all. *)
Theorem C56_quiet :
  forall S lg ops c s s' m ls rc,
  fuse_call S lg ops c s = Some (s', m, (ls, rc)) ->
  match lg with
  | None => True
  | Some lv => lv <> LTrace /\
      match snd (f_run S ops c s) with
      | Returns _ _ | Throws (XVfs _) _ => True
      | Throws e _ => (errno_of e = 17%Z /\ lv <> LVerbose) \/ (errno_of e = 61%Z /\ exists p n b q, c = FGetxattr p n b q)
      end
  end -> ls = [].
Proof.
  intros S lg ops c s s' m ls rc Hf H. unfold fuse_call in Hf.
  destruct (f_has S ops (call_name c)); [|discriminate]. destruct (f_run S ops c s) as [s1 o]. cbn [snd] in H.
  destruct lg as [lv|].
  2:{ destruct (quiet c o) as [rc' a|e a]; [|destruct e]; cbn in Hf; congruence. }
  destruct H as [Hl H].
  assert (Ht : level_le lv LTrace = false) by (destruct lv; [congruence|reflexivity..]).
  assert (HR : forall rc' a, traced_call (Some lv) (f_sensitive S ops) c (Returns rc' a) = ([], rc')) by (intros; cbn; rewrite Ht; reflexivity).
  assert (HV : forall n a, traced_call (Some lv) (f_sensitive S ops) c (Throws (XVfs n) a) = ([], (- n)%Z)) by (intros; cbn; rewrite Ht; reflexivity).
  assert (HQ : ls = fst (traced_call (Some lv) (f_sensitive S ops) c (quiet c o))) by (destruct (traced_call _ _ _ _); injection Hf; intros; subst; reflexivity).
  subst ls. clear Hf.
  destruct o as [rc' a|e a]; [destruct c; cbn [quiet]; rewrite HR; reflexivity|].
  assert (HC : (exists n, e = XVfs n) \/ ((errno_of e = 17%Z /\ lv <> LVerbose) \/ (errno_of e = 61%Z /\ exists p n b q, c = FGetxattr p n b q))).
  { destruct e; first [right; exact H|left; eexists; reflexivity]. }
  clear H. destruct HC as [[n ->]|[[He Hv]|[He [p [n [b [q ->]]]]]]].
  - destruct c; cbn [quiet error_number]; try (rewrite HV; reflexivity). destruct (n =? ENODATA)%Z; rewrite ?HR, ?HV; reflexivity.
  - assert (Hv' : level_le lv LVerbose = false) by (destruct lv; [congruence|congruence|reflexivity..]).
    assert (HE : fst (traced_call (Some lv) (f_sensitive S ops) c (Throws e a)) = []).
    { unfold traced_call. cbn [print_function_starts print_function_returns print_function_exception]. rewrite Ht, Hv'.
      destruct e; cbn [error_number errno_of] in *; try discriminate He; subst; reflexivity. }
    destruct c; cbn [quiet]; try exact HE. destruct (error_number e) as [k|]; [|exact HE]. destruct (k =? ENODATA)%Z; [rewrite HR; reflexivity|exact HE].
  - cbn [quiet]. destruct e; cbn [error_number errno_of] in *; try discriminate He; subst; cbn [Z.eqb]; unfold ENODATA; cbn; rewrite Ht; reflexivity.
Qed.
Print Assumptions C56_quiet.

(** ** Cases *)

(** A small file system: one word of state, counting the calls it gets; it answers
    read with the byte 'a', and refuses to write with a POSIX error. *)
Definition ex_fs (fill : byte) : fops nat :=
  {| f_sensitive := false;
     f_has := fun n => negb (String.eqb n "bmap"%string);
     f_run := fun c s => (s + 1,
       match c with
       | FRead p b o i => Returns (Z.of_nat (length (b_data b))) (FRead p (mkBuf (b_addr b) (repeat fill (length (b_data b)))) o i)
       | FWrite _ _ _ _ => Throws (XPosix 28 (str "No space left")) c
       | FUnlink _ => Throws (XVfs 2) c
       | FIoctl _ _ _ _ _ _ => Returns (-38) c
       | c => Returns 0 c
       end) |}.
Definition ex_call (fill : byte) (lg : option level) (fuse_t allow : bool) (c : fcall) :=
  fuse_call nat lg (make_fuse_ops nat (fun s => s + 100) (fun s => s + 1000) 7 8 fuse_t 60 allow (ex_fs fill)) c 0.
Definition ex_read := FRead (Some (str "/secret-name")) (mkBuf 64%N (repeat x00 3)) 0 None.
Definition ex_write (d : bytes) := FWrite (Some (str "/f")) (mkBuf 64%N d) 0 None.

Example C55_ex :
  option_map (fun r => (fst (fst r), snd (snd r))) (ex_call x61 None false false ex_read) = Some (101, 3%Z) /\
  option_map (fun r => (fst (fst r), snd (snd r))) (ex_call x61 None false false (ex_write (str "ab"))) = Some (101, (-28)%Z) /\
  option_map (fun r => (fst (fst r), snd (snd r))) (ex_call x61 None false false (FUnlink (Some (str "/f")))) = Some (101, (-2)%Z) /\
  option_map (fun r => (fst (fst r), snd (snd r))) (ex_call x61 None false false (FIoctl None 5 0 None 0 (mkBuf 0 []))) = Some (101, (-95)%Z) /\
  option_map (fun r => (fst (fst r), snd (snd r))) (ex_call x61 None false false (FIoctl None cmd_unmount 0 None 0 (mkBuf 0 []))) = Some (1000, 0%Z) /\
  option_map (fun r => (fst (fst r), snd (snd r))) (ex_call x61 None true false (FRmdir (Some (x2f :: kSpecialFileName)))) = Some (1000, 0%Z) /\
  option_map (fun r => (fst (fst r), snd (snd r))) (ex_call x61 None true false (FRmdir (Some (str "/d")))) = Some (101, 0%Z).
Proof. vm_compute. repeat split; reflexivity. Qed.

(** Contents show in the log exactly when this is allowed. *)
Example C56_ex :
  option_map snd (ex_call x61 (Some LTrace) false false ex_read) = option_map snd (ex_call x62 (Some LTrace) false false ex_read) /\
  option_map snd (ex_call x61 (Some LTrace) false true ex_read) <> option_map snd (ex_call x62 (Some LTrace) false true ex_read) /\
  option_map (fun r => length (fst (snd r))) (ex_call x61 (Some LTrace) false false ex_read) = Some 2 /\
  option_map (fun r => length (fst (snd r))) (ex_call x61 (Some LInfo) false false ex_read) = Some 0 /\
  option_map (fun r => length (fst (snd r))) (ex_call x61 (Some LInfo) false false (FUnlink (Some (str "/f")))) = Some 0 /\
  option_map (fun r => length (fst (snd r))) (ex_call x61 (Some LInfo) false false (ex_write (str "ab"))) = Some 1 /\
  option_map snd (ex_call x61 (Some LInfo) false false (ex_write (str "ab"))) = option_map snd (ex_call x61 (Some LInfo) false false (ex_write (str "cd"))).
Proof. vm_compute. repeat split; try reflexivity; discriminate. Qed.

(** "Nothing confidential is logged unless allowed" is false of names: paths, attribute
    names and the targets of new links are logged in full.  Here two calls that
    differ in the name alone leave different lines, also at the default level when
    the call fails. *)
Theorem C56_names_logged_refuted :
  ~ (forall S (notify clean_exit : S -> S) uid gid idle inner lg d1 d2 o i s p1 p2,
     f_sensitive S inner = false -> length p1 = length p2 -> lg = Some LInfo ->
     (forall s p, snd (f_run S inner (FWrite p d1 o i) s) = Throws (XPosix 28 []) (FWrite p d2 o i)) ->
     option_map snd (fuse_call S lg (make_fuse_ops S notify clean_exit uid gid false idle false inner) (FWrite (Some p1) d1 o i) s) =
     option_map snd (fuse_call S lg (make_fuse_ops S notify clean_exit uid gid false idle false inner) (FWrite (Some p2) d1 o i) s)).
Proof.
  intros H.
  pose (inner := {| f_sensitive := false; f_has := fun _ => true; f_run := fun c (s : nat) => (s, Throws (XPosix 28 []) c) |} : fops nat).
  specialize (H nat (fun s => s) (fun s => s) 0%Z 0%Z 0 inner (Some LInfo) (mkBuf 0 []) (mkBuf 0 []) 0%Z None 0 (str "a") (str "b") eq_refl eq_refl eq_refl (fun _ _ => eq_refl)).
  vm_compute in H. discriminate H.
Qed.
Print Assumptions C56_names_logged_refuted.
