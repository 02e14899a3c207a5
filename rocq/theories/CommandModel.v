(** Model of the program's commands: reading passwords from standard input (sources/unix.cpp
    623-697), choosing the command (sources/commands.cpp 1388-1470) and running create, chpass,
    info and migrate-long-name from the options and the input to the exit code.
    Mounting is in MountModel; what the commands do to the configuration is in ParamsModel. *)
From Coq Require Import Strings.String.
From Verif Require Import Base TextModel ProtoModel TableIoModel ParamsModel.
Local Open Scope nat_scope.
Local Open Scope list_scope.

(** ** Standard input *)
(** [c_in]: what is still to be read from standard input, up to its end; whether standard
    input and standard error are terminals (isatty); whether the terminal echoes.
    A terminal's input is taken as one stream too: that tcsetattr(TCSAFLUSH) drops what was
    typed before the prompt appeared is not modelled. *)
(** Environment of sources/unix.cpp 624-667: standard input, whether it and
    standard error are terminals, and the terminal's ECHO flag. *)
Record console := mkCon { c_in : bytes; c_in_tty : bool; c_err_tty : bool; c_echo : bool }.
(** Helper: what getchar (sources/unix.cpp 647) leaves. *)
Definition with_in (c : console) (b : bytes) : console := mkCon b (c_in_tty c) (c_err_tty c) (c_echo c).
(** sources/unix.cpp 640-643 and 662: tcsetattr. *)
Definition with_echo (c : console) (e : bool) : console := mkCon (c_in c) (c_in_tty c) (c_err_tty c) e.

(** sources/unix.cpp 648. *)
Definition CR := x0d.
(** sources/unix.cpp 648. *)
Definition LF := x0a.
(** sources/unix.cpp 627. *)
Definition kMaxPassword : N := 4000.

(** The loop of OSService::read_password_no_confirmation, unix.cpp 646-662: [buffer] holds
    [bufsize] bytes so far; the result is the password, or an error, and what is left. *)
Fixpoint read_loop (buffer : bytes) (input : bytes) : res bytes * bytes :=
  match input with
  | [] => (Ok buffer, [])                                              (* EOF *)
  | c :: rest =>
    if Byte.eqb c CR || Byte.eqb c LF then (Ok buffer, rest)
    else if (N.of_nat (length buffer) <? kMaxPassword)%N then read_loop (buffer ++ [c]) rest
    else (Err EInval, rest)                                            (* Password exceeds 4000 characters *)
  end.

(** OSService::read_password_no_confirmation, unix.cpp 623-671.  On a terminal the echo is
    switched off, and afterwards what it was; the exception skips the latter. *)
Definition read_password (c : console) : res bytes * console :=
  let before := if c_in_tty c then with_echo c false else c in
  let '(r, rest) := read_loop [] (c_in c) in
  match r with
  | Ok pw => (Ok pw, with_in c rest)
  | Err e => (Err e, with_in before rest)
  end.

(** OSService::read_password_with_confirmation, 683-697. *)
Definition read_password_confirmed (c : console) : res bytes * console :=
  match read_password c with
  | (Err e, c1) => (Err e, c1)
  | (Ok pw, c1) =>
    if negb (c_in_tty c) || negb (c_err_tty c) then (Ok pw, c1)
    else match read_password c1 with
    | (Err e, c2) => (Err e, c2)
    | (Ok again, c2) => if bytes_eqb pw again then (Ok pw, c2) else (Err EInval, c2)   (* Password mismatch *)
    end
  end.

(** ** Secrets *)
(** --pass, --keyfile (default: empty) and --askpass; for chpass --oldpass, --oldkeyfile and
    --askoldpass, or --newpass, --newkeyfile and --asknewpass. *)
(** sources/commands.cpp 138-185 and 396-440: the members holding these options.
    *)
Record secret_args := mkSecret { g_pass : option bytes; g_keyfile : bytes; g_ask : bool }.

(** SinglePasswordHolder::get_password, commands.cpp 166-190. *)
Definition get_password (g : secret_args) (confirm : bool) (c : console) : res bytes * console :=
  match g_pass g with
  | Some (x :: p) => (Ok (x :: p), c)
  | _ =>
    if negb (match g_keyfile g with [] => true | _ => false end) && negb (g_ask g) then (Ok empty_password, c)
    else if confirm then read_password_confirmed c else read_password c
  end.
(** ChangePasswordCommand::parse_cmdline, 442-472, for one of the passwords. *)
Definition chpass_get (g : secret_args) (confirm : bool) (c : console) : res bytes * console :=
  match g_pass g with
  | Some p => (Ok p, c)
  | None =>
    if (match g_keyfile g with [] => true | _ => false end) || g_ask g then (if confirm then read_password_confirmed c else read_password c)
    else (Ok empty_password, c)
  end.
(** maybe_open_key_stream, params_io.h 35-43, and reading it; [files] are the files of the host. *)
Definition key_file (files : bytes -> option bytes) (path : bytes) : res (option bytes) :=
  match path with
  | [] => Ok None
  | _ => match files path with Some f => Ok (Some f) | None => Err FullFsModel.E_NOENT end
  end.

(** ** Commands *)
(** What TCLAP makes of the arguments; [w] is how the host behaves (ParamsModel) and the
    [r]s, ivs and salts are what the random generator gives. *)
(** The subclasses of CommandBase at sources/commands.cpp 217, 396, 1021 and
    1106 with their parsed options. *)
Inductive command :=
| CCreate (g : secret_args) (o : create_options) (r1 r2 r3 r4 : bytes) (a : argon_params) (iv salt : bytes) (w : weather)
| CChpass (old new : secret_args) (a : argon_params) (iv salt suffix : bytes) (w : weather)
| CInfo (g : secret_args) (unmask : bool)
| CMigrate (g : secret_args) (a : argon_params) (threshold : N) (suffix iv salt : bytes) (w : weather).

(** InfoCommand::execute, 1051-1063: the keys are cleared. *)
Definition mask (d : dec_params) : dec_params :=
  mkDec (d_size d)
    match d_format d with
    | FNone => FNone
    | FLite l => FLite (mkLite [] [] [] [] (i_threshold l) (i_suffix l))
    | FFull f => FFull (mkFullP [] (u_store_time f) (u_legacy_io f) (u_nocase f) (u_nonorm f))
    end.

(** What a process does: the states of the directory it goes through, its exit code, its
    standard output and the console it leaves. *)
(** Environment: what can be seen of sources/commands.cpp 1388-1470 from
    outside. *)
Record outcome := mkOut { x_states : list host; x_code : N; x_out : bytes; x_con : console }.

(** commands_main, 1454-1469: the exit code for what execute did.  std::runtime_error and the
    rest of std::exception are told apart by the kind of error only as far as this model
    tells them apart. *)
Definition exit_code {A} (r : res A) : N :=
  match r with Ok _ => 0%N | Err (EPosix _) => 2%N | Err _ => 1%N end.
Definition finish (r : run) (c : console) : outcome := mkOut (fst r) (exit_code (snd r)) [] c.

Section Commands.
  Variable C : pcrypto.
  Variable json : bytes -> option legacy_params.
  (* google::protobuf::util::MessageToJsonString, 1064-1074 *)
  Variable print_json : dec_params -> res bytes.
  Variable files : bytes -> option bytes.
  (* --config, the same for every command on this repository *)
  Variable config : bytes.

  (** parse_cmdline followed by execute: create 302-387, chpass 442-501, info 1038-1077,
      migrate-long-name 1130-1195. *)
  Definition exec (cmd : command) (con : console) (h : host) : outcome :=
    match cmd with
    | CCreate g o r1 r2 r3 r4 a iv salt w =>
      let '(pw, con1) := get_password g true con in
      finish (on_ok pw (fun pw => on_ok (key_file files (g_keyfile g)) (fun kf =>
                create C w config o r1 r2 r3 r4 a pw kf iv salt h))) con1
    | CChpass old new a iv salt suffix w =>
      let '(pw1, con1) := chpass_get old false con in
      match pw1 with
      | Err e => finish ([], Err e) con1
      | Ok pw1 =>
        let '(pw2, con2) := chpass_get new true con1 in
        finish (on_ok pw2 (fun pw2 =>
                on_ok (key_file files (g_keyfile old)) (fun kf1 =>
                (* the new key file is opened once the old secrets have been accepted *)
                on_ok (open_repo C json config pw1 kf1 h) (fun _ =>
                on_ok (key_file files (g_keyfile new)) (fun kf2 =>
                chpass C json w config suffix pw1 kf1 a pw2 kf2 iv salt h))))) con2
      end
    | CInfo g unmask =>
      let '(pw, con1) := get_password g false con in
      let r := rbind pw (fun pw => rbind (key_file files (g_keyfile g)) (fun kf =>
               rbind (open_repo C json config pw kf h) (fun d => print_json (if unmask then d else mask d)))) in
      mkOut [] (exit_code r) (match r with Ok text => text ++ [LF] | Err _ => [] end) con1
    | CMigrate g a threshold suffix iv salt w =>
      let '(pw, con1) := get_password g false con in
      finish (on_ok pw (fun pw => on_ok (key_file files (g_keyfile g)) (fun kf =>
                migrate_config C json w config pw kf a threshold suffix iv salt h))) con1
    end.

  (** A process that is killed stops in one of its states; [None]: it runs to its end. *)
  (** Environment (no code): where a killed process stops. *)
  Definition end_state (x : outcome) (killed : option nat) (h : host) : host :=
    match killed with
    | None => last (x_states x) h
    | Some n => nth n (h :: x_states x) h
    end.
End Commands.

(** ** Choosing the command *)
Inductive kind := KMount | KCreate | KChpass | KVersion | KInfo | KMigrate | KIsMount | KUnmount | KProtoMount | KDoc.
(** The array of commands_main, 1393-1402, in its order. *)
Definition kinds : list kind := [KMount; KCreate; KChpass; KVersion; KInfo; KMigrate; KIsMount; KUnmount; KProtoMount; KDoc].
(** long_name and short_name of the commands; [None] is 0. *)
Definition kind_name (k : kind) : bytes :=
  match k with
  | KMount => str "mount" | KCreate => str "create" | KChpass => str "chpass" | KVersion => str "version" | KInfo => str "info"
  | KMigrate => str "migrate-long-name" | KIsMount => str "ismount" | KUnmount => str "unmount" | KProtoMount => str "protomount" | KDoc => str "doc"
  end.
Definition kind_alias (k : kind) : byte :=
  match k with KMount => x6d | KCreate => x63 | KVersion => x76 | KInfo => x69 | KUnmount => x75 | _ => x00 end.

(** The character of a C string at index [i]: the terminating zero at its end, nothing beyond. *)
Definition c_char (s : bytes) (i : nat) : res byte :=
  if i <? length s then Ok (nth i s x00) else if i =? length s then Ok x00 else Err EUndef.
(** The test of commands_main, 1445-1446; && and || evaluate their right side only if needed. *)
Definition chosen (word : bytes) (k : kind) : res bool :=
  if bytes_eqb word (kind_name k) then Ok true
  else rbind (c_char word 0) (fun c0 =>
       if Byte.eqb c0 (kind_alias k) then rmap (fun c1 => Byte.eqb c1 x00) (c_char word 1) else Ok false).
(** The loop 1443-1451: [None] prints the usage, exit code 1. *)
Fixpoint choose (ks : list kind) (word : bytes) : res (option kind) :=
  match ks with
  | [] => Ok None
  | k :: ks => rbind (chosen word k) (fun b => if b then Ok (Some k) else choose ks word)
  end.
