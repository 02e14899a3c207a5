(** What is claimed about the commands, in terms of what the user enters and sees. *)
From Coq Require Import Strings.String.
From Verif Require Import Base TextModel ProtoModel TableIoModel ParamsModel ParamsSpec CommandModel.
Local Open Scope nat_scope.
Local Open Scope list_scope.

(** ** Entering a password *)
(** A password that can be entered: one line of at most 4000 bytes. *)
Definition is_line (pw : bytes) : Prop := ~ In x0a pw /\ ~ In x0d pw /\ (N.of_nat (length pw) <= 4000)%N.
(** The input starts with the line [pw], ended by a newline, a carriage return or the end of
    the input, and goes on with [rest]. *)
Definition next_line (input pw rest : bytes) : Prop :=
  is_line pw /\ (input = pw ++ x0a :: rest \/ input = pw ++ x0d :: rest \/ (input = pw /\ rest = [])).
(** The user enters [pw], twice when a new password is chosen at a terminal. *)
Definition entered (choosing : bool) (c : console) (pw rest : bytes) : Prop :=
  if choosing && c_in_tty c && c_err_tty c then exists r, next_line (c_in c) pw r /\ next_line r pw rest
  else next_line (c_in c) pw rest.

(** The password the options and the input stand for: the option if it is given, else a space
    if there is a key file and no --askpass, else what is entered.  [empty_counts]: whether an option given
    as the empty string counts (to chpass only, see C51). *)
Inductive meant (empty_counts choosing : bool) (g : secret_args) (c : console) : bytes -> bytes -> Prop :=
| m_option pw : g_pass g = Some pw -> (pw <> [] \/ empty_counts = true) -> meant empty_counts choosing g c pw (c_in c)
| m_keyfile : (g_pass g = None \/ (g_pass g = Some [] /\ empty_counts = false)) -> g_keyfile g <> [] -> g_ask g = false ->
    meant empty_counts choosing g c (str " ") (c_in c)
| m_entered pw rest : (g_pass g = None \/ (g_pass g = Some [] /\ empty_counts = false)) -> (g_keyfile g = [] \/ g_ask g = true) ->
    entered choosing c pw rest -> meant empty_counts choosing g c pw rest.

(** ** The life of a repository *)
(** What the user knows: password, content of the key file, and the parameters stored.
    [None]: not known to be a repository. *)
Definition known := option (bytes * option bytes * dec_params).
Definition key_of (files : bytes -> option bytes) (path : bytes) (kf : option bytes) : Prop :=
  (path = [] /\ kf = None) \/ (path <> [] /\ files path = kf /\ kf <> None).

(** How a command that ended with an exit code ([Some]) or was killed ([None]) changes what
    the user knows.  What is not listed does not happen: a command that fails changes nothing,
    creating over a repository fails. *)
Inductive follows (files : bytes -> option bytes) : known -> command -> console -> option N -> known -> Prop :=
| f_nothing k cmd c code : code <> Some 0%N -> follows files k cmd c code k
| f_info k g u c : follows files k (CInfo g u) c (Some 0%N) k
| f_created g o r1 r2 r3 r4 a iv salt w c pw rest kf d code : code = Some 0%N \/ code = None ->
    meant false true g c pw rest -> key_of files (g_keyfile g) kf -> created_as o r1 r2 r3 r4 d ->
    follows files None (CCreate g o r1 r2 r3 r4 a iv salt w) c code (Some (pw, kf, d))
| f_chpass pw0 kf0 old new a iv salt sfx w c pw1 pw2 rest1 rest2 kf2 d code : code = Some 0%N \/ code = None ->
    meant true false old c pw1 rest1 -> meant true true new (with_in c rest1) pw2 rest2 -> key_of files (g_keyfile new) kf2 ->
    follows files (Some (pw0, kf0, d)) (CChpass old new a iv salt sfx w) c code (Some (pw2, kf2, d))
| f_migrated pw0 kf0 g a t sfx iv salt w c pw rest kf d d2 code : code = Some 0%N \/ code = None ->
    meant false false g c pw rest -> key_of files (g_keyfile g) kf -> migrate_params d t sfx = Ok d2 ->
    follows files (Some (pw0, kf0, d)) (CMigrate g a t sfx iv salt w) c code (Some (pw, kf, d2))
| f_unknown cmd c : (forall g o r1 r2 r3 r4 a iv salt w, cmd <> CCreate g o r1 r2 r3 r4 a iv salt w) -> follows files None cmd c (Some 0%N) None.

(** One run of the program: the files on the host, the command, its console, and when it is
    killed, if it is. *)
Record event := mkEv { v_files : bytes -> option bytes; v_cmd : command; v_con : console; v_killed : option nat }.
Section Events.
  Variables (C : pcrypto) (json : bytes -> option legacy_params) (print_json : dec_params -> res bytes) (config : bytes).
  Definition ev_run (v : event) (h : host) : outcome := exec C json print_json (v_files v) config (v_cmd v) (v_con v) h.
  Definition ev_code (v : event) (h : host) : option N := match v_killed v with None => Some (x_code (ev_run v h)) | Some _ => None end.
  Definition ev_state (v : event) (h : host) : host := end_state (ev_run v h) (v_killed v) h.
  (** A history: what the user knows afterwards, and the directory. *)
  Inductive life : known -> host -> list event -> known -> host -> Prop :=
  | life_nil k h : life k h [] k h
  | life_cons k h v k1 vs k2 h2 : follows (v_files v) k (v_cmd v) (v_con v) (ev_code v h) k1 -> life k1 (ev_state v h) vs k2 h2 -> life k h (v :: vs) k2 h2.
End Events.

(** Options that the command line allows and random bytes of the right length. *)
Definition command_ok (cmd : command) : Prop :=
  match cmd with
  | CCreate g o r1 r2 r3 r4 a iv salt w => options_ok o /\ Forall (fun r => length r = 32) [r1; r2; r3; r4] /\ argon_range a /\ length iv = 12
  | CChpass old new a iv salt sfx w => argon_range a /\ length iv = 12 /\ length sfx = 16
  | CInfo g u => True
  | CMigrate g a t sfx iv salt w => argon_range a /\ length iv = 12 /\ modest sfx /\ is_text sfx
  end.
(** No configuration the program has written opens to anything but what it was written for
    (whoever finds secrets for which it does has forged a tag, see C38). *)
Definition no_collision (C : pcrypto) (json : bytes -> option legacy_params) : Prop :=
  forall d a pw kf iv salt e pw' kf' d', storable d -> argon_range a -> length iv = 12 ->
    encrypt_params C d a pw kf iv salt = Ok e -> decrypt_config C json (ser_enc e) pw' kf' = Ok d' -> d' = d.

(** The file of the configuration, and what a directory holds that the user knows about. *)
Definition repo_path (config : bytes) : bytes := match config with [] => str ".config.pb" | _ => config end.
Definition holds (C : pcrypto) (json : bytes -> option legacy_params) (config : bytes) (k : known) (h : host) : Prop :=
  match k with
  | None => True
  | Some (pw, kf, d) => storable d /\ exists content, fget h (repo_path config) = Some (HFile content) /\ decrypt_config C json content pw kf = Ok d /\
      (forall pw' kf' d', decrypt_config C json content pw' kf' = Ok d' -> d' = d)
  end.

(** ** Which command a word names *)
Definition names : list (bytes * kind) :=
  [(str "mount", KMount); (str "m", KMount); (str "create", KCreate); (str "c", KCreate); (str "chpass", KChpass);
   (str "version", KVersion); (str "v", KVersion); (str "info", KInfo); (str "i", KInfo); (str "migrate-long-name", KMigrate);
   (str "ismount", KIsMount); (str "unmount", KUnmount); (str "u", KUnmount); (str "protomount", KProtoMount); (str "doc", KDoc)].

(** ** Masking *)
(** Parameters that differ in their keys only. *)
Definition same_but_keys (d1 d2 : dec_params) : Prop :=
  d_size d1 = d_size d2 /\
  match d_format d1, d_format d2 with
  | FNone, FNone => True
  | FLite a, FLite b => i_threshold a = i_threshold b /\ i_suffix a = i_suffix b
  | FFull a, FFull b => u_store_time a = u_store_time b /\ u_legacy_io a = u_legacy_io b /\ u_nocase a = u_nocase b /\ u_nonorm a = u_nonorm b
  | _, _ => False
  end.
