(** Properties C60 to C62: the program from its arguments and input to its exit code. *)
From Coq Require Import Strings.String.
From Verif Require Import Base BaseLemmas TextModel TextProofs NameModel ProtoModel ProtoProofs TableIoModel ParamsModel ParamsSpec ParamsProofs PropertiesParams CommandModel CommandSpec CommandProofs.
Local Open Scope nat_scope.
Local Open Scope list_scope.

(** ** C60: the password entered is the password *)
(** The password a command works with is the one its options and input stand for, and it
    leaves the rest of the input and the terminal as they were; if they stand for none, the
    command fails. *)
Theorem C60_password g choosing c :
  (forall pw c2, get_password g choosing c = (Ok pw, c2) <-> exists rest, meant false choosing g c pw rest /\ c2 = with_in c rest) /\
  (forall pw c2, chpass_get g choosing c = (Ok pw, c2) <-> exists rest, meant true choosing g c pw rest /\ c2 = with_in c rest).
Proof. split; intros; [apply get_password_ok|apply chpass_get_ok]. Qed.
Print Assumptions C60_password.

Definition piped (input : bytes) : console := mkCon input false true true.
Definition typed (input : bytes) : console := mkCon input true true true.
Definition ask_only := mkSecret None [] false.
Definition nl (s : bytes) : bytes := s ++ [x0a].
Example C60_password_ex :
  fst (get_password ask_only true (piped (nl (str "my secret")))) = Ok (str "my secret") /\
  fst (get_password ask_only true (typed (nl (str "a") ++ nl (str "a")))) = Ok (str "a") /\
  fst (get_password ask_only true (typed (nl (str "a") ++ nl (str "b")))) = Err EInval /\
  fst (chpass_get ask_only true (mkCon (str "last") false false true)) = Ok (str "last").
Proof. vm_compute. repeat split. Qed.

(** Whatever commands are run one after the other on a directory, with whatever options, input
    and host, and wherever they are killed: the exit codes tell what happened, and the secrets
    that were last accepted open the repository with the parameters it was created with
    (changed by successful migrations only). *)
Theorem C60_history C json print_json config vs h :
  crypto_ok C -> no_collision C json -> Forall (fun v => command_ok (v_cmd v)) vs ->
  exists k h2, life C json print_json config None h vs k h2 /\
    match k with Some (pw, kf, d) => open_repo C json config pw kf h2 = Ok d | None => True end.
Proof.
  intros HC HN Hok. destruct (history C json print_json config HC HN vs None h Hok I) as (k & h2 & L & H). exists k, h2. split; [exact L|].
  destruct k as [[[pw kf] d]|]; [|exact I]. exact (holds_open _ _ _ _ _ _ _ H).
Qed.
Print Assumptions C60_history.

(** The same for a directory that already is a repository. *)
Theorem C60_history_known C json print_json config vs h pw kf d content :
  crypto_ok C -> no_collision C json -> Forall (fun v => command_ok (v_cmd v)) vs ->
  storable d -> fget h (repo_path config) = Some (HFile content) -> decrypt_config C json content pw kf = Ok d ->
  (forall pw' kf' d', decrypt_config C json content pw' kf' = Ok d' -> d' = d) ->
  exists pw2 kf2 d2 h2, life C json print_json config (Some (pw, kf, d)) h vs (Some (pw2, kf2, d2)) h2 /\ open_repo C json config pw2 kf2 h2 = Ok d2.
Proof.
  intros HC HN Hok Hd Hf Hc Hu. destruct (history C json print_json config HC HN vs (Some (pw, kf, d)) h Hok) as (k & h2 & L & H).
  { split; [exact Hd|]. exists content. auto. }
  assert (N : forall k0 h0 vs0 k1 h1, life C json print_json config k0 h0 vs0 k1 h1 -> k0 <> None -> k1 <> None).
  { intros k0 h0 vs0 k1 h1 L0. induction L0 as [|? ? ? ? ? ? ? F L0 IH]; [auto|]. intros Hn. apply IH. inversion F; subst; congruence. }
  destruct k as [[[pw2 kf2] d2]|]; [|exfalso; eapply N; eauto; discriminate].
  exists pw2, kf2, d2, h2. split; [exact L|]. exact (holds_open _ _ _ _ _ _ _ H).
Qed.
Print Assumptions C60_history_known.

(** What a user does who pipes the passwords: create with one line, change with two lines;
    if the host plays along both succeed. *)
Theorem C60_create_succeeds C json print_json files config o r1 r2 r3 r4 a iv salt pw rest h k :
  is_line pw -> length salt = 32 -> fget h (repo_path config) = None ->
  c_argon2id C (a_time a) (a_memory a) (a_parallel a) pw salt = Some k ->
  x_code (exec C json print_json files config (CCreate (mkSecret None [] false) o r1 r2 r3 r4 a iv salt fine) (mkCon (pw ++ x0a :: rest) false true true) h) = 0%N.
Proof.
  intros Hl Hs Hf Hk. unfold exec. set (con := mkCon _ _ _ _).
  assert (E : get_password (mkSecret None [] false) true con = (Ok pw, with_in con rest)).
  { apply get_password_ok. exists rest. split; [|reflexivity]. apply m_entered; [auto|auto|]. unfold entered. cbn [con c_in_tty c_err_tty andb c_in]. split; [exact Hl|auto]. }
  rewrite E. cbn [on_ok g_keyfile key_file]. unfold create.
  assert (X : exists e, encrypt_params C (create_params o r1 r2 r3 r4) a pw None iv salt = Ok e).
  { unfold encrypt_params, password_key. cbn [e_salt e_argon]. rewrite Hs. cbn [Nat.eqb negb]. rewrite Hk. cbn [of_opt rbind]. destruct (gcm_seal _ _ _ _ _). eauto. }
  destruct X as [e ->]. cbn [on_ok]. change (match config with [] => config_name | _ => config end) with (repo_path config). rewrite Hf. reflexivity.
Qed.
Print Assumptions C60_create_succeeds.

Theorem C60_chpass_succeeds C json print_json files config a iv salt suffix pw1 pw2 rest h d k :
  is_line pw1 -> is_line pw2 -> length salt = 32 -> fget h (repo_path config) <> None ->
  open_repo C json config pw1 None h = Ok d -> fget h (repo_path config ++ hexify suffix) = None ->
  c_argon2id C (a_time a) (a_memory a) (a_parallel a) pw2 salt = Some k ->
  x_code (exec C json print_json files config (CChpass (mkSecret None [] false) (mkSecret None [] false) a iv salt suffix fine)
            (mkCon (pw1 ++ x0a :: pw2 ++ x0a :: rest) false true true) h) = 0%N.
Proof.
  intros L1 L2 Hs Hf Ho Ht Hk. unfold exec. set (con := mkCon _ _ _ _).
  assert (E1 : chpass_get (mkSecret None [] false) false con = (Ok pw1, with_in con (pw2 ++ x0a :: rest))).
  { apply chpass_get_ok. exists (pw2 ++ x0a :: rest). split; [|reflexivity]. apply m_entered; [auto|auto|]. unfold entered. cbn [con c_in_tty c_err_tty andb c_in]. split; [exact L1|auto]. }
  rewrite E1. set (con1 := with_in con _).
  assert (E2 : chpass_get (mkSecret None [] false) true con1 = (Ok pw2, with_in con1 rest)).
  { apply chpass_get_ok. exists rest. split; [|reflexivity]. apply m_entered; [auto|auto|]. unfold entered. cbn [con con1 with_in c_in_tty c_err_tty andb c_in]. split; [exact L2|auto]. }
  rewrite E2. cbn [on_ok g_keyfile key_file]. rewrite Ho. cbn [on_ok].
  assert (Ep : config_path config h = Ok (repo_path config)).
  { unfold config_path, repo_path in *. destruct config as [|x c]; [|reflexivity]. change (str ".config.pb") with config_name in *. destruct (fget h config_name); [reflexivity|congruence]. }
  unfold chpass. unfold open_repo in Ho. rewrite Ep in *. cbn [rbind on_ok] in *. destruct (read_file h (repo_path config)) as [content|]; cbn [rbind on_ok] in *; [|discriminate].
  rewrite Ho. cbn [on_ok].
  assert (X : exists e, encrypt_params C d a pw2 None iv salt = Ok e).
  { unfold encrypt_params, password_key. cbn [e_salt e_argon]. rewrite Hs. cbn [Nat.eqb negb]. rewrite Hk. cbn [of_opt rbind]. destruct (gcm_seal _ _ _ _ _). eauto. }
  destruct X as [e ->]. cbn [on_ok]. unfold replace_file. rewrite Ht. reflexivity.
Qed.
Print Assumptions C60_chpass_succeeds.

(** The library of the examples has no collisions in the sense of C60_history. *)
Lemma ex_open_hd k iv ct mac m : gcm_open ex_pc k iv [] ct mac = Ok (Some m) -> length k = 32 -> mac <> [] -> m = xor_bytes ct (repeat (hd x00 mac) (length ct)).
Proof.
  unfold gcm_open. destruct (_ <? 12); [discriminate|]. destruct (16 <? _); [discriminate|]. destruct (bytes_eqb mac _) eqn:E; [|discriminate].
  intros H Hk Hm. injection H as <-. apply bytes_eqb_eq in E. unfold gcm_crypt. cbn [ex_pc c_stream]. f_equal. f_equal.
  rewrite E. cbn [ex_pc c_tag]. unfold ex_tag. destruct mac as [|x mac]; [congruence|]. destruct k as [|y k]; [discriminate Hk|]. reflexivity.
Qed.
Lemma ex_key_length e pw kf k : password_key ex_pc e pw kf = Ok k -> length k = 32.
Proof.
  unfold password_key. destruct (negb _); [discriminate|]. cbn [ex_pc c_argon2id]. destruct (_ =? 0)%N; [discriminate|]. cbn [of_opt]. unfold ex_kdf. intros H.
  assert (E : forall x y : bytes, of_opt (Some x) = Ok y -> x = y) by (intros x y X; injection X; auto). apply E in H. subst k.
  rewrite firstn_length, !app_length, zeros_length. lia.
Qed.
Lemma ex_no_collision : no_collision ex_pc no_json.
Proof.
  intros d a pw kf iv salt e pw' kf' d' Hd Ha Hi He H.
  pose proof (config_round_trip ex_pc no_json d a pw kf iv salt e ex_pc_ok Hd Ha Hi He) as R.
  unfold decrypt_config in *. rewrite parse_ser_enc in R, H by (eapply encrypted_enc_ok; eauto using ex_pc_ok, storable_weak, storable_ok).
  assert (Hm : e_mac e <> []).
  { unfold encrypt_params in He. destruct (password_key _ _ _ _) as [k|]; [|discriminate He]. cbn [rbind] in He. unfold gcm_seal in He. injection He as <-. cbn [e_mac].
    intros X. apply (f_equal (@length byte)) in X. rewrite (proj2 ex_pc_ok) in X. discriminate X. }
  unfold decrypt_params in *. destruct (password_key ex_pc e pw kf) as [k|] eqn:K; [|discriminate R]. destruct (password_key ex_pc e pw' kf') as [k'|] eqn:K'; [|discriminate H].
  cbn [rbind] in *. destruct (gcm_open ex_pc k (e_iv e) [] (e_ct e) (e_mac e)) as [[m|]|] eqn:G; cbn [rbind] in R; try discriminate R.
  destruct (gcm_open ex_pc k' (e_iv e) [] (e_ct e) (e_mac e)) as [[m'|]|] eqn:G'; cbn [rbind] in H; try discriminate H.
  apply ex_open_hd in G; [|now apply ex_key_length in K|exact Hm]. apply ex_open_hd in G'; [|now apply ex_key_length in K'|exact Hm]. subst.
  destruct (parse_dec _); congruence.
Qed.
Definition ex_print (d : dec_params) : res bytes := Ok (ser_dec d).
Definition ex_create con := mkEv (fun _ => None) (CCreate ask_only ex_opts (key x03) (key x04) (key x05) (key x06) ex_argon ex_iv ex_salt fine) con None.
Definition ex_change con killed := mkEv (fun _ => None) (CChpass ask_only ask_only ex_argon (repeat x07 12) (repeat x08 32) (repeat xab 16) fine) con killed.
(** Create, fail to change (wrong password), be killed while changing, change. *)
Definition ex_session : list event :=
  [ex_create (piped (nl (str "one"))); ex_change (piped (nl (str "two") ++ nl (str "three"))) None;
   ex_change (piped (nl (str "one") ++ nl (str "two"))) (Some 7); ex_change (piped (nl (str "one") ++ nl (str "four"))) None].
Lemma ex_argon_ok : argon_range ex_argon.
Proof. repeat split; reflexivity. Qed.
Fixpoint ex_go (vs : list event) (h : host) : list (option N) * host :=
  match vs with
  | [] => ([], h)
  | v :: vs => let '(cs, h2) := ex_go vs (ev_state ex_pc no_json ex_print [] v h) in (ev_code ex_pc no_json ex_print [] v h :: cs, h2)
  end.
Example C60_ex :
  crypto_ok ex_pc /\ no_collision ex_pc no_json /\ Forall (fun v => command_ok (v_cmd v)) ex_session /\
  fst (ex_go ex_session []) = [Some 0%N; Some 1%N; None; Some 2%N] /\
  fst (ex_go (firstn 2 ex_session ++ skipn 3 ex_session) []) = [Some 0%N; Some 1%N; Some 0%N] /\
  open_repo ex_pc no_json [] (str "four") None (snd (ex_go (firstn 2 ex_session ++ skipn 3 ex_session) [])) = Ok (create_params ex_opts (key x03) (key x04) (key x05) (key x06)) /\
  open_repo ex_pc no_json [] (str "one") None (snd (ex_go ex_session [])) = Ok (create_params ex_opts (key x03) (key x04) (key x05) (key x06)).
Proof.
  split; [exact ex_pc_ok|]. split; [exact ex_no_collision|]. split.
  { repeat (apply Forall_cons || apply Forall_nil); unfold ex_create, ex_change; cbn [v_cmd command_ok].
    - split; [exact ex_opts_ok|]. split; [repeat (apply Forall_cons || apply Forall_nil); reflexivity|]. split; [exact ex_argon_ok|reflexivity].
    - split; [exact ex_argon_ok|split; reflexivity].
    - split; [exact ex_argon_ok|split; reflexivity].
    - split; [exact ex_argon_ok|split; reflexivity]. }
  vm_compute. repeat split.
Qed.
Example C60_succeeds_ex :
  is_line (str "one") /\ is_line (str "four") /\ length ex_salt = 32 /\ fget [] (repo_path []) = None /\
  c_argon2id ex_pc (a_time ex_argon) (a_memory ex_argon) (a_parallel ex_argon) (str "one") ex_salt <> None /\
  fget ex_dir (repo_path []) <> None /\ open_repo ex_pc no_json [] (str "p") None ex_dir = Ok ex_dec /\ fget ex_dir (repo_path [] ++ hexify (repeat xab 16)) = None.
Proof.
  assert (L : forall s, In s [str "one"; str "four"] -> is_line s).
  { intros s Hs. split; [|split]; (destruct Hs as [<-|[<-|[]]]); vm_compute; intros X; repeat (destruct X as [X|X]; try discriminate X); exact X || discriminate X. }
  split; [apply L; now left|]. split; [apply L; right; now left|]. split; [reflexivity|]. split; [reflexivity|]. split; [discriminate|].
  split; [vm_compute; discriminate|]. split; vm_compute; reflexivity.
Qed.

(** What piping does with a second line that is not there, or that starts after CR LF. *)
Lemma second_empty C json print_json files config a iv salt suffix w pw1 rest rest2 h d con :
  is_line pw1 -> next_line (c_in con) pw1 rest -> c_in_tty con = false -> next_line rest [] rest2 -> open_repo C json config pw1 None h = Ok d ->
  exec C json print_json files config (CChpass (mkSecret None [] false) (mkSecret None [] false) a iv salt suffix w) con h =
  finish (chpass C json w config suffix pw1 None a [] None iv salt h) (with_in con rest2).
Proof.
  intros L1 N1 T N2 Ho. unfold exec.
  assert (E1 : chpass_get (mkSecret None [] false) false con = (Ok pw1, with_in con rest)) by (apply chpass_get_ok; exists rest; split; [apply m_entered; auto|reflexivity]).
  assert (E2 : chpass_get (mkSecret None [] false) true (with_in con rest) = (Ok [], with_in con rest2)).
  { apply chpass_get_ok. exists rest2. split; [|reflexivity]. apply m_entered; auto. unfold entered. cbn [with_in c_in_tty c_err_tty c_in]. rewrite T. exact N2. }
  rewrite E1, E2. cbn [on_ok g_keyfile key_file]. rewrite Ho. reflexivity.
Qed.
Lemma empty_line : is_line [].
Proof. split; [|split]; [intros []|intros []|cbn; lia]. Qed.

(** With lines that end in CR LF, as on Windows, changing the password takes what is between
    CR and LF as the new password: it sets the empty password. *)
Theorem C60_crlf_refuted C json print_json files config a iv salt suffix w pw1 pw2 rest h d : is_line pw1 ->
  open_repo C json config pw1 None h = Ok d ->
  exec C json print_json files config (CChpass (mkSecret None [] false) (mkSecret None [] false) a iv salt suffix w)
    (mkCon (pw1 ++ x0d :: x0a :: pw2 ++ x0d :: x0a :: rest) false true true) h =
  finish (chpass C json w config suffix pw1 None a [] None iv salt h) (mkCon (pw2 ++ x0d :: x0a :: rest) false true true).
Proof.
  intros L1 Ho. apply (second_empty C json print_json files config a iv salt suffix w pw1 (x0a :: pw2 ++ x0d :: x0a :: rest) (pw2 ++ x0d :: x0a :: rest) h d); auto.
  - split; [exact L1|]. auto.
  - split; [exact empty_line|]. auto.
Qed.
Print Assumptions C60_crlf_refuted.
(** With one line only, the new password is empty as well. *)
Theorem C60_one_line_refuted C json print_json files config a iv salt suffix w pw1 h d : is_line pw1 ->
  open_repo C json config pw1 None h = Ok d ->
  exec C json print_json files config (CChpass (mkSecret None [] false) (mkSecret None [] false) a iv salt suffix w)
    (mkCon (pw1 ++ [x0a]) false true true) h =
  finish (chpass C json w config suffix pw1 None a [] None iv salt h) (mkCon [] false true true).
Proof.
  intros L1 Ho. apply (second_empty C json print_json files config a iv salt suffix w pw1 [] [] h d); auto.
  - split; [exact L1|]. auto.
  - split; [exact empty_line|]. auto.
Qed.
Print Assumptions C60_one_line_refuted.
Example C60_empty_ex :
  let r := chpass ex_pc no_json fine [] (repeat xab 16) (str "p") None ex_argon [] None (repeat x07 12) (repeat x08 32) ex_dir in
  open_repo ex_pc no_json [] (str "p") None ex_dir = Ok ex_dec /\
  snd r = Ok tt /\ open_repo ex_pc no_json [] [] None (last_state ex_dir r) = Ok ex_dec.
Proof. vm_compute. repeat split. Qed.

(** A line of more than 4000 bytes typed at a terminal is refused, and the terminal is left
    without echo. *)
Theorem C60_echo_refuted c e c2 : c_in_tty c = true -> read_password c = (Err e, c2) -> c_echo c2 = false.
Proof.
  intros T. unfold read_password. rewrite T. destruct (read_loop [] (c_in c)) as [[p|er] rest]; intros H; [discriminate H|]. injection H as <- <-. reflexivity.
Qed.
Print Assumptions C60_echo_refuted.
Example C60_echo_ex : fst (read_password (typed (concat (repeat (repeat x61 100) 41)))) = Err EInval.
Proof. vm_compute. reflexivity. Qed.

(** ** C61: showing the configuration *)
(** Without --unmask nothing that is printed, nor the exit code, depends on the keys. *)
Theorem C61_masked C json print_json files config g con h1 h2 :
  (forall pw rest kf, meant false false g con pw rest -> key_of files (g_keyfile g) kf ->
     match open_repo C json config pw kf h1, open_repo C json config pw kf h2 with
     | Ok d1, Ok d2 => same_but_keys d1 d2
     | Err e1, Err e2 => e1 = e2
     | _, _ => False
     end) ->
  exec C json print_json files config (CInfo g false) con h1 = exec C json print_json files config (CInfo g false) con h2.
Proof.
  intros H. unfold exec. destruct (get_password g false con) as [[pw|er] con1] eqn:Ep; cbn [rbind]; [|reflexivity].
  destruct (key_file files (g_keyfile g)) as [kf|er] eqn:Ek; cbn [rbind]; [|reflexivity].
  apply get_password_ok in Ep as (rest & Hm & ->). apply key_file_ok in Ek. specialize (H pw rest kf Hm Ek).
  destruct (open_repo C json config pw kf h1) as [d1|e1], (open_repo C json config pw kf h2) as [d2|e2]; try contradiction; [|now subst].
  cbn [rbind]. assert (E : mask d1 = mask d2).
  { destruct H as [Hz Hf]. unfold mask. rewrite Hz. f_equal. destruct (d_format d1) as [|l1|f1], (d_format d2) as [|l2|f2]; try contradiction; [reflexivity| |].
    - destruct Hf as [-> ->]. reflexivity.
    - destruct Hf as (-> & -> & -> & ->). reflexivity. }
  now rewrite E.
Qed.
Print Assumptions C61_masked.
(** Everything else is shown: what is printed are the parameters, apart from their keys; with
    --unmask the parameters as they are.  Showing never changes anything. *)
Theorem C61_shown C json print_json files config g unmask con h pw rest kf d :
  meant false false g con pw rest -> key_of files (g_keyfile g) kf -> open_repo C json config pw kf h = Ok d ->
  exists d', same_but_keys d d' /\ (unmask = true -> d' = d) /\
    (unmask = false -> forall key, In key match d_format d' with FNone => [] | FLite l => [i_name l; i_content l; i_xattr l; i_padding l] | FFull f => [u_master f] end -> key = []) /\
    let x := exec C json print_json files config (CInfo g unmask) con h in
    x_states x = [] /\
    match print_json d' with Ok text => x_out x = text ++ [x0a] /\ x_code x = 0%N | Err _ => x_out x = [] /\ x_code x <> 0%N end.
Proof.
  intros Hm Hk Ho. assert (Ep : get_password g false con = (Ok pw, with_in con rest)) by (apply get_password_ok; eauto). apply key_file_ok in Hk.
  exists (if unmask then d else mask d). split; [|split; [|split]].
  - destruct unmask; split; [reflexivity| |reflexivity|]; [destruct (d_format d); auto|]. cbn [mask d_format]. destruct (d_format d); cbn; auto.
  - now intros ->.
  - intros -> key. cbn [mask d_format]. destruct (d_format d); cbn; intros H; repeat (destruct H as [H|H]; [auto|]); contradiction.
  - cbv zeta. unfold exec. rewrite Ep. cbn [rbind]. rewrite Hk. cbn [rbind]. rewrite Ho. cbn [rbind x_states x_out x_code]. split; [reflexivity|].
    destruct (print_json _) as [t|e]; [split; reflexivity|]. split; [reflexivity|apply exit_err].
Qed.
Print Assumptions C61_shown.
Example C61_ex :
  let other := match encrypt_params ex_pc (mkDec (d_size ex_old_lite) (match d_format ex_old_lite with FLite l => FLite (mkLite (key x71) (key x72) (key x73) (key x74) (i_threshold l) (i_suffix l)) | f => f end))
                      ex_argon (str "pw") None ex_iv ex_salt with Ok e => fput [] config_name (ser_enc e) | Err _ => [] end in
  (forall pw rest kf, meant false false ask_only (piped (nl (str "pw"))) pw rest -> key_of (fun _ => None) (g_keyfile ask_only) kf ->
     match open_repo ex_pc no_json [] pw kf ex_lite_dir, open_repo ex_pc no_json [] pw kf other with
     | Ok d1, Ok d2 => same_but_keys d1 d2 /\ d1 <> d2
     | _, _ => False
     end) /\
  x_code (exec ex_pc no_json ex_print (fun _ => None) [] (CInfo ask_only false) (piped (nl (str "pw"))) ex_lite_dir) = 0%N /\
  x_out (exec ex_pc no_json ex_print (fun _ => None) [] (CInfo ask_only false) (piped (nl (str "pw"))) ex_lite_dir) =
  x_out (exec ex_pc no_json ex_print (fun _ => None) [] (CInfo ask_only false) (piped (nl (str "pw"))) other) /\
  x_out (exec ex_pc no_json ex_print (fun _ => None) [] (CInfo ask_only true) (piped (nl (str "pw"))) ex_lite_dir) = nl (ser_dec ex_old_lite).
Proof.
  cbv zeta. split; [|vm_compute; repeat split].
  intros pw rest kf Hm Hk. assert (E : get_password ask_only false (piped (nl (str "pw"))) = (Ok pw, with_in (piped (nl (str "pw"))) rest)) by (apply get_password_ok; eauto).
  vm_compute in E. injection E as <- _. destruct Hk as [[_ ->]|[X _]]; [|destruct X; reflexivity].
  vm_compute. split; [repeat split|]. intros X. discriminate X.
Qed.

(** ** C62: which command a word names *)
(** The command that runs is the one whose name or one-letter name is given; a word that is
    neither runs none. *)
Theorem C62_choose word : word <> [] -> ~ In x00 word ->
  exists r, choose kinds word = Ok r /\ forall k, r = Some k <-> In (word, k) names.
Proof.
  intros Hn H0.
  assert (Hc : forall k, chosen word k = Ok (bytes_eqb word (kind_name k) || bytes_eqb word [kind_alias k])).
  { intros k. unfold chosen. destruct (bytes_eqb word (kind_name k)) eqn:E; [reflexivity|]. cbn [orb].
    destruct word as [|c [|c2 word]]; [congruence| |].
    - unfold c_char. cbn [length Nat.ltb Nat.leb nth rbind Nat.eqb bytes_eqb]. destruct (Byte.eqb c (kind_alias k)); reflexivity.
    - unfold c_char. cbn [length Nat.ltb Nat.leb nth rbind Nat.eqb bytes_eqb]. rewrite Bool.andb_false_r.
      destruct (Byte.eqb c (kind_alias k)); [|reflexivity]. cbn [rmap]. f_equal. destruct (Byte.eqb c2 x00) eqn:E2; [|reflexivity].
      apply Byte.byte_dec_bl in E2 as ->. exfalso. apply H0. right. now left. }
  assert (Hch : forall ks, choose ks word = Ok (find (fun k => bytes_eqb word (kind_name k) || bytes_eqb word [kind_alias k]) ks)).
  { induction ks as [|k ks IH]; [reflexivity|]. cbn [choose find]. rewrite Hc. cbn [rbind]. destruct (_ || _); [reflexivity|exact IH]. }
  eexists. split; [apply Hch|]. clear Hch Hc. intros k.
  assert (Hn1 : word <> [x00]) by (intros ->; apply H0; now left).
  assert (D : forall n, bytes_eqb word n = true \/ (bytes_eqb word n = false /\ word <> n)).
  { intros n. destruct (bytes_eqb word n) eqn:E; [now left|right]. split; [reflexivity|]. intros ->. rewrite bytes_eqb_refl in E. discriminate E. }
  unfold kinds. cbn [find kind_name kind_alias].
  assert (E0 : bytes_eqb word [x00] = false) by (destruct (D [x00]) as [E|[E _]]; [apply bytes_eqb_eq in E; congruence|exact E]).
  destruct (in_dec (list_eq_dec Byte.byte_eq_dec) word (map fst names)) as [Hi|Hi].
  - unfold names in Hi. cbn [map fst In] in Hi.
    repeat (destruct Hi as [<-|Hi];
      [vm_compute; split; intros X; [injection X as <-; tauto|repeat (destruct X as [X|X]; [discriminate X || (injection X as <-; reflexivity)|]); contradiction]|]). contradiction.
  - assert (F : forall n, In n (map fst names) -> bytes_eqb word n = false) by (intros n Hn2; destruct (D n) as [E|[E _]]; [apply bytes_eqb_eq in E; subst; contradiction|exact E]).
    split; [|intros H; exfalso; apply Hi; apply in_map_iff; exists (word, k); auto].
    intros H. exfalso. change [x6d] with (str "m") in H. change [x63] with (str "c") in H. change [x76] with (str "v") in H. change [x69] with (str "i") in H. change [x75] with (str "u") in H.
    rewrite E0 in H. rewrite !F in H by (vm_compute; tauto). discriminate H.
Qed.
Print Assumptions C62_choose.
Example C62_ex : choose kinds (str "chpass") = Ok (Some KChpass) /\ choose kinds (str "u") = Ok (Some KUnmount) /\ choose kinds (str "moun") = Ok None.
Proof. vm_compute. repeat split. Qed.

(** An empty word is compared with the one-letter name of a command that has none, and the
    character after its end is read. *)
Theorem C62_empty_word_refuted : choose kinds [] = Err EUndef.
Proof. reflexivity. Qed.
Print Assumptions C62_empty_word_refuted.

(** Exit code 0 means that the command did its work; any other that the configuration of a
    repository is as it was. *)
Theorem C62_exit_code C json print_json files config cmd con h content :
  command_ok cmd -> fget h (repo_path config) = Some (HFile content) ->
  let x := exec C json print_json files config cmd con h in
  (x_code x <> 0%N -> fget (last (x_states x) h) (repo_path config) = Some (HFile content)) /\
  (x_code x = 0%N -> match cmd with
     | CCreate _ _ _ _ _ _ _ _ _ _ => False
     | CChpass old new a iv salt sfx w => exists pw1 rest1 kf1 pw2 rest2 kf2 d e,
         meant true false old con pw1 rest1 /\ meant true true new (with_in con rest1) pw2 rest2 /\ key_of files (g_keyfile old) kf1 /\ key_of files (g_keyfile new) kf2 /\
         decrypt_config C json content pw1 kf1 = Ok d /\ encrypt_params C d a pw2 kf2 iv salt = Ok e /\ fget (last (x_states x) h) (repo_path config) = Some (HFile (ser_enc e))
     | CInfo g u => exists pw rest kf d, meant false false g con pw rest /\ key_of files (g_keyfile g) kf /\ decrypt_config C json content pw kf = Ok d
     | CMigrate g a t sfx iv salt w => exists pw rest kf d d2 e, meant false false g con pw rest /\ key_of files (g_keyfile g) kf /\
         decrypt_config C json content pw kf = Ok d /\ migrate_params d t sfx = Ok d2 /\ encrypt_params C d2 a pw kf iv salt = Ok e /\
         fget (last (x_states x) h) (repo_path config) = Some (HFile (ser_enc e))
     end).
Proof.
  intros Hok Hf x.
  assert (Hp : config_path config h = Ok (repo_path config)).
  { unfold config_path, repo_path in *. destruct config as [|y c]; [|reflexivity]. change (str ".config.pb") with config_name in *. now rewrite Hf. }
  assert (Hr : read_file h (repo_path config) = Ok content) by (unfold read_file; now rewrite Hf).
  assert (Fail : forall (r : run) con1 (P : Prop), (fst r = [] /\ exists e, snd r = Err e) -> x = finish r con1 ->
    (x_code x <> 0%N -> fget (last (x_states x) h) (repo_path config) = Some (HFile content)) /\ (x_code x = 0%N -> P)).
  { intros r con1 P (R1 & e & R2) ->. cbn [finish x_states x_code]. rewrite R1, R2. split; [auto|]. intros X. destruct (@exit_err unit e X). }
  destruct cmd as [g o r1 r2 r3 r4 a iv salt w|old new a iv salt sfx w|g u|g a t sfx iv salt w]; cbn [command_ok] in Hok; unfold exec in x.
  - destruct (get_password g true con) as [[pw|er] con1]; [|eapply Fail; [|reflexivity]; cbn; eauto].
    cbn [on_ok] in x. destruct (key_file files (g_keyfile g)) as [kf|er]; cbn [on_ok] in x; [|eapply Fail; [|reflexivity]; cbn; eauto].
    eapply Fail; [|reflexivity]. unfold create, on_ok. destruct (encrypt_params _ _ _ _ _ _ _); [|cbn; eauto].
    change (match config with [] => config_name | _ => config end) with (repo_path config). rewrite Hf. cbn. eauto.
  - destruct Hok as (Ha & Hi & Hsx). destruct (chpass_get old false con) as [[pw1|er] con1] eqn:E1; [|eapply Fail; [|reflexivity]; cbn; eauto].
    destruct (chpass_get new true con1) as [[pw2|er] con2] eqn:E2; [|eapply Fail; [|reflexivity]; cbn; eauto]. cbn [on_ok] in x.
    destruct (key_file files (g_keyfile old)) as [kf1|er] eqn:K1; cbn [on_ok] in x; [|eapply Fail; [|reflexivity]; cbn; eauto].
    destruct (open_repo C json config pw1 kf1 h) as [d|er] eqn:Eo; cbn [on_ok] in x; [|eapply Fail; [|reflexivity]; cbn; eauto].
    destruct (key_file files (g_keyfile new)) as [kf2|er] eqn:K2; cbn [on_ok] in x; [|eapply Fail; [|reflexivity]; cbn; eauto].
    assert (Hd : decrypt_config C json content pw1 kf1 = Ok d) by (unfold open_repo in Eo; rewrite Hp in Eo; cbn [rbind] in Eo; rewrite Hr in Eo; exact Eo).
    assert (Ec : chpass C json w config sfx pw1 kf1 a pw2 kf2 iv salt h =
      on_ok (encrypt_params C d a pw2 kf2 iv salt) (fun e => replace_file w (repo_path config) (repo_path config ++ hexify sfx) (ser_enc e) h))
      by (unfold chpass; rewrite Hp; cbn [on_ok]; rewrite Hr; cbn [on_ok]; rewrite Hd; reflexivity).
    assert (Hx : hexify sfx <> []) by (intros E; apply (f_equal (@length byte)) in E; rewrite hexify_length, Hsx in E; discriminate).
    destruct (rewritten C w (repo_path config) (hexify sfx) d a pw2 kf2 iv salt h _ Hx Ec) as (_ & R2 & R3).
    unfold x. cbn [finish x_states x_code]. split.
    + intros X. rewrite R3; [exact Hf|]. intros Y. apply X. rewrite Y. reflexivity.
    + intros X. apply exit_zero in X as [[] X]. destruct (R2 X) as (e & He & Hl).
      apply chpass_get_ok in E1 as (rest1 & M1 & ->). apply chpass_get_ok in E2 as (rest2 & M2 & _). apply key_file_ok in K1, K2.
      exists pw1, rest1, kf1, pw2, rest2, kf2, d, e. auto 10.
  - destruct (get_password g false con) as [[pw|er] con1] eqn:E1.
    2: { unfold x. cbn [rbind x_states x_code last]. split; [auto|]. intros X. destruct (@exit_err bytes er X). }
    destruct (key_file files (g_keyfile g)) as [kf|er] eqn:K1.
    2: { unfold x. cbn [rbind x_states x_code last]. split; [auto|]. intros X. destruct (@exit_err bytes er X). }
    split; [auto|]. intros X. unfold x in X. cbn [rbind x_code] in X. apply exit_zero in X as [text X].
    unfold open_repo in X. rewrite Hp in X. cbn [rbind] in X. rewrite Hr in X. cbn [rbind] in X.
    destruct (decrypt_config C json content pw kf) as [d|er] eqn:Ed; [|discriminate X].
    apply get_password_ok in E1 as (rest & M & _). apply key_file_ok in K1. exists pw, rest, kf, d. auto.
  - destruct Hok as (Ha & Hi & Hm & Ht). destruct (get_password g false con) as [[pw|er] con1] eqn:E1; [|eapply Fail; [|reflexivity]; cbn; eauto].
    cbn [on_ok] in x. destruct (key_file files (g_keyfile g)) as [kf|er] eqn:K1; cbn [on_ok] in x; [|eapply Fail; [|reflexivity]; cbn; eauto].
    assert (Ec : migrate_config C json w config pw kf a t sfx iv salt h = on_ok (decrypt_config C json content pw kf) (fun d => on_ok (migrate_params d t sfx) (fun d2 =>
      on_ok (encrypt_params C d2 a pw kf iv salt) (fun e => replace_file w (repo_path config) (repo_path config ++ str ".tmp") (ser_enc e) h))))
      by (unfold migrate_config; rewrite Hp; cbn [on_ok]; rewrite Hr; reflexivity).
    destruct (decrypt_config C json content pw kf) as [d|er] eqn:Ed; cbn [on_ok] in Ec; [|eapply Fail; [|reflexivity]; rewrite Ec; cbn; eauto].
    destruct (migrate_params d t sfx) as [d2|er] eqn:Em; cbn [on_ok] in Ec; [|eapply Fail; [|reflexivity]; rewrite Ec; cbn; eauto].
    assert (Hx : str ".tmp" <> []) by discriminate.
    destruct (rewritten C w (repo_path config) (str ".tmp") d2 a pw kf iv salt h _ Hx Ec) as (_ & R2 & R3).
    unfold x. cbn [finish x_states x_code]. split.
    + intros X. rewrite R3; [exact Hf|]. intros Y. apply X. rewrite Y. reflexivity.
    + intros X. apply exit_zero in X as [[] X]. destruct (R2 X) as (e & He & Hl).
      apply get_password_ok in E1 as (rest & M & _). apply key_file_ok in K1. exists pw, rest, kf, d, d2, e. auto 10.
Qed.
Print Assumptions C62_exit_code.
Example C62_exit_ex :
  command_ok (v_cmd (ex_change (piped (nl (str "p") ++ nl (str "q"))) None)) /\ (exists c, fget ex_dir (repo_path []) = Some (HFile c)) /\
  ev_code ex_pc no_json ex_print [] (ex_change (piped (nl (str "p") ++ nl (str "q"))) None) ex_dir = Some 0%N /\
  ev_code ex_pc no_json ex_print [] (ex_change (piped (nl (str "x") ++ nl (str "q"))) None) ex_dir = Some 1%N /\
  ev_code ex_pc no_json ex_print [] (ex_create (piped (nl (str "p")))) ex_dir = Some 2%N.
Proof.
  split; [|split]; [split; [exact ex_argon_ok|split; reflexivity]| |vm_compute; repeat split].
  unfold ex_dir. destruct (encrypt_params _ _ _ _ _ _ _) as [e|] eqn:E; [|vm_compute in E; discriminate E]. exists (ser_enc e). rewrite fget_fput. reflexivity.
Qed.
