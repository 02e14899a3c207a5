(** Proofs about the commands. *)
From Coq Require Import Strings.String.
From Verif Require Import Base BaseLemmas TextModel TextProofs NameModel ProtoModel ProtoProofs TableIoModel ParamsModel ParamsSpec ParamsProofs PropertiesParams CommandModel CommandSpec.
Local Open Scope nat_scope.
Local Open Scope list_scope.

(** ** Passwords *)
Definition not_eol (c : byte) : Prop := c <> x0a /\ c <> x0d.
Lemma eol_spec c : (Byte.eqb c CR || Byte.eqb c LF = true /\ (c = x0a \/ c = x0d)) \/ (Byte.eqb c CR || Byte.eqb c LF = false /\ not_eol c).
Proof.
  unfold CR, LF, not_eol. destruct (Byte.eqb c x0d) eqn:E1.
  - left. apply Byte.byte_dec_bl in E1. auto.
  - destruct (Byte.eqb c x0a) eqn:E2.
    + left. apply Byte.byte_dec_bl in E2. auto.
    + right. split; [reflexivity|]. split; intros ->; discriminate.
Qed.
Definition ends_line (input pw rest : bytes) : Prop := input = pw ++ x0a :: rest \/ input = pw ++ x0d :: rest \/ (input = pw /\ rest = []).
Lemma ends_cons c input pw rest : ends_line (c :: input) (c :: pw) rest <-> ends_line input pw rest.
Proof.
  unfold ends_line. cbn [app]. split; (intros [H|[H|[H H2]]]; [left|right; left|right; right]); try congruence; try (split; congruence).
Qed.
Lemma read_loop_ok input : forall buf pw rest, (N.of_nat (length buf) <= 4000)%N ->
  read_loop buf input = (Ok pw, rest) <-> exists q, pw = buf ++ q /\ Forall not_eol q /\ (N.of_nat (length pw) <= 4000)%N /\ ends_line input q rest.
Proof.
  induction input as [|c input IH]; intros buf pw rest Hb; cbn [read_loop].
  - split.
    + intros H. injection H as <- <-. exists []. rewrite app_nil_r. repeat split; auto. right. right. auto.
    + intros (q & -> & _ & _ & H). destruct H as [H|[H|[<- ->]]]; try (destruct q; discriminate). now rewrite app_nil_r.
  - destruct (eol_spec c) as [[-> Hc]|[-> Hc]].
    + split.
      * intros H. injection H as <- <-. exists []. rewrite app_nil_r. repeat split; auto. destruct Hc as [->| ->]; [left|right; left]; reflexivity.
      * intros (q & -> & Hq & _ & H). destruct q as [|x q].
        -- rewrite app_nil_r. destruct H as [H|[H|[H _]]]; [| |discriminate]; injection H as _ ->; reflexivity.
        -- inversion Hq as [|? ? Hx _]; subst. exfalso. destruct H as [H|[H|[H _]]]; injection H as <- _; destruct Hx, Hc; congruence.
    + change kMaxPassword with 4000%N. destruct (N.ltb_spec (N.of_nat (length buf)) 4000) as [Hl|Hl].
      * rewrite IH by (rewrite app_length; cbn [length]; lia). split.
        -- intros (q & -> & Hq & Hn & He). exists (c :: q). rewrite <- app_assoc in Hn |- *. cbn [app] in Hn |- *. repeat split; auto. now apply ends_cons.
        -- intros (q & -> & Hq & Hn & He). destruct q as [|x q].
           ++ exfalso. destruct He as [H|[H|[H _]]]; [| |discriminate]; injection H as -> _; destruct Hc; congruence.
           ++ inversion Hq as [|? ? Hx Hq2]; subst. assert (x = c) as -> by (destruct He as [H|[H|[H _]]]; injection H as -> _; reflexivity).
              apply ends_cons in He. exists q. rewrite <- app_assoc. auto.
      * split; [discriminate|]. intros (q & -> & Hq & Hn & He). destruct q as [|x q].
        -- exfalso. destruct He as [H|[H|[H _]]]; [| |discriminate]; injection H as -> _; destruct Hc; congruence.
        -- rewrite app_length in Hn. cbn [length] in Hn. lia.
Qed.
Lemma not_eol_forall q : Forall not_eol q <-> ~ In x0a q /\ ~ In x0d q.
Proof.
  rewrite Forall_forall. unfold not_eol. split.
  - intros H. split; intros Hi; apply H in Hi; destruct Hi; congruence.
  - intros [H1 H2] x Hx. split; intros ->; auto.
Qed.
Lemma read_line_ok input pw rest : read_loop [] input = (Ok pw, rest) <-> next_line input pw rest.
Proof.
  rewrite read_loop_ok by (cbn; lia). unfold next_line, is_line. split.
  - intros (q & -> & Hq & Hn & He). cbn [app] in *. apply not_eol_forall in Hq. tauto.
  - intros [(H1 & H2 & H3) He]. exists pw. rewrite not_eol_forall. auto.
Qed.
Lemma read_password_ok c pw c2 : read_password c = (Ok pw, c2) <-> exists rest, next_line (c_in c) pw rest /\ c2 = with_in c rest.
Proof.
  unfold read_password. destruct (read_loop [] (c_in c)) as [[p|e] rest] eqn:E.
  - split.
    + intros H. injection H as <- <-. exists rest. split; [now apply read_line_ok|reflexivity].
    + intros (r & Hl & ->). apply read_line_ok in Hl. rewrite Hl in E. injection E as -> ->. reflexivity.
  - split; [discriminate|]. intros (r & Hl & _). apply read_line_ok in Hl. rewrite Hl in E. discriminate E.
Qed.
Lemma confirmed_ok c pw c2 : read_password_confirmed c = (Ok pw, c2) <-> exists rest, entered true c pw rest /\ c2 = with_in c rest.
Proof.
  unfold read_password_confirmed, entered. cbn [andb].
  destruct (c_in_tty c && c_err_tty c) eqn:Et.
  - apply andb_prop in Et as [T1 T2]. rewrite T1, T2. cbn [negb orb].
    destruct (read_password c) as [[p|e] c1] eqn:E1.
    + pose proof (proj1 (read_password_ok _ _ _) E1) as (r1 & L1 & ->).
      destruct (read_password (with_in c r1)) as [[p2|e2] c3] eqn:E2.
      * pose proof (proj1 (read_password_ok _ _ _) E2) as (r2 & L2 & ->). cbn [c_in with_in] in L2.
        destruct (bytes_eqb p p2) eqn:Eb.
        -- apply bytes_eqb_eq in Eb as <-. split.
           ++ intros H. injection H as <- <-. exists r2. split; [exists r1; auto|reflexivity].
           ++ intros (rest & (r & A & B) & ->). apply read_line_ok in A, L1. rewrite L1 in A. injection A as <- <-.
              apply read_line_ok in B, L2. rewrite L2 in B. injection B as <-. reflexivity.
        -- split; [discriminate|]. intros (rest & (r & A & B) & ->). exfalso. apply read_line_ok in A, L1. rewrite L1 in A. injection A as -> ->.
           apply read_line_ok in B, L2. rewrite L2 in B. injection B as -> _. rewrite bytes_eqb_refl in Eb. discriminate.
      * split; [discriminate|]. intros (rest & (r & A & B) & ->). exfalso. apply read_line_ok in A, L1. rewrite L1 in A. injection A as -> ->.
        assert (X : read_password (with_in c r) = (Ok pw, with_in (with_in c r) rest)) by (apply read_password_ok; exists rest; auto). rewrite X in E2. discriminate E2.
    + split; [discriminate|]. intros (rest & (r & A & B) & ->). exfalso.
      assert (X : read_password c = (Ok pw, with_in c r)) by (apply read_password_ok; exists r; auto). rewrite X in E1. discriminate E1.
  - assert (Hn : negb (c_in_tty c) || negb (c_err_tty c) = true) by (destruct (c_in_tty c), (c_err_tty c); try reflexivity; discriminate Et). rewrite Hn.
    rewrite <- read_password_ok. destruct (read_password c) as [[p|e] c1]; reflexivity.
Qed.
Lemma ask_ok (choosing : bool) c pw c2 : (if choosing then read_password_confirmed c else read_password c) = (Ok pw, c2) <-> exists rest, entered choosing c pw rest /\ c2 = with_in c rest.
Proof. destruct choosing; [apply confirmed_ok|apply read_password_ok]. Qed.
Lemma with_in_same c : with_in c (c_in c) = c.
Proof. destruct c; reflexivity. Qed.
Lemma get_password_ok g choosing c pw c2 : get_password g choosing c = (Ok pw, c2) <-> exists rest, meant false choosing g c pw rest /\ c2 = with_in c rest.
Proof.
  unfold get_password. destruct g as [gp gk ga]; cbn [g_pass g_keyfile g_ask].
  assert (Hrest : forall (P : gp = None \/ (gp = Some [] /\ false = false)),
    (if negb (match gk with [] => true | _ => false end) && negb ga then (Ok empty_password, c) else if choosing then read_password_confirmed c else read_password c) = (Ok pw, c2) <->
    exists rest, meant false choosing (mkSecret gp gk ga) c pw rest /\ c2 = with_in c rest).
  { intros P. destruct gk as [|k0 gk]; [|destruct ga]; cbn [negb andb]; rewrite ?ask_ok.
    - split; intros (rest & H & ->); exists rest; (split; [|reflexivity]); [now apply m_entered; auto|]. inversion H as [p A B|A B|p r A B E]; subst; cbn [g_pass g_keyfile g_ask] in *.
      + destruct P as [P|[P _]], B as [B|B]; congruence.
      + congruence.
      + exact E.
    - split; intros (rest & H & ->); exists rest; (split; [|reflexivity]); [now apply m_entered; auto|]. inversion H as [p A B|A B D|p r A B E]; subst; cbn [g_pass g_keyfile g_ask] in *.
      + destruct P as [P|[P _]], B as [B|B]; congruence.
      + discriminate D.
      + exact E.
    - split.
      + intros H. injection H as <- <-. exists (c_in c). rewrite with_in_same. split; [|reflexivity]. apply m_keyfile; auto. cbn. congruence.
      + intros (rest & H & ->). inversion H as [p A B|A B D|p r A B E]; subst; cbn [g_pass g_keyfile g_ask] in *.
        * destruct P as [P|[P _]], B as [B|B]; congruence.
        * rewrite with_in_same. reflexivity.
        * destruct B as [B|B]; congruence. }
  destruct gp as [[|x p]|]; [apply Hrest; auto| |apply Hrest; auto].
  split.
  - intros H. injection H as <- <-. exists (c_in c). rewrite with_in_same. split; [|reflexivity]. apply m_option; auto. left. congruence.
  - intros (rest & H & ->). inversion H as [q A B|A B D|q r A B E]; subst; cbn [g_pass g_keyfile g_ask] in *.
    + rewrite with_in_same. congruence.
    + destruct A as [A|[A _]]; congruence.
    + destruct A as [A|[A _]]; congruence.
Qed.
Lemma chpass_get_ok g choosing c pw c2 : chpass_get g choosing c = (Ok pw, c2) <-> exists rest, meant true choosing g c pw rest /\ c2 = with_in c rest.
Proof.
  unfold chpass_get. destruct g as [gp gk ga]; cbn [g_pass g_keyfile g_ask]. destruct gp as [p|].
  - split.
    + intros H. injection H as <- <-. exists (c_in c). rewrite with_in_same. split; [|reflexivity]. apply m_option; auto.
    + intros (rest & H & ->). inversion H as [q A B|A B D|q r A B E]; subst; cbn [g_pass g_keyfile g_ask] in *.
      * rewrite with_in_same. congruence.
      * destruct A as [A|[A A2]]; congruence.
      * destruct A as [A|[A A2]]; congruence.
  - destruct gk as [|k0 gk]; [|destruct ga]; cbn [orb]; rewrite ?ask_ok.
    + split; intros (rest & H & ->); exists rest; (split; [|reflexivity]); [now apply m_entered; auto|]. inversion H as [p A B|A B|p r A B E]; subst; cbn [g_pass g_keyfile g_ask] in *; congruence.
    + split; intros (rest & H & ->); exists rest; (split; [|reflexivity]); [now apply m_entered; auto|]. inversion H as [p A B|A B D|p r A B E]; subst; cbn [g_pass g_keyfile g_ask] in *; congruence.
    + split.
      * intros H. injection H as <- <-. exists (c_in c). rewrite with_in_same. split; [|reflexivity]. apply m_keyfile; auto. cbn. congruence.
      * intros (rest & H & ->). inversion H as [p A B|A B D|p r A B E]; subst; cbn [g_pass g_keyfile g_ask] in *; [congruence| |destruct B; congruence].
        rewrite with_in_same. reflexivity.
Qed.
Lemma key_file_ok files path kf : key_file files path = Ok kf <-> key_of files path kf.
Proof.
  unfold key_file, key_of. destruct path as [|x p].
  - split; [intros H; injection H as <-; auto|]. intros [[_ ->]|[H _]]; [reflexivity|congruence].
  - destruct (files (x :: p)) as [f|] eqn:E.
    + split; [intros H; injection H as <-; right; repeat split; congruence|]. intros [[H _]|(_ & <- & _)]; [discriminate|reflexivity].
    + split; [discriminate|]. intros [[H _]|(_ & <- & H)]; congruence.
Qed.

(** ** Histories *)
Lemma exit_zero {A} (r : res A) : exit_code r = 0%N -> exists x, r = Ok x.
Proof. destruct r as [x|e]; [eauto|]. destruct e; discriminate. Qed.
Lemma exit_err {A} (e : err) : exit_code (@Err A e) <> 0%N.
Proof. destruct e; discriminate. Qed.
Lemma holds_open C json config pw kf d h : holds C json config (Some (pw, kf, d)) h -> open_repo C json config pw kf h = Ok d.
Proof.
  intros (_ & content & Hf & Hd & _). unfold open_repo. assert (E : config_path config h = Ok (repo_path config)).
  { unfold config_path, repo_path in *. destruct config as [|x c]; [|reflexivity]. change (str ".config.pb") with config_name in *. now rewrite Hf. }
  rewrite E. cbn [rbind]. unfold read_file. now rewrite Hf.
Qed.
Lemma holds_path C json config x h : holds C json config (Some x) h -> config_path config h = Ok (repo_path config).
Proof.
  destruct x as [[pw kf] d]. intros (_ & content & Hf & _). unfold config_path, repo_path in *. destruct config as [|x c]; [|reflexivity].
  change (str ".config.pb") with config_name in *. now rewrite Hf.
Qed.
Lemma holds_same C json config k h s : fget s (repo_path config) = fget h (repo_path config) -> holds C json config k h -> holds C json config k s.
Proof. destruct k as [[[pw kf] d]|]; [|auto]. cbn [holds]. now intros ->. Qed.
Lemma migrate_storable d t sfx d2 : storable d -> modest sfx -> is_text sfx -> migrate_params d t sfx = Ok d2 -> storable d2.
Proof.
  intros [S1 S2] Hm Ht. unfold migrate_params. destruct (d_format d) as [|l|f] eqn:Ef; try discriminate.
  destruct S2 as (B1 & B2 & B3 & B4 & B5 & B6 & B7).
  destruct (0 <? _)%N.
  - destruct sfx as [|c s]; [discriminate|]. destruct (bytes_eqb _ _); intros H; injection H as <-.
    + split; [exact S1|]. rewrite Ef. auto 10.
    + split; [exact S1|]. cbn [d_format i_name i_content i_xattr i_padding i_suffix i_threshold]. auto 10.
  - intros H. injection H as <-. split; [exact S1|]. cbn [d_format i_name i_content i_xattr i_padding i_suffix i_threshold].
    repeat (split; [assumption|]). split; [|exact Ht]. unfold is_u32, u32. apply N.mod_lt. discriminate.
Qed.
Lemma in_crash {A} (l : list A) n h : In (nth n (h :: l) h) (h :: l).
Proof.
  destruct (Nat.lt_ge_cases n (length (h :: l))) as [H|H]; [now apply nth_In|]. rewrite nth_overflow by exact H. now left.
Qed.
(** Replacing the configuration: in every state it is the old one or, if all went well, the new one. *)
Lemma rewritten C w p sfx d2 a pw kf iv salt h r : sfx <> [] ->
  r = on_ok (encrypt_params C d2 a pw kf iv salt) (fun e => replace_file w p (p ++ sfx) (ser_enc e) h) ->
  (forall s, In s (h :: fst r) -> fget s p = fget h p \/ (snd r = Ok tt /\ exists e, encrypt_params C d2 a pw kf iv salt = Ok e /\ fget s p = Some (HFile (ser_enc e)))) /\
  (snd r = Ok tt -> exists e, encrypt_params C d2 a pw kf iv salt = Ok e /\ fget (last (fst r) h) p = Some (HFile (ser_enc e))) /\
  (snd r <> Ok tt -> fget (last (fst r) h) p = fget h p).
Proof.
  intros Hs ->. destruct (encrypt_params C d2 a pw kf iv salt) as [e|er] eqn:Ee; cbn [on_ok].
  2: { cbn [fst snd last]. split; [|split]; [intros s [<-|[]]; auto|discriminate|reflexivity]. }
  assert (Hne : p <> p ++ sfx) by now apply app_ne_self.
  pose proof (replace_end w p (p ++ sfx) (ser_enc e) h Hne) as RE. cbv zeta in RE. unfold last_state in RE.
  split; [|split].
  - intros s [<-|Hin]; [auto|]. destruct (replace_states _ _ _ _ _ _ Hne Hin) as [_ [H|(H1 & _ & H2)]]; [auto|]. right. eauto.
  - intros H. rewrite H in RE. destruct RE as [RE _]. eauto.
  - intros H. destruct (snd (replace_file w p (p ++ sfx) (ser_enc e) h)) as [[]|er]; [congruence|]. apply RE.
Qed.

Section Step.
  Variables (C : pcrypto) (json : bytes -> option legacy_params) (print_json : dec_params -> res bytes) (config : bytes).
  Hypothesis HC : crypto_ok C.
  Hypothesis HN : no_collision C json.

  Lemma holds_new d a pw kf iv salt e s : storable d -> argon_range a -> length iv = 12 -> encrypt_params C d a pw kf iv salt = Ok e ->
    fget s (repo_path config) = Some (HFile (ser_enc e)) -> holds C json config (Some (pw, kf, d)) s.
  Proof.
    intros Hd Ha Hi He Hs. split; [exact Hd|]. exists (ser_enc e). split; [exact Hs|]. split; [eapply config_round_trip; eauto|].
    intros pw' kf' d' H. eapply HN; eauto.
  Qed.

  (** What a command does, seen from outside: nothing, or ... *)
  Lemma nothing_step v k h x : ev_run C json print_json config v h = x -> x_states x = [] -> x_code x <> 0%N -> holds C json config k h ->
    exists k1, follows (v_files v) k (v_cmd v) (v_con v) (ev_code C json print_json config v h) k1 /\ holds C json config k1 (ev_state C json print_json config v h).
  Proof.
    intros E Es Ec Hk. exists k. unfold ev_code, ev_state. rewrite E. split.
    - apply f_nothing. destruct (v_killed v); congruence.
    - unfold end_state. rewrite Es. destruct (v_killed v) as [n|]; [|exact Hk]. destruct n as [|[|n]]; exact Hk.
  Qed.

  (** A replacing command. *)
  Lemma replace_step v pw0 kf0 d pw2 kf2 d2 a iv salt sfx w h con (r : run) :
    holds C json config (Some (pw0, kf0, d)) h -> storable d2 -> argon_range a -> length iv = 12 -> sfx <> [] ->
    r = on_ok (encrypt_params C d2 a pw2 kf2 iv salt) (fun e => replace_file w (repo_path config) (repo_path config ++ sfx) (ser_enc e) h) ->
    ev_run C json print_json config v h = finish r con ->
    (forall code, code = Some 0%N \/ code = None -> follows (v_files v) (Some (pw0, kf0, d)) (v_cmd v) (v_con v) code (Some (pw2, kf2, d2))) ->
    exists k1, follows (v_files v) (Some (pw0, kf0, d)) (v_cmd v) (v_con v) (ev_code C json print_json config v h) k1 /\ holds C json config k1 (ev_state C json print_json config v h).
  Proof.
    intros Hk Hd Ha Hi Hs Er Ex Hf. destruct (rewritten _ _ _ _ _ _ _ _ _ _ _ _ Hs Er) as (R1 & R2 & R3).
    unfold ev_code, ev_state. rewrite Ex. cbn [finish x_states x_code]. unfold end_state. cbn [x_states].
    destruct (v_killed v) as [n|].
    - destruct (R1 _ (in_crash (fst r) n h)) as [H|(Hok & e & He & H)].
      + exists (Some (pw0, kf0, d)). split; [apply f_nothing; discriminate|]. eapply holds_same; eauto.
      + exists (Some (pw2, kf2, d2)). split; [apply Hf; auto|]. eapply holds_new; eauto.
    - destruct (snd r) as [[]|er] eqn:E2.
      + destruct (R2 eq_refl) as (e & He & H). exists (Some (pw2, kf2, d2)). split; [apply Hf; auto|]. eapply holds_new; eauto.
      + exists (Some (pw0, kf0, d)). split; [apply f_nothing; intros X; injection X as X; exact (@exit_err unit er X)|].
        eapply holds_same; [|exact Hk]. apply R3. discriminate.
  Qed.

  Lemma none_step v h : (forall g o r1 r2 r3 r4 a iv salt w, v_cmd v <> CCreate g o r1 r2 r3 r4 a iv salt w) ->
    exists k1, follows (v_files v) None (v_cmd v) (v_con v) (ev_code C json print_json config v h) k1 /\ holds C json config k1 (ev_state C json print_json config v h).
  Proof.
    intros H. exists None. split; [|exact I]. destruct (ev_code _ _ _ _ _ _) as [[|c]|]; [now apply f_unknown|apply f_nothing; discriminate|apply f_nothing; discriminate].
  Qed.

  Lemma create_states_none w o r1 r2 r3 r4 a pw kf iv salt h x : holds C json config (Some x) h ->
    exists e, create C w config o r1 r2 r3 r4 a pw kf iv salt h = ([], Err e).
  Proof.
    destruct x as [[pw0 kf0] d]. intros (_ & content & Hf & _). unfold create, on_ok. destruct (encrypt_params _ _ _ _ _ _ _); [|eauto].
    change (match config with [] => config_name | _ => config end) with (repo_path config). rewrite Hf. eauto.
  Qed.

  Lemma event_step v k h : command_ok (v_cmd v) -> holds C json config k h ->
    exists k1, follows (v_files v) k (v_cmd v) (v_con v) (ev_code C json print_json config v h) k1 /\ holds C json config k1 (ev_state C json print_json config v h).
  Proof.
    destruct v as [files cmd con killed]. intros Hok Hk.
    destruct cmd as [g o r1 r2 r3 r4 a iv salt w|old new a iv salt sfx w|g u|g a t sfx iv salt w]; cbn [command_ok v_cmd] in Hok.
    - destruct Hok as (Ho & Hr & Ha & Hi).
      destruct (get_password g true con) as [[pw|er] con1] eqn:Ep.
      2: { eapply nothing_step; [unfold ev_run; cbn [v_cmd v_con exec]; rewrite Ep; reflexivity|reflexivity|apply exit_err|exact Hk]. }
      destruct (key_file files (g_keyfile g)) as [kf|er] eqn:Ef.
      2: { eapply nothing_step; [unfold ev_run; cbn [v_cmd v_con v_files exec]; rewrite Ep; cbn [on_ok]; rewrite Ef; reflexivity|reflexivity|apply exit_err|exact Hk]. }
      destruct k as [x|].
      { destruct (create_states_none w o r1 r2 r3 r4 a pw kf iv salt h x Hk) as [er Ec].
        eapply nothing_step; [unfold ev_run; cbn [v_cmd v_con v_files exec]; rewrite Ep; cbn [on_ok]; rewrite Ef; cbn [on_ok]; rewrite Ec; reflexivity|reflexivity|apply exit_err|exact Hk]. }
      set (r := create C w config o r1 r2 r3 r4 a pw kf iv salt h).
      assert (Ex : ev_run C json print_json config (mkEv files (CCreate g o r1 r2 r3 r4 a iv salt w) con killed) h = finish r con1)
        by (unfold ev_run; cbn [v_cmd v_con v_files exec]; rewrite Ep; cbn [on_ok]; rewrite Ef; reflexivity).
      unfold ev_code, ev_state. rewrite Ex. cbn [v_killed v_files v_cmd v_con finish x_states x_code].
      destruct killed as [n|].
      { exists None. split; [apply f_nothing; discriminate|exact I]. }
      destruct (snd r) as [[]|er] eqn:E2.
      2: { exists None. split; [apply f_nothing; intros X; injection X as X; exact (@exit_err unit er X)|exact I]. }
      destruct (C38_create_open C json w config o r1 r2 r3 r4 a pw kf iv salt h HC Ho Hr Ha Hi E2) as (d & Hd & Hc).
      destruct (create_ok C w config o r1 r2 r3 r4 a pw kf iv salt h E2) as (e & He & _ & Hl).
      fold r in Hd. unfold r in Hd. rewrite Hl, open_put in Hd.
      assert (Hst : storable (create_params o r1 r2 r3 r4)) by now apply create_params_storable.
      assert (d = create_params o r1 r2 r3 r4) as -> by (rewrite (config_round_trip C json _ a pw kf iv salt e HC Hst Ha Hi He) in Hd; congruence).
      exists (Some (pw, kf, create_params o r1 r2 r3 r4)). apply get_password_ok in Ep as (rest & Hm & _). apply key_file_ok in Ef. split.
      + eapply f_created; eauto.
      + unfold end_state. cbn [x_states finish]. eapply holds_new; eauto. fold r in Hl. change (last (fst r) h) with (last_state h r). rewrite Hl, fget_fput.
        change (match config with [] => config_name | _ => config end) with (repo_path config). now rewrite bytes_eqb_refl.
    - destruct Hok as (Ha & Hi & Hsx). destruct k as [[[pw0 kf0] d]|]; [|apply none_step; discriminate].
      destruct (chpass_get old false con) as [[pw1|er] con1] eqn:Ep1.
      2: { eapply nothing_step; [unfold ev_run; cbn [v_cmd v_con exec]; rewrite Ep1; reflexivity|reflexivity|apply exit_err|exact Hk]. }
      destruct (chpass_get new true con1) as [[pw2|er] con2] eqn:Ep2.
      2: { eapply nothing_step; [unfold ev_run; cbn [v_cmd v_con exec]; rewrite Ep1, Ep2; reflexivity|reflexivity|apply exit_err|exact Hk]. }
      destruct (key_file files (g_keyfile old)) as [kf1|er] eqn:Ef1.
      2: { eapply nothing_step; [unfold ev_run; cbn [v_cmd v_con v_files exec]; rewrite Ep1, Ep2; cbn [on_ok]; rewrite Ef1; reflexivity|reflexivity|apply exit_err|exact Hk]. }
      destruct (open_repo C json config pw1 kf1 h) as [d1|er] eqn:Eo.
      2: { eapply nothing_step; [unfold ev_run; cbn [v_cmd v_con v_files exec]; rewrite Ep1, Ep2; cbn [on_ok]; rewrite Ef1; cbn [on_ok]; rewrite Eo; reflexivity|reflexivity|apply exit_err|exact Hk]. }
      destruct (key_file files (g_keyfile new)) as [kf2|er] eqn:Ef2.
      2: { eapply nothing_step; [unfold ev_run; cbn [v_cmd v_con v_files exec]; rewrite Ep1, Ep2; cbn [on_ok]; rewrite Ef1; cbn [on_ok]; rewrite Eo; cbn [on_ok]; rewrite Ef2; reflexivity|reflexivity|apply exit_err|exact Hk]. }
      set (r := chpass C json w config sfx pw1 kf1 a pw2 kf2 iv salt h).
      assert (Ex : ev_run C json print_json config (mkEv files (CChpass old new a iv salt sfx w) con killed) h = finish r con2)
        by (unfold ev_run; cbn [v_cmd v_con v_files exec]; rewrite Ep1, Ep2; cbn [on_ok]; rewrite Ef1; cbn [on_ok]; rewrite Eo; cbn [on_ok]; rewrite Ef2; reflexivity).
      pose proof (holds_path _ _ _ _ _ Hk) as Hp. destruct Hk as (Hst & content & Hf & Hd & Hu).
      assert (d1 = d /\ decrypt_config C json content pw1 kf1 = Ok d) as [-> Hd1].
      { unfold open_repo in Eo. rewrite Hp in Eo. cbn [rbind] in Eo. unfold read_file in Eo. rewrite Hf in Eo. cbn [rbind] in Eo. pose proof (Hu _ _ _ Eo). subst. auto. }
      eapply (replace_step _ pw0 kf0 d pw2 kf2 d a iv salt (hexify sfx) w h con2 r); eauto.
      + split; [exact Hst|]. exists content. auto.
      + intros E. apply (f_equal (@length byte)) in E. rewrite hexify_length, Hsx in E. discriminate.
      + unfold r, chpass. rewrite Hp. cbn [on_ok]. unfold read_file. rewrite Hf. cbn [on_ok]. rewrite Hd1. reflexivity.
      + intros code Hcode. cbn [v_files v_cmd v_con]. apply chpass_get_ok in Ep1 as (rest1 & Hm1 & ->). apply chpass_get_ok in Ep2 as (rest2 & Hm2 & ->). apply key_file_ok in Ef2.
        eapply f_chpass; eauto.
    - exists k. unfold ev_code, ev_state. cbn [v_killed v_files v_cmd v_con].
      set (x := ev_run _ _ _ _ _ _). assert (Es : x_states x = []).
      { unfold x, ev_run. cbn [v_cmd v_con v_files exec]. destruct (get_password g false con). reflexivity. }
      split.
      + destruct killed as [n|]; [apply f_nothing; discriminate|]. destruct (x_code x); [apply f_info|apply f_nothing; discriminate].
      + unfold end_state. rewrite Es. destruct killed as [n|]; [|exact Hk]. destruct n as [|[|n]]; exact Hk.
    - destruct Hok as (Ha & Hi & Hm & Ht). destruct k as [[[pw0 kf0] d]|]; [|apply none_step; discriminate].
      destruct (get_password g false con) as [[pw|er] con1] eqn:Ep.
      2: { eapply nothing_step; [unfold ev_run; cbn [v_cmd v_con exec]; rewrite Ep; reflexivity|reflexivity|apply exit_err|exact Hk]. }
      destruct (key_file files (g_keyfile g)) as [kf|er] eqn:Ef.
      2: { eapply nothing_step; [unfold ev_run; cbn [v_cmd v_con v_files exec]; rewrite Ep; cbn [on_ok]; rewrite Ef; reflexivity|reflexivity|apply exit_err|exact Hk]. }
      set (r := migrate_config C json w config pw kf a t sfx iv salt h).
      assert (Ex : ev_run C json print_json config (mkEv files (CMigrate g a t sfx iv salt w) con killed) h = finish r con1)
        by (unfold ev_run; cbn [v_cmd v_con v_files exec]; rewrite Ep; cbn [on_ok]; rewrite Ef; reflexivity).
      pose proof (holds_path _ _ _ _ _ Hk) as Hp. pose proof Hk as (Hst & content & Hf & Hd & Hu).
      assert (Er : r = on_ok (decrypt_config C json content pw kf) (fun d' => on_ok (migrate_params d' t sfx) (fun d2 =>
                    on_ok (encrypt_params C d2 a pw kf iv salt) (fun e => replace_file w (repo_path config) (repo_path config ++ str ".tmp") (ser_enc e) h)))).
      { unfold r, migrate_config. rewrite Hp. cbn [on_ok]. unfold read_file. rewrite Hf. reflexivity. }
      destruct (decrypt_config C json content pw kf) as [d'|er] eqn:Ed; cbn [on_ok] in Er.
      2: { eapply nothing_step; [exact Ex|rewrite Er; reflexivity|rewrite Er; apply exit_err|exact Hk]. }
      pose proof (Hu _ _ _ Ed). subst d'.
      destruct (migrate_params d t sfx) as [d2|er] eqn:Em; cbn [on_ok] in Er.
      2: { eapply nothing_step; [exact Ex|rewrite Er; reflexivity|rewrite Er; apply exit_err|exact Hk]. }
      eapply (replace_step _ pw0 kf0 d pw kf d2 a iv salt (str ".tmp") w h con1 r); eauto.
      + eapply migrate_storable; eauto.
      + discriminate.
      + intros code Hcode. cbn [v_files v_cmd v_con]. apply get_password_ok in Ep as (rest & Hmt & _). apply key_file_ok in Ef. eapply f_migrated; eauto.
  Qed.

  Lemma history vs : forall k h, Forall (fun v => command_ok (v_cmd v)) vs -> holds C json config k h ->
    exists k2 h2, life C json print_json config k h vs k2 h2 /\ holds C json config k2 h2.
  Proof.
    induction vs as [|v vs IH]; intros k h Hok Hk; [exists k, h; split; [constructor|exact Hk]|].
    inversion Hok as [|? ? Hv Hvs]; subst. destruct (event_step v k h Hv Hk) as (k1 & F & H1).
    destruct (IH k1 _ Hvs H1) as (k2 & h2 & L & H2). exists k2, h2. split; [econstructor; eauto|exact H2].
  Qed.
End Step.
