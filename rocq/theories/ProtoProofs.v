(** Proofs about the wire format of ProtoModel. *)
From Coq Require Import Strings.String.
From Verif Require Import Base BaseLemmas TextModel ProtoModel.
Local Open Scope N_scope.
Local Open Scope list_scope.

(** ** Numbers *)
Lemma b2n_small n : n < 256 -> b2n (n2b n) = n.
Proof. intros H. rewrite b2n_n2b. now apply N.mod_small. Qed.

Lemma varint_rt : forall fuel n rest, n < 128 ^ N.of_nat fuel -> (0 < fuel)%nat ->
  dec_varint_ fuel (enc_varint_ fuel n ++ rest) = Some (n, rest).
Proof.
  induction fuel as [|f IH]; intros n rest Hn Hf; [lia|].
  cbn [enc_varint_]. destruct (N.ltb_spec n 128) as [H|H].
  - cbn [app dec_varint_]. rewrite b2n_small by lia. destruct (N.ltb_spec n 128); [reflexivity|lia].
  - cbn [app dec_varint_]. assert (Hm : n mod 128 < 128) by (apply N.mod_lt; lia).
    rewrite b2n_small by lia. destruct (N.ltb_spec (n mod 128 + 128) 128); [lia|].
    destruct f as [|f']. { cbn in Hn. lia. }
    rewrite IH; [|apply N.div_lt_upper_bound; [lia|]; rewrite Nat2N.inj_succ, N.pow_succ_r' in Hn; exact Hn|lia].
    do 2 f_equal. pose proof (N.div_mod n 128). lia.
Qed.

(** More bytes allowed than needed. *)
Lemma enc_varint_more : forall f n g, n < 128 ^ N.of_nat f -> (f <= g)%nat -> (0 < f)%nat -> enc_varint_ g n = enc_varint_ f n.
Proof.
  induction f as [|f IH]; intros n g Hn Hg Hf; [lia|].
  destruct g as [|g]; [lia|]. cbn [enc_varint_]. destruct (N.ltb_spec n 128); [reflexivity|].
  destruct f as [|f']. { cbn in Hn. lia. }
  rewrite (IH (n / 128) g); [reflexivity| |lia|lia].
  apply N.div_lt_upper_bound; [lia|]. rewrite Nat2N.inj_succ, N.pow_succ_r' in Hn; exact Hn.
Qed.

Lemma dec_enc_varint n rest : n < 18446744073709551616 -> dec_varint (enc_varint n ++ rest) = Some (n, rest).
Proof.
  intros H. unfold dec_varint, enc_varint. rewrite varint_rt; [|eapply N.lt_le_trans; [exact H|]; vm_compute; discriminate|lia].
  now rewrite N.mod_small.
Qed.
Lemma dec_varint5 n rest : n < 4294967296 -> dec_varint_ 5 (enc_varint n ++ rest) = Some (n, rest).
Proof.
  intros H. unfold enc_varint. assert (n < 128 ^ N.of_nat 5) by (eapply N.lt_le_trans; [exact H|]; vm_compute; discriminate).
  rewrite (enc_varint_more 5) by (auto; lia). apply varint_rt; [auto|lia].
Qed.
Lemma dec_enc_tag n rest : n < 4294967296 -> dec_tag (enc_varint n ++ rest) = Some (n, rest).
Proof. intros H. unfold dec_tag. rewrite dec_varint5 by exact H. now rewrite N.mod_small. Qed.
Lemma dec_enc_len (b rest : bytes) : N.of_nat (length b) < max_len ->
  dec_len (enc_varint (N.of_nat (length b)) ++ rest) = Some (length b, rest).
Proof.
  intros H. unfold dec_len. rewrite dec_varint5 by (unfold max_len in H; lia). destruct (N.ltb_spec (N.of_nat (length b)) max_len); [|lia].
  now rewrite Nnat.Nat2N.id.
Qed.
Lemma enc_varint_ne n : enc_varint n <> [].
Proof. unfold enc_varint. cbn [enc_varint_]. destruct (n <? 128); discriminate. Qed.

(** ** Fields *)
(** What [enc_field] can write so that it is read back. *)
Definition field_ok (f : field) : Prop :=
  0 < fst f /\ fst f < 536870912 /\
  match snd f with
  | VInt n => n < 18446744073709551616
  | VLen b => N.of_nat (length b) < max_len
  | _ => False
  end.

Lemma tag_split k w : w < 8 -> (k * 8 + w) / 8 = k /\ (k * 8 + w) mod 8 = w.
Proof.
  intros H. split.
  - symmetry. apply N.div_unique with (r := w); lia.
  - symmetry. apply N.mod_unique with (q := k); lia.
Qed.

Lemma parse_fields_ok : forall fs fuel depth, Forall field_ok fs -> (length fs < fuel)%nat ->
  parse_fields fuel depth None (enc_fields fs) = Some (fs, []).
Proof.
  induction fs as [|[k v] fs IH]; intros fuel depth HF Hl.
  - destruct fuel; [cbn in Hl; lia|]. reflexivity.
  - destruct fuel as [|f]; [cbn in Hl; lia|]. cbn [length] in Hl.
    inversion HF as [|x l [Hk0 [Hk Hv]] HF']; subst. cbn [fst snd] in *.
    change (enc_fields ((k, v) :: fs)) with (enc_field (k, v) ++ enc_fields fs).
    destruct v as [n| |b| |]; try contradiction; cbn [enc_field].
    + rewrite <- app_assoc. pose proof (tag_split k 0 ltac:(lia)) as [Hd Hm]. rewrite N.add_0_r in Hd, Hm.
      cbn [parse_fields].
      destruct (enc_varint (k * 8) ++ enc_varint n ++ enc_fields fs) as [|x l] eqn:E.
      { destruct (enc_varint (k * 8)) eqn:E2; [now apply enc_varint_ne in E2|discriminate]. }
      rewrite <- E, dec_enc_tag by lia. rewrite Hm, Hd. cbn [N.eqb]. destruct (N.eqb_spec k 0); [lia|].
      rewrite dec_enc_varint by exact Hv. rewrite IH by (auto; lia). reflexivity.
    + rewrite <- !app_assoc. pose proof (tag_split k 2 ltac:(lia)) as [Hd Hm].
      cbn [parse_fields].
      destruct (enc_varint (k * 8 + 2) ++ enc_varint (N.of_nat (length b)) ++ b ++ enc_fields fs) as [|x l] eqn:E.
      { destruct (enc_varint (k * 8 + 2)) eqn:E2; [now apply enc_varint_ne in E2|discriminate]. }
      rewrite <- E, dec_enc_tag by lia. rewrite Hm, Hd. destruct (N.eqb_spec 2 4); [lia|]. destruct (N.eqb_spec k 0); [lia|].
      rewrite dec_enc_len by exact Hv. unfold take_bytes.
      destruct (Nat.ltb_spec (length (b ++ enc_fields fs)) (length b)) as [H|H]; [rewrite app_length in H; lia|].
      rewrite firstn_app, skipn_app, Nat.sub_diag, firstn_all, skipn_all. cbn [firstn skipn]. rewrite app_nil_r. cbn [app].
      rewrite IH by (auto; lia). reflexivity.
Qed.

Lemma enc_fields_length fs : Forall field_ok fs -> (length fs <= length (enc_fields fs))%nat.
Proof.
  induction 1 as [|[k v] fs [_ [_ Hv]] HF IH]; [cbn; lia|].
  change (enc_fields ((k, v) :: fs)) with (enc_field (k, v) ++ enc_fields fs). rewrite app_length. cbn [length].
  assert (1 <= length (enc_field (k, v)))%nat; [|lia].
  cbn [snd] in Hv. destruct v; try contradiction; cbn [enc_field]; rewrite !app_length.
  - pose proof (enc_varint_ne (k * 8)). destruct (enc_varint (k * 8)); [congruence|cbn; lia].
  - pose proof (enc_varint_ne (k * 8 + 2)). destruct (enc_varint (k * 8 + 2)); [congruence|cbn; lia].
Qed.

Lemma parse_message_ok fs depth : Forall field_ok fs -> parse_message depth (enc_fields fs) = Some fs.
Proof.
  intros H. unfold parse_message. rewrite parse_fields_ok; [reflexivity|exact H|].
  pose proof (enc_fields_length fs H). lia.
Qed.

(** ** Messages *)
Definition u32_ok (n : N) : Prop := n < 4294967296.
Definition bytes_ok (b : bytes) : Prop := N.of_nat (length b) < max_len.

Lemma w_int_ok k n : 0 < k -> k < 536870912 -> u32_ok n -> Forall field_ok (w_int k n).
Proof. unfold w_int, u32_ok. intros. destruct (n =? 0); repeat constructor; cbn; lia. Qed.
Lemma w_bool_ok k b : 0 < k -> k < 536870912 -> Forall field_ok (w_bool k b).
Proof. unfold w_bool. intros. destruct b; repeat constructor; cbn; lia. Qed.
Lemma w_bytes_ok k b : 0 < k -> k < 536870912 -> bytes_ok b -> Forall field_ok (w_bytes k b).
Proof. unfold w_bytes, bytes_ok. intros. destruct b; repeat constructor; cbn in *; lia. Qed.
Lemma ofold_app {A} (step : A -> field -> option A) l1 l2 a :
  ofold step (l1 ++ l2) a = match ofold step l1 a with Some a' => ofold step l2 a' | None => None end.
Proof. revert a; induction l1 as [|f l1 IH]; intros a; cbn; [reflexivity|]. destruct (step a f); auto. Qed.

Definition size_ok (s : size_params) : Prop := u32_ok (z_block s) /\ u32_ok (z_iv s) /\ u32_ok (z_padding s).
Definition lite_ok (l : lite_params) : Prop :=
  bytes_ok (i_name l) /\ bytes_ok (i_content l) /\ bytes_ok (i_xattr l) /\ bytes_ok (i_padding l) /\
  match i_threshold l with Some n => u32_ok n | None => True end /\ bytes_ok (i_suffix l) /\ valid_utf8 (i_suffix l) = true.
Definition full_ok (f : full_params) : Prop := bytes_ok (u_master f).
Definition argon_ok (a : argon_params) : Prop := u32_ok (a_time a) /\ u32_ok (a_memory a) /\ u32_ok (a_parallel a).

Lemma u32_id n : u32_ok n -> u32 n = n.
Proof. apply N.mod_small. Qed.

Lemma fold_w_int {A} (step : A -> field -> option A) (set : N -> A) k n a :
  (n = 0 -> set n = a) -> step a (k, VInt n) = Some (set n) ->
  ofold step (w_int k n) a = Some (set n).
Proof. intros H0 H. unfold w_int. destruct (N.eqb_spec n 0) as [E|E]; cbn; [now rewrite H0|]. now rewrite H. Qed.
Lemma fold_w_bytes {A} (step : A -> field -> option A) (set : bytes -> A) k b a :
  (b = [] -> set b = a) -> step a (k, VLen b) = Some (set b) ->
  ofold step (w_bytes k b) a = Some (set b).
Proof. intros H0 H. unfold w_bytes. destruct b as [|x b]; cbn; [now rewrite H0|]. now rewrite H. Qed.
Lemma fold_w_bool {A} (step : A -> field -> option A) (set : bool -> A) k b a :
  (b = false -> set b = a) -> step a (k, VInt 1) = Some (set true) ->
  ofold step (w_bool k b) a = Some (set b).
Proof. intros H0 H. unfold w_bool. destruct b; cbn; [now rewrite H|now rewrite H0]. Qed.

Lemma size_fields_ok s : size_ok s -> Forall field_ok (size_fields s).
Proof. intros (A & B & C). unfold size_fields. rewrite !Forall_app. repeat split; apply w_int_ok; auto; lia. Qed.
Lemma size_rt s : size_ok s -> embedded size_step (enc_fields (size_fields s)) size0 = Some s.
Proof.
  intros H. unfold embedded. rewrite parse_message_ok by now apply size_fields_ok.
  destruct H as (A & B & C). unfold size_fields. rewrite !ofold_app.
  cbv beta iota; rewrite ?ofold_app; rewrite (fold_w_int size_step (fun n => mkSize n 0 0)); [|intros ->; reflexivity|cbn; now rewrite u32_id].
  cbv beta iota; rewrite ?ofold_app; rewrite (fold_w_int size_step (fun n => mkSize (z_block s) n 0)); [|intros ->; reflexivity|cbn; now rewrite u32_id].
  cbv beta iota; rewrite ?ofold_app; rewrite (fold_w_int size_step (fun n => mkSize (z_block s) (z_iv s) n)); [|intros ->; reflexivity|cbn; now rewrite u32_id].
  now destruct s.
Qed.

Lemma argon_fields_ok s : argon_ok s -> Forall field_ok (argon_fields s).
Proof. intros (A & B & C). unfold argon_fields. rewrite !Forall_app. repeat split; apply w_int_ok; auto; lia. Qed.
Lemma argon_rt s : argon_ok s -> embedded argon_step (enc_fields (argon_fields s)) argon0 = Some s.
Proof.
  intros H. unfold embedded. rewrite parse_message_ok by now apply argon_fields_ok.
  destruct H as (A & B & C). unfold argon_fields. rewrite !ofold_app.
  cbv beta iota; rewrite ?ofold_app; rewrite (fold_w_int argon_step (fun n => mkArgon n 0 0)); [|intros ->; reflexivity|cbn; now rewrite u32_id].
  cbv beta iota; rewrite ?ofold_app; rewrite (fold_w_int argon_step (fun n => mkArgon (a_time s) n 0)); [|intros ->; reflexivity|cbn; now rewrite u32_id].
  cbv beta iota; rewrite ?ofold_app; rewrite (fold_w_int argon_step (fun n => mkArgon (a_time s) (a_memory s) n)); [|intros ->; reflexivity|cbn; now rewrite u32_id].
  now destruct s.
Qed.

Lemma lite_fields_ok l : lite_ok l -> Forall field_ok (lite_fields l).
Proof.
  intros (A & B & C & D & E & F & _). unfold lite_fields. rewrite !Forall_app.
  repeat split; try (apply w_bytes_ok; auto; lia).
  destruct (i_threshold l) as [n|]; repeat constructor; cbn; unfold u32_ok in E; lia.
Qed.
Lemma lite_fold l : lite_ok l -> ofold lite_step (lite_fields l) lite0 = Some l.
Proof.
  intros (A & B & C & D & E & F & G). unfold lite_fields. rewrite !ofold_app.
  cbv beta iota; rewrite ?ofold_app; rewrite (fold_w_bytes lite_step (fun b => mkLite b [] [] [] None [])); [|intros ->; reflexivity|reflexivity].
  cbv beta iota; rewrite ?ofold_app; rewrite (fold_w_bytes lite_step (fun b => mkLite (i_name l) b [] [] None [])); [|intros ->; reflexivity|reflexivity].
  cbv beta iota; rewrite ?ofold_app; rewrite (fold_w_bytes lite_step (fun b => mkLite (i_name l) (i_content l) b [] None [])); [|intros ->; reflexivity|reflexivity].
  cbv beta iota; rewrite ?ofold_app; rewrite (fold_w_bytes lite_step (fun b => mkLite (i_name l) (i_content l) (i_xattr l) b None [])); [|intros ->; reflexivity|reflexivity].
  destruct l as [n0 c0 x0 p0 [t|] s0]; cbn [i_name i_content i_xattr i_padding i_threshold i_suffix] in *;
    cbn [ofold lite_step i_name i_content i_xattr i_padding i_threshold i_suffix].
  - cbv beta iota; rewrite ?ofold_app. cbn [ofold lite_step i_name i_content i_xattr i_padding i_threshold i_suffix]. rewrite u32_id by exact E. rewrite (fold_w_bytes lite_step (fun b => mkLite n0 c0 x0 p0 (Some t) b)); [reflexivity|intros ->; reflexivity|cbn [lite_step]; now rewrite G].
  - cbv beta iota; rewrite ?ofold_app. cbn [ofold]. rewrite (fold_w_bytes lite_step (fun b => mkLite n0 c0 x0 p0 None b)); [reflexivity|intros ->; reflexivity|cbn [lite_step]; now rewrite G].
Qed.
Lemma lite_rt l : lite_ok l -> embedded lite_step (enc_fields (lite_fields l)) lite0 = Some l.
Proof. intros H. unfold embedded. rewrite parse_message_ok by now apply lite_fields_ok. now apply lite_fold. Qed.

Lemma full_fields_ok l : full_ok l -> Forall field_ok (full_fields l).
Proof.
  intros A. unfold full_fields. rewrite !Forall_app.
  repeat split; try (apply w_bytes_ok; auto; lia); apply w_bool_ok; lia.
Qed.
Lemma full_rt l : full_ok l -> embedded full_step (enc_fields (full_fields l)) full0 = Some l.
Proof.
  intros H. unfold embedded. rewrite parse_message_ok by now apply full_fields_ok.
  unfold full_fields. rewrite !ofold_app.
  cbv beta iota; rewrite ?ofold_app; rewrite (fold_w_bytes full_step (fun b => mkFullP b false false false false)); [|intros ->; reflexivity|reflexivity].
  cbv beta iota; rewrite ?ofold_app; rewrite (fold_w_bool full_step (fun b => mkFullP (u_master l) b false false false)); [|intros ->; reflexivity|reflexivity].
  cbv beta iota; rewrite ?ofold_app; rewrite (fold_w_bool full_step (fun b => mkFullP (u_master l) (u_store_time l) b false false)); [|intros ->; reflexivity|reflexivity].
  cbv beta iota; rewrite ?ofold_app; rewrite (fold_w_bool full_step (fun b => mkFullP (u_master l) (u_store_time l) (u_legacy_io l) b false)); [|intros ->; reflexivity|reflexivity].
  cbv beta iota; rewrite ?ofold_app; rewrite (fold_w_bool full_step (fun b => mkFullP (u_master l) (u_store_time l) (u_legacy_io l) (u_nocase l) b)); [|intros ->; reflexivity|reflexivity].
  now destruct l.
Qed.

(** Parameters as written: 32-bit numbers, the suffix UTF-8 text, the parts below the
    two gigabytes of the library. *)
Definition dec_ok (d : dec_params) : Prop :=
  match d_size d with Some s => size_ok s /\ bytes_ok (enc_fields (size_fields s)) | None => True end /\
  match d_format d with
  | FNone => True
  | FLite l => lite_ok l /\ bytes_ok (enc_fields (lite_fields l))
  | FFull f => full_ok f /\ bytes_ok (enc_fields (full_fields f))
  end.

Lemma dec_fields_ok d : dec_ok d -> Forall field_ok (dec_fields d).
Proof.
  intros [A B]. unfold dec_fields. rewrite Forall_app. split.
  - destruct (d_size d); repeat constructor; cbn; try lia. apply A.
  - destruct (d_format d); repeat constructor; cbn; try lia; apply B.
Qed.

Theorem parse_ser_dec d : dec_ok d -> parse_dec (ser_dec d) = Some d.
Proof.
  intros H. unfold parse_dec, ser_dec. rewrite parse_message_ok by now apply dec_fields_ok.
  destruct H as [A B]. unfold dec_fields. rewrite ofold_app.
  destruct d as [[s|] [|l|f]]; cbn [d_format d_size] in *; cbn [ofold dec_step dec0 d_size d_format];
    rewrite ?size_rt by tauto; cbn [ofold dec_step dec0 d_size d_format]; rewrite ?lite_rt, ?full_rt by tauto; reflexivity.
Qed.

Definition enc_ok (e : enc_params) : Prop :=
  bytes_ok (e_salt e) /\ bytes_ok (e_iv e) /\ bytes_ok (e_mac e) /\ bytes_ok (e_ct e) /\
  match e_argon e with Some a => argon_ok a /\ bytes_ok (enc_fields (argon_fields a)) | None => True end.

Theorem parse_ser_enc e : enc_ok e -> parse_enc (ser_enc e) = Some e.
Proof.
  intros (A & B & C & D & E). unfold parse_enc, ser_enc. rewrite parse_message_ok.
  - unfold enc_params_fields. rewrite !ofold_app.
    cbv beta iota; rewrite ?ofold_app; rewrite (fold_w_bytes enc_step (fun b => mkEnc b [] [] [] None)); [|intros ->; reflexivity|reflexivity].
    cbv beta iota; rewrite ?ofold_app; rewrite (fold_w_bytes enc_step (fun b => mkEnc (e_salt e) b [] [] None)); [|intros ->; reflexivity|reflexivity].
    cbv beta iota; rewrite ?ofold_app; rewrite (fold_w_bytes enc_step (fun b => mkEnc (e_salt e) (e_iv e) b [] None)); [|intros ->; reflexivity|reflexivity].
    cbv beta iota; rewrite ?ofold_app; rewrite (fold_w_bytes enc_step (fun b => mkEnc (e_salt e) (e_iv e) (e_mac e) b None)); [|intros ->; reflexivity|reflexivity].
    destruct e as [s i m c [a|]]; cbn [e_argon ofold enc_step] in *; [|reflexivity].
    rewrite argon_rt by tauto. reflexivity.
  - unfold enc_params_fields. rewrite !Forall_app.
    repeat split; try (apply w_bytes_ok; auto; lia).
    destruct (e_argon e); repeat constructor; cbn; try lia. apply E.
Qed.

(** ** Text of a JSON object is not a message *)
(** Bytes of ASCII text without '|'. *)
Definition plain (b : byte) : Prop := b2n b < 128 /\ b2n b <> 124.

Lemma dec_varint_suffix : forall fuel bs n r, dec_varint_ fuel bs = Some (n, r) -> exists pre, bs = pre ++ r.
Proof.
  induction fuel as [|f IH]; intros [|b bs] n r H; cbn [dec_varint_] in H; try discriminate.
  destruct (b2n b <? 128). { injection H as _ <-. now exists [b]. }
  destruct (dec_varint_ f bs) as [[m r']|] eqn:E; [|discriminate]. injection H as _ <-.
  destruct (IH _ _ _ E) as [pre ->]. now exists (b :: pre).
Qed.
Lemma take_suffix n bs b r : take_bytes n bs = Some (b, r) -> exists pre, bs = pre ++ r.
Proof. unfold take_bytes. destruct (_ <? _)%nat; [discriminate|]. intros H; injection H as <- <-. exists (firstn n bs). now rewrite firstn_skipn. Qed.

Lemma suffix_plain pre r bs : bs = pre ++ r -> Forall plain bs -> Forall plain r.
Proof. intros -> H. apply Forall_app in H. tauto. Qed.

(** No group 15 ends in such text, and what follows a parsed value is such text again. *)
Lemma parse_plain : forall fuel depth grp bs, Forall plain bs ->
  match parse_fields fuel depth grp bs with Some (_, r) => grp <> Some 15 /\ Forall plain r | None => True end.
Proof.
  induction fuel as [|f IH]; intros depth grp bs HP; cbn [parse_fields]; [exact I|].
  destruct bs as [|b bs']. { destruct grp; [exact I|]. split; [discriminate|constructor]. }
  unfold dec_tag. inversion HP as [|x l [Hb1 Hb2] HP']; subst.
  cbn [dec_varint_]. destruct (N.ltb_spec (b2n b) 128); [|lia].
  rewrite (N.mod_small (b2n b)) by lia.
  destruct (N.eqb_spec (b2n b mod 8) 4) as [E4|E4].
  - destruct grp as [g|]; [|exact I]. destruct (N.eqb_spec g (b2n b / 8)); [|exact I]. split; [|exact HP'].
    intros E. injection E as E. subst g. pose proof (N.div_mod (b2n b) 8). lia.
  - destruct (N.eqb_spec (b2n b / 8) 0); [exact I|].
    match goal with |- match match ?v with _ => _ end with _ => _ end => assert (V : match v with Some (_, r') => Forall plain r' | None => True end) end.
    { destruct (b2n b mod 8) as [|p]; [|destruct p as [[p|p|]|[p|p|]|]; try exact I; try (destruct p; exact I)].
      - unfold dec_varint. destruct (dec_varint_ 10 bs') as [[n0 r']|] eqn:E; [|exact I]. apply dec_varint_suffix in E as [pre E]. eapply suffix_plain; eauto.
      - destruct p; try exact I. destruct (take_bytes 4 bs') as [[n0 r']|] eqn:E; [|exact I]. apply take_suffix in E as [pre E]. eapply suffix_plain; eauto.
      - destruct depth as [|d]; [exact I|]. specialize (IH d (Some (b2n b / 8)) bs' HP'). destruct (parse_fields f d (Some (b2n b / 8)) bs') as [[l0 r']|]; [tauto|exact I].
      - unfold dec_len. destruct (dec_varint_ 5 bs') as [[n0 r']|] eqn:E; [|exact I]. apply dec_varint_suffix in E as [pre E].
        destruct (n0 <? max_len); [|exact I]. destruct (take_bytes (N.to_nat n0) r') as [[b0 r2]|] eqn:E2; [|exact I]. apply take_suffix in E2 as [pre2 E2].
        eapply suffix_plain; [exact E2|]. eapply suffix_plain; eauto.
      - destruct (take_bytes 8 bs') as [[n0 r']|] eqn:E; [|exact I]. apply take_suffix in E as [pre E]. eapply suffix_plain; eauto. }
    match goal with |- match match ?v with _ => _ end with _ => _ end => destruct v as [[v0 r']|] end; [|exact I].
    specialize (IH depth grp r' V). destruct (parse_fields f depth grp r') as [[l0 r2]|]; [exact IH|exact I].
Qed.

Theorem json_not_message depth rest : Forall plain rest -> parse_message depth (x7b :: rest) = None.
Proof.
  intros H. unfold parse_message. change (S (length (x7b :: rest))) with (S (S (length rest))).
  set (f := S (length rest)). cbn [parse_fields]. unfold dec_tag. cbn [dec_varint_].
  change (b2n x7b) with 123. cbn [N.ltb N.compare Pos.compare Pos.compare_cont].
  change (123 mod 4294967296) with 123. change (123 mod 8) with 3. change (123 / 8) with 15. cbn [N.eqb Pos.eqb].
  destruct depth as [|d]; [reflexivity|].
  pose proof (parse_plain f d (Some 15) rest H) as P.
  destruct (parse_fields f d (Some 15) rest) as [[l r]|]; [|reflexivity]. exfalso. now destruct P.
Qed.
