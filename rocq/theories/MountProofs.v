(** Proofs about MountModel. *)
From Coq Require Import Strings.String ZArith.
From Verif Require Import Base BaseLemmas TextModel ProtoModel ProtoProofs ParamsModel ParamsSpec ParamsProofs MountModel MountSpec.
Local Open Scope list_scope.

(** ** Text *)
Lemma text_app a b : is_text a -> is_text b -> is_text (a ++ b).
Proof. intros (x & Hx & ->) (y & Hy & ->). exists (x ++ y). split; [apply Forall_app; auto|]. rewrite flat_map_app. reflexivity. Qed.
Lemma ascii_text s : Forall (fun b => (b2n b < 128)%N) s -> is_text s.
Proof.
  induction 1 as [|b s Hb H IH]; [exists []; split; [constructor|reflexivity]|].
  apply (text_app [b] s); [|exact IH]. exists [b2n b]. split.
  - constructor; [left; lia|constructor].
  - cbn [flat_map]. unfold utf8. destruct (N.ltb_spec (b2n b) 128); [|lia]. rewrite n2b_b2n. reflexivity.
Qed.

(** ** Numbers *)
Lemma of_signed_lt z : (of_signed z < 18446744073709551616)%N.
Proof. unfold of_signed. assert (0 <= z mod 18446744073709551616 < 18446744073709551616)%Z by (apply Z.mod_pos_bound; lia). lia. Qed.
Lemma signed32 z : is_int z -> to_int32 (of_signed z) = z.
Proof.
  intros H. unfold is_int in H. unfold to_int32, of_signed.
  rewrite N2Z.inj_mod, Z2N.id by (apply Z.mod_pos_bound; lia). change (Z.of_N 4294967296) with 4294967296%Z.
  assert (E : ((z mod 18446744073709551616) mod 4294967296 = z mod 4294967296)%Z).
  { symmetry. apply Znumtheory.Zmod_div_mod; [lia|lia|]. exists 4294967296%Z. reflexivity. }
  rewrite E. destruct (Z.ltb_spec (z mod 4294967296) 2147483648) as [L|L].
  - destruct (Z.lt_ge_cases z 0) as [N|N].
    + assert (z mod 4294967296 = z + 4294967296)%Z; [|lia]. symmetry. apply Z.mod_unique with (q := (-1)%Z); lia.
    + apply Z.mod_small. lia.
  - destruct (Z.lt_ge_cases z 0) as [N|N].
    + assert (z mod 4294967296 = z + 4294967296)%Z; [|lia]. symmetry. apply Z.mod_unique with (q := (-1)%Z); lia.
    + rewrite Z.mod_small in L by lia. lia.
Qed.
Lemma signed64 z : is_int64 z -> to_int64 (of_signed z) = z.
Proof.
  intros H. unfold is_int64 in H. unfold to_int64. rewrite N.mod_small by apply of_signed_lt. unfold of_signed.
  rewrite Z2N.id by (apply Z.mod_pos_bound; lia).
  destruct (Z.ltb_spec (z mod 18446744073709551616) 9223372036854775808) as [L|L]; destruct (Z.lt_ge_cases z 0) as [N|N].
  - assert (z mod 18446744073709551616 = z + 18446744073709551616)%Z; [|lia]. symmetry. apply Z.mod_unique with (q := (-1)%Z); lia.
  - apply Z.mod_small. lia.
  - assert (z mod 18446744073709551616 = z + 18446744073709551616)%Z; [|lia]. symmetry. apply Z.mod_unique with (q := (-1)%Z); lia.
  - rewrite Z.mod_small in L by lia. lia.
Qed.
Lemma of_signed_0 z : is_int64 z -> of_signed z = 0%N -> z = 0%Z.
Proof. intros H E. rewrite <- (signed64 z H), E. reflexivity. Qed.

(** ** Messages *)
Lemma w_opt_ok k o : (0 < k)%N -> (k < 536870912)%N -> Forall field_ok (w_opt k o).
Proof. intros. destruct o; repeat constructor; cbn; try lia. apply of_signed_lt. Qed.
Lemma w_int64_ok k n : (0 < k)%N -> (k < 536870912)%N -> (n < 18446744073709551616)%N -> Forall field_ok (w_int k n).
Proof. unfold w_int. intros. destruct (n =? 0)%N; repeat constructor; cbn; lia. Qed.

Definition mo_ok (m : mount_options) : Prop :=
  match mo_uid m with Some z => is_int z | None => True end /\ match mo_gid m with Some z => is_int z | None => True end /\ is_int64 (mo_idle m).
Lemma mo_fields_ok m : Forall field_ok (mo_fields m).
Proof.
  unfold mo_fields. rewrite !Forall_app.
  repeat split; try (apply w_bool_ok; lia); try (apply w_opt_ok; lia). apply w_int64_ok; try lia. apply of_signed_lt.
Qed.
Lemma fold_w_opt {A} (step : A -> field -> option A) (set : option Z -> A) k o a :
  (o = None -> set o = a) -> (forall z, o = Some z -> step a (k, VInt (of_signed z)) = Some (set o)) ->
  ofold step (w_opt k o) a = Some (set o).
Proof. intros H0 H. destruct o as [z|]; cbn; [rewrite (H z eq_refl); reflexivity|rewrite (H0 eq_refl); reflexivity]. Qed.
Lemma mo_rt m : mo_ok m -> embedded mo_step (enc_fields (mo_fields m)) mo0 = Some m.
Proof.
  intros (Hu & Hg & Hi). unfold embedded. rewrite parse_message_ok by apply mo_fields_ok. unfold mo_fields.
  destruct m as [r d u g x c n p s i]. cbn [mo_read_only mo_disable_verification mo_uid mo_gid mo_xattr mo_case_fold mo_nfc mo_plain mo_sensitive mo_idle] in *.
  unfold mo0. rewrite !ofold_app.
  rewrite (fold_w_bool mo_step (fun b => mkMo b false None None false false false false false 0)); [|intros ->; reflexivity|reflexivity].
  cbv beta iota. rewrite ?ofold_app.
  rewrite (fold_w_bool mo_step (fun b => mkMo r b None None false false false false false 0)); [|intros ->; reflexivity|reflexivity].
  cbv beta iota. rewrite ?ofold_app.
  rewrite (fold_w_opt mo_step (fun b => mkMo r d b None false false false false false 0));
    [|intros ->; reflexivity|intros z ->; cbn; rewrite signed32 by exact Hu; reflexivity].
  cbv beta iota. rewrite ?ofold_app.
  rewrite (fold_w_opt mo_step (fun b => mkMo r d u b false false false false false 0));
    [|intros ->; reflexivity|intros z ->; cbn; rewrite signed32 by exact Hg; reflexivity].
  cbv beta iota. rewrite ?ofold_app.
  rewrite (fold_w_bool mo_step (fun b => mkMo r d u g b false false false false 0)); [|intros ->; reflexivity|reflexivity].
  cbv beta iota. rewrite ?ofold_app.
  rewrite (fold_w_bool mo_step (fun b => mkMo r d u g x b false false false 0)); [|intros ->; reflexivity|reflexivity].
  cbv beta iota. rewrite ?ofold_app.
  rewrite (fold_w_bool mo_step (fun b => mkMo r d u g x c b false false 0)); [|intros ->; reflexivity|reflexivity].
  cbv beta iota. rewrite ?ofold_app.
  rewrite (fold_w_bool mo_step (fun b => mkMo r d u g x c n b false 0)); [|intros ->; reflexivity|reflexivity].
  cbv beta iota. rewrite ?ofold_app.
  rewrite (fold_w_bool mo_step (fun b => mkMo r d u g x c n p b 0)); [|intros ->; reflexivity|reflexivity].
  cbv beta iota. rewrite ?ofold_app.
  rewrite (fold_w_int mo_step (fun b => mkMo r d u g x c n p s i)); [reflexivity| |cbn; rewrite signed64 by exact Hi; reflexivity].
  intros E. rewrite (of_signed_0 i Hi E). reflexivity.
Qed.

Definition bl_ok (b : background_logging) : Prop :=
  match bl_handle b with Some z => is_int64 z | None => True end /\ match bl_level b with Some z => is_int z | None => True end.
Lemma bl_fields_ok b : Forall field_ok (bl_fields b).
Proof. unfold bl_fields. rewrite Forall_app. split; apply w_opt_ok; lia. Qed.
Lemma bl_rt b : bl_ok b -> embedded bl_step (enc_fields (bl_fields b)) bl0 = Some b.
Proof.
  intros (Hh & Hl). unfold embedded. rewrite parse_message_ok by apply bl_fields_ok. unfold bl_fields, bl0. destruct b as [h l]. cbn [bl_handle bl_level] in *.
  rewrite ofold_app.
  rewrite (fold_w_opt bl_step (fun x => mkBl x None)); [|intros ->; reflexivity|intros z ->; cbn; rewrite signed64 by exact Hh; reflexivity].
  rewrite (fold_w_opt bl_step (fun x => mkBl h x)); [reflexivity|intros ->; reflexivity|intros z ->; cbn; rewrite signed32 by exact Hl; reflexivity].
Qed.

(** Lengths of written fields. *)
Lemma enc_varint_len n : (length (enc_varint n) <= 10)%nat.
Proof.
  unfold enc_varint. generalize 10%nat. intros f. revert n. induction f as [|f IH]; intros n; cbn [enc_varint_]; [cbn; lia|].
  destruct (n <? 128)%N; cbn [length]; [lia|]. specialize (IH (n / 128)%N). lia.
Qed.
Lemma enc_fields_small fs : Forall (fun f => match snd f with VInt _ => True | _ => False end) fs -> (length (enc_fields fs) <= 20 * length fs)%nat.
Proof.
  induction 1 as [|[k v] fs Hv H IH]; [cbn; lia|]. change (enc_fields ((k, v) :: fs)) with (enc_field (k, v) ++ enc_fields fs).
  rewrite app_length. cbn [length snd] in *. destruct v as [n| | | |]; try contradiction. cbn [enc_field]. rewrite app_length.
  pose proof (enc_varint_len (k * 8)). pose proof (enc_varint_len n). lia.
Qed.
Lemma mo_small m : bytes_ok (enc_fields (mo_fields m)).
Proof.
  unfold bytes_ok, max_len. assert (L : (length (enc_fields (mo_fields m)) <= 20 * length (mo_fields m))%nat).
  { apply enc_fields_small. unfold mo_fields, w_bool, w_opt, w_int. rewrite !Forall_app.
    repeat split; match goal with |- Forall _ (if ?b then _ else _) => destruct b | |- Forall _ (match ?o with Some _ => _ | None => _ end) => destruct o end;
      repeat constructor. }
  assert (length (mo_fields m) <= 10)%nat.
  { unfold mo_fields, w_bool, w_opt, w_int. rewrite !app_length. destruct m as [r d u g x c n p s i]; cbn [mo_read_only mo_disable_verification mo_uid mo_gid mo_xattr mo_case_fold mo_nfc mo_plain mo_sensitive mo_idle].
    destruct r, d, u, g, x, c, n, p, s, (of_signed i =? 0)%N; cbn; lia. }
  lia.
Qed.
Lemma bl_small m : bytes_ok (enc_fields (bl_fields m)).
Proof.
  unfold bytes_ok, max_len. assert (L : (length (enc_fields (bl_fields m)) <= 20 * length (bl_fields m))%nat).
  { apply enc_fields_small. unfold bl_fields, w_opt. rewrite !Forall_app. destruct m as [[h|] [l|]]; repeat constructor. }
  assert (length (bl_fields m) <= 2)%nat; [|lia]. unfold bl_fields, w_opt. destruct m as [[h|] [l|]]; cbn [bl_handle bl_level app length]; lia.
Qed.

Lemma embedded_dec p : dec_ok p -> embedded dec_step (enc_fields (dec_fields p)) dec0 = Some p.
Proof.
  intros H. pose proof (parse_ser_dec p H) as Q. unfold parse_dec, ser_dec in Q. unfold embedded.
  rewrite parse_message_ok in * by now apply dec_fields_ok. exact Q.
Qed.

Definition text_ok (b : bytes) : Prop := valid_utf8 b = true /\ bytes_ok b.
Lemma args_fold args : Forall text_ok args -> forall p o a dir l,
  ofold md_step (map (fun a => (3%N, VLen a)) args) (mkMd p o a dir l) = Some (mkMd p o (a ++ args) dir l).
Proof.
  induction 1 as [|x args [Hx _] H IH]; intros p o a dir l; cbn [map ofold]; [rewrite app_nil_r; reflexivity|].
  cbn [md_step]. rewrite Hx. rewrite IH, <- app_assoc. reflexivity.
Qed.

Lemma parse_ser_md d :
  match md_params d with Some p => dec_ok p /\ bytes_ok (ser_dec p) | None => True end ->
  match md_options d with Some m => mo_ok m | None => True end ->
  Forall text_ok (md_args d) -> text_ok (md_dir d) ->
  match md_logging d with Some b => bl_ok b | None => True end ->
  parse_md (ser_md d) = Some d.
Proof.
  intros Hp Hm Ha Hd Hl. unfold parse_md, ser_md. rewrite parse_message_ok.
  - unfold md_fields. destruct d as [p m a dir l]. cbn [md_params md_options md_args md_dir md_logging] in *.
    assert (E1 : ofold md_step (w_msg 1 dec_fields p) md0 = Some (mkMd p None [] [] None)).
    { destruct p as [p|]; [|reflexivity]. cbn [w_msg ofold md_step md0]. rewrite embedded_dec by tauto. reflexivity. }
    rewrite ofold_app. rewrite E1, ofold_app.
    assert (E2 : ofold md_step (w_msg 2 mo_fields m) (mkMd p None [] [] None) = Some (mkMd p m [] [] None)).
    { destruct m as [m|]; [|reflexivity]. cbn [w_msg ofold md_step]. rewrite mo_rt by exact Hm. reflexivity. }
    rewrite E2, ofold_app, args_fold by exact Ha. cbn [app]. rewrite ofold_app.
    rewrite (fold_w_bytes md_step (fun x => mkMd p m a x None)); [|intros ->; reflexivity|cbn; rewrite (proj1 Hd); reflexivity].
    destruct l as [l|]; [|reflexivity]. cbn [w_msg ofold md_step]. rewrite bl_rt by exact Hl. reflexivity.
  - unfold md_fields. rewrite !Forall_app. repeat split.
    + destruct (md_params d) as [p|]; repeat constructor; cbn; try lia. apply Hp.
    + destruct (md_options d) as [m|]; repeat constructor; cbn; try lia. apply mo_small.
    + induction Ha as [|x l [_ Hx] _ IH]; cbn [map]; constructor; [|exact IH]. repeat split; cbn; try lia. exact Hx.
    + apply w_bytes_ok; try lia. apply Hd.
    + destruct (md_logging d) as [b|]; repeat constructor; cbn; try lia. apply bl_small.
Qed.

(** ** The command line *)
Lemma short_ok b : short_text b -> text_ok b.
Proof. intros [H L]. split; [apply text_valid; exact H|unfold bytes_ok, max_len; lia]. Qed.
Lemma short_app a b : short_text b -> Forall (fun b => (b2n b < 128)%N) a -> (length a < 1000)%nat -> text_ok (a ++ b).
Proof. intros [H L] Ha La. split; [apply text_valid, text_app; [apply ascii_text; exact Ha|exact H]|unfold bytes_ok, max_len; rewrite app_length; lia]. Qed.
Lemma const_ok s : Forall (fun b => (b2n b < 128)%N) s -> (length s < 1000)%nat -> text_ok s.
Proof. intros H L. split; [apply text_valid, ascii_text; exact H|unfold bytes_ok, max_len; lia]. Qed.

Definition asciib (s : bytes) : bool := forallb (fun b => (b2n b <? 128)%N) s.
Lemma asciib_ok s : asciib s = true -> Forall (fun b => (b2n b < 128)%N) s.
Proof. unfold asciib. rewrite forallb_forall. intros H. apply Forall_forall. intros x Hx. apply N.ltb_lt, H, Hx. Qed.

Lemma args_ok dec c ui : plain_cmdline c -> (forall z, short_text (dec z)) -> Forall text_ok (build_args dec c ui).
Proof.
  intros (H1 & H2 & H3 & H4 & H5 & H6 & _) Hd.
  assert (K : forall s, asciib s && (length s <? 1000)%nat = true -> text_ok s).
  { intros s E. apply andb_prop in E as [E1 E2]. apply const_ok; [apply asciib_ok; exact E1|apply Nat.ltb_lt; exact E2]. }
  assert (P : forall a b, asciib a && (length a <? 1000)%nat = true -> short_text b -> text_ok (a ++ b)).
  { intros a b E Hb. apply andb_prop in E as [E1 E2]. apply short_app; [exact Hb|apply asciib_ok; exact E1|apply Nat.ltb_lt; exact E2]. }
  unfold build_args. cbv zeta. constructor; [apply short_ok; exact H1|].
  rewrite !Forall_app.
  assert (F : Forall text_ok (flat_map (fun x => [str "-o"; x]) (cl_opts c))).
  { induction H4 as [|x l Hx _ IH]; cbn [flat_map app]; [constructor|]. constructor; [apply K; reflexivity|]. constructor; [apply short_ok; exact Hx|exact IH]. }
  destruct (cl_single c), ui; repeat split; repeat constructor;
    try (apply K; reflexivity); try (apply P; [reflexivity|]); try (apply short_ok); auto.
Qed.

Lemma options_ok_mo e c : plain_cmdline c -> mo_ok (build_options e c).
Proof.
  intros (_ & _ & _ & _ & _ & _ & Hu & Hg & Hi). unfold mo_ok, build_options. cbn [mo_uid mo_gid mo_idle].
  destruct (cl_uid c =? -1)%Z, (cl_gid c =? -1)%Z; auto.
Qed.

(** A mount that does not go into the background. *)
Lemma mount_foreground e dec handle p c :
  mount e dec handle p (in_background false c) =
  rbind (should_use_ino e c) (fun ui =>
  rbind (make_fs p (build_options e c)) (fun fs =>
  Ok (mkServing fs (if (0 <? cl_idle c)%Z then Some (cl_idle c) else None) (cl_sensitive c) (build_args dec c ui) (cl_dir c)
        (negb (cl_noflock c)) (Some (handle, cmd_level c))))).
Proof.
  unfold mount, build. change (should_use_ino e (in_background false c)) with (should_use_ino e c).
  destruct (should_use_ino e c) as [ui|err]; [|reflexivity]. cbn [rbind].
  change (cl_background (in_background false c)) with false. cbv iota. unfold internal_mount.
  cbn [md_options md_params md_logging md_args md_dir]. change (build_options e (in_background false c)) with (build_options e c).
  destruct (make_fs p (build_options e c)) as [fs|err]; reflexivity.
Qed.
Lemma mount_background e dec handle p c :
  plain_cmdline c -> (forall z, short_text (dec z)) -> is_int64 handle -> storable p ->
  mount e dec handle p (in_background true c) =
  rbind (should_use_ino e c) (fun ui =>
  rbind (make_fs p (build_options e c)) (fun fs =>
  Ok (mkServing fs (if (0 <? cl_idle c)%Z then Some (cl_idle c) else None) (cl_sensitive c) (build_args dec c ui) (cl_dir c)
        true (Some (handle, cmd_level c))))).
Proof.
  intros Hc Hd Hh Hp. unfold mount, build. change (should_use_ino e (in_background true c)) with (should_use_ino e c).
  destruct (should_use_ino e c) as [ui|err]; [|reflexivity]. cbn [rbind].
  change (cl_background (in_background true c)) with true. cbv iota.
  rewrite parse_ser_md; cbn [md_options md_params md_logging md_args md_dir].
  - unfold internal_mount. cbn [md_options md_params md_logging md_args md_dir bl_handle bl_level].
    change (build_options e (in_background true c)) with (build_options e c).
    destruct (make_fs p (build_options e c)) as [fs|err]; [|reflexivity]. cbn [rbind]. unfold cmd_level. cbn [cl_trace cl_verbose in_background].
    destruct (cl_trace c); [reflexivity|]. destruct (cl_verbose c); reflexivity.
  - split; [apply storable_ok; exact Hp|apply ser_dec_len, storable_weak; exact Hp].
  - apply (options_ok_mo e (in_background true c)). exact Hc.
  - apply (args_ok dec (in_background true c) ui Hc Hd).
  - apply short_ok. apply Hc.
  - split; [exact Hh|]. cbn [bl_level]. destruct (cl_trace (in_background true c)); [unfold is_int; lia|]. destruct (cl_verbose (in_background true c)); [unfold is_int; lia|exact I].
Qed.
Lemma mount_is e dec handle p c : mount e dec handle p c = mount e dec handle p (in_background (cl_background c) c).
Proof. destruct c; reflexivity. Qed.
