(** C36 and C37: extended attributes. *)
From Coq Require Import Strings.String.
From Verif Require Import Base BaseLemmas TextModel TextProofs CryptoModel LiteModel NameModel LongNameModel
  XattrModel XattrSpec XattrProofs XattrTop Toy PropertiesNames.
Local Open Scope list_scope.

(** hex digits as the text code of the examples *)
Definition ex_unhex (s : bytes) : option bytes := match parse_hex s with Ok l => Some l | Err _ => None end.
Lemma ex_code : text_code hexify ex_unhex.
Proof.
  split; intros x.
  - unfold ex_unhex. rewrite parse_hexify. reflexivity.
  - intros H. pose proof (hexify_digits x) as HF. rewrite Forall_forall in HF. apply HF in H. unfold is_hex_digit in H.
    vm_compute in H. intuition discriminate.
Qed.
Definition ex_xaead : aead := toy_aead ([], [], []).
Definition iv12 : bytes := repeat x01 12.
Definition iv16 : bytes := repeat x02 16.
Definition ex_xwrap := wrap_name ex_cmac ex_ks hexify.

(** C36, lite format.  The attributes of a file, set, replaced, read, listed and
    removed in any order, answer as the same attributes stored in plain text on the
    host would: same values, same sizes, same error codes, whatever the host refuses
    and whatever attributes others have put on the stored file.  Calls covered:
    [lite_fits]. *)
Theorem C36_lite_as_plain :
  forall cmac keystream blake, sizes_ok cmac keystream blake ->
  forall b64 unb64, text_code b64 unb64 ->
  forall A, aead_ok A ->
  forall key iv_size verify ops before,
    all_foreign (unwrap_name cmac keystream unb64) before ->
    fits_run (lite_fits iv_size) ops [] ->
    map seen (snd (lite_xrun cmac keystream b64 unb64 A key iv_size verify ops before)) =
    map seen (snd (plain_xrun ops [])).
Proof.
  intros cmac ks blake [Hc [Hk _]] b64 unb64 code A HA key iv_size verify ops before Hf Hr.
  exact (lite_as_plain cmac ks Hc Hk b64 unb64 code A HA key iv_size verify ops before Hf Hr).
Qed.
Print Assumptions C36_lite_as_plain.

Definition ex_xops : list xop :=
  [XSet (str "user.a") (str "first") XAny iv12 None None; XSet (str "user.bb") (str "second") XCreate iv12 None None;
   XSet (str "user.a") (str "x") XCreate iv12 None None; XSet (str "user.c") (str "x") XReplace iv12 None None;
   XGet (str "user.a") (Some 5) None None; XGet (str "user.a") (Some 4) None None; XGet (str "user.bb") None None None;
   XGet (str "user.c") (Some 9) None None; XSet (str "user.a") (str "other") XReplace iv12 None None;
   XGet (str "user.a") (Some 5) None None; XList None None; XList (Some 40) None; XList (Some 14) None;
   XRemove (str "user.a") None None; XGet (str "user.a") None None None; XList (Some 8) None].
Definition ex_before : hx := [(str "user.mime_type", str "text"); (str "security.x", str "1"); (str "user.0123", str "")].
Lemma xname_dec n : match n with [] => false | _ => forallb (fun c => negb (Byte.eqb c x00)) n end = true -> xname n.
Proof.
  intros H. split; [intros ->; discriminate|]. intros Hi. destruct n as [|c n]; [discriminate|].
  rewrite forallb_forall in H. apply H in Hi. vm_compute in Hi. discriminate.
Qed.
Example C36_lite_example :
  all_foreign (unwrap_name ex_cmac ex_ks ex_unhex) ex_before /\ fits_run (lite_fits 12) ex_xops [] /\
  map seen (snd (lite_xrun ex_cmac ex_ks hexify ex_unhex ex_xaead [] 12 true ex_xops ex_before)) =
  [Ok (0, []); Ok (0, []); Err EEXIST; Err ENODATA; Ok (5, str "first"); Err ETOOSMALL; Ok (6, []); Err ENODATA; Ok (0, []);
   Ok (5, str "other"); Ok (15, []); Ok (15, str "user.a" ++ x00 :: str "user.bb" ++ [x00]); Err ETOOSMALL; Ok (0, []); Err ENODATA;
   Ok (8, str "user.bb" ++ [x00])].
Proof.
  split; [|split].
  - intros w x H. repeat (destruct H as [H|H]; [injection H as <- <-; split; [vm_compute; reflexivity|vm_compute; intuition discriminate]|]). destruct H.
  - cbn [fits_run ex_xops lite_fits].
    repeat match goal with
    | |- _ /\ _ => split
    | |- True => exact I
    | |- xname _ => apply xname_dec; vm_compute; reflexivity
    | |- forall sz, Some _ = Some sz -> _ => intros sz [= <-]; split; [discriminate|intros v Hv; vm_compute in Hv; try discriminate Hv; injection Hv as <-; vm_compute; lia]
    | |- forall sz, None = Some sz -> _ => intros sz Hz; discriminate Hz
    | |- _ <> [] => discriminate
    | |- _ = _ => reflexivity
    end.
  - vm_compute. reflexivity.
Qed.

(** The restriction on reading is needed: with a buffer larger than the value the
    lite format fails, because it has the cipher check the whole buffer. *)
Theorem C36_lite_larger_buffer_refuted :
  ~ (forall A, aead_ok A -> forall v sz, length v <= sz -> v <> [] ->
     let h := fst (lite_setx ex_cmac ex_ks hexify A [] (str "user.a") v XAny iv12 None []) in
     seen (lite_getx ex_cmac ex_ks hexify A [] 12 true (str "user.a") (Some sz) None h) = Ok (length v, v)).
Proof.
  intros H. specialize (H ex_xaead (toy_aead_ok _) (str "first") 6). cbv zeta in H.
  assert (H6 : length (str "first") <= 6) by (vm_compute; lia). assert (H0 : str "first" <> []) by discriminate.
  specialize (H H6 H0). vm_compute in H. discriminate H.
Qed.
Print Assumptions C36_lite_larger_buffer_refuted.

(** And so is the one on setting: setting the empty value leaves the old one. *)
Theorem C36_lite_empty_value_refuted :
  ~ (forall v, let h := fst (lite_setx ex_cmac ex_ks hexify ex_xaead [] (str "user.a") (str "old") XAny iv12 None []) in
     let '(h', r) := lite_setx ex_cmac ex_ks hexify ex_xaead [] (str "user.a") v XAny iv12 None h in
     r = Ok tt -> lite_getx ex_cmac ex_ks hexify ex_xaead [] 12 true (str "user.a") None None h' = Ok (length v, [])).
Proof. intros H. specialize (H []). cbv zeta in H. vm_compute in H. specialize (H eq_refl). discriminate H. Qed.
Print Assumptions C36_lite_empty_value_refuted.

(** C36, full format: the same, for calls that meet [full_fits]; buffers of any size
    above 0 and empty values included. *)
Theorem C36_full_as_plain :
  forall cmac keystream blake, sizes_ok cmac keystream blake ->
  forall b64 unb64, text_code b64 unb64 ->
  forall A, aead_ok A ->
  forall key id check ops before,
    all_foreign (unwrap_name cmac keystream unb64) (fx_data before) ->
    all_foreign (unwrap_name cmac keystream unb64) (fx_meta before) ->
    fits_run full_fits ops [] ->
    map seen (snd (full_xrun cmac keystream b64 unb64 A key id check ops before)) =
    map seen (snd (plain_xrun ops [])).
Proof.
  intros cmac ks blake [Hc [Hk _]] b64 unb64 code A HA key id check ops before H1 H2 Hr.
  exact (full_as_plain cmac ks Hc Hk b64 unb64 code A HA key id check ops before H1 H2 Hr).
Qed.
Print Assumptions C36_full_as_plain.

Definition ex_fops : list xop :=
  [XSet (str "user.a") (str "first") XAny iv16 None None; XSet (str "user.bb") [] XCreate iv16 None None;
   XSet (str "user.a") (str "x") XCreate iv16 None None; XGet (str "user.a") (Some 500) None None; XGet (str "user.a") (Some 4) None None;
   XGet (str "user.bb") (Some 1) None None; XSet (str "user.a") (str "other") XReplace iv16 (Some (EPosix 28)) None;
   XGet (str "user.a") (Some 5) None None; XList (Some 40) None; XRemove (str "user.a") None None; XGet (str "user.a") None None None].
Example C36_full_example :
  fits_run full_fits ex_fops [] /\
  map seen (snd (full_xrun ex_cmac ex_ks hexify ex_unhex ex_xaead [] (repeat x05 32) true ex_fops (mkFx ex_before []))) =
  [Ok (0, []); Ok (0, []); Err EEXIST; Ok (5, str "first"); Err ETOOSMALL; Ok (0, []); Err (EPosix 28); Ok (5, str "first");
   Ok (15, str "user.a" ++ x00 :: str "user.bb" ++ [x00]); Ok (0, []); Err ENODATA].
Proof.
  split.
  - cbn [fits_run ex_fops full_fits].
    repeat match goal with
    | |- _ /\ _ => split
    | |- True => exact I
    | |- xname _ => apply xname_dec; vm_compute; reflexivity
    | |- _ <> _ => discriminate
    | |- _ = _ => reflexivity
    end.
  - vm_compute. reflexivity.
Qed.

(** Setting is not all-or-nothing: when the host takes the value but refuses the
    IV and MAC, the call fails and the old value is lost. *)
Theorem C36_full_failed_set_refuted :
  ~ (forall v w bad bad2 e,
     let set := fun v bad bad2 iv s => full_setx ex_cmac ex_ks hexify (toy_aead (iv16, repeat x05 32 ++ ex_xwrap (str "user.a"), str "old"))
                  [] (repeat x05 32) (str "user.a") v XAny iv bad bad2 s in
     let get := full_getx ex_cmac ex_ks hexify (toy_aead (iv16, repeat x05 32 ++ ex_xwrap (str "user.a"), str "old"))
                  [] (repeat x05 32) true (str "user.a") (Some 10) None None in
     let s := fst (set v None None iv16 (mkFx [] [])) in
     snd (set w bad bad2 iv16 s) = Err e -> get (fst (set w bad bad2 iv16 s)) = get s).
Proof.
  intros H. specialize (H (str "old") (str "new") None (Some (EPosix 28)) (EPosix 28)). cbv zeta in H.
  vm_compute in H. specialize (H eq_refl). discriminate H.
Qed.
Print Assumptions C36_full_failed_set_refuted.

(** A buffer of 0 bytes that is not null is overrun (FUSE passes none). *)
Theorem C36_full_zero_buffer_refuted :
  ~ (forall v size, let s := fst (full_setx ex_cmac ex_ks hexify ex_xaead [] (repeat x05 32) (str "user.a") v XAny iv16 None None (mkFx [] [])) in
     full_getx ex_cmac ex_ks hexify ex_xaead [] (repeat x05 32) true (str "user.a") size None None s <> Err EUndef).
Proof. intros H. specialize (H (str "v") (Some 0)). cbv zeta in H. apply H. vm_compute. reflexivity. Qed.
Print Assumptions C36_full_zero_buffer_refuted.

(** C36, tampering, full format.  Whatever an attacker has put into the attributes
    of the stored files [s] short of a forgery, a value that is returned was set on
    this very file under this very name. *)
Theorem C36_full_value_was_set :
  forall cmac keystream blake, sizes_ok cmac keystream blake ->
  forall b64 unb64, text_code b64 unb64 ->
  forall A, aead_ok A ->
  forall key id made s name size bad bad2 k value,
    (forall i n iv v, In (i, n, iv, v) made -> length i = length id) ->
    full_xattr_not_forged A key (wrap_name cmac keystream b64) made s ->
    full_getx cmac keystream b64 A key id true name (Some (S size)) bad bad2 s = Ok (k, value) ->
    k = length value /\ exists iv, In (id, name, iv, value) made.
Proof.
  intros cmac ks blake [Hc [Hk _]] b64 unb64 code A HA key id made s name size bad bad2 k value.
  exact (full_get_made cmac ks b64 unb64 A key id made s name size bad bad2 k value Hc Hk code HA).
Qed.
Print Assumptions C36_full_value_was_set.

Definition ex_mv : aead := toy_aead (iv16, repeat x05 32 ++ ex_xwrap (str "user.a"), str "value").
Definition ex_made : xattr_log := [(repeat x05 32, str "user.a", iv16, str "value")].
(** The attribute copied to another name: reported; the original: returned. *)
Definition ex_moved : fx :=
  mkFx [(ex_xwrap (str "user.a"), str "value"); (ex_xwrap (str "user.b"), str "value")]
       [(ex_xwrap (str "user.a"), iv16 ++ repeat xaa 16); (ex_xwrap (str "user.b"), iv16 ++ repeat xaa 16)].
Example C36_full_value_example :
  (forall i n iv v, In (i, n, iv, v) ex_made -> length i = length (repeat x05 32)) /\
  full_xattr_not_forged ex_mv [] (wrap_name ex_cmac ex_ks hexify) ex_made ex_moved /\
  full_getx ex_cmac ex_ks hexify ex_mv [] (repeat x05 32) true (str "user.a") (Some 20) None None ex_moved = Ok (5, str "value") /\
  full_getx ex_cmac ex_ks hexify ex_mv [] (repeat x05 32) true (str "user.b") (Some 20) None None ex_moved = Err EVerify /\
  full_getx ex_cmac ex_ks hexify ex_mv [] (repeat x06 32) true (str "user.a") (Some 20) None None ex_moved = Err EVerify.
Proof.
  split; [|split].
  - intros i n iv v [H|[]]. injection H as <- <- <- <-. reflexivity.
  - intros w w' ct meta aad p Hd Hm HD.
    assert (ct = str "value") as -> by (destruct Hd as [Hd|[Hd|[]]]; injection Hd as _ <-; reflexivity).
    assert (meta = iv16 ++ repeat xaa 16) as -> by (destruct Hm as [Hm|[Hm|[]]]; injection Hm as _ <-; reflexivity).
    change (firstn 16 (iv16 ++ repeat xaa 16)) with iv16 in *. change (skipn 16 (iv16 ++ repeat xaa 16)) with (repeat xaa 16) in *.
    pose proof (f_equal fst HD) as HT.
    change (bytes_eqb (repeat xaa 16) (toy_tag (iv16, repeat x05 32 ++ ex_xwrap (str "user.a"), str "value") iv16 aad (str "value")) = true) in HT.
    apply bytes_eqb_eq in HT.
    unfold toy_tag in HT. destruct (bytes_eqb iv16 iv16 && bytes_eqb aad (repeat x05 32 ++ ex_xwrap (str "user.a")) && bytes_eqb (str "value") (str "value"))%bool eqn:E; [|discriminate HT].
    apply andb_prop in E as [E _]. apply andb_prop in E as [_ E]. apply bytes_eqb_eq in E. subst aad.
    exists (repeat x05 32), (str "user.a"), (str "value"). split; [left; reflexivity|]. split; [reflexivity|vm_compute; reflexivity].
  - vm_compute. repeat split.
Qed.

(** A value whose record of IV and tag was cut short is refused with EIO (5), one whose
    record was made longer with ERANGE (34), also by a mount that does not verify. *)
Theorem C36_full_record_size :
  forall cmac keystream b64 A key id check s name size ct record,
    let w := wrap_name cmac keystream b64 name in
    ent w (fx_data s) = Some ct -> length ct <= S size -> ent w (fx_meta s) = Some record ->
    (length record < 32 -> full_getx cmac keystream b64 A key id check name (Some (S size)) None None s = Err (EPosix 5)) /\
    (32 < length record -> full_getx cmac keystream b64 A key id check name (Some (S size)) None None s = Err (EPosix 34)).
Proof.
  intros cmac ks b64 A key id check s name size ct record. cbv zeta. intros Hd Hs Hm. unfold full_getx, hx_get, XATTR_IV_LENGTH, XATTR_MAC_LENGTH.
  rewrite Hd, Hm. destruct (Nat.ltb_spec (S size) (length ct)) as [L|_]; [lia|]. cbn [rbind]. change (16 + 16) with 32. cbv iota.
  split; intros H; destruct (Nat.ltb_spec 32 (length record)); try lia; cbn [rbind]; [|reflexivity].
  destruct (Nat.eqb_spec (length record) 32); [lia|reflexivity].
Qed.
Print Assumptions C36_full_record_size.
Example C36_full_record_example :
  let cut := mkFx (fx_data ex_moved) [(ex_xwrap (str "user.a"), iv16)] in
  ent (ex_xwrap (str "user.a")) (fx_data cut) = Some (str "value") /\ ent (ex_xwrap (str "user.a")) (fx_meta cut) = Some iv16 /\
  full_getx ex_cmac ex_ks hexify ex_mv [] (repeat x05 32) true (str "user.a") (Some 20) None None cut = Err (EPosix 5).
Proof. vm_compute. repeat split. Qed.

(** Lite format: what is returned is, up to a cut at the end, a value that was set on
    some file under some name; which file and which name is not checked. *)
Theorem C36_lite_value_was_set_partial :
  forall cmac keystream b64 A, aead_ok A ->
  forall key iv_size made s name size bad k value,
    lite_xattr_not_forged A key iv_size made s ->
    (forall w x, In (w, x) s -> iv_size <= length x) ->
    lite_getx cmac keystream b64 A key iv_size true name (Some size) bad s = Ok (k, value) ->
    exists iv v, In (iv, v) made /\ value = firstn k v /\ length v = size.
Proof.
  intros cmac ks b64 A HA key iv_size made s name size bad k value NF HL H.
  exact (lite_get_made cmac ks b64 A key iv_size made s name size bad k value HA NF HL H).
Qed.
Print Assumptions C36_lite_value_was_set_partial.

(** The values of two names exchanged in the stored file: not noticed. *)
Theorem C36_lite_exchange_refuted :
  ~ (forall v w, v <> [] -> w <> [] ->
     let set := fun n v s => fst (lite_setx ex_cmac ex_ks hexify ex_xaead [] n v XAny iv12 None s) in
     forall x y, set (str "user.b") w (set (str "user.a") v []) = [(ex_xwrap (str "user.a"), x); (ex_xwrap (str "user.b"), y)] ->
     let tampered := [(ex_xwrap (str "user.a"), y); (ex_xwrap (str "user.b"), x)] in
     lite_getx ex_cmac ex_ks hexify ex_xaead [] 12 true (str "user.a") (Some (length w)) None tampered = Err EVerify).
Proof.
  intros H. assert (N1 : str "mine" <> []) by discriminate. assert (N2 : str "yours" <> []) by discriminate.
  specialize (H (str "mine") (str "yours") N1 N2). cbv zeta in H. vm_compute in H. specialize (H _ _ eq_refl). discriminate H.
Qed.
Print Assumptions C36_lite_exchange_refuted.

Example C36_lite_value_example :
  let A := toy_aead (iv12, [], str "value") in
  let s := [(ex_xwrap (str "user.a"), iv12 ++ str "value" ++ repeat xaa 16)] in
  lite_xattr_not_forged A [] 12 [(iv12, str "value")] s /\
  lite_getx ex_cmac ex_ks hexify A [] 12 true (str "user.a") (Some 5) None s = Ok (5, str "value").
Proof.
  cbv zeta. split; [|vm_compute; reflexivity].
  intros w x k ct mac p [H|[]] HS HD. injection H as _ <-.
  change (firstn 12 (iv12 ++ str "value" ++ repeat xaa 16)) with iv12 in *.
  assert (HS' : (str "value" ++ repeat xaa 16) ++ repeat x00 k = ct ++ mac) by exact HS. clear HS.
  pose proof (f_equal fst HD) as HT. change (bytes_eqb mac (toy_tag (iv12, [], str "value") iv12 [] ct) = true) in HT.
  apply bytes_eqb_eq in HT.
  exists (str "value"). split; [left; reflexivity|]. cbn [toy_aead a_enc].
  unfold toy_tag in HT. destruct (bytes_eqb iv12 iv12 && bytes_eqb [] [] && bytes_eqb ct (str "value"))%bool eqn:E.
  - apply andb_prop in E as [_ E]. apply bytes_eqb_eq in E. subst ct mac. reflexivity.
  - exfalso. subst mac.
    assert (Hin : In xbb (str "value" ++ repeat xaa 16 ++ repeat x00 k)).
    { rewrite app_assoc, HS'. apply in_or_app. right. left. reflexivity. }
    apply in_app_or in Hin as [Hin|Hin]; [vm_compute in Hin; intuition discriminate|].
    apply in_app_or in Hin as [Hin|Hin]; apply repeat_spec in Hin; discriminate.
Qed.

(** C37.  Listing, for every list of stored names (own, foreign, not decodable) that
    the second call to the host reports, and every buffer: the exact size without a
    buffer, ERANGE if the buffer is too small, otherwise the names, each with its NUL,
    in order; the rest of the buffer is cleared. *)
Theorem C37_listing_protocol :
  forall cmac keystream blake, sizes_ok cmac keystream blake ->
  forall b64 unb64, text_code b64 unb64 ->
  forall stored shown first second size,
    Forall2 (xshown (siv_box cmac keystream) b64 unb64) stored shown ->
    Forall (fun w => ~ In x00 w) stored -> stored <> [] -> first <> 0 ->
    second first = Ok (length (nul_joined stored), nul_joined stored) ->
    wrapped_listxattr cmac keystream unb64 (Ok first) second size = list_protocol (concat shown) size.
Proof.
  intros cmac ks blake [Hc [Hk _]] b64 unb64 code stored shown first second size HS HN H0 Hf H2.
  assert (J : nul_joined stored = joined stored) by (unfold nul_joined, joined; symmetry; apply flat_map_concat_map). rewrite J in H2.
  rewrite (wrapped_list_gen cmac ks unb64 stored first second size HN Hf H0 H2).
  rewrite (readable_shown cmac ks Hc Hk b64 unb64 code stored shown HS). reflexivity.
Qed.
Print Assumptions C37_listing_protocol.

Example C37_example :
  let stored := [str "security.selinux"; ex_xwrap (str "user.a"); str "user.mime_type"; ex_xwrap (str "user.bb")] in
  let shown := [[]; [str "user.a"]; []; [str "user.bb"]] in
  Forall2 (xshown (siv_box ex_cmac ex_ks) hexify ex_unhex) stored shown /\
  list_protocol (concat shown) (Some 17) = Ok (15, str "user.a" ++ x00 :: str "user.bb" ++ [x00; x00; x00]) /\
  list_protocol (concat shown) (Some 14) = Err ETOOSMALL.
Proof.
  cbv zeta. split; [|split; vm_compute; reflexivity].
  constructor; [|constructor; [|constructor; [|constructor; [|constructor]]]].
  - apply xshown_other_space. intros s H. discriminate H.
  - apply (xshown_set (siv_box ex_cmac ex_ks) hexify ex_unhex (str "user.a")). discriminate.
  - apply (xshown_not_text (siv_box ex_cmac ex_ks) hexify ex_unhex (str "mime_type")). vm_compute. reflexivity.
  - apply (xshown_set (siv_box ex_cmac ex_ks) hexify ex_unhex (str "user.bb")). discriminate.
Qed.

(** Whatever the host answers, even a list that changed between the two calls or is
    no list at all: the buffer is written within its bounds or not at all. *)
Theorem C37_never_out_of_bounds :
  forall cmac keystream unb64 first second size,
    first <> Err EUndef -> (forall k, second k <> Err EUndef) ->
    wrapped_listxattr cmac keystream unb64 first second size <> Err EUndef /\
    (forall n buffer, wrapped_listxattr cmac keystream unb64 first second size = Ok (n, buffer) ->
     buffer = [] \/ exists sz, size = Some sz /\ length buffer = sz /\ n <= sz).
Proof.
  intros cmac ks unb64 first second size H1 H2. split.
  - exact (wrapped_no_undef cmac ks unb64 first second size H1 H2).
  - intros n buffer. exact (wrapped_bounds cmac ks unb64 first second size n buffer).
Qed.
Print Assumptions C37_never_out_of_bounds.
(** A host whose list grew between the two calls, to a buffer that is large enough, to
    one that is not, and a host that answers with something that is no list. *)
Example C37_bounds_example :
  let grown := ex_xwrap (str "user.a") ++ x00 :: ex_xwrap (str "user.bb") ++ [x00] in
  let list1 := wrapped_listxattr ex_cmac ex_ks ex_unhex (Ok 10) (fun _ => Ok (length grown, grown)) in
  list1 (Some 16) = Ok (15, str "user.a" ++ x00 :: str "user.bb" ++ [x00; x00]) /\
  list1 (Some 14) = Err ETOOSMALL /\
  wrapped_listxattr ex_cmac ex_ks ex_unhex (Ok 10) (fun _ => Ok (500, repeat x41 20)) (Some 3) = Ok (0, [x00; x00; x00]).
Proof. vm_compute. repeat split. Qed.
