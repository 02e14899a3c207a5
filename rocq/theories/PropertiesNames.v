(** Encrypted names, paths and link targets: C29 to C34 and C40. *)
From Coq Require Import Strings.String.
From Verif Require Import Base BaseLemmas TextModel CryptoModel NameModel NameSpec NameProofs NameTop.
Local Open Scope list_scope.

(** The cryptographic functions are arbitrary functions with the right output
    lengths: [cmac] and [keystream] are AES-CMAC and AES-CTR under the name key,
    [blake] the digest of long names. *)
Definition sizes_ok (cmac : bytes -> bytes) (keystream : bytes -> nat -> bytes) (blake : bytes -> bytes) : Prop :=
  (forall m, length (cmac m) = 16) /\ (forall iv n, length (keystream iv n) = n) /\ (forall m, length (blake m) = 32).

(** The suffix in force: an empty one in the configuration means "...". *)
Definition suffix_in_force (suffix : bytes) : bytes := match suffix with [] => str "..." | _ => suffix end.

(** Toy functions for the examples. *)
Definition ex_cmac (m : bytes) : bytes := firstn 16 (map (fun b => n2b (b2n b + 1)) m ++ zeros 16).
Definition ex_ks (iv : bytes) (n : nat) : bytes := repeat (nth 3 iv x00) n.
Definition ex_blake (m : bytes) : bytes := firstn 32 (rev m ++ zeros 32).
Lemma ex_sizes : sizes_ok ex_cmac ex_ks ex_blake.
Proof.
  split; [|split]; intros.
  - unfold ex_cmac. rewrite firstn_length, app_length, map_length, zeros_length. lia.
  - apply repeat_length.
  - unfold ex_blake. rewrite firstn_length, app_length, rev_length, zeros_length. lia.
Qed.
Definition ex_tr := make_translator ex_cmac ex_ks ex_blake false 10 (str ".ll") None None.
Definition ex_old := make_translator ex_cmac ex_ks ex_blake false 0 [] None None.

Lemma ex_suffix : suffix_ok (suffix_in_force (str ".ll")).
Proof.
  split; [exists dot; split; [left; reflexivity|]|split].
  - vm_compute. intros H. repeat (destruct H as [H|H]; [discriminate|]). destruct H.
  - vm_compute. intros H. repeat (destruct H as [H|H]; [discriminate|]). destruct H.
  - vm_compute. intros H. repeat (destruct H as [H|H]; [discriminate|]). destruct H.
Qed.

(** ** C29 *)

(** Listing a directory that holds the entry made for dir/name shows [name], for
    directly stored names and for long names whose table entry was recorded, in the
    old ([threshold = 0]) and the new naming. *)
Theorem C29_name_round_trip :
  forall cmac keystream blake, sizes_ok cmac keystream blake ->
  forall threshold suffix, (0 < threshold -> suffix_ok (suffix_in_force suffix)) ->
  let tr := make_translator cmac keystream blake false threshold suffix None None in
  forall dir name P l table before,
    name <> [] -> ~ In slash name ->
    t_encrypt tr (dir ++ slash :: name) = Ok (P, l) ->
    (l <> [] -> table (get_last_component P) = Ok l) ->
    list_names tr table [get_last_component P] before = [name].
Proof.
  intros cmac ks blake (H1 & H2 & H3) threshold suffix Hs tr dir name P l table before.
  exact (name_round_trip cmac ks blake H1 H2 H3 threshold suffix dir name P l table before Hs).
Qed.
Print Assumptions C29_name_round_trip.

(** Every path is accepted by the new naming, and every path whose components have
    at most 2000 bytes by the old one. *)
Theorem C29_names_are_accepted :
  forall cmac keystream blake, sizes_ok cmac keystream blake ->
  forall threshold suffix path,
    (0 < threshold \/ Forall (fun w => length w <= 2000) (split_slash path)) ->
    exists P l, t_encrypt (make_translator cmac keystream blake false threshold suffix None None) path = Ok (P, l).
Proof.
  intros cmac ks blake (H1 & H2 & H3) threshold suffix path H. destruct (Nat.eq_dec threshold 0) as [->|Ht].
  - destruct H as [H|H]; [lia|]. destruct (legacy_names_total cmac ks blake H1 H2 suffix path H) as (P & HP). eauto.
  - apply (new_names_total cmac ks blake H1 H2 H3 threshold suffix None None path). lia.
Qed.
Print Assumptions C29_names_are_accepted.

(** With Unicode normalisation on, dir/name is the entry of its normal form, and
    listings work as without. *)
Theorem C29_normalised_names :
  forall cmac keystream blake threshold suffix f g path n1 n2 P l,
  let tr := make_translator cmac keystream blake false threshold suffix None None in
  let trn := make_translator cmac keystream blake false threshold suffix (Some f) (Some g) in
    f path = Ok n1 -> g n1 = Ok n2 -> t_encrypt tr n2 = Ok (P, l) ->
    t_encrypt trn path = Ok (P, l) /\
    forall table us before, list_names trn table us before = list_names tr table us before.
Proof.
  intros cmac ks blake threshold suffix f g path n1 n2 P l tr trn.
  exact (normalised_as cmac ks blake threshold suffix f g path n1 n2 P l).
Qed.
Print Assumptions C29_normalised_names.

Example C29_example :
  let long := str "a rather long file name" in
  match t_encrypt ex_tr (str "/dir/short"), t_encrypt ex_tr (str "/dir" ++ slash :: long) with
  | Ok (P, l), Ok (P', l') =>
    l = [] /\ P <> str "/dir/short" /\ l' <> [] /\ length (get_last_component P') = 80 /\
    list_names ex_tr (fun u => if bytes_eqb u (get_last_component P') then Ok l' else Err (EPosix 2))
      [str "."; get_last_component P; str ".long_names.db"; get_last_component P'; str ".."] []
    = [str "."; str "short"; long; str ".."]
  | _, _ => False
  end.
Proof. vm_compute. repeat split; discriminate. Qed.

(** A suffix made of base32 characters defeats the round trip: a short name whose
    encryption happens to end with it disappears from listings. *)
Theorem C29_ambiguous_suffix_refuted :
  ~ (forall suffix, ~ In slash suffix -> ~ In x00 suffix -> suffix <> [] ->
     let tr := make_translator ex_cmac ex_ks ex_blake false 10 suffix None None in
     forall name P l, name <> [] -> ~ In slash name ->
       t_encrypt tr (slash :: name) = Ok (P, l) -> l = [] ->
       list_names tr (fun _ => Err (EPosix 2)) [get_last_component P] [] = [name]).
Proof.
  intros H. pose (suffix := str "A").
  specialize (H suffix).
  assert (Hs : forall s c, existsb (Byte.eqb c) s = false -> ~ In c s).
  { intros s c E Hi. assert (existsb (Byte.eqb c) s = true); [|congruence].
    apply existsb_exists. exists c. split; [exact Hi|apply byte_eqb_refl]. }
  specialize (H (Hs suffix slash eq_refl) (Hs suffix x00 eq_refl) ltac:(discriminate)).
  destruct (t_encrypt (make_translator ex_cmac ex_ks ex_blake false 10 suffix None None) (slash :: str "q")) as [[P l]|] eqn:E;
    [|vm_compute in E; discriminate].
  specialize (H (str "q") P l ltac:(discriminate) (Hs (str "q") slash eq_refl) E).
  vm_compute in E. injection E as <- <-. vm_compute in H. specialize (H eq_refl). discriminate.
Qed.
Print Assumptions C29_ambiguous_suffix_refuted.

(** ** C30 *)

(** Different absolute paths have different physical paths, even on a host that
    ignores letter case, unless two long names have the same digest. *)
Theorem C30_paths_never_collide :
  forall cmac keystream blake, sizes_ok cmac keystream blake ->
  forall threshold suffix, (0 < threshold -> suffix_ok (suffix_in_force suffix)) ->
  let tr := make_translator cmac keystream blake false threshold suffix None None in
  forall p q P Q l l',
    hd x00 p = slash -> hd x00 q = slash ->
    no_collision blake threshold (split_slash p ++ split_slash q) ->
    t_encrypt tr p = Ok (P, l) -> t_encrypt tr q = Ok (Q, l') ->
    to_lower P = to_lower Q -> p = q.
Proof.
  intros cmac ks blake (H1 & H2 & H3) threshold suffix Hs tr p q P Q l l'.
  exact (paths_injective cmac ks blake H1 H2 H3 threshold suffix p q P Q l l' Hs).
Qed.
Print Assumptions C30_paths_never_collide.

Theorem C30_plain_paths_never_collide :
  forall cmac keystream blake threshold suffix nfc fold p q P l l',
  let tr := make_translator cmac keystream blake true threshold suffix nfc fold in
    hd x00 p = slash -> hd x00 q = slash ->
    t_encrypt tr p = Ok (P, l) -> t_encrypt tr q = Ok (P, l') -> p = q.
Proof.
  intros cmac ks blake threshold suffix nfc fold p q P l l' tr Hp Hq E E'.
  exact (plain_paths_injective cmac ks blake threshold suffix nfc fold p q P P l l' Hp Hq E E' eq_refl).
Qed.
Print Assumptions C30_plain_paths_never_collide.

Example C30_example :
  let p := str "/d/one long name of a file" in let q := str "/d/two long name of a file" in
  no_collision ex_blake 10 (split_slash p ++ split_slash q) /\
  match t_encrypt ex_tr p, t_encrypt ex_tr q with
  | Ok (P, l), Ok (Q, l') => P <> Q /\ length P = length Q
  | _, _ => False
  end.
Proof.
  split.
  - intros a b Ha Hb La Lb E. vm_compute in Ha, Hb.
    repeat (destruct Ha as [Ha|Ha]; [try (subst a; cbn in La; lia)|]); try (destruct Ha);
    repeat (destruct Hb as [Hb|Hb]; [try (subst b; cbn in Lb; lia)|]); try (destruct Hb);
    subst; try reflexivity; vm_compute in E; discriminate.
  - vm_compute. repeat split; discriminate.
Qed.

(** ** C31 *)

(** The components of a physical path that are neither empty nor "." correspond one
    to one to the non-empty components of the virtual path, and each is an ordinary
    name; the physical path is relative unless the virtual one starts with two
    separators. *)
Theorem C31_encrypted_paths_stay_inside :
  forall cmac keystream blake, sizes_ok cmac keystream blake ->
  forall threshold suffix, (0 < threshold -> suffix_ok (suffix_in_force suffix)) ->
  let tr := make_translator cmac keystream blake false threshold suffix None None in
  forall p P l, hd x00 p = slash -> t_encrypt tr p = Ok (P, l) ->
    Forall2 (fun v c => safe_component c) (nonempty (split_slash p)) (steps P) /\
    (hd x00 (tl p) <> slash -> hd x00 P <> slash).
Proof.
  intros cmac ks blake (H1 & H2 & H3) threshold suffix Hs tr p P l Hp He.
  destruct (containment cmac ks blake H1 H2 H3 threshold suffix p P l Hs Hp He) as (HF & HR). split; [|exact HR].
  clear - HF. induction HF as [|a b x y Hab HF IH]; constructor; [exact (proj2 Hab)|exact IH].
Qed.
Print Assumptions C31_encrypted_paths_stay_inside.

Example C31_example :
  match t_encrypt ex_tr (str "/../a//.") with
  | Ok (P, l) => nonempty (split_slash (str "/../a//.")) = [str ".."; str "a"; str "."] /\ length (steps P) = 3 /\ hd x00 P = dot
  | _ => False
  end.
Proof. vm_compute. repeat split. Qed.

(** With the old naming a virtual path that starts with two separators becomes an
    absolute path of the host. *)
Theorem C31_double_separator_refuted :
  ~ (forall p P l, hd x00 p = slash -> t_encrypt ex_old p = Ok (P, l) -> hd x00 P <> slash).
Proof.
  intros H. destruct (t_encrypt ex_old (str "//etc")) as [[P l]|] eqn:E; [|vm_compute in E; discriminate].
  apply (H (str "//etc") P l eq_refl E). vm_compute in E. injection E as <- _. reflexivity.
Qed.
Print Assumptions C31_double_separator_refuted.

(** ** C32 *)

(** New naming: a link made with [target] reads back as [target] through any
    buffer that can hold it. *)
Theorem C32_new_link_round_trip :
  forall cmac keystream blake, sizes_ok cmac keystream blake ->
  forall threshold suffix, 0 < threshold ->
  let tr := make_translator cmac keystream blake false threshold suffix None None in
  forall target size, ~ In x00 target -> length target < size ->
    exists stored, t_link_enc tr target = Ok stored /\ ~ In x00 stored /\
      lite_readlink tr stored size = Ok target.
Proof.
  intros cmac ks blake (H1 & H2 & H3) threshold suffix Ht tr target size.
  exact (new_link_round_trip cmac ks blake H1 H2 H3 threshold suffix target size Ht).
Qed.
Print Assumptions C32_new_link_round_trip.

(** Old naming: the stored text, which can be much longer than the target, must fit
    in the intermediate buffer. *)
Theorem C32_old_link_round_trip :
  forall cmac keystream blake, sizes_ok cmac keystream blake ->
  forall suffix,
  let tr := make_translator cmac keystream blake false 0 suffix None None in
  forall target size, Forall (fun w => length w <= 2000) (split_slash target) ->
    ~ In x00 target -> length target < size ->
    exists stored, t_link_enc tr target = Ok stored /\ ~ In x00 stored /\
      (length stored <= size * 2 + 126 -> lite_readlink tr stored size = Ok target).
Proof.
  intros cmac ks blake (H1 & H2 & H3) suffix tr target size.
  exact (legacy_link_round_trip cmac ks blake H1 H2 suffix target size).
Qed.
Print Assumptions C32_old_link_round_trip.

Theorem C32_plain_link_round_trip :
  forall cmac keystream blake threshold suffix nfc fold target size,
  let tr := make_translator cmac keystream blake true threshold suffix nfc fold in
    ~ In x00 target -> length target < size ->
    t_link_enc tr target = Ok target /\ lite_readlink tr target size = Ok target.
Proof.
  intros cmac ks blake threshold suffix nfc fold target size tr.
  exact (plain_link_round_trip cmac ks blake threshold suffix nfc fold target size).
Qed.
Print Assumptions C32_plain_link_round_trip.

Example C32_example :
  let target := str "../some/where/far/away/and/some/more/text/so/that/there/are/two/pieces" in
  match t_link_enc ex_tr target, t_link_enc ex_old target with
  | Ok s, Ok s' =>
    length s = 140 /\ lite_readlink ex_tr s 4097 = Ok target /\
    length s' = 492 /\ lite_readlink ex_old s' 4097 = Ok target /\
    lite_readlink ex_tr (str "/Z" ++ skipn 2 s) 4097 = Err EVerify
  | _, _ => False
  end.
Proof. vm_compute. repeat split. Qed.

(** Whatever text is put in the place of a link, a non-empty answer is (a prefix of)
    a string whose authenticated encryption under the repository's name key is
    there, piece by piece in the old naming. *)
Theorem C32_new_link_tampering :
  forall cmac keystream blake, sizes_ok cmac keystream blake ->
  forall threshold suffix, 0 < threshold ->
  let tr := make_translator cmac keystream blake false threshold suffix None None in
  forall stored size answer,
    lite_readlink tr stored size = Ok answer -> answer <> [] ->
    exists full, answer = until_nul (firstn (size - 1) full) /\
      base32_decode (filter (fun c => negb (Byte.eqb c slash)) (until_nul (firstn (size * 2 + 126) stored)))
      = Ok (siv_box cmac keystream full).
Proof.
  intros cmac ks blake (H1 & H2 & H3) threshold suffix Ht tr stored size answer Hr Ha.
  destruct (new_link_sound cmac ks blake H1 H2 H3 threshold suffix stored size answer Ht Hr Ha) as (full & text & E1 & -> & E2).
  exists full. split; [exact E1|exact E2].
Qed.
Print Assumptions C32_new_link_tampering.

Theorem C32_old_link_tampering :
  forall cmac keystream blake, sizes_ok cmac keystream blake ->
  forall suffix,
  let tr := make_translator cmac keystream blake false 0 suffix None None in
  forall stored size answer,
    lite_readlink tr stored size = Ok answer -> answer <> [] ->
    let text := until_nul (firstn (size * 2 + 126) stored) in
    (text = [dot] /\ answer = [slash]) \/
    exists parts, answer = until_nul (firstn (size - 1) (join_slash parts)) /\
      Forall2 (fun u v => (u = [] /\ v = []) \/ (u <> [] /\ base32_decode u = Ok (siv_box cmac keystream v)))
        (split_slash text) parts.
Proof.
  intros cmac ks blake (H1 & H2 & H3) suffix tr stored size answer.
  exact (legacy_link_sound cmac ks blake H1 H2 H3 suffix stored size answer).
Qed.
Print Assumptions C32_old_link_tampering.

(** But that string need not have been a link target: the physical name of any
    short-named file, put in the place of a link, makes the link point to that name. *)
Theorem C32_names_are_valid_targets_refuted :
  forall cmac keystream blake, sizes_ok cmac keystream blake ->
  forall threshold suffix, 0 < threshold -> suffix_ok (suffix_in_force suffix) ->
  let tr := make_translator cmac keystream blake false threshold suffix None None in
  forall dir name P, name <> [] -> ~ In slash name -> length name <= threshold ->
    t_encrypt tr (dir ++ slash :: name) = Ok (P, []) ->
    t_link_dec tr (get_last_component P) = Ok name.
Proof.
  intros cmac ks blake (H1 & H2 & H3) threshold suffix Ht Hs tr dir name P Hn Hsl HL He.
  destruct (make_last cmac ks blake H1 H2 threshold suffix dir name P [] (fun _ => Hs) Hn Hsl He) as (-> & _).
  unfold pcomp, tr. rewrite make_inner. destruct (Nat.ltb_spec 0 threshold); [|lia]. cbn [t_link_dec new_translator].
  unfold NameProofs.ncomp. destruct name as [|c name]; [congruence|]. destruct (Nat.leb_spec (length (c :: name)) threshold); [|lia].
  pose proof (enc_box_ne cmac ks blake H1 H2 H3 (c :: name)) as Hne.
  unfold new_link_dec. destruct (TextProofs.enc32 (siv_box cmac ks (c :: name))) as [|x e] eqn:E; [congruence|]. rewrite <- E.
  rewrite filter_no_slash, TextProofs.base32_decode_enc. cbn [rbind]. rewrite (box_length cmac ks H1 H2).
  destruct (Nat.leb_spec (16 + length (c :: name)) kSIVSize) as [Hx|_]; [unfold kSIVSize in Hx; cbn [length] in Hx; lia|].
  rewrite (unbox_box cmac ks H1 H2). reflexivity.
Qed.
Print Assumptions C32_names_are_valid_targets_refuted.

(** ** C33 *)

(** Old naming: a name fits in the host's limit exactly when it is no longer than
    the advertised maximum. *)
Theorem C33_old_maximum_exact :
  forall cmac keystream blake, sizes_ok cmac keystream blake ->
  forall suffix,
  let tr := make_translator cmac keystream blake false 0 suffix None None in
  forall host dir name P l, (host <= 858993459)%N -> name <> [] -> ~ In slash name ->
    t_encrypt tr (dir ++ slash :: name) = Ok (P, l) ->
    ((N.of_nat (length (get_last_component P)) <= host)%N <-> (N.of_nat (length name) <= t_max tr host)%N).
Proof.
  intros cmac ks blake (H1 & H2 & H3) suffix tr host dir name P l Hh Hn Hs He.
  destruct (make_last cmac ks blake H1 H2 0 suffix dir name P l ltac:(intros H; lia) Hn Hs He) as (-> & _).
  exact (legacy_max_exact cmac ks blake H1 H2 H3 suffix host name Hh Hn).
Qed.
Print Assumptions C33_old_maximum_exact.

(** New naming, on a host whose limit has room for a long name's physical name (77
    characters and the suffix): every name within the advertised maximum fits. *)
Theorem C33_new_maximum_sound :
  forall cmac keystream blake, sizes_ok cmac keystream blake ->
  forall threshold suffix, 0 < threshold -> suffix_ok (suffix_in_force suffix) ->
  let tr := make_translator cmac keystream blake false threshold suffix None None in
  forall host dir name P l, (host <= 858993459)%N ->
    (77 + N.of_nat (length (suffix_in_force suffix)) <= host)%N ->
    name <> [] -> ~ In slash name ->
    t_encrypt tr (dir ++ slash :: name) = Ok (P, l) ->
    (N.of_nat (length name) <= t_max tr host)%N ->
    (N.of_nat (length (get_last_component P)) <= host)%N.
Proof.
  intros cmac ks blake (H1 & H2 & H3) threshold suffix Ht Hsf tr host dir name P l Hh H77 Hn Hs He HL.
  destruct (make_last cmac ks blake H1 H2 threshold suffix dir name P l (fun _ => Hsf) Hn Hs He) as (-> & _).
  exact (new_max_sound cmac ks blake H1 H2 H3 threshold suffix host name Ht Hh ltac:(lia) H77 HL).
Qed.
Print Assumptions C33_new_maximum_sound.

(** ... and the maximum is the largest for directly stored names (up to 65535). *)
Theorem C33_new_maximum_is_largest :
  forall cmac keystream blake, sizes_ok cmac keystream blake ->
  forall threshold suffix, 0 < threshold -> suffix_ok (suffix_in_force suffix) ->
  let tr := make_translator cmac keystream blake false threshold suffix None None in
  forall host dir name P l, (26 <= host <= 858993459)%N ->
    name <> [] -> ~ In slash name -> length name <= threshold -> (N.of_nat (length name) <= 65535)%N ->
    t_encrypt tr (dir ++ slash :: name) = Ok (P, l) ->
    (N.of_nat (length (get_last_component P)) <= host)%N ->
    (N.of_nat (length name) <= t_max tr host)%N.
Proof.
  intros cmac ks blake (H1 & H2 & H3) threshold suffix Ht Hsf tr host dir name P l (Hh0 & Hh) Hn Hs HL H6 He HP.
  destruct (make_last cmac ks blake H1 H2 threshold suffix dir name P l (fun _ => Hsf) Hn Hs He) as (EP & _). rewrite EP in HP.
  exact (new_max_maximal cmac ks blake H1 H2 H3 threshold suffix host name Ht Hh Hh0 Hn HL HP H6).
Qed.
Print Assumptions C33_new_maximum_is_largest.

Example C33_example :
  t_max ex_old 255 = 143%N /\ t_max ex_tr 255 = 65535%N /\
  t_max (make_translator ex_cmac ex_ks ex_blake false 128 (str ".ll") None None) 200 = 109%N.
Proof. vm_compute. auto. Qed.

(** Without the lower bound on the host's limit the advertised maximum is wrong: on
    a host limit below 26 the subtraction wraps around, and with a small threshold a
    limit such as 50 is advertised as 65535 although no long name fits. *)
Theorem C33_small_host_limit_refuted :
  t_max ex_tr 10 = 4294967286%N /\
  match t_encrypt ex_tr (str "/a name of 20 letters") with
  | Ok (P, l) => (20 <= t_max ex_tr 50)%N /\ (50 < N.of_nat (length (get_last_component P)))%N
  | _ => False
  end.
Proof. vm_compute. repeat split. discriminate. Qed.
Print Assumptions C33_small_host_limit_refuted.

(** ** C34 *)

(** When every physical entry is one of: "." or "..", a hidden name, an entry made
    through the file system with its long name recorded, or a name that is not
    base32 text, the listing is exactly what [shown] says, in order. *)
Theorem C34_listing_exact :
  forall cmac keystream blake, sizes_ok cmac keystream blake ->
  forall threshold suffix, (0 < threshold -> suffix_ok (suffix_in_force suffix)) ->
  let tr := make_translator cmac keystream blake false threshold suffix None None in
  forall table us outs before,
    Forall2 (shown (t_encrypt tr) table) us outs ->
    list_names tr table us before = concat outs.
Proof.
  intros cmac ks blake (H1 & H2 & H3) threshold suffix Hs tr table us outs before.
  exact (listing_exact cmac ks blake H1 H2 H3 threshold suffix table us outs before Hs).
Qed.
Print Assumptions C34_listing_exact.

(** Whatever the physical directory contains, every name reported is "." or "..", or
    the content of an authentic encryption found there (as a physical name or in the
    table under a physical name), or the content of the caller's variable before. *)
Theorem C34_listing_sound :
  forall cmac keystream blake, sizes_ok cmac keystream blake ->
  forall threshold suffix,
  let tr := make_translator cmac keystream blake false threshold suffix None None in
  forall table us before n,
    In n (list_names tr table us before) ->
    n = before \/ n = [dot] \/ n = [dot; dot] \/
    exists u text, In u us /\ (text = u \/ table u = Ok text) /\ base32_decode text = Ok (siv_box cmac keystream n).
Proof.
  intros cmac ks blake (H1 & H2 & H3) threshold suffix tr table us before n Hi.
  destruct (listing_sound cmac ks blake H1 H2 threshold suffix table us before n Hi) as [H|[H|[H|(u & Hu & text & Ht)]]]; auto.
  right; right; right. exists u, text. tauto.
Qed.
Print Assumptions C34_listing_sound.

(** Whatever else is in the physical directory, no file is missing. *)
Theorem C34_listing_complete :
  forall cmac keystream blake, sizes_ok cmac keystream blake ->
  forall threshold suffix, (0 < threshold -> suffix_ok (suffix_in_force suffix)) ->
  let tr := make_translator cmac keystream blake false threshold suffix None None in
  forall table us dir name P l before,
    name <> [] -> ~ In slash name ->
    t_encrypt tr (dir ++ slash :: name) = Ok (P, l) ->
    (l <> [] -> table (get_last_component P) = Ok l) ->
    In (get_last_component P) us -> In name (list_names tr table us before).
Proof.
  intros cmac ks blake (H1 & H2 & H3) threshold suffix Hs tr table us dir name P l before Hn Hsl He Ht Hi.
  apply in_split in Hi as (us1 & us2 & ->).
  exact (listing_complete cmac ks blake H1 H2 H3 threshold suffix table us1 us2 dir name P l before Hs Hn Hsl He Ht).
Qed.
Print Assumptions C34_listing_complete.

Example C34_example :
  exists P l, t_encrypt ex_tr (str "/d/notes") = Ok (P, l) /\
  Forall2 (shown (t_encrypt ex_tr) (fun _ => Err (EPosix 2)))
    [str "."; str ".long_names.db"; get_last_component P; str "README!"]
    [[str "."]; []; [str "notes"]; []].
Proof.
  destruct (t_encrypt ex_tr (str "/d/notes")) as [[P l]|] eqn:E; [|vm_compute in E; discriminate].
  exists P, l. split; [reflexivity|]. constructor; [apply shown_self|]. constructor; [apply shown_hidden; discriminate|].
  constructor.
  - apply (shown_created _ _ (str "/d") (str "notes") P l); [discriminate| |exact E|].
    + intros H. vm_compute in H. repeat (destruct H as [H|H]; [discriminate|]). destruct H.
    + vm_compute in E. injection E as _ <-. congruence.
  - constructor; [|constructor]. apply shown_not_text; [discriminate| |]; vm_compute; eauto.
Qed.

(** A foreign file whose name happens to be base32 text is not skipped: it is
    reported under the name of the entry before it. *)
Theorem C34_foreign_entry_refuted :
  match t_encrypt ex_tr (str "/d/notes") with
  | Ok (P, l) =>
    list_names ex_tr (fun _ => Err (EPosix 2)) [get_last_component P; str "data"] [] = [str "notes"; str "notes"]
  | _ => False
  end.
Proof. vm_compute. reflexivity. Qed.
Print Assumptions C34_foreign_entry_refuted.

(** ** C40 *)

(** [entries] is everything found in the repository (with a flag for symbolic links)
    when the migration computes the threshold.  Every path that resolves under the
    old naming, in that all its physical components are among them, is afterwards
    the same sequence of physical names, and needs no table entry. *)
Theorem C40_migration_keeps_names :
  forall cmac keystream blake, sizes_ok cmac keystream blake ->
  forall entries threshold suffix old_suffix, suffix_ok (suffix_in_force suffix) ->
    migration_threshold entries = Ok threshold ->
  let old := make_translator cmac keystream blake false 0 old_suffix None None in
  let new := make_translator cmac keystream blake false threshold suffix None None in
  0 < threshold /\
  forall path P l, hd x00 path = slash -> t_encrypt old path = Ok (P, l) ->
    (forall c, In c (steps P) -> In c (map fst entries)) ->
    exists P', t_encrypt new path = Ok (P', []) /\ steps P' = steps P.
Proof.
  intros cmac ks blake (H1 & H2 & H3) entries threshold suffix old_suffix Hs Hm old new.
  assert (Hpos : 0 < threshold).
  { refine (proj1 (migration_keeps cmac ks blake H1 H2 H3 threshold suffix old_suffix entries [slash] [dot] [] (fun _ => Hs) eq_refl Hm eq_refl _)).
    intros c [].
  }
  split; [exact Hpos|]. intros path P l Hp He Hall.
  exact (proj2 (migration_keeps cmac ks blake H1 H2 H3 threshold suffix old_suffix entries path P l (fun _ => Hs) Hp Hm He Hall)).
Qed.
Print Assumptions C40_migration_keeps_names.

(** ... and every directly stored name is still listed under the same name. *)
Theorem C40_migration_keeps_listings :
  forall cmac keystream blake, sizes_ok cmac keystream blake ->
  forall threshold suffix, 0 < threshold -> suffix_ok (suffix_in_force suffix) ->
  let old := make_translator cmac keystream blake false 0 [] None None in
  let new := make_translator cmac keystream blake false threshold suffix None None in
  forall dir name P l table before, name <> [] -> ~ In slash name ->
    t_encrypt old (dir ++ slash :: name) = Ok (P, l) ->
    list_names new table [get_last_component P] before = [name].
Proof.
  intros cmac ks blake (H1 & H2 & H3) threshold suffix Ht Hsf old new dir name P l table before Hn Hs He.
  destruct (make_last cmac ks blake H1 H2 0 [] dir name P l ltac:(intros H; lia) Hn Hs He) as (-> & _).
  rewrite (safe_listed new table _ name before).
  - reflexivity.
  - exact (make_noop cmac ks blake threshold suffix).
  - apply (pcomp_safe cmac ks blake H1 H2 H3 0 []); [intros H; lia|exact Hn].
  - unfold pcomp, new, decode_entry. rewrite make_inner. destruct threshold as [|t]; [lia|]. cbn [Nat.ltb Nat.leb].
    unfold lcomp. destruct name as [|c name]; [congruence|]. cbn [t_decrypt new_translator].
    rewrite (new_decrypt_direct cmac ks H1 H2 (effective suffix) Hsf) by discriminate. reflexivity.
Qed.
Print Assumptions C40_migration_keeps_listings.

Example C40_example :
  migration_threshold [(zeros 240, false); (zeros 12, false)] = Ok 134 /\
  migration_threshold [(zeros 229, false)] = Ok 128 /\ migration_threshold [(zeros 12, true)] = Err EInval.
Proof. vm_compute. auto. Qed.
