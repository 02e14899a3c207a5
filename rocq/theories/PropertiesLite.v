(** Properties C01, C03 (lite part), C04, C05, C08: lite-format file content. *)
From Verif Require Import Base BaseLemmas StreamSpec BlockModel LiteModel LiteSpec LiteProofs
  LiteTamper PaddingModel PaddingProofs Toy.

(** C01.  Any history of reads, writes, resizes, size queries and reopens on a
    new lite file returns what the plain byte array of [StreamSpec] returns; in
    particular nothing fails. *)
Theorem C01_lite_file_is_byte_array :
  forall (A : aead) bs iv_size check sparse session_key padding_of rnd iv_fuel k ops,
    lite_env_ok A bs iv_size rnd iv_fuel ->
    Forall (lop_within (lite_max_blocks * bs)) ops ->
    exists s0,
      lite_open bs iv_size session_key padding_of rnd [] k = Ok s0 /\
      snd (run_ops (lite_step A bs iv_size check sparse session_key padding_of rnd iv_fuel) s0 ops)
      = snd (run_ops lspec_step [] ops).
Proof.
  exact (fun A bs iv_size check sparse session_key padding_of rnd iv_fuel k ops HE =>
    lite_history A bs iv_size check sparse session_key padding_of rnd iv_fuel HE k ops).
Qed.
Print Assumptions C01_lite_file_is_byte_array.

Definition ex_ops : list lop :=
  [LOp (SWrite 40 [x61; x62; x63]); LOp SSize; LOp (SRead 30 20); LReopen;
   LOp (SResize 41); LOp (SWrite 0 (repeat x7a 33)); LReopen; LOp (SRead 0 100)].

Lemma ex_ops_within : Forall (lop_within (lite_max_blocks * 32)) ex_ops.
Proof.
  assert (H : 1000 <= lite_max_blocks).
  { apply lite_over_max_inv. vm_compute. reflexivity. }
  unfold ex_ops. repeat (apply Forall_cons || apply Forall_nil);
    cbn [lop_within sop_within length repeat]; try exact I; lia.
Qed.

(** The hypotheses hold for a concrete history, which writes past the end,
    shrinks, overwrites across blocks and reopens; its outputs are computed. *)
Example C01_example :
  let A := toy_aead ([], [], []) in
  lite_env_ok A 32 12 toy_rnd 2 /\
  Forall (lop_within (lite_max_blocks * 32)) ex_ops /\
  match lite_open 32 12 (fun id => id) (fun _ => 5) toy_rnd [] 0 with
  | Ok s0 => snd (run_ops (lite_step A 32 12 true true (fun id => id) (fun _ => 5) toy_rnd 2) s0 ex_ops)
  | Err _ => []
  end =
  [LOut ODone; LOut (OSize 43); LOut (OData (zeros 10 ++ [x61; x62; x63])); LReopened;
   LOut ODone; LOut ODone; LReopened; LOut (OData (repeat x7a 33 ++ zeros 7 ++ [x61]))].
Proof. split; [apply toy_env_ok|]. split; [exact ex_ops_within|]. vm_compute. reflexivity. Qed.

(** C03, lite part.  Whatever was done to a file, opening the stored bytes anew
    (with the random source anywhere) succeeds and continues exactly like the
    byte array. *)
Theorem C03_lite_reopen :
  forall (A : aead) bs iv_size check sparse session_key padding_of rnd iv_fuel k ops k2 ops2 s0,
    lite_env_ok A bs iv_size rnd iv_fuel ->
    lite_open bs iv_size session_key padding_of rnd [] k = Ok s0 ->
    Forall (lop_within (lite_max_blocks * bs)) ops ->
    Forall (lop_within (lite_max_blocks * bs)) ops2 ->
    let step := lite_step A bs iv_size check sparse session_key padding_of rnd iv_fuel in
    exists s1,
      lite_open bs iv_size session_key padding_of rnd (l_file (fst (run_ops step s0 ops))) k2 = Ok s1 /\
      snd (run_ops step s1 ops2)
      = snd (run_ops lspec_step (fst (run_ops lspec_step [] ops)) ops2).
Proof.
  exact (fun A bs iv_size check sparse session_key padding_of rnd iv_fuel k ops k2 ops2 s0 HE =>
    lite_reopen_history A bs iv_size check sparse session_key padding_of rnd iv_fuel HE k ops k2 ops2 s0).
Qed.
Print Assumptions C03_lite_reopen.

Example C03_lite_example :
  exists s0, lite_open 32 12 (fun id => id) (fun _ => 5) toy_rnd [] 0 = Ok s0 /\
    Forall (lop_within (lite_max_blocks * 32)) ex_ops /\ lite_env_ok (toy_aead ([], [], [])) 32 12 toy_rnd 2.
Proof. eexists. split; [vm_compute; reflexivity|]. split; [exact ex_ops_within|apply toy_env_ok]. Qed.

(** C04.  Without padding (the only case in which the size is computed from the
    length, [can_compute_virtual_size]), the computed size is the length of the
    content; hence files of different logical size have different stored size. *)
Theorem C04_stat_size_is_content_size :
  forall (A : aead) bs iv_size check sparse session_key padding_of rnd iv_fuel k ops s0,
    lite_env_ok A bs iv_size rnd iv_fuel ->
    (forall id, padding_of id = 0) ->
    lite_open bs iv_size session_key padding_of rnd [] k = Ok s0 ->
    Forall (lop_within (lite_max_blocks * bs)) ops ->
    let step := lite_step A bs iv_size check sparse session_key padding_of rnd iv_fuel in
    calculate_real_size (length (l_file (fst (run_ops step s0 ops)))) bs iv_size
    = length (fst (run_ops lspec_step [] ops)).
Proof.
  exact (fun A bs iv_size check sparse session_key padding_of rnd iv_fuel k ops s0 HE =>
    lite_stat_size A bs iv_size check sparse session_key padding_of rnd iv_fuel HE k ops s0).
Qed.
Print Assumptions C04_stat_size_is_content_size.

Theorem C04_distinct_sizes_stored_distinct :
  forall (A : aead) bs iv_size check sparse session_key padding_of rnd iv_fuel k ops1 ops2 s0,
    lite_env_ok A bs iv_size rnd iv_fuel ->
    (forall id, padding_of id = 0) ->
    lite_open bs iv_size session_key padding_of rnd [] k = Ok s0 ->
    Forall (lop_within (lite_max_blocks * bs)) ops1 ->
    Forall (lop_within (lite_max_blocks * bs)) ops2 ->
    let step := lite_step A bs iv_size check sparse session_key padding_of rnd iv_fuel in
    length (fst (run_ops lspec_step [] ops1)) <> length (fst (run_ops lspec_step [] ops2)) ->
    length (l_file (fst (run_ops step s0 ops1))) <> length (l_file (fst (run_ops step s0 ops2))).
Proof.
  exact (fun A bs iv_size check sparse session_key padding_of rnd iv_fuel k ops1 ops2 s0 HE Hp Ho H1 H2 Hne Heq =>
    Hne (eq_trans (eq_sym (lite_stat_size A bs iv_size check sparse session_key padding_of rnd iv_fuel HE k ops1 s0 Hp Ho H1))
       (eq_trans (f_equal (fun n => calculate_real_size n bs iv_size) Heq)
          (lite_stat_size A bs iv_size check sparse session_key padding_of rnd iv_fuel HE k ops2 s0 Hp Ho H2)))).
Qed.
Print Assumptions C04_distinct_sizes_stored_distinct.

Example C04_example :
  match lite_open 32 12 (fun id => id) (fun _ => 0) toy_rnd [] 0 with
  | Ok s0 =>
      let s1 := fst (run_ops (lite_step (toy_aead ([], [], [])) 32 12 true true (fun id => id)
                       (fun _ => 0) toy_rnd 2) s0 ex_ops) in
      (length (l_file s1), calculate_real_size (length (l_file s1)) 32 12)
  | Err _ => (0, 0)
  end = (16 + (32 + 28) + (9 + 28), 41).
Proof. vm_compute. reflexivity. Qed.

(** C05.  A history [ops] on a new file; the attacker then replaces everything
    after the header by arbitrary bytes [file'] without forging (see
    [lite_no_forgery]).  Each byte of a successful read of the tampered file
    comes from a source block [src i] at its own position [i], and each source
    block is all zeros or equals the content of block [i] at some moment of the
    history. *)
Theorem C05_tampered_read_is_genuine_or_zero :
  forall (A : aead) bs iv_size sparse session_key padding_of rnd iv_fuel,
    lite_env_ok A bs iv_size rnd iv_fuel ->
    forall k s0 ops file' k' off len out,
      lite_open bs iv_size session_key padding_of rnd [] k = Ok s0 ->
      Forall (lop_within (lite_max_blocks * bs)) ops ->
      lite_no_forgery A bs iv_size (l_key s0) (l_pad s0)
        (snapshots (lite_step A bs iv_size true sparse session_key padding_of rnd iv_fuel) s0 ops) file' ->
      bb_read (lite_backend A bs iv_size true sparse rnd iv_fuel) off len
              (mkLite file' (l_key s0) (l_pad s0) k') = Ok out ->
      exists src : nat -> bytes,
        (forall p, p < length out ->
           (off + p) mod bs < length (src ((off + p) / bs)) /\
           get out p = get (src ((off + p) / bs)) ((off + p) mod bs)) /\
        (forall i, src i = zeros (length (src i)) \/
           exists n, n <= length ops /\
             src i = arr_read (fst (run_ops lspec_step [] (firstn n ops))) (i * bs) bs).
Proof. exact lite_genuine_top. Qed.
Print Assumptions C05_tampered_read_is_genuine_or_zero.

(** C05, second half: a block that is not zeroed and differs from every block
    ever stored at its position (altered, moved or swapped) makes every read
    that covers one of its bytes fail. *)
Theorem C05_altered_block_rejected :
  forall (A : aead) bs iv_size sparse session_key padding_of rnd iv_fuel,
    lite_env_ok A bs iv_size rnd iv_fuel ->
    forall k s0 ops file' k' off len i p,
      lite_open bs iv_size session_key padding_of rnd [] k = Ok s0 ->
      Forall (lop_within (lite_max_blocks * bs)) ops ->
      let step := lite_step A bs iv_size true sparse session_key padding_of rnd iv_fuel in
      let s' := mkLite file' (l_key s0) (l_pad s0) k' in
      lite_no_forgery A bs iv_size (l_key s0) (l_pad s0) (snapshots step s0 ops) file' ->
      all_zero (stored_block bs iv_size s' i) = false ->
      (forall x, In x (snapshots step s0 ops) ->
         stored_block bs iv_size x i <> stored_block bs iv_size s' i) ->
      off <= i * bs + p -> p < bs -> i * bs + p < off + len ->
      i * bs + p < lite_size bs iv_size s' ->
      exists e, bb_read (lite_backend A bs iv_size true sparse rnd iv_fuel) off len s' = Err e.
Proof. exact lite_altered_top. Qed.
Print Assumptions C05_altered_block_rejected.

(** A case where the hypotheses of both theorems hold: one 32-byte block is
    written; the attacker appends a zeroed block and a copy of block 0 moved to
    position 2.  Reading blocks 0 and 1 gives the data and zeros; reading
    block 2 fails. *)
Definition ex5_data : bytes := repeat x64 32.
Definition ex5_iv : bytes := toy_rnd 1 12.
Definition ex5_aead : aead := toy_aead (ex5_iv, lite_aad [] 0, ex5_data).
Definition ex5_step := lite_step ex5_aead 32 12 true true (fun id => id) (fun _ => 0) toy_rnd 2.
Definition ex5_s0 : lite_st := mkLite (toy_rnd 0 16) (toy_rnd 0 16) [] 1.
Definition ex5_ops : list lop := [LOp (SWrite 0 ex5_data)].
Definition ex5_file' : bytes :=
  let f := l_file (fst (run_ops ex5_step ex5_s0 ex5_ops)) in f ++ zeros 60 ++ skipn 16 f.

Example C05_example :
  lite_open 32 12 (fun id => id) (fun _ => 0) toy_rnd [] 0 = Ok ex5_s0 /\
  Forall (lop_within (lite_max_blocks * 32)) ex5_ops /\
  lite_no_forgery ex5_aead 32 12 (l_key ex5_s0) (l_pad ex5_s0) (snapshots ex5_step ex5_s0 ex5_ops) ex5_file' /\
  bb_read (lite_backend ex5_aead 32 12 true true toy_rnd 2) 0 64 (mkLite ex5_file' (l_key ex5_s0) (l_pad ex5_s0) 7)
    = Ok (ex5_data ++ zeros 32) /\
  bb_read (lite_backend ex5_aead 32 12 true true toy_rnd 2) 64 1 (mkLite ex5_file' (l_key ex5_s0) (l_pad ex5_s0) 7)
    = Err EVerify.
Proof.
  split; [vm_compute; reflexivity|].
  split. { apply Forall_cons; [|apply Forall_nil]. cbn [lop_within sop_within]. unfold ex5_data. rewrite repeat_length.
    assert (H : 1000 <= lite_max_blocks) by (apply lite_over_max_inv; vm_compute; reflexivity). lia. }
  split; [|split; vm_compute; reflexivity].
  intros iv aad ct mac o Hiv Hmac Hct Hpiece Hv.
  cbn [ex5_aead toy_aead a_dec fst] in Hv. apply bytes_eqb_eq in Hv.
  unfold toy_tag in Hv.
  destruct (bytes_eqb iv ex5_iv) eqn:E1; [destruct (bytes_eqb aad (lite_aad [] 0)) eqn:E2;
    [destruct (bytes_eqb ct ex5_data) eqn:E3|]|]; cbn [andb] in Hv.
  1: { apply bytes_eqb_eq in E1, E2, E3. subst.
       exists (fst (run_ops ex5_step ex5_s0 ex5_ops)), 0.
       split; [right; left; reflexivity|]. split; [reflexivity|]. vm_compute. reflexivity. }
  all: exfalso; assert (HI : In xbb ex5_file');
    [ apply (incl_tran (l := mac)) with (m := arr_read ex5_file' o (length (iv ++ ct ++ mac)));
      [ rewrite Hpiece; intros z Hz; rewrite !in_app_iff; auto
      | unfold arr_read; intros z Hz; rewrite <- (firstn_skipn o ex5_file');
        apply in_or_app; right; rewrite <- (firstn_skipn (length (iv ++ ct ++ mac)) (skipn o ex5_file'));
        apply in_or_app; left; exact Hz
      | rewrite Hv; left; reflexivity ]
    | assert (HN : forallb (fun z => negb (Byte.eqb z xbb)) ex5_file' = true) by (vm_compute; reflexivity);
      rewrite forallb_forall in HN; specialize (HN _ HI); discriminate HN ].
Qed.

(** C08.  The padding length is at most the configured maximum and is computed
    whenever the maximum is below 2^32 - 1; it depends on the id only (it is a
    function of it); it is 0 when padding is off; every value up to the maximum
    occurs. *)
Theorem C08_padding_bounded :
  forall max ecb id p, default_compute_padding max ecb id = Ok p -> (p <= max)%N.
Proof. exact (fun max ecb id p => padding_from_bound max (ecb id) p). Qed.
Print Assumptions C08_padding_bounded.

Theorem C08_padding_total :
  forall max ecb id, (max < 2 ^ 32 - 1)%N -> exists p, default_compute_padding max ecb id = Ok p.
Proof. exact (fun max ecb id => padding_from_total max (ecb id)). Qed.
Print Assumptions C08_padding_total.

Theorem C08_no_padding_when_disabled :
  forall ecb kdf id, default_compute_padding 0 ecb id = Ok 0%N /\ full_compute_padding 0 kdf id = Ok 0%N.
Proof. exact (fun ecb kdf id => conj eq_refl eq_refl). Qed.
Print Assumptions C08_no_padding_when_disabled.

Theorem C08_every_value_attainable :
  forall max ecb v, (max < 2 ^ 32 - 1)%N -> (v <= max)%N ->
    (forall t, length t = 16 -> exists id, length id = 16 /\ ecb id = t) ->
    exists id, length id = 16 /\ default_compute_padding max ecb id = Ok v.
Proof. exact padding_attainable. Qed.
Print Assumptions C08_every_value_attainable.

(** The guard is needed: the largest 32-bit maximum makes the code divide by zero. *)
Theorem C08_largest_max_refuted : exists max ecb id,
  (max < 2 ^ 32)%N /\ default_compute_padding max ecb id = Err ERange.
Proof. exact (ex_intro _ (2 ^ 32 - 1)%N (ex_intro _ (fun x => x) (ex_intro _ [] (conj eq_refl eq_refl)))). Qed.
Print Assumptions C08_largest_max_refuted.

Example C08_example :
  default_compute_padding 9 (fun x => x) (repeat x00 15 ++ [x17]) = Ok 3%N /\ (9 < 2 ^ 32 - 1)%N.
Proof. vm_compute. split; reflexivity. Qed.
