(** C65 and C66: no nonce is used twice; what is stored tells sizes and places, not data. *)
From Coq Require Import Sorted.
From Verif Require Import Base BaseLemmas StreamSpec BlockModel CodecModel LiteModel LiteProofs FullStreamModel FullStreamProofs CrashModel
  SecrecySpec SecrecyProofs SecrecyTop SecrecyFull Toy PropertiesFull.

(** ** C65 *)
(** Lite: every record that is ever stored for a file, over any history with reopenings, is the
    encryption of one block under the file's key with a nonce from a draw of the random source
    that no earlier record has used. *)
Theorem C65_lite_every_record_its_own_draw : forall A bs iv_size check sparse session_key padding_of rnd iv_fuel k s0 ops,
  lite_env_ok A bs iv_size rnd iv_fuel ->
  lite_open bs iv_size session_key padding_of rnd [] k = Ok s0 ->
  Forall (lop_within (lite_max_blocks * bs)) ops ->
  let s1 := fst (run_ops (lite_step A bs iv_size check sparse session_key padding_of rnd iv_fuel) s0 ops) in
  exists used : list (nat * nat * bytes),   (* draw, block number, plaintext *)
    StronglySorted lt (map (fun e => fst (fst e)) used) /\
    Forall (fun i => l_rng s0 <= i < l_rng s1) (map (fun e => fst (fst e)) used) /\
    flat_map (lite_records bs iv_size) (lite_history A bs iv_size check sparse session_key padding_of rnd iv_fuel s0 ops)
    = map (fun '(i, b, p) =>
             let iv := rnd i iv_size in
             let '(ct, tag) := a_enc A (l_key s0) iv (to_le 4 (N.of_nat b) ++ l_pad s0) p in iv ++ ct ++ tag) used.
Proof.
  intros A bs iv_size check sparse session_key padding_of rnd iv_fuel k s0 ops HE Ho Hops s1.
  destruct (lite_nonces bs iv_size check sparse session_key padding_of rnd iv_fuel A s0 k ops HE Ho Hops) as (used & S1 & S2 & E).
  exists used. refine (conj S1 (conj S2 _)). rewrite E. apply map_ext. intros [[i b] p]. reflexivity.
Qed.
Print Assumptions C65_lite_every_record_its_own_draw.

(** So if the random source does not repeat itself during the history, no nonce does. *)
Theorem C65_lite_no_nonce_twice : forall A bs iv_size check sparse session_key padding_of rnd iv_fuel k s0 ops,
  lite_env_ok A bs iv_size rnd iv_fuel ->
  lite_open bs iv_size session_key padding_of rnd [] k = Ok s0 ->
  Forall (lop_within (lite_max_blocks * bs)) ops ->
  let s1 := fst (run_ops (lite_step A bs iv_size check sparse session_key padding_of rnd iv_fuel) s0 ops) in
  NoDup (map (fun i => rnd i iv_size) (seq (l_rng s0) (l_rng s1 - l_rng s0))) ->
  NoDup (map (firstn iv_size)
    (flat_map (lite_records bs iv_size) (lite_history A bs iv_size check sparse session_key padding_of rnd iv_fuel s0 ops))).
Proof.
  intros A bs iv_size check sparse session_key padding_of rnd iv_fuel k s0 ops HE Ho Hops s1 HN.
  exact (lite_nonces_nodup bs iv_size check sparse session_key padding_of rnd iv_fuel A s0 k ops HE Ho Hops HN).
Qed.
Print Assumptions C65_lite_no_nonce_twice.

(** Full: the nonces of blocks and of headers, over any history. *)
Theorem C65_full_every_nonce_its_own_draw : forall A hmac dkey mkey id bs iv_size header_size check sparse rnd iv_fuel k ops,
  full_env_ok A hmac bs iv_size rnd iv_fuel ->
  Forall (fop_within (full_max_blocks * bs) header_size) ops ->
  let s0 := mkFull [] [] false k in
  let s1 := fst (run_ops (full_step A hmac dkey mkey id bs iv_size header_size check sparse rnd iv_fuel) s0 ops) in
  exists used : list nat,
    StronglySorted lt used /\ Forall (fun i => k <= i < f_rng s1) used /\
    flat_map (full_nonces iv_size header_size) (full_history A hmac dkey mkey id bs iv_size header_size check sparse rnd iv_fuel s0 ops)
    = map (fun i => rnd i iv_size) used.
Proof.
  intros A hmac dkey mkey id bs iv_size header_size check sparse rnd iv_fuel k ops HE Hops.
  exact (full_nonces_used hmac dkey mkey id bs iv_size header_size check sparse rnd iv_fuel A k ops HE Hops).
Qed.
Print Assumptions C65_full_every_nonce_its_own_draw.

Theorem C65_full_no_nonce_twice : forall A hmac dkey mkey id bs iv_size header_size check sparse rnd iv_fuel k ops,
  full_env_ok A hmac bs iv_size rnd iv_fuel ->
  Forall (fop_within (full_max_blocks * bs) header_size) ops ->
  let s0 := mkFull [] [] false k in
  let s1 := fst (run_ops (full_step A hmac dkey mkey id bs iv_size header_size check sparse rnd iv_fuel) s0 ops) in
  NoDup (map (fun i => rnd i iv_size) (seq k (f_rng s1 - k))) ->
  NoDup (flat_map (full_nonces iv_size header_size)
    (full_history A hmac dkey mkey id bs iv_size header_size check sparse rnd iv_fuel s0 ops)).
Proof.
  intros A hmac dkey mkey id bs iv_size header_size check sparse rnd iv_fuel k ops HE Hops s0 s1 HN.
  destruct (C65_full_every_nonce_its_own_draw A hmac dkey mkey id bs iv_size header_size check sparse rnd iv_fuel k ops HE Hops) as (used & S1 & S2 & E).
  fold s0 in E. rewrite E. exact (NoDup_nonces _ _ _ _ HN S1 S2).
Qed.
Print Assumptions C65_full_no_nonce_twice.

(** ** C66 *)
(** Lite: take two histories that write data of the same lengths to the same places.  There is
    one change [diff] of the pads of this file's key that turns everything stored by the first
    into everything stored by the second, to the last byte.  As a change by xor maps the pads
    one to one, pads drawn at random give the two the same distribution. *)
Theorem C66_lite_storage_independent_of_data : forall tag bs iv_size check sparse session_key padding_of rnd iv_fuel k s0 ops1 ops2,
  (forall pad, lite_env_ok (otp tag pad) bs iv_size rnd iv_fuel) ->
  lite_open bs iv_size session_key padding_of rnd [] k = Ok s0 ->
  Forall (lop_within (lite_max_blocks * bs)) ops1 -> Forall (lop_within (lite_max_blocks * bs)) ops2 ->
  Forall2 lalike ops1 ops2 ->
  exists diff : bytes -> bytes -> nat -> byte,
    (forall key, key <> l_key s0 -> forall iv i, diff key iv i = x00) /\
    forall pad,
      let s1 := fst (run_ops (lite_step (otp tag pad) bs iv_size check sparse session_key padding_of rnd iv_fuel) s0 ops1) in
      NoDup (map (fun i => rnd i iv_size) (seq (l_rng s0) (l_rng s1 - l_rng s0))) ->
      lite_history (otp tag pad) bs iv_size check sparse session_key padding_of rnd iv_fuel s0 ops1
      = lite_history (otp tag (fun key iv i => xor1 (pad key iv i) (diff key iv i))) bs iv_size check sparse session_key padding_of rnd iv_fuel s0 ops2.
Proof.
  intros tag bs iv_size check sparse session_key padding_of rnd iv_fuel k s0 ops1 ops2 HE Ho W1 W2 HL.
  exact (lite_secrecy bs iv_size check sparse session_key padding_of rnd iv_fuel tag s0 k ops1 ops2 HE Ho W1 W2 HL).
Qed.
Print Assumptions C66_lite_storage_independent_of_data.

(** Full: the same for data, headers (of any length up to the header's size), flushes with
    their MACs and reopenings. *)
Theorem C66_full_storage_independent_of_data : forall tag hmac dkey mkey id bs iv_size header_size check sparse rnd iv_fuel k ops1 ops2,
  (forall pad, full_env_ok (otp tag pad) hmac bs iv_size rnd iv_fuel) ->
  Forall (fop_within (full_max_blocks * bs) header_size) ops1 -> Forall (fop_within (full_max_blocks * bs) header_size) ops2 ->
  Forall2 falike ops1 ops2 ->
  let s0 := mkFull [] [] false k in
  exists diff : bytes -> bytes -> nat -> byte,
    (forall key, key <> dkey -> forall iv i, diff key iv i = x00) /\
    forall pad,
      let s1 := fst (run_ops (full_step (otp tag pad) hmac dkey mkey id bs iv_size header_size check sparse rnd iv_fuel) s0 ops1) in
      NoDup (map (fun i => rnd i iv_size) (seq k (f_rng s1 - k))) ->
      full_history (otp tag pad) hmac dkey mkey id bs iv_size header_size check sparse rnd iv_fuel s0 ops1
      = full_history (otp tag (fun key iv i => xor1 (pad key iv i) (diff key iv i))) hmac dkey mkey id bs iv_size header_size check sparse rnd iv_fuel s0 ops2.
Proof.
  intros tag hmac dkey mkey id bs iv_size header_size check sparse rnd iv_fuel k ops1 ops2 HE W1 W2 HL.
  exact (full_secrecy hmac dkey mkey id bs iv_size header_size check sparse rnd iv_fuel tag k ops1 ops2 HE W1 W2 HL).
Qed.
Print Assumptions C66_full_storage_independent_of_data.

(** ** Examples *)
Definition exs_tag (k iv ad ct : bytes) : bytes := firstn 16 (ct ++ iv ++ zeros 16).
Definition exs_pad (k iv : bytes) (i : nat) : byte := n2b (N.of_nat (7 * i + 3)).
Lemma exs_lite pad : lite_env_ok (otp exs_tag pad) 32 12 toy_rnd 2.
Proof.
  destruct (toy_env_ok ([], [], [])). constructor; try assumption. apply otp_ok. intros. unfold exs_tag.
  rewrite firstn_length, !app_length, zeros_length. lia.
Qed.
Lemma exs_full pad : full_env_ok (otp exs_tag pad) (fun _ _ => zeros 32) 32 12 toy_rnd 2.
Proof. destruct (exs_lite pad). constructor; try assumption; try lia. intros. apply zeros_length. Qed.

(** A write over two blocks, one within, a cut, a growth; the data differ throughout. *)
Definition exs_hist (x : byte) : list lop :=
  [LOp (SWrite 0 (repeat x 40)); LOp (SWrite 20 [x; x; x]); LReopen; LOp (SResize 35); LOp (SWrite 70 [x; x]); LOp (SRead 0 80)].
Definition exs_fhist (x : byte) (n : nat) : list fop :=
  [FOp (SWrite 0 (repeat x 40)); FWriteHeader (repeat x n); FFlush; FOp (SResize 35); FReopen; FOp (SWrite 70 [x; x])].
Definition exs_s0 : lite_st := match lite_open 32 12 (fun id => id) (fun _ => 5) toy_rnd [] 0 with Ok s => s | Err _ => mkLite [] [] [] 0 end.
Fixpoint distinct (l : list bytes) : bool := match l with [] => true | x :: l' => negb (existsb (bytes_eqb x) l') && distinct l' end.
Lemma distinct_NoDup l : distinct l = true -> NoDup l.
Proof.
  induction l as [|x l IH]; cbn [distinct]; intros H; constructor; apply andb_prop in H as [H1 H2]; [|apply IH, H2].
  intros Hin. apply negb_true_iff in H1. assert (existsb (bytes_eqb x) l = true); [|congruence].
  apply existsb_exists. exists x. split; [exact Hin|apply bytes_eqb_refl].
Qed.

Example C65_C66_lite_example :
  (forall pad, lite_env_ok (otp exs_tag pad) 32 12 toy_rnd 2) /\
  lite_open 32 12 (fun id => id) (fun _ => 5) toy_rnd [] 0 = Ok exs_s0 /\
  (forall x, Forall (lop_within (lite_max_blocks * 32)) (exs_hist x)) /\ Forall2 lalike (exs_hist x41) (exs_hist x42) /\
  (let s1 := fst (run_ops (lite_step (otp exs_tag exs_pad) 32 12 true true (fun id => id) (fun _ => 5) toy_rnd 2) exs_s0 (exs_hist x41)) in
   NoDup (map (fun i => toy_rnd i 12) (seq (l_rng exs_s0) (l_rng s1 - l_rng exs_s0)))) /\
  length (flat_map (lite_records 32 12) (lite_history (otp exs_tag exs_pad) 32 12 true true (fun id => id) (fun _ => 5) toy_rnd 2 exs_s0 (exs_hist x41))) = 6 /\
  lite_history (otp exs_tag exs_pad) 32 12 true true (fun id => id) (fun _ => 5) toy_rnd 2 exs_s0 (exs_hist x41)
  <> lite_history (otp exs_tag exs_pad) 32 12 true true (fun id => id) (fun _ => 5) toy_rnd 2 exs_s0 (exs_hist x42).
Proof.
  split; [exact exs_lite|]. split; [vm_compute; reflexivity|]. split.
  { intros x. assert (H : 1000 <= lite_max_blocks) by (apply lite_over_max_inv; vm_compute; reflexivity).
    unfold exs_hist. repeat (apply Forall_cons || apply Forall_nil); cbn [lop_within sop_within]; try exact I; rewrite ?repeat_length; cbn [length]; lia. }
  split; [repeat constructor|]. split; [apply distinct_NoDup; vm_compute; reflexivity|]. split; [vm_compute; reflexivity|].
  intros H. vm_compute in H. discriminate H.
Qed.

Example C65_C66_full_example :
  (forall pad, full_env_ok (otp exs_tag pad) (fun _ _ => zeros 32) 32 12 toy_rnd 2) /\
  (forall x n, n <= 5 -> Forall (fop_within (full_max_blocks * 32) 5) (exs_fhist x n)) /\ Forall2 falike (exs_fhist x41 2) (exs_fhist x42 5) /\
  (let s1 := fst (run_ops (full_step (otp exs_tag exs_pad) (fun _ _ => zeros 32) [x01] [x02] [x03] 32 12 5 true true toy_rnd 2) (mkFull [] [] false 0) (exs_fhist x41 2)) in
   NoDup (map (fun i => toy_rnd i 12) (seq 0 (f_rng s1 - 0)))) /\
  length (flat_map (full_nonces 12 5) (full_history (otp exs_tag exs_pad) (fun _ _ => zeros 32) [x01] [x02] [x03] 32 12 5 true true toy_rnd 2 (mkFull [] [] false 0) (exs_fhist x41 2))) = 6.
Proof.
  split; [exact exs_full|]. split.
  { intros x n Hn. pose proof full_max_1000. unfold exs_fhist. repeat (apply Forall_cons || apply Forall_nil); cbn [fop_within sop_within]; try exact I; rewrite ?repeat_length; cbn [length]; lia. }
  split; [repeat constructor|]. split; [apply distinct_NoDup; vm_compute; reflexivity|]. vm_compute. reflexivity.
Qed.
