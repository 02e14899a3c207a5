(** Hex and base32 proofs. *)
From Verif Require Import Base BaseLemmas TextModel.

(** ** Hex *)

Definition is_hex_digit (c : byte) : Prop := In c hex_table.

Lemma index_of_nth c t i : index_of c t = Some i -> i < length t /\ nth i t x00 = c.
Proof.
  revert i; induction t as [|x t IH]; intros i H; cbn [index_of] in H; [discriminate|].
  destruct (Byte.eqb c x) eqn:E.
  - injection H as <-. apply byte_eqb_eq in E. subst. cbn. split; [lia|reflexivity].
  - destruct (index_of c t) as [j|]; [|discriminate]. injection H as <-.
    destruct (IH j eq_refl). cbn. split; [lia|assumption].
Qed.

Lemma index_of_In c t : In c t <-> index_of c t <> None.
Proof.
  induction t as [|x t IH]; cbn [index_of In]; [split; [contradiction|congruence]|].
  destruct (Byte.eqb c x) eqn:E.
  - apply byte_eqb_eq in E. subst. split; [discriminate|auto].
  - split.
    + intros [->|H]; [rewrite byte_eqb_refl in E; discriminate|].
      apply IH in H. destruct (index_of c t); [discriminate|congruence].
    + intros H. right. apply IH. intros E0. apply H. rewrite E0. reflexivity.
Qed.

Definition hexb (b : byte) : bytes :=
  [nth (N.to_nat (b2n b / 16)) hex_table x00; nth (N.to_nat (b2n b mod 16)) hex_table x00].

Lemma opt_eq (o : option nat) k : match o with Some i => i =? k | None => false end = true -> o = Some k.
Proof. destruct o as [i|]; [|discriminate]. intros H. apply Nat.eqb_eq in H. subst. reflexivity. Qed.

Lemma hexb_index b :
  index_of (nth (N.to_nat (b2n b / 16)) hex_table x00) hex_table = Some (N.to_nat (b2n b / 16)) /\
  index_of (nth (N.to_nat (b2n b mod 16)) hex_table x00) hex_table = Some (N.to_nat (b2n b mod 16)).
Proof.
  split; apply opt_eq.
  - apply (byte_sweep (fun b => match index_of (nth (N.to_nat (b2n b / 16)) hex_table x00) hex_table with
      Some i => i =? N.to_nat (b2n b / 16) | None => false end)). vm_compute. reflexivity.
  - apply (byte_sweep (fun b => match index_of (nth (N.to_nat (b2n b mod 16)) hex_table x00) hex_table with
      Some i => i =? N.to_nat (b2n b mod 16) | None => false end)). vm_compute. reflexivity.
Qed.

Lemma parse_hexify_loop l : parse_hex_loop (hexify l) = Ok l.
Proof.
  induction l as [|b l IH]; [reflexivity|].
  unfold hexify in *. cbn [flat_map app parse_hex_loop].
  destruct (hexb_index b) as [-> ->]. rewrite IH. cbn [rmap]. do 2 f_equal.
  rewrite !N2Nat.id. pose proof (N.div_mod (b2n b) 16 ltac:(lia)) as H.
  replace (b2n b / 16 * 16 + b2n b mod 16)%N with (b2n b) by lia. apply n2b_b2n.
Qed.

Lemma hexify_length l : length (hexify l) = 2 * length l.
Proof. unfold hexify. induction l as [|b l IH]; [reflexivity|]. cbn [flat_map app length]. rewrite IH. lia. Qed.

Lemma parse_hexify l : parse_hex (hexify l) = Ok l.
Proof.
  unfold parse_hex. rewrite hexify_length, Nat.mul_comm, Nat.mod_mul by lia. cbn. apply parse_hexify_loop.
Qed.

Lemma hexify_digits l : Forall is_hex_digit (hexify l).
Proof.
  unfold hexify. induction l as [|b l IH]; [constructor|]. cbn [flat_map app].
  destruct (hexb_index b) as [H1 H2].
  constructor; [|constructor; [|exact IH]]; unfold is_hex_digit; apply index_of_In.
  - rewrite H1. discriminate.
  - rewrite H2. discriminate.
Qed.

(** Even-length strings, two characters at a time. *)
Lemma pair_ind (P : bytes -> Prop) :
  P [] -> (forall a b l, P l -> P (a :: b :: l)) -> forall l, length l mod 2 = 0 -> P l.
Proof.
  intros H0 H2 l. remember (length l) as n eqn:En. revert l En.
  induction n as [n IH] using lt_wf_ind. intros l En Hm. destruct l as [|a [|b l]].
  - exact H0.
  - subst. discriminate.
  - apply H2. apply (IH (length l)); [cbn in En; lia|reflexivity|].
    subst. cbn [length] in Hm. replace (S (S (length l))) with (length l + 1 * 2) in Hm by lia.
    rewrite Nat.mod_add in Hm by lia. exact Hm.
Qed.

Lemma hex_pair_value i j : i < 16 -> j < 16 ->
  hexb (n2b (N.of_nat i * 16 + N.of_nat j)) = [nth i hex_table x00; nth j hex_table x00].
Proof.
  intros Hi Hj. unfold hexb. rewrite b2n_n2b, N.mod_small by lia.
  replace ((N.of_nat i * 16 + N.of_nat j) / 16)%N with (N.of_nat i).
  2: { rewrite N.add_comm, N.div_add, N.div_small by lia. reflexivity. }
  replace ((N.of_nat i * 16 + N.of_nat j) mod 16)%N with (N.of_nat j).
  2: { rewrite N.add_comm, N.mod_add, N.mod_small by lia. reflexivity. }
  rewrite !Nat2N.id. reflexivity.
Qed.

Lemma parse_hex_inv s l : parse_hex s = Ok l -> hexify l = s.
Proof.
  unfold parse_hex. destruct (Nat.eqb_spec (length s mod 2) 0) as [Hm|]; [|discriminate]. cbn [negb].
  revert l. pattern s. revert Hm. revert s. apply pair_ind.
  - intros l H. injection H as <-. reflexivity.
  - intros a b s IH l H. cbn [parse_hex_loop] in H.
    destruct (index_of a hex_table) as [i|] eqn:Ei; [|discriminate].
    destruct (index_of b hex_table) as [j|] eqn:Ej; [|discriminate].
    destruct (parse_hex_loop s) as [l'|] eqn:El; [|discriminate]. injection H as <-.
    apply index_of_nth in Ei as [Hi1 Hi2], Ej as [Hj1 Hj2].
    change (hexify (n2b (N.of_nat i * 16 + N.of_nat j) :: l')) with (hexb (n2b (N.of_nat i * 16 + N.of_nat j)) ++ hexify l').
    rewrite hex_pair_value by (change (length hex_table) with 16 in *; assumption).
    rewrite Hi2, Hj2, (IH l' eq_refl). reflexivity.
Qed.

Lemma parse_hex_accepts s :
  (exists l, parse_hex s = Ok l) <-> (length s mod 2 = 0 /\ Forall is_hex_digit s).
Proof.
  split.
  - intros (l & H). pose proof (parse_hex_inv s l H) as <-. split.
    + rewrite hexify_length, Nat.mul_comm. apply Nat.mod_mul. lia.
    + apply hexify_digits.
  - intros [Hm HF]. unfold parse_hex. rewrite Hm. cbn [Nat.eqb negb].
    revert HF. pattern s. revert Hm. revert s. apply pair_ind.
    + intros _. exists []. reflexivity.
    + intros a b s IH HF. inversion HF as [|? ? Ha HF1]; subst. inversion HF1 as [|? ? Hb HF2]; subst.
      destruct (IH HF2) as (l & Hl). cbn [parse_hex_loop]. apply index_of_In in Ha, Hb.
      destruct (index_of a hex_table) as [i|]; [|congruence]. destruct (index_of b hex_table) as [j|]; [|congruence].
      rewrite Hl. cbn [rmap]. eauto.
Qed.

(** ** Base32, bit by bit *)

(** Bit [j] of a byte string, most significant bit of the first byte first. *)
Definition bit (l : bytes) (j : nat) : bool := N.testbit (b2n (get l (j / 8))) (N.of_nat (7 - j mod 8)).

Lemma byte_bits a b : (forall k, k < 8 -> N.testbit (b2n a) (N.of_nat (7 - k)) = N.testbit (b2n b) (N.of_nat (7 - k))) -> a = b.
Proof.
  intros H. apply b2n_inj. apply N.bits_inj. intros i.
  destruct (N.lt_ge_cases i 8) as [Hi|Hi].
  - specialize (H (7 - N.to_nat i) ltac:(lia)).
    replace (N.of_nat (7 - (7 - N.to_nat i))) with i in H by lia. exact H.
  - assert (Hhi : forall c, N.testbit (b2n c) i = false).
    { intros c. rewrite <- (N.mod_small (b2n c) (2 ^ 8)) by (apply b2n_lt). apply N.mod_pow2_bits_high. exact Hi. }
    rewrite !Hhi. reflexivity.
Qed.

Lemma bits_ext a b : length a = length b -> (forall j, j < 8 * length a -> bit a j = bit b j) -> a = b.
Proof.
  intros HL H. apply bytes_ext; [exact HL|]. intros i Hi. apply byte_bits. intros k Hk.
  specialize (H (k + i * 8) ltac:(lia)). unfold bit in H.
  rewrite Nat.div_add, Nat.mod_add, Nat.div_small, Nat.mod_small, Nat.add_0_l in H by lia. exact H.
Qed.

Definition upto (n : nat) (f : nat -> bool) : bool := forallb f (seq 0 n).
Lemma upto_spec n f : upto n f = true -> forall i, i < n -> f i = true.
Proof. unfold upto. rewrite forallb_forall. intros H i Hi. apply H, in_seq. lia. Qed.

(** The group extracted at bit offset [m] of [b] (followed by [next]). *)
Lemma group_bits b next m t : m < 8 -> t < 5 ->
  N.testbit (get_alphabet_index (b2n b) (b2n next) m) (N.of_nat (4 - t))
  = if m + t <? 8 then N.testbit (b2n b) (N.of_nat (7 - (m + t)))
    else N.testbit (b2n next) (N.of_nat (15 - (m + t))).
Proof.
  intros Hm Ht.
  (* the contribution of each byte is checked exhaustively *)
  pose (g1 := fun b m => get_alphabet_index b 0 m). pose (g2 := fun n m => get_alphabet_index 0 n m).
  assert (Hsplit : get_alphabet_index (b2n b) (b2n next) m = N.lor (g1 (b2n b) m) (g2 (b2n next) m)).
  { unfold g1, g2. destruct m as [|[|[|[|[|[|[|m]]]]]]]; cbn [get_alphabet_index];
      rewrite ?N.shiftr_0_l, ?N.land_0_l, ?N.shiftl_0_l, ?N.lor_0_l, ?N.lor_0_r; reflexivity. }
  rewrite Hsplit, N.lor_spec.
  assert (H1 : upto 8 (fun m => upto 5 (fun t => Bool.eqb (N.testbit (g1 (b2n b) m) (N.of_nat (4 - t)))
     (if m + t <? 8 then N.testbit (b2n b) (N.of_nat (7 - (m + t))) else false))) = true).
  { apply (byte_sweep (fun b => upto 8 (fun m => upto 5 (fun t => Bool.eqb (N.testbit (g1 (b2n b) m) (N.of_nat (4 - t)))
     (if m + t <? 8 then N.testbit (b2n b) (N.of_nat (7 - (m + t))) else false))))).
    vm_compute. reflexivity. }
  assert (H2 : upto 8 (fun m => upto 5 (fun t => Bool.eqb (N.testbit (g2 (b2n next) m) (N.of_nat (4 - t)))
     (if m + t <? 8 then false else N.testbit (b2n next) (N.of_nat (15 - (m + t)))))) = true).
  { apply (byte_sweep (fun b => upto 8 (fun m => upto 5 (fun t => Bool.eqb (N.testbit (g2 (b2n b) m) (N.of_nat (4 - t)))
     (if m + t <? 8 then false else N.testbit (b2n b) (N.of_nat (15 - (m + t)))))))).
    vm_compute. reflexivity. }
  pose proof (upto_spec 5 _ (upto_spec 8 _ H1 m Hm) t Ht) as E1. apply eqb_prop in E1. cbv beta in E1. rewrite E1.
  pose proof (upto_spec 5 _ (upto_spec 8 _ H2 m Hm) t Ht) as E2. apply eqb_prop in E2. cbv beta in E2. rewrite E2.
  destruct (m + t <? 8); [apply orb_false_r|reflexivity].
Qed.

Lemma group_lt b next m : (get_alphabet_index (b2n b) (b2n next) m < 32)%N.
Proof.
  assert (Hm : exists m', m' < 8 /\ get_alphabet_index (b2n b) (b2n next) m = get_alphabet_index (b2n b) (b2n next) m').
  { destruct (Nat.lt_ge_cases m 8) as [H|H]; [exists m; auto|]. exists 7. split; [lia|].
    destruct m as [|[|[|[|[|[|[|m]]]]]]]; try lia; reflexivity. }
  destruct Hm as (m' & Hm' & ->). clear m.
  pose (g1 := fun b m => get_alphabet_index b 0 m). pose (g2 := fun n m => get_alphabet_index 0 n m).
  assert (Hsplit : get_alphabet_index (b2n b) (b2n next) m' = N.lor (g1 (b2n b) m') (g2 (b2n next) m')).
  { unfold g1, g2. destruct m' as [|[|[|[|[|[|[|m]]]]]]]; cbn [get_alphabet_index];
      rewrite ?N.shiftr_0_l, ?N.land_0_l, ?N.shiftl_0_l, ?N.lor_0_l, ?N.lor_0_r; reflexivity. }
  rewrite Hsplit.
  assert (H1 : upto 8 (fun m => (N.land (g1 (b2n b) m) 31 =? g1 (b2n b) m)%N) = true)
    by (apply (byte_sweep (fun b => upto 8 (fun m => (N.land (g1 (b2n b) m) 31 =? g1 (b2n b) m)%N))); vm_compute; reflexivity).
  assert (H2 : upto 8 (fun m => (N.land (g2 (b2n next) m) 31 =? g2 (b2n next) m)%N) = true)
    by (apply (byte_sweep (fun b => upto 8 (fun m => (N.land (g2 (b2n b) m) 31 =? g2 (b2n b) m)%N))); vm_compute; reflexivity).
  apply (upto_spec 8 _) with (i := m') in H1, H2; try exact Hm'. apply N.eqb_eq in H1, H2.
  rewrite <- H1, <- H2, <- N.land_lor_distr_l. change 31%N with (N.ones 5). rewrite N.land_ones.
  apply N.mod_lt. discriminate.
Qed.

Lemma encode_group_bit l k t : t < 5 ->
  N.testbit (encode_group l k) (N.of_nat (4 - t)) = bit l (5 * k + t).
Proof.
  intros Ht. unfold encode_group.
  replace (if 5 * k / 8 + 1 <? length l then nth (5 * k / 8 + 1) l x00 else x00) with (get l (5 * k / 8 + 1)).
  2: { unfold get. destruct (Nat.ltb_spec (5 * k / 8 + 1) (length l)); [reflexivity|]. apply nth_overflow. lia. }
  fold (get l (5 * k / 8)).
  pose proof (Nat.mod_upper_bound (5 * k) 8 ltac:(lia)) as Hm.
  rewrite group_bits by assumption. unfold bit.
  pose proof (Nat.div_mod (5 * k) 8 ltac:(lia)) as E.
  set (q := 5 * k / 8) in *. set (m := 5 * k mod 8) in *.
  destruct (Nat.ltb_spec (m + t) 8) as [H|H].
  - replace (5 * k + t) with (m + t + q * 8) by lia.
    rewrite Nat.div_add, Nat.mod_add, Nat.div_small, Nat.mod_small by lia. reflexivity.
  - replace (5 * k + t) with (m + t - 8 + (q + 1) * 8) by lia.
    rewrite Nat.div_add, Nat.mod_add, Nat.div_small, Nat.mod_small by lia.
    cbn [Nat.add]. do 2 f_equal. lia.
Qed.

Lemma encode_loop_ok l ks :
  base32_encode_loop l ks = Ok (map (fun k => nth (N.to_nat (encode_group l k)) upper32 x00) ks).
Proof.
  induction ks as [|k ks IH]; [reflexivity|]. cbn [base32_encode_loop].
  destruct (N.leb_spec 32 (encode_group l k)) as [H|H].
  - exfalso. unfold encode_group in H.
    pose proof (group_lt (nth (5 * k / 8) l x00)
       (if 5 * k / 8 + 1 <? length l then nth (5 * k / 8 + 1) l x00 else x00) (5 * k mod 8)). lia.
  - rewrite IH. reflexivity.
Qed.

Definition enc32 (l : bytes) : bytes :=
  map (fun k => nth (N.to_nat (encode_group l k)) upper32 x00) (seq 0 (encode_groups (length l))).

Lemma base32_encode_ok l : base32_encode l = Ok (enc32 l).
Proof. apply encode_loop_ok. Qed.

Lemma enc32_length l : length (enc32 l) = encode_groups (length l).
Proof. unfold enc32. rewrite map_length, seq_length. reflexivity. Qed.

Lemma encode_group_lt l k : N.to_nat (encode_group l k) < 32.
Proof.
  unfold encode_group.
  pose proof (group_lt (nth (5 * k / 8) l x00)
     (if 5 * k / 8 + 1 <? length l then nth (5 * k / 8 + 1) l x00 else x00) (5 * k mod 8)). lia.
Qed.

Lemma enc32_alphabet l : Forall (fun c => In c upper32) (enc32 l).
Proof.
  unfold enc32. apply Forall_forall. intros c Hc. apply in_map_iff in Hc as (k & <- & _).
  apply nth_In. change (length upper32) with 32. apply encode_group_lt.
Qed.

(** Either case of a character decodes to its group. *)
Lemma decode_group_upper g : g < 32 -> decode_group (nth g upper32 x00) = Some g.
Proof.
  intros Hg. apply opt_eq.
  apply (upto_spec 32 (fun g => match decode_group (nth g upper32 x00) with Some h => h =? g | None => false end)); [|exact Hg].
  vm_compute. reflexivity.
Qed.

Lemma decode_group_lower g : g < 32 -> decode_group (lower_byte (nth g upper32 x00)) = Some g.
Proof.
  intros Hg. apply opt_eq.
  apply (upto_spec 32 (fun g => match decode_group (lower_byte (nth g upper32 x00)) with Some h => h =? g | None => false end)); [|exact Hg].
  vm_compute. reflexivity.
Qed.

Lemma or_at_length out i v : length (or_at out i v) = length out.
Proof. revert i; induction out as [|x out IH]; intros [|i]; cbn; auto. Qed.

Lemma get_or_at out i v j : j < length out ->
  get (or_at out i v) j = if j =? i then n2b (N.lor (b2n (get out j)) v) else get out j.
Proof.
  revert i j; induction out as [|x out IH]; intros i j Hj; [cbn in Hj; lia|].
  destruct i as [|i], j as [|j]; cbn [or_at]; try reflexivity.
  unfold get in *. cbn [nth Nat.eqb]. apply IH. cbn in Hj. lia.
Qed.

(** One decoding step adds exactly the five bits of the group. *)
Lemma pair_bits g m k : g < 32 -> m < 8 -> k < 8 ->
  let '(p1, p2) := get_base32_pair (N.of_nat g) m in
  N.testbit p1 (N.of_nat (7 - k)) = ((m <=? k) && (k <? m + 5) && N.testbit (N.of_nat g) (N.of_nat (4 - (k - m)))) /\
  N.testbit p2 (N.of_nat (7 - k)) = ((k + 8 <? m + 5) && N.testbit (N.of_nat g) (N.of_nat (4 - (k + 8 - m)))).
Proof.
  intros Hg Hm Hk.
  assert (H : upto 32 (fun g => upto 8 (fun m => upto 8 (fun k =>
    let '(p1, p2) := get_base32_pair (N.of_nat g) m in
    Bool.eqb (N.testbit p1 (N.of_nat (7 - k))) ((m <=? k) && (k <? m + 5) && N.testbit (N.of_nat g) (N.of_nat (4 - (k - m))))
    && Bool.eqb (N.testbit p2 (N.of_nat (7 - k))) ((k + 8 <? m + 5) && N.testbit (N.of_nat g) (N.of_nat (4 - (k + 8 - m))))))) = true)
    by (vm_compute; reflexivity).
  pose proof (upto_spec 8 _ (upto_spec 8 _ (upto_spec 32 _ H g Hg) m Hm) k Hk) as E. cbv beta in E.
  destruct (get_base32_pair (N.of_nat g) m) as [p1 p2]. apply andb_prop in E as [E1 E2].
  apply eqb_prop in E1, E2. auto.
Qed.

Lemma testbit_n2b_lor x v k : k < 8 ->
  N.testbit (b2n (n2b (N.lor (b2n x) v))) (N.of_nat (7 - k))
  = N.testbit (b2n x) (N.of_nat (7 - k)) || N.testbit v (N.of_nat (7 - k)).
Proof. intros Hk. rewrite b2n_n2b. change 256%N with (2 ^ 8)%N. rewrite N.mod_pow2_bits_low by lia. apply N.lor_spec. Qed.

Definition step32 (i : nat) (g : nat) (out : bytes) : bytes :=
  let byte_index := i * 5 / 8 in
  let '(p1, p2) := get_base32_pair (N.of_nat g) (i * 5 mod 8) in
  let out1 := or_at out byte_index p1 in
  if byte_index + 1 <? length out then or_at out1 (byte_index + 1) p2 else out1.

Lemma step32_length i g out : length (step32 i g out) = length out.
Proof.
  unfold step32. destruct (get_base32_pair _ _). destruct (_ <? _); rewrite ?or_at_length; reflexivity.
Qed.

Lemma step32_bit i g out j : g < 32 -> j < 8 * length out ->
  bit (step32 i g out) j
  = bit out j || ((5 * i <=? j) && (j <? 5 * i + 5) && N.testbit (N.of_nat g) (N.of_nat (4 - (j - 5 * i)))).
Proof.
  intros Hg Hj. unfold step32.
  pose proof (Nat.div_mod (i * 5) 8 ltac:(lia)) as Ei. pose proof (Nat.mod_upper_bound (i * 5) 8 ltac:(lia)) as Hm.
  pose proof (Nat.div_mod j 8 ltac:(lia)) as Ej. pose proof (Nat.mod_upper_bound j 8 ltac:(lia)) as Hk.
  pose proof (pair_bits g (i * 5 mod 8) (j mod 8) Hg Hm Hk) as HP.
  destruct (get_base32_pair (N.of_nat g) (i * 5 mod 8)) as [p1 p2]. destruct HP as [HP1 HP2].
  set (q := i * 5 / 8) in *. set (m := i * 5 mod 8) in *. set (jq := j / 8) in *. set (k := j mod 8) in *.
  unfold bit. fold jq. fold k.
  assert (Hjl : jq < length out) by (unfold jq; apply Nat.div_lt_upper_bound; lia).
  (* each of the two bytes touched *)
  assert (HA : N.testbit (b2n (get (or_at out q p1) jq)) (N.of_nat (7 - k))
     = N.testbit (b2n (get out jq)) (N.of_nat (7 - k)) || ((jq =? q) && N.testbit p1 (N.of_nat (7 - k)))).
  { rewrite get_or_at by exact Hjl. destruct (jq =? q); [apply testbit_n2b_lor; exact Hk|symmetry; apply orb_false_r]. }
  assert (HB : forall o, length o = length out -> N.testbit (b2n (get (if q + 1 <? length out then or_at o (q + 1) p2 else o) jq)) (N.of_nat (7 - k))
     = N.testbit (b2n (get o jq)) (N.of_nat (7 - k)) || ((jq =? q + 1) && N.testbit p2 (N.of_nat (7 - k)))).
  { intros o Ho. destruct (Nat.ltb_spec (q + 1) (length out)) as [Hq|Hq].
    - rewrite get_or_at by lia. destruct (jq =? q + 1); [apply testbit_n2b_lor; exact Hk|symmetry; apply orb_false_r].
    - destruct (Nat.eqb_spec jq (q + 1)); [lia|]. symmetry. apply orb_false_r. }
  rewrite HB by apply or_at_length. rewrite HA, HP1, HP2. rewrite <- orb_assoc. f_equal.
  destruct (Nat.eqb_spec jq q) as [E1|E1], (Nat.eqb_spec jq (q + 1)) as [E2|E2]; try lia; cbn [andb orb].
  - rewrite orb_false_r.
    replace (5 * i <=? j) with (m <=? k) by (destruct (Nat.leb_spec m k), (Nat.leb_spec (5 * i) j); try lia; reflexivity).
    replace (j <? 5 * i + 5) with (k <? m + 5) by (destruct (Nat.ltb_spec k (m + 5)), (Nat.ltb_spec j (5 * i + 5)); try lia; reflexivity).
    replace (j - 5 * i) with (k - m) by lia. reflexivity.
  - replace (5 * i <=? j) with true by (symmetry; apply Nat.leb_le; lia). cbn [andb].
    replace (j <? 5 * i + 5) with (k + 8 <? m + 5) by (destruct (Nat.ltb_spec (k + 8) (m + 5)), (Nat.ltb_spec j (5 * i + 5)); try lia; reflexivity).
    replace (j - 5 * i) with (k + 8 - m) by lia. reflexivity.
Qed.

(** Decoding any string whose characters have the groups of [l]. *)
Lemma decode_loop_ok l n : forall s i out,
  length out = n -> length l = n ->
  (forall j, j < 8 * n -> bit out j = (j <? 5 * i) && bit l j) ->
  (forall p, p < length s -> decode_group (get s p) = Some (N.to_nat (encode_group l (i + p)))) ->
  i + length s = encode_groups n ->
  base32_decode_loop s i out = Ok l.
Proof.
  intros s. induction s as [|c s IH]; intros i out Ho Hl Hb Hs Hn.
  - cbn [base32_decode_loop]. f_equal. apply bits_ext; [lia|]. intros j Hj. rewrite Hb by lia.
    destruct (Nat.ltb_spec j (5 * i)); [reflexivity|]. exfalso.
    cbn [length] in Hn. rewrite Nat.add_0_r in Hn. subst i.
    unfold encode_groups in *. pose proof (Nat.div_mod (n * 8 + 4) 5 ltac:(lia)).
    pose proof (Nat.mod_upper_bound (n * 8 + 4) 5 ltac:(lia)). lia.
  - cbn [base32_decode_loop]. pose proof (Hs 0 ltac:(cbn; lia)) as Hc. unfold get in Hc. cbn [nth] in Hc.
    rewrite Nat.add_0_r in Hc. rewrite Hc.
    set (g := N.to_nat (encode_group l i)) in *. assert (Hg : g < 32) by apply encode_group_lt.
    assert (Hin : i * 5 / 8 < length out).
    { rewrite Ho. apply Nat.div_lt_upper_bound; [lia|]. cbn [length] in Hn.
      unfold encode_groups in Hn. pose proof (Nat.div_mod (n * 8 + 4) 5 ltac:(lia)).
      pose proof (Nat.mod_upper_bound (n * 8 + 4) 5 ltac:(lia)). lia. }
    pose proof (step32_length i g out) as HL. pose proof (fun j => step32_bit i g out j Hg) as HB.
    unfold step32 in HL, HB. destruct (get_base32_pair (N.of_nat g) (i * 5 mod 8)) as [p1 p2].
    destruct (Nat.leb_spec (length out) (i * 5 / 8)) as [Hle|_]; [lia|].
    apply (IH (S i)).
    + rewrite HL. exact Ho.
    + exact Hl.
    + intros j Hj. rewrite HB by lia. rewrite Hb by exact Hj.
      destruct (Nat.ltb_spec j (5 * i)) as [H1|H1].
      * destruct (Nat.leb_spec (5 * i) j); [lia|]. destruct (Nat.ltb_spec j (5 * S i)); [|lia].
        cbn [andb]. apply orb_false_r.
      * cbn [andb orb]. destruct (Nat.leb_spec (5 * i) j); [|lia].
        replace (5 * S i) with (5 * i + 5) by lia.
        destruct (Nat.ltb_spec j (5 * i + 5)); [|reflexivity]. cbn [andb].
        unfold g. rewrite N2Nat.id, encode_group_bit by lia. f_equal. lia.
    + intros p Hp. specialize (Hs (S p) ltac:(cbn; lia)). unfold get in *. cbn [nth] in Hs.
      replace (S i + p) with (i + S p) by lia. exact Hs.
    + cbn [length] in Hn. lia.
Qed.

Lemma groups_back n : encode_groups n * 5 / 8 = n.
Proof.
  unfold encode_groups. pose proof (Nat.div_mod (n * 8 + 4) 5 ltac:(lia)) as E1.
  pose proof (Nat.mod_upper_bound (n * 8 + 4) 5 ltac:(lia)) as E2.
  set (g := (n * 8 + 4) / 5) in *. symmetry. apply (Nat.div_unique (g * 5) 8 n (g * 5 - 8 * n)); lia.
Qed.

(** A string equal to the encoding up to the case of its letters. *)
Lemma base32_roundtrip l s :
  length s = length (enc32 l) ->
  (forall p, p < length s -> get s p = get (enc32 l) p \/ get s p = lower_byte (get (enc32 l) p)) ->
  base32_decode s = Ok l.
Proof.
  intros HL Hs. rewrite enc32_length in HL. unfold base32_decode. rewrite HL, groups_back.
  apply (decode_loop_ok l (length l) s 0).
  - apply zeros_length.
  - reflexivity.
  - intros j Hj. unfold bit. rewrite get_zeros. replace (j <? 5 * 0) with false by (symmetry; apply Nat.ltb_ge; lia).
    reflexivity.
  - intros p Hp. cbn [Nat.add].
    assert (He : get (enc32 l) p = nth (N.to_nat (encode_group l p)) upper32 x00).
    { unfold get, enc32. rewrite nth_indep with (d' := nth (N.to_nat (encode_group l 0)) upper32 x00)
        by (rewrite map_length, seq_length; lia).
      rewrite (map_nth (fun k => nth (N.to_nat (encode_group l k)) upper32 x00) (seq 0 (encode_groups (length l))) 0 p).
      rewrite seq_nth by lia. reflexivity. }
    destruct (Hs p Hp) as [-> | ->]; rewrite He;
      [apply decode_group_upper|apply decode_group_lower]; apply encode_group_lt.
  - cbn [Nat.add]. exact HL.
Qed.

Lemma base32_decode_enc l : base32_decode (enc32 l) = Ok l.
Proof. apply base32_roundtrip; auto. Qed.

Lemma base32_decode_lower l : base32_decode (to_lower (enc32 l)) = Ok l.
Proof.
  apply base32_roundtrip; [unfold to_lower; apply map_length|]. intros p Hp. right. unfold to_lower, get.
  rewrite nth_indep with (d' := lower_byte x00) by exact Hp. apply map_nth.
Qed.

Lemma enc32_ci_inj a b : to_lower (enc32 a) = to_lower (enc32 b) -> a = b.
Proof.
  intros H. pose proof (base32_decode_lower a) as Ha. rewrite H, base32_decode_lower in Ha. congruence.
Qed.

(** Spellings that differ at most in letter case. *)
Lemma lower_cases c e : In e upper32 -> lower_byte c = lower_byte e -> c = e \/ c = lower_byte e.
Proof.
  assert (H : forall c e, implb (existsb (Byte.eqb e) upper32 && Byte.eqb (lower_byte c) (lower_byte e))
                            (Byte.eqb c e || Byte.eqb c (lower_byte e)) = true).
  { apply byte_sweep2. vm_compute. reflexivity. }
  intros He Hc. specialize (H c e).
  assert (E1 : existsb (Byte.eqb e) upper32 = true).
  { apply existsb_exists. exists e. split; [exact He|apply byte_eqb_refl]. }
  rewrite E1, Hc, byte_eqb_refl in H. cbn [andb implb] in H. apply orb_prop in H as [H|H]; apply byte_eqb_eq in H; auto.
Qed.

Lemma base32_decode_ci l s : to_lower s = to_lower (enc32 l) -> base32_decode s = Ok l.
Proof.
  intros H. unfold to_lower in H. assert (HL : length s = length (enc32 l)).
  { apply (f_equal (@length _)) in H. rewrite !map_length in H. exact H. }
  apply base32_roundtrip; [exact HL|]. intros p Hp. apply lower_cases.
  - pose proof (enc32_alphabet l) as HF. rewrite Forall_forall in HF. apply HF. apply nth_In. lia.
  - apply (f_equal (fun m => nth p m (lower_byte x00))) in H. rewrite !map_nth in H. exact H.
Qed.
