(** Nonces and secrecy: the theorems about whole histories. *)
From Coq Require Import Sorted.
From Verif Require Import Base BaseLemmas StreamSpec BlockModel BlockProofs CodecModel LiteModel LiteProofs LiteTamper
  FullStreamModel FullStreamProofs CrashModel CrashSpec CrashProofs CrashTop CryptoProofs SecrecySpec SecrecyProofs.

(** ** The ideal cipher *)
Lemma xor1_same x : xor1 x x = x00.
Proof. unfold xor1. rewrite N.lxor_nilpotent. reflexivity. Qed.
Lemma xor1_assoc x y z : xor1 (xor1 x y) z = xor1 x (xor1 y z).
Proof. unfold xor1. rewrite !n2b_lxor. rewrite N.lxor_assoc. reflexivity. Qed.
Lemma xor1_zero x : xor1 x x00 = x.
Proof. unfold xor1. change (b2n x00) with 0%N. rewrite N.lxor_0_r. apply n2b_b2n. Qed.
Lemma xor1_comm x y : xor1 x y = xor1 y x.
Proof. unfold xor1. rewrite N.lxor_comm. reflexivity. Qed.
Lemma xor1_cancel x y : xor1 (xor1 x y) y = x.
Proof. rewrite xor1_assoc, xor1_same. apply xor1_zero. Qed.

Lemma masked_length p : forall pad, length (masked pad p) = length p.
Proof. induction p as [|x p IH]; intros pad; cbn [masked length]; auto. Qed.
Lemma masked_twice p : forall pad, masked pad (masked pad p) = p.
Proof. induction p as [|x p IH]; intros pad; cbn [masked]; [reflexivity|]. rewrite xor1_cancel, IH. reflexivity. Qed.
(** The pad under which the second text has the ciphertext of the first. *)
Lemma masked_change p1 : forall p2 pad, length p1 = length p2 ->
  masked pad p1 = masked (fun i => xor1 (pad i) (xor1 (nth i p1 x00) (nth i p2 x00))) p2.
Proof.
  induction p1 as [|x p1 IH]; intros [|y p2] pad H; cbn [length] in H; try discriminate H; [reflexivity|]. cbn [masked nth]. f_equal.
  - rewrite (xor1_comm y). rewrite xor1_assoc. rewrite (xor1_assoc x y y), xor1_same, xor1_zero. apply xor1_comm.
  - rewrite (IH p2 (fun i => pad (S i)) ltac:(lia)). reflexivity.
Qed.
Lemma masked_ext p : forall pad pad', (forall i, i < length p -> pad i = pad' i) -> masked pad p = masked pad' p.
Proof.
  induction p as [|x p IH]; intros pad pad' H; cbn [masked]; [reflexivity|]. cbn [length] in H. rewrite (H 0) by lia. f_equal. apply IH. intros i Hi. apply H. lia.
Qed.
Lemma otp_ok tag pad : (forall k iv ad c, length (tag k iv ad c) = 16) -> aead_ok (otp tag pad).
Proof.
  intros Ht. constructor; intros; cbn [otp a_enc a_dec fst snd]; rewrite ?masked_length; auto.
  rewrite masked_twice, bytes_eqb_refl. reflexivity.
Qed.

(** ** Lite *)
Lemma cut_concat u (l : list bytes) : 0 < u ->
  (fix ok l := match l with [] => True | x :: l' => match l' with [] => 0 < length x <= u | _ :: _ => length x = u /\ ok l' end end) l ->
  forall fuel, length (concat l) <= fuel -> cut fuel u (concat l) = l.
Proof.
  intros Hu. induction l as [|x l IH]; intros H fuel Hf; [destruct fuel; reflexivity|].
  assert (Hx : 0 < length x) by (destruct l; lia).
  cbn [concat] in *. rewrite app_length in Hf. destruct fuel as [|f]; [lia|].
  destruct (x ++ concat l) as [|b t] eqn:E; [destruct x; [cbn in Hx; lia|discriminate E]|]. cbn [cut]. rewrite <- E.
  destruct l as [|y l].
  - cbn [concat] in *. rewrite !app_nil_r. rewrite firstn_all2, skipn_all2 by lia. destruct f; reflexivity.
  - destruct H as [Hl H]. rewrite <- Hl at 1. rewrite firstn_app, Nat.sub_diag, firstn_all. cbn [firstn]. rewrite app_nil_r. f_equal.
    rewrite <- Hl, skipn_app, Nat.sub_diag, skipn_all. cbn [skipn app]. rewrite Hl. apply IH; [exact H|lia].
Qed.

Section LiteTop.
  Variable A : aead.
  Variable bs iv_size : nat.
  Variable rnd : nat -> nat -> bytes.
  Variable iv_fuel : nat.
  Hypothesis HE : lite_env_ok A bs iv_size rnd iv_fuel.

  Lemma lenc_length key pad e : length (lenc A iv_size rnd key pad e) = iv_size + length (snd e) + 16.
  Proof.
    unfold lenc, lite_encode_block. pose proof (aead_ct_len _ (le_aead _ _ _ _ _ HE) key (rnd (fst (fst e)) iv_size) (lite_aad pad (snd (fst e))) (snd e)) as H1.
    pose proof (aead_mac_len _ (le_aead _ _ _ _ _ HE) key (rnd (fst (fst e)) iv_size) (lite_aad pad (snd (fst e))) (snd e)) as H2.
    destruct (a_enc _ _ _ _ _) as [ct mac]. cbn [fst snd] in *. rewrite !app_length, (le_rnd _ _ _ _ _ HE). lia.
  Qed.
  Lemma lite_records_render key pad g : whole bs (gcall_ents g) ->
    lite_records bs iv_size (lrender A bs iv_size rnd key pad g) = map (lenc A iv_size rnd key pad) (gcall_ents g).
  Proof.
    intros H. destruct g as [a l|n]; cbn [lrender lite_records gcall_ents map] in *; [|reflexivity].
    apply cut_concat; [lia| |lia]. induction l as [|e l IH]; cbn [map]; [exact I|]. cbn [whole] in H.
    destruct l as [|e2 l]; cbn [map] in *; rewrite lenc_length; [lia|]. destruct H as [H1 H2]. split; [lia|]. apply IH, H2.
  Qed.
  Lemma lite_records_history key pad l : Forall (fun g => whole bs (gcall_ents g)) l ->
    flat_map (lite_records bs iv_size) (map (lrender A bs iv_size rnd key pad) l) = map (lenc A iv_size rnd key pad) (ents l).
  Proof.
    induction 1 as [|g l Hg Hl IH]; [reflexivity|]. cbn [map flat_map]. unfold ents. cbn [flat_map]. rewrite map_app. fold (ents l). rewrite <- IH.
    rewrite lite_records_render by exact Hg. reflexivity.
  Qed.
End LiteTop.

Lemma NoDup_nonces (f : nat -> bytes) k k' l : NoDup (map f (seq k (k' - k))) -> StronglySorted lt l -> Forall (fun i => k <= i < k') l -> NoDup (map f l).
Proof.
  intros HN HS HF.
  assert (HI : forall i j, k <= i < k' -> k <= j < k' -> f i = f j -> i = j).
  { intros i j Hi Hj E. pose proof (proj1 (NoDup_nth (map f (seq k (k' - k))) (f 0)) HN (i - k) (j - k)) as H.
    rewrite map_length, seq_length in H. specialize (H ltac:(lia) ltac:(lia)).
    rewrite !(map_nth f), !seq_nth in H by lia. replace (k + (i - k)) with i in H by lia. replace (k + (j - k)) with j in H by lia. specialize (H E). lia. }
  induction HS as [|i l HS IH Hlt]; cbn [map]; [constructor|]. inversion HF as [|? ? Hi HF']; subst. constructor; [|apply IH, HF'].
  intros Hin. apply in_map_iff in Hin as (j & Ej & Hj). rewrite Forall_forall in Hlt, HF'. specialize (Hlt j Hj). specialize (HF' j Hj).
  specialize (HI i j Hi HF' (eq_sym Ej)). lia.
Qed.

(** The change of pad. *)
Definition diff_of (f : nat -> bytes) (l1 l2 : list ent) (iv : bytes) (i : nat) : byte :=
  match find (fun x => bytes_eqb (f (fst (fst (fst x)))) iv) (combine l1 l2) with
  | Some (e1, e2) => xor1 (nth i (snd e1) x00) (nth i (snd e2) x00)
  | None => x00
  end.
Lemma diff_of_ok f : forall l1 l2, Forall2 ent_like l1 l2 -> NoDup (map f (draws l1)) ->
  Forall2 (fun e1 e2 => forall pad : nat -> byte, masked pad (snd e1) = masked (fun i => xor1 (pad i) (diff_of f l1 l2 (f (fst (fst e1))) i)) (snd e2)) l1 l2.
Proof.
  intros l1 l2 HL HN.
  assert (K : forall e1 e2, In (e1, e2) (combine l1 l2) -> find (fun x => bytes_eqb (f (fst (fst (fst x)))) (f (fst (fst e1)))) (combine l1 l2) = Some (e1, e2)).
  { clear HL. revert l2 HN. induction l1 as [|x l1 IH]; intros l2 HN e1 e2 Hin; [destruct Hin|]. destruct l2 as [|y l2]; [destruct Hin|].
    cbn [combine draws map] in *. inversion HN as [|? ? Hn1 Hn2]; subst. cbn [find fst]. destruct Hin as [E|Hin].
    - injection E as <- <-. rewrite bytes_eqb_refl. reflexivity.
    - destruct (bytes_eqb (f (fst (fst x))) (f (fst (fst e1)))) eqn:Eb; [|apply IH; assumption].
      apply bytes_eqb_eq in Eb. exfalso. apply Hn1. rewrite Eb. apply in_combine_l in Hin. unfold draws. rewrite map_map. apply (in_map (fun e : ent => f (fst (fst e)))). exact Hin. }
  assert (G : forall m1 m2, Forall2 ent_like m1 m2 -> incl (combine m1 m2) (combine l1 l2) ->
    Forall2 (fun e1 e2 => forall pad : nat -> byte, masked pad (snd e1) = masked (fun i => xor1 (pad i) (diff_of f l1 l2 (f (fst (fst e1))) i)) (snd e2)) m1 m2).
  { intros m1 m2 HM. induction HM as [|e1 e2 m1 m2 He HM IH]; intros Hi; constructor.
    - intros pad. unfold diff_of. rewrite (K e1 e2) by (apply Hi; now left). apply masked_change. apply He.
    - apply IH. intros z Hz. apply Hi. now right. }
  apply G; [exact HL|apply incl_refl].
Qed.

Lemma Forall2_len {X Y} (R : X -> Y -> Prop) l1 l2 : Forall2 R l1 l2 -> length l1 = length l2.
Proof. induction 1; cbn [length]; auto. Qed.
Lemma Forall2_imp {X Y} (R Q : X -> Y -> Prop) l1 l2 : (forall a b, R a b -> Q a b) -> Forall2 R l1 l2 -> Forall2 Q l1 l2.
Proof. intros H. induction 1; constructor; auto. Qed.
Lemma app_split {X} (a b c d : list X) : length a = length c -> a ++ b = c ++ d -> a = c /\ b = d.
Proof.
  revert c. induction a as [|x a IH]; intros [|y c] HL E; cbn [length app] in *; try discriminate HL; [auto|].
  injection E as <- E. destruct (IH c ltac:(lia) E) as [-> ->]. auto.
Qed.

(** The same ciphertexts under the changed pad. *)
Lemma lrender_like tag pad1 pad2 bs iv_size rnd key pad g1 g2 :
  gcall_like g1 g2 ->
  Forall2 (fun e1 e2 => masked (pad1 key (rnd (fst (fst e1)) iv_size)) (snd e1) = masked (pad2 key (rnd (fst (fst e1)) iv_size)) (snd e2)) (gcall_ents g1) (gcall_ents g2) ->
  lrender (otp tag pad1) bs iv_size rnd key pad g1 = lrender (otp tag pad2) bs iv_size rnd key pad g2.
Proof.
  intros HL HM. destruct g1 as [a l1|n], g2 as [a2 l2|n2]; cbn [gcall_like gcall_ents] in *; try contradiction; [|now subst n2].
  destruct HL as [<- HL]. cbn [lrender]. f_equal. f_equal. clear a. induction HL as [|e1 e2 l1 l2 [E1 E2] HL IH]; cbn [map]; [reflexivity|].
  inversion HM as [|? ? ? ? M1 M2]; subst. f_equal; [|apply IH, M2].
  unfold lenc, lite_encode_block. cbn [otp a_enc]. rewrite <- E1, M1. reflexivity.
Qed.

Lemma Forall2_flat {X Y} (R : Y -> Y -> Prop) (f : X -> list Y) (Q : X -> X -> Prop) : (forall a b, Q a b -> length (f a) = length (f b)) ->
  forall l1 l2, Forall2 Q l1 l2 -> Forall2 R (flat_map f l1) (flat_map f l2) -> Forall2 (fun a b => Q a b /\ Forall2 R (f a) (f b)) l1 l2.
Proof.
  intros HQ l1 l2 H. induction H as [|a b l1 l2 Hab H IH]; intros HR; [constructor|]. cbn [flat_map] in HR.
  apply Forall2_app_inv_l in HR as (r1 & r2 & R1 & R2 & E).
  assert (L : length (f b) = length r1) by (rewrite <- (HQ a b Hab); apply (Forall2_len _ _ _ R1)).
  apply app_split in E as [E1 E2]; [|exact L]. subst r1 r2. constructor; [auto|apply IH, R2].
Qed.
Lemma gcall_like_length g1 g2 : gcall_like g1 g2 -> length (gcall_ents g1) = length (gcall_ents g2).
Proof. destruct g1, g2; cbn [gcall_like gcall_ents]; try contradiction; [intros [_ H]; apply (Forall2_len _ _ _ H)|reflexivity]. Qed.
Lemma ents_like g1 g2 : Forall2 gcall_like g1 g2 -> Forall2 ent_like (ents g1) (ents g2).
Proof.
  induction 1 as [|a b l1 l2 Hab H IH]; [constructor|]. unfold ents. cbn [flat_map]. apply Forall2_app; [|exact IH].
  destruct a, b; cbn [gcall_like gcall_ents] in *; try contradiction; [apply Hab|constructor].
Qed.

Section LiteTheorems.
  Variable bs iv_size : nat.
  Variable check sparse : bool.
  Variable session_key : bytes -> bytes.
  Variable padding_of : bytes -> nat.
  Variable rnd : nat -> nat -> bytes.
  Variable iv_fuel : nat.
  Notation lhistory A := (lite_history A bs iv_size check sparse session_key padding_of rnd iv_fuel).
  Notation lstep A := (lite_step A bs iv_size check sparse session_key padding_of rnd iv_fuel).
  Notation limit := (lite_max_blocks * bs).

  Lemma lite_nonces A s0 k ops : lite_env_ok A bs iv_size rnd iv_fuel ->
    lite_open bs iv_size session_key padding_of rnd [] k = Ok s0 -> Forall (lop_within limit) ops ->
    exists used : list ent,
      StronglySorted lt (draws used) /\
      Forall (fun i => l_rng s0 <= i < l_rng (fst (run_ops (lstep A) s0 ops))) (draws used) /\
      flat_map (lite_records bs iv_size) (lhistory A s0 ops) = map (lenc A iv_size rnd (l_key s0) (l_pad s0)) used.
  Proof.
    intros HE Ho Hops. destruct (lite_open_fresh A bs iv_size check session_key padding_of rnd iv_fuel HE k) as (s & E & HR).
    rewrite Ho in E. injection E as <-.
    destruct (lite_history_ghost A bs iv_size check sparse session_key padding_of rnd iv_fuel HE ops s0 [] HR (Nat.le_0_l _) Hops) as (H1 & H2 & H3).
    exists (ents (fst (lghost bs iv_size sparse rnd iv_fuel [] (l_rng s0) ops))).
    destruct (rising_sorted _ _ _ (lghost_rising bs iv_size sparse rnd iv_fuel ops [] (l_rng s0))) as [S1 S2].
    rewrite H1, H2. refine (conj S1 (conj S2 _)). apply (lite_records_history A bs iv_size rnd iv_fuel HE _ _ _ H3).
  Qed.

  Lemma lite_nonces_nodup A s0 k ops : lite_env_ok A bs iv_size rnd iv_fuel ->
    lite_open bs iv_size session_key padding_of rnd [] k = Ok s0 -> Forall (lop_within limit) ops ->
    NoDup (map (fun i => rnd i iv_size) (seq (l_rng s0) (l_rng (fst (run_ops (lstep A) s0 ops)) - l_rng s0))) ->
    NoDup (map (firstn iv_size) (flat_map (lite_records bs iv_size) (lhistory A s0 ops))).
  Proof.
    intros HE Ho Hops HN. destruct (lite_nonces A s0 k ops HE Ho Hops) as (used & S1 & S2 & E). rewrite E.
    pose proof (NoDup_nonces _ _ _ _ HN S1 S2) as H. unfold draws in H. rewrite map_map in *.
    erewrite map_ext; [exact H|]. intros e. unfold lenc, lite_encode_block. destruct (a_enc _ _ _ _ _).
    rewrite firstn_app, (le_rnd _ _ _ _ _ HE), Nat.sub_diag. cbn [firstn]. rewrite app_nil_r. apply firstn_all2. rewrite (le_rnd _ _ _ _ _ HE). lia.
  Qed.

  Lemma lite_secrecy tag s0 k ops1 ops2 :
    (forall pad, lite_env_ok (otp tag pad) bs iv_size rnd iv_fuel) ->
    lite_open bs iv_size session_key padding_of rnd [] k = Ok s0 ->
    Forall (lop_within limit) ops1 -> Forall (lop_within limit) ops2 -> Forall2 lalike ops1 ops2 ->
    exists diff : bytes -> bytes -> nat -> byte,
      (forall key, key <> l_key s0 -> forall iv i, diff key iv i = x00) /\
      forall pad,
        NoDup (map (fun i => rnd i iv_size) (seq (l_rng s0) (l_rng (fst (run_ops (lstep (otp tag pad)) s0 ops1)) - l_rng s0))) ->
        lhistory (otp tag pad) s0 ops1 = lhistory (otp tag (fun key iv i => xor1 (pad key iv i) (diff key iv i))) s0 ops2.
  Proof.
    intros HE Ho W1 W2 HL.
    assert (HR : forall pad, LRep (otp tag pad) bs iv_size check session_key padding_of s0 []).
    { intros pad. destruct (lite_open_fresh (otp tag pad) bs iv_size check session_key padding_of rnd iv_fuel (HE pad) k) as (s & E & HR). rewrite Ho in E. injection E as <-. exact HR. }
    set (g1 := lghost bs iv_size sparse rnd iv_fuel [] (l_rng s0) ops1). set (g2 := lghost bs iv_size sparse rnd iv_fuel [] (l_rng s0) ops2).
    destruct (lghost_like bs iv_size sparse rnd iv_fuel ops1 ops2 HL [] [] (l_rng s0) eq_refl) as [L1 L2]. fold g1 g2 in L1, L2.
    exists (fun key iv i => if bytes_eqb key (l_key s0) then diff_of (fun i => rnd i iv_size) (ents (fst g1)) (ents (fst g2)) iv i else x00).
    split.
    { intros key Hk iv i. destruct (bytes_eqb key (l_key s0)) eqn:E; [apply bytes_eqb_eq in E; contradiction|reflexivity]. }
    intros pad HN.
    destruct (lite_history_ghost _ bs iv_size check sparse session_key padding_of rnd iv_fuel (HE pad) ops1 s0 [] (HR pad) (Nat.le_0_l _) W1) as (H1 & H1r & _).
    destruct (lite_history_ghost _ bs iv_size check sparse session_key padding_of rnd iv_fuel
      (HE (fun key iv i => xor1 (pad key iv i) (if bytes_eqb key (l_key s0) then diff_of (fun i => rnd i iv_size) (ents (fst g1)) (ents (fst g2)) iv i else x00))) ops2 s0 [] (HR _) (Nat.le_0_l _) W2) as (H2 & _ & _).
    fold g1 in H1, H1r. fold g2 in H2. rewrite H1, H2. clear H1 H2. rewrite H1r in HN.
    destruct (rising_sorted _ _ _ (lghost_rising bs iv_size sparse rnd iv_fuel ops1 [] (l_rng s0))) as [S1 S2]. fold g1 in S1, S2.
    pose proof (NoDup_nonces _ _ _ _ HN S1 S2) as HNN.
    pose proof (diff_of_ok _ _ _ (ents_like _ _ L1) HNN) as HD.
    pose proof (Forall2_flat _ gcall_ents gcall_like gcall_like_length _ _ L1 HD) as HF. clear HD HNN HN S1 S2 H1r L1 L2.
    remember (diff_of (fun i => rnd i iv_size) (ents (fst g1)) (ents (fst g2))) as D. clear HeqD.
    induction HF as [|a b l1 l2 [Hab HM] HF IH]; [reflexivity|]. cbn [map]. f_equal; [|exact IH].
    apply lrender_like; [exact Hab|]. eapply Forall2_imp; [|exact HM]. intros e1 e2 H. cbv beta in *. rewrite H. apply masked_ext. intros i Hi.
    rewrite bytes_eqb_refl. reflexivity.
  Qed.
End LiteTheorems.
