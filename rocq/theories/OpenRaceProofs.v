(** Proofs for C77. *)
From Verif Require Import Base BaseLemmas StreamSpec BlockModel BlockProofs LiteModel LiteProofs HandleModel HandleSpec HandleProofs
  ConcModel ConcSpec ConcProofs OpenRaceModel OpenRaceSpec.

Section OpenRaceProofs.
Variable A : aead.
Variable bs iv_size : nat.
Variable check sparse : bool.
Variable session_key : bytes -> bytes.
Variable padding_of : bytes -> nat.
Variable rnd : nat -> nat -> bytes.
Variable iv_fuel : nat.
Variable writable : nat -> bool.
Local Notation steps := (call_steps A bs iv_size check sparse session_key padding_of rnd iv_fuel writable).
Local Notation alone := (call_alone A bs iv_size check sparse session_key padding_of rnd iv_fuel writable).
Local Notation lopen := (lite_open bs iv_size session_key padding_of rnd).

Lemma on_bytes_exec {R} (p : prog bytes R) : forall s, exec (on_bytes p) s = ((fst (exec p (fst s)), snd s), snd (exec p (fst s))).
Proof.
  induction p as [r|u next IH]; intros s; cbn [on_bytes exec fst snd]; [destruct s; reflexivity|]. rewrite IH. reflexivity.
Qed.

Lemma steps_alone h c k s : exec (steps h c k) s = alone c k s.
Proof.
  destruct c as [h'|h' o|h']; cbn [call_steps call_alone].
  - unfold open_steps, lite_open, keep_handle. destruct s as [f t]. cbn [fst snd].
    destruct ((iv_size <? 12) || (32 <? iv_size)); [reflexivity|]. destruct (bs <? 32); [reflexivity|]. cbn [exec fst snd].
    assert (E0 : (length (arr_read f 0 lite_id_size) =? 0) = (length f =? 0)).
    { rewrite arr_read_length. rewrite Nat.sub_0_r. unfold lite_id_size. destruct (length f); reflexivity. }
    rewrite E0. destruct (length f =? 0) eqn:Ef.
    + destruct (writable h'); cbn [negb andb exec fst snd].
      * destruct (padding_of (rnd k lite_id_size) =? 0); cbn [exec fst snd l_file l_key l_pad]; reflexivity.
      * destruct (padding_of (rnd k lite_id_size) =? 0); reflexivity.
    + destruct (negb (length (arr_read f 0 lite_id_size) =? lite_id_size)); [reflexivity|]. cbn [exec fst snd].
      destruct (negb _ && negb _); reflexivity.
  - cbn [exec]. destruct (snd s h') as [[key pad]|]; [|reflexivity]. rewrite on_bytes_exec, lite_body_exec.
    destruct (bb_step _ _ o) as [l r]. reflexivity.
  - reflexivity.
Qed.

Hypothesis HE : lite_env_ok A bs iv_size rnd iv_fuel.
Local Notation lim := (lite_max_blocks * bs).
Local Notation hold := (holds A bs iv_size check session_key padding_of).

Definition ORep (s : fstate) (a : ofile) : Prop :=
  (forall h, snd a h = true <-> snd s h <> None) /\
  match fst a with
  | None => fst s = [] /\ forall h, snd s h = None
  | Some c => exists key pad, hold (fst s) key pad c /\ forall h kp, snd s h = Some kp -> kp = (key, pad)
  end.

Lemma ORep_new : ORep ([], fun _ => None) new_file.
Proof. split; [|split; reflexivity]. intros h. cbn. split; [discriminate|congruence]. Qed.

Lemma hold_nonempty f key pad c : hold f key pad c -> (length f =? 0) = false.
Proof.
  intros [[R1 R2 R3] _]. cbn [l_file] in R1. apply Nat.eqb_neq. rewrite R1. unfold l_header, lite_id_size. lia.
Qed.

Lemma ORep_step h c k s a : fair_call lim writable h c -> ORep s a ->
  ORep (fst (alone c k s)) (fst (ofile_step writable a c)) /\ snd (alone c k s) = snd (ofile_step writable a c).
Proof.
  intros Hf [HT HC]. destruct s as [f t], a as [content opened]. cbn [fst snd] in *.
  destruct c as [h'|h' o|h']; cbn [fair_call call_alone ofile_step fst snd] in *.
  - destruct content as [c|].
    + destruct HC as (key & pad & H & HK). rewrite (holds_open A bs iv_size check session_key padding_of rnd iv_fuel HE _ _ _ _ k H), (hold_nonempty _ _ _ _ H).
      cbn [andb l_file l_key l_pad fst snd]. split; [|reflexivity]. split; cbn [fst snd].
      * intros h1. unfold upd. destruct (h1 =? h'); [split; [discriminate|reflexivity]|apply HT].
      * exists key, pad. split; [exact H|]. intros h1 kp. unfold upd. destruct (h1 =? h'); [congruence|apply HK].
    + destruct HC as [-> HN]. destruct (holds_fresh A bs iv_size check session_key padding_of true rnd iv_fuel HE ltac:(discriminate) k) as (l & El & Hl).
      rewrite El. cbn [length Nat.eqb andb]. destruct (writable h'); cbn [negb fst snd]; (split; [|reflexivity]).
      * split; cbn [fst snd].
        -- intros h1. unfold upd. destruct (h1 =? h'); [split; [discriminate|reflexivity]|apply HT].
        -- exists (l_key l), (l_pad l). split; [exact Hl|]. intros h1 kp. unfold upd. destruct (h1 =? h'); [congruence|rewrite HN; discriminate].
      * split; cbn [fst snd]; auto.
  - destruct Hf as (-> & Ho & _). destruct (opened h) eqn:Eo.
    + apply HT in Eo. destruct (t h) as [kp|] eqn:Et; [|congruence]. destruct content as [c|]; [|rewrite (proj2 HC) in Et; discriminate].
      destruct HC as (key & pad & H & HK). pose proof (HK _ _ Et) as ->.
      destruct (holds_io A bs iv_size check sparse session_key padding_of rnd iv_fuel HE _ _ _ _ k o H Ho) as (l & E & H').
      rewrite E. destruct (spec_step c o) as [d r]. cbn [fst snd] in *. split; [|reflexivity]. split; cbn [fst snd]; [exact HT|eauto].
    + assert (Et : t h = None). { destruct (t h) eqn:Et; [|reflexivity]. assert (opened h = true) by (apply HT; congruence). congruence. }
      rewrite Et. cbn [fst snd]. split; [|reflexivity]. split; cbn [fst snd]; auto.
  - split; [|reflexivity]. split; cbn [fst snd].
    + intros h1. unfold upd. destruct (h1 =? h'); [split; [discriminate|congruence]|apply HT].
    + destruct content as [c|].
      * destruct HC as (key & pad & H & HK). exists key, pad. split; [exact H|]. intros h1 kp. unfold upd. destruct (h1 =? h'); [discriminate|apply HK].
      * destruct HC as [-> HN]. split; [reflexivity|]. intros h1. unfold upd. destruct (h1 =? h'); auto.
Qed.
End OpenRaceProofs.
