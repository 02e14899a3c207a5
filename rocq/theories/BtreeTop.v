(** The directory theorems, assembled. *)
From Verif Require Import Base BaseLemmas CodecModel BtreeModel BtreeSpec BtreeCodec BtreeInv BtreeTree BtreeSearch BtreeInsert BtreeDelete BtreeDir BtreeFlush BtreeShape.
From Coq Require Import Permutation Sorting.Sorted.
Local Open Scope list_scope.

Section S.
Variable cmp : bytes -> bytes -> comparison.
Variable junk : N -> bytes.
Hypothesis Hcmp : cmp_ok cmp.
Hypothesis Hjunk : forall n, length (junk n) = 4096.

Lemma Hjunk' : forall n, length (junk n) = BLOCK_SIZE.
Proof. intros n. rewrite BLOCK_SIZE_eq. apply Hjunk. Qed.

Lemma D_empty : D cmp bt_empty [].
Proof.
  exists [], None. split; [apply rep_empty|]. split; [reflexivity|constructor].
Qed.

Lemma history ops :
  Forall dop_ok ops -> moderate cmp ops ->
  D cmp (fst (bt_run cmp junk ops bt_empty)) (fst (dspec_run cmp ops [])) /\
  Forall2 same_answer (snd (bt_run cmp junk ops bt_empty)) (snd (dspec_run cmp ops [])).
Proof. intros H1 H2. exact (run_ok cmp junk Hcmp Hjunk' ops bt_empty [] D_empty H1 H2). Qed.

Lemma shape ops :
  Forall dop_ok ops -> moderate cmp ops ->
  let st := fst (bt_run cmp junk ops bt_empty) in
  let m := fst (dspec_run cmp ops []) in
  exists h pgs es,
    dir_tree st h pgs es /\ strictly_sorted cmp es /\ Permutation es m /\
    (h = 0 \/ 2 * 7 ^ h <= S (length m)) /\ h <= 7.
Proof.
  intros H1 H2 st m. destruct (history ops H1 H2) as [(F & o & HR & HP & _) _].
  destruct (rep_dir_tree cmp _ _ _ HR) as (h & HT & Hh). fold st m in HT, HP, HR.
  exists h, (pages (tnodes o)), (ents o). split; [exact HT|].
  split; [exact (sorted_strict cmp _ (r_sorted _ _ _ _ HR))|]. split; [exact HP|].
  rewrite <- (Permutation_length HP). split; [exact Hh|].
  destruct Hh as [->|Hh]; [lia|].
  destruct (Nat.le_gt_cases h 7) as [|Hgt]; [assumption|exfalso].
  pose proof (r_count _ _ _ _ HR) as Hc. unfold MAX_ENTRIES in Hc.
  assert (H3 : (2 * 7 ^ N.of_nat h <= N.of_nat (length (ents o)) + 1)%N).
  { assert (E : forall k, (7 ^ N.of_nat k)%N = N.of_nat (7 ^ k)).
    { induction k as [|k IHk]; [reflexivity|]. change (7 ^ S k) with (7 * 7 ^ k).
      rewrite Nat2N.inj_succ, N.pow_succ_r', Nat2N.inj_mul, IHk. reflexivity. }
    rewrite E. lia. }
  assert (H4 : (7 ^ 8 <= 7 ^ N.of_nat h)%N) by (apply N.pow_le_mono_r; lia).
  change (7 ^ 8)%N with 5764801%N in H4. lia.
Qed.

Lemma partition ops :
  Forall dop_ok ops -> moderate cmp ops ->
  let st := fst (bt_run cmp junk ops bt_empty) in
  exists h pgs es fs,
    dir_tree st h pgs es /\ free_list st (b_free st) INVALID_PAGE fs /\
    Permutation (pgs ++ fs) (map N.of_nat (seq 0 (length (b_stream st) / 4096))) /\
    length (b_stream st) mod 4096 = 0 /\
    b_nfree st = N.of_nat (length fs) /\
    validate_free_list st = (st, Ok true).
Proof.
  intros H1 H2 st. destruct (history ops H1 H2) as [(F & o & HR & HP & _) _].
  destruct (rep_dir_tree cmp _ _ _ HR) as (h & HT & Hh). fold st in HT, HP, HR.
  destruct (rep_partition cmp _ _ _ HR) as (P1 & P2 & P3 & P4 & P5).
  exists h, (pages (tnodes o)), (ents o), F. auto 10.
Qed.

Lemma spec_flush o m : is_flush o = true -> dspec_step cmp o m = (m, Ok OUnit).
Proof. destruct o; cbn; intros H; try discriminate; reflexivity. Qed.

Lemma spec_drop ops : forall m,
  dspec_run cmp (filter (fun o => negb (is_flush o)) ops) m =
  (fst (dspec_run cmp ops m), drop_flush_answers ops (snd (dspec_run cmp ops m))).
Proof.
  induction ops as [|o ops IH]; intros m; [reflexivity|]. cbn [filter dspec_run].
  destruct (is_flush o) eqn:E; cbn [negb].
  - rewrite (spec_flush o m E), IH. destruct (dspec_run cmp ops m) as [m' rs]. cbn [fst snd drop_flush_answers].
    rewrite E. reflexivity.
  - cbn [dspec_run]. destruct (dspec_step cmp o m) as [m1 r]. rewrite IH.
    destruct (dspec_run cmp ops m1) as [m' rs]. cbn [fst snd drop_flush_answers]. rewrite E. reflexivity.
Qed.

Lemma firstn_filter {A} (f : A -> bool) : forall k l,
  exists j, firstn k (filter f l) = filter f (firstn j l).
Proof.
  intros k l. revert k. induction l as [|x l IH]; intros k.
  - exists 0. destruct k; reflexivity.
  - cbn [filter]. destruct (f x) eqn:E.
    + destruct k as [|k]; [exists 0; reflexivity|]. destruct (IH k) as [j Hj]. exists (S j).
      cbn [firstn filter]. rewrite E, Hj. reflexivity.
    + destruct (IH k) as [j Hj]. exists (S j). cbn [firstn filter]. rewrite E. exact Hj.
Qed.

Lemma moderate_filter ops : moderate cmp ops -> moderate cmp (filter (fun o => negb (is_flush o)) ops).
Proof.
  intros H k. destruct (firstn_filter (fun o => negb (is_flush o)) k ops) as [j ->].
  rewrite spec_drop. cbn [fst]. apply H.
Qed.

Lemma same_answer_sym_trans a b c : same_answer a c -> same_answer b c -> same_answer a b.
Proof.
  destruct a as [[| | |]|], b as [[| | |]|], c as [[| | |]|]; cbn; intros H1 H2; try congruence.
  rewrite H1, H2. reflexivity.
Qed.

Lemma forall2_sym_trans : forall l1 l2 l3,
  Forall2 same_answer l1 l3 -> Forall2 same_answer l2 l3 -> Forall2 same_answer l1 l2.
Proof.
  intros l1 l2 l3 H. revert l2. induction H as [|a c l1 l3 Hac H IH]; intros l2 H2.
  - inversion H2. constructor.
  - inversion H2; subst. constructor; [eapply same_answer_sym_trans; eassumption|auto].
Qed.

Lemma drop_answers_rel ops : forall rs rs',
  Forall2 same_answer rs rs' -> Forall2 same_answer (drop_flush_answers ops rs) (drop_flush_answers ops rs').
Proof.
  induction ops as [|o ops IH]; intros rs rs' H; [constructor|].
  destruct H as [|a b rs rs' H1 H2]; cbn [drop_flush_answers]; [constructor|].
  destruct (is_flush o); [auto|constructor; auto].
Qed.

Lemma flush_invisible ops :
  Forall dop_ok ops -> moderate cmp ops ->
  Forall2 same_answer
    (drop_flush_answers ops (snd (bt_run cmp junk ops bt_empty)))
    (snd (bt_run cmp junk (filter (fun o => negb (is_flush o)) ops) bt_empty)).
Proof.
  intros H1 H2. destruct (history ops H1 H2) as [_ A1].
  destruct (history (filter (fun o => negb (is_flush o)) ops)) as [_ A2].
  { rewrite Forall_forall in *. intros o Ho. apply filter_In in Ho. apply H1. apply Ho. }
  { apply moderate_filter. exact H2. }
  rewrite spec_drop in A2. cbn [snd] in A2.
  eapply forall2_sym_trans; [apply drop_answers_rel; exact A1|exact A2].
Qed.

Lemma names_distinct_dist m : names_distinct cmp m <-> dist cmp m.
Proof.
  induction m as [|e m IH]; cbn [names_distinct].
  - split; [constructor|trivial].
  - rewrite dist_cons, IH. split; intros [H1 H2]; (split; [|exact H2]).
    + intros y Hy He. unfold find_name in H1. pose proof (find_none _ _ H1 y Hy) as Hn. cbn beta in Hn.
      unfold same_name in Hn. rewrite He in Hn. discriminate.
    + apply find_name_none. exact H1.
Qed.

Lemma listing ops :
  Forall dop_ok ops -> moderate cmp ops ->
  exists st' l,
    list_entries (fst (bt_run cmp junk ops bt_empty)) = (st', Ok l) /\
    Permutation l (fst (dspec_run cmp ops [])) /\ names_distinct cmp l.
Proof.
  intros H1 H2. destruct (history ops H1 H2) as [(F & o & HR & HP & _) _].
  destruct (list_ok cmp _ _ _ HR) as (st1 & l & E1 & Pl & _).
  exists st1, l. split; [exact E1|]. split; [rewrite Pl; exact HP|].
  apply names_distinct_dist. eapply (dist_perm cmp Hcmp); [apply Permutation_sym; exact Pl|].
  apply dist_sorted. exact (r_sorted _ _ _ _ HR).
Qed.

Lemma spec_step_size o m : length (fst (dspec_step cmp o m)) <= S (length m).
Proof using cmp.
  clear Hcmp Hjunk junk.
  destruct o as [name|name id ty|name| | | |]; cbn [dspec_step].
  - destruct (name_too_long name); cbn; lia.
  - destruct (name_too_long name); [cbn; lia|]. destruct (find_name cmp name m); cbn; lia.
  - destruct (name_too_long name); [cbn; lia|]. cbn [fst]. unfold drop_name. clear.
    induction m as [|e m IH]; [cbn; lia|]. cbn [filter length]. destruct (negb _); cbn [length]; lia.
  - cbn; lia.
  - cbn; lia.
  - cbn; lia.
  - cbn; lia.
Qed.

Lemma spec_size ops : forall m, length (fst (dspec_run cmp ops m)) <= length m + length ops.
Proof using cmp.
  clear Hcmp Hjunk junk.
  induction ops as [|o ops IH]; intros m; [cbn; lia|]. cbn [dspec_run].
  pose proof (spec_step_size o m) as Hs. destruct (dspec_step cmp o m) as [m1 r]. cbn [fst] in Hs.
  specialize (IH m1). destruct (dspec_run cmp ops m1) as [m2 rs]. cbn [fst length] in *. lia.
Qed.

Lemma short_moderate ops : (N.of_nat (length ops) <= 6000000)%N -> moderate cmp ops.
Proof using cmp.
  clear Hcmp Hjunk junk.
  intros H k. pose proof (spec_size (firstn k ops) []) as Hs. pose proof (firstn_length k ops). cbn [length] in Hs. lia.
Qed.
End S.

(** ** Pages *)
Lemma page_round_trip cs es junk :
  node_fits cs es -> length junk = 4096 ->
  exists buf, to_buffer 4096 cs es = Ok buf /\ length buf <= 4096 /\
    from_buffer (buf ++ skipn (length buf) junk) = Ok (cs, es).
Proof.
  intros (H1 & H2 & H3 & H4) Hj.
  assert (HL : 8 + 4 * length cs + 292 * length es <= 4096) by lia.
  exists (node_bytes cs es). split; [apply to_buffer_ok; assumption|].
  split; [rewrite node_bytes_length; assumption|].
  apply from_buffer_node_bytes; try assumption; lia.
Qed.

Lemma page_load pg :
  length pg = 4096 ->
  from_buffer pg = Err ECorrupt \/
  exists cs es, from_buffer pg = Ok (cs, es) /\ Forall (fun c => (c < 2 ^ 32)%N) cs /\ Forall entry_ok es /\
    8 + 4 * length cs + 292 * length es <= 4096.
Proof.
  intros H. destruct (from_buffer_inv pg) as [E|[E|(cs & es & E & A & B & C)]]; [lia|left; exact E| |].
  - right. exists [], []. split; [exact E|]. split; [constructor|]. split; [constructor|]. cbn. lia.
  - right. exists cs, es. rewrite <- H. auto.
Qed.
