From Coq Require Import Lia Sorting.Permutation.
From Verif Require Import Base ThreadLocalModel ThreadLocalSpec.
Local Open Scope nat_scope.
Local Open Scope list_scope.

Lemma kmax : kMaxIndex = 256.
Proof. reflexivity. Qed.
#[global] Opaque kMaxIndex.
Lemma upd_same {A} (f : nat -> A) i v : upd f i v i = v.
Proof. unfold upd. now rewrite Nat.eqb_refl. Qed.
Lemma upd_other {A} (f : nat -> A) i v j : j <> i -> upd f i v j = f j.
Proof. intros H. unfold upd. now apply Nat.eqb_neq in H as ->. Qed.
Lemma mem_nat_iff n l : mem_nat n l = true <-> In n l.
Proof. induction l as [|x l IH]; cbn; [easy|]. rewrite Bool.orb_true_iff, Nat.eqb_eq, IH. intuition. Qed.
Lemma first_free_some f n : forall i k, first_free f i n = Some k -> i <= k < i + n /\ f k = false.
Proof. induction n as [|n IH]; intros i k; cbn; [discriminate|]. destruct (f i) eqn:E; [intros H; apply IH in H; lia|intros [= <-]; split; [lia|exact E]]. Qed.
Lemma first_free_none f n : forall i, first_free f i n = None -> forall k, i <= k < i + n -> f k = true.
Proof.
  induction n as [|n IH]; intros i; cbn; [intros; lia|]. destruct (f i) eqn:E; [|discriminate]. intros H k Hk. destruct (Nat.eq_dec k i) as [->|]; [exact E|]. apply (IH (S i)); [exact H|lia].
Qed.

(** Owner [o] is, or was, [k]. *)
Definition was (s : tls) (o : nat) (k : owner) : Prop := nth_error (owners s) o = Some k.
Definition full_holder (k : owner) (x : option nat) : holder := mkHolder (Some (w_gen k)) (Some (w_type k)) x.

Record TL (ts : list nat) (s : tls) (w : world) : Prop := mkTL {
  l_types : types w = map w_type (owners s);
  l_alive : forall o, In o (alive w) <-> exists k, was s o k /\ w_alive k = true;
  l_nodup : NoDup (alive w);
  l_run : forall t, running w t = calls s t;
  l_count : count w = made s;
  l_gen : forall o k, was s o k -> w_gen k <= gen s;
  l_gens : forall o o' k k', was s o k -> was s o' k' -> w_gen k = w_gen k' -> o = o';
  l_slot : forall o k, was s o k -> w_slot k < kMaxIndex;
  l_taken : forall i, taken s i = true <-> exists o k, was s o k /\ w_alive k = true /\ w_slot k = i;
  l_slots : forall o o' k k', was s o k -> was s o' k' -> w_alive k = true -> w_alive k' = true -> w_slot k = w_slot k' -> o = o';
  l_things : forall x t o, In (mkThing x t o) (things w) <-> exists k, was s o k /\ locals s t (w_slot k) = full_holder k (Some x);
  l_holder : forall t i x, h_data (locals s t i) = Some x -> exists o k, was s o k /\ w_slot k = i /\ locals s t i = full_holder k (Some x);
  l_objs : NoDup (map t_obj (things w));
  l_made : forall y, In y (things w) -> t_obj y < made s;
  l_calls : forall t o, In o (calls s t) -> In t ts /\ exists k, was s o k /\ w_alive k = true /\ locals s t (w_slot k) = full_holder k None;
  l_once : forall t, NoDup (calls s t)
}.

Lemma get_owner_iff s o k : get_owner s o = Some k <-> was s o k /\ w_alive k = true.
Proof.
  unfold get_owner, was. destruct (nth_error (owners s) o) as [w|]; [|intuition discriminate]. destruct (w_alive w) eqn:E; split.
  - intros [= <-]. auto.
  - intros [[= <-] _]. reflexivity.
  - discriminate.
  - intros [[= <-] H]. congruence.
Qed.
Lemma get_owner_alive ts s w o : TL ts s w -> (In o (alive w) <-> get_owner s o <> None).
Proof.
  intros H. rewrite (l_alive ts s w H). split.
  - intros (k & Hk). apply get_owner_iff in Hk. congruence.
  - intros Hn. destruct (get_owner s o) as [k|] eqn:E; [|congruence]. apply get_owner_iff in E. eauto.
Qed.

Lemma things_split {x t o} {l : list thing} : In (mkThing x t o) l -> exists l1 l2, l = l1 ++ mkThing x t o :: l2.
Proof. apply in_split. Qed.
Lemma nodup_alive_slots ts s w : TL ts s w ->
  NoDup (map (fun o => match nth_error (owners s) o with Some k => w_slot k | None => kMaxIndex end) (alive w)).
Proof.
  intros H. pose proof (l_nodup ts s w H) as N. assert (A : forall o, In o (alive w) -> exists k, was s o k /\ w_alive k = true) by (intros o; apply (l_alive ts s w H)).
  induction (alive w) as [|o l IH]; cbn; [constructor|]. inversion N; subst. constructor; [|apply IH; auto; intros; apply A; now right].
  intros Hin. apply in_map_iff in Hin. destruct Hin as (o' & E & Ho'). destruct (A o (or_introl eq_refl)) as (k & K1 & K2). destruct (A o' (or_intror Ho')) as (k' & K1' & K2').
  unfold was in *. rewrite K1, K1' in E. assert (o = o') by (eapply (l_slots ts s w H); [exact K1|exact K1'|auto..]). subst. contradiction.
Qed.
Lemma full_length ts s w : TL ts s w -> first_free (taken s) 0 kMaxIndex = None -> length (alive w) = kMaxIndex.
Proof.
  intros H F. set (f := fun o => match nth_error (owners s) o with Some k => w_slot k | None => kMaxIndex end).
  rewrite <- (map_length f). rewrite <- (seq_length kMaxIndex 0). apply Permutation_length. apply NoDup_Permutation; [exact (nodup_alive_slots ts s w H)|apply seq_NoDup|].
  intros i. rewrite in_map_iff, in_seq. split.
  - intros (o & <- & Ho). apply (l_alive ts s w H) in Ho. destruct Ho as (k & K & _). unfold f. unfold was in K. rewrite K. pose proof (l_slot ts s w H o k K). lia.
  - intros Hi. pose proof (first_free_none _ _ _ F i Hi) as T. apply (l_taken ts s w H) in T. destruct T as (o & k & K & A & <-). exists o. split; [unfold f; unfold was in K; now rewrite K|]. apply (l_alive ts s w H). eauto.
Qed.
Lemma free_length ts s w i : TL ts s w -> first_free (taken s) 0 kMaxIndex = Some i -> length (alive w) < kMaxIndex.
Proof.
  intros H F. set (f := fun o => match nth_error (owners s) o with Some k => w_slot k | None => kMaxIndex end).
  rewrite <- (map_length f). apply first_free_some in F. destruct F as [Hi F].
  assert (N : NoDup (i :: map f (alive w))).
  { constructor; [|exact (nodup_alive_slots ts s w H)]. intros Hin. apply in_map_iff in Hin. destruct Hin as (o & E & Ho). apply (l_alive ts s w H) in Ho. destruct Ho as (k & K & A).
    unfold f in E. unfold was in K. rewrite K in E. assert (taken s i = true) by (apply (l_taken ts s w H); eauto). congruence. }
  assert (I : incl (i :: map f (alive w)) (seq 0 kMaxIndex)).
  { intros j [<-|Hj]; [apply in_seq; lia|]. apply in_map_iff in Hj. destruct Hj as (o & <- & Ho). apply (l_alive ts s w H) in Ho. destruct Ho as (k & K & _). unfold f. unfold was in K. rewrite K.
    pose proof (l_slot ts s w H o k K). apply in_seq. lia. }
  pose proof (NoDup_incl_length N I) as L. rewrite seq_length in L. cbn [length] in L. lia.
Qed.

Lemma kill_nth l o j : nth_error (kill_owner l o) j = match nth_error l j with Some k => Some (if j =? o then mkOwner (w_slot k) (w_gen k) (w_type k) false else k) | None => None end.
Proof.
  revert o j. induction l as [|x l IH]; intros [|o] [|j]; cbn; auto; try apply IH; now destruct (nth_error l j).
Qed.

Lemma step_ok ts s w a s' r d : TL ts s w -> tlstep ts a s = (s', r, d) -> exists w', lawful ts w a r d w' /\ TL ts s' w'.
Proof.
  intros H E. destruct a as [ty|o|t o|t ok|t]; cbn [tlstep] in E.
  - (* New *)
    destruct (first_free (taken s) 0 kMaxIndex) as [i|] eqn:F; injection E as <- <- <-.
    + eexists. split; [|].
      * replace (length (owners s)) with (length (types w)) by (rewrite (l_types ts s w H); apply map_length). apply W_new. rewrite <- kmax. exact (free_length ts s w i H F).
      * pose proof (first_free_some _ _ _ _ F) as [Hi Fi].
        assert (Old : forall o k, was s o k -> o < length (owners s)) by (intros o k K; apply nth_error_Some; unfold was in K; congruence).
        assert (New : forall o k, nth_error (owners s ++ [mkOwner i (S (gen s)) ty true]) o = Some k -> was s o k \/ (o = length (owners s) /\ k = mkOwner i (S (gen s)) ty true)).
        { intros o k K. destruct (Nat.lt_ge_cases o (length (owners s))) as [L|L]; [rewrite nth_error_app1 in K by exact L; now left|]. rewrite nth_error_app2 in K by exact L.
          destruct (o - length (owners s)) as [|n] eqn:En; cbn in K; [|destruct n; discriminate]. injection K as <-. right. split; [lia|reflexivity]. }
        assert (Keep : forall o k, was s o k -> nth_error (owners s ++ [mkOwner i (S (gen s)) ty true]) o = Some k).
        { intros o k K. rewrite nth_error_app1 by (eapply Old; exact K). exact K. }
        assert (Last : nth_error (owners s ++ [mkOwner i (S (gen s)) ty true]) (length (owners s)) = Some (mkOwner i (S (gen s)) ty true)) by (rewrite nth_error_app2 by lia; now rewrite Nat.sub_diag).
        assert (Len : length (types w) = length (owners s)) by (rewrite (l_types ts s w H); apply map_length).
        assert (Ni : forall o k, was s o k -> w_alive k = true -> w_slot k <> i).
        { intros o k K A En. assert (taken s i = true) by (apply (l_taken ts s w H); eauto). congruence. }
        destruct H as [H1 H2 H3 H4 H5 H6 H7 H8 H9 H10 H11 H12 H13 H14 H15 H16]. constructor; cbn; unfold was in *; cbn [owners taken gen locals calls made types alive things running count] in *; auto.
        { rewrite map_app, H1. reflexivity. }
        { intros o. rewrite H2, Len. split.
          - intros [<-|(k & K & A)]; [|exists k; auto]. eexists. split; [exact Last|reflexivity].
          - intros (k & K & A). destruct (New o k K) as [K'|[-> ->]]; [right; eauto|now left]. }
        { constructor; [|exact H3]. rewrite Len, H2. intros (k & K & _). apply Old in K. lia. }
        { intros o k K. destruct (New o k K) as [K'|[-> ->]]; [specialize (H6 o k K'); lia|cbn; lia]. }
        { intros o o' k k' K K' G. destruct (New o k K) as [J|[-> ->]], (New o' k' K') as [J'|[-> ->]]; cbn in G; eauto.
          - specialize (H6 o k J). lia.
          - specialize (H6 o' k' J'). lia. }
        { intros o k K. destruct (New o k K) as [J|[-> ->]]; [eauto|cbn; lia]. }
        { intros j. unfold upd. destruct (Nat.eqb_spec j i) as [->|Nj].
          - split; [|auto]. intros _. exists (length (owners s)), (mkOwner i (S (gen s)) ty true). auto.
          - rewrite H9. split; intros (o & k & K & A & B); [exists o, k; auto|]. destruct (New o k K) as [J|[-> ->]]; [eauto|]. cbn in B. congruence. }
        { intros o o' k k' K K' A A' B. destruct (New o k K) as [J|[-> ->]], (New o' k' K') as [J'|[-> ->]]; cbn in B; eauto.
          - destruct (Ni o k J A B).
          - symmetry in B. destruct (Ni o' k' J' A' B). }
        { intros x t o. rewrite H11. split; intros (k & K & B); [exists k; auto|]. destruct (New o k K) as [J|[-> ->]]; [eauto|]. exfalso. cbn in B.
          destruct (H12 t i x) as (o2 & k2 & K2 & _ & E2); [now rewrite B|]. rewrite B in E2. unfold full_holder in E2. cbn in E2. injection E2 as Eg Et. specialize (H6 o2 k2 K2). lia. }
        { intros t j x Hx. destruct (H12 t j x Hx) as (o2 & k2 & K2 & B1 & B2). exists o2, k2. auto. }
        { intros t o Ho. destruct (H15 t o Ho) as (T & k & K & A & B). split; [exact T|]. exists k. auto. }
    + exists w. split; [apply W_full; rewrite <- kmax; exact (full_length ts s w H F)|exact H].
  - (* Del *)
    destruct (get_owner s o) as [k|] eqn:G.
    2:{ injection E as <- <- <-. exists w. split; [|exact H]. apply W_not. cbn. left. rewrite (get_owner_alive ts s w o H). congruence. }
    destruct (in_some_init s o ts) eqn:R.
    + injection E as <- <- <-. exists w. split; [|exact H]. apply W_not. cbn. right. unfold in_some_init in R. apply existsb_exists in R. destruct R as (t & _ & Ht). apply mem_nat_iff in Ht. exists t. now rewrite (l_run ts s w H).
    + injection E as <- <- <-. apply get_owner_iff in G. destruct G as [K A]. assert (Al : In o (alive w)) by (apply (l_alive ts s w H); eauto). apply in_split in Al. destruct Al as (l1 & l2 & El).
      assert (Nr : forall t, ~ In o (calls s t)).
      { intros t Ho. destruct (l_calls ts s w H t o Ho) as (T & _). assert (in_some_init s o ts = true); [|congruence]. apply existsb_exists. exists t. split; [exact T|now apply mem_nat_iff]. }
      eexists. split; [eapply W_del; [exact El|intros t; rewrite (l_run ts s w H); apply Nr]|].
      pose proof (l_nodup ts s w H) as Nd. rewrite El in Nd. pose proof (NoDup_remove_1 _ _ _ Nd) as Nd1. pose proof (NoDup_remove_2 _ _ _ Nd) as Nd2.
      assert (Back : forall j q, nth_error (kill_owner (owners s) o) j = Some q -> exists q0, was s j q0 /\ w_slot q = w_slot q0 /\ w_gen q = w_gen q0 /\ w_type q = w_type q0 /\ (w_alive q = true <-> (w_alive q0 = true /\ j <> o))).
      { intros j q Hq. rewrite kill_nth in Hq. unfold was. destruct (nth_error (owners s) j) as [q0|]; [|discriminate]. injection Hq as <-. exists q0. split; [reflexivity|].
        destruct (Nat.eqb_spec j o); cbn; repeat split; auto; try (intros; discriminate); try tauto; intros [_ ?]; contradiction. }
      assert (Fwd : forall j q0, was s j q0 -> exists q, nth_error (kill_owner (owners s) o) j = Some q /\ w_slot q = w_slot q0 /\ w_gen q = w_gen q0 /\ w_type q = w_type q0 /\ (w_alive q = true <-> (w_alive q0 = true /\ j <> o))).
      { intros j q0 Hq. rewrite kill_nth. unfold was in Hq. rewrite Hq. eexists. split; [reflexivity|].
        destruct (Nat.eqb_spec j o); cbn; repeat split; auto; try (intros; discriminate); try tauto; intros [_ ?]; contradiction. }
      destruct H as [H1 H2 H3 H4 H5 H6 H7 H8 H9 H10 H11 H12 H13 H14 H15 H16]. constructor; unfold was in *; cbn [owners taken gen locals calls made types alive things running count] in *; auto.
      { rewrite H1. clear. revert o. induction (owners s) as [|x l IH]; intros [|o]; cbn; auto. now rewrite (IH o). }
      { intros j. assert (J : In j (l1 ++ l2) <-> In j (alive w) /\ j <> o).
        { rewrite El, !in_app_iff. cbn. split; [intros Hj; split; [tauto|]; intros ->; apply Nd2; now apply in_app_iff|]. intros [[Hj|[Hj|Hj]] Nj]; [now left|congruence|now right]. }
        rewrite J, H2. split.
        - intros [(q & Q & B) Nj]. destruct (Fwd j q Q) as (q' & Q' & _ & _ & _ & Q2). exists q'. split; [exact Q'|]. apply Q2. auto.
        - intros (q & Q & B). destruct (Back j q Q) as (q0 & Q0 & _ & _ & _ & Q2). apply Q2 in B. split; [exists q0; tauto|tauto]. }
      { intros j q Q. destruct (Back j q Q) as (q0 & Q0 & _ & -> & _). eauto. }
      { intros j j' q q' Q Q' B. destruct (Back j q Q) as (q0 & Q0 & _ & Eg & _). destruct (Back j' q' Q') as (q0' & Q0' & _ & Eg' & _). eapply H7; [exact Q0|exact Q0'|congruence]. }
      { intros j q Q. destruct (Back j q Q) as (q0 & Q0 & -> & _). eauto. }
      { intros i. unfold upd. destruct (Nat.eqb_spec i (w_slot k)) as [->|Ni].
        - split; [discriminate|]. intros (j & q & Q & B & C). destruct (Back j q Q) as (q0 & Q0 & Es & _ & _ & Q2). apply Q2 in B. destruct B as [B Nj]. exfalso. apply Nj. eapply H10; [exact Q0|exact K|auto..]. congruence.
        - rewrite H9. split; intros (j & q & Q & B & C).
          + destruct (Fwd j q Q) as (q' & Q' & Es & _ & _ & Q2). exists j, q'. split; [exact Q'|]. split; [|congruence]. apply Q2. split; [exact B|]. intros ->. apply Ni. congruence.
          + destruct (Back j q Q) as (q0 & Q0 & Es & _ & _ & Q2). exists j, q0. split; [exact Q0|]. split; [apply Q2 in B; tauto|congruence]. }
      { intros j j' q q' Q Q' B B' C. destruct (Back j q Q) as (q0 & Q0 & Es & _ & _ & Q2). destruct (Back j' q' Q') as (q0' & Q0' & Es' & _ & _ & Q2'). apply Q2 in B. apply Q2' in B'.
        eapply H10; [exact Q0|exact Q0'|tauto|tauto|congruence]. }
      { intros x t j. rewrite H11. unfold full_holder. split; intros (q & Q & B).
        - destruct (Fwd j q Q) as (q' & Q' & E1 & E2 & E3 & _). exists q'. split; [exact Q'|]. now rewrite E1, E2, E3.
        - destruct (Back j q Q) as (q' & Q' & E1 & E2 & E3 & _). exists q'. split; [exact Q'|]. now rewrite <- E1, <- E2, <- E3. }
      { intros t i x Hx. destruct (H12 t i x Hx) as (j & q & Q & B1 & B2). destruct (Fwd j q Q) as (q' & Q' & E1 & E2 & E3 & _). exists j, q'. split; [exact Q'|]. split; [congruence|]. rewrite B2. unfold full_holder. now rewrite E2, E3. }
      { intros t j Hj. destruct (H15 t j Hj) as (T & q & Q & B & C). split; [exact T|]. destruct (Fwd j q Q) as (q' & Q' & E1 & E2 & E3 & Q2). exists q'. split; [exact Q'|]. split.
        - apply Q2. split; [exact B|]. intros ->. exact (Nr t Hj).
        - rewrite E1, C. unfold full_holder. now rewrite E2, E3. }
  - (* Get *)
    destruct (get_owner s o) as [k|] eqn:G.
    2:{ injection E as <- <- <-. exists w. split; [|exact H]. apply W_not. cbn. left. rewrite (get_owner_alive ts s w o H). congruence. }
    destruct (mem_nat o (calls s t) || negb (mem_nat t ts)) eqn:R.
    { injection E as <- <- <-. exists w. split; [|exact H]. apply W_not. cbn. right. apply Bool.orb_true_iff in R. destruct R as [R|R]; [left; rewrite (l_run ts s w H); now apply mem_nat_iff|right].
      intros Ht. apply mem_nat_iff in Ht. rewrite Ht in R. discriminate. }
    apply Bool.orb_false_iff in R. destruct R as [R1 R2]. assert (Nr : ~ In o (calls s t)) by (intros Ho; apply mem_nat_iff in Ho; congruence).
    assert (Ht : In t ts) by (apply mem_nat_iff; now destruct (mem_nat t ts)). clear R1 R2.
    apply get_owner_iff in G. destruct G as [K A]. assert (Al : In o (alive w)) by (apply (l_alive ts s w H); eauto).
    set (s1 := mkTls (taken s) (gen s) (owners s) (upd (locals s) t (upd (locals s t) (w_slot k) (mkHolder (Some (w_gen k)) (Some (w_type k)) None))) (upd (calls s) t (o :: calls s t)) (made s)) in *.
    (* what is left after the holder was emptied *)
    assert (Go : forall rest, NoDup (map t_obj rest) -> (forall y, In y rest -> In y (things w)) ->
      (forall x t' o', In (mkThing x t' o') rest <-> In (mkThing x t' o') (things w) /\ ~ (t' = t /\ exists k', was s o' k' /\ w_slot k' = w_slot k)) ->
      TL ts s1 (mkWorld (types w) (alive w) rest (upd (running w) t (o :: running w t)) (count w))).
    { intros rest Rn Ri Rt. 
      assert (Cl : forall t' o', In o' (calls s t') -> t' = t -> exists k', was s o' k' /\ w_alive k' = true /\ w_slot k' <> w_slot k).
      { intros t' o' Ho' ->. destruct (l_calls ts s w H t o' Ho') as (_ & k' & K' & A' & _). exists k'. split; [exact K'|]. split; [exact A'|]. intros Es. assert (o' = o) by (eapply (l_slots ts s w H); [exact K'|exact K|auto..]). subst. contradiction. }
      destruct H as [H1 H2 H3 H4 H5 H6 H7 H8 H9 H10 H11 H12 H13 H14 H15 H16]. constructor; unfold was, s1 in *; cbn [owners taken gen locals calls made types alive things running count] in *; auto.
      { intros t'. unfold upd. destruct (t' =? t); [now rewrite H4|apply H4]. }
      { intros x t' o'. rewrite Rt, H11. split.
        - intros [(k' & K' & B) N]. exists k'. split; [exact K'|]. unfold upd. destruct (Nat.eqb_spec t' t) as [->|]; [|exact B]. destruct (Nat.eqb_spec (w_slot k') (w_slot k)) as [Es|]; [|exact B].
          exfalso. apply N. split; [reflexivity|]. eauto.
        - intros (k' & K' & B). unfold upd in B. destruct (Nat.eqb_spec t' t) as [->|Nt].
          + destruct (Nat.eqb_spec (w_slot k') (w_slot k)) as [Es|Ns]; [discriminate B|]. split; [eauto|]. intros [_ (k2 & K2 & E2)]. congruence.
          + split; [eauto|]. intros [-> _]. contradiction. }
      { intros t' i x. unfold upd. destruct (Nat.eqb_spec t' t) as [->|]; [|apply H12]. destruct (Nat.eqb_spec i (w_slot k)); [discriminate|apply H12]. }
      { intros t' o' Ho'. unfold upd in Ho'. destruct (Nat.eqb_spec t' t) as [->|Nt].
        - destruct Ho' as [<-|Ho']; [split; [exact Ht|]; exists k; split; [exact K|]; split; [exact A|]; now rewrite !upd_same|].
          destruct (H15 t o' Ho') as (T & k' & K' & A' & B). split; [exact T|]. exists k'. split; [exact K'|]. split; [exact A'|]. rewrite upd_same. rewrite upd_other; [exact B|].
          destruct (Cl t o' Ho' eq_refl) as (k2 & K2 & _ & N2). congruence.
        - destruct (H15 t' o' Ho') as (T & k' & K' & A' & B). split; [exact T|]. exists k'. split; [exact K'|]. split; [exact A'|]. now rewrite upd_other. }
      { intros t'. unfold upd. destruct (t' =? t); [constructor; auto|apply H16]. } }
    destruct (h_data (locals s t (w_slot k))) as [x|] eqn:D.
    + destruct (l_holder ts s w H t (w_slot k) x D) as (o' & k' & K' & Es & Eh). rewrite Eh in E. cbn [h_gen full_holder] in E. destruct (Nat.eqb_spec (w_gen k') (w_gen k)) as [Eg|Ng].
      * injection E as <- <- <-. exists w. split; [|exact H]. assert (o' = o) by (eapply (l_gens ts s w H); [exact K'|exact K|exact Eg]). subst o'. apply W_get; [exact Al|]. apply (l_things ts s w H). exists k'. rewrite Es. auto.
      * injection E as <- <- <-. fold s1.
        assert (No : o' <> o) by (intros ->; unfold was in *; congruence).
        assert (Dead : ~ In o' (alive w)).
        { intros Ho'. apply (l_alive ts s w H) in Ho'. destruct Ho' as (k2 & K2 & A2). apply No. eapply (l_slots ts s w H); [exact K'|exact K| |exact A|exact Es]. unfold was in *. congruence. }
        assert (Hx : In (mkThing x t o') (things w)) by (apply (l_things ts s w H); exists k'; rewrite Es; auto). destruct (things_split Hx) as (l1 & l2 & El).
        pose proof (l_objs ts s w H) as Nd. rewrite El, map_app in Nd. cbn [map] in Nd.
        exists (mkWorld (types w) (alive w) (l1 ++ l2) (upd (running w) t (o :: running w t)) (count w)). split.
        -- apply W_init with (gone := [mkThing x t o']); [exact Al| | | | |].
           ++ intros y Hy. apply (l_things ts s w H) in Hy. destruct Hy as (k2 & K2 & B). assert (k2 = k) by (unfold was in *; congruence). subst k2. rewrite B in Eh. injection Eh as Eg _ _. congruence.
           ++ now rewrite (l_run ts s w H).
           ++ rewrite El. cbn [app]. symmetry. apply Permutation_middle.
           ++ repeat constructor. exact Dead.
           ++ unfold destroyed. cbn [map t_obj destroy full_holder h_data h_dtor]. unfold type_of. cbn [t_owner]. rewrite (l_types ts s w H).
              rewrite (nth_error_nth (map w_type (owners s)) o' 0 (x := w_type k')); [reflexivity|]. rewrite nth_error_map. unfold was in K'. now rewrite K'.
        -- apply Go.
           ++ rewrite map_app. exact (NoDup_remove_1 _ _ _ Nd).
           ++ intros y Hy. rewrite El. apply in_app_iff. apply in_app_iff in Hy. cbn. tauto.
           ++ intros y t' o2. split.
              ** intros Hy. split; [rewrite El; apply in_app_iff; apply in_app_iff in Hy; cbn; tauto|]. intros (-> & k2 & K2 & E2).
                 assert (Hy2 : In (mkThing y t o2) (things w)) by (rewrite El; apply in_app_iff; apply in_app_iff in Hy; cbn; tauto). apply (l_things ts s w H) in Hy2. destruct Hy2 as (k3 & K3 & B).
                 assert (k3 = k2) by (unfold was in *; congruence). subst k3. rewrite E2 in B. rewrite B in Eh. injection Eh as _ _ Ex. subst y.
                 apply (NoDup_remove_2 _ _ _ Nd). rewrite <- map_app. exact (in_map t_obj _ _ Hy).
              ** intros [Hy N]. rewrite El in Hy. apply in_app_iff. apply in_app_iff in Hy. cbn in Hy. destruct Hy as [Hy|[Hy|Hy]]; [now left| |now right]. injection Hy as <- <- <-. exfalso. apply N. split; [reflexivity|]. eauto.
    + injection E as <- <- <-. fold s1. exists (mkWorld (types w) (alive w) (things w) (upd (running w) t (o :: running w t)) (count w)). split.
      * apply W_init with (gone := []); [exact Al| | | | |].
        -- intros y Hy. apply (l_things ts s w H) in Hy. destruct Hy as (k2 & K2 & B). assert (k2 = k) by (unfold was in *; congruence). subst k2. rewrite B in D. discriminate.
        -- now rewrite (l_run ts s w H).
        -- reflexivity.
        -- constructor.
        -- constructor.
      * apply Go; [apply (l_objs ts s w H)|auto|]. intros y t' o2. split; [|tauto]. intros Hy. split; [exact Hy|]. intros (-> & k2 & K2 & E2). apply (l_things ts s w H) in Hy. destruct Hy as (k3 & K3 & B).
        assert (k3 = k2) by (unfold was in *; congruence). subst k3. rewrite E2 in B. rewrite B in D. discriminate.
  - (* Init *)
    destruct (calls s t) as [|o r0] eqn:C.
    { injection E as <- <- <-. exists w. split; [|exact H]. apply W_not. cbn. now rewrite (l_run ts s w H). }
    assert (Ho : In o (calls s t)) by (rewrite C; now left). destruct (l_calls ts s w H t o Ho) as (Ht & k & K & A & B). pose proof K as K0. unfold was in K0. rewrite K0 in E. clear K0.
    assert (Hr : running w t = o :: r0) by (rewrite (l_run ts s w H); exact C). pose proof (l_once ts s w H t) as Nd. rewrite C in Nd. inversion Nd as [|? ? Nd1 Nd2]; subst.
    destruct ok; injection E as <- <- <-.
    + eexists. split; [rewrite <- (l_count ts s w H); eapply W_made; exact Hr|]. rewrite B. cbn [h_gen h_dtor full_holder].
      assert (Oth : forall o', In o' r0 -> forall k', was s o' k' -> w_alive k' = true -> w_slot k' <> w_slot k).
      { intros o' Ho' k' K' A' Es. assert (o' = o) by (eapply (l_slots ts s w H); [exact K'|exact K|auto..]). subst. contradiction. }
      assert (Fresh : ~ In (made s) (map t_obj (things w))) by (intros Hm; apply in_map_iff in Hm; destruct Hm as (y & Ey & Hy); pose proof (l_made ts s w H y Hy); lia).
      destruct H as [H1 H2 H3 H4 H5 H6 H7 H8 H9 H10 H11 H12 H13 H14 H15 H16]. constructor; unfold was in *; cbn [owners taken gen locals calls made types alive things running count] in *; auto.
      { intros t'. unfold upd. destruct (t' =? t); [reflexivity|apply H4]. }
      { intros x t' o'. cbn [In]. rewrite H11, H5. split.
        - intros [E0|(k' & K' & B')].
          + injection E0 as <- <- <-. exists k. split; [exact K|]. now rewrite !upd_same.
          + exists k'. split; [exact K'|]. unfold upd. destruct (Nat.eqb_spec t' t) as [->|]; [|exact B']. destruct (Nat.eqb_spec (w_slot k') (w_slot k)) as [Es|]; [|exact B']. rewrite Es in B'. rewrite B in B'. discriminate.
        - intros (k' & K' & B'). unfold upd in B'. destruct (Nat.eqb_spec t' t) as [->|Nt]; [|right; eauto]. destruct (Nat.eqb_spec (w_slot k') (w_slot k)) as [Es|Ns]; [|right; eauto].
          left. injection B' as Eg _ Ex. assert (o' = o) by (eapply H7; [exact K'|exact K|congruence]). subst. reflexivity. }
      { intros t' i x. unfold upd. destruct (Nat.eqb_spec t' t) as [->|]; [|apply H12]. destruct (Nat.eqb_spec i (w_slot k)) as [->|]; [|apply H12]. cbn. intros [= <-]. exists o, k. auto. }
      { cbn [map t_obj]. rewrite H5. now constructor. }
      { intros y [<-|Hy]; [cbn; lia|]. specialize (H14 y Hy). lia. }
      { intros t' o' Ho'. unfold upd in Ho'. destruct (Nat.eqb_spec t' t) as [->|Nt].
        - assert (Ho2 : In o' (calls s t)) by (rewrite C; now right). destruct (H15 t o' Ho2) as (T & k' & K' & A' & B'). split; [exact T|]. exists k'. split; [exact K'|]. split; [exact A'|]. rewrite upd_same. rewrite upd_other; [exact B'|]. eapply Oth; eauto.
        - destruct (H15 t' o' Ho') as (T & k' & K' & A' & B'). split; [exact T|]. exists k'. split; [exact K'|]. split; [exact A'|]. now rewrite upd_other. }
      { intros t'. unfold upd. destruct (t' =? t); [exact Nd2|apply H16]. }
    + eexists. split; [eapply W_threw; exact Hr|].
      destruct H as [H1 H2 H3 H4 H5 H6 H7 H8 H9 H10 H11 H12 H13 H14 H15 H16]. constructor; unfold was in *; cbn [owners taken gen locals calls made types alive things running count] in *; auto.
      { intros t'. unfold upd. destruct (t' =? t); [reflexivity|apply H4]. }
      { intros t' o' Ho'. unfold upd in Ho'. destruct (Nat.eqb_spec t' t) as [->|Nt]; [|now apply H15]. apply H15. rewrite C. now right. }
      { intros t'. unfold upd. destruct (t' =? t); [exact Nd2|apply H16]. }
  - (* Exit *)
    destruct (calls s t) as [|o r0] eqn:C.
    2:{ injection E as <- <- <-. exists w. split; [|exact H]. apply W_not. cbn. rewrite (l_run ts s w H), C. discriminate. }
    injection E as <- <- <-. set (gone := filter (fun y => t_thread y =? t) (things w)). set (rest := filter (fun y => negb (t_thread y =? t)) (things w)).
    assert (Perm : Permutation (things w) (gone ++ rest)).
    { unfold gone, rest. clear. induction (things w) as [|y l IH]; cbn; [constructor|]. destruct (t_thread y =? t); cbn; [now constructor|]. rewrite <- Permutation_middle. now constructor. }
    exists (mkWorld (types w) (alive w) rest (running w) (count w)). split.
    + apply W_exit with (gone := gone); auto.
      * now rewrite (l_run ts s w H).
      * apply Forall_forall. intros y Hy. apply filter_In in Hy. now apply Nat.eqb_eq.
      * apply Forall_forall. intros y Hy. apply filter_In in Hy. destruct Hy as [_ Hy]. intros Ey. apply Nat.eqb_eq in Ey. rewrite Ey in Hy. discriminate.
      * (* each once, each as its type *)
        assert (Obj : forall i x ty, In (x, ty) (destroy (locals s t i)) -> exists o k, was s o k /\ w_slot k = i /\ w_type k = ty /\ In (mkThing x t o) (things w)).
        { intros i x ty Hx. unfold destroy in Hx. destruct (h_data (locals s t i)) as [x'|] eqn:D; [|destruct Hx]. destruct (l_holder ts s w H t i x' D) as (o & k & K & Es & Eh). rewrite Eh in Hx. cbn in Hx. destruct Hx as [Hx|[]]. injection Hx as <- <-.
          exists o, k. repeat split; auto. apply (l_things ts s w H). exists k. rewrite Es. auto. }
        assert (Uniq : forall x o o', In (mkThing x t o) (things w) -> In (mkThing x t o') (things w) -> o = o').
        { intros x o o' H1 H2. pose proof (l_objs ts s w H) as Nd. apply in_split in H1. destruct H1 as (l1 & l2 & El). rewrite El in Nd, H2. rewrite map_app in Nd. cbn in Nd. apply NoDup_remove_2 in Nd. rewrite <- map_app in Nd.
          apply in_app_iff in H2. cbn in H2. destruct H2 as [H2|[H2|H2]].
          - exfalso. apply Nd. change x with (t_obj (mkThing x t o')). apply in_map, in_app_iff. now left.
          - injection H2 as ->. reflexivity.
          - exfalso. apply Nd. change x with (t_obj (mkThing x t o')). apply in_map, in_app_iff. now right. }
        unfold destroyed. apply NoDup_Permutation.
        -- assert (G : forall l, NoDup l -> NoDup (concat (map (fun i => destroy (locals s t i)) l))).
           { induction 1 as [|i l Ni Nl IH]; cbn; [constructor|].
             assert (Dj : forall p, In p (destroy (locals s t i)) -> ~ In p (concat (map (fun i => destroy (locals s t i)) l))).
             { intros [x ty] Hp Hq. apply in_concat in Hq. destruct Hq as (q & Hq & Hp2). apply in_map_iff in Hq. destruct Hq as (j & <- & Hj). destruct (Obj i x ty Hp) as (o1 & k1 & K1 & S1 & _ & T1). destruct (Obj j x ty Hp2) as (o2 & k2 & K2 & S2 & _ & T2).
               assert (o1 = o2) by (eapply Uniq; eauto). subst o2. unfold was in *. rewrite K1 in K2. injection K2 as <-. apply Ni. congruence. }
             destruct (destroy (locals s t i)) as [|p [|p2 q]] eqn:D; cbn; [exact IH| |].
             - constructor; [apply Dj; now left|exact IH].
             - exfalso. unfold destroy in D. destruct (h_data (locals s t i)), (h_dtor (locals s t i)); discriminate. }
           apply G, seq_NoDup.
        -- 
           assert (G : forall l, NoDup (map t_obj l) -> NoDup (map (fun x => (t_obj x, type_of w x)) l)).
           { induction l as [|y l IH]; cbn; [constructor|]. intros Hn. inversion Hn as [|? ? N1 N2]; subst. constructor; [|auto]. intros Hy. apply in_map_iff in Hy. destruct Hy as (z & Ez & Hz). injection Ez as E1 _. apply N1. rewrite <- E1. now apply in_map. }
           apply G. pose proof (l_objs ts s w H) as Nd. unfold gone. clear - Nd. induction (things w) as [|y l IH]; cbn in *; [constructor|]. inversion Nd as [|? ? N1 N2]; subst. destruct (t_thread y =? t); cbn; [|auto]. constructor; [|auto].
           intros Hy. apply N1. apply in_map_iff in Hy. destruct Hy as (z & <- & Hz). apply filter_In in Hz. now apply in_map.
        -- intros [x ty]. split.
           ++ intros Hp. apply in_concat in Hp. destruct Hp as (q & Hq & Hp). apply in_map_iff in Hq. destruct Hq as (i & <- & Hi). destruct (Obj i x ty Hp) as (o1 & k1 & K1 & S1 & T1 & In1).
              apply in_map_iff. exists (mkThing x t o1). split; [|apply filter_In; split; [exact In1|apply Nat.eqb_refl]]. cbn. f_equal. unfold type_of. cbn [t_owner]. rewrite (l_types ts s w H).
              rewrite (nth_error_nth (map w_type (owners s)) o1 0 (x := w_type k1)); [exact T1|]. rewrite nth_error_map. unfold was in K1. now rewrite K1.
           ++ intros Hp. apply in_map_iff in Hp. destruct Hp as ([x' t' o1] & Ep & Hy). apply filter_In in Hy. destruct Hy as [Hy Et]. cbn in Et. apply Nat.eqb_eq in Et. subst t'. cbn in Ep. injection Ep as -> <-.
              apply (l_things ts s w H) in Hy. destruct Hy as (k1 & K1 & B1). apply in_concat. exists (destroy (locals s t (w_slot k1))). split; [apply in_map_iff; exists (w_slot k1); split; [reflexivity|]; apply in_seq; pose proof (l_slot ts s w H o1 k1 K1); lia|].
              rewrite B1. cbn. left. f_equal. unfold type_of. cbn [t_owner]. rewrite (l_types ts s w H).
              rewrite (nth_error_nth (map w_type (owners s)) o1 0 (x := w_type k1)); [reflexivity|]. rewrite nth_error_map. unfold was in K1. now rewrite K1.
    + assert (Ri : forall x t' o', In (mkThing x t' o') rest <-> In (mkThing x t' o') (things w) /\ t' <> t).
      { intros x t' o'. unfold rest. rewrite filter_In. cbn. split; intros [R1 R2]; (split; [exact R1|]); [intros ->; rewrite Nat.eqb_refl in R2; discriminate|]. apply Nat.eqb_neq in R2. now rewrite R2. }
      destruct H as [H1 H2 H3 H4 H5 H6 H7 H8 H9 H10 H11 H12 H13 H14 H15 H16]. constructor; unfold was in *; cbn [owners taken gen locals calls made types alive things running count] in *; auto.
      { intros x t' o'. rewrite Ri, H11. unfold upd. destruct (Nat.eqb_spec t' t) as [->|Nt]; split.
        - intros [_ N]. contradiction.
        - intros (k & _ & B). discriminate.
        - tauto.
        - auto. }
      { intros t' i x. unfold upd. destruct (Nat.eqb_spec t' t) as [->|]; [discriminate|apply H12]. }
      { unfold rest. clear - H13. induction (things w) as [|y l IH]; cbn in *; [constructor|]. inversion H13 as [|? ? N1 N2]; subst. destruct (t_thread y =? t); cbn; [auto|]. constructor; [|auto].
        intros Hy. apply N1. apply in_map_iff in Hy. destruct Hy as (z & <- & Hz). apply filter_In in Hz. now apply in_map. }
      { intros y Hy. apply filter_In in Hy. now apply H14. }
      { intros t' o' Ho'. destruct (H15 t' o' Ho') as (T & k & K & A & B). split; [exact T|]. exists k. split; [exact K|]. split; [exact A|]. rewrite upd_other; [exact B|]. intros ->. rewrite C in Ho'. destruct Ho'. }
Qed.

Lemma run_ok ts l : forall s w s' h, TL ts s w -> tlrun ts l s = (s', h) -> exists w', lawful_run ts w h w' /\ TL ts s' w'.
Proof.
  induction l as [|a l IH]; intros s w s' h H E; cbn in E; [injection E as <- <-; exists w; split; [reflexivity|exact H]|].
  destruct (tlstep ts a s) as [[s1 r] d] eqn:Es. destruct (tlrun ts l s1) as [s2 h2] eqn:Er. injection E as <- <-. destruct (step_ok ts s w a s1 r d H Es) as (w1 & L & H1). destruct (IH s1 w1 s2 h2 H1 Er) as (w2 & L2 & H2).
  exists w2. split; [exists w1; auto|exact H2].
Qed.
Lemma start_ok ts g : TL ts (tls0 g) world0.
Proof.
  constructor; unfold was; cbn; auto.
  - intros o. split; [easy|]. intros (k & K & _). destruct o; discriminate.
  - constructor.
  - intros o k K. destruct o; discriminate.
  - intros o o' k k' K. destruct o; discriminate.
  - intros o k K. destruct o; discriminate.
  - intros i. split; [discriminate|]. intros (o & k & K & _). destruct o; discriminate.
  - intros o o' k k' K. destruct o; discriminate.
  - intros x t o. split; [easy|]. intros (k & K & _). destruct o; discriminate.
  - discriminate.
  - constructor.
  - easy.
  - easy.
  - constructor.
Qed.
