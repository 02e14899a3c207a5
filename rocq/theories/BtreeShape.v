(** The tree and the free list read off the pages of a directory. *)
From Verif Require Import Base BaseLemmas BtreeModel BtreeSpec BtreeCodec BtreeInv BtreeTree BtreeSearch BtreeInsert BtreeDelete BtreeDir BtreeFlush.
From Coq Require Import Permutation Sorting.Sorted.
Local Open Scope list_scope.

Lemma weave_inorder : forall ls l es,
  length ls = length es -> weave (l :: ls) es = l ++ wr es ls.
Proof.
  induction ls as [|l' ls IH]; intros l [|e es] H; try discriminate.
  - cbn. rewrite app_nil_r. reflexivity.
  - change (weave (l :: l' :: ls) (e :: es)) with (l ++ e :: weave (l' :: ls) es).
    rewrite IH by (cbn in H; lia). reflexivity.
Qed.

Lemma node_view st l : node_ok st l -> view st (l_pg l) = Some (l_cs l, l_es l).
Proof.
  unfold node_ok, view. destruct (lookup _ _) as [nd|].
  - intros (-> & -> & _). reflexivity.
  - unfold stored, page. rewrite BLOCK_SIZE_eq. intros ->. reflexivity.
Qed.

Lemma tree_subtree st : forall h par t,
  bal h t -> Forall (node_ok st) (nodes par t) -> (h <> 0 -> tents t <> []) ->
  subtree st h (tpage t) (pages (nodes par t)) (inorder t).
Proof.
  induction h as [h IH] using (well_founded_induction Wf_nat.lt_wf).
  intros par [p es ts] HB HF Hne. cbn [nodes] in HF. inversion HF as [|? ? Hv HF']; subst.
  apply node_view in Hv. cbn [l_pg l_cs l_es tents tpage] in *.
  destruct (bal_kids _ _ _ _ HB) as [[-> ->]|(h' & -> & Hg)].
  - cbn. constructor. exact Hv.
  - destruct ts as [|t0 ts].
    { exfalso. destruct (proj1 (bal_S _ _) HB) as [Hl _]. cbn in Hl. lia. }
    assert (Hlen : length (t0 :: ts) = S (length es)).
    { destruct (bal_shape _ _ _ _ HB) as [Hx|Hx]; [discriminate|exact Hx]. }
    change (inorder (T p es (t0 :: ts))) with (inorder t0 ++ wr es (map inorder ts)).
    rewrite <- weave_inorder by (rewrite map_length; cbn in Hlen; lia).
    cbn [nodes pages map]. unfold pages. cbn [l_pg].
    rewrite flat_map_concat_map, concat_map, map_map.
    eapply (ST_inner st h' p (map tpage (t0 :: ts)) es (map (fun t => map l_pg (nodes p t)) (t0 :: ts)) (map inorder (t0 :: ts))).
    + exact Hv.
    + apply Hne. discriminate.
    + rewrite map_length. exact Hlen.
    + clear Hv Hlen HB Hne HF. revert HF' Hg. generalize (t0 :: ts) as us. clear t0 ts es par.
      induction us as [|u us IHu]; intros HF Hg; [constructor|].
      cbn [flat_map] in HF. apply Forall_app in HF. destruct HF as [HF1 HF2].
      inversion Hg as [|? ? [Hg1 Hg2] Hg3]; subst. cbn [map].
      apply (BtreeSpec.SS_cons st h' (tpage u) (map tpage us) (map tpage (tkids u)) (tents u)).
      * destruct u as [q qes qts]. cbn [nodes] in HF1. apply (node_view st _ (Forall_inv HF1)).
      * exact Hg1.
      * apply IH; [lia|exact Hg2|exact HF1|]. intros _ E. rewrite E in Hg1. cbn in Hg1. lia.
      * apply IHu; assumption.
Qed.

Section S.
Variable cmp : bytes -> bytes -> comparison.

Lemma sorted_strict l : BtreeSearch.SS cmp l -> strictly_sorted cmp l.
Proof.
  induction l as [|x l IH]; intros H; [exact I|]. apply SS_cons in H. destruct H as [H1 H2].
  split; [|auto]. rewrite Forall_forall. intros y Hy. exact (H2 y Hy).
Qed.

Lemma chain_free_list st : forall F prev n,
  chain st prev F -> Forall (fun p => N.to_nat p < n) F -> (N.of_nat n <= PAGE_LIMIT)%N ->
  length (b_stream st) = n * BLOCK_SIZE ->
  free_list st (hd_page F) prev F.
Proof.
  induction F as [|f F IH]; intros prev n HC HF Hn Hlen; [constructor|].
  cbn [chain] in HC. destruct HC as [(H1 & H2 & H3) HC]. pose proof (Forall_inv HF) as Hf. pose proof (Forall_inv_tail HF) as HF'.
  assert (Hlt : (f < PAGE_LIMIT)%N) by (eapply PAGE_LIMIT_lt; eassumption).
  assert (HB : 12 < BLOCK_SIZE) by apply BLOCK_SIZE_big.
  cbn [hd_page hd].
  assert (Hr : forall k, k + 4 <= BLOCK_SIZE ->
     arr_read (b_stream st) (N.to_nat f * 4096 + k) 4 = firstn 4 (skipn k (page st f))).
  { intros k Hk. unfold page, arr_read. rewrite <- BLOCK_SIZE_eq, skipn_firstn_comm, firstn_firstn, skipn_skipn.
    rewrite (Nat.add_comm k). f_equal. lia. }
  eapply FL_cons.
  - apply N.eqb_neq. apply limit_invalid. exact Hlt.
  - specialize (Hr 0 ltac:(lia)). rewrite Nat.add_0_r in Hr. rewrite Hr. exact H1.
  - rewrite (Hr 4 ltac:(lia)). exact H2.
  - rewrite (Hr 8 ltac:(lia)). exact H3.
  - apply (IH f n); assumption.
Qed.

Lemma seq_perm (l : list N) n :
  NoDup l -> Forall (fun p => N.to_nat p < n) l -> length l = n ->
  Permutation l (map N.of_nat (seq 0 n)).
Proof.
  intros Hnd Hr Hl. apply NoDup_Permutation_bis.
  - exact Hnd.
  - rewrite map_length, seq_length. lia.
  - intros p Hp. rewrite Forall_forall in Hr. apply in_map_iff. exists (N.to_nat p).
    split; [apply N2Nat.id|]. apply in_seq. specialize (Hr p Hp). lia.
Qed.

Lemma validate_loop_ok st n : forall F prev,
  chain st prev F -> Forall (fun p => N.to_nat p < n) F -> (N.of_nat n <= PAGE_LIMIT)%N ->
  length (b_stream st) = n * BLOCK_SIZE ->
  validate_free_loop (length F) (hd_page F) prev st = (st, Ok true).
Proof.
  induction F as [|f F IH]; intros prev HC HF Hn Hlen; [reflexivity|].
  cbn [chain] in HC. destruct HC as [Hfp HC]. pose proof (Forall_inv HF) as Hf. pose proof (Forall_inv_tail HF) as HF'.
  cbn [length validate_free_loop hd_page hd].
  unfold bind. rewrite (read_free_page_ok st f n (hd_page F) prev) by assumption.
  cbn [fst snd]. rewrite N.eqb_refl. cbn [negb]. apply IH; assumption.
Qed.

Lemma root_valid st F t : rep cmp st F (Some t) -> tpage t <> INVALID_PAGE.
Proof.
  intros H E. pose proof (inv_page_valid _ _ _ (head_node INVALID_PAGE t) (r_inv _ _ _ _ H)) as Hv.
  assert (Hlt : (tpage t < PAGE_LIMIT)%N).
  { apply Hv. cbn [tnodes]. rewrite nodes_eq. left. reflexivity. }
  apply limit_invalid in Hlt. rewrite E in Hlt. discriminate.
Qed.

Lemma rep_dir_tree st F o :
  rep cmp st F o ->
  exists h, dir_tree st h (pages (tnodes o)) (ents o) /\ (h = 0 \/ 2 * 7 ^ h <= S (length (ents o))).
Proof.
  intros H. destruct o as [t|]; cbn [tnodes ents].
  - destruct (r_shape _ _ _ _ H) as (h & Hok). pose proof Hok as (Hb & H13 & H1).
    pose proof (i_nodes _ _ _ (r_inv _ _ _ _ H)) as Hn. cbn [tnodes] in Hn.
    pose proof (r_root _ _ _ _ H) as Hr. cbn [troot] in Hr.
    exists h. split.
    + apply (DT_some st h _ _ (map tpage (tkids t)) (tents t)).
      * rewrite Hr. exact (root_valid _ _ _ H).
      * rewrite Hr. destruct t as [p es ts]. cbn [nodes] in Hn. apply (node_view st _ (Forall_inv Hn)).
      * exact H13.
      * rewrite Hr. apply tree_subtree; [exact Hb|exact Hn|]. intros Hh E. rewrite E in H1. cbn in H1. lia.
    + destruct h as [|h]; [left; reflexivity|right]. pose proof (root_min (S h) t Hok ltac:(lia)). lia.
  - exists 0. split; [apply DT_none; exact (r_root _ _ _ _ H)|left; reflexivity].
Qed.

Lemma rep_partition st F o :
  rep cmp st F o ->
  free_list st (b_free st) INVALID_PAGE F /\ b_nfree st = N.of_nat (length F) /\
  Permutation (pages (tnodes o) ++ F) (map N.of_nat (seq 0 (length (b_stream st) / 4096))) /\
  length (b_stream st) mod 4096 = 0 /\
  validate_free_list st = (st, Ok true).
Proof.
  intros H. pose proof (r_inv _ _ _ _ H) as HI. inv_fields HI.
  assert (HF : Forall (fun p => N.to_nat p < length (tnodes o) + length F) F).
  { apply Forall_app in Hrg. apply Hrg. }
  split; [|split; [|split; [|split]]].
  - rewrite Hfree. eapply chain_free_list; eassumption.
  - exact Hnfree.
  - rewrite Hlen, BLOCK_SIZE_eq, Nat.div_mul by discriminate. apply seq_perm; [exact Hnd|exact Hrg|].
    unfold pages. rewrite app_length, map_length. reflexivity.
  - rewrite Hlen, BLOCK_SIZE_eq. apply Nat.mod_mul. discriminate.
  - unfold validate_free_list, bind, gets. rewrite Hfree, Hnfree, Nat2N.id. eapply validate_loop_ok; eassumption.
Qed.
End S.

(** ** Comparison functions *)
Lemma binary_compare_refl a : binary_compare a a = Eq.
Proof. induction a as [|x a IH]; [reflexivity|]. cbn [binary_compare]. rewrite N.compare_refl. exact IH. Qed.

Lemma binary_compare_eq : forall a b, binary_compare a b = Eq -> a = b.
Proof.
  induction a as [|x a IH]; intros [|y b] H; cbn [binary_compare] in H; try discriminate; [reflexivity|].
  destruct (N.compare_spec (b2n x) (b2n y)) as [E|E|E]; try discriminate.
  rewrite (IH b H). f_equal. apply b2n_inj. exact E.
Qed.

Lemma binary_compare_ok : cmp_ok binary_compare.
Proof.
  constructor.
  - induction a as [|x a IH]; intros [|y b]; try reflexivity. cbn [binary_compare].
    rewrite (N.compare_antisym (b2n x) (b2n y)). destruct (N.compare (b2n x) (b2n y)); try reflexivity. apply IH.
  - induction a as [|x a IH]; intros [|y b] [|z c] H1 H2; cbn [binary_compare] in *; try discriminate; try reflexivity.
    destruct (N.compare_spec (b2n x) (b2n y)) as [E1|E1|E1], (N.compare_spec (b2n y) (b2n z)) as [E2|E2|E2]; try discriminate.
    + rewrite E1, E2, N.compare_refl. eapply IH; eassumption.
    + rewrite E1. apply N.compare_lt_iff in E2. rewrite E2. reflexivity.
    + rewrite <- E2. apply N.compare_lt_iff in E1. rewrite E1. reflexivity.
    + assert (E3 : (b2n x < b2n z)%N) by lia. apply N.compare_lt_iff in E3. rewrite E3. reflexivity.
  - intros a b c H. apply binary_compare_eq in H. subst. reflexivity.
Qed.

Lemma key_compare_ok (key : bytes -> bytes) cmp :
  cmp_ok cmp -> cmp_ok (fun a b => cmp (key a) (key b)).
Proof. intros [H1 H2 H3]. constructor; intros; [apply H1|eapply H2; eassumption|apply H3; assumption]. Qed.
