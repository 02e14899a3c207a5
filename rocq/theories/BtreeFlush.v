(** Listing, flushing, reloading and rebuilding a directory. *)
From Verif Require Import Base BaseLemmas BtreeModel BtreeSpec BtreeCodec BtreeInv BtreeTree BtreeSearch BtreeInsert BtreeDelete BtreeDir.
From Coq Require Import Permutation Sorting.Sorted.
Local Open Scope list_scope.

(** ** Iteration *)
Definition kids_loop (rec : N -> M (list entry)) (n : N) : list N -> M (list entry) :=
  fix children (cs : list N) : M (list entry) :=
       match cs with
       | [] => ret []
       | c :: cs' =>
         k <- retrieve_node n c;;
         a <- rec k;;
         b <- children cs';;
         ret (a ++ b)
       end.

Lemma iterate_unfold f n :
  recursive_iterate (S f) n =
  (nd <- get_node n;; rest <- kids_loop (recursive_iterate f) n (n_children nd);; ret (n_entries nd ++ rest)).
Proof. reflexivity. Qed.

Lemma mutable_unfold f n :
  mutable_iterate (S f) n =
  (nd <- get_node n;; set_entries n (map moved_from (n_entries nd));;
   rest <- kids_loop (mutable_iterate f) n (n_children nd);; ret (n_entries nd ++ rest)).
Proof. reflexivity. Qed.

Lemma inorder_bal h p es ts :
  bal h (T p es ts) -> Permutation (inorder (T p es ts)) (es ++ concat (map inorder ts)).
Proof.
  intros H. destruct h as [|h].
  - cbn in H. subst ts. cbn. rewrite app_nil_r. reflexivity.
  - apply inorder_perm. apply (proj1 (bal_S _ _) H).
Qed.

Lemma bal_kids h p es ts : bal h (T p es ts) -> h = 0 /\ ts = [] \/ exists h', h = S h' /\ Forall (good h') ts.
Proof.
  intros H. destruct h as [|h]; [left; split; [reflexivity|exact H]|right].
  exists h. split; [reflexivity|]. apply (proj1 (bal_S _ _) H).
Qed.

Lemma iterate_ok L F : forall h par t fuel st,
  Inv st L F -> (exists R, Permutation L (nodes par t ++ R)) -> cached st (tpage t) -> bal h t -> h < fuel ->
  exists st' l, recursive_iterate fuel (tpage t) st = (st', Ok l) /\ Permutation l (inorder t) /\
    Inv st' L F /\ grows st st'.
Proof.
  induction h as [h IH] using (well_founded_induction Wf_nat.lt_wf).
  intros par [p es ts] fuel st HI (R & HR) Hc HB Hf. destruct fuel as [|fuel]; [lia|].
  cbn [tpage] in *. rewrite iterate_unfold. unfold bind at 1.
  assert (Hin : In (mkL p par (map tpage ts) es) L).
  { apply (Permutation_in _ (Permutation_sym HR)). left. reflexivity. }
  destruct (get_node_ok st L F _ HI Hin Hc) as (nd & E & _ & _ & Hch & Hes). cbn [l_pg l_cs l_es] in E, Hch, Hes.
  rewrite E, Hch, Hes.
  assert (Hloop : forall us st0, (exists R', Permutation L (flat_map (nodes p) us ++ R')) ->
     Forall (fun t => exists h', h' < h /\ bal h' t) us -> Inv st0 L F ->
     exists st' l, kids_loop (recursive_iterate fuel) p (map tpage us) st0 = (st', Ok l) /\
       Permutation l (concat (map inorder us)) /\ Inv st' L F /\ grows st0 st').
  { induction us as [|u us IHu]; intros st0 (R' & HR') HF H0.
    - exists st0, []. split; [reflexivity|]. split; [reflexivity|]. split; [exact H0|apply grows_refl].
    - cbn [map kids_loop]. cbn [flat_map] in HR'.
      inversion HF as [|? ? (h' & Hh' & Hb') HF']; subst.
      assert (Hu : In (head_node p u) L).
      { apply (Permutation_in _ (Permutation_sym HR')). rewrite nodes_eq. left. reflexivity. }
      destruct (retrieve_ok st0 L F _ H0 Hu) as (st1 & E1 & H1 & Hc1 & G1a & G1b).
      cbn [l_par l_pg head_node] in E1, Hc1. unfold bind at 1. rewrite E1.
      destruct (IH h' Hh' p u fuel st1 H1) as (st2 & a & E2 & Pa & H2 & G2).
      { exists (flat_map (nodes p) us ++ R'). rewrite HR'. perm. }
      { exact Hc1. } { exact Hb'. } { lia. }
      unfold bind at 1. rewrite E2.
      destruct (IHu st2) as (st3 & b & E3 & Pb & H3 & G3).
      { exists (nodes p u ++ R'). rewrite HR'. perm. }
      { exact HF'. } { exact H2. }
      unfold bind at 1. fold (kids_loop (recursive_iterate fuel) p). rewrite E3. unfold ret.
      exists st3, (a ++ b). split; [reflexivity|]. split; [cbn [map concat]; rewrite Pa, Pb; reflexivity|].
      split; [exact H3|]. eapply grows_trans; [split; [exact G1a|exact G1b]|]. eapply grows_trans; eassumption. }
  destruct (Hloop ts st) as (st' & l & El & Pl & H' & G).
  { exists (mkL p par (map tpage ts) es :: R). rewrite HR. cbn [nodes]. perm. }
  { destruct (bal_kids _ _ _ _ HB) as [[_ ->]|(h' & -> & Hk)]; [constructor|].
    eapply Forall_impl; [|exact Hk]. intros t [_ Ht]. exists h'. split; [lia|exact Ht]. }
  { exact HI. }
  unfold bind. rewrite El. unfold ret. exists st', (es ++ l). split; [reflexivity|].
  split; [rewrite (inorder_bal _ _ _ _ HB), Pl; reflexivity|]. split; [exact H'|exact G].
Qed.

(** The moving iteration leaves other nodes alone and returns the same entries. *)
Lemma mutable_ok F : forall h par t fuel st R,
  Inv st (nodes par t ++ R) F -> cached st (tpage t) -> bal h t -> h < fuel ->
  exists st' l N', mutable_iterate fuel (tpage t) st = (st', Ok l) /\ Permutation l (inorder t) /\
    Inv st' (N' ++ R) F.
Proof.
  induction h as [h IH] using (well_founded_induction Wf_nat.lt_wf).
  intros par [p es ts] fuel st R HI Hc HB Hf. destruct fuel as [|fuel]; [lia|].
  cbn [tpage] in *. rewrite mutable_unfold. unfold bind at 1. cbn [nodes app] in HI.
  destruct (get_node_ok st _ F _ HI (or_introl eq_refl) Hc) as (nd & E & _ & _ & Hch & Hes). cbn [l_pg l_cs l_es] in E, Hch, Hes.
  rewrite E, Hch, Hes.
  destruct (set_entries_ok st p _ _ _ _ F (map moved_from es) HI Hc) as (st1 & E1 & HI1 & G1).
  unfold bind at 1. rewrite E1.
  assert (Hloop : forall us st0 R', Inv st0 (flat_map (nodes p) us ++ R') F ->
     Forall (fun t => exists h', h' < h /\ bal h' t) us ->
     exists st' l N', kids_loop (mutable_iterate fuel) p (map tpage us) st0 = (st', Ok l) /\
       Permutation l (concat (map inorder us)) /\ Inv st' (N' ++ R') F).
  { induction us as [|u us IHu]; intros st0 R' H0 HF.
    - exists st0, [], []. split; [reflexivity|]. split; [reflexivity|exact H0].
    - cbn [map kids_loop]. cbn [flat_map] in H0.
      inversion HF as [|? ? (h' & Hh' & Hb') HF']; subst.
      assert (Hu : In (head_node p u) ((nodes p u ++ flat_map (nodes p) us) ++ R')).
      { rewrite nodes_eq. left. reflexivity. }
      destruct (retrieve_ok st0 _ F _ H0 Hu) as (st2 & E2 & H2 & Hc2 & _ & _).
      cbn [l_par l_pg head_node] in E2, Hc2. unfold bind at 1. rewrite E2.
      rewrite <- app_assoc in H2.
      destruct (IH h' Hh' p u fuel st2 _ H2 Hc2 Hb' ltac:(lia)) as (st3 & a & N1 & E3 & Pa & H3).
      unfold bind at 1. rewrite E3.
      eapply (inv_perm _ _ (flat_map (nodes p) us ++ N1 ++ R')) in H3; [|perm].
      destruct (IHu st3 _ H3 HF') as (st4 & b & N2 & E4 & Pb & H4).
      unfold bind at 1. fold (kids_loop (mutable_iterate fuel) p). rewrite E4. unfold ret.
      exists st4, (a ++ b), (N1 ++ N2). split; [reflexivity|]. split; [cbn [map concat]; rewrite Pa, Pb; reflexivity|].
      eapply inv_perm; [|exact H4]. perm. }
  eapply (inv_perm _ _ (flat_map (nodes p) ts ++ mkL p par (map tpage ts) (map moved_from es) :: R)) in HI1; [|perm].
  destruct (Hloop ts st1 _ HI1) as (st' & l & N' & El & Pl & H').
  { destruct (bal_kids _ _ _ _ HB) as [[_ ->]|(h' & -> & Hk)]; [constructor|].
    eapply Forall_impl; [|exact Hk]. intros t [_ Ht]. exists h'. split; [lia|exact Ht]. }
  unfold bind. rewrite El. unfold ret.
  exists st', (es ++ l), (mkL p par (map tpage ts) (map moved_from es) :: N'). split; [reflexivity|].
  split; [rewrite (inorder_bal _ _ _ _ HB), Pl; reflexivity|]. eapply inv_perm; [|exact H']. perm.
Qed.

Section S.
Variable cmp : bytes -> bytes -> comparison.
Variable junk : N -> bytes.
Hypothesis Hcmp : cmp_ok cmp.
Hypothesis Hjunk : forall n, length (junk n) = BLOCK_SIZE.
Notation rep := (rep cmp).

Lemma list_ok st F o :
  rep st F o -> exists st' l, list_entries st = (st', Ok l) /\ Permutation l (ents o) /\ rep st' F o.
Proof.
  intros H. unfold list_entries. destruct o as [t|].
  - destruct (get_root_some cmp st F t H) as (st1 & E1 & HA1 & G1 & H1). unfold bind. rewrite E1.
    destruct (r_shape _ _ _ _ H) as (h & Hok). pose proof (height_bound h t Hok (r_count _ _ _ _ H)) as Hh.
    destruct (iterate_ok (nodes INVALID_PAGE t) F h INVALID_PAGE t BTREE_MAX_DEPTH st1 (r_inv _ _ _ _ H1))
      as (st2 & l & E2 & Pl & HI2 & G2).
    { exists []. rewrite app_nil_r. reflexivity. }
    { apply HA1. } { apply Hok. } { unfold BTREE_MAX_DEPTH. lia. }
    exists st2, l. split; [exact E2|]. split; [exact Pl|].
    destruct H1 as [R1 R2 R3 R4 R5]. constructor; try assumption. rewrite (proj2 G2). exact R1.
  - unfold bind. rewrite (get_root_none cmp _ _ H). exists st, []. split; [reflexivity|]. split; [reflexivity|exact H].
Qed.

Lemma is_empty_ok st F o :
  rep st F o ->
  exists st', is_empty st = (st', Ok (match ents o with [] => true | _ => false end)) /\ rep st' F o.
Proof.
  intros H. unfold is_empty. destruct o as [t|].
  - destruct (get_root_some cmp st F t H) as (st1 & E1 & HA1 & G1 & H1). unfold bind at 1. rewrite E1.
    destruct t as [p es ts]. unfold bind.
    destruct (at_get_node _ _ _ _ _ _ HA1) as (nd & E2 & _ & _ & Hes). cbn [tpage]. rewrite E2. unfold ret.
    exists st1. split; [|exact H1]. f_equal. f_equal. rewrite Hes. cbn [ents].
    destruct (r_shape _ _ _ _ H) as (h & (Hb & _ & H1')). cbn [tents] in H1'.
    destruct h as [|h].
    + cbn in Hb. subst ts. cbn [inorder]. destruct es; reflexivity.
    + specialize (H1' ltac:(lia)). destruct es as [|e es]; [cbn in H1'; lia|].
      assert (Hin : In e (inorder (T p (e :: es) ts))).
      { apply in_inorder_ents; [eapply bal_shape; exact Hb|left; reflexivity]. }
      destruct (inorder (T p (e :: es) ts)); [destruct Hin|reflexivity].
  - unfold bind. rewrite (get_root_none cmp _ _ H). exists st. split; [reflexivity|exact H].
Qed.

(** ** Writing the dirty nodes *)
Definition fits (l : lnode) : Prop := node_fits (l_cs l) (l_es l).

Lemma write_node_ok st l L F nd :
  Inv st (l :: L) F -> fits l -> lookup (l_pg l) (b_cache st) = Some nd ->
  exists st', (write_node junk (l_pg l) nd;;
       put_node (l_pg l) (mkNode (n_parent nd) (n_children nd) (n_entries nd) false)) st = (st', Ok tt) /\
    Inv st' (l :: L) F /\ b_root st' = b_root st /\
    lookup (l_pg l) (b_cache st') = Some (mkNode (n_parent nd) (n_children nd) (n_entries nd) false) /\
    (forall q, q <> l_pg l -> lookup q (b_cache st') = lookup q (b_cache st)).
Proof.
  intros H (F1 & F2 & F3 & F4) Hl. pose proof (inv_page_valid _ _ _ _ H (or_introl eq_refl)) as Hv.
  pose proof (inv_page_lt _ _ _ _ H (or_introl eq_refl)) as Hlt.
  pose proof (nodup_pages_head _ _ _ _ H) as Hne.
  inv_fields H.
  assert (Hnd0 := Hnodes). inversion Hnd0 as [|? ? Hln HLn]; subst.
  unfold node_ok in Hln. rewrite Hl in Hln. destruct Hln as (N1 & N2 & N3 & N4).
  unfold write_node, bind at 1. rewrite (limit_invalid _ Hv).
  unfold bind at 1, lift. rewrite N1, N2. rewrite to_buffer_ok; [|exact F4|apply BLOCK_SIZE_fits; assumption].
  set (d := node_bytes (l_cs l) (l_es l) ++ skipn (length (node_bytes (l_cs l) (l_es l))) (junk (l_pg l))).
  assert (Hd : length d = BLOCK_SIZE).
  { unfold d. rewrite app_length, skipn_length, Hjunk, node_bytes_length by exact F4.
    pose proof (BLOCK_SIZE_fits (length (l_cs l)) (length (l_es l)) F1 F2). lia. }
  destruct (write_page_ok st (l_pg l) _ d Hlen Hlim Hlt Hd) as (st1 & E1 & L1 & P1 & R1 & R2 & R3 & R4).
  rewrite E1. unfold put_node, modify.
  exists (set_cache st1 (update (l_pg l) (mkNode (n_parent nd) (l_cs l) (l_es l) false) (b_cache st1))).
  split; [reflexivity|].
  assert (Hlk : lookup (l_pg l) (update (l_pg l) (mkNode (n_parent nd) (l_cs l) (l_es l) false) (b_cache st1))
     = Some (mkNode (n_parent nd) (l_cs l) (l_es l) false)).
  { apply lookup_update_same. rewrite R4, Hl. discriminate. }
  assert (Hlo : forall q, q <> l_pg l -> lookup q (update (l_pg l) (mkNode (n_parent nd) (l_cs l) (l_es l) false) (b_cache st1))
     = lookup q (b_cache st)).
  { intros q Hq. rewrite lookup_update_other by congruence. rewrite R4. reflexivity. }
  assert (Hpg : forall q, N.to_nat q < length (l :: L) + length F -> q <> l_pg l ->
     page (set_cache st1 (update (l_pg l) (mkNode (n_parent nd) (l_cs l) (l_es l) false) (b_cache st1))) q = page st q).
  { intros q Hq Hq'. change (page st1 q = page st q). rewrite P1 by exact Hq.
    destruct (N.eqb_spec q (l_pg l)); [contradiction|reflexivity]. }
  rewrite Forall_forall in Hrg.
  split; [|split; [exact R1|split; [exact Hlk|exact Hlo]]].
  constructor.
  - exact L1.
  - exact Hlim.
  - exact Hnd.
  - rewrite Forall_forall. exact Hrg.
  - constructor.
    + unfold node_ok. cbn [b_cache set_cache]. rewrite Hlk. cbn [n_children n_entries n_parent].
      split; [reflexivity|]. split; [reflexivity|]. split; [exact N3|]. intros _.
      unfold stored. change (from_buffer (page st1 (l_pg l)) = Ok (l_cs l, l_es l)).
      rewrite P1 by exact Hlt. rewrite N.eqb_refl. unfold d. apply from_buffer_node_bytes; try assumption; lia.
    + rewrite Forall_forall in HLn |- *. intros l' Hi. apply (node_ok_ext st); [| |apply HLn; exact Hi].
      * cbn [b_cache set_cache]. apply Hlo. apply Hne. exact Hi.
      * apply Hpg; [|apply Hne; exact Hi]. apply Hrg. apply in_or_app. left. right. apply in_map. exact Hi.
  - intros p Hp. apply Hcache. unfold cached in *. cbn [b_cache set_cache] in Hp.
    destruct (N.eq_dec p (l_pg l)) as [->|Hn]; [rewrite Hl; discriminate|]. rewrite Hlo in Hp by exact Hn. exact Hp.
  - cbn [b_cache set_cache]. rewrite update_keys, R4. exact Hkeys.
  - eapply chain_ext; [|exact Hchain]. intros p Hp. apply Hpg.
    + apply Hrg. apply in_or_app. right. exact Hp.
    + intros ->. eapply nodup_app_disj; [exact Hnd|left; reflexivity|exact Hp].
  - cbn [b_free set_cache]. rewrite R2. exact Hfree.
  - cbn [b_nfree set_cache]. rewrite R3. exact Hnfree.
Qed.

Lemma flush_loop_ok L F : forall c st,
  Inv st L F -> Forall fits L -> NoDup (map fst c) ->
  (forall p nd, In (p, nd) c -> lookup p (b_cache st) = Some nd) ->
  (forall p nd, lookup p (b_cache st) = Some nd -> n_dirty nd = true -> In (p, nd) c) ->
  exists st', flush_loop junk c st = (st', Ok tt) /\ Inv st' L F /\ b_root st' = b_root st /\
    (forall p nd, lookup p (b_cache st') = Some nd -> n_dirty nd = false).
Proof.
  induction c as [|[p nd] c IH]; intros st H Hf Hn Hin Hd.
  - exists st. split; [reflexivity|]. split; [exact H|]. split; [reflexivity|].
    intros p nd Hl. destruct (n_dirty nd) eqn:E; [|reflexivity]. destruct (Hd p nd Hl E).
  - cbn [flush_loop map fst] in *. inversion Hn as [|? ? Hn1 Hn2]; subst.
    pose proof (Hin p nd (or_introl eq_refl)) as Hl.
    destruct (n_dirty nd) eqn:Edirty.
    + assert (Hp : In p (pages L)) by (apply (i_cache _ _ _ H); unfold cached; congruence).
      apply in_map_iff in Hp. destruct Hp as (l & El & Hl').
      apply in_split in Hl'. destruct Hl' as (L1 & L2 & HL).
      assert (HP : Permutation L (l :: L1 ++ L2)) by (rewrite HL; apply Permutation_sym, Permutation_middle).
      assert (Hfl : fits l).
      { rewrite Forall_forall in Hf. apply Hf. rewrite HL. apply in_or_app. right. left. reflexivity. }
      subst p.
      destruct (write_node_ok st l (L1 ++ L2) F nd (inv_perm _ _ _ _ HP H) Hfl Hl) as (st1 & E1 & H1 & R1 & K1 & K2).
      unfold bind at 1. rewrite E1.
      destruct (IH st1) as (st2 & E2 & H2 & R2 & K3).
      { eapply inv_perm; [apply Permutation_sym; exact HP|exact H1]. }
      { exact Hf. } { exact Hn2. }
      { intros q n Hq. destruct (N.eq_dec q (l_pg l)) as [->|Hne].
        - exfalso. apply Hn1. apply in_map_iff. exists (l_pg l, n). auto.
        - rewrite K2 by exact Hne. apply Hin. right. exact Hq. }
      { intros q n Hq Hdq. destruct (N.eq_dec q (l_pg l)) as [->|Hne].
        - rewrite K1 in Hq. injection Hq as <-. discriminate.
        - rewrite K2 in Hq by exact Hne. destruct (Hd q n Hq Hdq) as [E|Hi]; [congruence|exact Hi]. }
      exists st2. split; [exact E2|]. split; [exact H2|]. split; [congruence|exact K3].
    + unfold bind at 1, ret at 1. apply IH; [exact H|exact Hf|exact Hn2| |].
      * intros q n Hq. apply Hin. right. exact Hq.
      * intros q n Hq Hdq. destruct (Hd q n Hq Hdq) as [E|Hi]; [congruence|exact Hi].
Qed.

Lemma lookup_in p c nd : lookup p c = Some nd -> In (p, nd) c.
Proof.
  induction c as [|[q x] c IH]; cbn [lookup]; [discriminate|].
  destruct (N.eqb_spec q p) as [->|Hne]; intros H; [left; congruence|right; auto].
Qed.

Lemma in_lookup p c nd : NoDup (map fst c) -> In (p, nd) c -> lookup p c = Some nd.
Proof.
  induction c as [|[q x] c IH]; cbn [map fst lookup]; intros Hn Hi; [destruct Hi|].
  inversion Hn; subst. destruct Hi as [E|Hi].
  - injection E as -> ->. rewrite N.eqb_refl. reflexivity.
  - destruct (N.eqb_spec q p) as [->|Hne]; [|auto].
    exfalso. apply H1. apply in_map_iff. exists (p, nd). auto.
Qed.

Lemma flush_cache_ok st L F :
  Inv st L F -> Forall fits L ->
  exists st', flush_cache junk st = (st', Ok tt) /\ Inv st' L F /\ b_root st' = b_root st /\
    (forall p nd, lookup p (b_cache st') = Some nd -> n_dirty nd = false).
Proof.
  intros H Hf. unfold flush_cache, bind, gets. apply flush_loop_ok; try assumption.
  - apply (i_keys _ _ _ H).
  - intros p nd. apply in_lookup. apply (i_keys _ _ _ H).
  - intros p nd Hl _. apply lookup_in. exact Hl.
Qed.

Lemma clear_cache_ok st L F :
  Inv st L F -> (forall p nd, lookup p (b_cache st) = Some nd -> n_dirty nd = false) ->
  Inv (set_cache st []) L F.
Proof.
  intros H Hc. inv_fields H. constructor; try assumption; try (eapply chain_ext; [|exact Hchain]; reflexivity).
  - rewrite Forall_forall in *. intros l Hl. specialize (Hnodes l Hl). unfold node_ok in *. cbn [b_cache set_cache lookup].
    change (stored (set_cache st []) (l_pg l)) with (stored st (l_pg l)).
    destruct (lookup (l_pg l) (b_cache st)) as [nd|] eqn:E; [|exact Hnodes].
    destruct Hnodes as (_ & _ & _ & Hs). apply Hs. eapply Hc. exact E.
  - intros p Hp. exfalso. apply Hp. reflexivity.
  - constructor.
Qed.

(** Every node of a well-formed tree of valid entries fits in a page. *)
Lemma nodes_fit : forall h par t,
  length (tents t) <= 13 -> bal h t -> Forall entry_ok (inorder t) ->
  Forall (fun l => (l_pg l < 2 ^ 32)%N) (nodes par t) -> Forall fits (nodes par t).
Proof.
  induction h as [h IH] using (well_founded_induction Wf_nat.lt_wf).
  intros par [p es ts] H13 HB He Hp. cbn [tents] in H13.
  rewrite (inorder_bal _ _ _ _ HB) in He. apply Forall_app in He. destruct He as [He Hk].
  cbn [nodes] in Hp |- *. inversion Hp as [|? ? _ Hp']; subst.
  constructor.
  - unfold fits, node_fits. cbn [l_cs l_es]. rewrite map_length.
    split; [|split; [exact H13|split; [|exact He]]].
    + destruct (bal_shape _ _ _ _ HB) as [->|Hl]; [cbn; lia|lia].
    + rewrite Forall_forall in *. intros c Hc. apply in_map_iff in Hc. destruct Hc as (t & <- & Ht).
      apply (Hp' (head_node p t)). apply in_flat_map. exists t. split; [exact Ht|].
      rewrite nodes_eq. left. reflexivity.
  - destruct (bal_kids _ _ _ _ HB) as [[_ ->]|(h' & -> & Hg)]; [constructor|].
    clear HB Hp. induction ts as [|t ts IHt]; [constructor|].
    cbn [flat_map map concat] in *. apply Forall_app in Hp'. destruct Hp' as [Hp1 Hp2].
    apply Forall_app in Hk. destruct Hk as [Hk1 Hk2]. inversion Hg as [|? ? Hg1 Hg2]; subst.
    apply Forall_app. split; [|apply IHt; assumption].
    apply (IH h'); [lia|apply Hg1|apply Hg1|exact Hk1|exact Hp1].
Qed.

Lemma rep_fits st F o : rep st F o -> Forall entry_ok (ents o) -> Forall fits (tnodes o).
Proof.
  intros H He. destruct o as [t|]; [|constructor]. cbn [tnodes ents] in *.
  destruct (r_shape _ _ _ _ H) as (h & Hb & H13 & _).
  apply (nodes_fit h); try assumption. rewrite Forall_forall. intros l Hl.
  pose proof (inv_page_valid _ _ _ _ (r_inv _ _ _ _ H) Hl) as Hv. unfold PAGE_LIMIT in Hv. lia.
Qed.

(** ** Rebuilding *)
Definition dist : list entry -> Prop := ForallOrdPairs (fun a b => cmp (e_name a) (e_name b) <> Eq).

Lemma dist_cons x l : dist (x :: l) <-> (forall y, In y l -> cmp (e_name x) (e_name y) <> Eq) /\ dist l.
Proof.
  split.
  - intros H. inversion H; subst. rewrite Forall_forall in *. auto.
  - intros [H1 H2]. constructor; [rewrite Forall_forall; exact H1|exact H2].
Qed.

Lemma dist_perm l l' : Permutation l l' -> dist l -> dist l'.
Proof.
  induction 1 as [|x l l' HP IH|x y l|l l' l'' HP1 IH1 HP2 IH2]; intros H.
  - exact H.
  - apply dist_cons in H. destruct H as [H1 H2]. apply dist_cons. split; [|auto].
    intros z Hz. apply H1. apply (Permutation_in z (Permutation_sym HP)). exact Hz.
  - apply dist_cons in H. destruct H as [H1 H2]. apply dist_cons in H2. destruct H2 as [H2 H3].
    apply dist_cons. split.
    + intros z [<-|Hz]; [|apply H2; exact Hz]. intros He. apply (H1 x (or_introl eq_refl)).
      apply (cmp_eq_sym cmp Hcmp). exact He.
    + apply dist_cons. split; [|exact H3]. intros z Hz. apply H1. right. exact Hz.
  - auto.
Qed.

Lemma dist_sorted l : BtreeSearch.SS cmp l -> dist l.
Proof.
  induction l as [|x l IH]; intros H; [constructor|]. apply SS_cons in H. destruct H as [H1 H2].
  apply dist_cons. split; [|auto]. intros y Hy He. specialize (H2 y Hy). unfold lte, ltn in H2. congruence.
Qed.

Lemma add_all_ok : forall es st F o,
  rep st F o -> dist (es ++ ents o) -> Forall (fun e => length (e_name e) <= 255) es ->
  (N.of_nat (length (es ++ ents o)) <= MAX_ENTRIES)%N ->
  exists st' F' o', add_all cmp es st = (st', Ok tt) /\ rep st' F' o' /\ Permutation (ents o') (es ++ ents o).
Proof.
  induction es as [|e es IH]; intros st F o H Hd Hl HM.
  - exists st, F, o. split; [reflexivity|]. split; [exact H|reflexivity].
  - cbn [add_all app length] in *. inversion Hl as [|? ? Hl1 Hl2]; subst.
    apply dist_cons in Hd. destruct Hd as [Hd1 Hd2].
    destruct (add_entry_new cmp Hcmp st F o (e_name e) (e_id e) (e_type e) H Hl1) as (st1 & F1 & o1 & E1 & H1 & P1).
    { apply find_name_none. intros y Hy. apply Hd1. apply in_or_app. right. exact Hy. }
    { rewrite app_length in HM. lia. }
    unfold bind. rewrite E1.
    assert (P1' : Permutation (es ++ ents o1) (e :: es ++ ents o)).
    { rewrite P1. destruct e as [en ei et]. cbn [e_name e_id e_type]. perm. }
    destruct (IH st1 F1 o1 H1) as (st2 & F2 & o2 & E2 & H2 & P2).
    { apply (dist_perm (e :: es ++ ents o)); [apply Permutation_sym; exact P1'|]. apply dist_cons. auto. }
    { exact Hl2. }
    { apply Permutation_length in P1'. rewrite P1'. cbn [length]. exact HM. }
    exists st2, F2, o2. split; [exact E2|]. split; [exact H2|]. rewrite P2. exact P1'.
Qed.

Lemma rep_empty : rep bt_empty [] None.
Proof.
  constructor; cbn [troot tnodes ents tshape]; try exact I; try reflexivity.
  - constructor; cbn; try reflexivity; try constructor; try exact I; try lia.
    intros p Hp. exfalso. apply Hp. reflexivity.
  - constructor.
  - unfold MAX_ENTRIES. cbn. lia.
Qed.

Lemma rebuild_ok st F o :
  rep st F o -> Forall entry_ok (ents o) ->
  exists st' F' o', rebuild cmp st = (st', Ok tt) /\ rep st' F' o' /\ Permutation (ents o') (ents o).
Proof.
  intros H He. unfold rebuild. destruct o as [t|].
  - destruct (get_root_some cmp st F t H) as (st1 & E1 & HA1 & G1 & H1). unfold bind at 1. rewrite E1.
    destruct (r_shape _ _ _ _ H) as (h & Hok). pose proof (height_bound h t Hok (r_count _ _ _ _ H)) as Hh.
    destruct (mutable_ok F h INVALID_PAGE t BTREE_MAX_DEPTH st1 []) as (st2 & l & N' & E2 & Pl & HI2).
    { rewrite app_nil_r. exact (r_inv _ _ _ _ H1). }
    { apply HA1. } { apply Hok. } { unfold BTREE_MAX_DEPTH. lia. }
    unfold bind at 1. rewrite E2. unfold bind, modify.
    match goal with |- context [add_all cmp l ?s] => replace s with bt_empty by reflexivity end.
    destruct (add_all_ok l bt_empty [] None rep_empty) as (st3 & F3 & o3 & E3 & H3 & P3).
    { cbn [ents]. rewrite app_nil_r. eapply dist_perm; [apply Permutation_sym; exact Pl|].
      apply dist_sorted. exact (r_sorted _ _ _ _ H). }
    { cbn [ents] in He. rewrite <- Pl in He. eapply Forall_impl; [|exact He]. intros e Hx. apply Hx. }
    { cbn [ents]. rewrite app_nil_r, (Permutation_length Pl). exact (r_count _ _ _ _ H). }
    exists st3, F3, o3. split; [exact E3|]. split; [exact H3|]. rewrite P3. cbn [ents]. rewrite app_nil_r. exact Pl.
  - unfold bind. rewrite (get_root_none cmp _ _ H). exists st, F, None. split; [reflexivity|]. split; [exact H|reflexivity].
Qed.

(** ** Flushing and reloading *)
Lemma flush_rep st F o :
  rep st F o -> Forall entry_ok (ents o) ->
  exists st', flush_cache junk st = (st', Ok tt) /\ rep st' F o /\
    (forall p nd, lookup p (b_cache st') = Some nd -> n_dirty nd = false).
Proof.
  intros H He. destruct (flush_cache_ok st _ F (r_inv _ _ _ _ H) (rep_fits _ _ _ H He)) as (st1 & E1 & H1 & R1 & K1).
  exists st1. split; [exact E1|]. split; [|exact K1]. destruct H as [A1 A2 A3 A4 A5].
  constructor; try assumption. rewrite R1. exact A1.
Qed.

Lemma subflush_ok st F o :
  rep st F o -> Forall entry_ok (ents o) ->
  exists st' F' o', subflush cmp junk st = (st', Ok tt) /\ rep st' F' o' /\ Permutation (ents o') (ents o) /\
    (forall p nd, lookup p (b_cache st') = Some nd -> n_dirty nd = false).
Proof.
  intros H He. unfold subflush, bind at 1, gets at 1. unfold bind at 1, gets at 1.
  assert (Hr : exists st1 F1 o1, (if (5 <? b_nfree st)%N && (N.of_nat (length (b_stream st) / (BLOCK_SIZE * 3 / 2)) <? b_nfree st)%N
      then rebuild cmp else ret tt) st = (st1, Ok tt) /\ rep st1 F1 o1 /\ Permutation (ents o1) (ents o)).
  { destruct (_ && _).
    - apply (rebuild_ok st F); assumption.
    - exists st, F, o. split; [reflexivity|]. split; [exact H|reflexivity]. }
  destruct Hr as (st1 & F1 & o1 & E1 & H1 & P1). unfold bind. rewrite E1.
  destruct (flush_rep st1 F1 o1 H1) as (st2 & E2 & H2 & K2).
  { rewrite P1. exact He. }
  exists st2, F1, o1. split; [exact E2|]. split; [exact H2|]. split; [exact P1|exact K2].
Qed.

Lemma reload_ok st F o :
  rep st F o -> Forall entry_ok (ents o) ->
  exists st' F' o', reload cmp junk st = (st', Ok tt) /\ rep st' F' o' /\ Permutation (ents o') (ents o) /\
    b_cache st' = [].
Proof.
  intros H He. destruct (subflush_ok st F o H He) as (st1 & F1 & o1 & E1 & H1 & P1 & _).
  unfold reload, bind at 1. rewrite E1.
  destruct (flush_rep st1 F1 o1 H1) as (st2 & E2 & H2 & K2).
  { rewrite P1. exact He. }
  unfold bind. rewrite E2. unfold modify. exists (set_cache st2 []), F1, o1. split; [reflexivity|].
  split; [|split; [exact P1|reflexivity]].
  destruct H2 as [A1 A2 A3 A4 A5]. constructor; try assumption. apply clear_cache_ok; assumption.
Qed.

(** ** The whole interface *)
Definition D (st : bt) (m : list entry) : Prop :=
  exists F o, rep st F o /\ Permutation (ents o) m /\ Forall entry_ok m.

Lemma drop_name_perm name l m :
  Permutation l m -> Permutation (drop_name cmp name l) (drop_name cmp name m).
Proof.
  unfold drop_name. induction 1 as [|x l l' HP IH|x y l|l l' l'' HP1 IH1 HP2 IH2]; cbn [filter].
  - constructor.
  - destruct (negb _); [constructor; exact IH|exact IH].
  - destruct (negb _), (negb _); try reflexivity. constructor.
  - etransitivity; eassumption.
Qed.

Lemma drop_none name (l : list entry) :
  (forall e, In e l -> cmp name (e_name e) <> Eq) -> drop_name cmp name l = l.
Proof.
  unfold drop_name, same_name. induction l as [|x l IH]; intros H; [reflexivity|]. cbn [filter].
  pose proof (H x (or_introl eq_refl)) as Hx. rewrite IH by (intros e He; apply H; right; exact He).
  destruct (cmp name (e_name x)); [congruence| |]; reflexivity.
Qed.

Lemma step_ok op st m :
  D st m -> dop_ok op -> (N.of_nat (length (fst (dspec_step cmp op m))) <= MAX_ENTRIES)%N ->
  let r := bt_step cmp junk op st in
  let s := dspec_step cmp op m in
  D (fst r) (fst s) /\ same_answer (snd r) (snd s).
Proof.
  intros (F & o & H & HP & He) Hop HM. pose proof (r_sorted _ _ _ _ H) as HS.
  assert (Heo : Forall entry_ok (ents o)) by (rewrite HP; exact He).
  destruct op as [name|name id ty|name| | | |]; cbn [bt_step dspec_step] in *; cbv zeta.
  - (* get *)
    unfold name_too_long, bind. destruct (Nat.ltb_spec 255 (length name)) as [Hlong|Hshort].
    + unfold get_entry, MAX_FILENAME_LENGTH. destruct (Nat.ltb_spec 255 (length name)); [|lia].
      cbn [throw fst snd]. split; [exists F, o; auto|reflexivity].
    + destruct (get_entry_ok cmp Hcmp st F o name H Hshort) as (st1 & E1 & H1). rewrite E1. cbn [ret fst snd].
      split; [exists F, o; auto|]. rewrite (find_name_perm cmp Hcmp name _ _ HS HP). reflexivity.
  - (* add *)
    unfold name_too_long, bind in *. destruct (Nat.ltb_spec 255 (length name)) as [Hlong|Hshort].
    + unfold add_entry, MAX_FILENAME_LENGTH. destruct (Nat.ltb_spec 255 (length name)); [|lia].
      cbn [throw fst snd]. split; [exists F, o; auto|reflexivity].
    + rewrite (find_name_perm cmp Hcmp name _ _ HS HP) in *. destruct (find_name cmp name (ents o)) as [x|] eqn:Ef.
      * destruct (add_entry_found cmp Hcmp st F o name id ty x H Hshort Ef) as (st1 & E1 & H1). rewrite E1. cbn [ret fst snd].
        split; [exists F, o; auto|reflexivity].
      * destruct (add_entry_new cmp Hcmp st F o name id ty H Hshort Ef) as (st1 & F1 & o1 & E1 & H1 & P1).
        { cbn [fst length] in HM. rewrite (Permutation_length HP). exact HM. }
        rewrite E1. cbn [ret fst snd]. split; [|reflexivity].
        exists F1, o1. split; [exact H1|]. split; [rewrite P1, HP; reflexivity|].
        destruct Hop as (O1 & O2 & O3). constructor; [|exact He].
        split; [exact Hshort|]. split; [exact O1|]. split; [exact O2|exact O3].
  - (* remove *)
    unfold name_too_long, bind in *. destruct (Nat.ltb_spec 255 (length name)) as [Hlong|Hshort].
    + unfold remove_entry, MAX_FILENAME_LENGTH. destruct (Nat.ltb_spec 255 (length name)); [|lia].
      cbn [throw fst snd]. split; [exists F, o; auto|reflexivity].
    + destruct (remove_entry_ok cmp Hcmp st F o name H Hshort) as (st1 & F1 & o1 & E1 & H1 & P1).
      rewrite E1. cbn [ret fst snd]. rewrite (find_name_perm cmp Hcmp name _ _ HS HP). split; [|reflexivity].
      exists F1, o1. split; [exact H1|].
      assert (HPd : Permutation (ents o1) (drop_name cmp name m)).
      { rewrite <- (drop_name_perm name _ _ HP).
        pose proof (find_name_spec cmp name (ents o)) as Hsp. destruct (find_name cmp name (ents o)) as [x|] eqn:Ef.
        - destruct Hsp as [Hx1 Hx2]. rewrite (drop_name_perm name _ _ P1). unfold drop_name at 1. cbn [filter].
          unfold same_name at 1. rewrite Hx2. cbn [negb]. fold (drop_name cmp name (ents o1)).
          rewrite drop_none; [reflexivity|]. intros e Hee Heq.
          pose proof (dist_perm _ _ P1 (dist_sorted _ HS)) as Hd. apply dist_cons in Hd. destruct Hd as [Hd _].
          apply (Hd e Hee). rewrite <- (cmp_eq_l _ Hcmp name (e_name x)) by exact Hx2. exact Heq.
        - subst o1. rewrite drop_none by exact Hsp. reflexivity. }
      split; [exact HPd|]. rewrite Forall_forall in He |- *. intros e Hin. apply He.
      unfold drop_name in Hin. apply filter_In in Hin. apply Hin.
  - (* list *)
    destruct (list_ok st F o H) as (st1 & l & E1 & Pl & H1). unfold bind. rewrite E1. cbn [ret fst snd].
    split; [exists F, o; auto|]. cbn [same_answer]. rewrite Pl, HP. reflexivity.
  - (* empty *)
    destruct (is_empty_ok st F o H) as (st1 & E1 & H1). unfold bind. rewrite E1. cbn [ret fst snd].
    split; [exists F, o; auto|]. cbn [same_answer].
    destruct (ents o) as [|e l] eqn:Eo.
    + apply Permutation_nil in HP. subst m. reflexivity.
    + destruct m as [|e' m']; [apply Permutation_sym, Permutation_nil in HP; discriminate|reflexivity].
  - (* flush *)
    destruct (subflush_ok st F o H Heo) as (st1 & F1 & o1 & E1 & H1 & P1 & _). unfold bind. rewrite E1. cbn [ret fst snd].
    split; [|reflexivity]. exists F1, o1. split; [exact H1|]. split; [rewrite P1; exact HP|exact He].
  - (* reload *)
    destruct (reload_ok st F o H Heo) as (st1 & F1 & o1 & E1 & H1 & P1 & _). unfold bind. rewrite E1. cbn [ret fst snd].
    split; [|reflexivity]. exists F1, o1. split; [exact H1|]. split; [rewrite P1; exact HP|exact He].
Qed.

Lemma run_ok ops : forall st m,
  D st m -> Forall dop_ok ops ->
  (forall k, (N.of_nat (length (fst (dspec_run cmp (firstn k ops) m))) <= MAX_ENTRIES)%N) ->
  D (fst (bt_run cmp junk ops st)) (fst (dspec_run cmp ops m)) /\
  Forall2 same_answer (snd (bt_run cmp junk ops st)) (snd (dspec_run cmp ops m)).
Proof.
  induction ops as [|op ops IH]; intros st m HD Hok HM.
  - split; [exact HD|constructor].
  - inversion Hok as [|? ? Ho1 Ho2]; subst. cbn [bt_run dspec_run].
    pose proof (HM 1) as HM1. cbn [firstn dspec_run] in HM1.
    assert (HMs : forall k, (N.of_nat (length (fst (dspec_run cmp (firstn k ops) (fst (dspec_step cmp op m))))) <= MAX_ENTRIES)%N).
    { intros k. specialize (HM (S k)). cbn [firstn dspec_run] in HM.
      destruct (dspec_step cmp op m) as [m' r]. cbn [fst]. destruct (dspec_run cmp (firstn k ops) m'). exact HM. }
    destruct (step_ok op st m HD Ho1) as [HD' Ha].
    { destruct (dspec_step cmp op m) as [m' r]. exact HM1. }
    destruct (bt_step cmp junk op st) as [st' r]. destruct (dspec_step cmp op m) as [m' r']. cbn [fst snd] in *.
    destruct (IH st' m' HD' Ho2 HMs) as [HD2 Ha2].
    destruct (bt_run cmp junk ops st') as [st'' rs]. destruct (dspec_run cmp ops m') as [m'' rs']. cbn [fst snd] in *.
    split; [exact HD2|]. constructor; assumption.
Qed.
End S.
