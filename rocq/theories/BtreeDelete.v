(** Removing an entry: replace_with_sub_entry, rotate, merge and balance_up. *)
From Verif Require Import Base BaseLemmas BtreeModel BtreeSpec BtreeInv BtreeTree BtreeSearch BtreeInsert.
From Coq Require Import Permutation Sorting.Sorted.
Local Open Scope list_scope.

(** ** Small list facts *)
Lemma find_pos_ok (x : N) l1 l2 : ~ In x l1 -> find_pos x (l1 ++ x :: l2) = length l1.
Proof.
  induction l1 as [|y l1 IH]; intros H; cbn [app find_pos length].
  - rewrite N.eqb_refl. reflexivity.
  - destruct (N.eqb_spec y x) as [->|Hne]; [exfalso; apply H; left; reflexivity|].
    f_equal. apply IH. intros Hi. apply H. right. exact Hi.
Qed.

Lemma at_mid {A} (l1 l2 : list A) x : at_ (l1 ++ x :: l2) (length l1) = Ok x.
Proof. unfold at_. rewrite nth_error_app2, Nat.sub_diag by lia. reflexivity. Qed.

Lemma back_last {A} (l : list A) x : back_ (l ++ [x]) = Ok x.
Proof.
  unfold back_, idx_. rewrite app_length. cbn [length]. rewrite Nat.add_sub.
  rewrite nth_error_app2, Nat.sub_diag by lia. reflexivity.
Qed.

Lemma skip_mid {A} (l1 l2 : list A) x : skipn (S (length l1)) (l1 ++ x :: l2) = l2.
Proof.
  change (l1 ++ x :: l2) with (l1 ++ [x] ++ l2). rewrite app_assoc.
  apply skipn_exact. rewrite app_length. cbn. lia.
Qed.

Lemma set_at_mid {A} (l1 l2 : list A) x y : set_at (length l1) y (l1 ++ x :: l2) = l1 ++ y :: l2.
Proof. unfold set_at. rewrite firstn_exact, skip_mid by reflexivity. reflexivity. Qed.

Lemma erase_at_mid {A} (l1 l2 : list A) x : erase_at (length l1) (l1 ++ x :: l2) = Ok (l1 ++ l2).
Proof.
  unfold erase_at. rewrite app_length. cbn [length].
  destruct (Nat.ltb_spec (length l1) (length l1 + S (length l2))); [|lia].
  rewrite firstn_exact, skip_mid by reflexivity. reflexivity.
Qed.

Lemma children_nodup st p ts R F :
  Inv st (flat_map (nodes p) ts ++ R) F -> NoDup (map tpage ts).
Proof.
  intros H.
  assert (HP : Permutation (flat_map (nodes p) ts ++ R) (map (head_node p) ts ++ flat_map below ts ++ R))
    by (rewrite forest_perm; perm).
  pose proof (i_nodup _ _ _ (inv_perm _ _ _ _ HP H)) as Hnd. apply nodup_app_l in Hnd.
  unfold pages in Hnd. rewrite map_app, map_map in Hnd. apply nodup_app_l in Hnd. exact Hnd.
Qed.

Lemma frame_pages hole c f : In f c -> In (f_pg f) (pages (ctx_nodes hole c)).
Proof.
  revert hole; induction c as [|g c IH]; intros hole Hf; [destruct Hf|destruct Hf as [<-|Hi]]; cbn [ctx_nodes pages map].
  - left. reflexivity.
  - right. unfold pages. rewrite !map_app. apply in_or_app. right. apply in_or_app. right.
    apply IH. exact Hi.
Qed.

(** Re-parenting subtrees whose old parents differ. *)
Definition pkids (ps : list (N * tree)) : list lnode := flat_map (fun x => nodes (fst x) (snd x)) ps.

Lemma pkids_app a b : pkids (a ++ b) = pkids a ++ pkids b.
Proof. apply flat_map_app. Qed.

Lemma pkids_pair p ts : pkids (map (pair p) ts) = flat_map (nodes p) ts.
Proof. unfold pkids. induction ts as [|t ts IH]; [reflexivity|]. cbn [map flat_map fst snd]. rewrite IH. reflexivity. Qed.

Lemma snd_pair (p : N) (ts : list tree) : map snd (map (pair p) ts) = ts.
Proof. rewrite map_map. cbn. apply map_id. Qed.

Lemma pkids_perm ps :
  Permutation (pkids ps) (map (fun x => head_node (fst x) (snd x)) ps ++ flat_map below (map snd ps)).
Proof.
  induction ps as [|t ps IH]; [reflexivity|]. unfold pkids in *. cbn [flat_map map app].
  rewrite nodes_eq, IH. perm.
Qed.

Lemma reparent_pairs cs q ps :
  (forall t, In t (map snd ps) -> In (tpage t) cs) ->
  (forall t l, In t (map snd ps) -> In l (below t) -> ~ In (l_pg l) cs) ->
  map (reparent cs q) (pkids ps) = flat_map (nodes q) (map snd ps).
Proof.
  unfold pkids. induction ps as [|[p t] ps IH]; intros H1 H2; [reflexivity|].
  cbn [flat_map map fst snd] in *. rewrite map_app, IH.
  - f_equal. rewrite !nodes_eq. cbn [map]. f_equal.
    + unfold reparent, head_node. cbn [l_pg l_cs l_es].
      destruct (existsb (N.eqb (tpage t)) cs) eqn:E; [reflexivity|].
      exfalso. assert (existsb (N.eqb (tpage t)) cs = true); [|congruence].
      apply existsb_exists. exists (tpage t). split; [apply H1; left; reflexivity|apply N.eqb_refl].
    + apply reparent_id. intros l Hl. apply (H2 t l); [left; reflexivity|exact Hl].
  - intros t' Ht'. apply H1. right. exact Ht'.
  - intros t' l Ht' Hl. apply (H2 t'); [right; exact Ht'|exact Hl].
Qed.

Lemma adjust_pairs st q ps R F :
  Inv st (pkids ps ++ R) F ->
  exists st', adjust_children (map tpage (map snd ps)) q st = (st', Ok tt) /\
    Inv st' (flat_map (nodes q) (map snd ps) ++ R) F /\ grows st st'.
Proof.
  intros H.
  assert (HP : Permutation (pkids ps ++ R)
     (map (fun x => head_node (fst x) (snd x)) ps ++ flat_map below (map snd ps) ++ R))
    by (rewrite pkids_perm; perm).
  assert (Hh : map l_pg (map (fun x => head_node (fst x) (snd x)) ps) = map tpage (map snd ps))
    by (rewrite !map_map; reflexivity).
  assert (Hnd : NoDup (map tpage (map snd ps) ++ pages (flat_map below (map snd ps) ++ R))).
  { pose proof (i_nodup _ _ _ (inv_perm _ _ _ _ HP H)) as Hnd. apply nodup_app_l in Hnd.
    unfold pages in Hnd. rewrite map_app, Hh in Hnd. exact Hnd. }
  destruct (adjust_ok (map tpage (map snd ps)) q st _ F H) as (st' & E & HI & G).
  { intros c Hc. apply (Permutation_in c (Permutation_map l_pg (Permutation_sym HP))).
    rewrite map_app. apply in_or_app. left. rewrite Hh. exact Hc. }
  exists st'. split; [exact E|]. split; [|exact G].
  rewrite map_app in HI. rewrite reparent_pairs in HI.
  - rewrite reparent_id in HI; [exact HI|]. intros l Hl Hc.
    eapply nodup_app_disj; [exact Hnd|exact Hc|]. apply in_map. apply in_or_app. right. exact Hl.
  - intros t Ht. apply in_map. exact Ht.
  - intros t l Ht Hl Hc. eapply nodup_app_disj; [exact Hnd|exact Hc|].
    apply in_map. apply in_or_app. left. apply in_flat_map. exists t. auto.
Qed.

Section S.
Variable cmp : bytes -> bytes -> comparison.
Hypothesis Hcmp : cmp_ok cmp.
Notation SS := (SS cmp).
Notation lte := (lte cmp).

(** ** Merging two neighbours *)
Lemma merge_ok st F c r le sep re lc a ea ta b eb tb rc :
  At st F c (T r (le ++ sep :: re) (lc ++ T a ea ta :: T b eb tb :: rc)) ->
  length lc = length le -> cached st a -> cached st b ->
  exists st' F', merge a b r (length le) st = (st', Ok tt) /\
    At st' F' c (T r (le ++ re) (lc ++ T a (ea ++ sep :: eb) (ta ++ tb) :: rc)) /\
    b_root st' = b_root st.
Proof.
  intros HA Hlc Ha Hb. unfold merge, bind at 1.
  destruct (at_get_node _ _ _ _ _ _ HA) as (pd & -> & _ & Hch & Hes).
  destruct HA as (HI & Hr & Hc). cbn [tpage nodes app] in HI, Hr.
  rewrite Hes. unfold bind at 1, lift at 1. rewrite at_mid.
  pose proof HI as HI0. rewrite flat_map_app in HI0. cbn [flat_map nodes app] in HI0.
  destruct (get_node_ok st _ F (mkL a r (map tpage ta) ea) HI0) as (ld & Ea & _ & _ & Hca & Hea).
  { right. apply in_or_app. left. apply in_or_app. right. left. reflexivity. }
  { exact Ha. }
  cbn [l_pg l_cs l_es] in Ea, Hca, Hea. unfold bind at 1. rewrite Ea.
  destruct (get_node_ok st _ F (mkL b r (map tpage tb) eb) HI0) as (rd & Eb & _ & _ & Hcb & Heb).
  { right. apply in_or_app. left. apply in_or_app. right. right. apply in_or_app. right. left. reflexivity. }
  { exact Hb. }
  cbn [l_pg l_cs l_es] in Eb, Hcb, Heb. unfold bind at 1. rewrite Eb.
  unfold bind at 1, lift at 1. rewrite erase_at_mid.
  assert (Hnd : NoDup (map tpage (lc ++ T a ea ta :: T b eb tb :: rc))).
  { apply (children_nodup st r _ (mkL r (top c) (map tpage (lc ++ T a ea ta :: T b eb tb :: rc)) (le ++ sep :: re) :: ctx_nodes r c) F).
    eapply inv_perm; [|exact HI]. perm. }
  destruct (set_entries_ok st r _ _ _ _ F (le ++ re) HI Hr) as (st1 & E1 & HI1 & G1).
  unfold bind at 1. rewrite E1.
  assert (Hsplit : map tpage (lc ++ T a ea ta :: T b eb tb :: rc) = map tpage (lc ++ [T a ea ta]) ++ b :: map tpage rc)
    by (rewrite !map_app, <- app_assoc; reflexivity).
  assert (Hpos : find_pos b (n_children pd) = length (map tpage (lc ++ [T a ea ta]))).
  { rewrite Hch, Hsplit. apply find_pos_ok. rewrite Hsplit in Hnd. intros Hi.
    eapply nodup_app_disj; [exact Hnd|exact Hi|left; reflexivity]. }
  rewrite Hpos. unfold bind at 1, lift at 1.
  replace (length (map tpage (lc ++ [T a ea ta])) <? length (n_children pd)) with true.
  2:{ symmetry. apply Nat.ltb_lt. rewrite Hch, Hsplit, app_length. cbn [length]. lia. }
  rewrite Hch, Hsplit. rewrite firstn_exact by reflexivity.
  replace (skipn (S (length (map tpage (lc ++ [T a ea ta])))) (map tpage (lc ++ [T a ea ta]) ++ b :: map tpage rc))
    with (map tpage rc).
  2:{ symmetry. change (b :: map tpage rc) with ([b] ++ map tpage rc). rewrite app_assoc.
      apply skipn_exact. rewrite (app_length _ [b]). cbn [length]. lia. }
  destruct (set_children_ok st1 r _ _ _ _ F (map tpage (lc ++ [T a ea ta]) ++ map tpage rc) HI1 (proj1 G1 _ Hr))
    as (st2 & E2 & HI2 & G2).
  unfold bind at 1. rewrite E2. rewrite Hea, Heb, Hca, Hcb.
  pose proof (grows_trans _ _ _ G1 G2) as G12.
  rewrite flat_map_app in HI2. cbn [flat_map nodes app] in HI2.
  set (Lr := mkL r (top c) (map tpage (lc ++ [T a ea ta]) ++ map tpage rc) (le ++ re)) in *.
  eapply (inv_perm _ _ (mkL a r (map tpage ta) ea :: Lr :: flat_map (nodes r) lc ++ flat_map (nodes a) ta ++
     mkL b r (map tpage tb) eb :: flat_map (nodes b) tb ++ flat_map (nodes r) rc ++ ctx_nodes r c)) in HI2; [|perm].
  destruct (set_entries_ok st2 a _ _ _ _ F (ea ++ sep :: eb) HI2 (proj1 G12 _ Ha)) as (st3 & E3 & HI3 & G3).
  unfold bind at 1. rewrite E3. pose proof (grows_trans _ _ _ G12 G3) as G13.
  eapply (inv_perm _ _ (flat_map (nodes b) tb ++ mkL a r (map tpage ta) (ea ++ sep :: eb) :: Lr :: flat_map (nodes r) lc ++ flat_map (nodes a) ta ++
     mkL b r (map tpage tb) eb :: flat_map (nodes r) rc ++ ctx_nodes r c)) in HI3; [|perm].
  destruct (adjust_forest _ _ a _ _ _ HI3) as (st4 & E4 & HI4 & G4).
  unfold bind at 1. rewrite E4. pose proof (grows_trans _ _ _ G13 G4) as G14.
  eapply (inv_perm _ _ (mkL a r (map tpage ta) (ea ++ sep :: eb) :: flat_map (nodes a) tb ++ Lr :: flat_map (nodes r) lc ++ flat_map (nodes a) ta ++
     mkL b r (map tpage tb) eb :: flat_map (nodes r) rc ++ ctx_nodes r c)) in HI4; [|perm].
  destruct (set_children_ok st4 a _ _ _ _ F (map tpage ta ++ map tpage tb) HI4 (proj1 G14 _ Ha)) as (st5 & E5 & HI5 & G5).
  unfold bind at 1. rewrite E5. pose proof (grows_trans _ _ _ G14 G5) as G15.
  eapply (inv_perm _ _ (mkL b r (map tpage tb) eb :: (Lr :: flat_map (nodes r) lc ++ (mkL a r (map tpage ta ++ map tpage tb) (ea ++ sep :: eb) ::
      flat_map (nodes a) ta ++ flat_map (nodes a) tb) ++ flat_map (nodes r) rc ++ ctx_nodes r c))) in HI5; [|perm].
  destruct (del_node_ok st5 _ _ F HI5) as (st6 & E6 & HI6 & G6 & Hr6). cbn [l_pg] in E6, HI6, G6.
  exists st6, (b :: F). split; [exact E6|].
  split; [|rewrite Hr6; apply G15].
  pose proof (nodup_pages_head _ _ _ _ HI5) as Hnb. cbn [l_pg] in Hnb.
  assert (Hin : forall x, In x (pages (Lr :: ctx_nodes r c)) -> x <> b).
  { intros x Hx ->. unfold pages in Hx. apply in_map_iff in Hx. destruct Hx as (l & El & Hl).
    apply (Hnb l); [|exact El].
    destruct Hl as [<-|Hl]; [left; reflexivity|right]. do 3 (apply in_or_app; right). exact Hl. }
  split; [|split].
  - cbn [tpage]. eapply inv_perm; [|exact HI6]. cbn [nodes tpage].
    rewrite !flat_map_app, !map_app. cbn [flat_map nodes map tpage app]. rewrite flat_map_app, !map_app.
    unfold Lr. rewrite map_app. cbn [map tpage]. rewrite <- app_assoc. cbn [app]. perm.
  - cbn [tpage]. apply G6; [|apply G15; exact Hr]. apply Hin. left. reflexivity.
  - unfold allc in *. rewrite Forall_forall in *. intros f Hf. apply G6; [|apply G15, Hc; exact Hf].
    apply Hin. right. apply frame_pages. exact Hf.
Qed.

(** ** Rotating between two neighbours *)
Lemma rotate_ok st F c r le sep re lc a ea ta b eb tb rc h :
  At st F c (T r (le ++ sep :: re) (lc ++ T a ea ta :: T b eb tb :: rc)) ->
  length lc = length le -> cached st a -> cached st b ->
  bal h (T a ea ta) -> bal h (T b eb tb) ->
  exists st' ns e1 e2 t1 t2, rotate a b r (length le) st = (st', Ok tt) /\
    At st' F c (T r (le ++ ns :: re) (lc ++ T a e1 t1 :: T b e2 t2 :: rc)) /\
    grows st st' /\
    ea ++ sep :: eb = e1 ++ ns :: e2 /\ length e1 = (length ea + length eb + 1) / 2 /\
    ta ++ tb = t1 ++ t2 /\ bal h (T a e1 t1) /\ bal h (T b e2 t2) /\
    ((t1 = [] /\ t2 = []) \/ (length t1 = S (length e1) /\ length t2 = S (length e2))) /\
    ((ta = [] /\ tb = []) \/ (length ta = S (length ea) /\ length tb = S (length eb))).
Proof.
  intros HA Hlc Ha Hb Hba Hbb. unfold rotate, bind at 1.
  destruct (at_get_node _ _ _ _ _ _ HA) as (pd & -> & _ & Hch & Hes).
  destruct HA as (HI & Hr & Hc). cbn [tpage nodes app] in HI, Hr.
  rewrite Hes. unfold bind at 1, lift at 1. rewrite at_mid.
  pose proof HI as HI0. rewrite flat_map_app in HI0. cbn [flat_map nodes app] in HI0.
  destruct (get_node_ok st _ F (mkL a r (map tpage ta) ea) HI0) as (ld & Ea & _ & _ & Hca & Hea).
  { right. apply in_or_app. left. apply in_or_app. right. left. reflexivity. }
  { exact Ha. }
  cbn [l_pg l_cs l_es] in Ea, Hca, Hea. unfold bind at 1. rewrite Ea.
  destruct (get_node_ok st _ F (mkL b r (map tpage tb) eb) HI0) as (rd & Eb & _ & _ & Hcb & Heb).
  { right. apply in_or_app. left. apply in_or_app. right. right. apply in_or_app. right. left. reflexivity. }
  { exact Hb. }
  cbn [l_pg l_cs l_es] in Eb, Hcb, Heb. unfold bind at 1. rewrite Eb, Hea, Heb, Hca, Hcb.
  clear ld rd Ea Eb Hca Hcb Hea Heb HI0.
  set (temp := ea ++ sep :: eb).
  assert (Htl : length temp = length ea + length eb + 1) by (unfold temp; rewrite app_length; cbn [length]; lia).
  rewrite Htl. set (mid := (length ea + length eb + 1) / 2).
  assert (Hmid : mid < length temp).
  { rewrite Htl. apply Nat.div_lt; lia. }
  destruct (nth_error temp mid) as [ns|] eqn:En.
  2:{ apply nth_error_None in En. lia. }
  apply nth_error_ext' in En. destruct En as (e1 & e2 & Et & L1).
  unfold bind at 1, lift at 1. rewrite Et, <- L1, at_mid, set_at_mid.
  rewrite firstn_exact by reflexivity. rewrite Nat.add_1_r, skip_mid.
  destruct (set_entries_ok st r _ _ _ _ F (le ++ ns :: re) HI Hr) as (st1 & E1 & HI1 & G1).
  unfold bind at 1. rewrite E1. clear E1.
  rewrite flat_map_app in HI1. cbn [flat_map nodes app] in HI1.
  set (Lr := mkL r (top c) (map tpage (lc ++ T a ea ta :: T b eb tb :: rc)) (le ++ ns :: re)) in *.
  eapply (inv_perm _ _ (mkL a r (map tpage ta) ea :: Lr :: flat_map (nodes r) lc ++ flat_map (nodes a) ta ++
     mkL b r (map tpage tb) eb :: flat_map (nodes b) tb ++ flat_map (nodes r) rc ++ ctx_nodes r c)) in HI1; [|perm].
  destruct (set_entries_ok st1 a _ _ _ _ F e1 HI1 (proj1 G1 _ Ha)) as (st2 & E2 & HI2 & G2).
  unfold bind at 1. rewrite E2. clear E2 HI1. pose proof (grows_trans _ _ _ G1 G2) as G12.
  eapply (inv_perm _ _ (mkL b r (map tpage tb) eb :: mkL a r (map tpage ta) e1 :: Lr :: flat_map (nodes r) lc ++ flat_map (nodes a) ta ++
     flat_map (nodes b) tb ++ flat_map (nodes r) rc ++ ctx_nodes r c)) in HI2; [|perm].
  destruct (set_entries_ok st2 b _ _ _ _ F e2 HI2 (proj1 G12 _ Hb)) as (st3 & E3 & HI3 & G3).
  unfold bind at 1. rewrite E3. clear E3 HI2. pose proof (grows_trans _ _ _ G12 G3) as G13. clear G2 G3 G12.
  assert (L2 : length e1 + length e2 = length ea + length eb).
  { apply (f_equal (@length _)) in Et. rewrite Htl, app_length in Et. cbn [length] in Et. lia. }
  destruct h as [|h].
  - cbn in Hba, Hbb. subst ta tb. cbn [map length Nat.eqb negb andb].
    exists st3, ns, e1, e2, [], []. split; [reflexivity|]. split.
    { split; [|split; [apply G13, Hr|eapply allc_grows; [exact G13|exact Hc]]].
      eapply inv_perm; [|exact HI3]. cbn [nodes tpage]. rewrite flat_map_app. cbn [flat_map nodes app map].
      unfold Lr. rewrite !map_app. cbn [map tpage]. perm. }
    split; [exact G13|]. split; [reflexivity|]. split; [reflexivity|]. split; [reflexivity|].
    split; [reflexivity|]. split; [reflexivity|]. split; left; auto.
  - destruct (proj1 (bal_S _ _) Hba) as [La Fa]. destruct (proj1 (bal_S _ _) Hbb) as [Lb Fb].
    cbn [tkids tents] in La, Fa, Lb, Fb.
    rewrite !map_length. destruct (Nat.eqb_spec (length ta) 0); [lia|].
    destruct (Nat.eqb_spec (length tb) 0); [lia|]. cbn [negb andb].
    set (ps := map (pair a) ta ++ map (pair b) tb).
    assert (Lps : length ps = length ta + length tb) by (unfold ps; rewrite app_length, !map_length; reflexivity).
    set (p1 := firstn (S (length e1)) ps). set (p2 := skipn (S (length e1)) ps).
    assert (Eps : ps = p1 ++ p2) by (symmetry; apply firstn_skipn).
    assert (Lp1 : length p1 = S (length e1)) by (unfold p1; rewrite firstn_length; lia).
    assert (Lp2 : length p2 = S (length e2)) by (unfold p2; rewrite skipn_length; lia).
    set (t1 := map snd p1). set (t2 := map snd p2).
    assert (Ett : ta ++ tb = t1 ++ t2).
    { unfold t1, t2. rewrite <- map_app, <- Eps. unfold ps. rewrite map_app, !snd_pair. reflexivity. }
    assert (Lt1 : length t1 = S (length e1)) by (unfold t1; rewrite map_length; exact Lp1).
    assert (Lt2 : length t2 = S (length e2)) by (unfold t2; rewrite map_length; exact Lp2).
    rewrite <- map_app, Ett, map_app, firstn_exact, skipn_exact by (rewrite map_length; exact Lt1).
    assert (Hkids : flat_map (nodes a) ta ++ flat_map (nodes b) tb = pkids p1 ++ pkids p2).
    { rewrite <- pkids_app, <- Eps. unfold ps. rewrite pkids_app, !pkids_pair. reflexivity. }
    eapply (inv_perm _ _ (mkL a r (map tpage ta) e1 :: mkL b r (map tpage tb) e2 :: pkids p1 ++ pkids p2 ++ Lr :: flat_map (nodes r) lc ++
       flat_map (nodes r) rc ++ ctx_nodes r c)) in HI3.
    2:{ rewrite (app_assoc (pkids p1)), <- Hkids. perm. }
    destruct (set_children_ok st3 a _ _ _ _ F (map tpage t1) HI3 (proj1 G13 _ Ha)) as (st4 & E4 & HI4 & G4).
    unfold bind at 1. rewrite E4. clear E4 HI3. pose proof (grows_trans _ _ _ G13 G4) as G14.
    eapply (inv_perm _ _ (mkL b r (map tpage tb) e2 :: mkL a r (map tpage t1) e1 :: pkids p1 ++ pkids p2 ++ Lr :: flat_map (nodes r) lc ++
       flat_map (nodes r) rc ++ ctx_nodes r c)) in HI4; [|perm].
    destruct (set_children_ok st4 b _ _ _ _ F (map tpage t2) HI4 (proj1 G14 _ Hb)) as (st5 & E5 & HI5 & G5).
    unfold bind at 1. rewrite E5. clear E5 HI4. pose proof (grows_trans _ _ _ G14 G5) as G15.
    eapply (inv_perm _ _ (pkids p1 ++ mkL b r (map tpage t2) e2 :: mkL a r (map tpage t1) e1 :: pkids p2 ++ Lr :: flat_map (nodes r) lc ++
       flat_map (nodes r) rc ++ ctx_nodes r c)) in HI5; [|perm].
    destruct (adjust_pairs _ a _ _ _ HI5) as (st6 & E6 & HI6 & G6). fold t1 in E6, HI6.
    unfold bind at 1. rewrite E6. clear E6 HI5. pose proof (grows_trans _ _ _ G15 G6) as G16.
    eapply (inv_perm _ _ (pkids p2 ++ mkL b r (map tpage t2) e2 :: mkL a r (map tpage t1) e1 :: flat_map (nodes a) t1 ++ Lr :: flat_map (nodes r) lc ++
       flat_map (nodes r) rc ++ ctx_nodes r c)) in HI6; [|perm].
    destruct (adjust_pairs _ b _ _ _ HI6) as (st7 & E7 & HI7 & G7). fold t2 in E7, HI7.
    pose proof (grows_trans _ _ _ G16 G7) as G17.
    assert (Fab : Forall (good h) (t1 ++ t2)) by (rewrite <- Ett; apply Forall_app; auto).
    apply Forall_app in Fab. destruct Fab as [F1 F2].
    exists st7, ns, e1, e2, t1, t2. split; [exact E7|]. split.
    { split; [|split; [apply G17, Hr|eapply allc_grows; [exact G17|exact Hc]]].
      eapply inv_perm; [|exact HI7]. cbn [nodes tpage]. rewrite flat_map_app. cbn [flat_map nodes app map].
      unfold Lr. rewrite !map_app. cbn [map tpage]. perm. }
    split; [exact G17|]. split; [reflexivity|]. split; [reflexivity|]. split; [reflexivity|].
    split; [apply bal_S; cbn [tkids tents]; auto|]. split; [apply bal_S; cbn [tkids tents]; auto|].
    split; right; auto.
Qed.

(** ** The last entry of a subtree *)
Lemma rightmost_ok F : forall h c t fuel st,
  At st F c t -> good h t -> balc h c -> h < fuel ->
  exists st' ds q es y, rightmost_leaf fuel (tpage t) st = (st', Ok q) /\
    At st' F (ds ++ c) (T q (es ++ [y]) []) /\
    plug (ds ++ c) (T q (es ++ [y]) []) = plug c t /\
    balc 0 (ds ++ c) /\ 6 <= length (es ++ [y]) <= 13 /\ length ds = h /\
    Forall (fun f => f_re f = [] /\ f_rc f = []) ds /\ grows st st'.
Proof.
  induction h as [|h IH]; intros c [p es ts] fuel st HA HG HC Hf; (destruct fuel as [|fuel]; [lia|]);
    cbn [rightmost_leaf tpage]; unfold bind at 1;
    destruct (at_get_node _ _ _ _ _ _ HA) as (nd & -> & _ & Hch & Hes); destruct HG as [HZ HB]; cbn [tents] in HZ.
  - cbn in HB. subst ts. unfold bind at 1, lift. rewrite is_leaf_leaf by exact Hch.
    destruct (exists_last (l := es)) as (es' & y & ->); [intros ->; cbn in HZ; lia|].
    exists st, [], p, es', y. cbn [app length]. split; [reflexivity|]. split; [exact HA|].
    split; [reflexivity|]. split; [exact HC|]. split; [exact HZ|]. split; [reflexivity|].
    split; [constructor|apply grows_refl].
  - destruct (proj1 (bal_S _ _) HB) as [HL HF]. cbn [tkids tents] in HL, HF.
    unfold bind at 1, lift at 1. rewrite is_leaf_inner by (rewrite Hch, Hes, map_length; exact HL).
    destruct (exists_last (l := ts)) as (lc & t & ->); [intros ->; discriminate|].
    rewrite app_length in HL. cbn [length] in HL.
    unfold bind at 1, lift. rewrite Hch, map_app. cbn [map]. rewrite back_last.
    pose proof (retrieve_child st F c p es [] lc t []) as Hrc. rewrite app_nil_r in Hrc.
    destruct (Hrc HA) as (st1 & E1 & HA1 & G1). unfold bind at 1. rewrite E1.
    apply Forall_app in HF. destruct HF as [HF1 HF2]. pose proof (Forall_inv HF2) as Ht.
    destruct (IH (mkF p es lc [] [] :: c) t fuel st1 HA1 Ht) as (st2 & ds & q & es' & y & E2 & HA2 & HP & HC2 & HZ2 & Hd & HR & G2).
    { split; [|exact HC]. split; [split; cbn; lia|]. cbn [f_lc f_rc f_le f_re]. rewrite app_nil_r.
      split; [exact HF1|]. split; [constructor|]. lia. }
    { lia. }
    exists st2, (ds ++ [mkF p es lc [] []]), q, es', y.
    rewrite <- app_assoc. cbn [app]. split; [exact E2|]. split; [exact HA2|].
    split; [rewrite HP; cbn [plug]; unfold plug1; cbn [f_pg f_le f_lc f_re f_rc]; rewrite app_nil_r; reflexivity|].
    split; [exact HC2|]. split; [exact HZ2|]. split; [rewrite app_length; cbn; lia|].
    split; [apply Forall_app; split; [exact HR|repeat constructor]|]. eapply grows_trans; eassumption.
Qed.

(** Changing the entries of one frame. *)
Lemma ctx_nodes_frame hole ds p lc rc c : exists hole' R, forall le re,
  Permutation (ctx_nodes hole (ds ++ mkF p le lc re rc :: c))
    (mkL p (top c) (map tpage lc ++ hole' :: map tpage rc) (le ++ re) :: R).
Proof.
  revert hole; induction ds as [|d ds IH]; intros hole; cbn [app ctx_nodes].
  - exists hole, (flat_map (nodes p) lc ++ flat_map (nodes p) rc ++ ctx_nodes p c). intros le re.
    cbn [f_pg f_le f_lc f_re f_rc]. reflexivity.
  - destruct (IH (f_pg d)) as (hole' & R & H). exists hole'.
    assert (Ht : exists tp, forall le re, top (ds ++ mkF p le lc re rc :: c) = tp).
    { destruct ds as [|d' ds]; [exists p; reflexivity|exists (f_pg d'); reflexivity]. }
    destruct Ht as (tp & Htp).
    exists (mkL (f_pg d) tp (map tpage (f_lc d) ++ hole :: map tpage (f_rc d)) (f_le d ++ f_re d)
      :: flat_map (nodes (f_pg d)) (f_lc d) ++ flat_map (nodes (f_pg d)) (f_rc d) ++ R).
    intros le re. rewrite H, Htp. perm.
Qed.

Lemma rctx_right ds c : Forall (fun f => f_re f = [] /\ f_rc f = []) ds -> rctx (ds ++ c) = rctx c.
Proof.
  induction 1 as [|f ds [H1 H2] _ IH]; [reflexivity|]. cbn [app rctx]. rewrite H1, H2. exact IH.
Qed.

Lemma lctx_ext ds p le lc re re' rc c :
  lctx (ds ++ mkF p le lc re rc :: c) = lctx (ds ++ mkF p le lc re' rc :: c).
Proof. induction ds as [|d ds IH]; [reflexivity|]. cbn [app lctx]. rewrite IH. reflexivity. Qed.

Lemma balc_frame h ds p le lc x y re rc c :
  balc h (ds ++ mkF p le lc (x :: re) rc :: c) -> balc h (ds ++ mkF p le lc (y :: re) rc :: c).
Proof.
  revert h; induction ds as [|d ds IH]; intros h H; cbn [app balc] in *.
  - destruct H as [H1 H2]. split; [|exact H2]. unfold frame_ok, frame_len in *.
    cbn [f_le f_lc f_re f_rc length] in *. rewrite !app_length in *. cbn [length] in *. exact H1.
  - destruct H as [H1 H2]. split; [|apply IH; exact H2].
    destruct H1 as (A1 & A2 & A3 & A4 & A5 & A6).
    split; [exact A1|]. split; [exact A2|]. split; [exact A3|]. split; [exact A4|]. split; [exact A5|].
    intros _. apply A6. destruct ds; discriminate.
Qed.

Lemma tpage_plug_frame ds p le lc x y re rc c t t' :
  (ds = [] -> tpage t = tpage t') ->
  tpage (plug (ds ++ mkF p le lc (x :: re) rc :: c) t) = tpage (plug (ds ++ mkF p le lc (y :: re) rc :: c) t').
Proof.
  revert t t'; induction ds as [|d ds IH]; intros t t' H; cbn [app plug].
  - apply tpage_plug. reflexivity.
  - apply IH. reflexivity.
Qed.

Lemma replace_ok st F c h p le x re ts :
  At st F c (T p (le ++ x :: re) ts) -> bal h (T p (le ++ x :: re) ts) -> balc h c ->
  size_ok h c (le ++ x :: re) -> h < 64 ->
  exists st' c' q es', replace_with_sub_entry p (length le) st = (st', Ok q) /\
    At st' F c' (T q es' []) /\ balc 0 c' /\ length c' = length c + h /\
    length es' <= 13 /\ (c' <> [] -> 5 <= length es') /\
    tpage (plug c' (T q es' [])) = tpage (plug c (T p (le ++ x :: re) ts)) /\ grows st st' /\
    exists A B, lctx c ++ inorder (T p (le ++ x :: re) ts) ++ rctx c = A ++ x :: B /\
      lctx c' ++ es' ++ rctx c' = A ++ B.
Proof.
  intros HA HB HC HZ Hh. unfold replace_with_sub_entry, bind at 1.
  destruct (at_get_node _ _ _ _ _ _ HA) as (nd & -> & _ & Hch & Hes).
  destruct HZ as (Z1 & Z2 & Z3). rewrite app_length in Z1, Z2. cbn [length] in Z1, Z2.
  destruct h as [|h].
  - cbn in HB. subst ts. unfold bind at 1, lift at 1. rewrite is_leaf_leaf by exact Hch.
    unfold bind at 1, lift. rewrite Hes, erase_at_mid. destruct HA as (HI & Hp & Hc). cbn [tpage] in HI, Hp.
    destruct (set_entries_ok st p _ _ _ _ F (le ++ re) HI Hp) as (st1 & E1 & HI1 & G1).
    unfold bind. rewrite E1. exists st1, c, p, (le ++ re). split; [reflexivity|].
    split; [split; [exact HI1|split; [apply G1, Hp|eapply allc_grows; eassumption]]|].
    split; [exact HC|]. split; [lia|]. rewrite app_length.
    split; [lia|]. split; [intros Hne; specialize (Z2 Hne); lia|].
    split; [apply tpage_plug; reflexivity|]. split; [exact G1|].
    exists (lctx c ++ le), (re ++ rctx c). cbn [inorder]. rewrite <- !app_assoc. cbn [app]. auto.
  - destruct (proj1 (bal_S _ _) HB) as [HL HF]. cbn [tkids tents] in HL, HF.
    unfold bind at 1, lift at 1. rewrite is_leaf_inner by (rewrite Hch, Hes, map_length; exact HL).
    rewrite app_length in HL. cbn [length] in HL.
    assert (Hd : exists lc t rc, ts = lc ++ t :: rc /\ length lc = length le).
    { destruct (nth_error ts (length le)) as [t|] eqn:En.
      - apply nth_error_ext' in En. destruct En as (a & b & -> & Hl). exists a, t, b. auto.
      - apply nth_error_None in En. lia. }
    destruct Hd as (lc & t & rc & -> & Hlc). rewrite app_length in HL. cbn [length] in HL.
    unfold bind at 1, lift at 1. rewrite Hch, map_app. cbn [map].
    assert (Hat : at_ (map tpage lc ++ tpage t :: map tpage rc) (length le) = Ok (tpage t))
      by (rewrite <- Hlc, <- (map_length tpage lc); apply at_mid).
    rewrite Hat.
    destruct (retrieve_child st F c p le (x :: re) lc t rc HA) as (st1 & E1 & HA1 & G1).
    unfold bind at 1. rewrite E1.
    apply Forall_app in HF. destruct HF as [HF1 HF2]. inversion HF2 as [|? ? Ht HF3]; subst.
    destruct (rightmost_ok F h (mkF p le lc (x :: re) rc :: c) t 64 st1 HA1 Ht)
      as (st2 & ds & q & es & y & E2 & HA2 & HP & HC2 & HZ2 & Hds & HR & G2).
    { split; [|exact HC]. split; [split; cbn; lia|]. cbn [f_lc f_rc f_le f_re]. rewrite app_length. cbn [length].
      split; [exact HF1|]. split; [exact HF3|]. split; [lia|]. split; [lia|]. intros Hne. specialize (Z2 Hne). lia. }
    { lia. }
    unfold bind at 1. rewrite E2. unfold bind at 1.
    destruct (at_get_node _ _ _ _ _ _ HA2) as (ld & -> & _ & _ & Hel). rewrite Hel.
    unfold bind at 1, lift at 1. rewrite back_last. unfold bind at 1, lift at 1. rewrite Hes, at_mid, set_at_mid.
    rewrite removelast_last.
    pose proof (grows_trans _ _ _ G1 G2) as G12.
    destruct HA2 as (HI2 & Hq2 & Hc2). cbn [tpage nodes map flat_map app] in HI2, Hq2.
    destruct (ctx_nodes_frame q ds p lc rc c) as (hole' & R & Hframe).
    assert (Htop : top (ds ++ mkF p le lc (x :: re) rc :: c) = top (ds ++ mkF p le lc (y :: re) rc :: c))
      by (destruct ds; reflexivity).
    rewrite Htop in HI2.
    set (Lq := fun es => mkL q (top (ds ++ mkF p le lc (y :: re) rc :: c)) [] es) in *.
    eapply (inv_perm _ _ (mkL p (top c) (map tpage lc ++ hole' :: map tpage rc) (le ++ x :: re) :: Lq (es ++ [y]) :: R)) in HI2.
    2:{ rewrite Hframe. apply perm_swap. }
    assert (Hp2 : cached st2 p) by (apply G12, HA).
    destruct (set_entries_ok st2 p _ _ _ _ F (le ++ y :: re) HI2 Hp2) as (st3 & E3 & HI3 & G3).
    unfold bind at 1. rewrite E3.
    eapply inv_perm in HI3; [|apply perm_swap].
    destruct (set_entries_ok st3 q _ _ _ _ F es HI3 (proj1 G3 _ Hq2)) as (st4 & E4 & HI4 & G4).
    unfold bind. rewrite E4. pose proof (grows_trans _ _ _ G3 G4) as G34.
    exists st4, (ds ++ mkF p le lc (y :: re) rc :: c), q, es. split; [reflexivity|]. split.
    { split; [|split; [apply G34, Hq2|]].
      - cbn [tpage nodes map flat_map app]. eapply inv_perm; [|exact HI4].
        rewrite Hframe. reflexivity.
      - eapply allc_grows; [exact G34|]. unfold allc in *. rewrite Forall_app in *.
        destruct Hc2 as [Hc2 Hc3]. split; [exact Hc2|]. inversion Hc3; subst. constructor; assumption. }
    split; [eapply balc_frame; exact HC2|]. split; [rewrite app_length; cbn [length]; lia|].
    rewrite app_length in HZ2. cbn [length] in HZ2.
    split; [lia|]. split; [lia|]. split.
    { rewrite <- (tpage_plug_frame ds p le lc x y re rc c (T q (es ++ [y]) []) (T q es []) (fun _ => eq_refl)), HP. reflexivity. }
    split; [eapply grows_trans; eassumption|].
    destruct rc as [|r0 rc]; [cbn [length] in HL; lia|].
    exists (lctx (ds ++ mkF p le lc (x :: re) (r0 :: rc) :: c) ++ es ++ [y]), (inorder r0 ++ wr re (inos rc) ++ rctx c).
    assert (HPi : inorder (plug (ds ++ mkF p le lc (x :: re) (r0 :: rc) :: c) (T q (es ++ [y]) []))
      = inorder (plug c (T p (le ++ x :: re) (lc ++ t :: r0 :: rc)))) by (rewrite HP; reflexivity).
    rewrite !inorder_plug in HPi by (eapply balc_len; eassumption).
    rewrite rctx_right in HPi by exact HR. change (inorder (T q (es ++ [y]) [])) with (es ++ [y]) in HPi.
    cbn [rctx f_re f_rc inos map wr] in HPi.
    split.
    + rewrite <- HPi. repeat (rewrite <- !app_assoc; cbn [app]). reflexivity.
    + rewrite rctx_right by exact HR. rewrite (lctx_ext ds p le lc (y :: re) (x :: re)).
      cbn [rctx f_re f_rc inos map wr]. repeat (rewrite <- !app_assoc; cbn [app]). reflexivity.
Qed.

(** ** The neighbour chosen by find_sibling *)
Lemma at_up st F c r le lc re rc t :
  At st F (mkF r le lc re rc :: c) t -> At st F c (T r (le ++ re) (lc ++ t :: rc)).
Proof.
  intros (HI & Hp & Hc). split; [|split].
  - apply at_perm_down. exact HI.
  - inversion Hc; assumption.
  - inversion Hc; assumption.
Qed.

Lemma sibling_retrieve st F c r es l1 t l2 :
  At st F c (T r es (l1 ++ t :: l2)) ->
  exists st', retrieve_node r (tpage t) st = (st', Ok (tpage t)) /\
    At st' F c (T r es (l1 ++ t :: l2)) /\ cached st' (tpage t) /\ grows st st'.
Proof.
  intros (HI & Hp & Hc). cbn [tpage] in HI, Hp. destruct t as [q qe qt].
  pose proof HI as HI0. cbn [nodes app] in HI0. rewrite flat_map_app in HI0. cbn [flat_map nodes app] in HI0.
  destruct (retrieve_ok st _ F (mkL q r (map tpage qt) qe) HI0) as (st' & E & HI' & Hq & G1 & G2).
  { right. apply in_or_app. left. apply in_or_app. right. left. reflexivity. }
  cbn [l_par l_pg] in E, Hq. cbn [tpage]. assert (G : grows st st') by (split; assumption).
  exists st'. split; [exact E|]. split; [|split; [exact Hq|exact G]].
  split; [|split; [apply G, Hp|eapply allc_grows; eassumption]].
  cbn [tpage nodes app]. rewrite flat_map_app. cbn [flat_map nodes app]. exact HI'.
Qed.

Lemma split_at_len {A} (l : list A) k : k < length l -> exists a x b, l = a ++ x :: b /\ length a = k.
Proof.
  intros H. destruct (nth_error l k) as [x|] eqn:E.
  - apply nth_error_ext' in E. destruct E as (a & b & -> & Hl). exists a, x, b. auto.
  - apply nth_error_None in E. lia.
Qed.

Lemma find_sibling_ok st F c r le lc re rc p es ts :
  At st F (mkF r le lc re rc :: c) (T p es ts) ->
  length lc = length le -> length rc = length re -> 1 <= length (le ++ re) ->
  exists st' le0 sep re0 lc0 A B rc0 sib,
    find_sibling r p st = (st', Ok (length le0, sib)) /\
    le ++ re = le0 ++ sep :: re0 /\ lc ++ T p es ts :: rc = lc0 ++ A :: B :: rc0 /\
    length lc0 = length le0 /\ length rc0 = length re0 /\
    At st' F c (T r (le0 ++ sep :: re0) (lc0 ++ A :: B :: rc0)) /\
    cached st' (tpage A) /\ cached st' (tpage B) /\ grows st st' /\
    ((A = T p es ts /\ sib = tpage B /\ lc = lc0 /\ rc = B :: rc0) \/
     (B = T p es ts /\ sib = tpage A /\ lc = lc0 ++ [A] /\ rc = rc0)).
Proof.
  intros HA Hlc Hrc H1. pose proof HA as HA0. apply at_up in HA.
  unfold find_sibling, bind at 1.
  destruct (at_get_node _ _ _ _ _ _ HA) as (pd & -> & _ & Hch & Hes).
  unfold bind at 1. destruct (at_get_node _ _ _ _ _ _ HA0) as (nd & -> & Hpar & _ & _).
  rewrite Hpar. cbn [top f_pg]. rewrite N.eqb_refl. cbn [dir_check]. unfold bind at 1, ret at 1.
  assert (Hnd : NoDup (map tpage (lc ++ T p es ts :: rc))).
  { apply (children_nodup st r _ (mkL r (top c) (map tpage (lc ++ T p es ts :: rc)) (le ++ re) :: ctx_nodes r c) F).
    eapply inv_perm; [|exact (proj1 HA)]. cbn [nodes tpage]. perm. }
  rewrite map_app in Hnd. cbn [map tpage] in Hnd.
  assert (Hpos : find_pos p (n_children pd) = length lc).
  { rewrite Hch, map_app. cbn [map tpage]. rewrite find_pos_ok; [apply map_length|].
    intros Hi. eapply nodup_app_disj; [exact Hnd|exact Hi|left; reflexivity]. }
  rewrite Hpos. rewrite Hch, map_length, app_length. cbn [length].
  destruct (Nat.ltb_spec (length lc) (length lc + S (length rc))); [|lia].
  cbn [dir_check]. unfold bind at 1, ret at 1. rewrite app_length in H1.
  assert (Hp : cached st p) by apply HA0.
  destruct (Nat.eqb_spec (length lc + 1) (length lc + S (length rc))) as [Hlast|Hmore].
  - (* the last child: take the left neighbour *)
    destruct rc as [|? ?]; [|cbn [length] in Hlast; lia].
    destruct re as [|? ?]; [|cbn [length] in Hrc; lia].
    cbn [length] in H1.
    destruct (exists_last (l := lc)) as (lc0 & s & ->); [intros ->; cbn [length] in Hlc; lia|].
    destruct (exists_last (l := le)) as (le0 & sep & ->); [intros ->; cbn [length] in H1; lia|].
    rewrite !app_length in *. cbn [length] in *.
    destruct (Nat.eqb_spec (length lc0 + 1) 0); [lia|].
    rewrite Nat.add_sub. unfold bind at 1, lift. rewrite <- ?app_assoc in *. cbn [app] in *.
    rewrite map_app. cbn [map]. rewrite <- (map_length tpage lc0), at_mid.
    destruct (sibling_retrieve st F c r _ lc0 s [T p es ts] HA) as (st1 & E1 & HA1 & Hs1 & G1).
    unfold bind at 1. rewrite E1. rewrite map_length.
    exists st1, le0, sep, [], lc0, s, (T p es ts), [], (tpage s).
    replace (length lc0) with (length le0) by lia.
    split; [reflexivity|]. split; [rewrite ?app_nil_r; reflexivity|]. split; [reflexivity|].
    split; [lia|]. split; [reflexivity|]. split; [exact HA1|]. split; [exact Hs1|].
    split; [apply G1, Hp|]. split; [exact G1|right; auto].
  - (* take the right neighbour *)
    destruct rc as [|s rc0]; [cbn [length] in Hmore; lia|].
    destruct re as [|sep re0]; [cbn [length] in Hrc; lia|]. cbn [length] in Hrc.
    unfold bind at 1, lift. rewrite map_app. cbn [map tpage].
    replace (length lc + 1) with (length (map tpage lc ++ [p])) by (rewrite app_length, map_length; reflexivity).
    replace (map tpage lc ++ p :: tpage s :: map tpage rc0) with ((map tpage lc ++ [p]) ++ tpage s :: map tpage rc0)
      by (rewrite <- app_assoc; reflexivity).
    rewrite at_mid.
    destruct (sibling_retrieve st F c r (le ++ sep :: re0) (lc ++ [T p es ts]) s rc0) as (st1 & E1 & HA1 & Hs1 & G1).
    { rewrite <- app_assoc. exact HA. }
    rewrite <- app_assoc in HA1.
    unfold bind at 1. rewrite E1.
    exists st1, le, sep, re0, lc, (T p es ts), s, rc0, (tpage s). rewrite Hlc.
    split; [reflexivity|]. split; [reflexivity|]. split; [reflexivity|]. split; [reflexivity|].
    split; [lia|]. split; [exact HA1|]. split; [apply G1, Hp|]. split; [exact Hs1|]. split; [exact G1|left; auto].
Qed.

(** ** balance_up *)
Lemma lt_last_first (es es' : list entry) b s :
  (forall x y, In x es -> In y es' -> lte x y) ->
  In b es -> In s es' -> lt_name cmp (e_name b) (e_name s) = true.
Proof. intros H Hb Hs. apply lt_name_iff. apply H; assumption. Qed.

Lemma balance_ok : forall c h p es ts fuel st F,
  At st F c (T p es ts) -> bal h (T p es ts) -> balc h c ->
  length es <= 13 -> (c <> [] -> 5 <= length es) ->
  SS (lctx c ++ inorder (T p es ts) ++ rctx c) ->
  length c < fuel ->
  b_root st = tpage (plug c (T p es ts)) ->
  exists st' F' t' h',
    balance_up cmp fuel p st = (st', Ok tt) /\
    Inv st' (nodes INVALID_PAGE t') F' /\ b_root st' = tpage t' /\ root_ok h' t' /\
    inorder t' = lctx c ++ inorder (T p es ts) ++ rctx c.
Proof.
  induction c as [|f c IH]; intros h p es ts fuel st F HA HB HC H13 H5 HS Hfuel Hroot;
    (destruct fuel as [|fuel]; [lia|]); cbn [balance_up]; unfold bind at 1;
    destruct (at_get_node _ _ _ _ _ _ HA) as (nd & -> & Hpar & Hch & Hes); rewrite Hpar, Hes, Hch, map_length.
  - (* the root *)
    cbn [top]. rewrite N.eqb_refl. cbn [andb orb].
    destruct (Nat.eqb_spec (length es) 0) as [He|He]; cbn [andb].
    + destruct es; [|discriminate].
      destruct (Nat.eqb_spec (length ts) 0) as [Ht|Ht]; cbn [negb].
      * destruct ts; [|discriminate]. exists st, F, (T p [] []), 0. split; [reflexivity|].
        destruct HA as (HI & _ & _). split; [exact HI|]. split; [exact Hroot|].
        split; [split; [reflexivity|cbn; lia]|]. reflexivity.
      * destruct h as [|h]; [cbn in HB; subst ts; cbn in Ht; lia|].
        destruct (proj1 (bal_S _ _) HB) as [HL HF]. cbn [tkids tents length] in HL, HF.
        destruct ts as [|t [|? ?]]; try (cbn [length] in HL; lia).
        cbn [length Nat.eqb dir_check]. unfold bind at 1, ret at 1.
        destruct HA as (HI & Hp & _). cbn [tpage top ctx_nodes nodes app] in HI. rewrite app_nil_r in HI.
        eapply (inv_perm _ _ (flat_map (nodes p) [t] ++ [mkL p INVALID_PAGE (map tpage [t]) []])) in HI; [|perm].
        destruct (adjust_forest _ _ INVALID_PAGE _ _ _ HI) as (st1 & E1 & HI1 & G1).
        unfold bind at 1. rewrite E1. unfold bind at 1, lift. cbn [map front_].
        unfold bind at 1, modify. apply (inv_root _ (tpage t)) in HI1.
        cbn [flat_map] in HI1.
        eapply (inv_perm _ _ (mkL p INVALID_PAGE (map tpage [t]) [] :: nodes INVALID_PAGE t)) in HI1; [|perm].
        destruct (del_node_ok _ _ _ F HI1) as (st2 & E2 & HI2 & _ & Hr2). cbn [l_pg] in E2, HI2.
        exists st2, (p :: F), t, h. split; [exact E2|]. split; [exact HI2|]. split; [rewrite Hr2; reflexivity|].
        inversion HF as [|? ? Hg _]; subst. split; [split; [apply Hg|destruct Hg; lia]|].
        cbn [lctx rctx inorder map app wr]. rewrite !app_nil_r. reflexivity.
    + exists st, F, (T p es ts), h. split; [reflexivity|]. destruct HA as (HI & _ & _).
      cbn [tpage top ctx_nodes] in HI. rewrite app_nil_r in HI.
      split; [exact HI|]. split; [exact Hroot|]. split; [split; [exact HB|cbn [tents]; lia]|].
      cbn [lctx rctx app]. rewrite app_nil_r. reflexivity.
  - destruct f as [r le lc re rc].
    assert (Hrv : (r =? INVALID_PAGE)%N = false).
    { apply limit_invalid. apply (inv_page_valid st _ F (mkL r (top c) (map tpage lc ++ p :: map tpage rc) (le ++ re)) (proj1 HA)).
      apply in_or_app. right. left. reflexivity. }
    cbn [top f_pg]. rewrite Hrv. cbn [andb orb]. change (BTREE_MAX_NUM_ENTRIES / 2) with 6.
    destruct (Nat.leb_spec 6 (length es)) as [H6|H6].
    + exists st, F, (plug (mkF r le lc re rc :: c) (T p es ts)), (length (mkF r le lc re rc :: c) + h).
      split; [reflexivity|]. destruct HA as (HI & _ & _). split.
      { eapply inv_perm; [|exact HI]. apply Permutation_sym, (nodes_plug (mkF r le lc re rc :: c)). }
      split; [exact Hroot|]. split.
      { apply plug_root_ok; [exact HC|exact HB|]. split; [exact H13|]. split; [intros _; exact H6|discriminate]. }
      apply inorder_plug. eapply balc_len. exact HC.
    + specialize (H5 ltac:(discriminate)).
      unfold bind at 1, retrieve_existing_node, gets.
      assert (Hr : cached st r) by (destruct HA as (_ & _ & Hc); inversion Hc; assumption).
      destruct (lookup r (b_cache st)) as [rnd|] eqn:Er; [|exfalso; apply Hr; exact Er]. clear rnd Er.
      destruct HC as [Hf HC]. pose proof Hf as Hf0.
      destruct Hf as ((L1 & L2) & Hlc & Hrc & Hm1 & Hm2 & Hm3). cbn [f_le f_lc f_re f_rc] in *.
      destruct (find_sibling_ok st F c r le lc re rc p es ts HA L1 L2 Hm2)
        as (st1 & le0 & sep & re0 & lc0 & A & B & rc0 & sib & E1 & Ees & Ets & Hl0 & Hr0 & HA1 & HcA & HcB & G1 & Hside).
      unfold bind at 1. rewrite E1.
      assert (Hgood : Forall (good h) lc0 /\ Forall (good h) rc0 /\
        exists S, (S = A \/ S = B) /\ good h S /\ tpage S = sib /\
        ((A = T p es ts /\ B = S) \/ (B = T p es ts /\ A = S))).
      { destruct Hside as [(-> & -> & <- & ->)|(-> & -> & -> & <-)].
        - inversion Hrc; subst. split; [exact Hlc|]. split; [assumption|]. exists B. auto 10.
        - apply Forall_app in Hlc. destruct Hlc as [Hlc HlA]. inversion HlA; subst.
          split; [exact Hlc|]. split; [exact Hrc|]. exists A. auto 10. }
      clear Hside. destruct Hgood as (Hg1 & Hg2 & S0 & Hsel & HgS & HtS & Hside).
      subst sib.
      (* all names, in order *)
      assert (Htot : lctx c ++ inorder (T r (le0 ++ sep :: re0) (lc0 ++ A :: B :: rc0)) ++ rctx c =
        lctx (mkF r le lc re rc :: c) ++ inorder (T p es ts) ++ rctx (mkF r le lc re rc :: c)).
      { rewrite <- Ees, <- Ets, inorder_split by exact L1. cbn [lctx rctx f_le f_lc f_re f_rc].
        rewrite <- !app_assoc. reflexivity. }
      rewrite <- Htot in HS.
      assert (Hino : forall ns A' B', inorder (T r (le0 ++ ns :: re0) (lc0 ++ A' :: B' :: rc0)) =
         wl le0 (inos lc0) ++ (inorder A' ++ ns :: inorder B') ++ wr re0 (inos rc0)).
      { intros ns A' B'. rewrite (inorder_split r le0 (ns :: re0) lc0 A' (B' :: rc0)) by exact Hl0.
        cbn [inos map wr]. rewrite <- !app_assoc. reflexivity. }
      assert (HAB : forall x y, In x (tents A) -> In y (tents B) -> lte x y).
      { rewrite Hino in HS. apply SS_app in HS. destruct HS as (_ & HS & _). apply SS_app in HS. destruct HS as (HS & _ & _).
        apply SS_app in HS. destruct HS as (_ & HS & _). apply SS_app in HS. destruct HS as (HS & _ & _).
        apply SS_app in HS. destruct HS as (_ & _ & HS).
        intros x y Hx Hy. apply HS.
        - destruct A as [pa ea ta]. apply in_inorder_ents; [|exact Hx].
          apply (bal_shape h pa ea ta). destruct Hside as [[E _]|[_ E]]; [rewrite E; exact HB|rewrite E; apply HgS].
        - right. destruct B as [pb eb tb]. apply in_inorder_ents; [|exact Hy].
          apply (bal_shape h pb eb tb). destruct Hside as [[_ E]|[E _]]; [rewrite E; apply HgS|rewrite E; exact HB]. }
      assert (HbA : bal h A) by (destruct Hside as [[E _]|[_ E]]; [rewrite E; exact HB|rewrite E; apply HgS]).
      assert (HbB : bal h B) by (destruct Hside as [[_ E]|[E _]]; [rewrite E; apply HgS|rewrite E; exact HB]).
      assert (Hsum : length (tents A) + length (tents B) = length es + length (tents S0)).
      { destruct Hside as [[-> ->]|[-> ->]]; cbn [tents]; lia. }
      assert (HzS : 6 <= length (tents S0) <= 13) by apply HgS.
      assert (Hcs : cached st1 (tpage S0)) by (destruct Hsel as [-> | ->]; assumption).
      destruct (get_node_ok st1 (nodes (top c) (T r (le0 ++ sep :: re0) (lc0 ++ A :: B :: rc0)) ++ ctx_nodes r c) F
         (head_node r S0) (proj1 HA1)) as (sd & Esd & _ & _ & _ & Hse).
      { apply in_or_app. left. cbn [nodes]. right. rewrite flat_map_app. apply in_or_app. right.
        cbn [flat_map]. rewrite !nodes_eq. destruct Hsel as [-> | ->]; [left; reflexivity|].
        apply in_or_app. right. left. reflexivity. }
      { exact Hcs. }
      cbn [l_pg l_es head_node] in Esd, Hse. unfold bind at 1. rewrite Esd.
      destruct (exists_last (l := es)) as (es' & bk & Ebk); [intros ->; cbn [length] in H5; lia|].
      destruct (tents S0) as [|fr Sr] eqn:ES; [cbn [length] in HzS; lia|].
      unfold bind at 1, lift at 1. rewrite Ebk, back_last, <- Ebk.
      unfold bind at 1, lift at 1. rewrite Hse. cbn [front_]. rewrite <- ES in *.
      (* the chosen order is (A, B) *)
      assert (Hdir : forall (m : N -> N -> M unit),
        (if lt_name cmp (e_name bk) (e_name fr) then m p (tpage S0) else m (tpage S0) p) = m (tpage A) (tpage B)).
      { intros m. destruct Hside as [[EA EB]|[EB EA]].
        - rewrite (lt_last_first es (tents S0)); [rewrite EA, EB; reflexivity| | |].
          + intros x y Hx Hy. apply HAB; [rewrite EA; exact Hx|rewrite EB; exact Hy].
          + rewrite Ebk. apply in_or_app. right. left. reflexivity.
          + rewrite ES. left. reflexivity.
        - destruct (lt_name cmp (e_name bk) (e_name fr)) eqn:El; [exfalso|rewrite EA, EB; reflexivity].
          apply lt_name_iff in El. apply (ltn_irrefl cmp Hcmp (e_name bk)). eapply ltn_trans; [exact Hcmp|exact El|].
          apply HAB; [rewrite EA, ES; left; reflexivity|]. rewrite EB. cbn [tents]. rewrite Ebk.
          apply in_or_app. right. left. reflexivity. }
      destruct A as [pa ea ta]. destruct B as [pb eb tb]. cbn [tents tpage] in *.
      unfold BTREE_MAX_NUM_ENTRIES.
      rewrite Ees in Hm1, Hm2, Hm3. rewrite app_length in Hm1, Hm2, Hm3. cbn [length] in Hm1, Hm2, Hm3.
      assert (Hshape : (ta = [] /\ tb = []) \/ (length ta = S (length ea) /\ length tb = S (length eb))).
      { destruct h as [|h']; [left; split; [exact HbA|exact HbB]|right].
        split; [apply (proj1 (bal_S _ _) HbA)|apply (proj1 (bal_S _ _) HbB)]. }
      destruct (Nat.ltb_spec (length es + length (tents S0)) 13) as [Hmerge|Hrot].
      * (* merge *)
        rewrite (Hdir (fun x y => merge x y r (length le0))).
        destruct (merge_ok st1 F c r le0 sep re0 lc0 pa ea ta pb eb tb rc0 HA1 Hl0 HcA HcB)
          as (st2 & F2 & E2 & HA2 & Hr2).
        unfold bind at 1. rewrite E2.
        assert (Hino2 : inorder (T r (le0 ++ re0) (lc0 ++ T pa (ea ++ sep :: eb) (ta ++ tb) :: rc0)) =
           inorder (T r (le0 ++ sep :: re0) (lc0 ++ T pa ea ta :: T pb eb tb :: rc0))).
        { rewrite inorder_split by exact Hl0. rewrite Hino.
          rewrite (inorder_halves pa pb ea sep eb ta tb Hshape). reflexivity. }
        destruct (IH (S h) r (le0 ++ re0) (lc0 ++ T pa (ea ++ sep :: eb) (ta ++ tb) :: rc0) fuel st2 F2)
          as (st3 & F3 & t' & h' & E3 & HI3 & Hr3 & Hok & Hin).
        -- exact HA2.
        -- apply bal_S. cbn [tkids tents]. split; [rewrite !app_length; cbn [length]; lia|].
           apply Forall_app. split; [exact Hg1|]. constructor; [|exact Hg2].
           split; [cbn [tents]; rewrite app_length; cbn [length]; lia|].
           destruct h as [|h']; [cbn in HbA, HbB |- *; subst; reflexivity|].
           destruct (proj1 (bal_S _ _) HbA) as [LA FA]. destruct (proj1 (bal_S _ _) HbB) as [LB FB].
           cbn [tkids tents] in LA, FA, LB, FB. apply bal_S. cbn [tkids tents].
           split; [rewrite !app_length; cbn [length]; lia|]. apply Forall_app. auto.
        -- exact HC.
        -- rewrite app_length. lia.
        -- intros Hne. specialize (Hm3 Hne). rewrite app_length. lia.
        -- rewrite Hino2. exact HS.
        -- cbn [length] in Hfuel. lia.
        -- rewrite Hr2, (proj2 G1), Hroot. cbn [plug]. apply tpage_plug. reflexivity.
        -- exists st3, F3, t', h'. split; [exact E3|]. split; [exact HI3|]. split; [exact Hr3|]. split; [exact Hok|].
           rewrite Hin, Hino2. exact Htot.
      * (* rotate *)
        rewrite (Hdir (fun x y => rotate x y r (length le0))).
        destruct (rotate_ok st1 F c r le0 sep re0 lc0 pa ea ta pb eb tb rc0 h HA1 Hl0 HcA HcB HbA HbB)
          as (st2 & ns & e1 & e2 & t1 & t2 & E2 & HA2 & G2 & Ee & Le1 & Et & Hb1 & Hb2 & Hsh & _).
        unfold bind at 1. rewrite E2.
        assert (Le2 : length e1 + length e2 = length ea + length eb).
        { apply (f_equal (@length _)) in Ee. rewrite !app_length in Ee. cbn [length] in Ee. lia. }
        assert (Hlo : 7 <= length e1 <= 9 /\ 6 <= length e2 <= 9).
        { assert (H14 : 14 <= length ea + length eb + 1 <= 19) by lia.
          pose proof (Nat.div_mod (length ea + length eb + 1) 2 ltac:(lia)) as Hdm.
          pose proof (Nat.mod_upper_bound (length ea + length eb + 1) 2 ltac:(lia)) as Hmu. lia. }
        assert (Hino2 : inorder (T r (le0 ++ ns :: re0) (lc0 ++ T pa e1 t1 :: T pb e2 t2 :: rc0)) =
           inorder (T r (le0 ++ sep :: re0) (lc0 ++ T pa ea ta :: T pb eb tb :: rc0))).
        { rewrite !Hino. rewrite <- (inorder_halves pa pb e1 ns e2 t1 t2 Hsh), <- Ee, <- Et.
          rewrite (inorder_halves pa pb ea sep eb ta tb Hshape). reflexivity. }
        destruct (IH (S h) r (le0 ++ ns :: re0) (lc0 ++ T pa e1 t1 :: T pb e2 t2 :: rc0) fuel st2 F)
          as (st3 & F3 & t' & h' & E3 & HI3 & Hr3 & Hok & Hin).
        -- exact HA2.
        -- apply bal_S. cbn [tkids tents]. split; [rewrite !app_length; cbn [length]; lia|].
           apply Forall_app. split; [exact Hg1|].
           constructor; [split; [cbn [tents]; lia|exact Hb1]|].
           constructor; [split; [cbn [tents]; lia|exact Hb2]|exact Hg2].
        -- exact HC.
        -- rewrite app_length. cbn [length]. lia.
        -- intros Hne. specialize (Hm3 Hne). rewrite app_length. cbn [length]. lia.
        -- rewrite Hino2. exact HS.
        -- cbn [length] in Hfuel. lia.
        -- rewrite (proj2 G2), (proj2 G1), Hroot. cbn [plug]. apply tpage_plug. reflexivity.
        -- exists st3, F3, t', h'. split; [exact E3|]. split; [exact HI3|]. split; [exact Hr3|]. split; [exact Hok|].
           rewrite Hin, Hino2. exact Htot.
Qed.
End S.
