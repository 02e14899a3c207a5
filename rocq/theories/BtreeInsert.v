(** insert_and_balance keeps the tree balanced and inserts exactly one entry. *)
From Verif Require Import Base BaseLemmas BtreeModel BtreeSpec BtreeInv BtreeTree BtreeSearch.
From Coq Require Import Permutation Sorting.Sorted.
Local Open Scope list_scope.

(** ** Re-parenting whole subtrees *)
Definition head_node (p : N) (t : tree) : lnode := mkL (tpage t) p (map tpage (tkids t)) (tents t).
Definition below (t : tree) : list lnode := flat_map (nodes (tpage t)) (tkids t).

Lemma nodes_eq p t : nodes p t = head_node p t :: below t.
Proof. destruct t. reflexivity. Qed.

Lemma forest_perm p ts :
  Permutation (flat_map (nodes p) ts) (map (head_node p) ts ++ flat_map below ts).
Proof.
  induction ts as [|t ts IH]; [reflexivity|]. cbn [flat_map map app].
  rewrite nodes_eq, IH. perm.
Qed.

Lemma reparent_id cs q L :
  (forall l, In l L -> ~ In (l_pg l) cs) -> map (reparent cs q) L = L.
Proof.
  intros H. rewrite <- (map_id L) at 2. apply map_ext_in. intros l Hi. unfold reparent.
  destruct (existsb (N.eqb (l_pg l)) cs) eqn:E; [|reflexivity].
  exfalso. apply (H l Hi). apply existsb_exists in E. destruct E as (x & Hx & Ex).
  apply N.eqb_eq in Ex. rewrite Ex. exact Hx.
Qed.

Lemma reparent_forest cs p q ts :
  (forall t, In t ts -> In (tpage t) cs) ->
  (forall t l, In t ts -> In l (below t) -> ~ In (l_pg l) cs) ->
  map (reparent cs q) (flat_map (nodes p) ts) = flat_map (nodes q) ts.
Proof.
  induction ts as [|t ts IH]; intros H1 H2; [reflexivity|].
  cbn [flat_map]. rewrite map_app, IH.
  - f_equal. rewrite !nodes_eq. cbn [map]. f_equal.
    + unfold reparent, head_node. cbn [l_pg l_cs l_es].
      destruct (existsb (N.eqb (tpage t)) cs) eqn:E; [reflexivity|].
      exfalso. assert (existsb (N.eqb (tpage t)) cs = true); [|congruence].
      apply existsb_exists. exists (tpage t). split; [apply H1; left; reflexivity|apply N.eqb_refl].
    + apply reparent_id. intros l Hl. apply (H2 t l); [left; reflexivity|exact Hl].
  - intros t' Ht'. apply H1. right. exact Ht'.
  - intros t' l Ht' Hl. apply (H2 t'); [right; exact Ht'|exact Hl].
Qed.

Lemma adjust_forest st p q ts R F :
  Inv st (flat_map (nodes p) ts ++ R) F ->
  exists st', adjust_children (map tpage ts) q st = (st', Ok tt) /\
    Inv st' (flat_map (nodes q) ts ++ R) F /\ grows st st'.
Proof.
  intros H.
  assert (HP : Permutation (flat_map (nodes p) ts ++ R) (map (head_node p) ts ++ flat_map below ts ++ R))
    by (rewrite forest_perm; perm).
  assert (Hnd : NoDup (map tpage ts ++ pages (flat_map below ts ++ R))).
  { pose proof (i_nodup _ _ _ (inv_perm _ _ _ _ HP H)) as Hnd. apply nodup_app_l in Hnd.
    unfold pages in Hnd. rewrite map_app, map_map in Hnd. exact Hnd. }
  destruct (adjust_ok (map tpage ts) q st _ F H) as (st' & E & HI & G).
  { intros c Hc. apply (Permutation_in c (Permutation_map l_pg (Permutation_sym HP))).
    rewrite map_app. apply in_or_app. left. rewrite map_map. exact Hc. }
  exists st'. split; [exact E|]. split; [|exact G].
  rewrite map_app in HI. rewrite reparent_forest in HI.
  - rewrite reparent_id in HI; [exact HI|]. intros l Hl Hc.
    eapply nodup_app_disj; [exact Hnd|exact Hc|]. apply in_map. apply in_or_app. right. exact Hl.
  - intros t Ht. apply in_map. exact Ht.
  - intros t l Ht Hl Hc. eapply nodup_app_disj; [exact Hnd|exact Hc|].
    apply in_map. apply in_or_app. left. apply in_flat_map. exists t. auto.
Qed.

(** ** Splitting lists and trees in the middle *)
Lemma inorder_halves p q e1 up e2 t1 t2 :
  (t1 = [] /\ t2 = []) \/ (length t1 = S (length e1) /\ length t2 = S (length e2)) ->
  inorder (T p (e1 ++ up :: e2) (t1 ++ t2)) = inorder (T p e1 t1) ++ up :: inorder (T q e2 t2).
Proof.
  intros [[-> ->]|[H1 H2]]; [reflexivity|].
  destruct (exists_last (l := t1)) as (t1' & x & ->); [intros ->; discriminate|].
  destruct t2 as [|y t2]; [discriminate|].
  rewrite app_length in H1. cbn [length] in H1, H2.
  rewrite <- app_assoc. cbn [app]. rewrite (inorder_split p e1 (up :: e2)) by lia.
  pose proof (inorder_split p e1 [] t1' x [] ltac:(lia)) as H. rewrite app_nil_r in H. rewrite H.
  cbn [inos map wr]. rewrite <- !app_assoc. cbn [app]. reflexivity.
Qed.

Lemma tpage_plug c t t' : tpage t = tpage t' -> tpage (plug c t) = tpage (plug c t').
Proof.
  revert t t'; induction c as [|f c IH]; intros t t' H; [exact H|]. cbn [plug]. apply IH. reflexivity.
Qed.

Section S.
Variable cmp : bytes -> bytes -> comparison.
Hypothesis Hcmp : cmp_ok cmp.
Notation SS := (SS cmp).
Notation lte := (lte cmp).

Definition MAX_ENTRIES : N := 6000000.

Definition split_tail (rec : N -> entry -> N -> M unit) (n : N) : M unit :=
    nd <- get_node n;;
    if BTREE_MAX_NUM_ENTRIES <? length (n_entries nd) then
      pg <- allocate_page;;
      sib <- retrieve_node (n_parent nd) pg;;
      let middle := length (n_entries nd) / 2 - 1 in
      up <- lift (idx_ (n_entries nd) middle);;
      leaf <- lift (is_leaf nd);;
      (if leaf : bool then ret tt else
         set_children sib (skipn (middle + 1) (n_children nd));;
         set_children n (firstn (middle + 1) (n_children nd));;
         adjust_children (skipn (middle + 1) (n_children nd)) sib);;
      set_entries sib (skipn (middle + 1) (n_entries nd));;
      set_entries n (removelast (firstn (middle + 1) (n_entries nd)));;
      if (n_parent nd =? INVALID_PAGE)%N then
        new_root <- allocate_page;;
        root <- retrieve_node INVALID_PAGE new_root;;
        rn <- get_node root;;
        set_children root (n_children rn ++ [n; sib]);;
        set_entries root (n_entries rn ++ [up]);;
        modify (fun st => set_root st new_root);;
        set_parent n new_root;;
        set_parent sib new_root
      else
        p <- retrieve_existing_node (n_parent nd);;
        match p with
        | None => throw EUndef
        | Some p => rec p up sib
        end
    else ret tt.

Lemma iab_unfold f n e a :
  insert_and_balance cmp (S f) n e a =
  (insert_here cmp n e a;; split_tail (insert_and_balance cmp f) n).
Proof. reflexivity. Qed.

Lemma insert_at_ok {A} (le re : list A) x : insert_at (length le) x (le ++ re) = Ok (le ++ x :: re).
Proof.
  unfold insert_at. rewrite app_length. destruct (Nat.leb_spec (length le) (length le + length re)); [|lia].
  rewrite firstn_exact, skipn_exact by reflexivity. reflexivity.
Qed.

Lemma insert_here_leaf st F c p le re e :
  At st F c (T p (le ++ re) []) -> lower_bound cmp (le ++ re) (e_name e) = length le ->
  exists st', insert_here cmp p e INVALID_PAGE st = (st', Ok tt) /\
    At st' F c (T p (le ++ e :: re) []) /\ grows st st'.
Proof.
  intros HA Hlb. unfold insert_here, bind at 1.
  destruct (at_get_node _ _ _ _ _ _ HA) as (nd & -> & Hpar & Hch & Hes).
  rewrite Hes, Hlb. rewrite N.eqb_refl. cbn [negb]. unfold bind, ret, lift.
  rewrite insert_at_ok. destruct HA as (HI & Hp & Hc).
  destruct (set_entries_ok st p (top c) [] (le ++ re) (ctx_nodes p c) F (le ++ e :: re) HI Hp)
    as (st' & E & HI' & G).
  exists st'. split; [exact E|]. split; [|exact G].
  split; [exact HI'|]. split; [apply G; exact Hp|eapply allc_grows; eassumption].
Qed.

Lemma insert_here_inner st F c p le re e lc t1 t2 rc :
  Inv st (mkL p (top c) (map tpage (lc ++ t1 :: rc)) (le ++ re)
          :: flat_map (nodes p) (lc ++ t1 :: t2 :: rc) ++ ctx_nodes p c) F ->
  cached st p -> allc st c ->
  length lc = length le -> length rc = length re -> tpage t2 <> INVALID_PAGE ->
  lower_bound cmp (le ++ re) (e_name e) = length le ->
  exists st', insert_here cmp p e (tpage t2) st = (st', Ok tt) /\
    At st' F c (T p (le ++ e :: re) (lc ++ t1 :: t2 :: rc)) /\ grows st st'.
Proof.
  intros HI Hp Hc Hlc Hrc Hne Hlb. unfold insert_here, bind at 1.
  destruct (get_node_ok st _ F (mkL p (top c) (map tpage (lc ++ t1 :: rc)) (le ++ re)) HI)
    as (nd & E & _ & Hpar & Hch & Hes); [left; reflexivity|exact Hp|].
  cbn [l_pg l_par l_cs l_es] in *. rewrite E, Hes, Hlb.
  destruct (N.eqb_spec (tpage t2) INVALID_PAGE) as [|_]; [contradiction|]. cbn [negb].
  unfold bind at 1. unfold bind at 1, lift at 1.
  rewrite is_leaf_inner by (rewrite Hch, Hes, map_length, !app_length; cbn [length]; lia).
  unfold bind at 1, lift at 1. rewrite Hch.
  replace (map tpage (lc ++ t1 :: rc)) with (map tpage (lc ++ [t1]) ++ map tpage rc)
    by (rewrite !map_app, <- app_assoc; reflexivity).
  replace (length le + 1) with (length (map tpage (lc ++ [t1])))
    by (rewrite map_length, app_length; cbn; lia).
  rewrite insert_at_ok.
  destruct (set_children_ok st p _ _ _ _ F (map tpage (lc ++ [t1]) ++ tpage t2 :: map tpage rc) HI Hp)
    as (st1 & E1 & HI1 & G1).
  rewrite E1. unfold bind, lift. rewrite insert_at_ok.
  destruct (set_entries_ok st1 p _ _ _ _ F (le ++ e :: re) HI1 (proj1 G1 _ Hp)) as (st2 & E2 & HI2 & G2).
  exists st2. split; [exact E2|]. pose proof (grows_trans _ _ _ G1 G2) as G. split; [|exact G].
  split; [|split; [apply G; exact Hp|eapply allc_grows; eassumption]].
  cbn [nodes tpage]. replace (map tpage (lc ++ t1 :: t2 :: rc))
    with (map tpage (lc ++ [t1]) ++ tpage t2 :: map tpage rc)
    by (rewrite !map_app, <- app_assoc; reflexivity).
  exact HI2.
Qed.

Lemma SS_wl le ls : length ls = length le -> SS (wl le ls) -> SS le.
Proof.
  revert ls; induction le as [|x le IH]; intros [|l ls] H HS; try discriminate; [constructor|].
  cbn [wl] in HS. apply SS_app in HS. destruct HS as (_ & HS & _). apply SS_cons in HS. destruct HS as [HS Hx].
  apply SS_cons. split; [apply (IH ls); [cbn in H; lia|exact HS]|].
  intros y Hy. apply Hx. apply wl_ents; [cbn in H; lia|exact Hy].
Qed.

(** What it takes for one more page to be available. *)
Lemma room st F c h p es ts :
  Inv st (nodes (top c) (T p es ts) ++ ctx_nodes p c) F ->
  bal h (T p es ts) -> balc h c ->
  (N.of_nat (length (lctx c ++ inorder (T p es ts) ++ rctx c)) <= MAX_ENTRIES)%N ->
  (N.of_nat (S (S (S (length (nodes (top c) (T p es ts) ++ ctx_nodes p c))))) <= PAGE_LIMIT)%N.
Proof.
  intros HI HB HC HM. pose proof (nodes_count_root h (top c) _ HB) as H1.
  pose proof (ctx_count h c p HC) as H2. rewrite !app_length in *.
  unfold MAX_ENTRIES, PAGE_LIMIT in *. lia.
Qed.

Lemma middle_split (es : list entry) :
  length es = 14 ->
  exists e1 up e2, es = e1 ++ up :: e2 /\ length e1 = 6 /\ length e2 = 7 /\
    idx_ es 6 = Ok up /\ skipn 7 es = e2 /\ removelast (firstn 7 es) = e1.
Proof.
  intros H. destruct (nth_error es 6) as [up|] eqn:E.
  2:{ apply nth_error_None in E. lia. }
  pose proof E as E0. apply nth_error_ext' in E. destruct E as (e1 & e2 & -> & H1).
  exists e1, up, e2. split; [reflexivity|]. split; [exact H1|].
  rewrite app_length in H. cbn [length] in H. split; [lia|].
  split; [unfold idx_; rewrite E0; reflexivity|]. split.
  - change (e1 ++ up :: e2) with (e1 ++ [up] ++ e2). rewrite app_assoc.
    apply skipn_exact. rewrite app_length. cbn. lia.
  - change (e1 ++ up :: e2) with (e1 ++ [up] ++ e2). rewrite app_assoc.
    rewrite firstn_exact by (rewrite app_length; cbn; lia). apply removelast_last.
Qed.


(** The two halves of an overfull node. *)
Definition halves (q p : N) (e1 e2 : list entry) (nd : node) : M unit :=
  leaf <- lift (is_leaf nd);;
      (if leaf : bool then ret tt else
         set_children q (skipn 7 (n_children nd));;
         set_children p (firstn 7 (n_children nd));;
         adjust_children (skipn 7 (n_children nd)) q);;
      set_entries q e2;;
      set_entries p e1.

Lemma halves_bind q p e1 e2 nd (k : M unit) st :
  (leaf <- lift (is_leaf nd);;
      (if leaf : bool then ret tt else
         set_children q (skipn 7 (n_children nd));;
         set_children p (firstn 7 (n_children nd));;
         adjust_children (skipn 7 (n_children nd)) q);;
      set_entries q e2;;
      set_entries p e1;; k) st = (halves q p e1 e2 nd;; k) st.
Proof.
  unfold halves, bind, ret, lift. destruct (is_leaf nd) as [[|]|]; [| |reflexivity].
  all: repeat match goal with
    | |- context [let (_, _) := ?x in _] =>
      match x with context [let (_, _) := _ in _] => fail 1 | _ => destruct x as [? [?|?]] end
    end; reflexivity.
Qed.

Lemma halves_ok st F q p par e1 up e2 ts R nd h :
  Inv st (mkL q par [] [] :: mkL p par (map tpage ts) (e1 ++ up :: e2) :: flat_map (nodes p) ts ++ R) F ->
  cached st p -> cached st q ->
  n_children nd = map tpage ts -> n_entries nd = e1 ++ up :: e2 ->
  bal h (T p (e1 ++ up :: e2) ts) -> length e1 = 6 -> length e2 = 7 ->
  exists t1 t2 st', ts = t1 ++ t2 /\
    ((t1 = [] /\ t2 = []) \/ (length t1 = S (length e1) /\ length t2 = S (length e2))) /\
    good h (T p e1 t1) /\ good h (T q e2 t2) /\
    halves q p e1 e2 nd st = (st', Ok tt) /\
    Inv st' (nodes par (T p e1 t1) ++ nodes par (T q e2 t2) ++ R) F /\ grows st st'.
Proof.
  intros HI Hp Hq Hch Hes HB L1 L2. unfold halves, bind at 1, lift.
  destruct h as [|h].
  - (* leaf *)
    cbn in HB. subst ts. exists [], [].
    rewrite is_leaf_leaf by (rewrite Hch; reflexivity).
    cbn [map flat_map app] in HI. unfold bind at 1, ret at 1.
    destruct (set_entries_ok st q _ _ _ _ F e2 HI Hq) as (st1 & E1 & HI1 & G1).
    unfold bind at 1. rewrite E1.
    eapply (inv_perm _ _ (mkL p par [] (e1 ++ up :: e2) :: mkL q par [] e2 :: R)) in HI1; [|perm].
    destruct (set_entries_ok st1 p _ _ _ _ F e1 HI1 (proj1 G1 _ Hp)) as (st2 & E2 & HI2 & G2).
    exists st2.
    split; [reflexivity|]. split; [left; auto|].
    split; [split; [cbn; lia|reflexivity]|]. split; [split; [cbn; lia|reflexivity]|].
    split; [exact E2|]. split; [exact HI2|eapply grows_trans; eassumption].
  - destruct (proj1 (bal_S _ _) HB) as [Hl Hg]. cbn [tkids tents] in Hl, Hg.
    rewrite app_length in Hl. cbn [length] in Hl.
    assert (Hts : ts = firstn 7 ts ++ skipn 7 ts) by (symmetry; apply firstn_skipn).
    set (t1 := firstn 7 ts) in *. set (t2 := skipn 7 ts) in *.
    assert (Lt1 : length t1 = 7) by (unfold t1; rewrite firstn_length; lia).
    assert (Lt2 : length t2 = 8) by (unfold t2; rewrite skipn_length; lia).
    exists t1, t2.
    rewrite is_leaf_inner by (rewrite Hch, Hes, map_length, app_length; cbn [length]; lia).
    rewrite Hch, Hts, map_app, firstn_exact, skipn_exact by (rewrite map_length; exact Lt1).
    rewrite Hts in HI. rewrite flat_map_app in HI. rewrite map_app in HI.
    destruct (set_children_ok st q _ _ _ _ F (map tpage t2) HI Hq) as (st1 & E1 & HI1 & G1).
    unfold bind at 1. unfold bind at 1. rewrite E1.
    eapply (inv_perm _ _ (mkL p par (map tpage t1 ++ map tpage t2) (e1 ++ up :: e2)
       :: mkL q par (map tpage t2) [] :: flat_map (nodes p) t1 ++ flat_map (nodes p) t2 ++ R)) in HI1; [|perm].
    destruct (set_children_ok st1 p _ _ _ _ F (map tpage t1) HI1 (proj1 G1 _ Hp)) as (st2 & E2 & HI2 & G2).
    unfold bind at 1. rewrite E2.
    eapply (inv_perm _ _ (flat_map (nodes p) t2 ++ mkL p par (map tpage t1) (e1 ++ up :: e2)
       :: mkL q par (map tpage t2) [] :: flat_map (nodes p) t1 ++ R)) in HI2; [|perm].
    destruct (adjust_forest _ _ q _ _ _ HI2) as (st3 & E3 & HI3 & G3).
    rewrite E3.
    pose proof (grows_trans _ _ _ G1 (grows_trans _ _ _ G2 G3)) as G.
    eapply (inv_perm _ _ (mkL q par (map tpage t2) [] :: mkL p par (map tpage t1) (e1 ++ up :: e2)
       :: flat_map (nodes q) t2 ++ flat_map (nodes p) t1 ++ R)) in HI3; [|perm].
    destruct (set_entries_ok st3 q _ _ _ _ F e2 HI3 (proj1 G _ Hq)) as (st4 & E4 & HI4 & G4).
    unfold bind at 1. rewrite E4.
    eapply (inv_perm _ _ (mkL p par (map tpage t1) (e1 ++ up :: e2) :: mkL q par (map tpage t2) e2
       :: flat_map (nodes q) t2 ++ flat_map (nodes p) t1 ++ R)) in HI4; [|perm].
    pose proof (grows_trans _ _ _ G G4) as G'.
    destruct (set_entries_ok st4 p _ _ _ _ F e1 HI4 (proj1 G' _ Hp)) as (st5 & E5 & HI5 & G5).
    exists st5.
    rewrite Hts in Hg. apply Forall_app in Hg. destruct Hg as [Hg1 Hg2].
    split; [reflexivity|]. split; [right; lia|].
    split; [split; [cbn; lia|apply bal_S; cbn [tkids tents]; split; [lia|exact Hg1]]|].
    split; [split; [cbn; lia|apply bal_S; cbn [tkids tents]; split; [lia|exact Hg2]]|].
    split; [exact E5|]. split; [|eapply grows_trans; eassumption].
    eapply inv_perm; [|exact HI5]. cbn [nodes]. perm.
Qed.

Lemma halves_length par p q e1 up e2 t1 t2 R :
  length (nodes par (T p e1 t1) ++ nodes par (T q e2 t2) ++ R) <=
  S (length (nodes par (T p (e1 ++ up :: e2) (t1 ++ t2)) ++ R)) .
Proof.
  cbn [nodes]. rewrite !flat_map_app. 
  assert (forall x y ts, length (flat_map (nodes x) ts) = length (flat_map (nodes y) ts)) as Hl.
  { intros x y ts. induction ts as [|[r es us] ts IH]; [reflexivity|]. cbn [flat_map nodes].
    cbn [app length]. rewrite !app_length, IH. reflexivity. }
  cbn [app length]. rewrite !app_length. cbn [length]. rewrite !app_length, (Hl q p t2). lia.
Qed.

Lemma split_ok : forall c h p es ts fuel st F,
  At st F c (T p es ts) -> bal h (T p es ts) -> balc h c ->
  length es <= 14 -> (c <> [] -> 6 <= length es) -> (c = [] -> 0 < h -> 1 <= length es) ->
  SS (lctx c ++ inorder (T p es ts) ++ rctx c) ->
  length c <= fuel ->
  (N.of_nat (length (lctx c ++ inorder (T p es ts) ++ rctx c)) <= MAX_ENTRIES)%N ->
  b_root st = tpage (plug c (T p es ts)) ->
  exists st' F' t' h',
    split_tail (insert_and_balance cmp fuel) p st = (st', Ok tt) /\
    Inv st' (nodes INVALID_PAGE t') F' /\ b_root st' = tpage t' /\ root_ok h' t' /\
    inorder t' = lctx c ++ inorder (T p es ts) ++ rctx c.
Proof.
  induction c as [|f c IH]; intros h p es ts fuel st F HA HB HC H14 H6 H1 HS Hfuel HM Hroot.
  all: unfold split_tail, bind at 1;
    destruct (at_get_node _ _ _ _ _ _ HA) as (nd & -> & Hpar & Hch & Hes); rewrite Hes;
    unfold BTREE_MAX_NUM_ENTRIES; destruct (Nat.ltb_spec 13 (length es)) as [Hbig|Hsmall].
  2: { (* root, no overflow *)
    unfold ret. exists st, F, (T p es ts), h. split; [reflexivity|].
    destruct HA as (HI & _ & _). cbn [top ctx_nodes] in HI. rewrite app_nil_r in HI.
    split; [exact HI|]. split; [exact Hroot|]. split; [split; [exact HB|split; [exact Hsmall|apply H1; reflexivity]]|].
    cbn [lctx rctx app]. rewrite app_nil_r. reflexivity. }
  3: { (* inner, no overflow *)
    unfold ret. exists st, F, (plug (f :: c) (T p es ts)), (length (f :: c) + h).
    split; [reflexivity|]. destruct HA as (HI & _ & _). split.
    { eapply inv_perm; [|exact HI]. apply Permutation_sym, (nodes_plug (f :: c)). }
    split; [exact Hroot|]. split.
    { apply plug_root_ok; [exact HC|exact HB|]. split; [exact Hsmall|]. split; [exact H6|discriminate]. }
    apply inorder_plug. eapply balc_len. exact HC. }
  all: assert (He14 : length es = 14) by lia.
  all: destruct (middle_split es He14) as (e1 & up & e2 & Ees & Le1 & Le2 & Hup & Hsk & Hfi).
  all: rewrite He14; change (14 / 2 - 1) with 6; change (6 + 1) with 7.
  all: match type of HA with At _ _ ?cc _ =>
    pose proof (room st F cc h p es ts (proj1 HA) HB HC HM) as Hroom;
    destruct HA as (HI & Hp & Hc); cbn [tpage] in Hp, HI;
    destruct (alloc_ok st _ F (top cc) HI ltac:(intros _; lia))
      as (st1 & q & F1 & E1 & HI1 & Hr1 & Hca1 & HF1 & Hfresh) end.
  all: unfold bind at 1; rewrite E1.
  all: match type of HI1 with Inv _ (mkL _ ?pp [] [] :: _) _ =>
    destruct (retrieve_ok st1 _ F1 (mkL q pp [] []) HI1 (or_introl eq_refl))
      as (st2 & E2 & HI2 & Hq2 & G2a & G2b) end.
  all: cbn [l_par l_pg] in E2, Hq2; unfold bind at 1; rewrite Hpar, E2.
  all: assert (G2 : grows st st2)
    by (split; [intros x Hx; apply G2a; unfold cached in *; rewrite Hca1; exact Hx|congruence]).
  all: unfold bind at 1, lift at 1; rewrite Hup, Hsk, Hfi.
  all: rewrite Ees in *; clear es Ees.
  all: rewrite halves_bind.
  all: match type of HI2 with Inv _ (_ :: nodes ?par _ ++ ?R) _ =>
    destruct (halves_ok st2 F1 q p par e1 up e2 ts R nd h HI2 (proj1 G2 _ Hp) Hq2 Hch Hes HB Le1 Le2)
      as (t1 & t2 & st3 & Ets & Hlen & Hg1 & Hg2 & E3 & HI3 & G3) end.
  all: unfold bind at 1; rewrite E3.
  all: subst ts; rewrite (inorder_halves p q e1 up e2 t1 t2 Hlen) in *.
  - (* new root *)
    cbn [top]. rewrite N.eqb_refl. cbn [top ctx_nodes lctx rctx app] in *.
    destruct (alloc_ok st3 _ F1 INVALID_PAGE HI3) as (st4 & r & F4 & E4 & HI4 & Hr4 & Hca4 & _ & _).
    { intros _. pose proof (halves_length INVALID_PAGE p q e1 up e2 t1 t2 []) as Hl. 
      cbn [lctx rctx ctx_nodes top] in *. lia. }
    unfold bind at 1. rewrite E4.
    destruct (retrieve_ok st4 _ F4 (mkL r INVALID_PAGE [] []) HI4 (or_introl eq_refl))
      as (st5 & E5 & HI5 & Hr5 & G5a & G5b). cbn [l_par l_pg] in E5, Hr5.
    unfold bind at 1. rewrite E5.
    destruct (get_node_ok st5 _ F4 _ HI5 (or_introl eq_refl) Hr5) as (rn & E6 & _ & _ & Hc6 & He6).
    cbn [l_pg l_cs l_es] in E6, Hc6, He6. unfold bind at 1. rewrite E6, Hc6, He6. cbn [app].
    destruct (set_children_ok st5 r _ _ _ _ F4 [p; q] HI5 Hr5) as (st6 & E7 & HI6 & G6).
    unfold bind at 1. rewrite E7.
    destruct (set_entries_ok st6 r _ _ _ _ F4 [up] HI6 (proj1 G6 _ Hr5)) as (st7 & E8 & HI7 & G7).
    unfold bind at 1. rewrite E8. unfold bind at 1, modify at 1.
    apply (inv_root _ r) in HI7.
    assert (G37 : forall x, cached st3 x -> cached (set_root st7 r) x).
    { intros x Hx. apply G7, G6, G5a. unfold cached. rewrite Hca4. exact Hx. }
    cbn [nodes] in HI7.
    eapply (inv_perm _ _ (mkL p INVALID_PAGE (map tpage t1) e1 :: flat_map (nodes p) t1 ++
       mkL q INVALID_PAGE (map tpage t2) e2 :: flat_map (nodes q) t2 ++ [mkL r INVALID_PAGE [p; q] [up]]))
      in HI7; [|perm].
    destruct (set_parent_ok _ p _ _ _ _ F4 r HI7) as (st8 & E9 & HI8 & G8).
    { apply G37, G3, G2, Hp. }
    unfold bind at 1. rewrite E9.
    eapply (inv_perm _ _ (mkL q INVALID_PAGE (map tpage t2) e2 :: mkL p r (map tpage t1) e1 :: flat_map (nodes p) t1 ++
       flat_map (nodes q) t2 ++ [mkL r INVALID_PAGE [p; q] [up]])) in HI8; [|perm].
    destruct (set_parent_ok _ q _ _ _ _ F4 r HI8) as (st9 & E10 & HI9 & G9).
    { apply G8, G37, G3, Hq2. }
    exists st9, F4, (T r [up] [T p e1 t1; T q e2 t2]), (S h). split; [exact E10|].
    split.
    { eapply inv_perm; [|exact HI9]. cbn [nodes flat_map map tpage app]. perm. }
    split; [rewrite (proj2 G9), (proj2 G8); reflexivity|]. split.
    + split; [apply bal_S; cbn [tkids tents length]; auto|]. cbn [tents length]. lia.
    + cbn [inorder wr map]. rewrite !app_nil_r. reflexivity.
  - (* split moves up *)
    cbn [top]. destruct f as [r le lc re rc]. destruct HC as [Hf HC].
    cbn [top ctx_nodes f_pg f_le f_lc f_re f_rc] in *.
    assert (Hr : cached st3 r) by (apply G3, G2; inversion Hc; assumption).
    assert (Hrv : (r =? INVALID_PAGE)%N = false).
    { apply limit_invalid. apply (inv_page_valid _ _ _ (mkL r (top c) (map tpage lc ++ p :: map tpage rc) (le ++ re)) HI3).
      apply in_or_app. right. apply in_or_app. right. left. reflexivity. }
    rewrite Hrv. unfold bind at 1, retrieve_existing_node, gets.
    destruct (lookup r (b_cache st3)) as [rnd|] eqn:Er; [|exfalso; apply Hr; exact Er].
    destruct fuel as [|fuel]; [cbn [length] in Hfuel; lia|].
    rewrite iab_unfold.
    set (T1 := T p e1 t1) in *. set (T2 := T q e2 t2) in *.
    destruct Hf as ((L1 & L2) & Hlc & Hrc & Hm1 & Hm2 & Hm3). cbn [f_le f_lc f_re f_rc] in *.
    assert (HS' : SS (lctx c ++ (wl le (inos lc) ++ inorder T1) ++ up :: (inorder T2 ++ wr re (inos rc)) ++ rctx c)).
    { cbn [lctx rctx f_le f_lc f_re f_rc] in HS. rewrite <- !app_assoc in HS |- *. cbn [app] in HS. exact HS. }
    assert (HSe : SS (le ++ re) /\ (forall e, In e le -> ltn cmp (e_name e) (e_name up)) /\
      (forall e, In e re -> ltn cmp (e_name up) (e_name e))).
    { apply SS_app in HS'. destruct HS' as (_ & HS' & _).
      apply SS_app in HS'. destruct HS' as (Ha & Hb & Hab). apply SS_cons in Hb. destruct Hb as [Hb Hub].
      assert (Hle : forall e, In e le -> In e (wl le (inos lc) ++ inorder T1)).
      { intros e He. apply in_or_app. left. apply wl_ents; [unfold inos; rewrite map_length; lia|exact He]. }
      assert (Hre : forall e, In e re -> In e ((inorder T2 ++ wr re (inos rc)) ++ rctx c)).
      { intros e He. apply in_or_app. left. apply in_or_app. right.
        apply wr_ents; [unfold inos; rewrite map_length; lia|exact He]. }
      split; [|split].
      - apply SS_app. split; [|split].
        + apply SS_app in Ha. destruct Ha as (Ha & _). apply (SS_wl le (inos lc)); [unfold inos; rewrite map_length; lia|exact Ha].
        + apply SS_app in Hb. destruct Hb as (Hb & _). apply SS_app in Hb. destruct Hb as (_ & Hb & _).
          apply (SS_wr _ re (inos rc)); [unfold inos; rewrite map_length; lia|exact Hb].
        + intros x y Hx Hy. apply Hab; [apply Hle; exact Hx|right; apply Hre; exact Hy].
      - intros e He. apply Hab; [apply Hle; exact He|left; reflexivity].
      - intros e He. apply Hub. apply Hre. exact He. }
    destruct HSe as (HSe & Hltl & Hltr).
    eapply (inv_perm _ _ (mkL r (top c) (map tpage (lc ++ T1 :: rc)) (le ++ re)
          :: flat_map (nodes r) (lc ++ T1 :: T2 :: rc) ++ ctx_nodes r c)) in HI3.
    2:{ rewrite map_app, flat_map_app. cbn [map flat_map tpage]. replace (tpage T1) with p by reflexivity. perm. }
    destruct (insert_here_inner st3 F1 c r le re up lc T1 T2 rc HI3 Hr) as (st4 & E4 & HA4 & G4).
    { eapply allc_grows; [exact G3|]. eapply allc_grows; [exact G2|]. inversion Hc; assumption. }
    { exact L1. } { exact L2. }
    { unfold T2. cbn [tpage]. apply N.eqb_neq. apply limit_invalid.
      apply (inv_page_valid _ _ _ (mkL q (top (mkF r le lc re rc :: c)) [] []) HI2). left. reflexivity. }
    { apply lower_bound_at; [exact Hcmp|exact HSe|exact Hltl|].
      intros e He Hlt. apply (ltn_irrefl cmp Hcmp (e_name up)). eapply ltn_trans; [exact Hcmp|apply Hltr; exact He|exact Hlt]. }
    unfold bind at 1. unfold T2 in E4. cbn [tpage] in E4. rewrite E4.
    assert (Hino : inorder (T r (le ++ up :: re) (lc ++ T1 :: T2 :: rc)) =
      wl le (inos lc) ++ inorder T1 ++ up :: inorder T2 ++ wr re (inos rc)).
    { rewrite (inorder_split r le (up :: re) lc T1 (T2 :: rc)) by lia. reflexivity. }
    destruct (IH (S h) r (le ++ up :: re) (lc ++ T1 :: T2 :: rc) fuel st4 F1) as (st5 & F5 & t' & h' & E5 & HI5 & Hr5 & Hok & Hin).
    + exact HA4.
    + apply bal_S. cbn [tkids tents]. split; [rewrite !app_length; cbn [length]; lia|].
      apply Forall_app. split; [exact Hlc|]. constructor; [exact Hg1|]. constructor; [exact Hg2|exact Hrc].
    + exact HC.
    + rewrite app_length in *. cbn [length]. lia.
    + intros Hne. specialize (Hm3 Hne). rewrite app_length in *. cbn [length]. lia.
    + intros _ _. rewrite app_length. cbn [length]. lia.
    + rewrite Hino. rewrite <- !app_assoc in HS' |- *. cbn [app]. repeat (rewrite <- !app_assoc; cbn [app]). exact HS'.
    + cbn [length] in Hfuel. lia.
    + rewrite Hino. cbn [lctx rctx f_le f_lc f_re f_rc] in HM.
      rewrite !app_length in HM |- *. cbn [length] in HM |- *. rewrite !app_length in HM |- *. lia.
    + rewrite (proj2 G4), (proj2 G3), (proj2 G2), Hroot. cbn [plug]. unfold plug1. cbn [f_pg f_le f_lc f_re f_rc].
      apply tpage_plug. reflexivity.
    + exists st5, F5, t', h'. split; [exact E5|]. split; [exact HI5|]. split; [exact Hr5|]. split; [exact Hok|].
      rewrite Hin, Hino. cbn [lctx rctx f_le f_lc f_re f_rc]. repeat (rewrite <- !app_assoc; cbn [app]). reflexivity.
Qed.
End S.
