(** The directory operations on a well-formed tree. *)
From Verif Require Import Base BaseLemmas BtreeModel BtreeSpec BtreeCodec BtreeInv BtreeTree BtreeSearch BtreeInsert BtreeDelete.
From Coq Require Import Permutation Sorting.Sorted.
Local Open Scope list_scope.

Section S.
Variable cmp : bytes -> bytes -> comparison.
Hypothesis Hcmp : cmp_ok cmp.
Notation SS := (SS cmp).
Notation lte := (lte cmp).

Definition ents (o : option tree) : list entry := match o with None => [] | Some t => inorder t end.
Definition tnodes (o : option tree) : list lnode := match o with None => [] | Some t => nodes INVALID_PAGE t end.
Definition troot (o : option tree) : N := match o with None => INVALID_PAGE | Some t => tpage t end.
Definition tshape (o : option tree) : Prop := match o with None => True | Some t => exists h, root_ok h t end.

Record rep (st : bt) (F : list N) (o : option tree) : Prop := {
  r_root : b_root st = troot o;
  r_inv : Inv st (tnodes o) F;
  r_shape : tshape o;
  r_sorted : SS (ents o);
  r_count : (N.of_nat (length (ents o)) <= MAX_ENTRIES)%N }.

Lemma pow7_mono a b : a <= b -> 7 ^ a <= 7 ^ b.
Proof. intros. apply Nat.pow_le_mono_r; lia. Qed.

Lemma height_bound h t :
  root_ok h t -> (N.of_nat (length (inorder t)) <= MAX_ENTRIES)%N -> h <= 7.
Proof.
  intros H Hn. destruct (Nat.le_gt_cases h 7) as [|Hh]; [assumption|exfalso].
  pose proof (root_min h t H ltac:(lia)) as H1.
  assert (H2 : (2 * 7 ^ N.of_nat h <= N.of_nat (length (inorder t)) + 1)%N).
  { clear -H1. replace (7 ^ N.of_nat h)%N with (N.of_nat (7 ^ h)); [lia|]. induction h as [|h IH]; [reflexivity|].
    change (7 ^ S h) with (7 * 7 ^ h). rewrite Nat2N.inj_succ, N.pow_succ_r', Nat2N.inj_mul, IH; [reflexivity|].
    change (7 ^ S h) with (7 * 7 ^ h) in H1. lia. }
  assert (H3 : (7 ^ 8 <= 7 ^ N.of_nat h)%N) by (apply N.pow_le_mono_r; lia).
  change (7 ^ 8)%N with 5764801%N in H3. unfold MAX_ENTRIES in Hn. lia.
Qed.

(** ** Finding by name in a sorted list *)
Lemma find_name_in name l x :
  SS l -> In x l -> cmp name (e_name x) = Eq -> find_name cmp name l = Some x.
Proof.
  induction l as [|y l IH]; intros HS Hi He; [destruct Hi|].
  apply SS_cons in HS. destruct HS as [HS Hy]. unfold find_name. cbn [find]. unfold same_name at 1.
  destruct Hi as [->|Hi].
  - rewrite He. reflexivity.
  - assert (Hlt : cmp (e_name y) name = Lt).
    { rewrite (cmp_eq_r cmp Hcmp name (e_name x)) by exact He. apply Hy. exact Hi. }
    rewrite (cmp_sym _ Hcmp (e_name y) name), Hlt. cbn [CompOpp]. apply IH; assumption.
Qed.

Lemma find_name_none name (l : list entry) :
  (forall e, In e l -> cmp name (e_name e) <> Eq) -> find_name cmp name l = None.
Proof.
  unfold find_name. induction l as [|y l IH]; intros H; [reflexivity|]. cbn [find]. unfold same_name at 1.
  pose proof (H y (or_introl eq_refl)) as Hy. destruct (cmp name (e_name y)); [congruence| |];
  (apply IH; intros e He; apply H; right; exact He).
Qed.

Lemma find_name_spec name (m : list entry) :
  match find_name cmp name m with
  | Some y => In y m /\ cmp name (e_name y) = Eq
  | None => forall e, In e m -> cmp name (e_name e) <> Eq
  end.
Proof.
  unfold find_name. destruct (find _ m) as [y|] eqn:E.
  - apply find_some in E. destruct E as [E1 E2]. split; [exact E1|]. unfold same_name in E2.
    destruct (cmp name (e_name y)); congruence.
  - intros e He. pose proof (find_none _ _ E e He) as H. unfold same_name in H. cbv beta in H.
    destruct (cmp name (e_name e)); congruence.
Qed.

Lemma find_name_perm name l m :
  SS l -> Permutation l m -> find_name cmp name m = find_name cmp name l.
Proof.
  intros HS HP. pose proof (find_name_spec name m) as H. destruct (find_name cmp name m) as [y|].
  - destruct H as [H1 H2]. symmetry. apply find_name_in; [exact HS| |exact H2].
    apply (Permutation_in y (Permutation_sym HP)). exact H1.
  - symmetry. apply find_name_none. intros e He. apply H. apply (Permutation_in e HP). exact He.
Qed.

(** ** The root *)
Lemma get_root_none st F : rep st F None -> get_root_node st = (st, Ok None).
Proof.
  intros [Hr _ _ _ _]. cbn [troot] in Hr. unfold get_root_node, bind, gets. rewrite Hr, N.eqb_refl. reflexivity.
Qed.

Lemma get_root_some st F t :
  rep st F (Some t) ->
  exists st', get_root_node st = (st', Ok (Some (tpage t))) /\
    At st' F [] t /\ grows st st' /\ rep st' F (Some t).
Proof.
  intros [Hr HI Hs HS HM]. cbn [troot tnodes ents tshape] in *.
  unfold get_root_node, bind at 1, gets at 1. rewrite Hr.
  destruct t as [p es ts]. cbn [tpage].
  assert (Hin : In (mkL p INVALID_PAGE (map tpage ts) es) (nodes INVALID_PAGE (T p es ts))) by (left; reflexivity).
  rewrite (limit_invalid p) by (apply (inv_page_valid _ _ _ _ HI Hin)).
  destruct (retrieve_ok st _ F _ HI Hin) as (st' & E & HI' & Hc & G1 & G2). cbn [l_par l_pg] in E, Hc.
  unfold bind. rewrite E. exists st'. split; [reflexivity|]. assert (G : grows st st') by (split; assumption).
  split; [|split; [exact G|constructor; [cbn [troot tpage] in *; congruence|exact HI'|exact Hs|exact HS|exact HM]]].
  split; [cbn [top ctx_nodes]; rewrite app_nil_r; exact HI'|]. split; [exact Hc|constructor].
Qed.

Lemma find_node_none st F name : rep st F None -> find_node cmp name st = (st, Ok None).
Proof. intros H. unfold find_node, bind at 1. rewrite (get_root_none _ _ H). reflexivity. Qed.

Lemma find_node_some st F t name :
  rep st F (Some t) ->
  exists st' h c p es ts i b,
    find_node cmp name st = (st', Ok (Some (p, i, b))) /\
    t = plug c (T p es ts) /\ rep st' F (Some t) /\
    At st' F c (T p es ts) /\ bal h (T p es ts) /\ balc h c /\ size_ok h c es /\
    length c + h <= 7 /\
    inorder t = lctx c ++ inorder (T p es ts) ++ rctx c /\
    if b : bool then found_at cmp c es i name else missing_at cmp c es ts i name.
Proof.
  intros H. destruct (get_root_some st F t H) as (st1 & E1 & HA1 & G1 & H1).
  destruct (r_shape _ _ _ H) as (hh & Hok). pose proof (height_bound hh t Hok (r_count _ _ _ H)) as Hb.
  unfold find_node, bind at 1. rewrite E1. destruct t as [p0 es0 ts0].
  pose proof Hok as (B1 & B2 & B3).
  destruct (find_loop_ok cmp Hcmp name F hh [] p0 es0 ts0 BTREE_MAX_DEPTH st1 HA1 B1 I)
    as (st2 & h & c & p & es & ts & i & b & E2 & HP & HA2 & Hb2 & Hc2 & Hz2 & Hl & G2 & Hres).
  { split; [exact B2|]. split; [intros Hx; contradiction Hx; reflexivity|]. intros _. exact B3. }
  { cbn [lctx rctx app]. rewrite app_nil_r. exact (r_sorted _ _ _ H). }
  { intros e []. } { intros e []. }
  { unfold BTREE_MAX_DEPTH. lia. }
  cbn [tpage]. unfold bind. rewrite E2. cbn [length plug] in Hl, HP.
  exists st2, h, c, p, es, ts, i, b. split; [reflexivity|]. split; [symmetry; exact HP|].
  split.
  { destruct H1 as [R1 R2 R3 R4 R5]. constructor; try assumption.
    - rewrite (proj2 G2). exact R1.
    - cbn [tnodes]. eapply inv_perm; [|exact (proj1 HA2)]. rewrite <- HP. apply Permutation_sym, nodes_plug. }
  split; [exact HA2|]. split; [exact Hb2|]. split; [exact Hc2|]. split; [exact Hz2|]. split; [lia|].
  split; [|exact Hres]. rewrite <- HP. apply inorder_plug. eapply balc_len. exact Hc2.
Qed.

Lemma found_name c es i name h p ts t :
  SS (inorder t) -> inorder t = lctx c ++ inorder (T p es ts) ++ rctx c -> bal h (T p es ts) ->
  found_at cmp c es i name ->
  exists le x re, es = le ++ x :: re /\ i = length le /\ find_name cmp name (inorder t) = Some x /\
    cmp name (e_name x) = Eq.
Proof.
  intros HS Ht HB (le & x & re & -> & -> & He). exists le, x, re. split; [reflexivity|]. split; [reflexivity|].
  split; [|exact He]. apply find_name_in; [exact HS| |exact He]. rewrite Ht. apply in_or_app. right. apply in_or_app. left.
  apply in_inorder_ents; [eapply bal_shape; exact HB|]. apply in_or_app. right. left. reflexivity.
Qed.

Lemma missing_name c es ts i name p t :
  inorder t = lctx c ++ inorder (T p es ts) ++ rctx c ->
  missing_at cmp c es ts i name -> find_name cmp name (inorder t) = None.
Proof.
  intros Ht (-> & le & re & -> & -> & H1 & H2). apply find_name_none. intros e He.
  rewrite Ht in He. cbn [inorder] in He. rewrite <- app_assoc, app_assoc in He.
  apply in_app_or in He. destruct He as [He|He].
  - specialize (H1 e He). unfold ltn in H1. rewrite (cmp_sym _ Hcmp (e_name e) name), H1. discriminate.
  - specialize (H2 e He). unfold ltn in H2. rewrite H2. discriminate.
Qed.

(** ** get_entry *)
Lemma get_entry_ok st F o name :
  rep st F o -> length name <= 255 ->
  exists st', get_entry cmp name st = (st', Ok (find_name cmp name (ents o))) /\ rep st' F o.
Proof.
  intros H Hl. unfold get_entry, MAX_FILENAME_LENGTH. destruct (Nat.ltb_spec 255 (length name)); [lia|].
  destruct o as [t|].
  - destruct (find_node_some st F t name H) as (st1 & h & c & p & es & ts & i & b & E & HP & H1 & HA & HB & HC & HZ & Hh & Hin & Hres).
    unfold bind at 1. rewrite E. destruct b.
    + destruct (found_name _ _ _ _ _ _ _ _ (r_sorted _ _ _ H) Hin HB Hres) as (le & x & re & -> & -> & Hf & He).
      unfold bind at 1. destruct (at_get_node _ _ _ _ _ _ HA) as (nd & -> & _ & _ & Hes).
      unfold bind, lift. rewrite Hes, at_mid. unfold eq_name. rewrite He. cbn [ents]. rewrite Hf.
      exists st1. split; [reflexivity|exact H1].
    + cbn [ents]. rewrite (missing_name _ _ _ _ _ _ _ Hin Hres). exists st1. split; [reflexivity|exact H1].
  - unfold bind at 1. rewrite (find_node_none _ _ _ H). exists st. split; [reflexivity|exact H].
Qed.

(** ** add_entry *)
Lemma SS_insert A B e :
  SS (A ++ B) -> (forall x, In x A -> ltn cmp (e_name x) (e_name e)) ->
  (forall x, In x B -> ltn cmp (e_name e) (e_name x)) -> SS (A ++ e :: B).
Proof.
  intros HS H1 H2. apply SS_app in HS. destruct HS as (HA & HB & HAB).
  apply SS_app. split; [exact HA|]. split; [apply SS_cons; split; [exact HB|exact H2]|].
  intros x y Hx [<-|Hy]; [apply H1; exact Hx|apply HAB; assumption].
Qed.

Lemma add_entry_found st F o name id ty x :
  rep st F o -> length name <= 255 -> find_name cmp name (ents o) = Some x ->
  exists st', add_entry cmp name id ty st = (st', Ok false) /\ rep st' F o.
Proof.
  intros H Hl Hf. unfold add_entry, MAX_FILENAME_LENGTH. destruct (Nat.ltb_spec 255 (length name)); [lia|].
  destruct o as [t|]; [|discriminate].
  destruct (find_node_some st F t name H) as (st1 & h & c & p & es & ts & i & b & E & HP & H1 & HA & HB & HC & HZ & Hh & Hin & Hres).
  unfold bind at 1. rewrite E. destruct b.
  - exists st1. split; [reflexivity|exact H1].
  - cbn [ents] in Hf. rewrite (missing_name _ _ _ _ _ _ _ Hin Hres) in Hf. discriminate.
Qed.

Lemma add_entry_new st F o name id ty :
  rep st F o -> length name <= 255 -> find_name cmp name (ents o) = None ->
  (N.of_nat (S (length (ents o))) <= MAX_ENTRIES)%N ->
  exists st' F' o', add_entry cmp name id ty st = (st', Ok true) /\ rep st' F' o' /\
    Permutation (ents o') (mkEntry name id ty :: ents o).
Proof.
  intros H Hl Hf HM. unfold add_entry, MAX_FILENAME_LENGTH. destruct (Nat.ltb_spec 255 (length name)); [lia|].
  destruct o as [t|].
  - destruct (find_node_some st F t name H) as (st1 & h & c & p & es & ts & i & b & E & HP & H1 & HA & HB & HC & HZ & Hh & Hin & Hres).
    unfold bind at 1. rewrite E. destruct b.
    { destruct (found_name _ _ _ _ _ _ _ _ (r_sorted _ _ _ H) Hin HB Hres) as (? & ? & ? & _ & _ & Hf' & _).
      cbn [ents] in Hf. congruence. }
    destruct Hres as (-> & le & re & -> & -> & Hlt & Hgt).
    assert (Hh0 : h = 0).
    { destruct h as [|h]; [reflexivity|]. destruct (proj1 (bal_S _ _) HB) as [HL _]. discriminate. }
    subst h. unfold bind at 1. change BTREE_MAX_DEPTH with (S 31). rewrite iab_unfold. unfold bind at 1.
    cbn [inorder] in Hin.
    pose proof (r_sorted _ _ _ H) as HS. cbn [ents] in HS, HM. rewrite Hin in HS.
    set (e := mkEntry name id ty) in *.
    destruct (insert_here_leaf cmp st1 F c p le re e HA) as (st2 & E2 & HA2 & G2).
    { apply lower_bound_at; [exact Hcmp| | |].
      - apply SS_app in HS. destruct HS as (_ & HS & _). apply SS_app in HS. apply HS.
      - intros x Hx. apply Hlt. apply in_or_app. right. exact Hx.
      - intros x Hx Hn. apply (ltn_irrefl cmp Hcmp name). eapply ltn_trans; [exact Hcmp| |exact Hn].
        apply Hgt. apply in_or_app. left. exact Hx. }
    rewrite E2.
    assert (HS2 : SS (lctx c ++ inorder (T p (le ++ e :: re) []) ++ rctx c)).
    { cbn [inorder]. rewrite <- app_assoc. cbn [app]. rewrite app_assoc. apply SS_insert; try assumption.
      rewrite <- app_assoc. rewrite <- app_assoc in HS. exact HS. }
    assert (Hlen : length (lctx c ++ inorder (T p (le ++ e :: re) []) ++ rctx c) = S (length (inorder t))).
    { rewrite Hin. cbn [inorder]. rewrite !app_length. cbn [length]. lia. }
    destruct HZ as (Z1 & Z2 & Z3). rewrite app_length in Z1, Z2.
    destruct (split_ok cmp Hcmp c 0 p (le ++ e :: re) [] 31 st2 F HA2) as (st3 & F3 & t' & h' & E3 & HI3 & Hr3 & Hok & Hin3).
    { reflexivity. } { exact HC. }
    { rewrite app_length. cbn [length]. lia. }
    { intros Hne. specialize (Z2 Hne). rewrite app_length. cbn [length]. lia. }
    { intros _ Hx. lia. }
    { exact HS2. } { lia. }
    { rewrite Hlen. exact HM. }
    { rewrite (proj2 G2), (r_root _ _ _ H1). cbn [troot]. rewrite HP. apply tpage_plug. reflexivity. }
    rewrite E3. unfold ret. exists st3, F3, (Some t'). split; [reflexivity|]. split.
    + constructor; cbn [troot tnodes tshape ents].
      * exact Hr3. * exact HI3. * exists h'. exact Hok. * rewrite Hin3. exact HS2. * rewrite Hin3, Hlen. exact HM.
    + cbn [ents]. rewrite Hin3, Hin. cbn [inorder]. perm.
  - unfold bind at 1. rewrite (find_node_none _ _ _ H).
    destruct H as [Hr HI Hs HS Hc]. cbn [troot tnodes ents] in *.
    destruct (alloc_ok st [] F INVALID_PAGE HI) as (st1 & pg & F1 & E1 & HI1 & Hr1 & Hca1 & _ & _).
    { intros _. unfold PAGE_LIMIT. cbn. lia. }
    unfold bind at 1. rewrite E1. unfold bind at 1, modify at 1. apply (inv_root _ pg) in HI1.
    assert (Hpv : (pg =? INVALID_PAGE)%N = false).
    { apply limit_invalid. apply (inv_page_valid _ _ _ (mkL pg INVALID_PAGE [] []) HI1). left. reflexivity. }
    destruct (retrieve_ok _ _ F1 (mkL pg INVALID_PAGE [] []) HI1 (or_introl eq_refl)) as (st2 & E2 & HI2 & Hc2 & _ & Hr2).
    cbn [l_par l_pg] in E2, Hc2.
    unfold get_root_node, bind at 1. unfold bind at 1, gets at 1. cbn [b_root set_root]. rewrite Hpv.
    unfold bind at 1. rewrite E2. unfold ret at 1.
    destruct (get_node_ok st2 _ F1 (mkL pg INVALID_PAGE [] []) HI2 (or_introl eq_refl) Hc2) as (nd & E3 & _ & _ & _ & He).
    cbn [l_pg l_es] in E3, He. unfold bind at 1. rewrite E3, He. cbn [app].
    destruct (set_entries_ok st2 pg _ _ _ _ F1 [mkEntry name id ty] HI2 Hc2) as (st3 & E4 & HI4 & G4).
    unfold bind. rewrite E4. unfold ret. exists st3, F1, (Some (T pg [mkEntry name id ty] [])). split; [reflexivity|]. split.
    + constructor; cbn [troot tnodes tshape ents tpage].
      * rewrite (proj2 G4), Hr2. reflexivity.
      * exact HI4.
      * exists 0. split; [reflexivity|cbn; lia].
      * cbn [inorder]. repeat constructor.
      * exact HM.
    + cbn [ents inorder]. reflexivity.
Qed.

(** ** remove_entry *)
Lemma remove_entry_ok st F o name :
  rep st F o -> length name <= 255 ->
  exists st' F' o', remove_entry cmp name st = (st', Ok (find_name cmp name (ents o))) /\ rep st' F' o' /\
    match find_name cmp name (ents o) with
    | Some x => Permutation (ents o) (x :: ents o')
    | None => o' = o
    end.
Proof.
  intros H Hl. unfold remove_entry, MAX_FILENAME_LENGTH. destruct (Nat.ltb_spec 255 (length name)); [lia|].
  destruct o as [t|].
  - destruct (find_node_some st F t name H) as (st1 & h & c & p & es & ts & i & b & E & HP & H1 & HA & HB & HC & HZ & Hh & Hin & Hres).
    unfold bind at 1. rewrite E. cbn [ents]. destruct b.
    + destruct (found_name _ _ _ _ _ _ _ _ (r_sorted _ _ _ H) Hin HB Hres) as (le & x & re & -> & -> & Hf & He).
      unfold bind at 1. destruct (at_get_node _ _ _ _ _ _ HA) as (nd & -> & _ & _ & Hes).
      unfold bind at 1, lift. rewrite Hes, at_mid, Hf.
      destruct (replace_ok st1 F c h p le x re ts HA HB HC HZ ltac:(lia))
        as (st2 & c2 & q & es2 & E2 & HA2 & HC2 & Hl2 & L13 & L5 & Htp & G2 & A & B & HT1 & HT2).
      unfold bind at 1. rewrite E2.
      assert (HSB : SS (A ++ B)).
      { pose proof (r_sorted _ _ _ H) as HS. cbn [ents] in HS. rewrite Hin, HT1 in HS.
        apply SS_app in HS. destruct HS as (S1 & S2 & S3). apply SS_cons in S2. destruct S2 as [S2 S4].
        apply SS_app. split; [exact S1|]. split; [exact S2|]. intros u v Hu Hv. apply S3; [exact Hu|right; exact Hv]. }
      destruct (balance_ok cmp Hcmp c2 0 q es2 [] BTREE_MAX_DEPTH st2 F HA2 eq_refl HC2 L13 L5)
        as (st3 & F3 & t' & h' & E3 & HI3 & Hr3 & Hok & Hin3).
      { cbn [inorder]. rewrite HT2. exact HSB. }
      { unfold BTREE_MAX_DEPTH. lia. }
      { rewrite (proj2 G2), (r_root _ _ _ H1). cbn [troot]. rewrite Htp, <- HP. reflexivity. }
      unfold bind. rewrite E3. cbn [inorder] in Hin3. rewrite HT2 in Hin3.
      assert (HPm : Permutation (inorder t) (x :: inorder t')).
      { rewrite Hin, HT1, Hin3. perm. }
      exists st3, F3, (Some t'). split; [reflexivity|]. split; [|exact HPm].
      constructor; cbn [troot tnodes tshape ents].
      * exact Hr3. * exact HI3. * exists h'. exact Hok. * rewrite Hin3. exact HSB.
      * pose proof (r_count _ _ _ H) as Hc. cbn [ents] in Hc. apply Permutation_length in HPm. cbn [length] in HPm. lia.
    + rewrite (missing_name _ _ _ _ _ _ _ Hin Hres). exists st1, F, (Some t). split; [reflexivity|]. split; [exact H1|reflexivity].
  - unfold bind at 1. rewrite (find_node_none _ _ _ H). exists st, F, None. split; [reflexivity|]. split; [exact H|reflexivity].
Qed.
End S.
