(** Ordering of names, binary search, and the descent of find_node. *)
From Verif Require Import Base BaseLemmas BtreeModel BtreeSpec BtreeInv BtreeTree.
From Coq Require Import Permutation Sorting.Sorted.
Local Open Scope list_scope.

Lemma nth_error_ext' {A} (l : list A) i x :
  nth_error l i = Some x -> exists a b, l = a ++ x :: b /\ length a = i.
Proof.
  intros H. apply nth_error_split in H. destruct H as (a & b & H1 & H2). exists a, b. auto.
Qed.

Lemma nth_error_firstn' {A} (l : list A) n i : i < n -> nth_error (firstn n l) i = nth_error l i.
Proof.
  revert l i; induction n as [|n IH]; intros [|x l] [|i] H; try lia; try reflexivity.
  cbn. apply IH. lia.
Qed.

Lemma nth_error_skipn' {A} (l : list A) n i : nth_error (skipn n l) i = nth_error l (n + i).
Proof.
  revert l; induction n as [|n IH]; intros l; [reflexivity|].
  destruct l as [|x l]; [destruct i; reflexivity|]. cbn. apply IH.
Qed.

Section S.
Variable cmp : bytes -> bytes -> comparison.
Hypothesis Hcmp : cmp_ok cmp.

Definition ltn (a b : bytes) : Prop := cmp a b = Lt.

Lemma cmp_refl a : cmp a a = Eq.
Proof. pose proof (cmp_sym _ Hcmp a a) as H. destruct (cmp a a); try reflexivity; discriminate. Qed.

Lemma cmp_gt_lt a b : cmp a b = Gt <-> cmp b a = Lt.
Proof. rewrite (cmp_sym _ Hcmp a b). destruct (cmp a b); cbn; split; intros; congruence. Qed.

Lemma cmp_eq_sym a b : cmp a b = Eq <-> cmp b a = Eq.
Proof. rewrite (cmp_sym _ Hcmp a b). destruct (cmp a b); cbn; split; intros; congruence. Qed.

Lemma cmp_eq_r a b c : cmp a b = Eq -> cmp c a = cmp c b.
Proof.
  intros H. rewrite (cmp_sym _ Hcmp a c), (cmp_sym _ Hcmp b c). f_equal. apply (cmp_eq_l _ Hcmp). exact H.
Qed.

Lemma ltn_trans a b c : ltn a b -> ltn b c -> ltn a c.
Proof. apply (cmp_lt_trans _ Hcmp). Qed.

Lemma ltn_irrefl a : ~ ltn a a.
Proof. unfold ltn. rewrite cmp_refl. discriminate. Qed.

Definition lte (a b : entry) : Prop := ltn (e_name a) (e_name b).
Definition SS (l : list entry) : Prop := StronglySorted lte l.

Lemma SS_app a b :
  SS (a ++ b) <-> SS a /\ SS b /\ (forall x y, In x a -> In y b -> lte x y).
Proof.
  unfold SS. induction a as [|x a IH]; cbn [app].
  - split; [intros H; split; [constructor|split; [exact H|intros ? ? []]]|intros (_ & H & _); exact H].
  - split.
    + intros H. apply StronglySorted_inv in H. destruct H as [H1 H2]. apply IH in H1.
      destruct H1 as (Ha & Hb & Hab). rewrite Forall_app in H2. destruct H2 as [H2 H3].
      split; [constructor; assumption|]. split; [exact Hb|].
      intros u v [<-|Hu] Hv; [rewrite Forall_forall in H3; apply H3; exact Hv|apply Hab; assumption].
    + intros (Ha & Hb & Hab). apply StronglySorted_inv in Ha. destruct Ha as [H1 H2].
      constructor.
      * apply IH. split; [exact H1|]. split; [exact Hb|]. intros u v Hu Hv. apply Hab; [right; exact Hu|exact Hv].
      * rewrite Forall_app. split; [exact H2|]. rewrite Forall_forall. intros v Hv. apply Hab; [left; reflexivity|exact Hv].
Qed.

Lemma SS_cons x l : SS (x :: l) <-> SS l /\ (forall y, In y l -> lte x y).
Proof.
  unfold SS. split.
  - intros H. apply StronglySorted_inv in H. rewrite Forall_forall in H. exact H.
  - intros [H1 H2]. constructor; [exact H1|]. rewrite Forall_forall. exact H2.
Qed.

Lemma lt_name_iff a b : lt_name cmp a b = true <-> ltn a b.
Proof. unfold lt_name, ltn. destruct (cmp a b); split; congruence. Qed.
Lemma lt_name_false a b : lt_name cmp a b = false <-> ~ ltn a b.
Proof. unfold lt_name, ltn. destruct (cmp a b); split; congruence. Qed.

(** ** Binary search *)
Lemma lower_bound_loop_ok es name fuel first len :
  SS es -> len <= fuel -> first + len <= length es ->
  (forall i e, i < first -> nth_error es i = Some e -> ltn (e_name e) name) ->
  (forall i e, first + len <= i -> nth_error es i = Some e -> ~ ltn (e_name e) name) ->
  let r := lower_bound_loop cmp fuel es name first len in
  r <= length es /\
  (forall i e, i < r -> nth_error es i = Some e -> ltn (e_name e) name) /\
  (forall i e, r <= i -> nth_error es i = Some e -> ~ ltn (e_name e) name).
Proof.
  intros HS. revert first len.
  assert (Hmono : forall i j x y, i < j -> nth_error es i = Some x -> nth_error es j = Some y -> lte x y).
  { intros i j x y Hij Hi Hj. apply nth_error_ext' in Hi. destruct Hi as (a & b & -> & <-).
    rewrite nth_error_app2 in Hj by lia. apply SS_app in HS. destruct HS as (_ & HS & _).
    apply SS_cons in HS. apply HS. replace (j - length a) with (S (j - length a - 1)) in Hj by lia.
    cbn [nth_error] in Hj. eapply nth_error_In. exact Hj. }
  induction fuel as [|fuel IH]; intros first len Hf Hl H1 H2; cbn [lower_bound_loop].
  - assert (len = 0) by lia. subst len. rewrite Nat.add_0_r in *. auto.
  - destruct (Nat.eqb_spec len 0) as [->|Hlen]; [rewrite Nat.add_0_r in *; auto|].
    assert (Hh : len / 2 < len) by (apply Nat.div_lt; lia).
    set (half := len / 2) in *.
    destruct (nth_error es (first + half)) as [e|] eqn:E.
    2:{ apply nth_error_None in E. lia. }
    destruct (lt_name cmp (e_name e) name) eqn:Elt.
    + apply lt_name_iff in Elt. apply IH; try lia.
      * intros i x Hi Hx. destruct (Nat.eq_dec i (first + half)) as [->|Hne]; [congruence|].
        eapply ltn_trans; [|exact Elt]. eapply (Hmono i (first + half)); [lia|exact Hx|exact E].
      * intros i x Hi. apply H2. lia.
    + apply lt_name_false in Elt. apply IH; try lia.
      * exact H1.
      * intros i x Hi Hx Hlt. destruct (Nat.eq_dec i (first + half)) as [->|Hne]; [congruence|].
        apply Elt. eapply ltn_trans; [|exact Hlt]. eapply (Hmono (first + half) i); [lia|exact E|exact Hx].
Qed.

Lemma lower_bound_ok es name :
  SS es -> exists le re, es = le ++ re /\ lower_bound cmp es name = length le /\
    (forall e, In e le -> ltn (e_name e) name) /\ (forall e, In e re -> ~ ltn (e_name e) name).
Proof.
  intros HS. unfold lower_bound.
  destruct (lower_bound_loop_ok es name (length es) 0 (length es) HS) as (H1 & H2 & H3); try lia.
  { intros i e Hi He. (assert (nth_error es i <> None) as Hx by congruence; apply nth_error_Some in Hx; lia). }
  set (r := lower_bound_loop _ _ _ _ _ _) in *.
  exists (firstn r es), (skipn r es). rewrite firstn_skipn, firstn_length_le by exact H1.
  split; [reflexivity|]. split; [reflexivity|]. split.
  - intros e Hi. apply In_nth_error in Hi. destruct Hi as [i Hi].
    assert (Hlt : i < r).
    { assert (Hx : nth_error (firstn r es) i <> None) by congruence.
      apply nth_error_Some in Hx. rewrite firstn_length in Hx. lia. }
    apply (H2 i); [exact Hlt|]. rewrite <- Hi. symmetry. apply nth_error_firstn'. exact Hlt.
  - intros e Hi. apply In_nth_error in Hi. destruct Hi as [i Hi].
    apply (H3 (r + i)); [lia|]. rewrite <- Hi. symmetry. apply nth_error_skipn'.
Qed.

(** When the insertion point of a name is known. *)
Lemma lower_bound_at le re name :
  SS (le ++ re) ->
  (forall e, In e le -> ltn (e_name e) name) -> (forall e, In e re -> ~ ltn (e_name e) name) ->
  lower_bound cmp (le ++ re) name = length le.
Proof.
  intros HS H1 H2. destruct (lower_bound_ok _ name HS) as (le' & re' & E & -> & H3 & H4).
  destruct (Nat.lt_trichotomy (length le') (length le)) as [Hl|[Hl|Hl]]; [exfalso|exact Hl|exfalso].
  - assert (Hx : exists x, In x le /\ In x re').
    { destruct (nth_error (le ++ re) (length le')) as [x|] eqn:En.
      2:{ apply nth_error_None in En. rewrite app_length in En. lia. }
      exists x. split.
      - rewrite nth_error_app1 in En by exact Hl. eapply nth_error_In; exact En.
      - rewrite E, nth_error_app2, Nat.sub_diag in En by lia. eapply nth_error_In; exact En. }
    destruct Hx as (x & Ha & Hb). apply (H4 x Hb), H1, Ha.
  - assert (Hx : exists x, In x re /\ In x le').
    { destruct (nth_error (le ++ re) (length le)) as [x|] eqn:En.
      2:{ apply nth_error_None in En. rewrite E, app_length in En. lia. }
      exists x. split.
      - rewrite nth_error_app2, Nat.sub_diag in En by lia. eapply nth_error_In; exact En.
      - rewrite E, nth_error_app1 in En by lia. eapply nth_error_In; exact En. }
    destruct Hx as (x & Ha & Hb). apply (H2 x Ha), H3, Hb.
Qed.

(** ** Sortedness of parts of a tree *)
Lemma wl_ents le ls : length ls = length le -> forall e, In e le -> In e (wl le ls).
Proof.
  revert ls; induction le as [|x le IH]; intros [|l ls] H e Hi; try discriminate; [destruct Hi|].
  cbn [wl]. apply in_or_app. right. destruct Hi as [->|Hi]; [left; reflexivity|right].
  apply IH; [cbn in H; lia|exact Hi].
Qed.

Lemma wr_ents re ls : length ls = length re -> forall e, In e re -> In e (wr re ls).
Proof.
  revert ls; induction re as [|x re IH]; intros [|l ls] H e Hi; try discriminate; [destruct Hi|].
  cbn [wr]. destruct Hi as [->|Hi]; [left; reflexivity|right].
  apply in_or_app. right. apply IH; [cbn in H; lia|exact Hi].
Qed.

Lemma SS_wr es ls : length ls = length es -> SS (wr es ls) -> SS es.
Proof.
  revert ls; induction es as [|x es IH]; intros [|l ls] H HS; try discriminate; [constructor|].
  cbn [wr] in HS. apply SS_cons in HS. destruct HS as [H1 H2]. apply SS_app in H1.
  destruct H1 as (_ & H1 & _). apply SS_cons. split; [apply (IH ls); [cbn in H; lia|exact H1]|].
  intros y Hy. apply H2. apply in_or_app. right. apply wr_ents; [cbn in H; lia|exact Hy].
Qed.

Lemma SS_inorder p es ts :
  (ts = [] \/ length ts = S (length es)) -> SS (inorder (T p es ts)) -> SS es.
Proof.
  intros H HS. destruct ts as [|t0 ts]; [exact HS|]. destruct H as [H|H]; [discriminate|].
  cbn [inorder] in HS. apply SS_app in HS. destruct HS as (_ & HS & _).
  apply (SS_wr es (map inorder ts)); [rewrite map_length; cbn in H; lia|exact HS].
Qed.

Lemma in_inorder_ents p es ts e :
  (ts = [] \/ length ts = S (length es)) -> In e es -> In e (inorder (T p es ts)).
Proof.
  intros H Hi. destruct ts as [|t0 ts]; [exact Hi|]. destruct H as [H|H]; [discriminate|].
  cbn [inorder]. apply in_or_app. right. apply wr_ents; [rewrite map_length; cbn in H; lia|exact Hi].
Qed.

Lemma bal_shape h p es ts : bal h (T p es ts) -> ts = [] \/ length ts = S (length es).
Proof. destruct h; [left; exact H|]. intros H. apply bal_S in H. right. apply H. Qed.

Lemma is_leaf_inner nd : length (n_children nd) = S (length (n_entries nd)) -> is_leaf nd = Ok false.
Proof.
  intros H. unfold is_leaf. destruct (n_children nd) as [|c cs] eqn:E; [discriminate|].
  rewrite <- E in *. rewrite H, Nat.add_1_r, Nat.eqb_refl. reflexivity.
Qed.

Lemma is_leaf_leaf nd : n_children nd = [] -> is_leaf nd = Ok true.
Proof. intros H. unfold is_leaf. rewrite H. reflexivity. Qed.

(** ** The descent *)
Definition allc (st : bt) (c : list frame) : Prop := Forall (fun f => cached st (f_pg f)) c.

Lemma allc_grows st st' c : grows st st' -> allc st c -> allc st' c.
Proof. intros [G _] H. eapply Forall_impl; [|exact H]. intros f. apply G. Qed.

(** The state holds the tree [plug c t], with the path to [t] in the cache. *)
Definition At (st : bt) (F : list N) (c : list frame) (t : tree) : Prop :=
  Inv st (nodes (top c) t ++ ctx_nodes (tpage t) c) F /\ cached st (tpage t) /\ allc st c.

Lemma at_perm_down st F c p le re lc t rc :
  Inv st (nodes (top c) (T p (le ++ re) (lc ++ t :: rc)) ++ ctx_nodes p c) F <->
  Inv st (nodes p t ++ ctx_nodes (tpage t) (mkF p le lc re rc :: c)) F.
Proof.
  split; apply inv_perm; cbn [nodes ctx_nodes f_pg f_le f_lc f_re f_rc];
    rewrite map_app, flat_map_app; cbn [map flat_map]; perm.
Qed.

Lemma retrieve_child st F c p le re lc t rc :
  At st F c (T p (le ++ re) (lc ++ t :: rc)) ->
  exists st', retrieve_node p (tpage t) st = (st', Ok (tpage t)) /\
    At st' F (mkF p le lc re rc :: c) t /\ grows st st'.
Proof.
  intros (HI & Hp & Hc). cbn [tpage] in *. rewrite at_perm_down in HI.
  destruct t as [q es ts]. cbn [tpage nodes] in *.
  destruct (retrieve_ok st _ F (mkL q p (map tpage ts) es) HI) as (st' & E & HI' & Hq & G1 & G2);
    [left; reflexivity|]. cbn [l_par l_pg] in *.
  assert (G : grows st st') by (split; assumption).
  exists st'. split; [exact E|]. split; [|exact G].
  split; [exact HI'|]. split; [exact Hq|]. constructor; [cbn; apply G1; exact Hp|].
  eapply allc_grows; eassumption.
Qed.

Lemma at_get_node st F c p es ts :
  At st F c (T p es ts) ->
  exists nd, get_node p st = (st, Ok nd) /\ n_parent nd = top c /\
    n_children nd = map tpage ts /\ n_entries nd = es.
Proof.
  intros (HI & Hp & _). destruct (get_node_ok st _ F (mkL p (top c) (map tpage ts) es) HI) as (nd & E & _ & H).
  - left. reflexivity.
  - exact Hp.
  - exists nd. split; [exact E|]. exact H.
Qed.

Definition found_at (c : list frame) (es : list entry) (i : nat) (name : bytes) : Prop :=
  exists le x re, es = le ++ x :: re /\ i = length le /\ cmp name (e_name x) = Eq.
Definition missing_at (c : list frame) (es : list entry) (ts : list tree) (i : nat) (name : bytes) : Prop :=
  ts = [] /\ exists le re, es = le ++ re /\ i = length le /\
    (forall e, In e (lctx c ++ le) -> ltn (e_name e) name) /\
    (forall e, In e (re ++ rctx c) -> ltn name (e_name e)).

Lemma find_loop_ok name F : forall h c p es ts fuel st,
  At st F c (T p es ts) -> bal h (T p es ts) -> balc h c -> size_ok h c es ->
  SS (lctx c ++ inorder (T p es ts) ++ rctx c) ->
  (forall e, In e (lctx c) -> ltn (e_name e) name) ->
  (forall e, In e (rctx c) -> ltn name (e_name e)) ->
  h < fuel ->
  exists st' h' c' p' es' ts' i b,
    find_loop cmp fuel p name st = (st', Ok (p', i, b)) /\
    plug c' (T p' es' ts') = plug c (T p es ts) /\
    At st' F c' (T p' es' ts') /\ bal h' (T p' es' ts') /\ balc h' c' /\ size_ok h' c' es' /\
    length c' + h' = length c + h /\
    grows st st' /\
    if b : bool then found_at c' es' i name else missing_at c' es' ts' i name.
Proof.
  induction h as [|h IH]; intros c p es ts fuel st HA HB HC HZ HS HL HR Hfuel.
  - (* leaf *)
    destruct fuel as [|fuel]; [lia|]. cbn [find_loop]. unfold bind at 1.
    destruct (at_get_node _ _ _ _ _ _ HA) as (nd & -> & Hpar & Hch & Hes).
    cbn in HB. subst ts. rewrite Hes.
    assert (HSe : SS es) by (apply SS_app in HS; destruct HS as (_ & HS & _); apply SS_app in HS; apply HS).
    destruct (lower_bound_ok es name HSe) as (le & re & -> & -> & H1 & H2).
    rewrite nth_error_app2, Nat.sub_diag by lia.
    assert (Hend : forall b i,
      (if b : bool then found_at c (le ++ re) i name else missing_at c (le ++ re) [] i name) ->
      exists st' h' c' p' es' ts' i' b', (st, Ok (p, i, b)) = (st', Ok (p', i', b')) /\
        plug c' (T p' es' ts') = plug c (T p (le ++ re) []) /\
        At st' F c' (T p' es' ts') /\ bal h' (T p' es' ts') /\ balc h' c' /\ size_ok h' c' es' /\
        length c' + h' = length c + 0 /\ grows st st' /\
        if b' : bool then found_at c' es' i' name else missing_at c' es' ts' i' name).
    { intros b i Hb. exists st, 0, c, p, (le ++ re), [], i, b.
      split; [reflexivity|]. split; [reflexivity|]. split; [exact HA|]. split; [reflexivity|].
      split; [exact HC|]. split; [exact HZ|]. split; [reflexivity|]. split; [apply grows_refl|exact Hb]. }
    destruct re as [|x re]; cbn [nth_error].
    + rewrite is_leaf_leaf by exact Hch. unfold bind, lift, ret. apply (Hend false).
      split; [reflexivity|]. exists le, []. split; [reflexivity|]. split; [reflexivity|]. split.
      * intros e He. apply in_app_or in He. destruct He; [apply HL|apply H1]; assumption.
      * intros e He. apply HR. exact He.
    + unfold eq_name. destruct (cmp name (e_name x)) eqn:Ex.
      * unfold ret. apply (Hend true). exists le, x, re. auto.
      * rewrite is_leaf_leaf by exact Hch. unfold bind, lift, ret. apply (Hend false).
        split; [reflexivity|]. exists le, (x :: re). split; [reflexivity|]. split; [reflexivity|]. split.
        -- intros e He. apply in_app_or in He. destruct He; [apply HL|apply H1]; assumption.
        -- intros e He. apply in_app_or in He. destruct He as [He|He]; [|apply HR; exact He].
           destruct He as [<-|He]; [exact Ex|]. eapply ltn_trans; [exact Ex|].
           apply SS_app in HSe. destruct HSe as (_ & HSe & _). apply SS_cons in HSe. apply HSe. exact He.
      * exfalso. apply (H2 x); [left; reflexivity|]. apply cmp_gt_lt. exact Ex.
  - (* inner node *)
    destruct fuel as [|fuel]; [lia|]. cbn [find_loop]. unfold bind at 1.
    destruct (at_get_node _ _ _ _ _ _ HA) as (nd & -> & Hpar & Hch & Hes).
    pose proof HB as HB0. destruct (proj1 (bal_S _ _) HB) as [Hlen Hkids]. clear HB. cbn [tkids tents] in Hlen, Hkids.
    assert (HSi : SS (inorder (T p es ts))).
    { apply SS_app in HS. destruct HS as (_ & HS & _). apply SS_app in HS. apply HS. }
    assert (HSe : SS es) by (apply (SS_inorder p es ts); [right; exact Hlen|exact HSi]).
    rewrite Hes. destruct (lower_bound_ok es name HSe) as (le & re & -> & -> & H1 & H2).
    rewrite nth_error_app2, Nat.sub_diag by lia.
    assert (Hdown : exists lc t rc, ts = lc ++ t :: rc /\ length lc = length le).
    { destruct (nth_error ts (length le)) as [t|] eqn:En.
      - apply nth_error_ext' in En. destruct En as (a & b & -> & Ha). exists a, t, b. auto.
      - apply nth_error_None in En. rewrite app_length in Hlen. lia. }
    destruct Hdown as (lc & t & rc & -> & Hlc).
    assert (Hrc : length rc = length re) by (rewrite !app_length in Hlen; cbn [length] in Hlen; lia).
    assert (Hgo : (match re with [] => True | x :: _ => cmp name (e_name x) = Lt end) ->
      exists st' h' c' p' es' ts' i b,
        (leaf <- lift (is_leaf nd);;
         if leaf : bool then ret (p, length le, false)
         else x <- lift (at_ (n_children nd) (length le));; k <- retrieve_node p x;; find_loop cmp fuel k name) st
          = (st', Ok (p', i, b)) /\
        plug c' (T p' es' ts') = plug c (T p (le ++ re) (lc ++ t :: rc)) /\
        At st' F c' (T p' es' ts') /\ bal h' (T p' es' ts') /\ balc h' c' /\ size_ok h' c' es' /\
        length c' + h' = length c + S h /\ grows st st' /\
        if b : bool then found_at c' es' i name else missing_at c' es' ts' i name).
    { intros Hre.
      rewrite is_leaf_inner by (rewrite Hch, Hes, map_length; exact Hlen).
      unfold bind at 1, lift at 1. unfold bind at 1, lift, at_.
      rewrite Hch, map_app, nth_error_app2 by (rewrite map_length; lia).
      rewrite map_length, Hlc, Nat.sub_diag. cbn [map nth_error].
      destruct (retrieve_child st F c p le re lc t rc HA) as (st1 & E1 & HA1 & G1).
      unfold bind. rewrite E1.
      apply Forall_app in Hkids. destruct Hkids as [K1 K2]. inversion K2 as [|? ? K3 K4]; subst.
      assert (Hname : forall e, In e re -> ltn name (e_name e)).
      { intros e He. destruct re as [|x re]; [destruct He|].
        destruct He as [<-|He]; [exact Hre|]. eapply ltn_trans; [exact Hre|].
        apply SS_app in HSe. destruct HSe as (_ & HSe & _). apply SS_cons in HSe. apply HSe. exact He. }
      rewrite inorder_split in HS, HSi by exact Hlc.
      destruct t as [q qes qts].
      destruct (IH (mkF p le lc re rc :: c) q qes qts fuel st1 HA1) as
        (st' & h' & c' & p' & es' & ts' & i & b & R1 & R2 & R3 & R4 & R5 & R6 & R7 & R8 & R9); try lia.
      - apply K3.
      - split; [|exact HC]. split; [split; assumption|]. cbn [f_lc f_rc f_le f_re].
        destruct HZ as (Z1 & Z2 & Z3).
        split; [exact K1|]. split; [exact K4|]. split; [exact Z1|]. split; [|exact Z2].
        destruct c as [|f c0]; [apply Z3; [reflexivity|lia]|].
        specialize (Z2 ltac:(discriminate)). lia.
      - destruct K3 as [Hs _]. cbn [tents] in Hs. split; [lia|]. split; [lia|discriminate].
      - cbn [lctx rctx f_le f_lc f_re f_rc]. rewrite <- !app_assoc in *. exact HS.
      - cbn [lctx f_le f_lc]. intros e He. apply in_app_or in He. destruct He as [He|He]; [apply HL; exact He|].
        (* everything left of the child is below a separator that is below the name *)
        assert (Hw : exists s, In s le /\ (e = s \/ lte e s)).
        { apply SS_app in HSi. destruct HSi as (HSw & _ & _). clear -He HSw Hlc Hcmp.
          revert lc Hlc He HSw. induction le as [|s le IHle]; intros [|t0 lc] Hlc He HSw; try discriminate; [destruct He|].
          cbn [inos map wl] in He, HSw. apply in_app_or in He. destruct He as [He|[He|He]].
          - exists s. split; [left; reflexivity|right]. apply SS_app in HSw. apply HSw; [exact He|left; reflexivity].
          - exists s. split; [left; reflexivity|left; auto].
          - apply SS_app in HSw. destruct HSw as (_ & HSw & _). apply SS_cons in HSw.
            destruct (IHle lc ltac:(cbn in Hlc; lia) He (proj1 HSw)) as (s' & Hs' & Hor).
            exists s'. split; [right; exact Hs'|exact Hor]. }
        destruct Hw as (s & Hs & [->|Hlt]); [apply H1; exact Hs|].
        eapply ltn_trans; [exact Hlt|]. apply H1. exact Hs.
      - cbn [rctx f_re f_rc]. intros e He. apply in_app_or in He. destruct He as [He|He]; [|apply HR; exact He].
        assert (Hw : exists s, In s re /\ (e = s \/ lte s e)).
        { apply SS_app in HSi. destruct HSi as (_ & HSi & _). apply SS_app in HSi.
          destruct HSi as (_ & HSw & _). clear -He HSw Hrc Hcmp.
          revert rc Hrc He HSw. induction re as [|s re IHre]; intros [|t0 rc] Hrc He HSw; try discriminate; [destruct He|].
          cbn [inos map wr] in He, HSw. apply SS_cons in HSw. destruct HSw as [HSw Hs].
          destruct He as [He|He]; [exists s; split; [left; reflexivity|left; auto]|].
          apply in_app_or in He. destruct He as [He|He].
          - exists s. split; [left; reflexivity|right]. apply Hs. apply in_or_app. left. exact He.
          - apply SS_app in HSw. destruct HSw as (_ & HSw & _).
            destruct (IHre rc ltac:(cbn in Hrc; lia) He HSw) as (s' & Hs' & Hor).
            exists s'. split; [right; exact Hs'|exact Hor]. }
        destruct Hw as (s & Hs & [->|Hlt]); [apply Hname; exact Hs|].
        eapply ltn_trans; [apply Hname; exact Hs|exact Hlt].
      - exists st', h', c', p', es', ts', i, b. split; [exact R1|]. split; [exact R2|].
        split; [exact R3|]. split; [exact R4|]. split; [exact R5|]. split; [exact R6|].
        split; [cbn [length] in R7; lia|]. split; [|exact R9]. eapply grows_trans; eassumption. }
    destruct re as [|x re]; cbn [nth_error].
    + apply Hgo. exact I.
    + unfold eq_name. destruct (cmp name (e_name x)) eqn:Ex.
      * unfold ret. exists st, (S h), c, p, (le ++ x :: re), (lc ++ t :: rc), (length le), true.
        split; [reflexivity|]. split; [reflexivity|]. split; [exact HA|]. split; [exact HB0|].
        split; [exact HC|]. split; [exact HZ|]. split; [reflexivity|]. split; [apply grows_refl|].
        exists le, x, re. auto.
      * apply Hgo. reflexivity.
      * exfalso. apply (H2 x); [left; reflexivity|]. apply cmp_gt_lt. exact Ex.
Qed.
End S.
