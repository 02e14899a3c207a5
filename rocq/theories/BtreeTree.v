(** The search tree a B-tree directory represents, independent of pages:
    zippers, in-order contents, balance. *)
From Verif Require Import Base BaseLemmas BtreeModel BtreeSpec BtreeInv.
From Coq Require Import Permutation Sorting.Sorted.
Local Open Scope list_scope.

(** ** A small solver for permutations of appended lists *)
Class Bring {A} (a R R' : list A) : Prop := bring : Permutation R (a ++ R').
#[global] Instance bring_here {A} (a R : list A) : Bring a (a ++ R) R | 0.
Proof. red. reflexivity. Qed.
#[global] Instance bring_whole {A} (a : list A) : Bring a a [] | 1.
Proof. red. rewrite app_nil_r. reflexivity. Qed.
#[global] Instance bring_cons_here {A} (x : A) R : Bring [x] (x :: R) R | 0.
Proof. red. reflexivity. Qed.
#[global] Instance bring_next {A} (a b R R' : list A) : Bring a R R' -> Bring a (b ++ R) (b ++ R') | 3.
Proof.
  unfold Bring. intros H. rewrite H, !app_assoc. apply Permutation_app_tail, Permutation_app_comm.
Qed.
#[global] Instance bring_cons_next {A} (a : list A) y R R' : Bring a R R' -> Bring a (y :: R) (y :: R') | 3.
Proof. unfold Bring. intros H. rewrite H. apply Permutation_middle. Qed.

Lemma perm_bring_app {A} (a l R R' : list A) {B : Bring a R R'} :
  Permutation l R' -> Permutation (a ++ l) R.
Proof. intros H. red in B. rewrite B. apply Permutation_app_head. exact H. Qed.
Lemma perm_bring_cons {A} (x : A) (l R R' : list A) {B : Bring [x] R R'} :
  Permutation l R' -> Permutation (x :: l) R.
Proof. intros H. red in B. rewrite B. cbn [app]. constructor. exact H. Qed.
Lemma perm_bring_atom {A} (a R R' : list A) {B : Bring a R R'} :
  Permutation [] R' -> Permutation a R.
Proof. intros H. red in B. rewrite B. apply Permutation_nil in H. subst. rewrite app_nil_r. reflexivity. Qed.

Ltac perm_step :=
  match goal with
  | |- Permutation [] [] => apply perm_nil
  | |- Permutation ?a ?a => apply Permutation_refl
  | |- Permutation [] _ => fail 1
  | |- Permutation (?x :: ?l) ?R => eapply (perm_bring_cons x l R); [typeclasses eauto|]
  | |- Permutation (?a ++ ?l) ?R => eapply (perm_bring_app a l R); [typeclasses eauto|]
  | |- Permutation ?a ?R => eapply (perm_bring_atom a R); [typeclasses eauto|]
  end.
Ltac perm := repeat first [rewrite <- app_assoc | rewrite app_nil_r | progress cbn [app]]; repeat perm_step.

Example perm_test (a b c : list nat) x y :
  Permutation ((a ++ x :: b) ++ y :: c) (c ++ y :: b ++ [x] ++ a).
Proof. perm. Qed.

(** ** Trees *)
Inductive tree := T (p : N) (es : list entry) (ts : list tree).
Definition tpage (t : tree) : N := match t with T p _ _ => p end.
Definition tents (t : tree) : list entry := match t with T _ es _ => es end.
Definition tkids (t : tree) : list tree := match t with T _ _ ts => ts end.

Fixpoint nodes (par : N) (t : tree) : list lnode :=
  match t with
  | T p es ts => mkL p par (map tpage ts) es :: flat_map (nodes p) ts
  end.

(** children and separators, separator after / before each child *)
Fixpoint wl (es : list entry) (ls : list (list entry)) : list entry :=
  match es, ls with e :: es', l :: ls' => l ++ e :: wl es' ls' | _, _ => [] end.
Fixpoint wr (es : list entry) (ls : list (list entry)) : list entry :=
  match es, ls with e :: es', l :: ls' => e :: l ++ wr es' ls' | _, _ => [] end.

Fixpoint inorder (t : tree) : list entry :=
  match t with
  | T _ es [] => es
  | T _ es (t0 :: ts) => inorder t0 ++ wr es (map inorder ts)
  end.

Definition inos (ts : list tree) := map inorder ts.

Lemma wl_app le lc le' lc' :
  length lc = length le -> wl (le ++ le') (lc ++ lc') = wl le lc ++ wl le' lc'.
Proof.
  revert lc; induction le as [|e le IH]; intros [|l lc] H; try discriminate; [reflexivity|].
  cbn [app wl]. rewrite IH by (cbn in H; lia). rewrite <- app_assoc. reflexivity.
Qed.

Lemma wr_app le lc le' lc' :
  length lc = length le -> wr (le ++ le') (lc ++ lc') = wr le lc ++ wr le' lc'.
Proof.
  revert lc; induction le as [|e le IH]; intros [|l lc] H; try discriminate; [reflexivity|].
  cbn [app wr]. rewrite IH by (cbn in H; lia). rewrite <- app_assoc. reflexivity.
Qed.

Lemma wr_split (le : list entry) (lc : list (list entry)) x re rc :
  length lc = length le ->
  match lc ++ x :: rc with [] => [] | y :: ys => y ++ wr (le ++ re) ys end
  = wl le lc ++ x ++ wr re rc.
Proof.
  revert le; induction lc as [|y lc IH]; intros [|e le] H; try discriminate; [reflexivity|].
  specialize (IH le ltac:(cbn in H; lia)). cbn [app wl]. cbn [wr].
  destruct (lc ++ x :: rc) as [|z zs] eqn:E; [destruct lc; discriminate|].
  cbn [wr]. rewrite IH. rewrite <- app_assoc. reflexivity.
Qed.

Lemma inorder_split p le re lc t rc :
  length lc = length le ->
  inorder (T p (le ++ re) (lc ++ t :: rc)) = wl le (inos lc) ++ inorder t ++ wr re (inos rc).
Proof.
  intros H. rewrite <- wr_split by (unfold inos; rewrite map_length; exact H).
  unfold inos. change (inorder t :: map inorder rc) with (map inorder (t :: rc)). rewrite <- map_app.
  destruct (lc ++ t :: rc) as [|z zs] eqn:E; [destruct lc; discriminate|]. reflexivity.
Qed.

Lemma inorder_leaf p es : inorder (T p es []) = es. Proof. reflexivity. Qed.

(** ** Zippers; the innermost frame comes first *)
Record frame := mkF { f_pg : N; f_le : list entry; f_lc : list tree;
                      f_re : list entry; f_rc : list tree }.
Definition plug1 (f : frame) (t : tree) : tree :=
  T (f_pg f) (f_le f ++ f_re f) (f_lc f ++ t :: f_rc f).
Fixpoint plug (c : list frame) (t : tree) : tree :=
  match c with [] => t | f :: c' => plug c' (plug1 f t) end.
Definition top (c : list frame) : N := match c with [] => INVALID_PAGE | f :: _ => f_pg f end.
Fixpoint lctx (c : list frame) : list entry :=
  match c with [] => [] | f :: c' => lctx c' ++ wl (f_le f) (inos (f_lc f)) end.
Fixpoint rctx (c : list frame) : list entry :=
  match c with [] => [] | f :: c' => wr (f_re f) (inos (f_rc f)) ++ rctx c' end.
Fixpoint ctx_nodes (hole : N) (c : list frame) : list lnode :=
  match c with
  | [] => []
  | f :: c' =>
    mkL (f_pg f) (top c') (map tpage (f_lc f) ++ hole :: map tpage (f_rc f)) (f_le f ++ f_re f)
    :: flat_map (nodes (f_pg f)) (f_lc f) ++ flat_map (nodes (f_pg f)) (f_rc f)
    ++ ctx_nodes (f_pg f) c'
  end.

Definition frame_len (f : frame) : Prop :=
  length (f_lc f) = length (f_le f) /\ length (f_rc f) = length (f_re f).

Lemma inorder_plug c t :
  Forall frame_len c -> inorder (plug c t) = lctx c ++ inorder t ++ rctx c.
Proof.
  intros H. revert t. induction H as [|f c Hf _ IH]; intros t; cbn [plug lctx rctx].
  - rewrite app_nil_r. reflexivity.
  - rewrite IH. unfold plug1. rewrite inorder_split by apply Hf. rewrite <- !app_assoc. reflexivity.
Qed.

Lemma nodes_plug c t :
  Permutation (nodes INVALID_PAGE (plug c t)) (nodes (top c) t ++ ctx_nodes (tpage t) c).
Proof.
  revert t. induction c as [|f c IH]; intros t; cbn [plug ctx_nodes top].
  - rewrite app_nil_r. reflexivity.
  - rewrite IH. unfold plug1. cbn [nodes tpage]. rewrite map_app, flat_map_app. cbn [map flat_map].
    perm.
Qed.

(** ** Balance *)
Fixpoint bal (h : nat) (t : tree) : Prop :=
  match h with
  | O => tkids t = []
  | S h' => length (tkids t) = S (length (tents t)) /\
            Forall (fun c => (6 <= length (tents c) <= 13) /\ bal h' c) (tkids t)
  end.
Definition good (h : nat) (t : tree) : Prop := (6 <= length (tents t) <= 13) /\ bal h t.
Definition root_ok (h : nat) (t : tree) : Prop :=
  bal h t /\ length (tents t) <= 13 /\ (0 < h -> 1 <= length (tents t)).

Definition frame_ok (h : nat) (f : frame) (outer : list frame) : Prop :=
  frame_len f /\ Forall (good h) (f_lc f) /\ Forall (good h) (f_rc f) /\
  length (f_le f ++ f_re f) <= 13 /\ 1 <= length (f_le f ++ f_re f) /\
  (outer <> [] -> 6 <= length (f_le f ++ f_re f)).
Fixpoint balc (h : nat) (c : list frame) : Prop :=
  match c with [] => True | f :: c' => frame_ok h f c' /\ balc (S h) c' end.

Lemma bal_S h t :
  bal (S h) t <-> length (tkids t) = S (length (tents t)) /\ Forall (good h) (tkids t).
Proof. reflexivity. Qed.

Lemma balc_len h c : balc h c -> Forall frame_len c.
Proof.
  revert h; induction c as [|f c IH]; intros h H; [constructor|].
  destruct H as [H1 H2]. constructor; [apply H1|eapply IH; exact H2].
Qed.

Lemma plug1_bal h f t outer : frame_ok h f outer -> good h t -> bal (S h) (plug1 f t).
Proof.
  intros (H1 & H2 & H3 & _) Ht. apply bal_S. unfold plug1. cbn [tkids tents]. destruct H1 as [E1 E2].
  split; [rewrite !app_length; cbn [length]; lia|].
  apply Forall_app. split; [exact H2|]. constructor; assumption.
Qed.

(** What a node may look like inside a context. *)
Definition size_ok (h : nat) (c : list frame) (es : list entry) : Prop :=
  length es <= 13 /\ (c <> [] -> 6 <= length es) /\ (c = [] -> 0 < h -> 1 <= length es).

Lemma plug_root_ok h c t :
  balc h c -> bal h t -> size_ok h c (tents t) -> root_ok (length c + h) (plug c t).
Proof.
  revert h t; induction c as [|f c IH]; intros h t Hc Ht (S1 & S2 & S3).
  - cbn. split; [exact Ht|]. split; [exact S1|]. apply S3. reflexivity.
  - destruct Hc as [Hf Hc]. cbn [plug length].
    replace (S (length c) + h) with (length c + S h) by lia. apply IH.
    + exact Hc.
    + eapply plug1_bal; [exact Hf|]. split; [|exact Ht]. split; [apply S2; discriminate|exact S1].
    + destruct Hf as (_ & _ & _ & G1 & G2 & G3). unfold plug1. cbn [tents].
      split; [exact G1|]. split; [exact G3|]. intros _ _. exact G2.
Qed.

(** ** Counting *)
Lemma wr_length es ls : length ls = length es ->
  length (wr es ls) = length es + list_sum (map (@length entry) ls).
Proof.
  revert ls; induction es as [|e es IH]; intros [|l ls] H; try discriminate; [reflexivity|].
  cbn [wr length map]. rewrite app_length, IH by (cbn in H; lia).
  change (list_sum (length l :: map (@length entry) ls)) with (length l + list_sum (map (@length entry) ls)).
  lia.
Qed.

Lemma wl_length es ls : length ls = length es ->
  length (wl es ls) = length es + list_sum (map (@length entry) ls).
Proof.
  revert ls; induction es as [|e es IH]; intros [|l ls] H; try discriminate; [reflexivity|].
  cbn [wl length map]. rewrite app_length. cbn [length]. rewrite IH by (cbn in H; lia).
  change (list_sum (length l :: map (@length entry) ls)) with (length l + list_sum (map (@length entry) ls)).
  lia.
Qed.

Lemma inorder_length p es ts :
  length ts = S (length es) ->
  length (inorder (T p es ts)) = length es + list_sum (map (fun t => length (inorder t)) ts).
Proof.
  destruct ts as [|t0 ts]; intros H; [discriminate|]. cbn [inorder].
  rewrite app_length, wr_length by (rewrite map_length; cbn in H; lia). rewrite map_map.
  cbn [map]. change (list_sum (length (inorder t0) :: ?x)) with (length (inorder t0) + list_sum x).
  cbn [list_sum fold_right]. unfold list_sum. cbn [fold_right]. lia.
Qed.

Lemma nodes_count_forest h par ts :
  (forall t, good h t -> 6 * length (nodes par t) <= length (inorder t)) ->
  Forall (good h) ts ->
  6 * length (flat_map (nodes par) ts) <= list_sum (map (fun t => length (inorder t)) ts).
Proof.
  intros Ht H. induction H as [|t ts H1 H2 IH]; [cbn; lia|].
  cbn [flat_map map]. rewrite app_length. specialize (Ht t H1).
  change (list_sum (length (inorder t) :: ?x)) with (length (inorder t) + list_sum x).
  unfold list_sum in *. cbn [fold_right]. lia.
Qed.

Lemma nodes_count h par t :
  good h t -> 6 * length (nodes par t) <= length (inorder t).
Proof.
  revert par t; induction h as [|h IH]; intros par [p es ts] [Hs Hb].
  - cbn in Hb, Hs. subst ts. cbn. lia.
  - apply bal_S in Hb. destruct Hb as [Hl Hf]. cbn [tents tkids] in *.
    cbn [nodes length]. rewrite inorder_length by exact Hl.
    pose proof (nodes_count_forest h p ts (fun t => IH p t) Hf). lia.
Qed.

Lemma nodes_count_root h par t :
  bal h t -> 6 * length (nodes par t) <= length (inorder t) + 6.
Proof.
  destruct t as [p es ts]. destruct h as [|h]; intros Hb.
  - cbn in Hb. subst ts. cbn. lia.
  - apply bal_S in Hb. destruct Hb as [Hl Hf]. cbn [tents tkids] in *.
    cbn [nodes length]. rewrite inorder_length by exact Hl.
    pose proof (nodes_count_forest h p ts (fun t => nodes_count h p t) Hf). lia.
Qed.

Lemma ctx_count h c hole :
  balc h c -> 6 * length (ctx_nodes hole c) <= length (lctx c) + length (rctx c) + 6.
Proof.
  revert h hole; induction c as [|f c IH]; intros h hole H; [cbn; lia|].
  destruct H as [Hf Hc]. pose proof Hf as Hf0.
  destruct Hf as ((E1 & E2) & G1 & G2 & G3 & G4 & G5).
  cbn [ctx_nodes lctx rctx length]. rewrite !app_length.
  rewrite wl_length, wr_length by (unfold inos; rewrite map_length; assumption).
  unfold inos. rewrite !map_map.
  pose proof (nodes_count_forest h (f_pg f) (f_lc f) (fun t => nodes_count h _ t) G1).
  pose proof (nodes_count_forest h (f_pg f) (f_rc f) (fun t => nodes_count h _ t) G2).
  destruct c as [|f' c].
  - cbn [ctx_nodes lctx rctx length]. lia.
  - specialize (IH (S h) (f_pg f) Hc). specialize (G5 ltac:(discriminate)).
    rewrite app_length in G5. lia.
Qed.

(** A tree of height [h] holds at least 2 * 7^h - 1 entries. *)
Lemma list_sum_ge {A} (f : A -> nat) m ts :
  Forall (fun t => m <= f t) ts -> length ts * m <= list_sum (map f ts).
Proof.
  intros H. induction H as [|t ts H1 _ IH]; [cbn; lia|].
  cbn [length map]. change (list_sum (f t :: ?x)) with (f t + list_sum x).
  unfold list_sum in *. cbn [fold_right]. lia.
Qed.

Lemma good_min h t : good h t -> 7 ^ S h <= length (inorder t) + 1.
Proof.
  revert t; induction h as [|h IH]; intros [p es ts] [Hs Hb].
  - cbn in Hb, Hs. subst ts. cbn [inorder]. cbn. lia.
  - apply bal_S in Hb. destruct Hb as [Hl Hf]. cbn [tents tkids] in *.
    rewrite inorder_length by exact Hl.
    assert (HF : Forall (fun t => 7 ^ S h - 1 <= length (inorder t)) ts).
    { eapply Forall_impl; [|exact Hf]. intros t Ht. specialize (IH t Ht). lia. }
    apply list_sum_ge in HF. rewrite Hl in HF.
    pose proof (Nat.pow_nonzero 7 (S h) ltac:(discriminate)) as Hnz.
    rewrite (Nat.pow_succ_r' 7 (S h)). set (m := 7 ^ S h) in *.
    assert (7 * (m - 1) <= S (length es) * (m - 1)) by (apply Nat.mul_le_mono_r; lia).
    lia.
Qed.

Lemma root_min h t : root_ok h t -> h <> 0 -> 2 * 7 ^ h <= length (inorder t) + 1.
Proof.
  destruct t as [p es ts]. intros (Hb & Hs & Hr) Hh. destruct h as [|h]; [contradiction|].
  apply bal_S in Hb. destruct Hb as [Hl Hf]. cbn [tents tkids] in *. specialize (Hr ltac:(lia)).
  rewrite inorder_length by exact Hl.
  assert (HF : Forall (fun t => 7 ^ S h - 1 <= length (inorder t)) ts).
  { eapply Forall_impl; [|exact Hf]. intros t Ht. pose proof (good_min h t Ht). lia. }
  apply list_sum_ge in HF. rewrite Hl in HF.
  pose proof (Nat.pow_nonzero 7 (S h) ltac:(discriminate)) as Hnz. set (m := 7 ^ S h) in *.
  assert (2 * (m - 1) <= S (length es) * (m - 1)) by (apply Nat.mul_le_mono_r; lia).
  lia.
Qed.

(** All entries of a tree, in the order of [nodes]. *)
Lemma wr_perm es ls : length ls = length es -> Permutation (wr es ls) (es ++ concat ls).
Proof.
  revert ls; induction es as [|e es IH]; intros [|l ls] H; try discriminate; [reflexivity|].
  cbn [wr concat app]. rewrite (IH ls) by (cbn in H; lia). perm.
Qed.

Lemma inorder_perm p es ts :
  length ts = S (length es) -> Permutation (inorder (T p es ts)) (es ++ concat (map inorder ts)).
Proof.
  destruct ts as [|t0 ts]; intros H; [discriminate|]. cbn [inorder map concat].
  rewrite wr_perm by (rewrite map_length; cbn in H; lia). perm.
Qed.

Lemma nodes_entries h par t :
  bal h t -> Permutation (flat_map l_es (nodes par t)) (inorder t).
Proof.
  revert par t; induction h as [|h IH]; intros par [p es ts] Hb.
  - cbn in Hb. subst ts. cbn. rewrite app_nil_r. reflexivity.
  - apply bal_S in Hb. destruct Hb as [Hl Hf]. cbn [tents tkids] in *.
    cbn [nodes flat_map l_es]. rewrite inorder_perm by exact Hl.
    apply Permutation_app_head. clear Hl. induction Hf as [|t ts Ht _ IHf]; [reflexivity|].
    cbn [flat_map map concat]. rewrite flat_map_app. rewrite IHf, (IH p t) by apply Ht. reflexivity.
Qed.
