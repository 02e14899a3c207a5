(** Pages, free list and node cache of the B-tree directory: what every
    primitive preserves. *)
From Verif Require Import Base BaseLemmas CodecModel CodecProofs BtreeModel BtreeSpec BtreeCodec.
From Coq Require Import Permutation.
Local Open Scope list_scope.

Lemma BLOCK_SIZE_eq : BLOCK_SIZE = 4096. Proof. reflexivity. Qed.
Lemma BLOCK_SIZE_N : N.of_nat BLOCK_SIZE = 4096%N. Proof. vm_compute. reflexivity. Qed.
Lemma BLOCK_SIZE_big : 12 < BLOCK_SIZE. Proof. apply Nat.ltb_lt. vm_compute. reflexivity. Qed.
Lemma BLOCK_SIZE_fits a b : a <= 14 -> b <= 13 -> 8 + 4 * a + 292 * b <= BLOCK_SIZE.
Proof. intros. change BLOCK_SIZE with 4096. lia. Qed.

#[global] Opaque BLOCK_SIZE.

Lemma nodup_app_l {A} (a b : list A) : NoDup (a ++ b) -> NoDup a.
Proof.
  induction a as [|x a IH]; cbn [app]; intros H; [constructor|].
  inversion H; subst. constructor; [|auto]. intros Hi. apply H2. apply in_or_app. auto.
Qed.

Lemma nodup_app_r {A} (a b : list A) : NoDup (a ++ b) -> NoDup b.
Proof. induction a as [|x a IH]; cbn [app]; intros H; [exact H|]. inversion H; subst. auto. Qed.

Lemma nodup_app_disj {A} (a b : list A) x : NoDup (a ++ b) -> In x a -> In x b -> False.
Proof.
  induction a as [|y a IH]; cbn [app]; intros H Ha Hb; [destruct Ha|].
  inversion H; subst. destruct Ha as [->|Ha]; [|auto]. apply H2. apply in_or_app. auto.
Qed.

Definition PAGE_LIMIT : N := 1048575.

Definition page (st : bt) (p : N) : bytes :=
  arr_read (b_stream st) (N.to_nat p * BLOCK_SIZE) BLOCK_SIZE.

Definition stored (st : bt) (p : N) : res (list N * list entry) := from_buffer (page st p).

(** A logical node: page, parent page, children pages, entries. *)
Record lnode := mkL { l_pg : N; l_par : N; l_cs : list N; l_es : list entry }.

Definition node_ok (st : bt) (l : lnode) : Prop :=
  match lookup (l_pg l) (b_cache st) with
  | Some nd => n_children nd = l_cs l /\ n_entries nd = l_es l /\ n_parent nd = l_par l /\
               (n_dirty nd = false -> stored st (l_pg l) = Ok (l_cs l, l_es l))
  | None => stored st (l_pg l) = Ok (l_cs l, l_es l)
  end.

Definition free_page (st : bt) (f next prev : N) : Prop :=
  from_le (firstn 4 (page st f)) = 0%N /\
  from_le (firstn 4 (skipn 4 (page st f))) = next /\
  from_le (firstn 4 (skipn 8 (page st f))) = prev.

Definition hd_page (F : list N) : N := hd INVALID_PAGE F.

Fixpoint chain (st : bt) (prev : N) (F : list N) : Prop :=
  match F with
  | [] => True
  | f :: F' => free_page st f (hd_page F') prev /\ chain st f F'
  end.

Definition cached (st : bt) (p : N) : Prop := lookup p (b_cache st) <> None.

Definition pages (L : list lnode) : list N := map l_pg L.

Record Inv (st : bt) (L : list lnode) (F : list N) : Prop := {
  i_len : length (b_stream st) = (length L + length F) * BLOCK_SIZE;
  i_lim : (N.of_nat (length L + length F) <= PAGE_LIMIT)%N;
  i_nodup : NoDup (pages L ++ F);
  i_range : Forall (fun p => N.to_nat p < length L + length F) (pages L ++ F);
  i_nodes : Forall (node_ok st) L;
  i_cache : forall p, cached st p -> In p (pages L);
  i_keys : NoDup (map fst (b_cache st));
  i_chain : chain st INVALID_PAGE F;
  i_free : b_free st = hd_page F;
  i_nfree : b_nfree st = N.of_nat (length F) }.

Ltac inv_fields H :=
  destruct H as [Hlen Hlim Hnd Hrg Hnodes Hcache Hkeys Hchain Hfree Hnfree].

Lemma PAGE_LIMIT_lt p n :
  (N.of_nat n <= PAGE_LIMIT)%N -> N.to_nat p < n -> (p < PAGE_LIMIT)%N.
Proof. intros H1 H2. lia. Qed.

Lemma page_pos_small p : (p < PAGE_LIMIT)%N -> N.to_nat (page_pos p) = N.to_nat p * BLOCK_SIZE.
Proof.
  intros H. unfold page_pos, PAGE_LIMIT in *.
  rewrite N.mod_small by lia. rewrite N2Nat.inj_mul. rewrite <- BLOCK_SIZE_N, Nat2N.id. reflexivity.
Qed.

Lemma page_gap p q n : p < n -> q < n -> p <> q ->
  p * BLOCK_SIZE + BLOCK_SIZE <= q * BLOCK_SIZE \/ q * BLOCK_SIZE + BLOCK_SIZE <= p * BLOCK_SIZE.
Proof. intros. destruct (Nat.lt_trichotomy p q) as [|[|]]; [left|lia|right]; nia. Qed.

Lemma page_in p n : p < n -> p * BLOCK_SIZE + BLOCK_SIZE <= n * BLOCK_SIZE.
Proof. intros. nia. Qed.

Lemma page_length st p n :
  length (b_stream st) = n * BLOCK_SIZE -> N.to_nat p < n -> length (page st p) = BLOCK_SIZE.
Proof.
  intros HL Hp. unfold page. rewrite arr_read_length, HL.
  pose proof (page_in _ _ Hp). lia.
Qed.

Lemma read_page_ok st p n :
  length (b_stream st) = n * BLOCK_SIZE -> (N.of_nat n <= PAGE_LIMIT)%N -> N.to_nat p < n ->
  read_page p st = (st, Ok (page st p)).
Proof.
  intros HL Hn Hp. unfold read_page.
  rewrite page_pos_small by (eapply PAGE_LIMIT_lt; eassumption).
  change (arr_read (b_stream st) (N.to_nat p * BLOCK_SIZE) BLOCK_SIZE) with (page st p).
  rewrite (page_length st p n) by assumption. rewrite Nat.eqb_refl. reflexivity.
Qed.

Lemma write_page_ok st p n d :
  length (b_stream st) = n * BLOCK_SIZE -> (N.of_nat n <= PAGE_LIMIT)%N -> N.to_nat p < n ->
  length d = BLOCK_SIZE ->
  exists st', write_page p d st = (st', Ok tt) /\
    length (b_stream st') = n * BLOCK_SIZE /\
    (forall q, N.to_nat q < n -> page st' q = if (q =? p)%N then d else page st q) /\
    b_root st' = b_root st /\ b_free st' = b_free st /\ b_nfree st' = b_nfree st /\
    b_cache st' = b_cache st.
Proof.
  intros HL Hn Hp Hd. eexists. split; [reflexivity|]. cbn [b_stream set_stream b_root b_free b_nfree b_cache].
  rewrite page_pos_small by (eapply PAGE_LIMIT_lt; eassumption).
  pose proof (page_in _ _ Hp) as Hin. pose proof BLOCK_SIZE_big as Hbig.
  repeat split.
  - rewrite arr_write_length_ne by lia. lia.
  - intros q Hq. unfold page. cbn [b_stream set_stream]. destruct (N.eqb_spec q p) as [->|Hne].
    + rewrite arr_read_write_in by lia.
      rewrite Nat.sub_diag. apply arr_read_all. lia.
    + destruct (page_gap (N.to_nat p) (N.to_nat q) n Hp Hq ltac:(lia)).
      * rewrite arr_read_write_disj_r by lia. reflexivity.
      * rewrite arr_read_write_disj_l by lia. reflexivity.
Qed.

(** ** Association lists *)
Lemma lookup_update_same p nd c : lookup p c <> None -> lookup p (update p nd c) = Some nd.
Proof.
  induction c as [|[q x] c IH]; cbn [lookup update]; [congruence|].
  destruct (N.eqb_spec q p) as [->|Hne]; cbn [lookup].
  - rewrite N.eqb_refl. reflexivity.
  - destruct (N.eqb_spec q p); [contradiction|]. exact IH.
Qed.

Lemma lookup_update_other p q nd c : p <> q -> lookup q (update p nd c) = lookup q c.
Proof.
  intros Hne. induction c as [|[r x] c IH]; cbn [lookup update]; [reflexivity|].
  destruct (N.eqb_spec r p) as [->|Hr]; cbn [lookup].
  - destruct (N.eqb_spec p q); [contradiction|]. reflexivity.
  - destruct (r =? q)%N; [reflexivity|exact IH].
Qed.

Lemma update_keys p nd c : map fst (update p nd c) = map fst c.
Proof.
  induction c as [|[q x] c IH]; cbn [update]; [reflexivity|].
  destruct (q =? p)%N; cbn [map fst]; congruence.
Qed.

Lemma lookup_remove_same p c : lookup p (remove_key p c) = None.
Proof.
  unfold remove_key. induction c as [|[q x] c IH]; [reflexivity|].
  cbn [filter fst]. destruct (N.eqb_spec q p); cbn [negb]; [exact IH|].
  cbn [lookup]. destruct (N.eqb_spec q p); [contradiction|exact IH].
Qed.

Lemma lookup_remove_other p q c : p <> q -> lookup q (remove_key p c) = lookup q c.
Proof.
  intros Hne. unfold remove_key. induction c as [|[r x] c IH]; [reflexivity|].
  cbn [filter fst]. destruct (N.eqb_spec r p) as [->|Hr]; cbn [negb lookup].
  - destruct (N.eqb_spec p q); [contradiction|exact IH].
  - destruct (r =? q)%N; [reflexivity|exact IH].
Qed.

Lemma remove_keys p c : NoDup (map fst c) -> NoDup (map fst (remove_key p c)).
Proof.
  unfold remove_key. induction c as [|[q x] c IH]; cbn [filter map fst]; [auto|].
  intros H. inversion H; subst. destruct (negb (q =? p)%N); cbn [map fst]; [|auto].
  constructor; [|auto]. intros Hi. apply in_map_iff in Hi. destruct Hi as ([r y] & E & Hi).
  cbn in E. subst r. apply filter_In in Hi. destruct Hi as [Hi _].
  apply H2. apply in_map_iff. exists (q, y). auto.
Qed.

Lemma lookup_not_in p c : ~ In p (map fst c) -> lookup p c = None.
Proof.
  induction c as [|[q x] c IH]; cbn [map fst lookup]; [reflexivity|].
  intros H. destruct (N.eqb_spec q p) as [->|_]; [exfalso; apply H; left; reflexivity|].
  apply IH. intros Hi. apply H. right. exact Hi.
Qed.

Lemma lookup_none_not_in p c : lookup p c = None -> ~ In p (map fst c).
Proof.
  induction c as [|[q x] c IH]; cbn [map fst lookup]; [intros _ []|].
  destruct (N.eqb_spec q p) as [->|Hne]; [discriminate|].
  intros H [E|Hi]; [contradiction|]. exact (IH H Hi).
Qed.

(** ** Moving between states that agree on some pages *)
Lemma chain_ext st st' prev F :
  (forall p, In p F -> page st' p = page st p) -> chain st prev F -> chain st' prev F.
Proof.
  revert prev; induction F as [|f F IH]; intros prev H; cbn [chain]; [auto|].
  intros [H1 H2]. split.
  - unfold free_page in *. rewrite H by (left; reflexivity). exact H1.
  - apply IH; [|exact H2]. intros p Hp. apply H. right. exact Hp.
Qed.

Lemma node_ok_ext st st' l :
  lookup (l_pg l) (b_cache st') = lookup (l_pg l) (b_cache st) ->
  page st' (l_pg l) = page st (l_pg l) -> node_ok st l -> node_ok st' l.
Proof. intros H1 H2. unfold node_ok, stored. rewrite H1, H2. auto. Qed.

Lemma inv_perm st L L' F : Permutation L L' -> Inv st L F -> Inv st L' F.
Proof.
  intros HP H. inv_fields H.
  assert (HPp : Permutation (pages L) (pages L')) by (apply Permutation_map; exact HP).
  assert (HLn : length L = length L') by (apply Permutation_length; exact HP).
  constructor; try assumption; try (rewrite <- HLn; assumption).
  - eapply Permutation_NoDup; [|exact Hnd]. apply Permutation_app_tail. exact HPp.
  - rewrite <- HLn. eapply Permutation_Forall; [|exact Hrg]. apply Permutation_app_tail. exact HPp.
  - eapply Permutation_Forall; eassumption.
  - intros p Hp. eapply Permutation_in; [exact HPp|]. apply Hcache. exact Hp.
Qed.

Lemma inv_root st r L F : Inv st L F -> Inv (set_root st r) L F.
Proof.
  intros H. inv_fields H. constructor; try assumption.
  eapply chain_ext; [|exact Hchain]. reflexivity.
Qed.

Lemma inv_page_lt st L F l : Inv st L F -> In l L -> N.to_nat (l_pg l) < length L + length F.
Proof.
  intros H Hi. inv_fields H. rewrite Forall_forall in Hrg. apply Hrg.
  apply in_or_app. left. apply in_map. exact Hi.
Qed.

Lemma inv_page_valid st L F l : Inv st L F -> In l L -> (l_pg l < PAGE_LIMIT)%N.
Proof.
  intros H Hi. eapply PAGE_LIMIT_lt; [apply (i_lim _ _ _ H)|]. eapply inv_page_lt; eassumption.
Qed.

Lemma limit_invalid p : (p < PAGE_LIMIT)%N -> (p =? INVALID_PAGE)%N = false.
Proof. unfold PAGE_LIMIT, INVALID_PAGE. intros. apply N.eqb_neq. lia. Qed.

(** ** Reading nodes *)
Lemma get_node_ok st L F l :
  Inv st L F -> In l L -> cached st (l_pg l) ->
  exists nd, get_node (l_pg l) st = (st, Ok nd) /\ lookup (l_pg l) (b_cache st) = Some nd /\
    n_parent nd = l_par l /\ n_children nd = l_cs l /\ n_entries nd = l_es l.
Proof.
  intros H Hi Hc. inv_fields H. rewrite Forall_forall in Hnodes. specialize (Hnodes l Hi).
  unfold node_ok in Hnodes. unfold get_node, cached in *.
  destruct (lookup (l_pg l) (b_cache st)) as [nd|]; [|congruence].
  exists nd. destruct Hnodes as (H1 & H2 & H3 & _). auto.
Qed.

Lemma retrieve_ok st L F l :
  Inv st L F -> In l L ->
  exists st', retrieve_node (l_par l) (l_pg l) st = (st', Ok (l_pg l)) /\ Inv st' L F /\
    cached st' (l_pg l) /\ (forall p, cached st p -> cached st' p) /\
    b_root st' = b_root st.
Proof.
  intros H Hi. pose proof (inv_page_lt _ _ _ _ H Hi) as Hlt.
  pose proof (inv_page_valid _ _ _ _ H Hi) as Hv.
  unfold retrieve_node, bind, gets. cbv beta.
  destruct (lookup (l_pg l) (b_cache st)) as [nd|] eqn:E.
  - exists st. pose proof (i_nodes _ _ _ H) as Hn. rewrite Forall_forall in Hn. specialize (Hn l Hi).
    unfold node_ok in Hn. rewrite E in Hn. destruct Hn as (H1 & H2 & H3 & H4).
    rewrite H3, N.eqb_refl, orb_true_r. cbn [dir_check ret].
    split; [reflexivity|]. split; [exact H|]. split; [unfold cached; congruence|]. auto.
  - pose proof H as H0. inv_fields H.
    assert (Hst : stored st (l_pg l) = Ok (l_cs l, l_es l)).
    { rewrite Forall_forall in Hnodes. specialize (Hnodes l Hi). unfold node_ok in Hnodes.
      rewrite E in Hnodes. exact Hnodes. }
    unfold read_node. rewrite (limit_invalid _ Hv). unfold bind, lift.
    rewrite (read_page_ok st (l_pg l) _ Hlen Hlim Hlt).
    change (from_buffer (page st (l_pg l))) with (stored st (l_pg l)). rewrite Hst.
    cbn [modify ret fst snd]. eexists. split; [reflexivity|].
    split; [|split; [|split; [|reflexivity]]].
    + constructor; try assumption; try (eapply chain_ext; [|exact Hchain]; reflexivity).
      * rewrite Forall_forall in Hnodes |- *. intros l' Hi'. specialize (Hnodes l' Hi').
        unfold node_ok in *. cbn [b_cache set_cache lookup].
        destruct (N.eqb_spec (l_pg l) (l_pg l')) as [He|Hne].
        -- assert (l' = l) as ->.
           { assert (Hnd2 : NoDup (pages L)) by (eapply nodup_app_l; exact Hnd).
             clear -He Hnd2 Hi Hi'. induction L as [|a L IH]; [destruct Hi|].
             cbn [pages map] in Hnd2. inversion Hnd2; subst.
             destruct Hi as [->|Hi], Hi' as [->|Hi']; auto.
             - exfalso. apply H1. rewrite He. apply in_map. exact Hi'.
             - exfalso. apply H1. rewrite <- He. apply in_map. exact Hi. }
           cbn [n_children n_entries n_parent n_dirty]. repeat split. intros _. exact Hst.
        -- exact Hnodes.
      * intros p Hp. unfold cached in Hp. cbn [b_cache set_cache lookup] in Hp.
        destruct (N.eqb_spec (l_pg l) p) as [Ep|]; [rewrite <- Ep; apply in_map; exact Hi|].
        apply Hcache. exact Hp.
      * cbn [b_cache set_cache map fst]. constructor; [|exact Hkeys].
        apply lookup_none_not_in. exact E.
    + unfold cached. cbn [b_cache set_cache lookup]. rewrite N.eqb_refl. discriminate.
    + intros p Hp. unfold cached in *. cbn [b_cache set_cache lookup].
      destruct (l_pg l =? p)%N; [discriminate|exact Hp].
Qed.

(** ** Writing to a cached node *)
Lemma nodup_pages_head st l L F : Inv st (l :: L) F -> forall l', In l' L -> l_pg l' <> l_pg l.
Proof.
  intros H l' Hi E. pose proof (i_nodup _ _ _ H) as Hnd. cbn [pages map app] in Hnd.
  inversion Hnd; subst. apply H2. apply in_or_app. left. rewrite <- E. apply in_map. exact Hi.
Qed.

Lemma put_node_ok st l L F nd :
  Inv st (l :: L) F -> cached st (l_pg l) -> n_dirty nd = true ->
  exists st', put_node (l_pg l) nd st = (st', Ok tt) /\
    Inv st' (mkL (l_pg l) (n_parent nd) (n_children nd) (n_entries nd) :: L) F /\
    (forall p, cached st p -> cached st' p) /\ b_root st' = b_root st /\
    b_stream st' = b_stream st.
Proof.
  intros H Hc Hd. pose proof (nodup_pages_head _ _ _ _ H) as Hne.
  eexists. split; [reflexivity|]. split; [|split; [|split; reflexivity]].
  - inv_fields H. constructor; try assumption; try (eapply chain_ext; [|exact Hchain]; reflexivity).
    + inversion Hnodes as [|? ? Hl HL]; subst. constructor.
      * unfold node_ok. cbn [b_cache set_cache l_pg l_cs l_es l_par].
        rewrite lookup_update_same by exact Hc. repeat split. congruence.
      * rewrite Forall_forall in HL |- *. intros l' Hi. specialize (HL l' Hi).
        apply (node_ok_ext st); [| |exact HL]; [|reflexivity].
        cbn [b_cache set_cache]. apply lookup_update_other. intros E. apply (Hne l' Hi). congruence.
    + intros p Hp. apply Hcache. unfold cached in *. cbn [b_cache set_cache] in Hp.
      destruct (N.eqb_spec (l_pg l) p) as [<-|Hn]; [exact Hc|].
      rewrite lookup_update_other in Hp by exact Hn. exact Hp.
    + cbn [b_cache set_cache]. rewrite update_keys. exact Hkeys.
  - intros p Hp. unfold cached in *. cbn [b_cache set_cache].
    destruct (N.eqb_spec (l_pg l) p) as [<-|Hn].
    + rewrite lookup_update_same by exact Hc. discriminate.
    + rewrite lookup_update_other by exact Hn. exact Hp.
Qed.

Definition grows (st st' : bt) : Prop :=
  (forall p, cached st p -> cached st' p) /\ b_root st' = b_root st.

Lemma grows_refl st : grows st st. Proof. split; auto. Qed.
Lemma grows_trans a b c : grows a b -> grows b c -> grows a c.
Proof. intros [H1 H2] [H3 H4]. split; [auto|congruence]. Qed.

Lemma set_entries_ok st p par cs es L F es' :
  Inv st (mkL p par cs es :: L) F -> cached st p ->
  exists st', set_entries p es' st = (st', Ok tt) /\ Inv st' (mkL p par cs es' :: L) F /\ grows st st'.
Proof.
  intros H Hc. destruct (get_node_ok st _ _ (mkL p par cs es) H (or_introl eq_refl) Hc)
    as (nd & E & _ & H1 & H2 & H3). cbn [l_pg l_par l_cs l_es] in *.
  unfold set_entries, bind. rewrite E.
  destruct (put_node_ok st (mkL p par cs es) L F (mkNode (n_parent nd) (n_children nd) es' true) H Hc eq_refl)
    as (st' & E' & HI & G1 & G2 & _). cbn [l_pg n_parent n_children n_entries] in *.
  rewrite H1, H2 in *. exists st'. split; [exact E'|]. split; [exact HI|]. split; assumption.
Qed.

Lemma set_children_ok st p par cs es L F cs' :
  Inv st (mkL p par cs es :: L) F -> cached st p ->
  exists st', set_children p cs' st = (st', Ok tt) /\ Inv st' (mkL p par cs' es :: L) F /\ grows st st'.
Proof.
  intros H Hc. destruct (get_node_ok st _ _ (mkL p par cs es) H (or_introl eq_refl) Hc)
    as (nd & E & _ & H1 & H2 & H3). cbn [l_pg l_par l_cs l_es] in *.
  unfold set_children, bind. rewrite E.
  destruct (put_node_ok st (mkL p par cs es) L F (mkNode (n_parent nd) cs' (n_entries nd) true) H Hc eq_refl)
    as (st' & E' & HI & G1 & G2 & _). cbn [l_pg n_parent n_children n_entries] in *.
  rewrite H1, H3 in *. exists st'. split; [exact E'|]. split; [exact HI|]. split; assumption.
Qed.

Lemma set_parent_ok st p par cs es L F par' :
  Inv st (mkL p par cs es :: L) F -> cached st p ->
  exists st', set_parent p par' st = (st', Ok tt) /\ Inv st' (mkL p par' cs es :: L) F /\ grows st st'.
Proof.
  intros H Hc. destruct (get_node_ok st _ _ (mkL p par cs es) H (or_introl eq_refl) Hc)
    as (nd & E & _ & H1 & H2 & H3). cbn [l_pg l_par l_cs l_es] in *.
  unfold set_parent, bind. rewrite E.
  destruct (put_node_ok st (mkL p par cs es) L F (mkNode par' (n_children nd) (n_entries nd) true) H Hc eq_refl)
    as (st' & E' & HI & G1 & G2 & _). cbn [l_pg n_parent n_children n_entries] in *.
  rewrite H2, H3 in *. exists st'. split; [exact E'|]. split; [exact HI|]. split; assumption.
Qed.

(** ** Changing the parent of several nodes *)
Definition reparent (cs : list N) (par : N) (l : lnode) : lnode :=
  if existsb (N.eqb (l_pg l)) cs then mkL (l_pg l) par (l_cs l) (l_es l) else l.

Lemma reparent_pg cs par l : l_pg (reparent cs par l) = l_pg l.
Proof. unfold reparent. destruct (existsb _ _); reflexivity. Qed.

Lemma reparent_pages cs par L : pages (map (reparent cs par) L) = pages L.
Proof. unfold pages. rewrite map_map. apply map_ext. intros; apply reparent_pg. Qed.

Lemma inv_reparent_uncached st c par L F :
  Inv st L F -> lookup c (b_cache st) = None -> Inv st (map (reparent [c] par) L) F.
Proof.
  intros H E. inv_fields H. constructor; try assumption; try rewrite map_length; try rewrite reparent_pages; try assumption.
  rewrite Forall_forall in Hnodes |- *. intros l' Hi. apply in_map_iff in Hi.
  destruct Hi as (l & <- & Hi). specialize (Hnodes l Hi). unfold node_ok, reparent in *.
  cbn [existsb]. rewrite orb_false_r. destruct (N.eqb_spec (l_pg l) c) as [Hc|Hc]; [|exact Hnodes].
  cbn [l_pg l_cs l_es l_par]. rewrite Hc in *. rewrite E in *. exact Hnodes.
Qed.

Lemma in_pages_split L p : In p (pages L) -> exists l L', l_pg l = p /\ Permutation L (l :: L').
Proof.
  intros H. apply in_map_iff in H. destruct H as (l & E & Hi).
  apply in_split in Hi. destruct Hi as (a & b & ->). exists l, (a ++ b). split; [exact E|].
  apply Permutation_sym, Permutation_middle.
Qed.

Lemma reparent_other c par L : ~ In c (pages L) -> map (reparent [c] par) L = L.
Proof.
  intros H. rewrite <- (map_id L) at 2. apply map_ext_in. intros l Hi.
  unfold reparent. cbn [existsb]. rewrite orb_false_r.
  destruct (N.eqb_spec (l_pg l) c) as [Hc|]; [|reflexivity].
  exfalso. apply H. rewrite <- Hc. apply in_map. exact Hi.
Qed.

Lemma reparent_cons c cs par l :
  reparent (c :: cs) par l = reparent cs par (reparent [c] par l).
Proof.
  unfold reparent. cbn [existsb]. rewrite orb_false_r.
  destruct (N.eqb_spec (l_pg l) c) as [Hc|Hc]; cbn [orb l_pg l_cs l_es].
  - destruct (existsb (N.eqb (l_pg l)) cs); reflexivity.
  - reflexivity.
Qed.

Lemma adjust_ok cs par st L F :
  Inv st L F -> (forall c, In c cs -> In c (pages L)) ->
  exists st', adjust_children cs par st = (st', Ok tt) /\
    Inv st' (map (reparent cs par) L) F /\ grows st st'.
Proof.
  revert st L; induction cs as [|c cs IH]; intros st L H Hin.
  - exists st. split; [reflexivity|]. split; [|apply grows_refl].
    replace (map (reparent [] par) L) with L; [exact H|].
    rewrite <- (map_id L) at 1. apply map_ext. reflexivity.
  - cbn [adjust_children]. unfold bind at 1, retrieve_existing_node, gets.
    assert (Hstep : exists st1,
      (match match lookup c (b_cache st) with Some _ => Some c | None => None end with
       | Some k => set_parent k par | None => ret tt end) st = (st1, Ok tt) /\
      Inv st1 (map (reparent [c] par) L) F /\ grows st st1).
    { destruct (lookup c (b_cache st)) as [nd|] eqn:E.
      - destruct (in_pages_split L c (Hin c (or_introl eq_refl))) as (l & L' & Hl & HP).
        destruct l as [p q a b]. cbn in Hl. subst p.
        pose proof (inv_perm _ _ _ _ HP H) as H'.
        destruct (set_parent_ok st c q a b L' F par H') as (st1 & E1 & HI & G); [unfold cached; congruence|].
        exists st1. split; [exact E1|]. split; [|exact G].
        eapply inv_perm; [|exact HI].
        eapply Permutation_trans; [|apply Permutation_sym, Permutation_map; exact HP].
        cbn [map]. rewrite reparent_other.
        + unfold reparent. cbn [existsb l_pg l_cs l_es]. rewrite N.eqb_refl. apply Permutation_refl.
        + intros Hi. apply in_map_iff in Hi. destruct Hi as (l & El & Hi).
          apply (nodup_pages_head _ _ _ _ H' l Hi). exact El.
      - exists st. split; [reflexivity|]. split; [|apply grows_refl].
        apply inv_reparent_uncached; assumption. }
    destruct Hstep as (st1 & E1 & H1 & G1). unfold bind. rewrite E1.
    destruct (IH st1 (map (reparent [c] par) L) H1) as (st2 & E2 & H2 & G2).
    { intros x Hx. rewrite reparent_pages. apply Hin. right. exact Hx. }
    exists st2. split; [exact E2|]. split; [|eapply grows_trans; eassumption].
    rewrite map_map in H2. erewrite map_ext; [exact H2|]. intros l. apply reparent_cons.
Qed.

(** ** Allocation *)
Definition free_bytes (next prev : N) : bytes :=
  zeros 4 ++ to_le 4 next ++ to_le 4 prev ++ zeros (BLOCK_SIZE - 12).

Lemma free_bytes_length a b : length (free_bytes a b) = BLOCK_SIZE.
Proof.
  unfold free_bytes. rewrite !app_length, !to_le_length, !zeros_length.
  pose proof BLOCK_SIZE_big. lia.
Qed.

Lemma firstn_exact {A} (a b : list A) n : length a = n -> firstn n (a ++ b) = a.
Proof. intros <-. rewrite firstn_app, Nat.sub_diag, firstn_O, app_nil_r, firstn_all. reflexivity. Qed.
Lemma skipn_exact {A} (a b : list A) n : length a = n -> skipn n (a ++ b) = b.
Proof. intros <-. rewrite skipn_app, Nat.sub_diag, skipn_all. reflexivity. Qed.

Lemma free_bytes_fields a b :
  (a < 2 ^ 32)%N -> (b < 2 ^ 32)%N ->
  from_le (firstn 4 (free_bytes a b)) = 0%N /\
  from_le (firstn 4 (skipn 4 (free_bytes a b))) = a /\
  from_le (firstn 4 (skipn 8 (free_bytes a b))) = b.
Proof.
  intros Ha Hb. unfold free_bytes. split; [|split].
  - rewrite firstn_exact by reflexivity. reflexivity.
  - rewrite skipn_exact by reflexivity.
    rewrite firstn_exact by apply to_le_length. apply from_to_le. exact Ha.
  - rewrite app_assoc. rewrite skipn_exact by (rewrite app_length, to_le_length; reflexivity).
    rewrite firstn_exact by apply to_le_length. apply from_to_le. exact Hb.
Qed.

Lemma from_buffer_free b :
  4 <= length b -> from_le (firstn 4 b) = 0%N -> from_buffer b = Ok ([], []).
Proof.
  intros HL H. unfold from_buffer, read_le. destruct (Nat.leb_spec 4 (length b)); [|lia].
  cbn [rbind]. rewrite H. reflexivity.
Qed.

Lemma read_free_page_ok st p n nx pv :
  length (b_stream st) = n * BLOCK_SIZE -> (N.of_nat n <= PAGE_LIMIT)%N -> N.to_nat p < n ->
  free_page st p nx pv -> read_free_page p st = (st, Ok (nx, pv)).
Proof.
  intros HL Hn Hp (H1 & H2 & H3). unfold read_free_page, bind.
  rewrite (read_page_ok st p n HL Hn Hp). rewrite H1, H2, H3. reflexivity.
Qed.

Lemma u32_small n : (n < 2 ^ 32)%N -> u32 n = n.
Proof. intros. unfold u32. apply N.mod_small. exact H. Qed.

Lemma hd_page_bound st L F : Inv st L F -> (hd_page F < 2 ^ 32)%N.
Proof.
  intros H. inv_fields H. destruct F as [|f F]; [reflexivity|].
  rewrite Forall_forall in Hrg. specialize (Hrg f). cbn [hd_page hd].
  assert (In f (pages L ++ f :: F)) by (apply in_or_app; right; left; reflexivity).
  specialize (Hrg H). pose proof (PAGE_LIMIT_lt _ _ Hlim Hrg). unfold PAGE_LIMIT in *. lia.
Qed.

Lemma alloc_ok st L F par :
  Inv st L F -> (F = [] -> (N.of_nat (S (length L)) <= PAGE_LIMIT)%N) ->
  exists st' pg F', allocate_page st = (st', Ok pg) /\
    Inv st' (mkL pg par [] [] :: L) F' /\ b_root st' = b_root st /\ b_cache st' = b_cache st /\
    length F' = pred (length F) /\ ~ In pg (pages L).
Proof.
  intros H Hroom. pose proof H as H0. inv_fields H.
  pose proof BLOCK_SIZE_big as Hbig.
  unfold allocate_page, bind at 1, gets at 1. rewrite Hfree.
  destruct F as [|f F].
  - (* append a page *)
    cbn [hd_page hd]. rewrite N.eqb_refl. unfold bind, gets, modify, ret.
    cbn [length] in *. rewrite Nat.add_0_r in *. specialize (Hroom eq_refl).
    rewrite Hlen, Nat.div_mul by lia.
    rewrite u32_small by (unfold PAGE_LIMIT in *; lia).
    set (st' := set_stream st _). exists st', (N.of_nat (length L)), [].
    assert (Hpg : forall p, N.to_nat p < length L -> page st' p = page st p).
    { intros p Hp. unfold page, st'. cbn [b_stream set_stream].
      pose proof (page_in _ _ Hp). apply arr_read_resize; lia. }
    assert (Hfresh : ~ In (N.of_nat (length L)) (pages L)).
    { intros Hi. rewrite Forall_forall in Hrg. specialize (Hrg (N.of_nat (length L))).
      rewrite Nat2N.id in Hrg. apply (Nat.lt_irrefl (length L)), Hrg.
      rewrite app_nil_r. exact Hi. }
    split; [reflexivity|]. split; [|split; [reflexivity|split; [reflexivity|split; [reflexivity|exact Hfresh]]]].
    constructor; cbn [length]; rewrite ?Nat.add_0_r.
    + unfold st'. cbn [b_stream set_stream]. rewrite arr_resize_length. cbn [Nat.mul]. lia.
    + exact Hroom.
    + cbn [pages map app l_pg]. rewrite app_nil_r. constructor; [exact Hfresh|].
      rewrite app_nil_r in Hnd. exact Hnd.
    + cbn [pages map app l_pg]. constructor; [rewrite Nat2N.id; lia|].
      eapply Forall_impl; [|exact Hrg]. cbn. lia.
    + constructor.
      * unfold node_ok. cbn [l_pg l_cs l_es].
        assert (lookup (N.of_nat (length L)) (b_cache st') = None) as ->.
        { destruct (lookup _ _) eqn:E; [|reflexivity]. exfalso. apply Hfresh, Hcache.
          unfold cached. change (b_cache st') with (b_cache st) in E. congruence. }
        unfold stored, page, st'. cbn [b_stream set_stream]. rewrite Nat2N.id.
        rewrite arr_read_resize_hole by lia.
        apply from_buffer_free; [rewrite zeros_length; lia|].
        replace BLOCK_SIZE with (4 + (BLOCK_SIZE - 4)) by lia. rewrite <- zeros_app.
        rewrite firstn_exact by reflexivity. reflexivity.
      * rewrite Forall_forall in Hnodes |- *. intros l Hi.
        apply (node_ok_ext st); [reflexivity| |apply Hnodes; exact Hi].
        apply Hpg. rewrite Forall_forall in Hrg. apply Hrg. apply in_or_app. left.
        apply in_map. exact Hi.
    + intros p Hp. right. apply Hcache. exact Hp.
    + exact Hkeys.
    + exact I.
    + exact Hfree.
    + exact Hnfree.
  - (* take the head of the free list *)
    assert (HrgF : forall p, In p (pages L ++ f :: F) -> N.to_nat p < length L + length (f :: F))
      by (rewrite Forall_forall in Hrg; exact Hrg).
    assert (Hf : N.to_nat f < length L + length (f :: F))
      by (apply HrgF; apply in_or_app; right; left; reflexivity).
    cbn [hd_page hd]. rewrite (limit_invalid f) by (eapply PAGE_LIMIT_lt; eassumption).
    destruct Hchain as [Hfp Hchain].
    unfold bind at 1. rewrite (read_free_page_ok st f _ _ _ Hlen Hlim Hf Hfp).
    cbn [fst]. unfold bind at 1, gets at 1. unfold bind at 1, modify at 1.
    unfold bind at 1, modify at 1.
    assert (Hu : u32 (b_nfree st + 4294967295) = N.of_nat (length F)).
    { rewrite Hnfree. cbn [length]. unfold u32.
      replace (N.of_nat (S (length F)) + 4294967295)%N
        with (N.of_nat (length F) + 1 * 4294967296)%N by lia.
      rewrite N.mod_add by discriminate. apply N.mod_small. cbn [length] in Hlim.
      unfold PAGE_LIMIT in *. lia. }
    rewrite Hu. clear Hu.
    set (st1 := set_free (set_nfree st (N.of_nat (length F))) (hd_page F)).
    assert (HndF : ~ In f (pages L) /\ ~ In f F /\ NoDup F).
    { pose proof (nodup_app_r _ _ Hnd) as HF. inversion HF; subst. split; [|auto].
      intros Hi. eapply nodup_app_disj; [exact Hnd|exact Hi|left; reflexivity]. }
    destruct HndF as (Hn1 & Hn2 & Hn3).
    (* common conclusion *)
    assert (Hmain : forall st', length (b_stream st') = length (b_stream st) ->
      (forall q, N.to_nat q < length L + length (f :: F) -> ~ In q F -> page st' q = page st q) ->
      chain st' INVALID_PAGE F ->
      b_root st' = b_root st -> b_free st' = hd_page F -> b_nfree st' = N.of_nat (length F) ->
      b_cache st' = b_cache st -> Inv st' (mkL f par [] [] :: L) F).
    { intros st' E1 E2 E3 E4 E5 E6 E7.
      assert (Hns : length (mkL f par [] [] :: L) + length F = length L + length (f :: F))
        by (cbn [length]; lia).
      constructor; rewrite ?Hns; try congruence; try assumption.
      - cbn [pages map app l_pg]. eapply Permutation_NoDup; [|exact Hnd].
        apply Permutation_sym, Permutation_middle.
      - cbn [pages map app l_pg]. eapply Permutation_Forall; [|exact Hrg].
        apply Permutation_sym, Permutation_middle.
      - constructor.
        + unfold node_ok. cbn [l_pg l_cs l_es]. rewrite E7.
          assert (lookup f (b_cache st) = None) as ->.
          { destruct (lookup f (b_cache st)) eqn:E; [|reflexivity].
            exfalso. apply Hn1, Hcache. unfold cached. congruence. }
          unfold stored. rewrite E2 by assumption. apply from_buffer_free; [|apply Hfp].
          rewrite (page_length st f _ Hlen Hf). lia.
        + rewrite Forall_forall in Hnodes |- *. intros l Hi.
          apply (node_ok_ext st); [rewrite E7; reflexivity| |apply Hnodes; exact Hi].
          apply E2; [apply HrgF; apply in_or_app; left; apply in_map; exact Hi|].
          intros Hx. eapply nodup_app_disj; [exact Hnd| |right; exact Hx]. apply in_map; exact Hi.
      - intros p Hp. unfold cached in Hp. rewrite E7 in Hp. right. apply Hcache. exact Hp. }
    destruct F as [|g F].
    + cbn [hd_page hd negb]. rewrite N.eqb_refl. cbn [negb]. unfold bind, ret.
      exists st1, f, []. split; [reflexivity|]. split; [|repeat split; assumption].
      apply Hmain; try reflexivity.
    + assert (Hg : N.to_nat g < length L + length (f :: g :: F))
        by (apply HrgF; apply in_or_app; right; right; left; reflexivity).
      cbn [hd_page hd]. rewrite (limit_invalid g) by (eapply PAGE_LIMIT_lt; eassumption).
      cbn [negb]. destruct Hchain as [Hgp Hchain].
      assert (Hgp1 : free_page st1 g (hd_page F) f) by exact Hgp.
      unfold bind at 1. unfold bind at 1.
      rewrite (read_free_page_ok st1 g _ _ _ Hlen Hlim Hg Hgp1).
      cbn [fst]. unfold bind at 1, gets at 1. change (b_free st1) with g.
      unfold write_free_page. fold (free_bytes (hd_page F) INVALID_PAGE).
      destruct (write_page_ok st1 g _ (free_bytes (hd_page F) INVALID_PAGE) Hlen Hlim Hg (free_bytes_length _ _))
        as (st2 & Ew & L2 & P2 & R2 & F2 & N2 & C2).
      rewrite Ew. exists st2, f, (g :: F). split; [reflexivity|].
      assert (Hgn : ~ In g F) by (inversion Hn3; assumption).
      assert (Hhd : (hd_page F < 2 ^ 32)%N).
      { destruct F as [|x F]; [reflexivity|]. cbn [hd_page hd].
        assert (N.to_nat x < length L + length (f :: g :: x :: F))
          by (apply HrgF; apply in_or_app; right; right; right; left; reflexivity).
        pose proof (PAGE_LIMIT_lt _ _ Hlim H). unfold PAGE_LIMIT in *. lia. }
      split.
      * apply Hmain; try assumption.
        -- rewrite L2, Hlen. reflexivity.
        -- intros q Hq Hqn. rewrite P2 by exact Hq.
           destruct (N.eqb_spec q g) as [->|]; [|reflexivity].
           exfalso. apply Hqn. left. reflexivity.
        -- split.
           ++ unfold free_page. rewrite P2 by exact Hg. rewrite N.eqb_refl.
              apply free_bytes_fields; [exact Hhd|reflexivity].
           ++ eapply chain_ext; [|exact Hchain]. intros p Hp.
              rewrite P2 by (apply HrgF; apply in_or_app; right; right; right; exact Hp).
              destruct (N.eqb_spec p g) as [->|]; [contradiction|reflexivity].
      * split; [exact R2|]. split; [exact C2|]. split; [reflexivity|assumption].
Qed.

Lemma del_node_ok st l L F :
  Inv st (l :: L) F ->
  exists st', del_node (l_pg l) st = (st', Ok tt) /\ Inv st' L (l_pg l :: F) /\
    (forall p, p <> l_pg l -> cached st p -> cached st' p) /\ b_root st' = b_root st.
Proof.
  intros H. pose proof H as H0. pose proof (hd_page_bound _ _ _ H) as Hhd.
  pose proof (inv_page_lt _ _ _ _ H (or_introl eq_refl)) as Hlt.
  pose proof (inv_page_valid _ _ _ _ H (or_introl eq_refl)) as Hv.
  pose proof (nodup_pages_head _ _ _ _ H) as Hne.
  inv_fields H. set (p := l_pg l) in *.
  pose proof BLOCK_SIZE_big as Hbig.
  set (n := length (l :: L) + length F) in *.
  unfold del_node, bind at 1, deallocate_page, bind at 1, gets at 1.
  assert (Hsz : (page_pos p =? N.of_nat (length (b_stream st)))%N = false).
  { apply N.eqb_neq. intros E. apply (f_equal N.to_nat) in E.
    rewrite page_pos_small, Nat2N.id, Hlen in E by exact Hv. nia. }
  rewrite Hsz. unfold bind at 1, gets at 1. unfold bind at 1.
  unfold write_free_page at 1. fold (free_bytes (b_free st) INVALID_PAGE).
  destruct (write_page_ok st p n (free_bytes (b_free st) INVALID_PAGE) Hlen Hlim Hlt (free_bytes_length _ _))
    as (st1 & Ew & L1 & P1 & R1 & F1 & N1 & C1).
  rewrite Ew. unfold bind at 1, gets at 1. rewrite F1, Hfree.
  assert (HrgF : forall q, In q (pages (l :: L) ++ F) -> N.to_nat q < n)
    by (rewrite Forall_forall in Hrg; exact Hrg).
  assert (HpF : ~ In p F).
  { intros Hi. eapply nodup_app_disj; [exact Hnd|left; reflexivity|exact Hi]. }
  assert (Hstep : exists st2,
    (if negb (hd_page F =? INVALID_PAGE)%N
     then bind (read_free_page (hd_page F)) (fun fp => write_free_page (hd_page F) (fst fp) p)
     else ret tt) st1 = (st2, Ok tt) /\
    length (b_stream st2) = n * BLOCK_SIZE /\
    (forall q, N.to_nat q < n -> q <> p -> ~ In q F -> page st2 q = page st q) /\
    chain st2 INVALID_PAGE (p :: F) /\
    b_root st2 = b_root st /\ b_nfree st2 = b_nfree st /\ b_cache st2 = b_cache st).
  { destruct F as [|g F].
    - cbn [hd_page hd]. rewrite N.eqb_refl. cbn [negb]. exists st1. unfold ret.
      split; [reflexivity|]. split; [exact L1|]. split.
      { intros q Hq Hqp _. rewrite P1 by exact Hq.
        destruct (N.eqb_spec q p); [contradiction|reflexivity]. }
      split; [|auto]. cbn [chain]. split; [|exact I]. unfold free_page.
      rewrite P1, N.eqb_refl by exact Hlt. rewrite Hfree. apply free_bytes_fields; reflexivity.
    - assert (Hg : N.to_nat g < n) by (apply HrgF; apply in_or_app; right; left; reflexivity).
      assert (Hgp : g <> p) by (intros ->; apply HpF; left; reflexivity).
      cbn [hd_page hd] in *. rewrite (limit_invalid g) by (eapply PAGE_LIMIT_lt; eassumption).
      cbn [negb]. destruct Hchain as [Hgf Hchain].
      assert (HgF : ~ In g F) by (pose proof (nodup_app_r _ _ Hnd) as HF; inversion HF; assumption).
      assert (Hgf1 : free_page st1 g (hd_page F) INVALID_PAGE).
      { unfold free_page in *. rewrite P1 by exact Hg.
        destruct (N.eqb_spec g p); [contradiction|exact Hgf]. }
      assert (Hhd' : (hd_page F < 2 ^ 32)%N).
      { destruct F as [|x F]; [reflexivity|]. cbn [hd_page hd].
        assert (N.to_nat x < n) by (apply HrgF; apply in_or_app; right; right; left; reflexivity).
        pose proof (PAGE_LIMIT_lt _ _ Hlim H). unfold PAGE_LIMIT in *. lia. }
      unfold bind at 1. rewrite (read_free_page_ok st1 g n _ _ L1 Hlim Hg Hgf1). cbn [fst].
      unfold write_free_page. fold (free_bytes (hd_page F) p).
      destruct (write_page_ok st1 g n (free_bytes (hd_page F) p) L1 Hlim Hg (free_bytes_length _ _))
        as (st2 & Ew2 & L2 & P2 & R2 & F2 & N2 & C2).
      exists st2. split; [exact Ew2|]. split; [exact L2|]. split.
      { intros q Hq Hqp HqF. rewrite P2 by exact Hq.
        destruct (N.eqb_spec q g) as [->|]; [exfalso; apply HqF; left; reflexivity|].
        rewrite P1 by exact Hq. destruct (N.eqb_spec q p); [contradiction|reflexivity]. }
      split; [|repeat split; congruence]. cbn [chain]. split; [|split].
      + unfold free_page. rewrite P2 by exact Hlt.
        destruct (N.eqb_spec p g); [congruence|]. rewrite P1, N.eqb_refl by exact Hlt.
        rewrite Hfree. apply free_bytes_fields; [exact Hhd|reflexivity].
      + unfold free_page. rewrite P2, N.eqb_refl by exact Hg.
        apply free_bytes_fields; [exact Hhd'|]. unfold PAGE_LIMIT in Hv. lia.
      + eapply chain_ext; [|exact Hchain]. intros q Hq.
        assert (Hqn : N.to_nat q < n) by (apply HrgF; apply in_or_app; right; right; exact Hq).
        rewrite P2 by exact Hqn. destruct (N.eqb_spec q g) as [->|]; [contradiction|].
        rewrite P1 by exact Hqn. destruct (N.eqb_spec q p) as [->|]; [|reflexivity].
        exfalso. apply HpF. right. exact Hq. }
  destruct Hstep as (st2 & E2 & L2 & P2 & CH2 & R2 & N2 & C2).
  unfold bind at 1. rewrite E2. clear E2.
  unfold bind, modify, gets. cbn [b_nfree set_free b_cache set_nfree set_cache].
  eexists. split; [reflexivity|].
  assert (Hnn : length L + length (p :: F) = n) by (unfold n; cbn [length]; lia).
  split; [|split; [|exact R2]].
  - constructor; rewrite ?Hnn; try assumption.
    + eapply Permutation_NoDup; [|exact Hnd]. cbn [pages map app]. apply Permutation_middle.
    + eapply Permutation_Forall; [|exact Hrg]. cbn [pages map app]. apply Permutation_middle.
    + inversion Hnodes as [|? ? Hl HL]; subst. rewrite Forall_forall in HL |- *. intros l' Hi.
      apply (node_ok_ext st); [| |apply HL; exact Hi].
      * cbn [b_cache set_cache]. rewrite C2. apply lookup_remove_other.
        intros E. apply (Hne l' Hi). symmetry. exact E.
      * unfold page. cbn [b_stream set_cache set_nfree set_free]. apply P2.
        -- apply HrgF. apply in_or_app. left. right. apply in_map. exact Hi.
        -- apply Hne. exact Hi.
        -- intros Hx. eapply nodup_app_disj; [exact Hnd| |exact Hx]. right. apply in_map. exact Hi.
    + intros q Hq. unfold cached in Hq. cbn [b_cache set_cache set_nfree set_free] in Hq.
      rewrite C2 in Hq. destruct (N.eqb_spec p q) as [Epq|Hpq].
      * rewrite <- Epq in Hq. rewrite lookup_remove_same in Hq. congruence.
      * rewrite lookup_remove_other in Hq by exact Hpq. specialize (Hcache q Hq).
        destruct Hcache as [Hx|Hx]; [exfalso; apply Hpq; exact Hx|exact Hx].
    + cbn [b_cache set_cache set_nfree set_free]. rewrite C2. apply remove_keys. exact Hkeys.
    + eapply chain_ext; [|exact CH2]. reflexivity.
    + reflexivity.
    + cbn [b_nfree set_cache set_nfree set_free]. rewrite N2, Hnfree. cbn [length].
      rewrite u32_small by (unfold n in Hlim; unfold PAGE_LIMIT in *; lia). lia.
  - intros q Hq Hc. unfold cached in *. cbn [b_cache set_cache set_nfree set_free].
    rewrite C2, lookup_remove_other by congruence. exact Hc.
Qed.
