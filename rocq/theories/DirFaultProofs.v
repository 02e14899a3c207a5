(** A directory over a host whose calls fail. *)
From Coq Require Import Permutation.
From Verif Require Import Base BaseLemmas CodecModel StreamSpec AdaptorModel BtreeModel GBtreeModel BtreeSpec BtreeCodec BtreeInv BtreeTree BtreeSearch
  BtreeInsert BtreeDelete BtreeDir BtreeFlush BtreeTop GBtreeProofs DirFaultModel DirFaultSpec.
Local Open Scope list_scope.

Lemma nodup_drop {A} (a b : list A) : NoDup (a ++ b) -> NoDup b.
Proof. induction a as [|x a IH]; [auto|]. cbn [app]. intros H. inversion H. auto. Qed.

Notation gf := (gbt flaky).
Notation quiet := (with_plan []).
Definition plan (g : gf) : list fault := snd (g_stream flaky g).

(** The same, but for more nodes in the cache. *)
Record grows (a b : gf) : Prop := {
  gr_stream : g_stream flaky b = g_stream flaky a;
  gr_root : g_root flaky b = g_root flaky a;
  gr_free : g_free flaky b = g_free flaky a;
  gr_nfree : g_nfree flaky b = g_nfree flaky a;
  gr_dirty : g_dirty flaky b = g_dirty flaky a;
  gr_cache : exists pre, g_cache flaky b = pre ++ g_cache flaky a }.
Lemma grows_refl a : grows a a. Proof. constructor; try reflexivity. exists []. reflexivity. Qed.
Lemma grows_trans a b c : grows a b -> grows b c -> grows a c.
Proof.
  intros [A1 A2 A3 A4 A5 (p & A6)] [B1 B2 B3 B4 B5 (q & B6)]. constructor; try congruence. exists (q ++ p). rewrite B6, A6. apply app_assoc.
Qed.
Lemma quiet_quiet g : quiet (quiet g) = quiet g. Proof. destruct g as [[s p] a b c d e]. reflexivity. Qed.

(** What only reads: with faults it does what it does without, or stops at one. *)
Definition ro {A} (m : GM flaky A) : Prop := forall g,
  quiet (fst (m (quiet g))) = fst (m (quiet g)) /\ grows (quiet g) (fst (m (quiet g))) /\ incl (plan (fst (m g))) (plan g) /\
  (quiet (fst (m g)) = fst (m (quiet g)) /\ snd (m g) = snd (m (quiet g)) \/
   exists e, snd (m g) = Err e /\ goes_wrong (plan g) e /\ grows (quiet g) (quiet (fst (m g))) /\ grows (quiet (fst (m g))) (fst (m (quiet g)))).

Lemma ro_still {A} (r : gf -> res A) : (forall g, r (quiet g) = r g) -> ro (fun g => (g, r g)).
Proof.
  intros H g. cbn [fst snd]. split; [apply quiet_quiet|]. split; [apply grows_refl|]. split; [apply incl_refl|]. left. rewrite H. auto.
Qed.
Lemma ro_ret A (a : A) : ro (g_ret flaky a). Proof. apply (ro_still (fun _ => Ok a)). reflexivity. Qed.
Lemma ro_throw A e : ro (@g_throw flaky A e). Proof. apply (ro_still (fun _ => Err e)). reflexivity. Qed.
Lemma ro_lift A (r : res A) : ro (g_lift flaky r). Proof. apply (ro_still (fun _ => r)). reflexivity. Qed.
Lemma ro_get_root : ro (g_gets flaky (g_root flaky)). Proof. apply (ro_still (fun g => Ok (g_root flaky g))). reflexivity. Qed.
Lemma ro_lookup p : ro (g_gets flaky (fun st => lookup p (g_cache flaky st))).
Proof. apply (ro_still (fun g => Ok (lookup p (g_cache flaky g)))). reflexivity. Qed.
Lemma ro_get_node p : ro (g_get_node flaky p).
Proof.
  intros g. pose proof (ro_still (fun g => match lookup p (g_cache flaky g) with Some nd => Ok nd | None => Err EUndef end) (fun _ => eq_refl) g) as H.
  unfold g_get_node. cbn [g_cache with_plan g_set_stream] in *. destruct (lookup p (g_cache flaky g)); exact H.
Qed.
Lemma ro_push x : ro (g_modify flaky (fun st => g_set_cache flaky st (x :: g_cache flaky st))).
Proof.
  intros g. unfold g_modify. cbn [fst snd]. split; [destruct g as [[s p] a b c d e]; reflexivity|]. split.
  - constructor; try reflexivity. exists [x]. reflexivity.
  - split; [apply incl_refl|]. left. split; [destruct g as [[s p] a b c d e]; reflexivity|reflexivity].
Qed.
Lemma ro_read off n : ro (g_read flaky off n).
Proof.
  intros [[s p] a b c d e]. unfold g_read, g_call. cbn [sm_step flaky with_plan g_set_stream g_stream flaky_step fst snd spec_step tl].
  split; [reflexivity|]. split; [apply grows_refl|].
  destruct p as [|[[er k]|] p]; cbn [fst snd].
  - split; [intros x Hx; exact Hx|]. left. auto.
  - split; [intros x Hx; right; exact Hx|]. right. exists er. split; [reflexivity|]. split; [exists k; left; reflexivity|].
    split; apply grows_refl.
  - split; [intros x Hx; right; exact Hx|]. left. auto.
Qed.
Lemma ro_bind A B (m : GM flaky A) (f : A -> GM flaky B) : ro m -> (forall a, ro (f a)) -> ro (g_bind flaky m f).
Proof.
  intros Hm Hf g. destruct (Hm g) as (Q & G & I & HC). unfold g_bind.
  destruct (m (quiet g)) as [gF rF]. destruct (m g) as [g1 r1]. cbn [fst snd] in *.
  assert (HX : forall a, quiet (fst (f a gF)) = fst (f a gF) /\ grows gF (fst (f a gF))).
  { intros a. destruct (Hf a gF) as (Q' & G' & _). rewrite Q in Q', G'. auto. }
  destruct HC as [(E1 & ->)|(e & -> & W & G1 & G2)].
  - destruct rF as [a|e]; cbn [fst snd]; [|auto 10].
    destruct (HX a) as (Q' & G'). split; [exact Q'|]. split; [exact (grows_trans _ _ _ G G')|].
    destruct (Hf a g1) as (_ & _ & I' & HC'). rewrite E1 in HC'. split; [intros x Hx; apply I, I', Hx|].
    destruct HC' as [C|(e & C1 & (k & C2) & C3 & C4)]; [left; exact C|right]. exists e. split; [exact C1|]. split; [exists k; apply I; exact C2|].
    split; [exact (grows_trans _ _ _ G C3)|exact C4].
  - destruct rF as [a|e']; cbn [fst snd].
    + destruct (HX a) as (Q' & G'). split; [exact Q'|]. split; [exact (grows_trans _ _ _ G G')|]. split; [exact I|]. right. exists e.
      split; [reflexivity|]. split; [exact W|]. split; [exact G1|]. exact (grows_trans _ _ _ G2 G').
    + split; [exact Q|]. split; [exact G|]. split; [exact I|]. right. exists e. auto.
Qed.

Create HintDb ros.
#[local] Hint Resolve ro_ret ro_throw ro_lift ro_get_root ro_lookup ro_get_node ro_push ro_read : ros.
Ltac rg :=
  repeat match goal with
  | |- ro (g_bind _ _ _) => apply ro_bind; [|intros ?]
  | |- ro (if ?b then _ else _) => destruct b
  | |- ro (match ?x with _ => _ end) => destruct x
  | |- ro _ => solve [auto with ros]
  end.
Lemma ro_read_page p : ro (g_read_page flaky p). Proof. unfold g_read_page. rg. Qed.
#[local] Hint Resolve ro_read_page : ros.
Lemma ro_read_node p : ro (g_read_node flaky p). Proof. unfold g_read_node. rg. Qed.
Lemma ro_dir_check b : ro (g_dir_check flaky b). Proof. unfold g_dir_check. rg. Qed.
#[local] Hint Resolve ro_read_node ro_dir_check : ros.
Lemma ro_retrieve a p : ro (g_retrieve_node flaky a p). Proof. unfold g_retrieve_node. rg. Qed.
#[local] Hint Resolve ro_retrieve : ros.
Lemma ro_root_node : ro (g_get_root_node flaky). Proof. unfold g_get_root_node. rg. Qed.
#[local] Hint Resolve ro_root_node : ros.

Section Dir.
Variable cmp : bytes -> bytes -> comparison.
Variable junk : N -> bytes.
Hypothesis Hcmp : cmp_ok cmp.
Hypothesis Hjunk : forall n, length (junk n) = BLOCK_SIZE.

Lemma ro_find_loop name : forall f n, ro (g_find_loop flaky cmp f n name).
Proof. induction f as [|f IH]; intros n; cbn [g_find_loop]; cbv zeta; rg; apply IH. Qed.
#[local] Hint Resolve ro_find_loop : ros.
Lemma ro_find_node name : ro (g_find_node flaky cmp name). Proof. unfold g_find_node. rg. Qed.
#[local] Hint Resolve ro_find_node : ros.
Lemma ro_get name : ro (g_get_entry flaky cmp name). Proof. unfold g_get_entry. rg. Qed.
Lemma ro_iterate : forall f n, ro (g_recursive_iterate flaky f n).
Proof.
  induction f as [|f IH]; intros n; cbn [g_recursive_iterate]; [rg|]. rg.
  generalize (n_children a) as cs. induction cs as [|c cs IHc]; [rg|]. rg.
Qed.
#[local] Hint Resolve ro_iterate : ros.
Lemma ro_list : ro (g_list_entries flaky). Proof. unfold g_list_entries. rg. Qed.
Lemma ro_empty : ro (g_is_empty flaky). Proof. unfold g_is_empty. rg. Qed.

Variable lim : nat.
Hypothesis Htop : forall p, N.to_nat (page_pos p) + BLOCK_SIZE <= lim.
Definition RF (s : bytes * list fault) (c : bytes) : Prop := s = (c, []).
Lemma flaky_array : behaves_as_array flaky_step RF lim.
Proof.
  intros s c o -> _ _. unfold flaky_step. cbn [fst snd]. destruct (spec_step c o) as [c' r]. cbn [tl fst snd].
  eexists. split; [reflexivity|]. reflexivity.
Qed.
Notation RelF := (Rel flaky RF lim None).
Notation GD := (GDir flaky RF lim None cmp).

(** Between two states of one directory lies the directory. *)
Lemma between st1 stF F o (g g' gF : gf) : RelF g st1 -> RelF gF stF -> rep cmp st1 F o -> rep cmp stF F o -> grows g g' -> grows g' gF ->
  exists st', RelF g' st' /\ rep cmp st' F o.
Proof.
  intros R1 RFn H1 HF G1 G2. set (st' := mkBt (b_stream st1) (b_root st1) (b_free st1) (b_nfree st1) (g_cache flaky g')). exists st'.
  assert (ES : b_stream stF = b_stream st1).
  { pose proof (rl_stream _ _ _ _ _ _ R1) as A. pose proof (rl_stream _ _ _ _ _ _ RFn) as B. unfold RF in *.
    rewrite (gr_stream _ _ G2), (gr_stream _ _ G1), A in B. congruence. }
  split.
  - destruct R1 as [A1 A2 A3 A4 A5 A6 A7]. constructor; cbn [st' b_stream b_root b_free b_nfree b_cache]; try assumption.
    + unfold RF. rewrite (gr_stream _ _ G1). exact A1.
    + rewrite (gr_root _ _ G1). exact A3.
    + rewrite (gr_free _ _ G1). exact A4.
    + rewrite (gr_nfree _ _ G1). exact A5.
    + reflexivity.
    + rewrite (gr_dirty _ _ G1). exact A7.
  - destruct H1 as [B1 B2 B3 B4 B5]. pose proof (r_inv _ _ _ _ HF) as CI. constructor; try assumption.
    pose proof (i_nodes _ _ _ B2) as N1. pose proof (i_nodes _ _ _ CI) as NF. pose proof (i_keys _ _ _ CI) as KF. pose proof (i_cache _ _ _ CI) as CF.
    destruct (gr_cache _ _ G1) as (p1 & E1). destruct (gr_cache _ _ G2) as (p2 & E2).
    rewrite (rl_cache _ _ _ _ _ _ R1) in E1. rewrite (rl_cache _ _ _ _ _ _ RFn) in E2.
    assert (LK : forall p nd, lookup p (g_cache flaky g') = Some nd -> lookup p (b_cache stF) = Some nd).
    { intros p nd Hl. apply in_lookup; [exact KF|]. rewrite E2. apply in_or_app. right. apply lookup_in. exact Hl. }
    assert (LN : forall p, lookup p (g_cache flaky g') = None -> lookup p (b_cache st1) = None).
    { intros p Hl. destruct (lookup p (b_cache st1)) as [nd|] eqn:E; [|reflexivity]. exfalso.
      apply lookup_in in E. assert (Hi : In (p, nd) (g_cache flaky g')) by (rewrite E1; apply in_or_app; right; exact E).
      apply in_lookup in Hi; [congruence|]. rewrite E2, map_app in KF. apply nodup_drop in KF. exact KF. }
    destruct B2 as [Hlen Hlim Hnd Hrg Hnodes Hcache Hkeys Hchain Hfree Hnfree]. constructor; try assumption.
    + apply Forall_forall. intros l Hl. rewrite Forall_forall in N1, NF. specialize (N1 l Hl). specialize (NF l Hl). unfold node_ok in *.
      cbn [st' b_cache]. destruct (lookup (l_pg l) (g_cache flaky g')) as [nd|] eqn:E.
      * rewrite (LK _ _ E) in NF. unfold stored, page in *. cbn [st' b_stream]. rewrite ES in NF. exact NF.
      * rewrite (LN _ E) in N1. exact N1.
    + intros p Hp. apply CF. unfold cached in *. cbn [st' b_cache] in Hp. destruct (lookup p (g_cache flaky g')) as [nd|] eqn:E; [|congruence].
      rewrite (LK _ _ E). discriminate.
    + cbn [st' b_cache]. rewrite E2, map_app in KF. apply nodup_drop in KF. exact KF.
    + eapply chain_ext; [|exact Hchain]. reflexivity.
Qed.

(** ** Lookups and listings *)
Lemma with_plan_quiet pl g : quiet (with_plan pl g) = quiet g. Proof. reflexivity. Qed.
Lemma rel_quiet g st : RelF g st -> quiet g = g.
Proof. intros H. pose proof (rl_stream _ _ _ _ _ _ H) as E. unfold RF in E. destruct g as [s a b c d e]. cbn in E. subst s. reflexivity. Qed.

Lemma ro_step A (m : GM flaky A) st F o stF (a : A) g pl : ro m -> RelF g st -> rep cmp st F o ->
  m g = (fst (m g), Ok a) -> RelF (fst (m g)) stF -> rep cmp stF F o ->
  exists st', RelF (quiet (fst (m (with_plan pl g)))) st' /\ rep cmp st' F o /\
    (snd (m (with_plan pl g)) = Ok a \/ exists e, snd (m (with_plan pl g)) = Err e /\ goes_wrong pl e).
Proof.
  intros Hm HR H E HRF HF. pose proof (rel_quiet _ _ HR) as Q. destruct (Hm (with_plan pl g)) as (_ & _ & _ & HC).
  rewrite with_plan_quiet, Q in HC. destruct HC as [(E1 & E2)|(e & E2 & W & G1 & G2)].
  - exists stF. rewrite E1. split; [exact HRF|]. split; [exact HF|]. left. rewrite E2, E. reflexivity.
  - destruct (between st stF F o g _ _ HR HRF H HF G1 G2) as (st' & R' & H'). exists st'. split; [exact R'|]. split; [exact H'|]. right. exists e. auto.
Qed.

(** ** Flushing *)
Lemma torn_ok st l L F nd d k : Inv st (l :: L) F -> lookup (l_pg l) (b_cache st) = Some nd -> n_dirty nd = true -> length d = BLOCK_SIZE ->
  Inv (set_stream st (arr_write (b_stream st) (N.to_nat (page_pos (l_pg l))) (firstn k d))) (l :: L) F.
Proof.
  intros H Hl Hdt Hd. pose proof (inv_page_valid _ _ _ _ H (or_introl eq_refl)) as Hv.
  pose proof (inv_page_lt _ _ _ _ H (or_introl eq_refl)) as Hlt. pose proof (nodup_pages_head _ _ _ _ H) as Hne.
  rewrite page_pos_small by exact Hv. inv_fields H. pose proof (page_in _ _ Hlt) as Hin.
  assert (Hfk : length (firstn k d) <= BLOCK_SIZE) by (rewrite firstn_length; lia).
  set (st1 := set_stream st _).
  assert (L1 : length (b_stream st1) = length (b_stream st)).
  { unfold st1. cbn [b_stream set_stream]. destruct (firstn k d) as [|x y] eqn:E; [reflexivity|]. rewrite <- E in *.
    rewrite arr_write_length_ne by (rewrite E; cbn; lia). rewrite Hlen. lia. }
  assert (Hpg : forall q, N.to_nat q < length (l :: L) + length F -> q <> l_pg l -> page st1 q = page st q).
  { intros q Hq Hq'. unfold page, st1. cbn [b_stream set_stream].
    pose proof (page_in _ _ Hq) as Hiq. pose proof (page_gap (N.to_nat q) (N.to_nat (l_pg l)) _ Hq Hlt ltac:(lia)) as Hg.
    destruct Hg as [Hg|Hg]; [apply arr_read_write_disj_l|apply arr_read_write_disj_r]; lia. }
  rewrite Forall_forall in Hrg. constructor.
  - rewrite L1. exact Hlen.
  - exact Hlim.
  - exact Hnd.
  - rewrite Forall_forall. exact Hrg.
  - inversion Hnodes as [|? ? Hln HLn]; subst. constructor.
    + unfold node_ok in *. cbn [st1 b_cache set_stream]. rewrite Hl in *. destruct Hln as (N1 & N2 & N3 & _). repeat (split; [assumption|]). congruence.
    + rewrite Forall_forall in HLn |- *. intros l' Hi. apply (node_ok_ext st); [reflexivity| |apply HLn; exact Hi].
      apply Hpg; [|apply Hne; exact Hi]. apply Hrg. apply in_or_app. left. right. apply in_map. exact Hi.
  - exact Hcache.
  - exact Hkeys.
  - eapply chain_ext; [|exact Hchain]. intros p Hp. apply Hpg.
    + apply Hrg. apply in_or_app. right. exact Hp.
    + intros ->. eapply nodup_app_disj; [exact Hnd|left; reflexivity|exact Hp].
  - exact Hfree.
  - exact Hnfree.
Qed.

Definition g_wr (p : N) (nd : node) : GM flaky unit :=
  g_bind flaky (g_write_node flaky junk p nd) (fun _ => g_put_node flaky p (mkNode (n_parent nd) (n_children nd) (n_entries nd) false)).

Lemma rel_len st L F : Inv st L F -> length (b_stream st) <= lim.
Proof.
  intros HI. rewrite (i_len _ _ _ HI). pose proof (i_lim _ _ _ HI) as HL. pose proof (Htop 1048574) as Ht.
  rewrite page_pos_small in Ht by (unfold PAGE_LIMIT; lia). unfold PAGE_LIMIT in HL.
  replace (N.to_nat 1048574 * BLOCK_SIZE + BLOCK_SIZE) with (N.to_nat 1048575 * BLOCK_SIZE) in Ht.
  - eapply Nat.le_trans; [|exact Ht]. apply Nat.mul_le_mono_r. lia.
  - replace (N.to_nat 1048575) with (S (N.to_nat 1048574)) by lia. cbn [Nat.mul]. lia.
Qed.

Lemma wr_ok (g : gf) st l L F nd : RelF (quiet g) st -> Inv st (l :: L) F -> fits l -> lookup (l_pg l) (b_cache st) = Some nd -> n_dirty nd = true ->
  exists st1, RelF (quiet (fst (g_wr (l_pg l) nd g))) st1 /\ Inv st1 (l :: L) F /\ b_root st1 = b_root st /\
    incl (plan (fst (g_wr (l_pg l) nd g))) (plan g) /\
    (snd (g_wr (l_pg l) nd g) = Ok tt /\ (forall q, q <> l_pg l -> lookup q (b_cache st1) = lookup q (b_cache st)) \/
     exists e, snd (g_wr (l_pg l) nd g) = Err e /\ goes_wrong (plan g) e).
Proof.
  intros HR HI Hf Hl Hdt. destruct (write_node_ok junk Hjunk st l L F nd HI Hf Hl) as (st1 & E1 & I1 & R1 & _ & K2).
  pose proof (inv_page_valid _ _ _ _ HI (or_introl eq_refl)) as Hv. destruct Hf as (F1 & F2 & F3 & F4).
  pose proof (i_nodes _ _ _ HI) as Hn. inversion Hn as [|? ? Hln HLn]; subst. unfold node_ok in Hln. rewrite Hl in Hln. destruct Hln as (N1 & N2 & _ & _).
  assert (Hb : to_buffer BLOCK_SIZE (n_children nd) (n_entries nd) = Ok (node_bytes (l_cs l) (l_es l))).
  { rewrite N1, N2. apply to_buffer_ok; [exact F4|apply BLOCK_SIZE_fits; assumption]. }
  unfold g_wr, g_write_node, write_node in *. rewrite (limit_invalid _ Hv) in *.
  set (d := node_bytes (l_cs l) (l_es l) ++ skipn (length (node_bytes (l_cs l) (l_es l))) (junk (l_pg l))) in *.
  assert (Hd : length d = BLOCK_SIZE).
  { unfold d. rewrite app_length, skipn_length, Hjunk, node_bytes_length by exact F4.
    pose proof (BLOCK_SIZE_fits (length (l_cs l)) (length (l_es l)) F1 F2). lia. }
  unfold bind, lift, write_page, put_node, modify in E1. rewrite Hb in E1. fold d in E1. injection E1 as E1.
  pose proof HR as [A1 A2 A3 A4 A5 A6 A7]. destruct g as [[s pl] a b c dt ch]. unfold RF in A1. cbn in A1, A3, A4, A5, A6, A7. injection A1 as A1.
  unfold g_bind, g_lift, g_write_page, g_write, g_call, g_put_node, g_modify. rewrite Hb. fold d.
  destruct pl as [|[[er k]|] pl]; cbn [sm_step flaky flaky_step g_stream snd fst spec_step tl g_set_stream].
  - exists st1. split; [|split; [exact I1|split; [exact R1|split; [apply incl_refl|left; split; [reflexivity|exact K2]]]]].
    pose proof (rel_len _ _ _ I1) as Hlen. rewrite <- E1 in *. constructor; cbn in *; [unfold RF; congruence|exact Hlen|assumption|assumption|assumption|rewrite A6; reflexivity|exact A7].
  - exists (set_stream st (arr_write (b_stream st) (N.to_nat (page_pos (l_pg l))) (firstn k d))).
    pose proof (torn_ok st l L F nd d k HI Hl Hdt Hd) as IT.
    split; [|split; [exact IT|split; [reflexivity|split; [intros x Hx; right; exact Hx|right; exists er; split; [reflexivity|exists k; left; reflexivity]]]]].
    pose proof (rel_len _ _ _ IT) as Hlen. constructor; cbn in *; [unfold RF; congruence|exact Hlen|assumption|assumption|assumption|assumption|exact A7].
  - exists st1. split; [|split; [exact I1|split; [exact R1|split; [intros x Hx; right; exact Hx|left; split; [reflexivity|exact K2]]]]].
    pose proof (rel_len _ _ _ I1) as Hlen. rewrite <- E1 in *. constructor; cbn in *; [unfold RF; congruence|exact Hlen|assumption|assumption|assumption|rewrite A6; reflexivity|exact A7].
Qed.

Lemma flush_loop_f L F : forall c (g : gf) st, RelF (quiet g) st -> Inv st L F -> Forall fits L -> NoDup (map fst c) ->
  (forall p nd, In (p, nd) c -> lookup p (b_cache st) = Some nd) ->
  exists st', RelF (quiet (fst (g_flush_loop flaky junk c g))) st' /\ Inv st' L F /\ b_root st' = b_root st /\
    (snd (g_flush_loop flaky junk c g) = Ok tt \/ exists e, snd (g_flush_loop flaky junk c g) = Err e /\ goes_wrong (plan g) e).
Proof.
  induction c as [|[p nd] c IH]; intros g st HR HI Hf Hn Hin.
  - exists st. cbn [g_flush_loop g_ret fst snd]. auto.
  - cbn [map fst] in Hn. inversion Hn as [|? ? Hn1 Hn2]; subst. pose proof (Hin p nd (or_introl eq_refl)) as Hl. cbn [g_flush_loop].
    destruct (n_dirty nd) eqn:Edirty.
    + assert (Hp : In p (pages L)) by (apply (i_cache _ _ _ HI); unfold cached; congruence).
      apply in_map_iff in Hp. destruct Hp as (l & El & Hl'). apply in_split in Hl'. destruct Hl' as (L1 & L2 & HL).
      assert (HP : Permutation L (l :: L1 ++ L2)) by (rewrite HL; apply Permutation_sym, Permutation_middle).
      assert (Hfl : fits l). { rewrite Forall_forall in Hf. apply Hf. rewrite HL. apply in_or_app. right. left. reflexivity. }
      subst p. destruct (wr_ok g st l (L1 ++ L2) F nd HR (inv_perm _ _ _ _ HP HI) Hfl Hl Edirty) as (st1 & R1 & I1 & Rt & Ip & HC).
      fold (g_wr (l_pg l) nd). unfold g_bind. destruct (g_wr (l_pg l) nd g) as [g1 r1]. cbn [fst snd] in *.
      apply (inv_perm _ _ _ _ (Permutation_sym HP)) in I1. destruct HC as [(-> & K2)|(e & -> & W)].
      * destruct (IH g1 st1 R1 I1 Hf Hn2) as (st' & R' & I' & Rt' & HC).
        { intros q n Hq. destruct (N.eq_dec q (l_pg l)) as [->|Hne]; [|rewrite K2 by exact Hne; apply Hin; right; exact Hq].
          exfalso. apply Hn1. apply in_map_iff. exists (l_pg l, n). auto. }
        exists st'. split; [exact R'|]. split; [exact I'|]. split; [congruence|]. destruct HC as [HC|(e & HC & k & W)]; [auto|right].
        exists e. split; [exact HC|]. exists k. apply Ip. exact W.
      * exists st1. cbn [fst snd]. split; [exact R1|]. split; [exact I1|]. split; [exact Rt|]. right. exists e. auto.
    + unfold g_bind, g_ret. apply IH; auto. intros q n Hq. apply Hin. right. exact Hq.
Qed.

Lemma subflush_calm (g : gf) pl : to_be_compacted g = false ->
  g_subflush flaky cmp junk (with_plan pl g) =
  match pl with
  | Some (er, _) :: pl' => (with_plan pl' g, Err er)
  | _ => g_flush_cache flaky junk (with_plan (tl pl) g)
  end.
Proof.
  unfold to_be_compacted. intros Hb.
  assert (K : forall pl', (let '(g', r) := (if (5 <? g_nfree flaky g)%N && (N.of_nat (length (fst (g_stream flaky g)) / (BLOCK_SIZE * 3 / 2)) <? g_nfree flaky g)%N
     then g_rebuild flaky cmp else g_ret flaky tt) (with_plan pl' g) in
     match r with Ok _ => g_flush_cache flaky junk g' | Err e => (g', Err e) end) = g_flush_cache flaky junk (with_plan pl' g)).
  { intros pl'. rewrite Hb. reflexivity. }
  unfold g_subflush, g_size, g_call, g_bind, g_gets in *.
  destruct pl as [|[[er k]|] pl].
  - exact (K []).
  - reflexivity.
  - exact (K pl).
Qed.

Lemma flush_f g m pl : GD g m -> to_be_compacted g = false ->
  GD (quiet (fst (g_subflush flaky cmp junk (with_plan pl g)))) m /\
  (snd (g_subflush flaky cmp junk (with_plan pl g)) = Ok tt \/
   exists e, snd (g_subflush flaky cmp junk (with_plan pl g)) = Err e /\ goes_wrong pl e).
Proof.
  intros (st & HR & F & o & H & HP & He) Hb. pose proof (rel_quiet _ _ HR) as Q.
  assert (Hf : Forall fits (tnodes o)) by (apply (rep_fits cmp junk Hjunk st F o H); rewrite HP; exact He).
  assert (K : forall pl', incl pl' pl -> GD (quiet (fst (g_flush_cache flaky junk (with_plan pl' g)))) m /\
    (snd (g_flush_cache flaky junk (with_plan pl' g)) = Ok tt \/ exists e, snd (g_flush_cache flaky junk (with_plan pl' g)) = Err e /\ goes_wrong pl e)).
  { intros pl' Hi. unfold g_flush_cache, g_bind, g_gets. cbn [g_cache with_plan g_set_stream].
    destruct (flush_loop_f (tnodes o) F (g_cache flaky g) (with_plan pl' g) st) as (st' & R' & I' & Rt & HC).
    - rewrite with_plan_quiet, Q. exact HR.
    - exact (r_inv _ _ _ _ H).
    - exact Hf.
    - rewrite (rl_cache _ _ _ _ _ _ HR). exact (i_keys _ _ _ (r_inv _ _ _ _ H)).
    - intros p nd Hp. rewrite (rl_cache _ _ _ _ _ _ HR) in Hp. apply in_lookup; [exact (i_keys _ _ _ (r_inv _ _ _ _ H))|exact Hp].
    - split.
      + exists st'. split; [exact R'|]. exists F, o. split; [|auto]. destruct H as [A1 A2 A3 A4 A5]. constructor; try assumption. congruence.
      + destruct HC as [HC|(e & HC & k & W)]; [auto|right]. exists e. split; [exact HC|]. exists k. apply Hi. exact W. }
  rewrite (subflush_calm g pl Hb). destruct pl as [|[[er k]|] pl].
  - exact (K [] (incl_refl _)).
  - cbn [fst snd]. split; [|right; exists er; split; [reflexivity|exists k; left; reflexivity]].
    rewrite with_plan_quiet, Q. exists st. split; [exact HR|]. exists F, o. auto.
  - apply (K pl). intros x Hx. right. exact Hx.
Qed.

(** ** One call *)
Notation small m := (N.of_nat (length m) <= MAX_ENTRIES)%N.

Lemma bind_ret A B (x : GM flaky A) (f : A -> B) g : g_bind flaky x (fun a => g_ret flaky (f a)) g = (fst (x g), rmap f (snd (x g))).
Proof. unfold g_bind, g_ret. destruct (x g) as [g' [a|e]]; reflexivity. Qed.

Lemma gd_quiet g m : GD g m -> quiet g = g.
Proof. intros (st & HR & _). exact (rel_quiet _ _ HR). Qed.

Lemma read_f A (x : GM flaky A) (x' : M A) g st F o m a st' pl :
  ro x -> sim flaky RF lim None x x' -> RelF g st -> rep cmp st F o -> Permutation (ents o) m -> Forall entry_ok m ->
  x' st = (st', Ok a) -> rep cmp st' F o ->
  GD (quiet (fst (x (with_plan pl g)))) m /\ (snd (x (with_plan pl g)) = Ok a \/ exists e, snd (x (with_plan pl g)) = Err e /\ goes_wrong pl e).
Proof.
  intros Hro Hs HR H HP He E H'. destruct (proj2 Hs g st HR) as (g' & E1 & R1).
  - rewrite E. cbn [fst]. exact (rel_len _ _ _ (r_inv _ _ _ _ H')).
  - rewrite E in E1, R1. cbn [fst snd] in E1, R1.
    destruct (ro_step A x st F o st' a g pl Hro HR H) as (st2 & R2 & H2 & HC); [rewrite E1; reflexivity|rewrite E1; exact R1|exact H'|].
    split; [exists st2; split; [exact R2|]; exists F, o; auto|exact HC].
Qed.

Definition answers_or (o : dop) (pl : list fault) (m : list entry) (r : res dout) : Prop :=
  same_answer r (snd (dspec_step cmp o m)) \/ exists e, goes_wrong pl e /\ r = Err e.

(** A change fails where the lookup does. *)
Lemma get_fails name g m pl e : GD g m -> name_too_long name = false -> snd (g_get_entry flaky cmp name (with_plan pl g)) = Err e ->
  snd (g_find_node flaky cmp name (with_plan pl g)) = Err e /\
  fst (g_get_entry flaky cmp name (with_plan pl g)) = fst (g_find_node flaky cmp name (with_plan pl g)).
Proof.
  intros HG El Hf. pose proof (gd_quiet _ _ HG) as Q. pose proof flaky_array as HD. destruct HG as (st & HR & F & o & H & HP & He).
  unfold name_too_long in El. pose proof El as El'. apply Nat.ltb_ge in El'. destruct (get_entry_ok cmp Hcmp st F o name H El') as (st' & E & H').
  destruct (proj2 (sim_get_entry flaky RF lim HD Htop None cmp name) g st HR) as (gc & Ec & _).
  { rewrite E. exact (rel_len _ _ _ (r_inv _ _ _ _ H')). }
  rewrite E in Ec. cbn [snd] in Ec.
  destruct (ro_find_node name (with_plan pl g)) as (_ & _ & _ & HC). rewrite with_plan_quiet, Q in HC.
  unfold g_get_entry, MAX_FILENAME_LENGTH in *. rewrite El in *. unfold g_bind at 1 in Hf. unfold g_bind at 1 in Ec. unfold g_bind at 1.
  destruct (g_find_node flaky cmp name (with_plan pl g)) as [g1 [f|e1]]; cbn [fst snd] in *; [exfalso|split; [congruence|reflexivity]].
  destruct HC as [(E1 & E2)|(e2 & E2 & _)]; [|discriminate E2].
  destruct (g_find_node flaky cmp name g) as [g2 r2]. cbn [fst snd] in *. subst r2. subst g2.
  destruct f as [[[n i] [|]]|]; [|discriminate Hf|discriminate Hf].
  unfold g_bind, g_get_node, g_lift in Hf, Ec. cbn [g_cache with_plan g_set_stream] in Ec.
  destruct (lookup n (g_cache flaky g1)) as [nd|]; [|discriminate Ec].
  destruct (at_ (n_entries nd) i) as [en|]; [|discriminate Ec]. destruct (eq_name cmp name (e_name en)); discriminate Hf.
Qed.

Lemma change_fails B (x : GM flaky B) name rest g m pl e :
  x = (if MAX_FILENAME_LENGTH <? length name then g_throw flaky (EPosix ENAMETOOLONG) else g_bind flaky (g_find_node flaky cmp name) rest) ->
  GD g m -> snd (g_get_entry flaky cmp name (with_plan pl g)) = Err e ->
  x (with_plan pl g) = (fst (g_get_entry flaky cmp name (with_plan pl g)), Err e).
Proof.
  intros -> HG Hf. destruct (name_too_long name) eqn:El.
  - unfold g_get_entry in *. unfold name_too_long in El. unfold MAX_FILENAME_LENGTH in *. rewrite El in *. unfold g_throw in *. cbn [fst snd] in *. congruence.
  - destruct (get_fails name g m pl e HG El Hf) as (E1 & E2). rewrite E2. unfold name_too_long in El. unfold MAX_FILENAME_LENGTH. rewrite El.
    unfold g_bind. destruct (g_find_node flaky cmp name (with_plan pl g)) as [g1 r1]. cbn [fst snd] in *. subst r1. reflexivity.
Qed.

Lemma get_f name g m pl : GD g m ->
  GD (quiet (fst (g_get_entry flaky cmp name (with_plan pl g)))) m /\
  answers_or (DGet name) pl m (rmap OEntry (snd (g_get_entry flaky cmp name (with_plan pl g)))).
Proof.
  intros HG. pose proof (gd_quiet _ _ HG) as Q. pose proof flaky_array as HD. unfold answers_or. cbn [fst snd].
  cbn [dspec_step]. destruct (name_too_long name) eqn:El.
  - unfold g_get_entry, MAX_FILENAME_LENGTH. unfold name_too_long in El. rewrite El. cbn. split; [change (GD (quiet g) m); rewrite Q; exact HG|left; reflexivity].
  - destruct HG as (st & HR & F & o & H & HP & He). unfold name_too_long in El. apply Nat.ltb_ge in El.
    destruct (get_entry_ok cmp Hcmp st F o name H El) as (st' & E & H').
    destruct (read_f _ _ _ g st F o m _ st' pl (ro_get name) (sim_get_entry flaky RF lim HD Htop None cmp name) HR H HP He E H') as (G & HC).
    split; [exact G|]. destruct HC as [->|(e & -> & W)]; [left|right; exists e; auto].
    cbn. rewrite (find_name_perm cmp Hcmp name _ _ (r_sorted _ _ _ _ H) HP). reflexivity.
Qed.

Lemma get_err name g m pl e : GD g m -> snd (f_step cmp junk (DGet name) pl g) = Err e ->
  snd (g_get_entry flaky cmp name (with_plan pl g)) = Err e.
Proof.
  intros _ H. unfold f_step in H. cbn [g_step] in H. rewrite bind_ret in H. cbn [snd] in H.
  destruct (snd (g_get_entry flaky cmp name (with_plan pl g))); [discriminate H|cbn in H; congruence].
Qed.

(** A change that fails so early: the state and the error are those of the lookup. *)
Lemma early name o x g m pl e : GD g m ->
  x (with_plan pl g) = (fst (g_get_entry flaky cmp name (with_plan pl g)), @Err dout e) ->
  snd (g_get_entry flaky cmp name (with_plan pl g)) = Err e ->
  (name_too_long name = true -> snd (dspec_step cmp o m) = Err (EPosix 36)) ->
  GD (quiet (fst (x (with_plan pl g)))) (next cmp o (snd (x (with_plan pl g))) m) /\ answers_or o pl m (snd (x (with_plan pl g))).
Proof.
  intros HG Ex Hf H1. rewrite Ex. cbn [fst snd next]. destruct (get_f name g m pl HG) as (G & HA). split; [exact G|]. rewrite Hf in HA. unfold answers_or in *. cbn [fst snd rmap] in *.
  destruct HA as [HA|HA]; [|right; exact HA]. left. cbn [dspec_step] in HA. destruct (name_too_long name); [|discriminate HA]. cbn [snd] in HA.
  rewrite H1 by reflexivity. exact HA.
Qed.

Lemma f_step_eq o pl g : f_step cmp junk o pl g = (quiet (fst (g_step cmp junk o (with_plan pl g))), snd (g_step cmp junk o (with_plan pl g))).
Proof. unfold f_step. destruct (g_step cmp junk o (with_plan pl g)); reflexivity. Qed.

Lemma next_ok o r s m : s = snd (dspec_step cmp o m) -> r = s -> next cmp o r m = fst (dspec_step cmp o m).
Proof.
  intros -> ->. unfold next. destruct o as [name|name id ty|name| | | |]; cbn [dspec_step]; try reflexivity; destruct (name_too_long name); try reflexivity.
  destruct (find_name cmp name m); reflexivity.
Qed.

Lemma step_f o pl g m : GD g m -> dop_ok o -> small m -> small (fst (dspec_step cmp o m)) -> step_calm cmp junk o pl g ->
  GD (fst (f_step cmp junk o pl g)) (next cmp o (snd (f_step cmp junk o pl g)) m) /\ answers_or o pl m (snd (f_step cmp junk o pl g)).
Proof.
  intros HG Hok HM HM' Hc. pose proof (gd_quiet _ _ HG) as Q. pose proof flaky_array as HD.
  assert (Hsame : forall r, (forall name id ty, o <> DAdd name id ty) -> (forall name, o <> DRemove name) -> next cmp o r m = m).
  { intros r N1 N2. unfold next. destruct r; [|reflexivity]. destruct o as [name|name id ty|name| | | |]; try reflexivity.
    - cbn [dspec_step]. destruct (name_too_long name); reflexivity.
    - elim (N1 name id ty). reflexivity.
    - elim (N2 name). reflexivity. }
  rewrite f_step_eq. cbn [fst snd].
  destruct o as [name|name id ty|name| | | |]; cbn [g_step step_calm dop_ok] in *.
  - (* get *)
    rewrite Hsame by discriminate. rewrite bind_ret. cbn [fst snd]. exact (get_f name g m pl HG).
  - (* add *)
    destruct Hc as [->|(e & Hf)].
    + rewrite Q, bind_ret. destruct (dir_add flaky RF lim HD Htop None cmp junk Hcmp Hjunk g m name id ty Hok HM' HG) as (g' & r & E & G & Er).
      rewrite E. cbn [fst snd]. rewrite (gd_quiet _ _ G). rewrite (next_ok _ _ _ _ (eq_sym Er) (eq_refl)). split; [exact G|]. left. rewrite Er. destruct r; reflexivity.
    + apply (get_err name g m) in Hf; [|exact HG].
      apply (early name (DAdd name id ty) (fun g => g_bind flaky (g_add_entry flaky cmp name id ty) (fun b => g_ret flaky (OBool b)) g) g m pl e HG); [|exact Hf|].
      * rewrite bind_ret. rewrite (change_fails _ (g_add_entry flaky cmp name id ty) name _ g m pl e eq_refl HG Hf). reflexivity.
      * intros El. cbn [dspec_step]. rewrite El. reflexivity.
  - (* remove *)
    destruct Hc as [->|(e & Hf)].
    + rewrite Q, bind_ret. destruct (dir_remove flaky RF lim HD Htop None cmp junk Hcmp Hjunk g m name HM HG) as (g' & r & E & G & Er).
      rewrite E. cbn [fst snd]. rewrite (gd_quiet _ _ G). rewrite (next_ok _ _ _ _ (eq_sym Er) (eq_refl)). split; [exact G|]. left. rewrite Er. destruct r; reflexivity.
    + apply (get_err name g m) in Hf; [|exact HG].
      apply (early name (DRemove name) (fun g => g_bind flaky (g_remove_entry flaky cmp name) (fun b => g_ret flaky (OEntry b)) g) g m pl e HG); [|exact Hf|].
      * rewrite bind_ret. rewrite (change_fails _ (g_remove_entry flaky cmp name) name _ g m pl e eq_refl HG Hf). reflexivity.
      * intros El. cbn [dspec_step]. rewrite El. reflexivity.
  - (* list *)
    rewrite Hsame by discriminate. rewrite bind_ret. unfold answers_or. cbn [fst snd dspec_step]. destruct HG as (st & HR & F & o & H & HP & He).
    destruct (list_ok cmp st F o H) as (st' & l & E & Pl & H').
    destruct (read_f _ _ _ g st F o m _ st' pl ro_list (sim_list flaky RF lim HD Htop None) HR H HP He E H') as (G & HC).
    split; [exact G|]. destruct HC as [->|(e & -> & W)]; [left|right; exists e; auto]. cbn. rewrite Pl. exact HP.
  - (* empty *)
    rewrite Hsame by discriminate. rewrite bind_ret. unfold answers_or. cbn [fst snd dspec_step]. destruct HG as (st & HR & F & o & H & HP & He).
    destruct (is_empty_ok cmp junk Hjunk st F o H) as (st' & E & H').
    destruct (read_f _ _ _ g st F o m _ st' pl ro_empty (sim_is_empty flaky RF lim HD Htop None) HR H HP He E H') as (G & HC).
    split; [exact G|]. destruct HC as [->|(e & -> & W)]; [left|right; exists e; auto]. cbn.
    destruct (ents o) as [|x l], m as [|y l']; try reflexivity.
    + apply Permutation_nil in HP. discriminate HP.
    + symmetry in HP. apply Permutation_nil in HP. discriminate HP.
  - (* flush *)
    rewrite Hsame by discriminate. rewrite bind_ret. unfold answers_or. cbn [fst snd dspec_step]. destruct Hc as [->|Hb].
    + rewrite Q. destruct (dir_flush flaky RF lim HD Htop None cmp junk Hcmp Hjunk g m HG) as (g' & E & G & _).
      rewrite E. cbn [fst snd]. rewrite (gd_quiet _ _ G). split; [exact G|]. left. reflexivity.
    + destruct (flush_f g m pl HG Hb) as (G & HC). split; [exact G|].
      destruct HC as [->|(e & -> & W)]; [left; reflexivity|right; exists e; auto].
  - (* reload *)
    rewrite Hsame by discriminate. subst pl. rewrite Q. destruct (dir_flush flaky RF lim HD Htop None cmp junk Hcmp Hjunk g m HG) as (g' & E & G & C).
    unfold answers_or, g_bind, g_modify, g_ret. rewrite E. cbn [fst snd dspec_step].
    pose proof (dir_forget flaky RF lim None cmp g' m G C) as G2. rewrite (gd_quiet _ _ G2). split; [exact G2|left; exact eq_refl].
Qed.

(** ** Histories *)
Lemma run_f ops : forall g m, GD g m -> Forall dop_ok (map fst ops) ->
  (forall k, (N.of_nat (length (after cmp (firstn k ops) (snd (f_run cmp junk ops g)) m)) < 6000000)%N) -> run_calm cmp junk ops g ->
  explained cmp ops (snd (f_run cmp junk ops g)) m.
Proof.
  induction ops as [|[o pl] ops IH]; intros g m HG Hok HM Hc; [exact I|].
  cbn [map fst] in *. inversion Hok as [|? ? Ho Hok']; subst. destruct Hc as [Hc Hc'].
  pose proof (HM 0) as HM0. cbn [firstn after] in HM0.
  assert (HM1 : small (fst (dspec_step cmp o m))).
  { pose proof (spec_step_size cmp o m). unfold MAX_ENTRIES. lia. }
  assert (HMm : small m) by (unfold MAX_ENTRIES; lia).
  destruct (step_f o pl g m HG Ho HMm HM1 Hc) as (G & HA). unfold answers_or in HA.
  cbn [f_run] in *. destruct (f_step cmp junk o pl g) as [g1 r1]. cbn [fst snd] in *.
  specialize (IH g1 (next cmp o r1 m) G Hok'). destruct (f_run cmp junk ops g1) as [g2 rs]. cbn [fst snd] in *.
  cbn [explained]. split; [exact HA|]. apply IH; [|exact Hc'].
  intros k. exact (HM (S k)).
Qed.
End Dir.

Lemma page_pos_top p : N.to_nat (page_pos p) + BLOCK_SIZE <= N.to_nat (2 ^ 32 + 4096).
Proof.
  unfold page_pos. assert ((p * 4096) mod 2 ^ 32 < 2 ^ 32)%N by (apply N.mod_lt; discriminate).
  replace (N.to_nat (2 ^ 32 + 4096)) with (N.to_nat (2 ^ 32) + BLOCK_SIZE) by (rewrite N2Nat.inj_add; reflexivity). lia.
Qed.

Theorem faulty_history cmp junk : cmp_ok cmp -> (forall n, length (junk n) = 4096) ->
  forall ops, Forall dop_ok (map fst ops) -> never_huge cmp ops (snd (f_run cmp junk ops new_dir)) -> run_calm cmp junk ops new_dir ->
  explained cmp ops (snd (f_run cmp junk ops new_dir)) [].
Proof.
  intros Hcmp Hjunk ops H1 H2 H3. apply (run_f cmp junk Hcmp Hjunk (N.to_nat (2 ^ 32 + 4096)) page_pos_top); [|exact H1|exact H2|exact H3].
  apply dir_new; try reflexivity. left. reflexivity.
Qed.

Lemma never_huge_short cmp ops rs : (N.of_nat (length ops) < 6000000)%N -> never_huge cmp ops rs.
Proof.
  intros H k. assert (K : forall ops rs m, length (after cmp ops rs m) <= length m + length ops).
  { clear. induction ops as [|[o p] ops IH]; intros rs m; [cbn; lia|]. destruct rs as [|r rs]; cbn [after]; [lia|].
    pose proof (IH rs (next cmp o r m)) as H. assert (length (next cmp o r m) <= S (length m)); [|cbn [length]; lia].
    unfold next. destruct r; [apply spec_step_size|lia]. }
  pose proof (K (firstn k ops) rs []) as H1. pose proof (firstn_length k ops). cbn [length] in H1. lia.
Qed.
