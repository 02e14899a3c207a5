(** The B-tree over a stream does what the B-tree over an array does, as long as the
    array stays within what the stream can hold. *)
From Verif Require Import Base BaseLemmas CodecModel StreamSpec AdaptorModel BtreeModel GBtreeModel BtreeSpec BtreeCodec BtreeInv BtreeTree BtreeSearch BtreeInsert BtreeDelete BtreeDir BtreeFlush BtreeTop.
From Coq Require Import Permutation.
Local Open Scope list_scope.

Lemma filter_le {T} (f : T -> bool) l : length (filter f l) <= length l.
Proof. induction l as [|x l IH]; cbn; [lia|]. destruct (f x); cbn; lia. Qed.

Section Sim.
Variable D : strm.
Variable R : sm_st D -> bytes -> Prop.
Variable lim : nat.
Hypothesis HD : behaves_as_array (sm_step D) R lim.
Hypothesis Htop : forall p, N.to_nat (page_pos p) + BLOCK_SIZE <= lim.
(** The header words last written, if the object is not dirty. *)
Variable w0 : option (N * N * N).

Record Rel (g : gbt D) (st : bt) : Prop := {
  rl_stream : R (g_stream D g) (b_stream st);
  rl_len : length (b_stream st) <= lim;
  rl_root : g_root D g = b_root st;
  rl_free : g_free D g = b_free st;
  rl_nfree : g_nfree D g = b_nfree st;
  rl_cache : g_cache D g = b_cache st;
  rl_dirty : g_dirty D g = true \/ w0 = Some (b_root st, b_free st, b_nfree st) }.

Definition len (st : bt) : nat := length (b_stream st).

(** Going back from a small state. *)
Definition back {A} (m' : M A) : Prop := forall st, len (fst (m' st)) <= lim -> len st <= lim.
Definition sim {A} (m : GM D A) (m' : M A) : Prop :=
  back m' /\
  forall g st, Rel g st -> len (fst (m' st)) <= lim ->
    exists g', m g = (g', snd (m' st)) /\ Rel g' (fst (m' st)).

Lemma sim_ret A (a : A) : sim (g_ret D a) (ret a).
Proof. split; [intros st H; exact H|]. intros g st HR _. exists g. split; [reflexivity|exact HR]. Qed.
Lemma sim_throw A e : sim (@g_throw D A e) (throw e).
Proof. split; [intros st H; exact H|]. intros g st HR _. exists g. split; [reflexivity|exact HR]. Qed.
Lemma sim_lift A (r : res A) : sim (g_lift D r) (lift r).
Proof. split; [intros st H; exact H|]. intros g st HR _. exists g. split; [reflexivity|exact HR]. Qed.
Lemma sim_gets A (f : gbt D -> A) (f' : bt -> A) : (forall g st, Rel g st -> f g = f' st) -> sim (g_gets D f) (gets f').
Proof. intros Hf. split; [intros st H; exact H|]. intros g st HR _. exists g. unfold g_gets, gets. cbn [fst snd]. rewrite (Hf _ _ HR). auto. Qed.
Lemma sim_modify f f' : (forall st, len (f' st) = len st) -> (forall g st, Rel g st -> Rel (f g) (f' st)) -> sim (g_modify D f) (modify f').
Proof.
  intros Hl Hf. split; [intros st H; cbn [modify fst] in H; rewrite Hl in H; exact H|].
  intros g st HR _. exists (f g). split; [reflexivity|]. apply Hf. exact HR.
Qed.

Lemma sim_bind A B (m : GM D A) m' (f : A -> GM D B) f' :
  sim m m' -> (forall a, sim (f a) (f' a)) -> sim (g_bind D m f) (bind m' f').
Proof.
  intros [Hb Hs] Hf. split.
  - intros st H. apply Hb. unfold bind in H. destruct (m' st) as [st1 [a|e]]; cbn [fst] in *; [|exact H].
    apply (proj1 (Hf a)). exact H.
  - intros g st HR H. unfold bind, g_bind in *.
    destruct (m' st) as [st1 [a|e]] eqn:E; cbn [fst snd] in *.
    + destruct (Hs g st HR) as (g1 & E1 & HR1). { rewrite E. cbn [fst]. apply (proj1 (Hf a)). exact H. }
      rewrite E in E1, HR1. cbn [fst snd] in *. rewrite E1. apply (proj2 (Hf a)); assumption.
    + destruct (Hs g st HR) as (g1 & E1 & HR1). { rewrite E. exact H. }
      rewrite E in E1, HR1. cbn [fst snd] in *. rewrite E1. exists g1. auto.
Qed.

Lemma Rel_stream g st s c : Rel g st -> R s c -> length c <= lim -> Rel (g_set_stream D g s) (set_stream st c).
Proof. intros H Hs Hc. destruct H. constructor; cbn; assumption. Qed.

Lemma page_top p : N.to_nat (page_pos p) <= lim.
Proof. pose proof (Htop p). lia. Qed.

(** ** The stream *)
Lemma sim_size : sim (g_size D) (gets len).
Proof.
  split; [intros st H; exact H|]. intros g st HR _. unfold g_size, g_call.
  destruct (HD (g_stream D g) (b_stream st) SSize (rl_stream _ _ HR) (rl_len _ _ HR) I) as (s' & E & HR').
  rewrite E. cbn [spec_step fst snd gets] in *. eexists. split; [reflexivity|].
  replace st with (set_stream st (b_stream st)) at 1 by (destruct st; reflexivity).
  apply Rel_stream; [exact HR|exact HR'|apply HR].
Qed.

Lemma sim_read_page p : sim (g_read_page D p) (read_page p).
Proof.
  split; [intros st; unfold read_page; destruct (_ =? _); auto|]. intros g st HR _. unfold g_read_page, g_bind, g_read, g_call, read_page.
  destruct (HD (g_stream D g) (b_stream st) (SRead (N.to_nat (page_pos p)) BLOCK_SIZE) (rl_stream _ _ HR) (rl_len _ _ HR)) as (s' & E & HR').
  { cbn [sop_within]. apply Htop. }
  rewrite E. cbn [spec_step fst snd] in *.
  assert (HR2 : Rel (g_set_stream D g s') st).
  { replace st with (set_stream st (b_stream st)) at 1 by (destruct st; reflexivity). apply Rel_stream; [exact HR|exact HR'|apply HR]. }
  destruct (_ =? _); cbn [fst snd]; eexists; (split; [reflexivity|exact HR2]).
Qed.

Lemma len_write c pos (d : bytes) : length (arr_write c pos d) <= lim -> length c <= lim /\ (d = [] \/ pos + length d <= lim).
Proof.
  intros H. destruct d as [|b d].
  - cbn [arr_write] in H. auto.
  - rewrite arr_write_length_ne in H by (cbn; lia). split; [lia|]. right. lia.
Qed.

Lemma sim_write_page p d : sim (g_write_page D p d) (write_page p d).
Proof.
  split.
  - intros st H. unfold write_page, modify, len in H. cbn [fst set_stream b_stream] in H. apply len_write in H. apply H.
  - intros g st HR H. unfold g_write_page, g_write, g_call, write_page, modify in *. cbn [fst snd] in *.
    unfold len in H. cbn [set_stream b_stream] in H. pose proof (len_write _ _ _ H) as [_ Hw].
    destruct (HD (g_stream D g) (b_stream st) (SWrite (N.to_nat (page_pos p)) d) (rl_stream _ _ HR) (rl_len _ _ HR)) as (s' & E & HR').
    { cbn [sop_within]. destruct Hw as [->|Hw]; [cbn [length]; pose proof (page_top p); lia|exact Hw]. }
    rewrite E. cbn [spec_step fst snd] in *. eexists. split; [reflexivity|]. apply Rel_stream; assumption.
Qed.

(** A resize known to be to a small size or seen to be. *)
Lemma sim_resize_grow n :
  forall g st, Rel g st -> n <= lim ->
  exists g', g_resize D n g = (g', Ok tt) /\ Rel g' (set_stream st (arr_resize (b_stream st) n)).
Proof.
  intros g st HR Hn. unfold g_resize, g_call.
  destruct (HD (g_stream D g) (b_stream st) (SResize n) (rl_stream _ _ HR) (rl_len _ _ HR) Hn) as (s' & E & HR').
  rewrite E. cbn [spec_step fst snd] in *. eexists. split; [reflexivity|]. apply Rel_stream; [exact HR|exact HR'|].
  rewrite arr_resize_length. exact Hn.
Qed.

Lemma sim_if A (b : bool) (m1 m2 : GM D A) m1' m2' : sim m1 m1' -> sim m2 m2' -> sim (if b then m1 else m2) (if b then m1' else m2').
Proof. destruct b; auto. Qed.

Ltac simple_mod := apply sim_modify; [intros st; reflexivity|intros g st [H1 H2 H3 H4 H5 H6 H7]; constructor; cbn; auto; try congruence].
Lemma sim_set_root r : sim (g_modify D (fun st => g_set_root D st r)) (modify (fun st => set_root st r)). Proof. simple_mod. Qed.
Lemma sim_set_free r : sim (g_modify D (fun st => g_set_free D st r)) (modify (fun st => set_free st r)). Proof. simple_mod. Qed.
Lemma sim_set_nfree r : sim (g_modify D (fun st => g_set_nfree D st r)) (modify (fun st => set_nfree st r)). Proof. simple_mod. Qed.
Lemma sim_set_cache (f : list (N * node) -> list (N * node)) :
  sim (g_modify D (fun st => g_set_cache D st (f (g_cache D st)))) (modify (fun st => set_cache st (f (b_cache st)))).
Proof. simple_mod. Qed.
Lemma sim_get_free : sim (g_gets D (g_free D)) (gets b_free). Proof. apply sim_gets. intros g st H. apply H. Qed.
Lemma sim_get_nfree : sim (g_gets D (g_nfree D)) (gets b_nfree). Proof. apply sim_gets. intros g st H. apply H. Qed.
Lemma sim_get_root : sim (g_gets D (g_root D)) (gets b_root). Proof. apply sim_gets. intros g st H. apply H. Qed.
Lemma sim_get_cache : sim (g_gets D (g_cache D)) (gets b_cache). Proof. apply sim_gets. intros g st H. apply H. Qed.

Create HintDb sims.
Hint Resolve sim_ret sim_throw sim_lift sim_size sim_read_page sim_write_page sim_set_root sim_set_free sim_set_nfree
  sim_get_free sim_get_nfree sim_get_root sim_get_cache : sims.

Ltac go :=
  repeat match goal with
  | |- sim (g_bind _ _ _) (bind _ _) => apply sim_bind; [|intros ?]
  | |- sim (if ?b then _ else _) (if ?b then _ else _) => destruct b
  | |- sim (match ?x with _ => _ end) (match ?x with _ => _ end) => destruct x
  | |- sim (let (a, b) := ?x in _) (let (c, d) := ?x in _) => destruct x
  | |- sim _ _ => solve [auto with sims]
  | |- sim (g_modify _ (fun st => g_set_cache _ st (?f (g_cache _ st)))) _ => apply (sim_set_cache f)
  end.

Lemma sim_read_free_page p : sim (g_read_free_page D p) (read_free_page p).
Proof. unfold g_read_free_page, read_free_page. go. Qed.
Lemma sim_write_free_page p a b : sim (g_write_free_page D p a b) (write_free_page p a b).
Proof. unfold g_write_free_page, write_free_page. go. Qed.
Hint Resolve sim_read_free_page sim_write_free_page : sims.

Lemma sim_allocate : sim (g_allocate_page D) allocate_page.
Proof.
  unfold g_allocate_page, allocate_page. apply sim_bind; [auto with sims|]. intros pg. destruct (pg =? INVALID_PAGE)%N; [|go].
  (* the stream grows *)
  assert (E : forall st, (bind (gets (fun st => length (b_stream st))) (fun size =>
      bind (modify (fun st => set_stream st (arr_resize (b_stream st) (size + BLOCK_SIZE)))) (fun _ => ret (u32 (N.of_nat (size / BLOCK_SIZE)))))) st
      = (set_stream st (arr_resize (b_stream st) (len st + BLOCK_SIZE)), Ok (u32 (N.of_nat (len st / BLOCK_SIZE))))) by reflexivity.
  split.
  - intros st. rewrite E. cbn [fst]. unfold len. cbn [set_stream b_stream]. rewrite arr_resize_length. lia.
  - intros g st HR. rewrite E. cbn [fst snd]. intros H. unfold len in H. cbn [set_stream b_stream] in H. rewrite arr_resize_length in H.
    destruct (proj2 sim_size g st HR (rl_len _ _ HR)) as (g1 & E1 & HR1). cbn [gets fst snd] in E1, HR1.
    destruct (sim_resize_grow (len st + BLOCK_SIZE) g1 st HR1 H) as (g2 & E2 & HR2).
    unfold g_bind. rewrite E1, E2. exists g2. split; [reflexivity|exact HR2].
Qed.

Definition g_dealloc_rest (num : N) : GM D unit :=
  g_bind D (g_gets D (g_free D)) (fun next =>
  g_bind D (g_write_free_page D num next INVALID_PAGE) (fun _ =>
  g_bind D (g_gets D (g_free D)) (fun start =>
  g_bind D (if negb (start =? INVALID_PAGE)%N then
       g_bind D (g_read_free_page D start) (fun fp => g_write_free_page D start (fst fp) num)
     else g_ret D tt) (fun _ =>
  g_bind D (g_modify D (fun st => g_set_free D st num)) (fun _ =>
  g_bind D (g_gets D (g_nfree D)) (fun n =>
  g_modify D (fun st => g_set_nfree D st (u32 (n + 1))))))))).
Definition dealloc_rest (num : N) : M unit :=
    next <- gets b_free;;
    write_free_page num next INVALID_PAGE;;
    start <- gets b_free;;
    (if negb (start =? INVALID_PAGE)%N then
       fp <- read_free_page start;;
       write_free_page start (fst fp) num
     else ret tt);;
    modify (fun st => set_free st num);;
    n <- gets b_nfree;;
    modify (fun st => set_nfree st (u32 (n + 1))).
Lemma sim_dealloc_rest p : sim (g_dealloc_rest p) (dealloc_rest p).
Proof. unfold g_dealloc_rest, dealloc_rest. go. Qed.

Lemma sim_deallocate p : sim (g_deallocate_page D p) (deallocate_page p).
Proof.
  assert (E : forall st, deallocate_page p st =
     if (page_pos p =? N.of_nat (len st))%N
     then (set_stream st (arr_resize (b_stream st) (N.to_nat (page_pos (u32 (p + 4294967295))))), Ok tt)
     else dealloc_rest p st).
  { intros st. unfold deallocate_page, bind at 1, gets at 1. fold (len st). destruct (_ =? _)%N; reflexivity. }
  split.
  - intros st. rewrite E. destruct (N.eqb_spec (page_pos p) (N.of_nat (len st))) as [He|Hn].
    + intros _. pose proof (page_top p) as Hp. rewrite He, Nat2N.id in Hp. exact Hp.
    + apply (proj1 (sim_dealloc_rest p)).
  - intros g st HR. rewrite E.
    destruct (proj2 sim_size g st HR (rl_len _ _ HR)) as (g1 & E1 & HR1). cbn [gets fst snd] in E1, HR1.
    unfold g_deallocate_page, g_bind at 1. rewrite E1.
    destruct (N.eqb_spec (page_pos p) (N.of_nat (len st))) as [He|Hn].
    + intros _. apply sim_resize_grow; [exact HR1|apply page_top].
    + apply (proj2 (sim_dealloc_rest p)). exact HR1.
Qed.
Hint Resolve sim_allocate sim_deallocate : sims.

(** ** Nodes *)
Lemma sim_get_node p : sim (g_get_node D p) (get_node p).
Proof.
  split; [intros st H; unfold get_node in H; destruct (lookup _ _); exact H|].
  intros g st HR _. unfold g_get_node, get_node. rewrite (rl_cache _ _ HR).
  destruct (lookup _ _); cbn [fst snd]; exists g; auto.
Qed.
Lemma sim_put_node p nd : sim (g_put_node D p nd) (put_node p nd).
Proof. apply (sim_set_cache (update p nd)). Qed.
Hint Resolve sim_get_node sim_put_node : sims.
Lemma sim_set_entries p es : sim (g_set_entries D p es) (set_entries p es).
Proof. unfold g_set_entries, set_entries. go. Qed.
Lemma sim_set_children p es : sim (g_set_children D p es) (set_children p es).
Proof. unfold g_set_children, set_children. go. Qed.
Lemma sim_set_parent p es : sim (g_set_parent D p es) (set_parent p es).
Proof. unfold g_set_parent, set_parent. go. Qed.
Lemma sim_read_node p : sim (g_read_node D p) (read_node p).
Proof. unfold g_read_node, read_node. go. Qed.
Hint Resolve sim_set_entries sim_set_children sim_set_parent sim_read_node : sims.
Lemma sim_dir_check b : sim (g_dir_check D b) (dir_check b).
Proof. unfold g_dir_check, dir_check. go. Qed.
Hint Resolve sim_dir_check : sims.
Lemma sim_lookup p : sim (g_gets D (fun st => lookup p (g_cache D st))) (gets (fun st => lookup p (b_cache st))).
Proof. apply sim_gets. intros g st H. rewrite (rl_cache _ _ H). reflexivity. Qed.
Lemma sim_retrieve_existing p : sim (g_retrieve_existing_node D p) (retrieve_existing_node p).
Proof. apply sim_gets. intros g st H. rewrite (rl_cache _ _ H). reflexivity. Qed.
Hint Resolve sim_lookup sim_retrieve_existing : sims.
Lemma sim_retrieve_node a p : sim (g_retrieve_node D a p) (retrieve_node a p).
Proof.
  unfold g_retrieve_node, retrieve_node. apply sim_bind; [auto with sims|]. intros [nd|]; go.
Qed.
Hint Resolve sim_retrieve_node : sims.
Lemma sim_get_root_node : sim (g_get_root_node D) get_root_node.
Proof. unfold g_get_root_node, get_root_node. go. Qed.
Hint Resolve sim_get_root_node : sims.
Lemma sim_del_node p : sim (g_del_node D p) (del_node p).
Proof. unfold g_del_node, del_node. go. Qed.
Hint Resolve sim_del_node : sims.
Lemma sim_adjust_children par : forall cs, sim (g_adjust_children D cs par) (adjust_children cs par).
Proof. induction cs as [|c cs IH]; cbn [g_adjust_children adjust_children]; go; apply IH. Qed.
Hint Resolve sim_adjust_children : sims.

Variable cmp : bytes -> bytes -> comparison.
Variable junk : N -> bytes.

Lemma sim_find_loop name : forall f n, sim (g_find_loop D cmp f n name) (find_loop cmp f n name).
Proof. induction f as [|f IH]; intros n; cbn [g_find_loop find_loop]; cbv zeta; go; apply IH. Qed.
Hint Resolve sim_find_loop : sims.
Lemma sim_find_node name : sim (g_find_node D cmp name) (find_node cmp name).
Proof. unfold g_find_node, find_node. go. Qed.
Hint Resolve sim_find_node : sims.
Lemma sim_get_entry name : sim (g_get_entry D cmp name) (get_entry cmp name).
Proof. unfold g_get_entry, get_entry. go. Qed.
Lemma sim_insert_here n e x : sim (g_insert_here D cmp n e x) (insert_here cmp n e x).
Proof. unfold g_insert_here, insert_here. cbv zeta. go. Qed.
Hint Resolve sim_insert_here : sims.
Lemma sim_insert : forall f n e x, sim (g_insert_and_balance D cmp f n e x) (insert_and_balance cmp f n e x).
Proof. induction f as [|f IH]; intros n e x; cbn [g_insert_and_balance insert_and_balance]; cbv zeta; go; apply IH. Qed.
Hint Resolve sim_insert : sims.
Lemma sim_add_entry name id ty : sim (g_add_entry D cmp name id ty) (add_entry cmp name id ty).
Proof. unfold g_add_entry, add_entry. go. Qed.
Hint Resolve sim_add_entry : sims.
Lemma sim_rightmost : forall f n, sim (g_rightmost_leaf D f n) (rightmost_leaf f n).
Proof. induction f as [|f IH]; intros n; cbn [g_rightmost_leaf rightmost_leaf]; go; apply IH. Qed.
Hint Resolve sim_rightmost : sims.
Lemma sim_replace n i : sim (g_replace_with_sub_entry D n i) (replace_with_sub_entry n i).
Proof. unfold g_replace_with_sub_entry, replace_with_sub_entry. go. Qed.
Lemma sim_find_sibling a n : sim (g_find_sibling D a n) (find_sibling a n).
Proof. unfold g_find_sibling, find_sibling. cbv zeta. go. Qed.
Lemma sim_rotate a b c i : sim (g_rotate D a b c i) (rotate a b c i).
Proof. unfold g_rotate, rotate. cbv zeta. go. Qed.
Lemma sim_merge a b c i : sim (g_merge D a b c i) (merge a b c i).
Proof. unfold g_merge, merge. cbv zeta. go. Qed.
Hint Resolve sim_replace sim_find_sibling sim_rotate sim_merge : sims.
Lemma sim_balance : forall f n, sim (g_balance_up D cmp f n) (balance_up cmp f n).
Proof. induction f as [|f IH]; intros n; cbn [g_balance_up balance_up]; cbv zeta; go; apply IH. Qed.
Hint Resolve sim_balance : sims.
Lemma sim_remove_entry name : sim (g_remove_entry D cmp name) (remove_entry cmp name).
Proof. unfold g_remove_entry, remove_entry. go. Qed.

Lemma sim_iterate : forall f n, sim (g_recursive_iterate D f n) (recursive_iterate f n).
Proof.
  induction f as [|f IH]; intros n; cbn [g_recursive_iterate recursive_iterate]; [go|]. go.
  generalize (n_children a) as cs. induction cs as [|c cs IHc]; [go|]. go.
Qed.
Hint Resolve sim_iterate : sims.
Lemma sim_list : sim (g_list_entries D) list_entries.
Proof. unfold g_list_entries, list_entries. go. Qed.
Lemma sim_mutable : forall f n, sim (g_mutable_iterate D f n) (mutable_iterate f n).
Proof.
  induction f as [|f IH]; intros n; cbn [g_mutable_iterate mutable_iterate]; [go|]. go.
  generalize (n_children a) as cs. induction cs as [|c cs IHc]; [go|]. go.
Qed.
Lemma sim_add_all : forall es, sim (g_add_all D cmp es) (add_all cmp es).
Proof. induction es as [|e es IH]; cbn [g_add_all add_all]; go. Qed.
Lemma sim_write_node p nd : sim (g_write_node D junk p nd) (write_node junk p nd).
Proof. unfold g_write_node, write_node. go. Qed.
Hint Resolve sim_write_node : sims.
Lemma sim_flush_loop : forall c, sim (g_flush_loop D junk c) (flush_loop junk c).
Proof. induction c as [|[p nd] c IH]; cbn [g_flush_loop flush_loop]; go; apply IH. Qed.
Hint Resolve sim_flush_loop : sims.
Lemma sim_flush_cache : sim (g_flush_cache D junk) (flush_cache junk).
Proof. unfold g_flush_cache, flush_cache. go. Qed.
Lemma sim_is_empty : sim (g_is_empty D) is_empty.
Proof. unfold g_is_empty, is_empty. go. Qed.

(** ** A directory over a stream *)
Hypothesis Hcmp : cmp_ok cmp.
Hypothesis Hjunk : forall n, length (junk n) = BLOCK_SIZE.
Notation Dir := (BtreeFlush.D cmp).

Lemma Dir_len st m : Dir st m -> len st <= lim.
Proof.
  intros (F & o & H & _). pose proof (r_inv _ _ _ _ H) as HI. unfold len. rewrite (i_len _ _ _ HI).
  pose proof (i_lim _ _ _ HI) as HL. pose proof (Htop 1048574) as Ht.
  rewrite page_pos_small in Ht by (unfold PAGE_LIMIT; lia). unfold PAGE_LIMIT in HL.
  replace (N.to_nat 1048574 * BLOCK_SIZE + BLOCK_SIZE) with (N.to_nat 1048575 * BLOCK_SIZE) in Ht.
  - eapply Nat.le_trans; [|exact Ht]. apply Nat.mul_le_mono_r. lia.
  - replace (N.to_nat 1048575) with (S (N.to_nat 1048574)) by lia. cbn [Nat.mul]. lia.
Qed.

Definition GDir (g : gbt D) (m : list entry) : Prop := exists st, Rel g st /\ Dir st m.
Definition clean (g : gbt D) : Prop := forall p nd, lookup p (g_cache D g) = Some nd -> n_dirty nd = false.

Lemma dir_get g m name : (N.of_nat (length m) <= MAX_ENTRIES)%N -> GDir g m ->
  exists g' r, g_get_entry D cmp name g = (g', r) /\ GDir g' m /\ snd (dspec_step cmp (DGet name) m) = rmap OEntry r.
Proof.
  intros HM (st & HR & HDir).
  pose proof (step_ok cmp junk Hcmp Hjunk (DGet name) st m HDir I) as Hs. cbn [dspec_step] in Hs.
  destruct (name_too_long name) eqn:El.
  - specialize (Hs HM). cbn [fst snd] in *. exists g, (Err (EPosix 36)). cbn [dspec_step]. rewrite El.
    split; [|split; [exists st; auto|reflexivity]].
    unfold g_get_entry, MAX_FILENAME_LENGTH. unfold name_too_long in El. rewrite El. reflexivity.
  - specialize (Hs HM). destruct Hs as [Hs1 Hs2]. cbn [bt_step fst snd] in *. unfold bind in *.
    destruct (proj2 (sim_get_entry name) g st HR) as (g' & E & HR').
    { destruct (get_entry cmp name st) as [st1 [e|e]]; cbn [fst ret] in *; apply (Dir_len _ _ Hs1). }
    cbn [dspec_step]. rewrite El. cbn [snd].
    destruct (get_entry cmp name st) as [st1 [e|e]]; cbn [fst snd ret] in *.
    + exists g', (Ok e). split; [exact E|]. split; [exists st1; auto|]. cbn [same_answer] in Hs2. rewrite <- Hs2. reflexivity.
    + discriminate Hs2.
Qed.

Lemma dir_add g m name id ty : dop_ok (DAdd name id ty) ->
  (N.of_nat (length (fst (dspec_step cmp (DAdd name id ty) m))) <= MAX_ENTRIES)%N -> GDir g m ->
  exists g' r, g_add_entry D cmp name id ty g = (g', r) /\ GDir g' (fst (dspec_step cmp (DAdd name id ty) m)) /\
    snd (dspec_step cmp (DAdd name id ty) m) = rmap OBool r.
Proof.
  intros Hok HM (st & HR & HDir).
  pose proof (step_ok cmp junk Hcmp Hjunk (DAdd name id ty) st m HDir Hok HM) as [Hs1 Hs2]. clear HM.
  cbn [bt_step] in Hs1, Hs2. unfold bind in *.
  set (sp := dspec_step cmp (DAdd name id ty) m) in *.
  destruct (proj2 (sim_add_entry name id ty) g st HR) as (g' & E & HR').
  { destruct (add_entry cmp name id ty st) as [st1 [e|e]]; cbn [fst ret] in *; apply (Dir_len _ _ Hs1). }
  destruct (add_entry cmp name id ty st) as [st1 [e|e]]; cbn [fst snd ret] in *.
  - exists g', (Ok e). split; [exact E|]. split; [exists st1; auto|]. cbn [same_answer] in Hs2. symmetry. exact Hs2.
  - exists g', (Err e). split; [exact E|]. split; [exists st1; auto|]. cbn [same_answer] in Hs2. symmetry. exact Hs2.
Qed.

Lemma dir_remove g m name : (N.of_nat (length m) <= MAX_ENTRIES)%N -> GDir g m ->
  exists g' r, g_remove_entry D cmp name g = (g', r) /\ GDir g' (fst (dspec_step cmp (DRemove name) m)) /\
    snd (dspec_step cmp (DRemove name) m) = rmap OEntry r.
Proof.
  intros HM (st & HR & HDir).
  assert (HM' : (N.of_nat (length (fst (dspec_step cmp (DRemove name) m))) <= MAX_ENTRIES)%N).
  { cbn [dspec_step]. destruct (name_too_long name); [exact HM|]. cbn [fst]. unfold drop_name.
    pose proof (filter_le (fun e => negb (same_name cmp name (e_name e))) m) as Hf. lia. }
  pose proof (step_ok cmp junk Hcmp Hjunk (DRemove name) st m HDir I HM') as [Hs1 Hs2]. clear HM'.
  cbn [bt_step] in Hs1, Hs2. unfold bind in *.
  set (sp := dspec_step cmp (DRemove name) m) in *.
  destruct (proj2 (sim_remove_entry name) g st HR) as (g' & E & HR').
  { destruct (remove_entry cmp name st) as [st1 [e|e]]; cbn [fst ret] in *; apply (Dir_len _ _ Hs1). }
  destruct (remove_entry cmp name st) as [st1 [e|e]]; cbn [fst snd ret] in *.
  - exists g', (Ok e). split; [exact E|]. split; [exists st1; auto|]. cbn [same_answer] in Hs2. symmetry. exact Hs2.
  - exists g', (Err e). split; [exact E|]. split; [exists st1; auto|]. cbn [same_answer] in Hs2. symmetry. exact Hs2.
Qed.

Lemma dir_list g m : GDir g m ->
  exists g' l, g_list_entries D g = (g', Ok l) /\ GDir g' m /\ Permutation l m.
Proof.
  intros (st & HR & HDir). pose proof HDir as (F & o & H & HP & He).
  destruct (list_ok cmp st F o H) as (st' & l & E & Pl & H').
  assert (HD' : Dir st' m) by (exists F, o; auto).
  destruct (proj2 sim_list g st HR) as (g' & E' & HR'). { rewrite E. apply (Dir_len _ _ HD'). }
  rewrite E in E', HR'. exists g', l. split; [exact E'|]. split; [exists st'; auto|]. rewrite Pl. exact HP.
Qed.

(** ** Flushing *)
(** What never makes the stream longer. *)
Definition keeps {A} (m' : M A) : Prop := forall st, len (fst (m' st)) = len st.
Lemma keeps_bind A B (m' : M A) (f' : A -> M B) : keeps m' -> (forall a, keeps (f' a)) -> keeps (bind m' f').
Proof.
  intros H1 H2 st. unfold bind. specialize (H1 st). destruct (m' st) as [st1 [a|e]]; cbn [fst] in *; [|exact H1].
  rewrite (H2 a). exact H1.
Qed.
Lemma keeps_ret A (a : A) : keeps (ret a). Proof. intros st. reflexivity. Qed.
Lemma keeps_throw A e : keeps (@throw A e). Proof. intros st. reflexivity. Qed.
Lemma keeps_lift A (r : res A) : keeps (lift r). Proof. intros st. reflexivity. Qed.
Lemma keeps_gets A (f : bt -> A) : keeps (gets f). Proof. intros st. reflexivity. Qed.
Lemma keeps_cache f : keeps (modify (fun st => set_cache st (f st))). Proof. intros st. reflexivity. Qed.
Lemma keeps_get_node p : keeps (get_node p). Proof. intros st. unfold get_node. destruct (lookup _ _); reflexivity. Qed.
Lemma keeps_read_page p : keeps (read_page p). Proof. intros st. unfold read_page. destruct (_ =? _); reflexivity. Qed.
Lemma keeps_read_node p : keeps (read_node p).
Proof.
  unfold read_node. destruct (_ =? _)%N; [apply keeps_throw|]. apply keeps_bind; [apply keeps_read_page|]. intros b. apply keeps_lift.
Qed.
Lemma keeps_retrieve a p : keeps (retrieve_node a p).
Proof.
  unfold retrieve_node. apply keeps_bind; [apply keeps_gets|]. intros [nd|].
  - apply keeps_bind; [|intros _; apply keeps_ret]. unfold dir_check. destruct (_ || _); [apply keeps_ret|apply keeps_throw].
  - apply keeps_bind; [apply keeps_read_node|]. intros x. apply keeps_bind; [|intros _; apply keeps_ret].
    apply (keeps_cache (fun st => (p, mkNode a (fst x) (snd x) false) :: b_cache st)).
Qed.
Lemma keeps_root : keeps get_root_node.
Proof.
  unfold get_root_node. apply keeps_bind; [apply keeps_gets|]. intros pg. destruct (_ =? _)%N; [apply keeps_ret|].
  apply keeps_bind; [apply keeps_retrieve|]. intros n. apply keeps_ret.
Qed.
Lemma keeps_set_entries p es : keeps (set_entries p es).
Proof. unfold set_entries. apply keeps_bind; [apply keeps_get_node|]. intros nd. apply (keeps_cache (fun st => update p _ (b_cache st))). Qed.
Lemma keeps_mutable : forall f n, keeps (mutable_iterate f n).
Proof.
  induction f as [|f IH]; intros n; cbn [mutable_iterate]; [apply keeps_throw|].
  apply keeps_bind; [apply keeps_get_node|]. intros nd. apply keeps_bind; [apply keeps_set_entries|]. intros _.
  apply keeps_bind; [|intros rest; apply keeps_ret].
  generalize (n_children nd) as cs. induction cs as [|c cs IHc]; [apply keeps_ret|].
  apply keeps_bind; [apply keeps_retrieve|]. intros k. apply keeps_bind; [apply IH|]. intros a.
  apply keeps_bind; [apply IHc|]. intros b. apply keeps_ret.
Qed.

Definition rebuild_rest (es : list entry) : M unit :=
    modify (fun st => set_cache st []);;
    modify (fun st => set_stream st (arr_resize (b_stream st) 0));;
    modify (fun st => set_nfree st 0%N);;
    modify (fun st => set_free st INVALID_PAGE);;
    modify (fun st => set_root st INVALID_PAGE);;
    add_all cmp es.
Definition fsim {A} (m : GM D A) (m' : M A) : Prop :=
  forall g st, Rel g st -> len (fst (m' st)) <= lim ->
    exists g', m g = (g', snd (m' st)) /\ Rel g' (fst (m' st)).

Lemma fsim_keeps_bind A B (m : GM D A) m' (f : A -> GM D B) f' :
  sim m m' -> keeps m' -> (forall a, fsim (f a) (f' a)) -> fsim (g_bind D m f) (bind m' f').
Proof.
  intros [_ Hs] Hk Hf g st HR H. unfold bind, g_bind in *. specialize (Hs g st HR). specialize (Hk st).
  destruct (m' st) as [st1 [a|e]]; cbn [fst snd] in *.
  - destruct Hs as (g1 & E1 & HR1). { rewrite Hk. apply (rl_len _ _ HR). } rewrite E1. apply Hf; assumption.
  - destruct Hs as (g1 & E1 & HR1). { rewrite Hk. apply (rl_len _ _ HR). } rewrite E1. exists g1. auto.
Qed.

Lemma rebuild_rest_sim es :
  fsim (g_bind D (g_modify D (fun st => g_set_cache D st [])) (fun _ =>
        g_bind D (g_resize D 0) (fun _ =>
        g_bind D (g_modify D (fun st => g_set_nfree D st 0%N)) (fun _ =>
        g_bind D (g_modify D (fun st => g_set_free D st INVALID_PAGE)) (fun _ =>
        g_bind D (g_modify D (fun st => g_set_root D st INVALID_PAGE)) (fun _ =>
        g_add_all D cmp es)))))) (rebuild_rest es).
Proof.
  apply fsim_keeps_bind.
  { apply (sim_set_cache (fun _ => [])). } { apply (keeps_cache (fun _ => [])). }
  intros _ g st HR H.
  destruct (sim_resize_grow 0 g st HR ltac:(lia)) as (g1 & E1 & HR1).
  unfold g_bind at 1. rewrite E1.
  change (exists g', (g_bind D (g_modify D (fun st => g_set_nfree D st 0%N)) (fun _ =>
        g_bind D (g_modify D (fun st => g_set_free D st INVALID_PAGE)) (fun _ =>
        g_bind D (g_modify D (fun st => g_set_root D st INVALID_PAGE)) (fun _ =>
        g_add_all D cmp es)))) g1 =
     (g', snd ((modify (fun st => set_nfree st 0%N);; modify (fun st => set_free st INVALID_PAGE);;
        modify (fun st => set_root st INVALID_PAGE);; add_all cmp es) (set_stream st (arr_resize (b_stream st) 0)))) /\
     Rel g' (fst ((modify (fun st => set_nfree st 0%N);; modify (fun st => set_free st INVALID_PAGE);;
        modify (fun st => set_root st INVALID_PAGE);; add_all cmp es) (set_stream st (arr_resize (b_stream st) 0))))).
  pose proof sim_add_all as Ha.
  assert (Hsim : sim (g_bind D (g_modify D (fun st => g_set_nfree D st 0%N)) (fun _ =>
        g_bind D (g_modify D (fun st => g_set_free D st INVALID_PAGE)) (fun _ =>
        g_bind D (g_modify D (fun st => g_set_root D st INVALID_PAGE)) (fun _ =>
        g_add_all D cmp es)))) (modify (fun st => set_nfree st 0%N);; modify (fun st => set_free st INVALID_PAGE);;
        modify (fun st => set_root st INVALID_PAGE);; add_all cmp es)) by go.
  apply (proj2 Hsim); [exact HR1|exact H].
Qed.

Lemma rebuild_sim : fsim (g_rebuild D cmp) (rebuild cmp).
Proof.
  unfold g_rebuild, rebuild. apply fsim_keeps_bind; [apply sim_get_root_node|apply keeps_root|].
  intros [n|]; [|exact (proj2 (sim_ret _ tt))].
  apply fsim_keeps_bind; [apply sim_mutable|apply keeps_mutable|]. intros es. apply rebuild_rest_sim.
Qed.

Lemma subflush_sim : fsim (g_subflush D cmp junk) (subflush cmp junk).
Proof.
  unfold g_subflush, subflush. apply fsim_keeps_bind; [apply sim_get_nfree|apply keeps_gets|]. intros nf.
  apply (fsim_keeps_bind _ _ (g_size D) (gets len)); [apply sim_size|apply (keeps_gets _ len)|]. intros size.
  destruct (_ && _).
  - intros g st HR H. unfold bind, g_bind in *. pose proof (rebuild_sim g st HR) as Hr.
    destruct (rebuild cmp st) as [st1 [a|e]]; cbn [fst snd] in *.
    + destruct Hr as (g1 & E1 & HR1). { apply (proj1 sim_flush_cache). exact H. } rewrite E1.
      apply (proj2 sim_flush_cache); assumption.
    + destruct Hr as (g1 & E1 & HR1); [exact H|]. rewrite E1. exists g1. auto.
  - pose proof sim_flush_cache as Hf. assert (Hs : sim (g_bind D (g_ret D tt) (fun _ => g_flush_cache D junk)) (ret tt;; flush_cache junk)) by go.
    exact (proj2 Hs).
Qed.

Lemma dir_flush g m : GDir g m ->
  exists g', g_subflush D cmp junk g = (g', Ok tt) /\ GDir g' m /\ clean g'.
Proof.
  intros (st & HR & HDir). pose proof HDir as (F & o & H & HP & He).
  destruct (subflush_ok cmp junk Hcmp Hjunk st F o H) as (st' & F' & o' & E & H' & P' & Hc).
  { rewrite HP. exact He. }
  assert (HD' : Dir st' m). { exists F', o'. split; [exact H'|]. split; [rewrite P'; exact HP|exact He]. }
  destruct (subflush_sim g st HR) as (g' & E' & HR'). { rewrite E. apply (Dir_len _ _ HD'). }
  rewrite E in E', HR'. exists g'. split; [exact E'|]. split; [exists st'; auto|].
  intros p nd Hl. rewrite (rl_cache _ _ HR') in Hl. exact (Hc p nd Hl).
Qed.

(** Forgetting a clean cache. *)
Lemma dir_forget g m : GDir g m -> clean g -> GDir (g_set_cache D g []) m.
Proof.
  intros (st & HR & F & o & [A1 A2 A3 A4 A5] & HP & He) Hc. exists (set_cache st []). split.
  - destruct HR. constructor; cbn; auto.
  - exists F, o. split; [|auto]. constructor; try assumption. apply clear_cache_ok; [exact A2|].
    intros p nd Hl. apply (Hc p nd). rewrite (rl_cache _ _ HR). exact Hl.
Qed.

Lemma dir_empty g m : GDir g m ->
  exists g', g_is_empty D g = (g', Ok (match m with [] => true | _ => false end)) /\ GDir g' m.
Proof.
  intros (st & HR & HDir). pose proof HDir as (F & o & H & HP & He).
  destruct (is_empty_ok cmp junk Hjunk st F o H) as (st' & E & H').
  assert (HD' : Dir st' m) by (exists F, o; auto).
  destruct (proj2 sim_is_empty g st HR) as (g' & E' & HR'). { rewrite E. apply (Dir_len _ _ HD'). }
  rewrite E in E', HR'. exists g'. split; [|exists st'; auto]. rewrite E'. cbn [snd]. f_equal. f_equal.
  destruct (ents o) as [|x l], m as [|y l']; try reflexivity.
  - apply Permutation_nil in HP. discriminate HP.
  - symmetry in HP. apply Permutation_nil in HP. discriminate HP.
Qed.

(** The words fit the header. *)
Lemma dir_words g m : GDir g m -> (g_root D g < 2 ^ 32 /\ g_free D g < 2 ^ 32 /\ g_nfree D g < 2 ^ 32)%N.
Proof.
  intros (st & HR & F & o & H & _). rewrite (rl_root _ _ HR), (rl_free _ _ HR), (rl_nfree _ _ HR).
  rewrite (r_root _ _ _ _ H). pose proof (r_inv _ _ _ _ H) as HI.
  rewrite (i_free _ _ _ HI), (i_nfree _ _ _ HI). pose proof (i_lim _ _ _ HI) as HL. pose proof (i_range _ _ _ HI) as Hr.
  rewrite Forall_forall in Hr. unfold PAGE_LIMIT in HL.
  assert (Hp : forall p, In p (pages (tnodes o) ++ F) -> (p < 2 ^ 32)%N).
  { intros p Hin. specialize (Hr p Hin). lia. }
  split; [|split].
  - destruct o as [t|]; [|cbn; unfold INVALID_PAGE; lia]. apply Hp. apply in_or_app. left. destruct t as [p es ts]. left. reflexivity.
  - destruct F as [|f F']; [cbn; unfold INVALID_PAGE; lia|]. apply Hp. apply in_or_app. right. left. reflexivity.
  - lia.
Qed.
Lemma dir_dirty g m : GDir g m -> g_dirty D g = true \/ w0 = Some (g_root D g, g_free D g, g_nfree D g).
Proof. intros (st & HR & _). pose proof (rl_dirty _ _ HR) as H. rewrite (rl_root _ _ HR), (rl_free _ _ HR), (rl_nfree _ _ HR). exact H. Qed.
Lemma dir_stream g m : GDir g m -> exists c, R (g_stream D g) c /\ length c <= lim.
Proof. intros (st & HR & _). exists (b_stream st). split; apply HR. Qed.

(** An empty directory. *)
Lemma dir_new g : R (g_stream D g) [] -> g_root D g = INVALID_PAGE -> g_free D g = INVALID_PAGE -> g_nfree D g = 0%N ->
  g_cache D g = [] -> g_dirty D g = true \/ w0 = Some (g_root D g, g_free D g, g_nfree D g) -> GDir g [].
Proof.
  intros H1 H2 H3 H4 H5 H6. exists (mkBt [] INVALID_PAGE INVALID_PAGE 0 []). split.
  - constructor; cbn; try assumption; [lia|]. rewrite H2, H3, H4 in H6. exact H6.
  - exact (D_empty cmp).
Qed.
End Sim.

(** A directory depends on the bytes of its stream, not on the stream. *)
Lemma dir_other D R (R' : sm_st D -> bytes -> Prop) lim w0 w1 cmp g g' m : GDir D R lim w0 cmp g m ->
  (forall c, length c <= lim -> R (g_stream D g) c -> R' (g_stream D g') c) ->
  g_root D g' = g_root D g -> g_free D g' = g_free D g -> g_nfree D g' = g_nfree D g -> g_cache D g' = g_cache D g ->
  g_dirty D g' = true \/ w1 = Some (g_root D g, g_free D g, g_nfree D g) ->
  GDir D R' lim w1 cmp g' m.
Proof.
  intros (st & HR & HDir) Hs E1 E2 E3 E4 Hd. exists st. split; [|exact HDir]. destruct HR as [A1 A2 A3 A4 A5 A6 A7]. constructor.
  - apply Hs; assumption.
  - exact A2.
  - congruence.
  - congruence.
  - congruence.
  - congruence.
  - rewrite A3, A4, A5 in Hd. exact Hd.
Qed.
