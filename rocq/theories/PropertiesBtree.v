(** Full-format directories: C14, C17, C18, C19, C20, C21. *)
From Coq Require Import Strings.String Permutation.
From Verif Require Import Base BaseLemmas CodecModel TextModel BtreeModel BtreeSpec BtreeShape BtreeTop.
Local Open Scope list_scope.

(** A directory of some forty names: enough to split nodes, then to merge and
    rotate them while names are removed, with flushes and reloads in between. *)
Definition ex_id (n : nat) : bytes := repeat (n2b (N.of_nat n)) 32.
Definition ex_name (n : nat) : bytes := [n2b (N.of_nat (97 + n * 7 mod 41))].
Definition ex_adds (a n : nat) : list dop := map (fun i => DAdd (ex_name i) (ex_id i) (N.of_nat (i mod 3))) (seq a n).
Definition ex_removes (a n : nat) : list dop := map (fun i => DRemove (ex_name i)) (seq a n).
Definition ex_history : list dop :=
  ex_adds 0 20 ++ [DFlush] ++ ex_adds 20 20 ++ [DReload; DGet (ex_name 33)] ++ ex_removes 3 30 ++
  [DAdd (ex_name 34) (ex_id 1) 1; DFlush; DEmpty; DReload; DList].
Definition ex_junk (n : N) : bytes := repeat (n2b (n + 90)) 4096.

Lemma ex_junk_length : forall n, length (ex_junk n) = 4096.
Proof. intros. apply repeat_length. Qed.

Lemma ex_history_ok : Forall dop_ok ex_history /\ moderate binary_compare ex_history.
Proof.
  split.
  - unfold ex_history, ex_adds, ex_removes. rewrite !Forall_app.
    assert (Ha : forall a n, a + n <= 40 -> Forall dop_ok (ex_adds a n)).
    { intros a n H. apply Forall_forall. intros o Ho. apply in_map_iff in Ho. destruct Ho as (i & <- & Hi).
      apply in_seq in Hi. cbn [dop_ok]. split; [|split].
      - unfold ex_name. intros [E|[]]. apply (f_equal b2n) in E. rewrite b2n_n2b, b2n_zero in E.
        pose proof (Nat.mod_upper_bound (i * 7) 41 ltac:(discriminate)).
        rewrite N.mod_small in E; lia.
      - apply repeat_length.
      - pose proof (Nat.mod_upper_bound i 3 ltac:(discriminate)). lia. }
    repeat split.
    + apply (Ha 0 20). lia.
    + constructor; [exact I|constructor].
    + apply (Ha 20 20). lia.
    + repeat constructor.
    + apply Forall_forall. intros o Ho. apply in_map_iff in Ho. destruct Ho as (i & <- & Hi). exact I.
    + constructor; [|repeat constructor]. cbn [dop_ok]. split; [|split].
      * unfold ex_name. intros [E|[]]. apply (f_equal b2n) in E. vm_compute in E. discriminate.
      * apply repeat_length.
      * reflexivity.
  - apply short_moderate. vm_compute. discriminate.
Qed.

(** ** C14: directory pages *)

(** Writing any node within the limits (at most 14 children and 13 entries) to a
    page whose remaining bytes are arbitrary and loading that page. *)
Theorem C14_page_round_trip :
  forall (children : list N) (entries : list entry) (old_page : bytes),
    node_fits children entries -> length old_page = 4096 ->
    exists buf, to_buffer 4096 children entries = Ok buf /\ length buf <= 4096 /\
      from_buffer (buf ++ skipn (length buf) old_page) = Ok (children, entries).
Proof. exact page_round_trip. Qed.
Print Assumptions C14_page_round_trip.

(** Loading any 4096 bytes at all either reports corruption or gives well-formed
    entries that together fit in the page; nothing outside the page is read (an
    access past its end would be [EUndef]). *)
Theorem C14_any_page_loads_safely :
  forall (page : bytes), length page = 4096 ->
    from_buffer page = Err ECorrupt \/
    exists children entries, from_buffer page = Ok (children, entries) /\
      Forall (fun c => (c < 2 ^ 32)%N) children /\ Forall entry_ok entries /\
      8 + 4 * length children + 292 * length entries <= 4096.
Proof. exact page_load. Qed.
Print Assumptions C14_any_page_loads_safely.

Example C14_ex :
  node_fits [3; 70000]%N [mkEntry (str "a.txt"%string) (ex_id 7) 2] /\
  from_buffer (repeat xff 4096) = Err ECorrupt /\
  from_buffer (zeros 4096) = Ok ([], []).
Proof.
  split; [|split; vm_compute; reflexivity].
  split; [cbn; lia|]. split; [cbn; lia|]. split; [repeat constructor|].
  repeat constructor; cbn; try lia; intros [H|[H|[H|[H|[H|[]]]]]]; discriminate.
Qed.

(** Finding: the loader does not enforce the node limits.  A page with 14 entries
    (one more than a node may hold) is accepted. *)
Theorem C14_loader_enforces_limits_refuted :
  exists page children entries, length page = 4096 /\
    from_buffer page = Ok (children, entries) /\ ~ node_fits children entries.
Proof.
  set (es := repeat (mkEntry (str "x"%string) (ex_id 1) 0) 14).
  assert (E : exists pg, to_buffer 4096 [] es = Ok pg /\ length pg = 4096 /\ from_buffer pg = Ok ([], es)).
  { eexists. split; [vm_compute; reflexivity|]. split; vm_compute; reflexivity. }
  destruct E as (pg & _ & H1 & H2). exists pg, [], es. split; [exact H1|]. split; [exact H2|].
  intros (_ & H & _). vm_compute in H. lia.
Qed.
Print Assumptions C14_loader_enforces_limits_refuted.

(** ** C17: a directory is a finite map *)

(** For every comparison function that orders names, every content [junk] of the
    uninitialised tail of written pages, and every history of lookups, additions,
    removals, listings, emptiness checks, flushes and reloads that never has more
    than 6,000,000 names at once, the answers are those of the finite map of
    [BtreeSpec] (listings up to order). *)
Theorem C17_directory_is_a_finite_map :
  forall (cmp : bytes -> bytes -> comparison) (junk : N -> bytes) (ops : list dop),
    cmp_ok cmp -> (forall n, length (junk n) = 4096) ->
    Forall dop_ok ops -> moderate cmp ops ->
    Forall2 same_answer (snd (bt_run cmp junk ops bt_empty)) (snd (dspec_run cmp ops [])).
Proof. intros cmp junk ops H1 H2 H3 H4. exact (proj2 (history cmp junk H1 H2 ops H3 H4)). Qed.
Print Assumptions C17_directory_is_a_finite_map.

(** The name orders securefs offers: bytewise, and bytewise after mapping names
    with any fixed function (case folding, Unicode normalisation). *)
Theorem C17_name_orders_are_orders :
  cmp_ok binary_compare /\
  forall key : bytes -> bytes, cmp_ok (fun a b => binary_compare (key a) (key b)).
Proof. split; [exact binary_compare_ok|]. intros key. exact (key_compare_ok key _ binary_compare_ok). Qed.
Print Assumptions C17_name_orders_are_orders.

Example C17_ex :
  Forall2 same_answer (snd (bt_run binary_compare ex_junk ex_history bt_empty))
                      (snd (dspec_run binary_compare ex_history [])).
Proof.
  apply C17_directory_is_a_finite_map;
  [exact binary_compare_ok|exact ex_junk_length|apply ex_history_ok|apply ex_history_ok].
Qed.

(** The same history computed: the lookups, the refused duplicate, and the ten
    names left at the end. *)
Example C17_ex_computed :
  let rs := snd (bt_run binary_compare ex_junk ex_history bt_empty) in
  nth 42 rs (Err EUndef) = Ok (OEntry (Some (mkEntry (ex_name 33) (ex_id 33) 0))) /\
  nth 43 rs (Err EUndef) = Ok (OEntry (Some (mkEntry (ex_name 3) (ex_id 3) 0))) /\
  nth 73 rs (Err EUndef) = Ok (OBool false) /\
  match nth 77 rs (Err EUndef) with Ok (OList l) => length l | _ => 0 end = 10 /\
  length rs = 78.
Proof. vm_compute. auto 10. Qed.

(** Finding: names containing a NUL byte (which no caller can produce through the
    mount) do not survive a reload: what is found again is the part before it. *)
Theorem C17_nul_in_name_refuted :
  exists ops,
    moderate binary_compare ops /\
    ~ Forall2 same_answer (snd (bt_run binary_compare ex_junk ops bt_empty)) (snd (dspec_run binary_compare ops [])).
Proof.
  exists [DAdd [x61; x00; x62] (ex_id 1) 0; DReload; DGet [x61; x00; x62]].
  split; [apply short_moderate; vm_compute; discriminate|].
  assert (Hn : forall l l' : list (res dout), Forall2 same_answer l l' -> same_answer (nth 2 l (Ok OUnit)) (nth 2 l' (Ok OUnit))).
  { intros l l' H. destruct H as [|? ? ? ? _ H]; [reflexivity|]. destruct H as [|? ? ? ? _ H]; [reflexivity|].
    destruct H as [|? ? ? ? Ha _]; [reflexivity|exact Ha]. }
  intros H. apply Hn in H. vm_compute in H. discriminate.
Qed.
Print Assumptions C17_nul_in_name_refuted.

(** ** C18: balance *)

(** After any history the tree read off the pages has all leaves at one depth
    [h], 6 to 13 entries in every node below the root and at most 13 in the root,
    its entries in order are strictly increasing and are exactly those of the map,
    and the depth is at most logarithmic: it never gets near the limit of 32. *)
Theorem C18_directory_tree_is_balanced :
  forall (cmp : bytes -> bytes -> comparison) (junk : N -> bytes) (ops : list dop),
    cmp_ok cmp -> (forall n, length (junk n) = 4096) ->
    Forall dop_ok ops -> moderate cmp ops ->
    let st := fst (bt_run cmp junk ops bt_empty) in
    let m := fst (dspec_run cmp ops []) in
    exists h pgs es,
      dir_tree st h pgs es /\ strictly_sorted cmp es /\ Permutation es m /\
      (h = 0 \/ 2 * 7 ^ h <= S (length m)) /\ h <= 7.
Proof. intros cmp junk ops H1 H2 H3 H4. exact (shape cmp junk H1 H2 ops H3 H4). Qed.
Print Assumptions C18_directory_tree_is_balanced.

(** The history of the example has a tree of depth 1 before its removals. *)
Example C18_ex :
  let st := fst (bt_run binary_compare ex_junk (firstn 42 ex_history) bt_empty) in
  match view st (b_root st) with Some (cs, es) => (length cs, length es) | None => (0, 0) end = (5, 4).
Proof. vm_compute. reflexivity. Qed.

(** ** C19: pages *)

(** After any history the pages of the file are partitioned (each page number
    below size/4096 exactly once) into the pages of the tree and the pages on the
    free list; the free list is well linked both ways, its length is the recorded
    free count, and validate_free_list accepts it. *)
Theorem C19_pages_are_partitioned :
  forall (cmp : bytes -> bytes -> comparison) (junk : N -> bytes) (ops : list dop),
    cmp_ok cmp -> (forall n, length (junk n) = 4096) ->
    Forall dop_ok ops -> moderate cmp ops ->
    let st := fst (bt_run cmp junk ops bt_empty) in
    exists h pgs es fs,
      dir_tree st h pgs es /\ free_list st (b_free st) INVALID_PAGE fs /\
      Permutation (pgs ++ fs) (map N.of_nat (seq 0 (length (b_stream st) / 4096))) /\
      length (b_stream st) mod 4096 = 0 /\
      b_nfree st = N.of_nat (length fs) /\
      validate_free_list st = (st, Ok true).
Proof. intros cmp junk ops H1 H2 H3 H4. exact (partition cmp junk H1 H2 ops H3 H4). Qed.
Print Assumptions C19_pages_are_partitioned.

(** In the example, before the last flush: five free pages out of six. *)
Example C19_ex :
  let st := fst (bt_run binary_compare ex_junk (firstn 74 ex_history) bt_empty) in
  (b_nfree st, length (b_stream st) / 4096) = (5%N, 6).
Proof. vm_compute. reflexivity. Qed.

(** Finding: page positions are computed in 32-bit arithmetic, so pages 2^20
    apart are at the same place of the stream although page numbers go to 2^32. *)
Theorem C19_page_positions_distinct_refuted :
  exists p q, (p < 2 ^ 32 - 1)%N /\ (q < 2 ^ 32 - 1)%N /\ p <> q /\ page_pos p = page_pos q.
Proof. exists 0%N, (2 ^ 20)%N. repeat split; try (vm_compute; reflexivity). vm_compute. discriminate. Qed.
Print Assumptions C19_page_positions_distinct_refuted.

(** ** C20: flushing and reloading *)

(** Flushing (with the compaction it may trigger) and reloading from the pages at
    any points of a history changes no other answer. *)
Theorem C20_flush_and_reload_are_invisible :
  forall (cmp : bytes -> bytes -> comparison) (junk : N -> bytes) (ops : list dop),
    cmp_ok cmp -> (forall n, length (junk n) = 4096) ->
    Forall dop_ok ops -> moderate cmp ops ->
    Forall2 same_answer
      (drop_flush_answers ops (snd (bt_run cmp junk ops bt_empty)))
      (snd (bt_run cmp junk (filter (fun o => negb (is_flush o)) ops) bt_empty)).
Proof. intros cmp junk ops H1 H2 H3 H4. exact (flush_invisible cmp junk H1 H2 ops H3 H4). Qed.
Print Assumptions C20_flush_and_reload_are_invisible.

(** A history whose flush compacts the file: many free pages before, none after. *)
Definition ex_compact : list dop :=
  map (fun i => DAdd [n2b (N.of_nat (33 + i))] (ex_id i) 0) (seq 0 120) ++
  map (fun i => DRemove [n2b (N.of_nat (33 + i))]) (seq 0 115).
Example C20_ex :
  let st := fst (bt_run binary_compare ex_junk ex_compact bt_empty) in
  let st' := fst (bt_run binary_compare ex_junk (ex_compact ++ [DFlush]) bt_empty) in
  (6 <= N.to_nat (b_nfree st)) /\ b_nfree st' = 0%N /\ length (b_stream st') < length (b_stream st).
Proof.
  cbv zeta. split; [|split].
  - apply Nat.leb_le. vm_compute. reflexivity.
  - vm_compute. reflexivity.
  - apply Nat.ltb_lt. vm_compute. reflexivity.
Qed.

(** ** C21: listing *)

(** After any history listing succeeds and reports exactly the entries of the map,
    each once: no two reported entries have the same name. *)
Theorem C21_listing_reports_each_entry_once :
  forall (cmp : bytes -> bytes -> comparison) (junk : N -> bytes) (ops : list dop),
    cmp_ok cmp -> (forall n, length (junk n) = 4096) ->
    Forall dop_ok ops -> moderate cmp ops ->
    exists st' l,
      list_entries (fst (bt_run cmp junk ops bt_empty)) = (st', Ok l) /\
      Permutation l (fst (dspec_run cmp ops [])) /\ names_distinct cmp l.
Proof. intros cmp junk ops H1 H2 H3 H4. exact (listing cmp junk H1 H2 ops H3 H4). Qed.
Print Assumptions C21_listing_reports_each_entry_once.

Example C21_ex :
  exists st' l,
    list_entries (fst (bt_run binary_compare ex_junk (firstn 42 ex_history) bt_empty)) = (st', Ok l) /\ length l = 40.
Proof. eexists. eexists. split; [vm_compute; reflexivity|reflexivity]. Qed.
