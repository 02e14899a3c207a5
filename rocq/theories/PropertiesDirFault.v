(** C98: a full-format directory while calls of the host fail. *)
From Verif Require Import Base BaseLemmas CodecModel BtreeModel GBtreeModel BtreeSpec BtreeShape BtreeTop DirFaultModel DirFaultSpec DirFaultProofs PropertiesBtree.
Local Open Scope list_scope.

(** ** Names, ids and histories for the examples *)
Definition fx_name (i : nat) : bytes := [n2b (N.of_nat (S i))].
Definition fx_add (plan : list fault) (i : nat) : dop * list fault := (DAdd (fx_name i) (ex_id i) 1, plan).
Definition fx_adds (a n : nat) : list (dop * list fault) := map (fx_add []) (seq a n).
Definition fx_removes (a n : nat) : list (dop * list fault) := map (fun i => (DRemove (fx_name i), [])) (seq a n).
Definition no_space : fault := Some (EPosix 28, 0).
Definition io_error (k : nat) : fault := Some (EPosix 5, k).

Lemma fx_ok a n : a + n <= 200 -> Forall dop_ok (map fst (fx_adds a n)).
Proof.
  intros H. unfold fx_adds. rewrite map_map. apply Forall_forall. intros o Ho. apply in_map_iff in Ho. destruct Ho as (i & <- & Hi).
  apply in_seq in Hi. cbn [fst fx_add dop_ok]. split; [|split].
  - unfold fx_name. intros [E|[]]. apply (f_equal b2n) in E. rewrite b2n_n2b, b2n_zero in E. rewrite N.mod_small in E by lia. lia.
  - reflexivity.
  - reflexivity.
Qed.
Lemma fx_removes_ok a n : Forall dop_ok (map fst (fx_removes a n)).
Proof. unfold fx_removes. rewrite map_map. apply Forall_forall. intros o Ho. apply in_map_iff in Ho. destruct Ho as (i & <- & Hi). exact I. Qed.

(** ** A call that fails reports the error and changes nothing *)
Theorem C98_only_the_call_that_fails :
  forall (cmp : bytes -> bytes -> comparison) (junk : N -> bytes) (ops : list (dop * list fault)),
    cmp_ok cmp -> (forall n, length (junk n) = 4096) ->
    Forall dop_ok (map fst ops) -> never_huge cmp ops (snd (f_run cmp junk ops new_dir)) -> run_calm cmp junk ops new_dir ->
    explained cmp ops (snd (f_run cmp junk ops new_dir)) [].
Proof. intros cmp junk ops H1 H2 H3 H4 H5. exact (faulty_history cmp junk H1 H2 ops H3 H4 H5). Qed.
Print Assumptions C98_only_the_call_that_fails.

(** A flush torn in the middle of a page; lookups and changes after a reload that cannot read; and again. *)
Definition fx_history : list (dop * list fault) :=
  fx_adds 0 40 ++ [(DFlush, [None; None; io_error 700]); (DGet (fx_name 17), []); (DFlush, [no_space]); (DReload, []);
    (DGet (fx_name 17), [io_error 0]); (DGet (fx_name 17), [None; io_error 0]); (DRemove (fx_name 17), [io_error 0]); (DGet (fx_name 17), []);
    (DList, [None; None; io_error 0]); (DEmpty, [no_space]); (DReload, []); fx_add [io_error 0] 50; (DGet (fx_name 50), [])] ++
  fx_removes 0 5 ++ [(DFlush, [None; io_error 3]); (DList, [])].

Lemma fx_one_ok plan i : i < 200 -> dop_ok (fst (fx_add plan i)).
Proof. intros H. pose proof (fx_ok i 1 ltac:(lia)) as K. inversion K. assumption. Qed.

Example C98_only_the_call_that_fails_applies :
  Forall dop_ok (map fst fx_history) /\ never_huge binary_compare fx_history (snd (f_run binary_compare ex_junk fx_history new_dir)) /\
  run_calm binary_compare ex_junk fx_history new_dir /\
  map (nth_error (snd (f_run binary_compare ex_junk fx_history new_dir))) [40; 41; 42; 44; 45; 46; 47; 48; 51; 52; 58] =
  map Some [Err (EPosix 5); Ok (OEntry (Some (mkEntry (fx_name 17) (ex_id 17) 1))); Err (EPosix 28); Err (EPosix 5); Err (EPosix 5); Err (EPosix 5);
    Ok (OEntry (Some (mkEntry (fx_name 17) (ex_id 17) 1))); Err (EPosix 5); Err (EPosix 5); Ok (OEntry None); Err (EPosix 5)].
Proof.
  split; [|split; [|split]].
  - unfold fx_history. rewrite !map_app, !Forall_app. repeat split; [apply fx_ok; lia| |apply fx_removes_ok|repeat (constructor; [exact I|]); constructor].
    cbn [map fst]. repeat (constructor; [first [exact I|apply (fx_one_ok []); lia]|]). constructor.
  - apply never_huge_short. vm_compute. reflexivity.
  - vm_compute. repeat (split; [first [exact I|reflexivity|left; reflexivity|right; reflexivity|right; eexists; reflexivity]|]). exact I.
  - vm_compute. reflexivity.
Qed.

(** ** A flush that fails while it compacts loses entries *)
Definition fx_compact : list (dop * list fault) :=
  fx_adds 0 100 ++ [(DFlush, [])] ++ fx_removes 0 80 ++ [(DFlush, [None; None; no_space])].

Lemma explained_last cmp o pl r : forall ops rs m, length rs = length ops -> explained cmp (ops ++ [(o, pl)]) (rs ++ [r]) m ->
  same_answer r (snd (dspec_step cmp o (after cmp ops rs m))) \/ exists e, goes_wrong pl e /\ r = Err e.
Proof.
  induction ops as [|[o' p'] ops IH]; intros [|r' rs] m HL H; try discriminate HL; [exact (proj1 H)|].
  cbn [app explained after] in *. apply IH; [cbn in HL; lia|exact (proj2 H)].
Qed.

Theorem C98_any_flush_refuted :
  ~ forall (cmp : bytes -> bytes -> comparison) (junk : N -> bytes) (ops : list (dop * list fault)),
    cmp_ok cmp -> (forall n, length (junk n) = 4096) ->
    Forall dop_ok (map fst ops) -> never_huge cmp ops (snd (f_run cmp junk ops new_dir)) -> calm_but_flushes ops ->
    explained cmp ops (snd (f_run cmp junk ops new_dir)) [].
Proof.
  intros H. specialize (H binary_compare ex_junk (fx_compact ++ [(DList, [])]) binary_compare_ok ex_junk_length).
  assert (H1 : Forall dop_ok (map fst (fx_compact ++ [(DList, [])]))).
  { unfold fx_compact. rewrite !map_app, !Forall_app. repeat split; [apply fx_ok; lia|constructor; [exact I|constructor]|apply fx_removes_ok| |]; repeat (constructor; [exact I|]); constructor. }
  assert (H3 : calm_but_flushes (fx_compact ++ [(DList, [])])).
  { unfold calm_but_flushes. apply Forall_forall. intros [o p] Ho. unfold fx_compact in Ho. rewrite !in_app_iff in Ho.
    destruct Ho as [[Ho|[Ho|[Ho|Ho]]]|Ho].
    - apply in_map_iff in Ho. destruct Ho as (i & <- & _). reflexivity.
    - destruct Ho as [E|[]]. injection E as <- <-. exact I.
    - apply in_map_iff in Ho. destruct Ho as (i & E & _). injection E as <- <-. reflexivity.
    - destruct Ho as [E|[]]; injection E as <- <-; exact I.
    - destruct Ho as [E|[]]; injection E as <- <-; exact I. }
  assert (H2 : (N.of_nat (length (fx_compact ++ [(DList, [])])) < 6000000)%N) by (vm_compute; reflexivity).
  specialize (H H1 (never_huge_short _ _ _ H2) H3). clear H1 H2 H3.
  assert (E : snd (f_run binary_compare ex_junk (fx_compact ++ [(DList, [])]) new_dir) =
    snd (f_run binary_compare ex_junk fx_compact new_dir) ++ [Ok (OList [])]) by (vm_compute; reflexivity).
  assert (EL : length (snd (f_run binary_compare ex_junk fx_compact new_dir)) = length fx_compact) by (vm_compute; reflexivity).
  rewrite E in H. clear E. apply (explained_last binary_compare DList [] (Ok (OList [])) _ _ _ EL) in H.
  assert (E : match after binary_compare fx_compact (snd (f_run binary_compare ex_junk fx_compact new_dir)) [] with [] => False | _ :: _ => True end) by (vm_compute; exact I).
  destruct (after binary_compare fx_compact (snd (f_run binary_compare ex_junk fx_compact new_dir)) []) as [|x l]; [exact E|].
  destruct H as [H|(e & _ & H)]; [|discriminate H]. cbn [dspec_step snd same_answer] in H. apply Permutation.Permutation_nil in H. discriminate H.
Qed.
Print Assumptions C98_any_flush_refuted.

(** ** A failed addition can lose entries that were there, or have added the entry *)
Theorem C98_failed_add_keeps_the_rest_refuted :
  ~ forall (cmp : bytes -> bytes -> comparison) (junk : N -> bytes) (ops : list (dop * list fault)) name id ty plan e l x,
    cmp_ok cmp -> (forall n, length (junk n) = 4096) ->
    Forall dop_ok (map fst ops ++ [DAdd name id ty]) -> (N.of_nat (length ops) < 5999999)%N -> run_calm cmp junk ops new_dir ->
    let g := fst (f_run cmp junk ops new_dir) in
    let g' := fst (f_step cmp junk (DAdd name id ty) plan g) in
    snd (f_step cmp junk (DAdd name id ty) plan g) = Err e ->
    snd (f_step cmp junk DList [] g') = Ok (OList l) ->
    In x (after cmp ops (snd (f_run cmp junk ops new_dir)) []) -> In x l.
Proof.
  intros H.
  specialize (H binary_compare ex_junk (fx_adds 0 13) (fx_name 13) (ex_id 13) 1%N [None; None; None; no_space] (EPosix 28)
    (map (fun i => mkEntry (fx_name i) (ex_id i) 1) (seq 0 6)) (mkEntry (fx_name 9) (ex_id 9) 1) binary_compare_ok ex_junk_length).
  assert (K : In (mkEntry (fx_name 9) (ex_id 9) 1) (map (fun i => mkEntry (fx_name i) (ex_id i) 1) (seq 0 6))).
  { apply H.
    - change (map fst (fx_adds 0 13) ++ [DAdd (fx_name 13) (ex_id 13) 1]) with (map fst (fx_adds 0 14)). apply fx_ok. lia.
    - vm_compute. reflexivity.
    - vm_compute. repeat (split; [left; reflexivity|]). exact I.
    - vm_compute. reflexivity.
    - vm_compute. reflexivity.
    - vm_compute. tauto. }
  clear - K. apply in_map_iff in K. destruct K as (i & E & Hi). apply in_seq in Hi. injection E as E _. apply (f_equal b2n) in E. rewrite !b2n_n2b in E.
  rewrite !N.mod_small in E by lia. lia.
Qed.
Print Assumptions C98_failed_add_keeps_the_rest_refuted.

Theorem C98_failed_add_adds_nothing_refuted :
  ~ forall (cmp : bytes -> bytes -> comparison) (junk : N -> bytes) (ops : list (dop * list fault)) name id ty plan e r,
    cmp_ok cmp -> (forall n, length (junk n) = 4096) ->
    Forall dop_ok (map fst ops ++ [DAdd name id ty]) -> (N.of_nat (length ops) < 5999999)%N -> run_calm cmp junk ops new_dir ->
    let g := fst (f_run cmp junk ops new_dir) in
    let g' := fst (f_step cmp junk (DAdd name id ty) plan g) in
    snd (f_step cmp junk (DAdd name id ty) plan g) = Err e ->
    snd (f_step cmp junk (DGet name) [] g') = Ok (OEntry r) ->
    r = find_name cmp name (after cmp ops (snd (f_run cmp junk ops new_dir)) []).
Proof.
  intros H.
  specialize (H binary_compare ex_junk (fx_adds 0 13) (fx_name 13) (ex_id 13) 1%N [no_space] (EPosix 28)
    (Some (mkEntry (fx_name 13) (ex_id 13) 1)) binary_compare_ok ex_junk_length).
  assert (K : Some (mkEntry (fx_name 13) (ex_id 13) 1) = find_name binary_compare (fx_name 13) (after binary_compare (fx_adds 0 13) (snd (f_run binary_compare ex_junk (fx_adds 0 13) new_dir)) [])).
  { apply H.
    - change (map fst (fx_adds 0 13) ++ [DAdd (fx_name 13) (ex_id 13) 1]) with (map fst (fx_adds 0 14)). apply fx_ok. lia.
    - vm_compute. reflexivity.
    - vm_compute. repeat (split; [left; reflexivity|]). exact I.
    - vm_compute. reflexivity.
    - vm_compute. reflexivity. }
  clear - K. vm_compute in K. discriminate K.
Qed.
Print Assumptions C98_failed_add_adds_nothing_refuted.

(** ** A failed removal can have removed the entry *)
Theorem C98_failed_remove_removes_nothing_refuted :
  ~ forall (cmp : bytes -> bytes -> comparison) (junk : N -> bytes) (ops : list (dop * list fault)) name plan e r,
    cmp_ok cmp -> (forall n, length (junk n) = 4096) ->
    Forall dop_ok (map fst ops) -> (N.of_nat (length ops) < 5999999)%N -> run_calm cmp junk ops new_dir ->
    let g := fst (f_run cmp junk ops new_dir) in
    let g' := fst (f_step cmp junk (DRemove name) plan g) in
    snd (f_step cmp junk (DRemove name) plan g) = Err e ->
    snd (f_step cmp junk (DGet name) [] g') = Ok (OEntry r) ->
    r = find_name cmp name (after cmp ops (snd (f_run cmp junk ops new_dir)) []).
Proof.
  intros H.
  specialize (H binary_compare ex_junk (fx_adds 0 40 ++ [(DReload, [])]) (fx_name 0) [None; None; io_error 0] (EPosix 5) None binary_compare_ok ex_junk_length).
  assert (K : None = find_name binary_compare (fx_name 0) (after binary_compare (fx_adds 0 40 ++ [(DReload, [])]) (snd (f_run binary_compare ex_junk (fx_adds 0 40 ++ [(DReload, [])]) new_dir)) [])).
  { apply H.
    - rewrite map_app, Forall_app. split; [apply fx_ok; lia|]. constructor; [exact I|constructor].
    - vm_compute. reflexivity.
    - vm_compute. repeat (split; [first [reflexivity|left; reflexivity]|]). exact I.
    - vm_compute. reflexivity.
    - vm_compute. reflexivity. }
  clear - K. vm_compute in K. discriminate K.
Qed.
Print Assumptions C98_failed_remove_removes_nothing_refuted.
