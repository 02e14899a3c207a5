(** Proofs about WinModel. *)
From Coq Require Import Strings.String Lia.
From Verif Require CodecProofs.
From Verif Require Import Base BaseLemmas TextModel WinModel WinSpec.
Local Open Scope list_scope.

Lemma beqb_eq a b : Byte.eqb a b = true <-> a = b.
Proof. split; [apply Byte.byte_dec_bl|apply Byte.byte_dec_lb]. Qed.
Lemma beqb_refl a : Byte.eqb a a = true.
Proof. now apply beqb_eq. Qed.
Lemma beqb_neq a b : Byte.eqb a b = false <-> a <> b.
Proof. rewrite <- beqb_eq. destruct (Byte.eqb a b); split; congruence. Qed.

(** ** Command lines *)
Lemma count_skip l : l = repeat BSL (count_bsl l) ++ skipn (count_bsl l) l.
Proof. induction l as [|c l IH]; [reflexivity|]. cbn [count_bsl]. destruct (Byte.eqb c BSL) eqn:E; [|reflexivity]. apply beqb_eq in E. subst c. cbn [repeat skipn app]. now f_equal. Qed.
Lemma count_stops l : match skipn (count_bsl l) l with [] => True | c :: _ => c <> BSL end.
Proof. induction l as [|c l IH]; [exact I|]. cbn [count_bsl]. destruct (Byte.eqb c BSL) eqn:E; [exact IH|]. cbn [skipn]. now apply beqb_neq. Qed.
Lemma count_some c l : c = BSL -> 0 < count_bsl (c :: l).
Proof. intros ->. cbn [count_bsl]. rewrite beqb_refl. lia. Qed.

Lemma run_bsl twin inq cur n : forall k x, argv_rest twin (Some (inq, cur)) k (repeat BSL n ++ x) = argv_rest twin (Some (inq, cur)) (n + k) x.
Proof.
  induction n as [|n IH]; intros k x; [reflexivity|]. cbn [repeat app argv_rest]. change (blank BSL) with false. cbn [andb]. change (Byte.eqb BSL x5c) with true. cbn [andb].
  rewrite IH. f_equal. lia.
Qed.
Definition pending (k : nat) (l : bytes) : nat := match l with [] => 2 * k | c :: _ => if Byte.eqb c DQUOTE then 2 * k else k end.
Lemma half2 k : 2 * k / 2 = k.
Proof. rewrite Nat.mul_comm. apply Nat.div_mul. discriminate. Qed.
Lemma odd2 k : Nat.odd (2 * k) = false.
Proof. rewrite Nat.odd_mul. reflexivity. Qed.
Lemma half21 k : S (2 * k) / 2 = k.
Proof. rewrite <- Nat.add_1_r, Nat.mul_comm, Nat.div_add_l by discriminate. apply Nat.add_0_r. Qed.
Lemma odd21 k : Nat.odd (S (2 * k)) = true.
Proof. rewrite Nat.odd_succ, Nat.even_mul. reflexivity. Qed.
Definition no_quote (x : bytes) : Prop := match x with [] => True | c :: _ => c <> x22 end.

Lemma quoted_ok twin x : no_quote x -> forall fuel l cur k, length l <= fuel -> match l with c :: _ => c = BSL -> k = 0 | [] => True end ->
  argv_rest twin (Some (true, cur)) (pending k l) (quote_loop fuel l ++ DQUOTE :: x) = argv_rest twin (Some (false, cur ++ repeat BSL k ++ l)) 0 x.
Proof.
  intros Hx. induction fuel as [|fuel IH]; intros l cur k Hl Hk.
  - destruct l as [|c l]; [|cbn [length] in Hl; lia]. cbn [quote_loop app pending argv_rest]. change (blank DQUOTE) with false. cbn [andb negb].
    change (Byte.eqb DQUOTE x5c) with false. change (Byte.eqb DQUOTE x22) with true. cbv iota. rewrite odd2, half2. rewrite !app_nil_r.
    destruct x as [|d x]; [reflexivity|]. replace (Byte.eqb d x22) with false by (symmetry; now apply beqb_neq). now rewrite Bool.andb_false_r.
  - destruct l as [|c l].
    { cbn [quote_loop app pending argv_rest]. change (blank DQUOTE) with false. cbn [andb negb].
      change (Byte.eqb DQUOTE x5c) with false. change (Byte.eqb DQUOTE x22) with true. cbv iota. rewrite odd2, half2. rewrite !app_nil_r.
      destruct x as [|d x]; [reflexivity|]. replace (Byte.eqb d x22) with false by (symmetry; now apply beqb_neq). now rewrite Bool.andb_false_r. }
    cbn [quote_loop]. destruct (Byte.eqb c BSL) eqn:E1.
    + apply beqb_eq in E1. subst c. rewrite (Hk eq_refl). pose proof (count_skip (BSL :: l)) as Hs. pose proof (count_stops (BSL :: l)) as Ht. pose proof (count_some BSL l eq_refl) as Hp.
      remember (count_bsl (BSL :: l)) as n eqn:En. cbv zeta. remember (skipn n (BSL :: l)) as rest eqn:Er.
      assert (Hlen : length rest <= fuel). { subst rest. rewrite skipn_length. cbn [length] in *. lia. }
      replace (pending 0 (BSL :: l)) with 0 by reflexivity. cbn [repeat app]. rewrite <- !app_assoc, run_bsl, Nat.add_0_r.
      transitivity (argv_rest twin (Some (true, cur)) (pending n rest) (quote_loop fuel rest ++ DQUOTE :: x)).
      * destruct rest as [|d rest]; [rewrite run_bsl; cbn [pending]; f_equal; lia|]. cbn [pending]. destruct (Byte.eqb d DQUOTE); [rewrite run_bsl; f_equal; lia|reflexivity].
      * rewrite IH; [|exact Hlen|destruct rest as [|d rest]; [exact I|intros ->; now elim Ht]]. now rewrite <- Hs.
    + destruct (Byte.eqb c DQUOTE) eqn:E2.
      * apply beqb_eq in E2. subst c. cbn [pending]. change (Byte.eqb DQUOTE DQUOTE) with true. cbv iota. cbn [app argv_rest].
        change (blank BSL) with false. change (blank DQUOTE) with false. cbn [andb]. change (Byte.eqb BSL x5c) with true. change (Byte.eqb DQUOTE x5c) with false. change (Byte.eqb DQUOTE x22) with true. cbv iota.
        rewrite odd21, half21. specialize (IH l ((cur ++ repeat BSL k) ++ [x22]) 0 ltac:(cbn [length] in Hl; lia) ltac:(destruct l; auto)).
        replace (pending 0 l) with 0 in IH by (destruct l as [|d l]; [reflexivity|]; cbn [pending]; now destruct (Byte.eqb d DQUOTE)). change x5c with BSL. rewrite IH. cbn [repeat app]. now rewrite <- !app_assoc.
      * cbn [pending app argv_rest]. rewrite E2. rewrite Bool.andb_false_r. change (Byte.eqb c x5c) with (Byte.eqb c BSL). change (Byte.eqb c x22) with (Byte.eqb c DQUOTE). rewrite E1, E2.
        specialize (IH l (cur ++ repeat BSL k ++ [c]) 0 ltac:(cbn [length] in Hl; lia) ltac:(destruct l; auto)).
        replace (pending 0 l) with 0 in IH by (destruct l as [|d l]; [reflexivity|]; cbn [pending]; now destruct (Byte.eqb d DQUOTE)). change x5c with BSL. rewrite IH. cbn [repeat app]. now rewrite <- !app_assoc.
Qed.
Lemma bare_ok twin x : forall a cur k, existsb wants_quotes a = false ->
  exists cur' k', cur' ++ repeat BSL k' = cur ++ repeat BSL k ++ a /\ argv_rest twin (Some (false, cur)) k (a ++ x) = argv_rest twin (Some (false, cur')) k' x.
Proof.
  induction a as [|c a IH]; intros cur k H; [exists cur, k; rewrite app_nil_r; auto|]. cbn [existsb] in H. apply Bool.orb_false_iff in H. destruct H as [Hc H].
  unfold wants_quotes in Hc. apply Bool.orb_false_iff in Hc. destruct Hc as [Hb Hq]. cbn [app argv_rest]. fold (blank c) in Hb. rewrite Hb. cbn [andb].
  change (Byte.eqb c x22) with (Byte.eqb c DQUOTE). rewrite Hq. destruct (Byte.eqb c x5c) eqn:E.
  - apply beqb_eq in E. subst c. destruct (IH cur (S k) H) as (cur' & k' & A & B). exists cur', k'. split; [|exact B]. rewrite A. f_equal.
    change (x5c :: a) with (repeat BSL 1 ++ a). rewrite app_assoc, <- repeat_app. f_equal. f_equal. lia.
  - destruct (IH (cur ++ repeat x5c k ++ [c]) 0 H) as (cur' & k' & A & B). exists cur', k'. split; [|exact B]. rewrite A. cbn [repeat app]. now rewrite <- !app_assoc.
Qed.
Definition tail_ok (x : bytes) : Prop := match x with [] => True | c :: _ => c = x20 end.
Lemma first_none twin c x : blank c = false -> argv_rest twin None 0 (c :: x) = argv_rest twin (Some (false, [])) 0 (c :: x).
Proof. intros H. cbn [argv_rest]. rewrite H. reflexivity. Qed.
Lemma arg_ok twin a x : tail_ok x -> argv_rest twin None 0 (win_quote_argv a ++ x) = a :: argv_rest twin None 0 x.
Proof.
  intros Hx. assert (Hn : no_quote x) by (destruct x as [|c x]; [exact I|]; cbn in *; subst c; discriminate).
  assert (Hend : forall cur k, argv_rest twin (Some (false, cur)) k x = (cur ++ repeat BSL k) :: argv_rest twin None 0 x).
  { intros cur k. destruct x as [|c x]; [reflexivity|]. cbn in Hx. subst c. reflexivity. }
  unfold win_quote_argv. destruct (match a with [] => true | _ => existsb wants_quotes a end) eqn:E.
  - cbn [app]. rewrite first_none by reflexivity. cbn [argv_rest]. change (blank DQUOTE) with false. cbn [andb].
    change (Byte.eqb DQUOTE x5c) with false. change (Byte.eqb DQUOTE x22) with true. cbv iota. cbn [Nat.odd Nat.even negb Nat.div repeat app].
    rewrite <- app_assoc. cbn [app]. pose proof (quoted_ok twin x Hn (length a) a [] 0 (le_n _) ltac:(destruct a; auto)) as H.
    replace (pending 0 a) with 0 in H by (destruct a as [|d l]; [reflexivity|]; cbn [pending]; now destruct (Byte.eqb d DQUOTE)). cbn [repeat app] in H.
    change (Nat.odd 0) with false. cbv iota. replace (0 / 2) with 0 by reflexivity. cbn [repeat].
    assert (Hgo : argv_rest twin (Some (true, [])) 0 (quote_loop (length a) a ++ DQUOTE :: x) = a :: argv_rest twin None 0 x) by (rewrite H, Hend; cbn [repeat]; now rewrite app_nil_r).
    destruct (quote_loop (length a) a ++ DQUOTE :: x) as [|d y] eqn:Ey; [destruct (quote_loop _ _); discriminate Ey|].
    rewrite Bool.andb_false_r. cbn [andb]. exact Hgo.
  - destruct a as [|c a]; [discriminate E|]. destruct (bare_ok twin x (c :: a) [] 0 E) as (cur' & k' & A & B). cbn [repeat app] in A.
    cbn [existsb] in E. apply Bool.orb_false_iff in E. destruct E as [Ec _]. unfold wants_quotes in Ec. apply Bool.orb_false_iff in Ec. destruct Ec as [Eb _].
    cbn [app]. rewrite (first_none twin c (a ++ x) Eb). cbn [app] in B. rewrite B, Hend. now rewrite A.
Qed.
Lemma rest_ok twin args : argv_rest twin None 0 (command_line args) = args.
Proof.
  induction args as [|a [|b args] IH]; [reflexivity| |].
  - cbn [command_line]. rewrite <- (app_nil_r (win_quote_argv a)). now rewrite arg_ok.
  - change (command_line (a :: b :: args)) with (win_quote_argv a ++ x20 :: command_line (b :: args)). rewrite arg_ok by reflexivity. f_equal. exact IH.
Qed.
Lemma cut_all stop a x : forallb (fun c => negb (stop c)) a = true -> cut_at stop (a ++ x) = (let (b, r) := cut_at stop x in (a ++ b, r)).
Proof.
  induction a as [|c a IH]; intros H; [cbn [app]; now destruct (cut_at stop x)|]. cbn [forallb] in H. apply Bool.andb_true_iff in H. destruct H as [Hc H]. cbn [app cut_at].
  destruct (stop c); [discriminate Hc|]. rewrite (IH H). now destruct (cut_at stop x).
Qed.
Definition a_program (a : bytes) : Prop := Forall (fun c => (32 <= b2n c)%N /\ c <> x22) a /\ last a x41 <> x5c.
Lemma quote_plain : forall fuel a, length a <= fuel -> Forall (fun c => c <> DQUOTE) a -> last a x41 <> BSL -> quote_loop fuel a = a.
Proof.
  induction fuel as [|fuel IH]; intros a Hl Hq Hb; [destruct a; [reflexivity|cbn [length] in Hl; lia]|]. destruct a as [|c a]; [reflexivity|]. cbn [quote_loop]. inversion Hq as [|? ? Hc Hq']; subst.
  destruct (Byte.eqb c BSL) eqn:E1.
  - apply beqb_eq in E1. subst c. pose proof (count_skip (BSL :: a)) as Hs. pose proof (count_some BSL a eq_refl) as Hp. cbv zeta. remember (count_bsl (BSL :: a)) as n eqn:En.
    remember (skipn n (BSL :: a)) as rest eqn:Er.
    assert (Hlen : length rest <= fuel). { subst rest. rewrite skipn_length. cbn [length] in *. lia. }
    assert (Hr : Forall (fun c => c <> DQUOTE) rest). { rewrite Hs in Hq. apply Forall_app in Hq. apply Hq. }
    destruct rest as [|d rest].
    + exfalso. apply Hb. rewrite Hs, app_nil_r. clear - Hp. destruct n as [|n]; [lia|]. clear Hp. induction n as [|n IHn]; [reflexivity|]. exact IHn.
    + inversion Hr; subst. replace (Byte.eqb d DQUOTE) with false by (symmetry; now apply beqb_neq). cbn [app]. rewrite IH; [now symmetry|exact Hlen|now constructor|].
      rewrite Hs in Hb. clear - Hb. induction (count_bsl (BSL :: a)) as [|n IHn]; [exact Hb|]. apply IHn. cbn [repeat app] in Hb. cbn [last] in Hb. destruct (repeat BSL n ++ d :: rest) eqn:E; [|exact Hb]. destruct n; discriminate E.
  - replace (Byte.eqb c DQUOTE) with false by (symmetry; now apply beqb_neq). f_equal. apply IH; [cbn [length] in Hl; lia|assumption|]. destruct a; [discriminate|exact Hb].
Qed.
Lemma argv_ok twin a args : a_program a -> argv twin (command_line (a :: args)) = a :: args.
Proof.
  intros [Ha Hl]. assert (Hq : Forall (fun c => c <> DQUOTE) a) by (eapply Forall_impl; [|exact Ha]; intros c [_ H]; exact H).
  assert (Htail : exists x, command_line (a :: args) = win_quote_argv a ++ x /\ tail_ok x /\ (args = [] -> x = []) /\ argv_rest twin None 0 (match x with [] => [] | _ :: y => y end) = args).
  { destruct args as [|b args]; [exists []; cbn [command_line]; rewrite app_nil_r; repeat split; reflexivity|].
    exists (x20 :: command_line (b :: args)). repeat split; [discriminate|]. apply rest_ok. }
  destruct Htail as (x & -> & Hx & Hx0 & Hr). unfold win_quote_argv. destruct (match a with [] => true | _ => existsb wants_quotes a end) eqn:E.
  - rewrite (quote_plain (length a) a (le_n _) Hq Hl). cbn [app]. unfold argv. change (Byte.eqb DQUOTE x22) with true. cbv iota. rewrite <- app_assoc.
    rewrite (cut_all (Byte.eqb x22) a). 2:{ apply forallb_forall. intros c Hc. rewrite Forall_forall in Hq. specialize (Hq c Hc). apply Bool.negb_true_iff, beqb_neq. intros <-. now apply Hq. }
    cbn [app cut_at]. change (Byte.eqb x22 DQUOTE) with true. cbv iota. rewrite app_nil_r. f_equal. destruct x as [|c x]; [exact Hr|]. cbn in Hx. subst c. cbn [argv_rest]. change (blank x20) with true. exact Hr.
  - destruct a as [|c a]; [discriminate E|]. assert (Hs : forallb (fun c => negb (b2n c <=? 32)%N) (c :: a) = true).
    { apply forallb_forall. intros d Hd. rewrite Forall_forall in Ha. destruct (Ha d Hd) as [H1 H2]. assert (H3 : wants_quotes d = false).
      { destruct (wants_quotes d) eqn:Ew; [|reflexivity]. assert (existsb wants_quotes (c :: a) = true) by (apply existsb_exists; eauto). congruence. }
      unfold wants_quotes in H3. apply Bool.orb_false_iff in H3. destruct H3 as [H3 _]. apply Bool.orb_false_iff in H3. destruct H3 as [H3 _]. apply beqb_neq in H3.
      apply Bool.negb_true_iff, N.leb_gt. destruct (N.eq_dec (b2n d) 32) as [H4|H4]; [|lia]. exfalso. apply H3. unfold b2n in H4. apply (f_equal Byte.of_N) in H4. rewrite Byte.of_to_N in H4. cbn in H4. congruence. }
    change ((c :: a) ++ x) with (c :: (a ++ x)). unfold argv. inversion Hq as [|? ? Hc _]; subst. replace (Byte.eqb c x22) with false by (symmetry; now apply beqb_neq).
    change (c :: a ++ x) with ((c :: a) ++ x). rewrite (cut_all _ _ _ Hs). destruct x as [|d x]; [cbn [cut_at]; rewrite app_nil_r; f_equal; exact Hr|]. cbn in Hx. subst d. cbn [cut_at]. change (b2n x20 <=? 32)%N with true. cbv iota.
    rewrite app_nil_r. now f_equal.
Qed.

(** ** The child's standard input *)
Lemma firstn_plus {A} k j (l : list A) : firstn (k + j) l = firstn k l ++ firstn j (skipn k l).
Proof. revert l. induction k as [|k IH]; intros l; [reflexivity|]. destruct l as [|x l]; [now rewrite !firstn_nil|]. cbn [Nat.add firstn skipn app]. now rewrite IH. Qed.
Lemma feed_ok unix chunk : forall answers left c r c', ch_killed c = false -> ch_eof c = false -> feed unix chunk answers left c = Some (r, c') ->
  exists n, ch_got c' = ch_got c ++ firstn n left /\ ch_eof c' = true /\ (r = Ok tt <-> ch_killed c' = false) /\ (r = Ok tt -> firstn n left = left).
Proof.
  induction answers as [|[n| |e] answers IH]; intros left c r c' Hk He; destruct left as [|b left]; cbn [feed]; try discriminate;
    try (intros [= <- <-]; exists 0; cbn [ch_got ch_killed ch_eof firstn]; rewrite app_nil_r; repeat split; auto; congruence).
  - cbv zeta. destruct (Nat.eqb_spec (Nat.min n (if unix then length (b :: left) else Nat.min chunk (length (b :: left)))) 0) as [E|E].
    + intros [= <- <-]. exists 0. cbn [ch_got ch_killed ch_eof firstn]. rewrite app_nil_r. repeat split; auto; congruence.
    + remember (Nat.min n _) as k eqn:Ek. intros H. apply IH in H; [|exact Hk|exact He]. destruct H as (j & H1 & H2 & H3 & H4). cbn [ch_got] in H1. exists (k + j). split; [|split; [exact H2|split; [exact H3|]]].
      * rewrite H1, <- app_assoc. f_equal. now rewrite firstn_plus.
      * intros Hr. rewrite firstn_plus, (H4 Hr). apply firstn_skipn.
  - destruct unix; [now apply IH|]. intros [= <- <-]. exists 0. cbn [ch_got ch_killed ch_eof firstn]. rewrite app_nil_r. repeat split; auto; congruence.
Qed.

(** ** Times *)
Lemma pair_ticks low high : (low < 2 ^ 32)%N -> Z.of_N (dword_pair low high) = ticks low high.
Proof.
  intros H. unfold dword_pair, ticks. rewrite (CodecProofs.lor_add_shift low high 32 H). lia.
Qed.
Lemma to_i64_id z : (- 2 ^ 63 <= z < 2 ^ 63)%Z -> to_i64 z = z.
Proof. intros H. unfold to_i64. rewrite Z.mod_small; lia. Qed.
Lemma in_i64_ok z : (- 2 ^ 63 <= z < 2 ^ 63)%Z -> in_i64 z = true.
Proof. unfold in_i64. intros H. apply Bool.andb_true_iff. split; lia. Qed.
Lemma halves low high : (low < 2 ^ 32)%N -> (high < 2 ^ 32)%N -> 
  Z.to_N (ticks low high mod 2 ^ 32) = low /\ Z.to_N (ticks low high / 2 ^ 32 mod 2 ^ 32) = high.
Proof.
  intros H1 H2. unfold ticks. rewrite Z.mod_add by discriminate. rewrite Z.div_add by discriminate. rewrite (Z.mod_small (Z.of_N low)) by lia. rewrite (Z.div_small (Z.of_N low)) by lia.
  rewrite Z.mod_small by lia. lia.
Qed.
Lemma there_and_back low high : (low < 2 ^ 32)%N -> (high < 2 ^ 31)%N ->
  let t := filetime_to_unix (mkFt low high) in
  unix_to_filetime t = Ok (mkFt low high) /\ (w_sec t * 10 ^ 9 + w_nsec t = (ticks low high - EPOCH) * 100)%Z.
Proof.
  intros H1 H2. assert (H3 : (0 <= ticks low high < 2 ^ 63)%Z) by (unfold ticks; lia). unfold filetime_to_unix. cbn [ft_low ft_high]. rewrite (pair_ticks _ _ H1).
  assert (He : EPOCH = 116444736000000000%Z) by reflexivity. rewrite to_i64_id by lia. cbv zeta. cbn [w_sec w_nsec]. remember (ticks low high - EPOCH)%Z as ll eqn:El.
  pose proof (Z.quot_rem' ll 10000000) as Hq. split; [|lia]. unfold unix_to_filetime. cbn [w_sec w_nsec]. rewrite Z.quot_mul by discriminate. cbv zeta.
  assert (Ha : (Z.abs (Z.quot ll 10000000 * 10000000) <= Z.abs ll)%Z).
  { destruct (Z_le_dec 0 ll) as [Hs|Hs]; [pose proof (Z.rem_bound_pos ll 10000000 Hs ltac:(lia)); lia|].
    pose proof (Z.rem_bound_pos (- ll) 10000000 ltac:(lia) ltac:(lia)) as Hr. rewrite Z.rem_opp_l in Hr by discriminate. lia. }
  replace (Z.quot ll 10000000 * 10000000 + Z.rem ll 10000000)%Z with ll by lia. replace (ll + EPOCH)%Z with (ticks low high) by lia.
  rewrite (in_i64_ok (Z.quot ll 10000000 * 10000000)), (in_i64_ok ll), (in_i64_ok (ticks low high)) by lia. cbn [andb]. destruct (halves low high H1 ltac:(lia)) as [-> ->]. reflexivity.
Qed.
Lemma back_and_there sec nsec : (0 <= sec < 910692730085)%Z -> (0 <= nsec < 10 ^ 9)%Z ->
  exists ft, unix_to_filetime (mkWt sec nsec) = Ok ft /\ filetime_to_unix ft = mkWt sec (nsec - nsec mod 100).
Proof.
  intros H1 H2. unfold unix_to_filetime. cbn [w_sec w_nsec]. cbv zeta. assert (He : EPOCH = 116444736000000000%Z) by reflexivity.
  assert (Hn : (0 <= Z.quot nsec 100 < 10000000)%Z). { rewrite Z.quot_div_nonneg by lia. split; [apply Z.div_pos; lia|]. apply Z.div_lt_upper_bound; lia. }
  rewrite (in_i64_ok (sec * 10000000)), (in_i64_ok (sec * 10000000 + Z.quot nsec 100)), (in_i64_ok (sec * 10000000 + Z.quot nsec 100 + EPOCH)) by lia. cbn [andb]. eexists. split; [reflexivity|]. remember (sec * 10000000 + Z.quot nsec 100 + EPOCH)%Z as ll eqn:El.
  assert (Hll : (0 <= ll < 2 ^ 63)%Z) by lia. unfold filetime_to_unix. cbn [ft_low ft_high].
  rewrite pair_ticks by (pose proof (Z.mod_pos_bound ll (2 ^ 32) ltac:(lia)); lia). unfold ticks.
  assert (Hd : (0 <= ll / 2 ^ 32 < 2 ^ 32)%Z) by (split; [apply Z.div_pos; lia|apply Z.div_lt_upper_bound; lia]). rewrite (Z.mod_small (ll / 2 ^ 32)) by lia.
  pose proof (Z.mod_pos_bound ll (2 ^ 32) ltac:(lia)) as Hm. pose proof (Z.div_mod ll (2 ^ 32) ltac:(lia)) as Hdm. rewrite !Z2N.id by lia.
  replace (ll mod 2 ^ 32 + ll / 2 ^ 32 * 2 ^ 32)%Z with ll by lia. rewrite to_i64_id by lia. replace (ll - EPOCH)%Z with (Z.quot nsec 100 + sec * 10000000)%Z by lia.
  rewrite Z.quot_div_nonneg by lia. rewrite Z.div_add by discriminate. rewrite Z.div_small by lia. rewrite Z.rem_mod_nonneg by lia. rewrite Z.mod_add by discriminate. rewrite Z.mod_small by lia.
  rewrite Z.quot_div_nonneg by lia. f_equal. pose proof (Z.div_mod nsec 100 ltac:(lia)). lia.
Qed.

(** ** Symbolic links *)
Lemma starts_app pre p : starts_with pre (pre ++ p) = true.
Proof. unfold starts_with. rewrite firstn_app, Nat.sub_diag, firstn_all. cbn [firstn]. rewrite app_nil_r. now apply bytes_eqb_eq. Qed.
Lemma replace_back p : Forall (fun c => c <> BSL) p -> replace_byte BSL SLASH (replace_byte SLASH BSL p) = p.
Proof.
  induction 1 as [|c p Hc H IH]; [reflexivity|]. unfold replace_byte in *. cbn [map]. rewrite IH. f_equal. destruct (Byte.eqb c SLASH) eqn:E.
  - apply beqb_eq in E. subst c. reflexivity.
  - replace (Byte.eqb c BSL) with false by (symmetry; now apply beqb_neq). reflexivity.
Qed.
Lemma link_ok to size : Forall (fun c => c <> BSL) to -> win_readlink (win_symlink to) size = firstn size to /\ win_link_size (win_symlink to) = length to.
Proof.
  intros H. unfold win_readlink, win_link_size, win_symlink, prepend_symlink_prefix, remove_symlink_prefix. rewrite starts_app. rewrite skipn_app, Nat.sub_diag, skipn_all. cbn [app skipn]. rewrite (replace_back _ H). split.
  - destruct (Nat.le_gt_cases size (length to)) as [Hl|Hl]; [now rewrite Nat.min_l|]. rewrite Nat.min_r by lia. now rewrite !firstn_all2 by lia.
  - rewrite app_length. unfold replace_byte. rewrite map_length. destruct (Nat.ltb_spec (length symlink_prefix) (length symlink_prefix + length to)); lia.
Qed.

(** ** Opening *)
Lemma open_ok f c : (o_trunc f = true -> o_acc f <> 0%N) -> win_open f c = posix_open (o_acc f) (o_creat f) (o_excl f) (o_trunc f) c.
Proof.
  destruct f as [acc cr ex tr]. cbn [o_acc o_creat o_excl o_trunc]. intros Ht. unfold win_open, win_access, posix_open, win_disposition. cbn [o_acc o_creat o_excl o_trunc].
  destruct acc as [|[[p|p|]|[p|p|]|]]; try reflexivity; destruct cr, ex, tr, c as [d|]; try reflexivity; now elim Ht.
Qed.

(** ** Reading and writing in pieces *)
Lemma read_pieces m c : 0 < m -> forall fuel off len, len <= fuel -> win_read fuel m c off len = Ok (arr_read c off len).
Proof.
  intros Hm. induction fuel as [|fuel IH]; intros off len Hf.
  - assert (len = 0) as -> by lia. cbn [win_read]. destruct (Nat.ltb_spec m 0); [lia|reflexivity].
  - cbn [win_read]. destruct (Nat.ltb_spec m len) as [H|H]; [|reflexivity]. cbv zeta. unfold arr_read in *. destruct (Nat.eqb_spec (length (firstn m (skipn off c))) 0) as [E|E].
    + f_equal. symmetry. rewrite firstn_length in E. assert (length (skipn off c) = 0) by lia. destruct (skipn off c); [apply firstn_nil|discriminate].
    + rewrite IH by lia. cbn [rmap]. f_equal. rewrite firstn_length in *. remember (Nat.min m (length (skipn off c))) as k eqn:Ek. 
      replace (firstn m (skipn off c)) with (firstn k (skipn off c)).
      2:{ subst k. destruct (Nat.le_gt_cases m (length (skipn off c))); [now rewrite Nat.min_l|]. rewrite Nat.min_r by lia. now rewrite !firstn_all2 by lia. }
      replace len with (k + (len - k)) at 2 by lia. rewrite firstn_plus. f_equal. f_equal. rewrite Nat.add_comm. clear. revert c. induction off as [|off IHo]; intros c; [now rewrite Nat.add_0_r|].
      rewrite Nat.add_succ_r. destruct c as [|x c]; [now rewrite !skipn_nil|]. cbn [skipn]. apply IHo.
Qed.
Lemma write_pieces m : 0 < m -> forall fuel c off d, length d <= fuel -> win_write fuel m c off d = Ok (arr_write c off d).
Proof.
  intros Hm. induction fuel as [|fuel IH]; intros c off d Hf.
  - destruct d; [|cbn [length] in Hf; lia]. cbn [win_write]. destruct (Nat.ltb_spec m (length (@nil byte))); [cbn [length] in *; lia|reflexivity].
  - cbn [win_write]. destruct (Nat.ltb_spec m (length d)) as [H|H]; [|reflexivity]. rewrite IH by (rewrite skipn_length; lia). f_equal. apply bytes_ext.
    + rewrite !arr_write_length_ne; rewrite ?skipn_length, ?firstn_length; lia.
    + intros i Hi. rewrite !get_arr_write, skipn_length, firstn_length, get_skipn, get_firstn. rewrite Nat.min_l by lia.
      destruct (Nat.leb_spec (off + m) i), (Nat.ltb_spec i (off + m + (length d - m))), (Nat.leb_spec off i), (Nat.ltb_spec i (off + m)), (Nat.ltb_spec i (off + length d)), (Nat.ltb_spec (i - off) m); cbn [andb]; try lia; try reflexivity; f_equal; lia.
Qed.

(** ** Paths *)
Lemma sep_is c : is_sep c = true <-> sep c.
Proof. unfold is_sep, sep. rewrite Bool.orb_true_iff, !beqb_eq. reflexivity. Qed.
Lemma split_name : forall x cur p, Forall (fun c => ~ sep c) x -> split_seps cur (x ++ p) = split_seps (cur ++ x) p.
Proof.
  induction x as [|c x IH]; intros cur p H; [now rewrite app_nil_r|]. inversion H as [|? ? Hc Hx]; subst. cbn [app split_seps].
  destruct (is_sep c) eqn:E; [apply sep_is in E; contradiction|]. rewrite (IH _ _ Hx). now rewrite <- app_assoc.
Qed.
Lemma norm_ends cur p st : ends_name p -> norm_pieces (split_seps cur p) st = norm_pieces (cur :: split_seps [] p) st.
Proof.
  intros H. destruct p as [|c p].
  - cbn [split_seps norm_pieces]. change (bytes_eqb [] []) with true. cbn [orb]. reflexivity.
  - cbn [ends_name] in H. apply sep_is in H. cbn [split_seps]. rewrite H. cbn [norm_pieces]. change (bytes_eqb [] []) with true. cbn [orb]. reflexivity.
Qed.
Lemma not_sep_dot : ~ sep x2e.
Proof. intros [H|H]; discriminate H. Qed.
Lemma norm_ok p l : spells p l -> forall st, norm_pieces (split_seps [] p) st = walk (rev st) l.
Proof.
  induction 1 as [|c p l Hc H IH|p l He H IH|p l He H IH|x p l Hx He H IH]; intros st.
  - cbn [split_seps norm_pieces]. change (bytes_eqb [] []) with true. reflexivity.
  - cbn [split_seps]. apply sep_is in Hc. rewrite Hc. cbn [norm_pieces]. change (bytes_eqb [] []) with true. cbn [orb]. apply IH.
  - change (x2e :: p) with ([x2e] ++ p). rewrite split_name by (constructor; [exact not_sep_dot|constructor]). cbn [app]. rewrite (norm_ends _ _ _ He). cbn [norm_pieces]. change (bytes_eqb [x2e] []) with false. change (bytes_eqb [x2e] DOT) with true. cbn [orb]. apply IH.
  - change (x2e :: x2e :: p) with ([x2e; x2e] ++ p). rewrite split_name by (constructor; [exact not_sep_dot|constructor; [exact not_sep_dot|constructor]]). cbn [app]. rewrite (norm_ends _ _ _ He). cbn [norm_pieces].
    change (bytes_eqb [x2e; x2e] []) with false. change (bytes_eqb [x2e; x2e] DOT) with false. change (bytes_eqb [x2e; x2e] DOTDOT) with true. cbn [orb]. rewrite IH. cbn [walk]. f_equal.
    destruct st as [|y st]; [reflexivity|]. cbn [tl rev]. now rewrite removelast_last.
  - destruct Hx as [H1 H2 H3 H4]. rewrite (split_name x [] p H2). cbn [app]. rewrite (norm_ends _ _ _ He). cbn [norm_pieces].
    replace (bytes_eqb x []) with false by (symmetry; now apply bytes_eqb_neq). replace (bytes_eqb x DOT) with false by (symmetry; now apply bytes_eqb_neq).
    replace (bytes_eqb x DOTDOT) with false by (symmetry; now apply bytes_eqb_neq). cbn [orb]. rewrite IH. reflexivity.
Qed.
Lemma spells_app p l q l' : spells p l -> spells q l' -> spells (p ++ BSL :: q) (l ++ l').
Proof.
  intros H Hq. induction H as [|c p l Hc H IH|p l He H IH|p l He H IH|x p l Hx He H IH]; cbn [app].
  - apply sp_sep; [now right|exact Hq].
  - now apply sp_sep.
  - apply sp_dot; [destruct p; [now right|exact He]|exact IH].
  - apply sp_up; [destruct p; [now right|exact He]|exact IH].
  - rewrite <- app_assoc. apply sp_name; [exact Hx|destruct p; [now right|exact He]|exact IH].
Qed.
Lemma concat_ok base bl path pl : spells base bl -> spells path pl -> base <> [] -> is_absolute base = true -> is_absolute path = false ->
  concat_and_norm base path = Ok (verbatim base (walk [] (bl ++ pl))).
Proof.
  intros Hb Hp Hn Ha Hr. unfold concat_and_norm. replace (bytes_eqb base []) with false by (symmetry; now apply bytes_eqb_neq). rewrite Hr, Ha. cbn [orb negb].
  change (base ++ [BSL] ++ path) with (base ++ BSL :: path). rewrite (norm_ok _ _ (spells_app _ _ _ _ Hb Hp) []). cbn [rev]. cbv zeta. unfold verbatim, starts_with. cbn [length].
  change [x5c; x5c] with [BSL; BSL]. destruct (bytes_eqb (firstn 2 base) [BSL; BSL]); reflexivity.
Qed.
Lemma walk_names l : forall at_, walk at_ (map Name l) = at_ ++ l.
Proof. induction l as [|x l IH]; intros a; [now rewrite app_nil_r|]. cbn [map walk]. rewrite IH. now rewrite <- app_assoc. Qed.
Lemma walk_app l : forall at_ l', walk at_ (l ++ l') = walk (walk at_ l) l'.
Proof. induction l as [|[x|] l IH]; intros a l'; [reflexivity| |]; cbn [app walk]; apply IH. Qed.
Lemma walk_plain l : forall at_, Forall plain at_ -> Forall (fun c => match c with Name x => plain x | Up => True end) l -> Forall plain (walk at_ l).
Proof.
  induction l as [|[x|] l IH]; intros a Ha Hl; [exact Ha| |]; inversion Hl; subst; cbn [walk]; apply IH; try assumption.
  - apply Forall_app. split; [exact Ha|]. constructor; [assumption|constructor].
  - clear - Ha. induction a as [|y a IH]; [constructor|]. inversion Ha; subst. cbn [removelast]. destruct a; [constructor|]. constructor; [assumption|]. now apply IH.
Qed.
Lemma spells_plain p l : spells p l -> Forall (fun c => match c with Name x => plain x | Up => True end) l.
Proof. induction 1; auto. Qed.
Lemma join_inj l : forall l', Forall plain l -> Forall plain l' -> flat_map (fun x => BSL :: x) l = flat_map (fun x => BSL :: x) l' -> l = l'.
Proof.
  induction l as [|x l IH]; intros [|y l'] Hl Hl' E; [reflexivity|discriminate E|discriminate E|]. inversion Hl as [|? ? [_ X _ _] Hl1]; subst. inversion Hl' as [|? ? [_ Y _ _] Hl2]; subst.
  cbn [flat_map app] in E. injection E as E.
  assert (Hxy : x = y /\ flat_map (fun x => BSL :: x) l = flat_map (fun x => BSL :: x) l').
  { clear - E X Y. assert (Hh : forall m : list bytes, match flat_map (fun x => BSL :: x) m with [] => True | c :: _ => c = BSL end) by (intros [|m ms]; [exact I|reflexivity]).
    pose proof (Hh l) as H1. pose proof (Hh l') as H2. revert y Y E. generalize dependent (flat_map (fun x => BSL :: x) l). generalize dependent (flat_map (fun x => BSL :: x) l'). intros b Hb a Ha.
    induction X as [|c x Hc X IH]; intros y Y E.
    - destruct Y as [|d y Hd Y]; [auto|]. cbn [app] in E. subst a. cbn in Ha. subst d. elim Hd. now right.
    - destruct Y as [|d y Hd Y]; cbn [app] in E.
      + subst b. cbn in Hb. subst c. elim Hc. now right.
      + injection E as -> E. destruct (IH y Y E) as [-> ->]. auto. }
  destruct Hxy as [-> Hxy]. f_equal. now apply IH.
Qed.
