(** Proofs about [GetpathModel]. *)
From Coq Require Import ZArith.
From Verif Require Import Base BaseLemmas CodecModel FullFsModel BtreeModel TableModel TableSpec TableProofs TableTop TableMore GetpathModel GetpathSpec.
Local Open Scope nat_scope.
Local Open Scope list_scope.

Definition has (t : table) (a : nat) (c : content) : Prop := exists o, alive t a o /\ o_cont o = c.
Definition pos (t : table) (a F : nat) : Prop := forall k pre post, cached t k = pre ++ a :: post -> S (length post) <= F.

Lemma hold_has b t a c : has t a c -> has (hold_obj b t) a c.
Proof.
  intros (o & [B1 B2] & B3). unfold hold_obj. destruct (oget t b) as [ob|] eqn:Eb; [|exists o; repeat split; auto].
  destruct (Nat.eq_dec a b) as [->|N].
  - assert (ob = o) by congruence. subst ob. exists (with_ref (o_ref o + 1)%Z o). repeat split; auto. exact (nth_set_eq _ _ _ _ Eb).
  - exists o. repeat split; auto. unfold oget. cbn. rewrite nth_set_ne by exact N. exact B1.
Qed.
Lemma grow_has n t a c : has t a c -> has (with_heap (heap t ++ [n]) t) a c.
Proof. intros (o & A & E). exists o. split; [now apply grow_alive|exact E]. Qed.
Lemma oset_has b ob n t a c : oget t b = Some ob -> o_dead n = o_dead ob -> (a = b -> o_cont n = o_cont ob) -> has t a c -> has (oset b n t) a c.
Proof.
  intros Eb E2 E3 (o & [B1 B2] & B3). destruct (Nat.eq_dec a b) as [->|N].
  - assert (ob = o) by congruence. subst ob. exists n. repeat split; [exact (nth_set_eq _ _ _ _ Eb)|congruence|rewrite E3 by reflexivity; exact B3].
  - exists o. repeat split; auto. unfold oget. cbn. rewrite nth_set_ne by exact N. exact B1.
Qed.
Lemma frame_has t t' a c : heap t' = heap t -> has t a c -> has t' a c.
Proof. intros E (o & [B1 B2] & B3). exists o. repeat split; auto. unfold oget in *. now rewrite E. Qed.

Lemma remove_nat_split b l pre a post : a <> b -> remove_nat b l = pre ++ a :: post -> exists pre' post', l = pre' ++ a :: post' /\ length post <= length post'.
Proof.
  intros N. revert pre. induction l as [|x l IH]; intros pre E; cbn in E; [destruct pre; discriminate|].
  destruct (x =? b) eqn:Ex.
  - exists (x :: pre), post. split; [cbn; now rewrite E|lia].
  - destruct pre as [|y pre].
    + injection E as -> E. clear IH. exists [], l. split; [reflexivity|]. rewrite <- E. clear E. induction l as [|z l IH]; [cbn; lia|]. cbn. destruct (z =? b); cbn; lia.
    + injection E as -> E. destruct (IH _ E) as (p' & q' & -> & L). exists (y :: p'), q'. split; [reflexivity|exact L].
Qed.
Lemma remove_nat_in_ne b l a : NoDup l -> In a (remove_nat b l) -> a <> b.
Proof. intros H Hi ->. now apply (remove_nat_nodup b l H). Qed.

Lemma exists_last_or_nil {A} (l : list A) : l = [] \/ exists l' z, l = l' ++ [z].
Proof. destruct l as [|x l]; [now left|right]. destruct (exists_last (l := x :: l)) as (l' & z & E); [discriminate|]. eauto. Qed.

(** The object of a directory is not destroyed unless forty-one others are put to rest
    after it. *)
Lemma finish_pos t k a b c F : has t a c -> pos t a F -> F <= 40 ->
  let t1 := with_cached k (cached t k ++ [b]) t in
  (forall x, In x (cached t k ++ [b]) -> exists o, oget t x = Some o) ->
  existsb (in_use t1) (firstn eject_number (cached t k ++ [b])) = false ->
  has (evict k t1) a c /\ pos (evict k t1) a (S F).
Proof.
  intros Ha HP HF t1 Hal Hu.
  assert (Hc1 : cached t1 k = cached t k ++ [b]) by (cbn; apply upd_eq).
  assert (Hcj : forall j, j <> k -> cached t1 j = cached t j) by (intros j N; cbn; now apply upd_ne).
  assert (P1 : pos t1 a (S F)).
  { intros j pre post E. destruct (Nat.eq_dec j k) as [->|N]; [|rewrite Hcj in E by exact N; apply HP in E; lia].
    rewrite Hc1 in E. destruct (exists_last_or_nil post) as [->|(post' & z & ->)]; [cbn; lia|].
    rewrite app_comm_cons, app_assoc in E. apply app_inj_tail in E. destruct E as [E _]. apply HP in E. rewrite app_length. cbn. lia. }
  assert (A1 : has t1 a c) by (apply (frame_has t); [reflexivity|exact Ha]).
  unfold evict. destruct (max_cached <? length (cached t1 k)) eqn:El; [|split; assumption].
  rewrite Hc1 in *. rewrite Hu. set (l := firstn eject_number _).
  destruct (kill_all_alive l (with_cached k (skipn eject_number (cached t k ++ [b])) t1)) as (G & _).
  { intros x Hx. apply in_firstn in Hx. destruct (Hal x Hx) as (o & Ho). exists o. exact Ho. }
  destruct (kill_all_frame l (with_cached k (skipn eject_number (cached t k ++ [b])) t1)) as (_ & F2 & _).
  apply Nat.ltb_lt in El.
  assert (Nl : ~ In a l).
  { intros Hi. apply in_split in Hi. destruct Hi as (p1 & q1 & E1).
    assert (E : cached t k ++ [b] = p1 ++ a :: (q1 ++ skipn eject_number (cached t k ++ [b]))).
    { rewrite <- (firstn_skipn eject_number (cached t k ++ [b])) at 1. fold l. rewrite E1, <- app_assoc. reflexivity. }
    assert (L : length l <= 10) by (unfold l; rewrite firstn_length; unfold eject_number; lia). rewrite E1, app_length in L. cbn in L.
    remember (q1 ++ skipn eject_number (cached t k ++ [b])) as post eqn:Ep. assert (E' := E). rewrite <- Hc1 in E'. apply P1 in E'. rewrite E, app_length in El. cbn [length] in El. unfold max_cached in El. lia. }
  split.
  - destruct A1 as (o & A & E). exists o. split; [|exact E]. apply G. split; [exact A|exact Nl].
  - intros j pre post. rewrite F2. cbn [with_cached cached]. destruct (Nat.eq_dec j k) as [->|N].
    + rewrite upd_eq. intros E. apply (P1 k (firstn eject_number (cached t k ++ [b]) ++ pre) post). rewrite Hc1, <- app_assoc, <- E. symmetry. apply firstn_skipn.
    + rewrite upd_ne by exact N. intros E. exact (P1 j pre post E).
Qed.

Lemma existsb_false {A} (f : A -> bool) l : (forall x, In x l -> f x = false) -> existsb f l = false.
Proof. induction l as [|y l IH]; intros H; [reflexivity|]. cbn. rewrite (H y (or_introl eq_refl)). apply IH. intros x Hx. apply H. now right. Qed.
Definition rested (x : act) : nat := match x with AFinish _ _ => 1 | _ => 0 end.

Lemma pos_le t a F F' : F <= F' -> pos t a F -> pos t a F'.
Proof. intros L H k pre post E. apply H in E. lia. Qed.
Lemma pos_frame t t' a F : cached t' = cached t -> pos t a F -> pos t' a F.
Proof. intros E H k pre post. rewrite E. apply H. Qed.
Lemma pos_none t a F : (forall j, ~ In a (cached t j)) -> pos t a F.
Proof. intros H k pre post E. elim (H k). rewrite E. apply in_or_app. right. now left. Qed.
Lemma access_keeps t a b c f F : has t a c -> pos t a F ->
  (forall o, oget t b = Some o -> o_dead o = false -> has (fst (f o)) a c /\ pos (fst (f o)) a F) ->
  has (fst (access b t f)) a c /\ pos (fst (access b t f)) a F.
Proof.
  intros H1 H2 Hf. unfold access. destruct (is_held b t); [|now split]. destruct (oget t b) as [o|]; [|now split]. destruct (o_dead o) eqn:Ed; [now split|]. cbn. now apply Hf.
Qed.

Definition dcalm (x : act) (t : table) : Prop :=
  match x with AChange a c => kind_of c <> TDIR /\ forall o, oget t a = Some o -> kind_of (o_cont o) <> TDIR | _ => True end.
Lemma calm_dcalm x t p : calm x t p -> dcalm x t.
Proof. now destruct x. Qed.

Lemma step_keeps x t s a c F : TI t s -> small t -> dcalm x t -> kind_of c = TDIR -> a = 0 \/ c_nlink c <> 0%N -> rested x + F <= 41 ->
  has t a c -> pos t a F ->
  has (fst (tstep x t)) a c /\ pos (fst (tstep x t)) a (rested x + F).
Proof.
  intros H Hs Hc Hk Hn HF Ha HP.
  assert (Hholdk : forall b t0, has t0 a c -> pos t0 a F -> has (hold_obj b t0) a c /\ pos (hold_obj b t0) a F).
  { intros b t0 B1 B2. split; [now apply hold_has|]. apply (pos_frame t0); [apply cached_hold|exact B2]. }
  destruct x as [id ty bad|id ty bad|b|b c'|b want|b bad|b|b|id bad|k bad]; cbn [tstep rested dcalm] in *; cbn [Nat.add].
  - destruct (bytes_eqb id root_id); [destruct (ty =? TDIR)%N; cbn [fst]; [now apply Hholdk|now split]|].
    destruct (busy t (shard_of id)); [now split|]. destruct (lfind id _) as [b|]; [cbn [fst]; now apply Hholdk|].
    destruct (cfind t (shard_of id) id) as [b|] eqn:Ec.
    + cbn [fst]. split.
      * apply (frame_has (hold_obj b t)); [reflexivity|]. now apply hold_has.
      * intros k pre post. cbn [with_live with_cached cached]. rewrite cached_hold. destruct (Nat.eq_dec k (shard_of id)) as [->|N]; [|rewrite upd_ne by exact N; apply HP].
        rewrite upd_eq. intros E. assert (N : a <> b).
        { apply (remove_nat_in_ne b (cached t (shard_of id))); [apply (i_nodup _ _ H)|]. rewrite E. apply in_or_app. right. now left. }
        destruct (remove_nat_split _ _ _ _ _ N E) as (p' & q' & E' & L). apply HP in E'. lia.
    + destruct (disk t id) as [ct|]; [|now split]. destruct bad; [now split|]. destruct (good_class ty); [|now split]. cbn [fst].
      split; [apply (frame_has (hold_obj (length (heap t)) (with_heap (heap t ++ [mkObj id ty ct 0 false]) t))); [reflexivity|]; apply hold_has, grow_has, Ha|].
      apply (pos_frame t); [cbn [with_live cached]; rewrite cached_hold; reflexivity|exact HP].
  - destruct (bytes_eqb id root_id); [now split|]. destruct (busy t (shard_of id)); [now split|]. destruct (disk t id); [now split|]. destruct bad; [now split|].
    destruct (good_class ty); [|now split]. destruct (lfind id _); [now split|]. cbn [fst].
    split; [|apply (pos_frame t); [cbn [with_live cached]; rewrite cached_hold; reflexivity|exact HP]].
    apply (frame_has (hold_obj (length (heap t)) (store id (Some blank) (with_heap (heap t ++ [mkObj id ty blank 0 false]) t)))); [reflexivity|]. apply hold_has.
    apply (frame_has (with_heap (heap t ++ [mkObj id ty blank 0 false]) t)); [reflexivity|]. now apply grow_has.
  - apply access_keeps; [exact Ha|exact HP|]. intros o _ _. now split.
  - apply access_keeps; [exact Ha|exact HP|]. intros o Ho _. cbn [fst]. split; [|exact HP].
    apply (oset_has b o); [exact Ho|reflexivity| |exact Ha]. intros ->. destruct Hc as [_ Hc]. destruct Ha as (o' & [A1 _] & A2). assert (o' = o) by congruence. subst o'. elim (Hc o Ho). now rewrite A2.
  - apply access_keeps; [exact Ha|exact HP|]. intros o _ _. destruct (_ =? _)%N; [destruct (_ =? _)%N|]; now split.
  - apply access_keeps; [exact Ha|exact HP|]. intros o _ _. cbn [fst]. split; [apply (frame_has t); [reflexivity|exact Ha]|exact HP].
  - apply access_keeps; [exact Ha|exact HP|]. intros o Ho _. cbn [fst].
    assert (B : has (oset b (with_ref (o_ref o - 1)%Z o) (with_held (remove_nat b (held t)) t)) a c).
    { apply (oset_has b o); [exact Ho|reflexivity|reflexivity|]. apply (frame_has t); [reflexivity|exact Ha]. }
    destruct (_ <=? _)%Z; (split; [|exact HP]); [|exact B]. revert B. now apply frame_has.
  - destruct (existsb _ _); [|now split]. destruct (oget t b) as [o|]; [|now split]. cbn [fst]. split; [|exact HP]. revert Ha. now apply frame_has.
  - destruct (existsb _ _); [|now split]. destruct (bytes_eqb id root_id).
    + destruct (oget t 0); [|now split]. cbn [fst]. split; [|exact HP]. revert Ha. now apply frame_has.
    + destruct (busy t (shard_of id)); [now split|]. destruct (lfind id _) as [b|]; [destruct (in_use t b)|]; cbn [fst]; (split; [|exact HP]); revert Ha; now apply frame_has.
  - assert (Hle : pos t a (S F)) by (apply (pos_le _ _ F); [lia|exact HP]).
    destruct (busy t k) as [[id b]|] eqn:Eb; [|now split]. destruct (oget t b) as [o|] eqn:Eo; [|now split]. destruct (o_dead o) eqn:Ed; [now split|].
    assert (Ao : alive t b o) by now split.
    destruct (i_busy _ _ H _ _ _ Eb) as [B1 B2].
    destruct (c_nlink (o_cont o) <=? 0)%N eqn:El.
    + cbn [fst]. assert (N : a <> b).
      { intros ->. destruct Ha as (o' & A1 & A2). rewrite (alive_fun _ _ _ _ A1 Ao) in A2. destruct Hn as [->|Hn].
        - destruct (i_root _ _ H) as (r & R1 & R2). destruct (i_live _ _ H _ _ _ B1) as (L1 & _ & _ & o1 & L4 & L5). rewrite (alive_fun _ _ _ _ R1 L4) in R2. congruence.
        - apply Hn. rewrite <- A2. apply N.leb_le in El. lia. }
      unfold evict. assert (Hlt : (max_cached <? length (cached t k)) = false) by (apply Nat.ltb_ge, Hs).
      change (cached (store _ _ _) k) with (cached t k). rewrite Hlt. split; [|exact Hle].
      apply (frame_has (oset b (kill o) t)); [reflexivity|]. destruct Ha as (o' & [A1 A2] & A3). exists o'. repeat split; auto. unfold oget. cbn. rewrite nth_set_ne by exact N. exact A1.
    + destruct bad as [g|]; [cbn [fst]; split; [revert Ha; now apply frame_has|exact Hle]|]. cbn [fst].
      set (t0 := with_live k (lerase id (live t k)) (store id (Some (o_cont o)) (with_busy k None t))).
      apply N.leb_gt in El.
      assert (Nb : forall j, ~ In b (cached t j)) by (apply (live_not_cached t s k id b o H B1 Ao)).
      change (cached t k) with (cached t0 k).
      assert (Hin : forall x, In x (cached t0 k ++ [b]) -> exists ox, oget t0 x = Some ox /\ ~ In x (held t)).
      { intros x Hx. apply in_app_or in Hx. destruct Hx as [Hx|[<-|[]]]; [|exists o; split; [exact Eo|exact B2]].
        destruct (i_cached _ _ H k x Hx) as (C1 & ox & [C2 _] & _). exists ox. split; [exact C2|exact C1]. }
      apply (finish_pos t0 k a b c F).
      * revert Ha. now apply frame_has.
      * exact HP.
      * lia.
      * intros x Hx. destruct (Hin x Hx) as (ox & Hox & _). eauto.
      * apply existsb_false. intros x Hx. apply in_firstn in Hx. destruct (Hin x Hx) as (ox & Hox & Nx). unfold in_use. change (oget (with_cached k (cached t0 k ++ [b]) t0) x) with (oget t0 x).
        rewrite Hox. change (oget t0 x) with (oget t x) in Hox. rewrite (i_ref _ _ H x ox Hox). apply count_occ_not_In with (eq_dec := Nat.eq_dec) in Nx. rewrite Nx. reflexivity.
Qed.

(** ** The walk *)
Lemma set_nth_ids (l : list obj) n o v : nth_error l n = Some o -> o_id v = o_id o -> map o_id (set_nth l n v) = map o_id l.
Proof. revert n; induction l as [|x l IH]; intros [|n] E1 E2; cbn in *; try discriminate; [congruence|]. f_equal. now apply IH. Qed.
Lemma hold_ids a t : map o_id (heap (hold_obj a t)) = map o_id (heap t).
Proof. unfold hold_obj. destruct (oget t a) as [o|] eqn:E; [|reflexivity]. cbn. now apply (set_nth_ids _ _ o). Qed.
Lemma kill_all_ids l t : map o_id (heap (kill_all l t)) = map o_id (heap t).
Proof.
  revert t; induction l as [|a l IH]; intros t; cbn [kill_all fold_left]; [reflexivity|]. change (fold_left _ l ?x) with (kill_all l x). rewrite IH.
  destruct (oget t a) as [o|] eqn:E; [|reflexivity]. now apply (set_nth_ids _ _ o).
Qed.
Lemma evict_ids k t : map o_id (heap (evict k t)) = map o_id (heap t).
Proof. unfold evict. destruct (_ <? _); [|reflexivity]. destruct (existsb _ _); [reflexivity|]. now rewrite kill_all_ids. Qed.
Lemma access_ids b t f : (forall o, oget t b = Some o -> map o_id (heap (fst (f o))) = map o_id (heap t)) -> map o_id (heap (fst (access b t f))) = map o_id (heap t).
Proof. intros H. unfold access. destruct (is_held b t); [|reflexivity]. destruct (oget t b) as [o|]; [|reflexivity]. destruct (o_dead o); [reflexivity|now apply H]. Qed.
Lemma step_ids x t : exists l, map o_id (heap (fst (tstep x t))) = map o_id (heap t) ++ l.
Proof.
  assert (N : forall t', map o_id (heap t') = map o_id (heap t) -> exists l, map o_id (heap t') = map o_id (heap t) ++ l) by (intros t' E; exists []; now rewrite app_nil_r).
  destruct x as [id ty bad|id ty bad|b|b c'|b want|b bad|b|b|id bad|k bad]; cbn [tstep].
  - destruct (bytes_eqb id root_id); [destruct (ty =? TDIR)%N; cbn [fst]; apply N; [apply hold_ids|reflexivity]|].
    destruct (busy t (shard_of id)); [now apply N|]. destruct (lfind id _) as [b|]; [apply N, hold_ids|].
    destruct (cfind t (shard_of id) id) as [b|]; [apply N; exact (hold_ids b t)|].
    destruct (disk t id) as [ct|]; [|now apply N]. destruct bad; [now apply N|]. destruct (good_class ty); [|now apply N]. cbn [fst]. exists [id].
    cbn [with_live heap]. rewrite hold_ids. cbn [with_heap heap]. now rewrite map_app.
  - destruct (bytes_eqb id root_id); [now apply N|]. destruct (busy t (shard_of id)); [now apply N|]. destruct (disk t id); [now apply N|]. destruct bad; [now apply N|].
    destruct (good_class ty); [|now apply N]. destruct (lfind id _); [now apply N|]. cbn [fst]. exists [id].
    cbn [with_live heap]. rewrite hold_ids. cbn [store with_disk with_heap heap]. now rewrite map_app.
  - apply N, access_ids. reflexivity.
  - apply N, access_ids. intros o Ho. now apply (set_nth_ids _ _ o).
  - apply N, access_ids. intros o Ho. destruct (_ =? _)%N; [destruct (_ =? _)%N|]; reflexivity.
  - apply N, access_ids. reflexivity.
  - apply N, access_ids. intros o Ho. destruct (_ <=? _)%Z; cbn; now apply (set_nth_ids _ _ o).
  - destruct (existsb _ _); [|now apply N]. destruct (oget t b) as [o|]; now apply N.
  - destruct (existsb _ _); [|now apply N]. destruct (bytes_eqb id root_id); [destruct (oget t 0); now apply N|].
    destruct (busy t (shard_of id)); [now apply N|]. destruct (lfind id _) as [b|]; [destruct (in_use t b)|]; now apply N.
  - destruct (busy t k) as [[id b]|]; [|now apply N]. destruct (oget t b) as [o|] eqn:Eo; [|now apply N]. destruct (o_dead o); [now apply N|].
    destruct (_ <=? _)%N; [|destruct bad; [now apply N|]]; apply N; cbn [fst]; rewrite evict_ids; cbn; [now apply (set_nth_ids _ _ o)|reflexivity].
Qed.
Lemma step_id x t a o : oget t a = Some o -> exists o', oget (fst (tstep x t)) a = Some o' /\ o_id o' = o_id o.
Proof.
  intros H. destruct (step_ids x t) as (l & E). unfold oget in *.
  assert (E' : nth_error (map o_id (heap (fst (tstep x t)))) a = Some (o_id o)).
  { rewrite E, nth_error_app1; [rewrite nth_error_map, H; reflexivity|]. rewrite map_length. apply nth_error_Some. congruence. }
  rewrite nth_error_map in E'. destruct (nth_error (heap (fst (tstep x t))) a) as [o'|]; [|discriminate]. exists o'. split; [reflexivity|]. cbn in E'. congruence.
Qed.

Lemma step_held x t : held (fst (tstep x t)) = held t \/ (exists a, held (fst (tstep x t)) = a :: held t) \/
  (exists a, x = ADrop a /\ In a (held t) /\ held (fst (tstep x t)) = remove_nat a (held t)).
Proof.
  assert (Hh : forall b t0, held (hold_obj b t0) = held t0 \/ exists a, held (hold_obj b t0) = a :: held t0) by (intros b t0; unfold hold_obj; destruct (oget t0 b); [right; now exists b|now left]).
  assert (Ha : forall b f, (forall o, held (fst (f o)) = held t) -> held (fst (access b t f)) = held t).
  { intros b f Hf. unfold access. destruct (is_held b t); [|reflexivity]. destruct (oget t b) as [o|]; [|reflexivity]. destruct (o_dead o); [reflexivity|apply Hf]. }
  destruct x as [id ty bad|id ty bad|b|b c'|b want|b bad|b|b|id bad|k bad]; cbn [tstep].
  - destruct (bytes_eqb id root_id); [destruct (ty =? TDIR)%N; cbn [fst]; [destruct (Hh 0 t); auto|auto]|].
    destruct (busy t (shard_of id)); [auto|]. destruct (lfind id _) as [b|]; [destruct (Hh b t); auto|].
    destruct (cfind t (shard_of id) id) as [b|]; [cbn [fst with_live with_cached held]; destruct (Hh b t); auto|].
    destruct (disk t id) as [ct|]; [|auto]. destruct bad; [auto|]. destruct (good_class ty); [|auto]. cbn [fst with_live held].
    match goal with |- context [hold_obj ?b ?t0] => destruct (Hh b t0) as [E|E]; auto end.
  - destruct (bytes_eqb id root_id); [auto|]. destruct (busy t (shard_of id)); [auto|]. destruct (disk t id); [auto|]. destruct bad; [auto|].
    destruct (good_class ty); [|auto]. destruct (lfind id _); [auto|]. cbn [fst with_live held].
    match goal with |- context [hold_obj ?b ?t0] => destruct (Hh b t0) as [E|E]; auto end.
  - left. now apply Ha.
  - left. now apply Ha.
  - left. apply Ha. intros o. destruct (_ =? _)%N; [destruct (_ =? _)%N|]; reflexivity.
  - left. now apply Ha.
  - unfold access, is_held. destruct (existsb _ _) eqn:E; [|now left]. apply existsb_nat in E. destruct (oget t b) as [o|]; [|now left]. destruct (o_dead o); [now left|].
    right. right. exists b. split; [reflexivity|]. split; [exact E|]. cbn [fst]. destruct (_ <=? _)%Z; reflexivity.
  - left. destruct (existsb _ _); [|reflexivity]. destruct (oget t b) as [o|]; reflexivity.
  - left. destruct (existsb _ _); [|reflexivity]. destruct (bytes_eqb id root_id); [destruct (oget t 0); reflexivity|].
    destruct (busy t (shard_of id)); [reflexivity|]. destruct (lfind id _) as [b|]; [destruct (in_use t b)|]; reflexivity.
  - left. destruct (busy t k) as [[id b]|]; [|reflexivity]. destruct (oget t b) as [o|]; [|reflexivity]. destruct (o_dead o); [reflexivity|].
    destruct (_ <=? _)%N; [|destruct bad; [reflexivity|]]; cbn [fst]; match goal with |- held (evict k ?z) = _ => destruct (evict_frame k z) as (_ & _ & -> & _) end; reflexivity.
Qed.

Ltac conj := repeat match goal with |- _ /\ _ => split end.
Section Walk.
Variable entries : bytes -> list entry.
Variable cmp : bytes -> bytes -> comparison.
Variable s0 : cells.
Variable path : list bytes.
Hypothesis Hlinked : linked entries s0.
Notation spelled := (spelled entries cmp s0).

Definition dirs_in (s : cells) : Prop := forall id c, files s id = Some c -> kind_of c = TDIR -> files s0 id = Some c.
Lemma dirs_step x t s t' r s' : TI t s -> tstep x t = (t', r) -> lawful s x r s' -> dcalm x t -> dirs_in s -> dirs_in s'.
Proof.
  intros H E L Hc HD. inversion L; subst; try exact HD; intros i c0; cbn [files set_cell take]; unfold dset.
  - destruct (bytes_eqb i id) eqn:Ei; [|apply HD]. intros [= <-] K. vm_compute in K. discriminate K.
  - destruct (bytes_eqb i id) eqn:Ei; [|apply HD]. intros [= <-] K. cbn in Hc. now elim (proj1 Hc).
  - destruct (bytes_eqb i id) eqn:Ei; [discriminate|apply HD].
Qed.

Definition view_ok (t : table) (F : nat) (v : view) : Prop :=
  exists c, has t (v_obj v) c /\ pos t (v_obj v) F /\ c_data c = v_data v /\ kind_of c = TDIR /\ (v_obj v = 0 \/ c_nlink c <> 0%N).
Lemma views_step x t s vs F : TI t s -> small t -> dcalm x t -> (vs <> [] -> rested x + F <= 41) -> Forall (view_ok t F) vs -> Forall (view_ok (fst (tstep x t)) (rested x + F)) vs.
Proof.
  intros H Hs Hc HF. rewrite !Forall_forall. intros HV v Hv. destruct (HV v Hv) as (c & V1 & V2 & V3 & V4 & V5).
  assert (HF' : rested x + F <= 41) by (apply HF; intros ->; destruct Hv).
  destruct (step_keeps x t s (v_obj v) c F H Hs Hc V4 V5 HF' V1 V2) as [K1 K2]. exists c. auto 10.
Qed.
Lemma views_le t F F' vs : F <= F' -> Forall (view_ok t F) vs -> Forall (view_ok t F') vs.
Proof. intros L. apply Forall_impl. intros v (c & V1 & V2 & V3). exists c. split; [exact V1|]. split; [now apply (pos_le _ _ F)|exact V3]. Qed.

Definition reach (id : bytes) : Prop := id = root_id \/ exists d c e, files s0 d = Some c /\ kind_of c = TDIR /\ In e (entries (c_data c)) /\ e_id e = id.
Definition leads (id : bytes) (rest : list bytes) (vs : list view) : Prop :=
  reach id /\ forall ns, spelled id rest ns -> spelled root_id path (rev (map v_name vs) ++ ns).
Definition at_ (t : table) (h : nat) (rest : list bytes) (vs : list view) : Prop := exists o, oget t h = Some o /\ leads (o_id o) rest vs.

Definition behind (vs : list view) (old : nat) : Prop := exists v vs', vs = v :: vs' /\ v_obj v = old.
Definition at_pc (t : table) (p : pc) (F k : nat) : Prop :=
  match p with
  | PStart path' => path' = path /\ k = 0
  | PLook h rest vs => at_ t h rest vs /\ Forall (view_ok t F) vs /\ length vs + length rest = length path /\ k <= length vs - 1 /\ (vs = [] -> h = 0)
  | POpen h id ty rest vs => leads id rest vs /\ Forall (view_ok t F) vs /\ length vs + length rest = length path /\ k <= length vs - 2 /\ behind vs h /\ (length vs = 1 -> h = 0)
  | PDrop old h rest vs => at_ t h rest vs /\ Forall (view_ok t F) vs /\ length vs + length rest = length path /\ k <= length vs - 2 /\ behind vs old /\ (length vs = 1 -> old = 0)
  | PReadId old h rest vs => at_ t h rest vs /\ Forall (view_ok t F) vs /\ length vs + length rest = length path /\ k <= length vs - 2 /\ behind vs old /\ (length vs = 1 -> old = 0)
  | PClose id h rest vs => at_ t h rest vs /\ Forall (view_ok t F) vs /\ length vs + length rest = length path /\ k <= length vs - 2 /\ vs <> [] /\ (length vs = 1 -> id = root_id)
  | PFinish id h rest vs => at_ t h rest vs /\ Forall (view_ok t F) vs /\ length vs + length rest = length path /\ k <= length vs - 2 /\ vs <> [] /\ (length vs = 1 -> id = root_id)
  | PText vs text => Forall (view_ok t F) vs /\ spelled root_id path (rev (map v_name vs) ++ text) /\ length vs + length text = length path /\ k <= length path - 1
  | PNames names => spelled root_id path names /\ k <= length path - 1
  | PError _ => k <= length path - 1
  | PFreed => False
  end.
Definition Own (t : table) (p : pc) : Prop := forall y, count y (ours p) <= count y (held t).

Lemma at_step x t h rest vs : at_ t h rest vs -> at_ (fst (tstep x t)) h rest vs.
Proof. intros (o & Ho & Hl). destruct (step_id x t h o Ho) as (o' & Ho' & E). exists o'. split; [exact Ho'|]. now rewrite E. Qed.

(** A step of another thread. *)
Lemma env_step x t s p F k : TI t s -> small t -> calm x t p -> Own t p -> (path <> [] -> rested x + F <= 41) -> at_pc t p F k ->
  at_pc (fst (tstep x t)) p (rested x + F) k /\ Own (fst (tstep x t)) p.
Proof.
  intros H Hs Hc HO HF HP. split.
  - pose proof (calm_dcalm _ _ _ Hc) as Hd.
    assert (V : forall vs n, length vs + n = length path -> Forall (view_ok t F) vs -> Forall (view_ok (fst (tstep x t)) (rested x + F)) vs).
    { intros vs n El. apply (views_step x t s vs F H Hs Hd). intros Hne. apply HF. intros E. rewrite E in El. destruct vs; [congruence|discriminate]. }
    destruct p; cbn [at_pc] in *; try exact HP; repeat match goal with A : _ /\ _ |- _ => destruct A end; conj; auto using at_step; try (eapply V; eassumption).
  - intros y. specialize (HO y). destruct (step_held x t) as [->|[(a & ->)|(a & -> & Hi & ->)]]; [exact HO|cbn; destruct (Nat.eq_dec a y); lia|].
    cbn [calm] in Hc. rewrite (count_remove a (held t) y Hi) in HO. destruct (y =? a) eqn:E; [|lia]. apply Nat.eqb_eq in E. subst y.
    rewrite (count_remove a (held t) a Hi), Nat.eqb_refl in Hc. lia.
Qed.


Lemma fst_handles t s : TI t s -> map fst (handles s) = held t.
Proof. intros H. rewrite (i_handles _ _ H), map_map. cbn. apply map_id. Qed.
Lemma own_in t p y : Own t p -> In y (ours p) -> In y (held t).
Proof. intros HO Hi. apply (count_occ_In Nat.eq_dec) in Hi. specialize (HO y). apply (count_occ_In Nat.eq_dec). lia. Qed.

Definition Inv (t : table) (p : pc) (s : cells) (e k : nat) : Prop :=
  TI t s /\ small t /\ dirs_in s /\ Own t p /\ at_pc t p (k + e) k.

Lemma gstep_inv t p s e k t1 p1 : length path + e <= 42 -> Inv t p s e k -> gstep entries cmp t p = (t1, p1) -> exists s1 k1, Inv t1 p1 s1 e k1.
Proof.
  intros He (H & Hs & HD & HO & HP) E.
  assert (V : forall x vs n, dcalm x t -> length vs + n = length path -> k <= length vs - 1 -> rested x = 0 -> Forall (view_ok t (k + e)) vs -> Forall (view_ok (fst (tstep x t)) (k + e)) vs).
  { intros x vs n Hd El Ek Er HV. pose proof (views_step x t s vs (k + e) H Hs Hd) as G. rewrite Er in G. apply G; [|exact HV]. intros Hne. destruct vs; [congruence|]. cbn [length] in *. lia. }
  assert (St : forall x, dcalm x t -> exists s1, lawful s x (snd (tstep x t)) s1 /\ TI (fst (tstep x t)) s1 /\ small (fst (tstep x t)) /\ dirs_in s1).
  { intros x Hd. destruct (tstep x t) as [tx rx] eqn:Ex. destruct (step_TI x t s H Hs tx rx Ex) as (s1 & L & T1 & T2). exists s1. cbn [fst snd]. conj; try assumption; exact (dirs_step x t s tx rx s1 H Ex L Hd HD). }
  destruct p as [path'|h rest vs|h id ty rest vs|old h rest vs|old h rest vs|id h rest vs|id h rest vs|vs text|names|er|]; cbn [gstep] in E.
  - (* the root *)
    destruct HP as [-> ->]. destruct (St (AOpen root_id TDIR None) I) as (s1 & L & T1 & T2 & D1).
    cbn [tstep] in *. rewrite (bytes_eqb_refl root_id) in *. change (TDIR =? TDIR)%N with true in *. cbn [fst snd] in *. injection E as <- <-.
    exists s1, 0. split; [exact T1|]. split; [exact T2|]. split; [exact D1|]. destruct (i_root _ _ H) as (r & [R1 R2] & R3).
    split.
    + intros y. unfold hold_obj. rewrite R1. cbn [with_held held ours count_occ]. destruct (Nat.eq_dec 0 y); lia.
    + cbn [at_pc]. split; [|split; [constructor|cbn; auto]]. exists (with_ref (o_ref r + 1)%Z r). split; [unfold hold_obj; rewrite R1; exact (nth_set_eq _ _ _ _ R1)|]. cbn [with_ref o_id]. rewrite R3.
      split; [now left|]. intros ns Hn. exact Hn.
  - (* the look-up *)
    destruct HP as ((o & Ho & HL) & HV & El & Ek & Hz). destruct rest as [|name rest].
    + injection E as <- <-. exists s, k. split; [exact H|]. split; [exact Hs|]. split; [exact HD|]. split; [intros y; cbn; lia|]. cbn [at_pc length] in *.
      split; [exact HV|]. split; [apply HL; constructor|]. split; [lia|]. lia.
    + assert (Hh : In h (held t)) by (apply (own_in t _ h HO); now left).
      destruct (i_held _ _ H h Hh) as (o' & [O1 O2]). assert (o' = o) by congruence. subst o'.
      cbn [tstep] in E. unfold access, is_held in E. rewrite (proj2 (existsb_nat h (held t)) Hh), Ho, O2 in E. cbn [fst snd] in E.
      destruct (o_class o =? kind_of (o_cont o))%N eqn:E1; [destruct (o_class o =? TDIR)%N eqn:E2|]; [|injection E as <- <-; exists s, k; split; [exact H|]; split; [exact Hs|]; split; [exact HD|]; split; [intros y; cbn; lia|cbn [at_pc length] in *; lia]..].
      destruct (find _ _) as [en|] eqn:Ef; injection E as <- <-; [|exists s, k; split; [exact H|]; split; [exact Hs|]; split; [exact HD|]; split; [intros y; cbn; lia|cbn [at_pc length] in *; lia]].
      apply N.eqb_eq in E1, E2. apply find_some in Ef. destruct Ef as [Ef1 Ef2].
      assert (Hkd : kind_of (o_cont o) = TDIR) by congruence.
      assert (A : alive t h o) by now split. destruct (i_files1 _ _ H h o A) as [Hf _]. pose proof (HD _ _ Hf Hkd) as Hf0.
      exists s, k. split; [exact H|]. split; [exact Hs|]. split; [exact HD|]. split; [exact HO|]. cbn [at_pc].
      assert (Ecmp : cmp name (e_name en) = Eq) by (destruct (cmp name (e_name en)); [reflexivity|discriminate|discriminate]).
      split; [|split; [|split; [|split; [|split]]]].
      * split; [right; exists (o_id o), (o_cont o), en; auto|]. intros ns Hn. cbn [map rev v_name]. rewrite <- app_assoc. apply (proj2 HL). cbn. now apply (SP_cons _ _ _ _ (o_cont o)).
      * constructor; [|exact HV]. exists (o_cont o). cbn [v_obj v_data]. split; [now exists o|]. split; [apply pos_none; intros j; exact (held_not_cached t s h j H Hh)|]. split; [reflexivity|]. split; [exact Hkd|].
        destruct (proj1 HL) as [Hr|(d & c & e0 & Q1 & Q2 & Q3 & Q4)].
        -- left. destruct (i_root _ _ H) as (r & R1 & R2). apply (i_uniq _ _ H h 0 o r A R1). congruence.
        -- right. rewrite <- Q4 in Hf0. exact (Hlinked d c e0 (o_cont o) Q1 Q2 Q3 Hf0 Hkd).
      * cbn [length] in *. lia.
      * cbn [length] in *. lia.
      * now eexists _, _.
      * cbn [length]. intros Hl. apply Hz. destruct vs; [reflexivity|discriminate].
  - (* opening the next *)
    destruct HP as (HL & HV & El & Ek & HB & H1). set (x := AOpen id ty None) in *.
    destruct (St x I) as (s1 & L & T1 & T2 & D1). pose proof (V x vs (length rest) I El ltac:(lia) eq_refl HV) as HV1.
    destruct (tstep x t) as [tx rx] eqn:Ex. cbn [fst snd] in *.
    assert (Hstay : Inv tx (POpen h id ty rest vs) s1 e k).
    { split; [exact T1|]. split; [exact T2|]. split; [exact D1|]. split; [|cbn [at_pc]; auto 10].
      intros y. specialize (HO y). destruct (step_held x t) as [G|[(a & G)|(a & G & _)]]; [| |discriminate G]; rewrite Ex in G; cbn [fst] in G; rewrite G; [exact HO|]. cbn [count_occ]. destruct (Nat.eq_dec a y); lia. }
    destruct rx as [| |h1| |er| |]; injection E as <- <-; try (exists s1, k; exact Hstay).
    + destruct Hstay as (_ & _ & _ & _ & HP). exists s1, k. split; [exact T1|]. split; [exact T2|]. split; [exact D1|].
      assert (Hs1 : s1 = take h1 id s) by (inversion L; subst; reflexivity).
      assert (Hi : In (h1, id) (handles s1)) by (rewrite Hs1; now left). apply (handle_iff tx s1 h1 id T1) in Hi. destruct Hi as (Hh1 & o1 & [A1 A2] & A3).
      assert (Hheld : held tx = h1 :: held t) by (rewrite <- (fst_handles tx s1 T1), Hs1, <- (fst_handles t s H); reflexivity).
      split; [intros y; specialize (HO y); rewrite Hheld; cbn [ours count_occ] in *; destruct (Nat.eq_dec h y), (Nat.eq_dec h1 y); lia|].
      cbn [at_pc] in *. destruct HP as (_ & HP). split; [exists o1; split; [exact A1|now rewrite A3]|exact HP].
    + exists s1, k. split; [exact T1|]. split; [exact T2|]. split; [exact D1|]. split; [intros y; cbn; lia|cbn [at_pc]; lia].
  - (* dropping the last one *)
    destruct HP as (HA & HV & El & Ek & HB & H1). set (x := ADrop old) in *.
    destruct (St x I) as (s1 & L & T1 & T2 & D1). pose proof (V x vs (length rest) I El ltac:(lia) eq_refl HV) as HV1. pose proof (at_step x t h rest vs HA) as HA1.
    assert (Hh : In old (held t)) by (apply (own_in t _ old HO); now left). destruct (i_held _ _ H old Hh) as (o & [O1 O2]).
    assert (Hr : snd (tstep x t) = TDone /\ held (fst (tstep x t)) = remove_nat old (held t)).
    { unfold x. cbn [tstep]. unfold access, is_held. rewrite (proj2 (existsb_nat old (held t)) Hh), O1, O2. cbn [fst snd]. split; [reflexivity|]. destruct (_ <=? _)%Z; reflexivity. }
    destruct Hr as [Hr1 Hr2]. destruct (tstep x t) as [tx rx] eqn:Ex. cbn [fst snd] in *. subst rx. injection E as <- <-.
    assert (HO1 : forall y, count y [h] <= count y (held tx)).
    { intros y. specialize (HO y). rewrite Hr2. rewrite (count_remove old (held t) y Hh) in HO. cbn [ours count_occ] in *. destruct (y =? old) eqn:Ey; [apply Nat.eqb_eq in Ey; subst y; destruct (Nat.eq_dec old old); [|congruence]; destruct (Nat.eq_dec h old); lia|].
      apply Nat.eqb_neq in Ey. destruct (Nat.eq_dec old y); [congruence|]. destruct (Nat.eq_dec h y); lia. }
    exists s1, k. split; [exact T1|]. split; [exact T2|]. split; [exact D1|]. destruct (in_use tx old); (split; [exact HO1|]); cbn [at_pc]; [|auto 10].
    destruct HB as (v & vs' & -> & _). cbn [length] in *. conj; auto; try lia; try discriminate.
  - (* its id *)
    destruct HP as (HA & HV & El & Ek & HB & H1). set (x := AReadId old) in *.
    destruct (St x I) as (s1 & L & T1 & T2 & D1). pose proof (V x vs (length rest) I El ltac:(lia) eq_refl HV) as HV1. pose proof (at_step x t h rest vs HA) as HA1.
    destruct HB as (v & vs' & -> & Hv). inversion HV as [|v0 l0 (c & (o & [A1 A2] & A3) & _) _ EE]; subst. rewrite A1 in E.
    assert (Hr : snd (tstep x t) <> TDead) by (unfold x; cbn [tstep]; destruct (existsb _ _); [rewrite A1, A2; discriminate|discriminate]).
    assert (Hh : held (fst (tstep x t)) = held t) by (unfold x; cbn [tstep]; destruct (existsb _ _); [rewrite A1|]; reflexivity).
    destruct (tstep x t) as [tx rx] eqn:Ex. cbn [fst snd] in *. destruct rx; try congruence; injection E as <- <-; (exists s1, k; split; [exact T1|]; split; [exact T2|]; split; [exact D1|]; split; [intros y; rewrite Hh; apply HO|]);
      cbn [at_pc length] in *; conj; auto; try discriminate; intros Hl; specialize (H1 Hl); (destruct (i_root _ _ H) as (r & [R1 _] & R3)); rewrite H1 in A1; congruence.
  - (* close *)
    destruct HP as (HA & HV & El & Ek & HB & H1). set (x := AClose id None) in *.
    destruct (St x I) as (s1 & L & T1 & T2 & D1). pose proof (V x vs (length rest) I El ltac:(lia) eq_refl HV) as HV1. pose proof (at_step x t h rest vs HA) as HA1.
    assert (HO1 : forall y, count y [h] <= count y (held (fst (tstep x t)))).
    { intros y. specialize (HO y). cbn [ours] in HO. destruct (step_held x t) as [->|[(a & ->)|(a & G & _)]]; [exact HO| |discriminate G]. cbn [count_occ] in *. destruct (Nat.eq_dec a y); lia. }
    destruct (tstep x t) as [tx rx] eqn:Ex. cbn [fst snd] in *. clearbody x.
    assert (Hl : length vs >= 1) by (destruct vs; [congruence|cbn; lia]).
    exists s1, k. destruct rx; injection E as <- <-; try destruct (existsb _ _); (split; [exact T1|]; split; [exact T2|]; split; [exact D1|]; split; [exact HO1|]); cbn [at_pc]; conj; auto; try lia; intros ->; cbn in Hl; lia.
  - (* the end of close *)
    destruct HP as (HA & HV & El & Ek & HB & H1). assert (Hl : length vs >= 1) by (destruct vs; [congruence|cbn; lia]).
    assert (Hskip : exists s1 k1, Inv t (PLook h rest vs) s1 e k1).
    { exists s, k. split; [exact H|]. split; [exact Hs|]. split; [exact HD|]. split; [exact HO|]. cbn [at_pc]. conj; auto; try lia. intros ->; cbn in Hl; lia. }
    destruct (busy t (shard_of id)) as [[id' b]|] eqn:Eb; [|injection E as <- <-; exact Hskip]. destruct (bytes_eqb id' id) eqn:Ei; [|injection E as <- <-; exact Hskip].
    apply bytes_eqb_eq in Ei. subst id'. set (x := AFinish (shard_of id) None) in *.
    assert (Hl2 : length vs >= 2).
    { destruct (Nat.eq_dec (length vs) 1) as [G|G]; [|lia]. specialize (H1 G). destruct (i_busy _ _ H _ _ _ Eb) as [B1 _]. destruct (i_live _ _ H _ _ _ B1) as [B3 _]. congruence. }
    destruct (St x I) as (s1 & L & T1 & T2 & D1). pose proof (at_step x t h rest vs HA) as HA1.
    assert (HV1 : Forall (view_ok (fst (tstep x t)) (S k + e)) vs) by (apply (views_step x t s vs (k + e) H Hs I); [intros _; cbn; lia|exact HV]).
    assert (HO1 : forall y, count y [h] <= count y (held (fst (tstep x t)))).
    { intros y. specialize (HO y). cbn [ours] in HO. destruct (step_held x t) as [->|[(a & ->)|(a & G & _)]]; [exact HO| |discriminate G]. cbn [count_occ] in *. destruct (Nat.eq_dec a y); lia. }
    assert (Hr : snd (tstep x t) <> TDead) by (intros G; destruct (dead_only x t (fst (tstep x t)) s H Hs) as (a & Ea); [rewrite <- G; apply surjective_pairing|discriminate Ea]).
    destruct (tstep x t) as [tx rx] eqn:Ex. cbn [fst snd] in *. clearbody x.
    exists s1, (S k). destruct rx; try congruence; injection E as <- <-; (split; [exact T1|]; split; [exact T2|]; split; [exact D1|]; split; [exact HO1|]); cbn [at_pc]; conj; auto; try lia; intros ->; cbn in Hl; lia.
  - (* the text *)
    destruct HP as (HV & HT & El & Ek). destruct vs as [|v vs]; [injection E as <- <-; exists s, k; split; [exact H|]; split; [exact Hs|]; split; [exact HD|]; split; [intros y; cbn; lia|]; split; [exact HT|exact Ek]|].
    inversion HV as [|v0 l0 (c & (o & [A1 A2] & A3) & _ & A4 & _) HV']; subst. rewrite A1, A2 in E. rewrite A4, bytes_eqb_refl in E. injection E as <- <-.
    exists s, k. split; [exact H|]; split; [exact Hs|]; split; [exact HD|]; split; [intros y; cbn; lia|]. cbn [at_pc length map rev v_name] in *. split; [exact HV'|]. split; [rewrite <- app_assoc in HT; exact HT|]. split; [cbn [length]; lia|exact Ek].
  - injection E as <- <-. exists s, k. split; [exact H|]; split; [exact Hs|]; split; [exact HD|]; split; [intros y; cbn; lia|]. exact HP.
  - injection E as <- <-. exists s, k. split; [exact H|]; split; [exact Hs|]; split; [exact HD|]; split; [intros y; cbn; lia|]. exact HP.
  - destruct HP.
Qed.

Lemma grun_inv xs : forall t p s e k t1 p1, length path + e + rests xs <= 42 -> Inv t p s e k -> calm_run entries cmp xs t p -> grun entries cmp xs t p = (t1, p1) ->
  exists s1 e1 k1, Inv t1 p1 s1 e1 k1.
Proof.
  induction xs as [|[x|] xs IH]; intros t p s e k t1 p1 Hb HI Hc; cbn [grun].
  - intros [= <- <-]. eauto.
  - destruct Hc as [Hc Hc']. intros E. destruct HI as (H & Hs & HD & HO & HP).
    assert (Hr : rests (Some x :: xs) = rested x + rests xs) by (unfold rests; cbn [filter is_finish]; destruct x; reflexivity).
    destruct (tstep x t) as [tx rx] eqn:Ex. destruct (step_TI x t s H Hs tx rx Ex) as (s1 & L & T1 & T2). cbn [fst] in *.
    assert (Hk : path <> [] -> rested x + (k + e) <= 41).
    { intros Hne. assert (Hlen : length path >= 1) by (destruct path; [congruence|cbn; lia]). clear IH Hc Hc' E.
      assert (G : k <= length path - 1) by (destruct p; cbn [at_pc] in HP; repeat match goal with A : _ /\ _ |- _ => destruct A end; try lia; contradiction).
      rewrite Hr in Hb. lia. }
    apply (IH tx p s1 (rested x + e) k t1 p1); [rewrite Hr in Hb; lia| |exact Hc'|exact E].
    destruct (env_step x t s p (k + e) k H Hs Hc HO Hk HP) as [G1 G2]. rewrite Ex in G1, G2. cbn [fst] in *.
    split; [exact T1|]. split; [exact T2|]. split; [exact (dirs_step x t s tx rx s1 H Ex L (calm_dcalm _ _ _ Hc) HD)|]. split; [exact G2|].
    replace (k + (rested x + e)) with (rested x + (k + e)) by lia. exact G1.
  - cbn [calm_run] in Hc. destruct (gstep entries cmp t p) as [tx px] eqn:Ex. intros E. destruct (gstep_inv t p s e k tx px ltac:(lia) HI Ex) as (s1 & k1 & HI1).
    apply (IH tx px s1 e k1 t1 p1); auto.
Qed.
End Walk.
