(** The invariant of the file table and its preservation by every action. *)
From Coq Require Import ZArith Lia.
From Verif Require Import Base BaseLemmas CodecModel FullFsModel TableModel TableSpec.
Local Open Scope nat_scope.
Local Open Scope list_scope.

(** ** Lists and maps *)
Lemma upd_eq {A} (f : nat -> A) k v : upd f k v k = v.
Proof. unfold upd. now rewrite Nat.eqb_refl. Qed.
Lemma upd_ne {A} (f : nat -> A) k v x : x <> k -> upd f k v x = f x.
Proof. intros H. unfold upd. apply Nat.eqb_neq in H. now rewrite H. Qed.
Lemma dset_eq d id v : dset d id v id = v.
Proof. unfold dset. now rewrite bytes_eqb_refl. Qed.
Lemma dset_ne d id v x : x <> id -> dset d id v x = d x.
Proof. intros H. unfold dset. apply bytes_eqb_neq in H. now rewrite H. Qed.
Lemma nth_set_eq {A} (l : list A) n v x : nth_error l n = Some x -> nth_error (set_nth l n v) n = Some v.
Proof. revert n; induction l as [|y l IH]; intros [|n]; cbn; try easy. apply IH. Qed.
Lemma nth_set_ne {A} (l : list A) n m v : m <> n -> nth_error (set_nth l n v) m = nth_error l m.
Proof. revert n m; induction l as [|y l IH]; intros [|n] [|m] H; cbn; try easy. apply IH. congruence. Qed.
Lemma nth_set {A} (l : list A) n m v x y : nth_error l n = Some x -> nth_error (set_nth l n v) m = Some y ->
  (m = n /\ y = v) \/ (m <> n /\ nth_error l m = Some y).
Proof.
  intros Hn Hm. destruct (Nat.eq_dec m n) as [->|E].
  - left. rewrite (nth_set_eq _ _ _ _ Hn) in Hm. split; congruence.
  - right. rewrite nth_set_ne in Hm by exact E. auto.
Qed.
Lemma lfind_in id l a : lfind id l = Some a -> In (id, a) l.
Proof.
  induction l as [|[i b] l IH]; [discriminate|]. cbn [lfind]. destruct (bytes_eqb i id) eqn:E.
  - apply bytes_eqb_eq in E. intros [= ->]. left. congruence.
  - intros H. right. auto.
Qed.
Lemma lfind_none id l a : lfind id l = None -> ~ In (id, a) l.
Proof.
  induction l as [|[i b] l IH]; [easy|]. cbn [lfind]. destruct (bytes_eqb i id) eqn:E; [discriminate|].
  apply bytes_eqb_neq in E. intros H [[= -> _]|H2]; [congruence|]. now apply IH.
Qed.
Lemma lerase_in id l i a : In (i, a) (lerase id l) <-> In (i, a) l /\ i <> id.
Proof.
  unfold lerase. rewrite filter_In. cbn [fst]. rewrite Bool.negb_true_iff, bytes_eqb_neq. reflexivity.
Qed.
Lemma remove_nat_in a l x : In x (remove_nat a l) -> In x l.
Proof. induction l as [|y l IH]; [easy|]. cbn. destruct (y =? a); [auto|]. intros [H|H]; [now left|right; auto]. Qed.
Lemma remove_nat_other a l x : x <> a -> In x l -> In x (remove_nat a l).
Proof.
  intros N. induction l as [|y l IH]; [easy|]. cbn. destruct (y =? a) eqn:E.
  - apply Nat.eqb_eq in E. intros [H|H]; [congruence|exact H].
  - intros [H|H]; [now left|right; auto].
Qed.
Lemma remove_nat_nodup a l : NoDup l -> NoDup (remove_nat a l) /\ ~ In a (remove_nat a l).
Proof.
  induction l as [|y l IH]; intros H; [split; [constructor|easy]|]. inversion H as [|? ? H1 H2]; subst. cbn. destruct (y =? a) eqn:E.
  - apply Nat.eqb_eq in E. subst. auto.
  - apply Nat.eqb_neq in E. destruct (IH H2) as [I1 I2]. split.
    + constructor; [|exact I1]. intros Hi. apply H1. eapply remove_nat_in. exact Hi.
    + intros [Hi|Hi]; [congruence|auto].
Qed.
Notation count a l := (count_occ Nat.eq_dec l a).
Lemma count_remove a l x : In a l -> count x l = count x (remove_nat a l) + (if x =? a then 1 else 0).
Proof.
  induction l as [|y l IH]; [easy|]. cbn [remove_nat]. destruct (y =? a) eqn:E.
  - apply Nat.eqb_eq in E. subst y. intros _. cbn [count_occ]. destruct (Nat.eq_dec a x) as [->|N]; [rewrite Nat.eqb_refl; lia|].
    replace (x =? a) with false by (symmetry; apply Nat.eqb_neq; congruence). lia.
  - apply Nat.eqb_neq in E. intros [H|H]; [congruence|]. cbn [count_occ]. rewrite (IH H). destruct (Nat.eq_dec y x); lia.
Qed.
Lemma existsb_nat a l : existsb (Nat.eqb a) l = true <-> In a l.
Proof.
  rewrite existsb_exists. split.
  - intros (x & H & E). apply Nat.eqb_eq in E. now subst.
  - intros H. exists a. split; [exact H|apply Nat.eqb_refl].
Qed.
Lemma NoDup_snoc {A} (l : list A) x : NoDup l -> ~ In x l -> NoDup (l ++ [x]).
Proof.
  induction l as [|y l IH]; intros H1 H2; cbn; [constructor; [easy|constructor]|].
  inversion H1; subst. constructor; [|apply IH; [assumption|intros H; apply H2; now right]].
  rewrite in_app_iff. intros [H|[H|[]]]; [auto|]. apply H2. now left.
Qed.
Lemma NoDup_skipn {A} (l : list A) n : NoDup l -> NoDup (skipn n l).
Proof. revert n; induction l as [|y l IH]; intros [|n] H; cbn; auto. inversion H; auto. Qed.
Lemma NoDup_split {A} (l : list A) n x : NoDup l -> In x (firstn n l) -> In x (skipn n l) -> False.
Proof.
  revert n; induction l as [|y l IH]; intros [|n] H H1 H2; cbn in *; try easy. inversion H; subst. destruct H1 as [->|H1]; [|eauto].
  match goal with H : ~ In _ _ |- _ => apply H end. eapply (In_nth _ _ x) in H2. destruct H2 as (i & Hi & <-). rewrite skipn_length in Hi.
  rewrite <- (firstn_skipn n l) at 2. apply in_or_app. right. apply nth_In. rewrite skipn_length. lia.
Qed.
Lemma in_skipn {A} (l : list A) n x : In x (skipn n l) -> In x l.
Proof. intros H. rewrite <- (firstn_skipn n l). apply in_or_app. now right. Qed.
Lemma in_firstn {A} (l : list A) n x : In x (firstn n l) -> In x l.
Proof. intros H. rewrite <- (firstn_skipn n l). apply in_or_app. now left. Qed.

(** ** The invariant *)
Definition alive (t : table) (a : nat) (o : obj) : Prop := oget t a = Some o /\ o_dead o = false.
Definition id_at (t : table) (a : nat) : bytes := match oget t a with Some o => o_id o | None => [] end.

Record TI (t : table) (s : cells) : Prop := mkTI {
  i_root : exists o, alive t 0 o /\ o_id o = root_id;
  i_live : forall k id a, In (id, a) (live t k) -> id <> root_id /\ shard_of id = k /\ ~ In a (cached t k) /\ exists o, alive t a o /\ o_id o = id;
  i_cached : forall k a, In a (cached t k) -> ~ In a (held t) /\ exists o, alive t a o /\ o_id o <> root_id /\ shard_of (o_id o) = k /\
     disk t (o_id o) = Some (o_cont o) /\ c_nlink (o_cont o) <> 0%N;
  i_nodup : forall k, NoDup (cached t k);
  i_uniq : forall a b oa ob, alive t a oa -> alive t b ob -> o_id oa = o_id ob -> a = b;
  i_place : forall a o, alive t a o -> o_id o = root_id \/ In (o_id o, a) (live t (shard_of (o_id o))) \/ In a (cached t (shard_of (o_id o)));
  i_ref : forall a o, oget t a = Some o -> o_ref o = Z.of_nat (count a (held t));
  i_held : forall a, In a (held t) -> exists o, alive t a o;
  i_busy : forall k id a, busy t k = Some (id, a) -> In (id, a) (live t k) /\ ~ In a (held t);
  i_files1 : forall a o, alive t a o -> files s (o_id o) = Some (o_cont o) /\ disk t (o_id o) <> None;
  i_files2 : forall id, (forall a o, alive t a o -> o_id o <> id) -> files s id = disk t id;
  i_handles : handles s = map (fun a => (a, id_at t a)) (held t) }.

Lemma handle_iff t s a id : TI t s -> In (a, id) (handles s) <-> In a (held t) /\ exists o, alive t a o /\ o_id o = id.
Proof.
  intros H. rewrite (i_handles _ _ H). rewrite in_map_iff. unfold id_at. split.
  - intros (x & [= -> <-] & Hx). split; [exact Hx|]. destruct (i_held _ _ H _ Hx) as (o & Ho & Hd). exists o. rewrite Ho. repeat split; auto.
  - intros (Hx & o & [Ho Hd] & <-). exists a. rewrite Ho. auto.
Qed.

(** One user more. *)
Lemma hold_TI t s a o : TI t s -> alive t a o -> (forall k, ~ In a (cached t k)) -> (forall k id, busy t k <> Some (id, a)) ->
  TI (hold_obj a t) (take a (o_id o) s).
Proof.
  intros H [Ha Hd] Hc Hb. unfold hold_obj. rewrite Ha. set (o' := with_ref (o_ref o + 1) o). set (t' := with_held _ _).
  assert (G : forall b ob, alive t' b ob -> exists ob0, alive t b ob0 /\ o_id ob = o_id ob0 /\ o_cont ob = o_cont ob0).
  { intros b ob [Hb1 Hb2]. destruct (nth_set _ _ _ _ _ _ Ha Hb1) as [[-> ->]|[E Hb3]]; [exists o|exists ob]; repeat split; auto. }
  assert (G2 : forall b ob, alive t b ob -> exists ob', alive t' b ob' /\ o_id ob' = o_id ob /\ o_cont ob' = o_cont ob).
  { intros b ob [Hb1 Hb2]. destruct (Nat.eq_dec b a) as [->|E].
    - exists o'. assert (ob = o) by (unfold oget in *; congruence). subst ob. split; [split; [|exact Hd]|split; reflexivity]. eapply nth_set_eq. exact Ha.
    - exists ob. repeat split; auto. unfold oget, t', oset. cbn. rewrite nth_set_ne by exact E. exact Hb1. }
  constructor.
  - destruct (i_root _ _ H) as (r & Hr & Hi). destruct (G2 _ _ Hr) as (r' & Hr' & E & _). exists r'. split; [exact Hr'|congruence].
  - intros k id b Hi. destruct (i_live _ _ H k id b Hi) as (L1 & L2 & L3 & ob & L4 & L5). destruct (G2 _ _ L4) as (ob' & Hr' & E & _).
    repeat split; auto. exists ob'. split; [exact Hr'|congruence].
  - intros k b Hi. destruct (i_cached _ _ H k b Hi) as (L1 & ob & L2 & L3 & L4 & L5 & L6). destruct (G2 _ _ L2) as (ob' & Hr' & E & E2).
    split; [|exists ob'; rewrite E, E2; auto]. intros [<-|Hh]; [exact (Hc k Hi)|contradiction].
  - exact (i_nodup _ _ H).
  - intros b c ob oc A1 A2 E. destruct (G _ _ A1) as (ob0 & B1 & E1 & _). destruct (G _ _ A2) as (oc0 & B2 & E2 & _).
    eapply (i_uniq _ _ H); [exact B1|exact B2|congruence].
  - intros b ob A1. destruct (G _ _ A1) as (ob0 & B1 & E1 & _). rewrite E1. exact (i_place _ _ H b ob0 B1).
  - intros b ob Hob. change (held t') with (a :: held t). cbn [count_occ]. destruct (nth_set _ _ _ _ _ _ Ha Hob) as [[-> ->]|[E Hb3]].
    + destruct (Nat.eq_dec a a) as [_|N]; [|congruence]. cbn [o' with_ref o_ref]. rewrite (i_ref _ _ H a o Ha). lia.
    + destruct (Nat.eq_dec a b); [congruence|]. exact (i_ref _ _ H b ob Hb3).
  - intros b [<-|Hb1].
    + destruct (G2 a o (conj Ha Hd)) as (x & Hx & _). eauto.
    + destruct (i_held _ _ H b Hb1) as (ob & Hob). destruct (G2 _ _ Hob) as (x & Hx & _). eauto.
  - intros k id b Hk. destruct (i_busy _ _ H k id b Hk) as [B1 B2]. split; [exact B1|]. intros [<-|Hh]; [exact (Hb k id Hk)|contradiction].
  - intros b ob A1. destruct (G _ _ A1) as (ob0 & B1 & E1 & E2). rewrite E1, E2. exact (i_files1 _ _ H b ob0 B1).
  - intros id Hid. apply (i_files2 _ _ H). intros b ob A1. destruct (G2 _ _ A1) as (ob' & B1 & E1 & _). rewrite <- E1. exact (Hid b ob' B1).
  - cbn [take handles]. change (held t') with (a :: held t). cbn [map]. f_equal.
    + f_equal. unfold id_at, t', oset, oget, with_held, with_heap. cbn. rewrite (nth_set_eq _ _ _ _ Ha). reflexivity.
    + rewrite (i_handles _ _ H). apply map_ext_in. intros b Hb1. f_equal. unfold id_at.
      destruct (i_held _ _ H b Hb1) as (ob & Hob). destruct (G2 _ _ Hob) as (x & [Hx _] & E & _). rewrite Hx. destruct Hob as [-> _]. congruence.
Qed.
Lemma handle_for_alive t s a o : TI t s -> alive t a o -> handle_for s a (o_id o).
Proof.
  intros H Ha. split.
  - intros b Hb. apply (handle_iff _ _ _ _ H) in Hb. destruct Hb as (_ & ob & Hb & E). eapply (i_uniq _ _ H); eassumption.
  - intros id Hb. apply (handle_iff _ _ _ _ H) in Hb. destruct Hb as (_ & ob & [Hb _] & E). destruct Ha as [Ha _]. congruence.
Qed.

(** From the cache back to the live map. *)
Lemma move_TI t s k a o : TI t s -> In a (cached t k) -> alive t a o ->
  TI (with_live k ((o_id o, a) :: live t k) (with_cached k (remove_nat a (cached t k)) t)) s.
Proof.
  intros H Hc Ha. destruct (i_cached _ _ H k a Hc) as (C1 & o1 & C2 & C3 & C4 & C5 & C6).
  assert (o1 = o) by (destruct C2, Ha; congruence). subst o1.
  destruct (remove_nat_nodup a _ (i_nodup _ _ H k)) as [N1 N2].
  assert (Cs : forall j b, In b (upd (cached t) k (remove_nat a (cached t k)) j) -> In b (cached t j)).
  { intros j b. destruct (Nat.eq_dec j k) as [->|E]; [rewrite upd_eq; apply remove_nat_in|rewrite upd_ne by exact E; auto]. }
  constructor; cbn [with_live with_cached live cached heap busy disk held].
  - exact (i_root _ _ H).
  - intros j id b. destruct (Nat.eq_dec j k) as [->|E].
    + rewrite !upd_eq. intros [[= <- <-]|Hi].
      * repeat split; auto. exists o. auto.
      * destruct (i_live _ _ H k id b Hi) as (L1 & L2 & L3 & L4). repeat split; auto. intros Hr. apply L3. eapply remove_nat_in. exact Hr.
    + rewrite !upd_ne by exact E. intros Hi. exact (i_live _ _ H j id b Hi).
  - intros j b Hi. exact (i_cached _ _ H j b (Cs _ _ Hi)).
  - intros j. destruct (Nat.eq_dec j k) as [->|E]; [rewrite upd_eq; exact N1|rewrite upd_ne by exact E; apply (i_nodup _ _ H)].
  - exact (i_uniq _ _ H).
  - intros b ob Hb. change (alive t b ob) in Hb. destruct (i_place _ _ H b ob Hb) as [P|[P|P]]; [auto| |].
    + right. left. destruct (Nat.eq_dec (shard_of (o_id ob)) k) as [E|E]; [rewrite E, upd_eq in *; now right|now rewrite upd_ne].
    + destruct (Nat.eq_dec (shard_of (o_id ob)) k) as [E|E]; [rewrite E in *|right; right; now rewrite upd_ne].
      destruct (Nat.eq_dec b a) as [->|N].
      * right. left. rewrite upd_eq. left. assert (ob = o) by (destruct Hb, Ha; congruence). congruence.
      * right. right. rewrite upd_eq. now apply remove_nat_other.
  - exact (i_ref _ _ H).
  - exact (i_held _ _ H).
  - intros j id b Hb. destruct (i_busy _ _ H j id b Hb) as [B1 B2]. split; [|exact B2].
    destruct (Nat.eq_dec j k) as [->|E]; [rewrite upd_eq; now right|now rewrite upd_ne].
  - exact (i_files1 _ _ H).
  - exact (i_files2 _ _ H).
  - exact (i_handles _ _ H).
Qed.

(** A new object for a stored file. *)
Lemma alloc_TI t s id ty c : TI t s -> (forall a o, alive t a o -> o_id o <> id) -> disk t id = Some c ->
  let k := shard_of id in let a := length (heap t) in
  TI (with_live k ((id, a) :: live t k) (with_heap (heap t ++ [mkObj id ty c 0 false]) t)) s.
Proof.
  intros H Hn Hd k a. set (o := mkObj id ty c 0 false). set (t' := with_live _ _ _).
  assert (Gn : oget t' a = Some o).
  { unfold oget, t'. cbn. rewrite nth_error_app2 by (unfold a; lia). unfold a. rewrite Nat.sub_diag. reflexivity. }
  assert (Go : forall b ob, oget t b = Some ob -> oget t' b = Some ob).
  { intros b ob Hb. unfold oget, t'. cbn. rewrite nth_error_app1; [exact Hb|]. apply nth_error_Some. unfold oget in Hb. congruence. }
  assert (Gi : forall b ob, oget t' b = Some ob -> (b = a /\ ob = o) \/ oget t b = Some ob).
  { intros b ob Hb. unfold oget, t' in Hb. cbn in Hb. destruct (Nat.lt_ge_cases b (length (heap t))) as [L|L].
    - rewrite nth_error_app1 in Hb by exact L. now right.
    - rewrite nth_error_app2 in Hb by exact L. left. destruct (b - length (heap t)) as [|[|x]] eqn:E; cbn in Hb; [|discriminate|discriminate].
      unfold a. split; [lia|congruence]. }
  assert (Hlt : forall b ob, oget t b = Some ob -> b <> a).
  { intros b ob Hb. apply (f_equal (fun x => match x with Some _ => true | None => false end)) in Hb. assert (b < length (heap t)); [|unfold a; lia].
    apply nth_error_Some. unfold oget in Hb. destruct (nth_error (heap t) b); [discriminate|discriminate Hb]. }
  assert (Hr : id <> root_id).
  { intros E. destruct (i_root _ _ H) as (r & Hr & Hi). apply (Hn 0 r Hr). congruence. }
  assert (Hheld : ~ In a (held t)).
  { intros Hi. destruct (i_held _ _ H a Hi) as (ob & Hob & _). now apply (Hlt a ob Hob). }
  assert (Hca : forall j, ~ In a (cached t j)).
  { intros j Hi. destruct (i_cached _ _ H j a Hi) as (_ & ob & [Hob _] & _). now apply (Hlt a ob Hob). }
  constructor; try change (held t') with (held t); try change (cached t') with (cached t); try change (busy t') with (busy t); try change (disk t') with (disk t);
    try change (live t') with (upd (live t) k ((id, a) :: live t k)).
  - destruct (i_root _ _ H) as (r & [Hr1 Hr2] & Hi). exists r. split; [split; [apply Go, Hr1|exact Hr2]|exact Hi].
  - intros j i b. destruct (Nat.eq_dec j k) as [->|E]; [rewrite upd_eq|rewrite upd_ne by exact E].
    + intros [[= <- <-]|Hi].
      * split; [exact Hr|]. split; [reflexivity|]. split; [apply Hca|]. exists o. split; [split; [exact Gn|reflexivity]|reflexivity].
      * destruct (i_live _ _ H _ _ _ Hi) as (L1 & L2 & L3 & ob & [L4 L5] & L6). split; [exact L1|]. split; [exact L2|]. split; [exact L3|].
        exists ob. split; [split; [apply Go, L4|exact L5]|exact L6].
    + intros Hi. destruct (i_live _ _ H _ _ _ Hi) as (L1 & L2 & L3 & ob & [L4 L5] & L6). split; [exact L1|]. split; [exact L2|]. split; [exact L3|].
      exists ob. split; [split; [apply Go, L4|exact L5]|exact L6].
  - intros j b Hi. destruct (i_cached _ _ H _ _ Hi) as (C1 & ob & [C2 C3] & C4). split; [exact C1|]. exists ob. split; [split; [apply Go, C2|exact C3]|exact C4].
  - exact (i_nodup _ _ H).
  - intros b c' ob oc [B1 B2] [D1 D2] E. destruct (Gi _ _ B1) as [[-> ->]|B]; destruct (Gi _ _ D1) as [[-> ->]|D]; [reflexivity| | |].
    + exfalso. apply (Hn c' oc (conj D D2)). symmetry. exact E.
    + exfalso. apply (Hn b ob (conj B B2)). exact E.
    + eapply (i_uniq _ _ H); [split; [exact B|exact B2]|split; [exact D|exact D2]|exact E].
  - intros b ob [B1 B2]. destruct (Gi _ _ B1) as [[-> ->]|B].
    + right. left. cbn [o o_id]. fold k. rewrite upd_eq. now left.
    + destruct (i_place _ _ H b ob (conj B B2)) as [P|[P|P]]; [auto| |auto]. right. left.
      destruct (Nat.eq_dec (shard_of (o_id ob)) k) as [E|E]; [rewrite E in *; rewrite upd_eq; now right|now rewrite upd_ne].
  - intros b ob B1. destruct (Gi _ _ B1) as [[-> ->]|B]; [|exact (i_ref _ _ H b ob B)].
    cbn [o o_ref]. rewrite (proj1 (count_occ_not_In Nat.eq_dec _ _) Hheld). reflexivity.
  - intros b Hb. destruct (i_held _ _ H b Hb) as (ob & B1 & B2). exists ob. split; [apply Go, B1|exact B2].
  - intros j i b Hb. destruct (i_busy _ _ H j i b Hb) as [B1 B2]. split; [|exact B2].
    destruct (Nat.eq_dec j k) as [->|E]; [rewrite upd_eq; now right|now rewrite upd_ne].
  - intros b ob [B1 B2]. destruct (Gi _ _ B1) as [[-> ->]|B]; [|exact (i_files1 _ _ H b ob (conj B B2))].
    cbn [o o_id o_cont]. rewrite Hd. split; [|discriminate]. rewrite <- Hd. now apply (i_files2 _ _ H).
  - intros i Hi. apply (i_files2 _ _ H). intros b ob [B1 B2]. apply (Hi b ob). split; [apply Go, B1|exact B2].
  - rewrite (i_handles _ _ H). apply map_ext_in. intros b Hb. f_equal. unfold id_at. destruct (i_held _ _ H b Hb) as (ob & B1 & _).
    rewrite (Go _ _ B1), B1. reflexivity.
Qed.

(** A new stored file. *)
Lemma newfile_TI t s id c : TI t s -> (forall a o, alive t a o -> o_id o <> id) -> TI (store id (Some c) t) (set_cell id (Some c) s).
Proof.
  intros H Hn. constructor; try exact (i_root _ _ H); try exact (i_live _ _ H); try exact (i_nodup _ _ H); try exact (i_uniq _ _ H);
    try exact (i_place _ _ H); try exact (i_ref _ _ H); try exact (i_held _ _ H); try exact (i_busy _ _ H); try exact (i_handles _ _ H).
  - intros k a Hi. destruct (i_cached _ _ H k a Hi) as (C1 & o & C2 & C3 & C4 & C5 & C6). split; [exact C1|]. exists o.
    cbn [store with_disk disk]. rewrite dset_ne by (apply (Hn a o C2)). auto.
  - intros a o Ha. cbn [store with_disk disk set_cell files]. rewrite !dset_ne by (apply (Hn a o Ha)). exact (i_files1 _ _ H a o Ha).
  - intros i Hi. cbn [store with_disk disk set_cell files]. unfold dset. destruct (bytes_eqb i id); [reflexivity|]. now apply (i_files2 _ _ H).
Qed.

(** A change of an object in use. *)
Lemma change_TI t s a o c : TI t s -> alive t a o -> In a (held t) -> TI (oset a (with_cont c o) t) (set_cell (o_id o) (Some c) s).
Proof.
  intros H [Ha Hd] Hh. set (o' := with_cont c o). set (t' := oset a o' t).
  assert (G : forall b ob, oget t' b = Some ob -> (b = a /\ ob = o') \/ (b <> a /\ oget t b = Some ob)).
  { intros b ob Hb. exact (nth_set _ _ _ _ _ _ Ha Hb). }
  assert (Ge : oget t' a = Some o') by (eapply nth_set_eq; exact Ha).
  assert (Gn : forall b, b <> a -> oget t' b = oget t b) by (intros b E; unfold oget, t'; cbn; now apply nth_set_ne).
  assert (Gi : forall b ob, alive t b ob -> exists ob', alive t' b ob' /\ o_id ob' = o_id ob).
  { intros b ob [B1 B2]. destruct (Nat.eq_dec b a) as [->|E].
    - exists o'. assert (ob = o) by congruence. subst. split; [split; [exact Ge|exact Hd]|reflexivity].
    - exists ob. split; [split; [rewrite Gn by exact E; exact B1|exact B2]|reflexivity]. }
  assert (Gj : forall b ob, alive t' b ob -> exists ob0, alive t b ob0 /\ o_id ob0 = o_id ob).
  { intros b ob [B1 B2]. destruct (G _ _ B1) as [[-> ->]|[E B]]; [exists o|exists ob]; repeat split; auto. }
  assert (Hc : forall k, ~ In a (cached t k)) by (intros k Hi; now apply (i_cached _ _ H k a Hi)).
  assert (Hu : forall b ob, alive t b ob -> b <> a -> o_id ob <> o_id o).
  { intros b ob B N E. apply N. eapply (i_uniq _ _ H); [exact B|split; [exact Ha|exact Hd]|exact E]. }
  constructor; try change (held t') with (held t); try change (cached t') with (cached t); try change (busy t') with (busy t); try change (disk t') with (disk t);
    try change (live t') with (live t).
  - destruct (i_root _ _ H) as (r & Hr & Hi). destruct (Gi _ _ Hr) as (r' & Hr' & E). exists r'. split; [exact Hr'|congruence].
  - intros k id b Hi. destruct (i_live _ _ H k id b Hi) as (L1 & L2 & L3 & ob & L4 & L5). destruct (Gi _ _ L4) as (ob' & L6 & L7).
    split; [exact L1|]. split; [exact L2|]. split; [exact L3|]. exists ob'. split; [exact L6|congruence].
  - intros k b Hi. destruct (i_cached _ _ H k b Hi) as (C1 & ob & [C2 C3] & C4). split; [exact C1|]. exists ob. split; [|exact C4].
    split; [|exact C3]. rewrite Gn; [exact C2|]. intros ->. now apply (Hc k).
  - exact (i_nodup _ _ H).
  - intros b b' ob ob' B B' E. destruct (Gj _ _ B) as (x & X1 & X2). destruct (Gj _ _ B') as (y & Y1 & Y2).
    eapply (i_uniq _ _ H); [exact X1|exact Y1|congruence].
  - intros b ob B. destruct (Gj _ _ B) as (x & X1 & X2). rewrite <- X2. exact (i_place _ _ H b x X1).
  - intros b ob B. destruct (G _ _ B) as [[-> ->]|[_ B1]]; [exact (i_ref _ _ H a o Ha)|exact (i_ref _ _ H b ob B1)].
  - intros b Hb. destruct (i_held _ _ H b Hb) as (ob & B). destruct (Gi _ _ B) as (x & X1 & _). eauto.
  - exact (i_busy _ _ H).
  - intros b ob [B1 B2]. cbn [set_cell files]. destruct (G _ _ B1) as [[-> ->]|[E B]].
    + cbn [o' with_cont o_id o_cont]. rewrite dset_eq. split; [reflexivity|]. apply (i_files1 _ _ H a o (conj Ha Hd)).
    + rewrite dset_ne by (exact (Hu b ob (conj B B2) E)). exact (i_files1 _ _ H b ob (conj B B2)).
  - intros id Hi. cbn [set_cell files]. rewrite dset_ne.
    + apply (i_files2 _ _ H). intros b ob B. destruct (Gi _ _ B) as (x & X1 & X2). rewrite <- X2. exact (Hi b x X1).
    + intros ->. apply (Hi a o'); [split; [exact Ge|exact Hd]|reflexivity].
  - cbn [set_cell handles]. rewrite (i_handles _ _ H). apply map_ext_in. intros b Hb. f_equal. unfold id_at.
    destruct (i_held _ _ H b Hb) as (ob & B). destruct (Gi _ _ B) as (x & [X1 _] & X2). rewrite X1. destruct B as [-> _]. congruence.
Qed.

(** Something is stored for an object that is not in the cache. *)
Lemma flush_TI t s a o g : TI t s -> alive t a o -> (forall k, ~ In a (cached t k)) -> TI (store (o_id o) (Some g) t) s.
Proof.
  intros H Ha Hc. constructor; try exact (i_root _ _ H); try exact (i_live _ _ H); try exact (i_nodup _ _ H); try exact (i_uniq _ _ H);
    try exact (i_place _ _ H); try exact (i_ref _ _ H); try exact (i_held _ _ H); try exact (i_busy _ _ H); try exact (i_handles _ _ H).
  - intros k b Hi. destruct (i_cached _ _ H k b Hi) as (C1 & ob & C2 & C3 & C4 & C5 & C6). split; [exact C1|]. exists ob.
    cbn [store with_disk disk]. rewrite dset_ne; [auto|]. intros E. apply (Hc k). rewrite <- (i_uniq _ _ H _ _ _ _ C2 Ha E). exact Hi.
  - intros b ob B. destruct (i_files1 _ _ H b ob B) as [F1 F2]. split; [exact F1|]. cbn [store with_disk disk]. unfold dset. destruct (bytes_eqb _ _); [discriminate|exact F2].
  - intros i Hi. cbn [store with_disk disk]. rewrite dset_ne by (intros ->; exact (Hi a o Ha eq_refl)). now apply (i_files2 _ _ H).
Qed.

(** One user less. *)
Lemma drop_handle_map t l a : In a l -> drop_handle a (map (fun x => (x, id_at t x)) l) = map (fun x => (x, id_at t x)) (remove_nat a l).
Proof.
  induction l as [|y l IH]; [easy|]. cbn [map drop_handle remove_nat fst]. destruct (y =? a) eqn:E; [reflexivity|].
  apply Nat.eqb_neq in E. intros [H|H]; [congruence|]. cbn [map]. now rewrite IH.
Qed.
Lemma drop_TI t s a o : TI t s -> alive t a o -> In a (held t) ->
  TI (oset a (with_ref (o_ref o - 1) o) (with_held (remove_nat a (held t)) t)) (mkCells (files s) (drop_handle a (handles s))).
Proof.
  intros H [Ha Hd] Hh. set (o' := with_ref (o_ref o - 1) o). set (t' := oset _ _ _).
  assert (G : forall b ob, oget t' b = Some ob -> (b = a /\ ob = o') \/ (b <> a /\ oget t b = Some ob)).
  { intros b ob Hb. exact (nth_set _ _ _ _ _ _ Ha Hb). }
  assert (Ge : oget t' a = Some o') by (eapply nth_set_eq; exact Ha).
  assert (Gn : forall b, b <> a -> oget t' b = oget t b) by (intros b E; unfold oget, t'; cbn; now apply nth_set_ne).
  assert (Gi : forall b ob, alive t b ob -> exists ob', alive t' b ob' /\ o_id ob' = o_id ob /\ o_cont ob' = o_cont ob).
  { intros b ob [B1 B2]. destruct (Nat.eq_dec b a) as [->|E].
    - exists o'. assert (ob = o) by congruence. subst. split; [split; [exact Ge|exact Hd]|split; reflexivity].
    - exists ob. split; [split; [rewrite Gn by exact E; exact B1|exact B2]|split; reflexivity]. }
  assert (Gj : forall b ob, alive t' b ob -> exists ob0, alive t b ob0 /\ o_id ob0 = o_id ob /\ o_cont ob0 = o_cont ob).
  { intros b ob [B1 B2]. destruct (G _ _ B1) as [[-> ->]|[E B]]; [exists o|exists ob]; repeat split; auto. }
  constructor; try change (held t') with (remove_nat a (held t)); try change (cached t') with (cached t); try change (busy t') with (busy t);
    try change (disk t') with (disk t); try change (live t') with (live t).
  - destruct (i_root _ _ H) as (r & Hr & Hi). destruct (Gi _ _ Hr) as (r' & Hr' & E & _). exists r'. split; [exact Hr'|congruence].
  - intros k id b Hi. destruct (i_live _ _ H k id b Hi) as (L1 & L2 & L3 & ob & L4 & L5). destruct (Gi _ _ L4) as (ob' & L6 & L7 & _).
    split; [exact L1|]. split; [exact L2|]. split; [exact L3|]. exists ob'. split; [exact L6|congruence].
  - intros k b Hi. destruct (i_cached _ _ H k b Hi) as (C1 & ob & C2 & C3). split; [intros Hr; apply C1; eapply remove_nat_in; exact Hr|].
    destruct (Gi _ _ C2) as (x & X1 & X2 & X3). exists x. rewrite X2, X3. auto.
  - exact (i_nodup _ _ H).
  - intros b b' ob ob' B B' E. destruct (Gj _ _ B) as (x & X1 & X2 & _). destruct (Gj _ _ B') as (y & Y1 & Y2 & _).
    eapply (i_uniq _ _ H); [exact X1|exact Y1|congruence].
  - intros b ob B. destruct (Gj _ _ B) as (x & X1 & X2 & _). rewrite <- X2. exact (i_place _ _ H b x X1).
  - intros b ob B. pose proof (count_remove a (held t) b Hh) as Hc. destruct (G _ _ B) as [[-> ->]|[E B1]].
    + rewrite Nat.eqb_refl in Hc. pose proof (i_ref _ _ H a o Ha). cbn [o' with_ref o_ref]. lia.
    + apply Nat.eqb_neq in E. rewrite E in Hc. pose proof (i_ref _ _ H b ob B1). lia.
  - intros b Hb. apply remove_nat_in in Hb. destruct (i_held _ _ H b Hb) as (ob & B). destruct (Gi _ _ B) as (x & X1 & _). eauto.
  - intros k id b Hk. destruct (i_busy _ _ H k id b Hk) as [B1 B2]. split; [exact B1|]. intros Hr. apply B2. eapply remove_nat_in. exact Hr.
  - intros b ob B. destruct (Gj _ _ B) as (x & X1 & X2 & X3). cbn [files]. rewrite <- X2, <- X3. exact (i_files1 _ _ H b x X1).
  - intros id Hi. cbn [files]. apply (i_files2 _ _ H). intros b ob B. destruct (Gi _ _ B) as (x & X1 & X2 & _). rewrite <- X2. exact (Hi b x X1).
  - cbn [handles]. rewrite (i_handles _ _ H), (drop_handle_map t _ _ Hh). apply map_ext_in. intros b Hb. apply remove_nat_in in Hb. f_equal. unfold id_at.
    destruct (i_held _ _ H b Hb) as (ob & B). destruct (Gi _ _ B) as (x & [X1 _] & X2 & _). rewrite X1. destruct B as [-> _]. congruence.
Qed.

(** The mutex of a shard. *)
Lemma busy_TI t s k b : TI t s -> (forall id a, b = Some (id, a) -> In (id, a) (live t k) /\ ~ In a (held t)) -> TI (with_busy k b t) s.
Proof.
  intros H Hb. destruct H. constructor; try assumption. cbn [with_busy busy live held]. intros j id a.
  destruct (Nat.eq_dec j k) as [->|E]; [rewrite upd_eq; apply Hb|rewrite upd_ne by exact E; auto].
Qed.
Lemma closing_TI t s l : TI t s -> TI (with_closing l t) s.
Proof. intros []. constructor; assumption. Qed.
Lemma going_TI t s l : TI t s -> TI (with_going l t) s.
Proof. intros []. constructor; assumption. Qed.

(** From the live map to the cache. *)
Lemma rest_TI t s k id a o : TI t s -> In (id, a) (live t k) -> alive t a o -> ~ In a (held t) -> busy t k = None ->
  disk t id = Some (o_cont o) -> c_nlink (o_cont o) <> 0%N ->
  TI (with_cached k (cached t k ++ [a]) (with_live k (lerase id (live t k)) t)) s.
Proof.
  intros H Hl Ha Hh Hb Hd Hn. destruct (i_live _ _ H _ _ _ Hl) as (L1 & L2 & L3 & o1 & L4 & L5).
  assert (o1 = o) by (destruct L4, Ha; congruence). subst o1.
  constructor; cbn [with_cached with_live live cached busy disk held heap].
  - exact (i_root _ _ H).
  - intros j i b. destruct (Nat.eq_dec j k) as [->|E]; [rewrite !upd_eq|rewrite !upd_ne by exact E; apply (i_live _ _ H)].
    rewrite lerase_in. intros [Hi Ni]. destruct (i_live _ _ H _ _ _ Hi) as (M1 & M2 & M3 & ob & M4 & M5). split; [exact M1|]. split; [exact M2|]. split; [|eauto].
    rewrite in_app_iff. intros [Hc|[Hc|[]]]; [contradiction|]. subst b. destruct M4, L4. congruence.
  - intros j b. destruct (Nat.eq_dec j k) as [->|E]; [rewrite upd_eq|rewrite upd_ne by exact E; apply (i_cached _ _ H)].
    rewrite in_app_iff. intros [Hc|[<-|[]]]; [exact (i_cached _ _ H _ _ Hc)|]. split; [exact Hh|]. exists o. rewrite L5. auto.
  - intros j. destruct (Nat.eq_dec j k) as [->|E]; [rewrite upd_eq|rewrite upd_ne by exact E; apply (i_nodup _ _ H)].
    apply NoDup_snoc; [apply (i_nodup _ _ H)|exact L3].
  - exact (i_uniq _ _ H).
  - intros b ob B. destruct (i_place _ _ H b ob B) as [P|[P|P]]; [auto| |].
    + destruct (Nat.eq_dec (shard_of (o_id ob)) k) as [E|E]; [|right; left; now rewrite upd_ne].
      rewrite E in *. destruct (list_eq_dec byte_eq_dec (o_id ob) id) as [E2|E2].
      * right. right. rewrite upd_eq, in_app_iff. right. left. eapply (i_uniq _ _ H); [exact L4|exact B|congruence].
      * right. left. rewrite upd_eq, lerase_in. auto.
    + right. right. destruct (Nat.eq_dec (shard_of (o_id ob)) k) as [E|E]; [rewrite E in *; rewrite upd_eq, in_app_iff; auto|now rewrite upd_ne].
  - exact (i_ref _ _ H).
  - exact (i_held _ _ H).
  - intros j i b Hj. destruct (Nat.eq_dec j k) as [->|E]; [congruence|]. rewrite upd_ne by exact E. exact (i_busy _ _ H _ _ _ Hj).
  - exact (i_files1 _ _ H).
  - exact (i_files2 _ _ H).
  - exact (i_handles _ _ H).
Qed.

(** Objects are destroyed. *)
Lemma kill_alive t a o : alive t a o -> forall b ob, alive (oset a (kill o) t) b ob <-> (alive t b ob /\ b <> a).
Proof.
  intros [Ha Hd] b ob. unfold alive. split.
  - intros [B1 B2]. destruct (nth_set _ _ _ _ _ _ Ha B1) as [[-> ->]|[E B3]]; [discriminate|]. auto.
  - intros [[B1 B2] E]. split; [|exact B2]. unfold oget. cbn. rewrite nth_set_ne by exact E. exact B1.
Qed.
Lemma kill_ref t a o b ob : oget t a = Some o -> oget (oset a (kill o) t) b = Some ob -> exists ob0, oget t b = Some ob0 /\ o_ref ob0 = o_ref ob.
Proof. intros Ha B. destruct (nth_set _ _ _ _ _ _ Ha B) as [[-> ->]|[E B3]]; eauto. Qed.

Lemma remove_TI t s k id a o : TI t s -> In (id, a) (live t k) -> alive t a o -> ~ In a (held t) -> busy t k = None ->
  TI (store id None (oset a (kill o) (with_live k (lerase id (live t k)) t))) (set_cell id None s).
Proof.
  intros H Hl Ha Hh Hb. destruct (i_live _ _ H _ _ _ Hl) as (L1 & L2 & L3 & o1 & L4 & L5).
  assert (o1 = o) by (destruct L4, Ha; congruence). subst o1.
  set (t' := store _ _ _). assert (G : forall b ob, alive t' b ob <-> (alive t b ob /\ b <> a)) by (apply (kill_alive t a o Ha)).
  assert (Hc : forall j, ~ In a (cached t j)).
  { intros j Hi. destruct (i_cached _ _ H j a Hi) as (_ & o2 & C2 & _ & C4 & _). assert (o2 = o) by (destruct C2, Ha; congruence). subst o2.
    assert (E : j = k) by congruence. rewrite E in Hi. contradiction. }
  assert (Hu : forall b ob, alive t b ob -> b <> a -> o_id ob <> id).
  { intros b ob B N E. apply N. eapply (i_uniq _ _ H); [exact B|exact Ha|congruence]. }
  constructor; try change (held t') with (held t); try change (cached t') with (cached t); try change (busy t') with (busy t);
    try change (disk t') with (dset (disk t) id None); try change (live t') with (upd (live t) k (lerase id (live t k))).
  - destruct (i_root _ _ H) as (r & Hr & Hi). exists r. split; [|exact Hi]. apply G. split; [exact Hr|]. intros <-. destruct Hr, Ha. congruence.
  - intros j i b Hi. assert (Hi2 : In (i, b) (live t j) /\ i <> id).
    { destruct (Nat.eq_dec j k) as [->|E]; [rewrite upd_eq in Hi; now apply lerase_in|rewrite upd_ne in Hi by exact E; split; [exact Hi|]].
      intros ->. apply E. destruct (i_live _ _ H _ _ _ Hi) as (_ & M2 & _). congruence. }
    destruct Hi2 as [Hi2 Ni]. destruct (i_live _ _ H _ _ _ Hi2) as (M1 & M2 & M3 & ob & M4 & M5). split; [exact M1|]. split; [exact M2|]. split; [exact M3|].
    exists ob. split; [|exact M5]. apply G. split; [exact M4|]. intros ->. destruct M4, Ha. congruence.
  - intros j b Hi. destruct (i_cached _ _ H j b Hi) as (C1 & ob & C2 & C3 & C4 & C5 & C6). split; [exact C1|]. exists ob.
    assert (Nb : b <> a) by (intros ->; exact (Hc j Hi)). split; [apply G; auto|]. split; [exact C3|]. split; [exact C4|]. split; [|exact C6].
    rewrite dset_ne; [exact C5|]. exact (Hu b ob C2 Nb).
  - exact (i_nodup _ _ H).
  - intros b c ob oc B C. apply G in B. apply G in C. apply (i_uniq _ _ H); tauto.
  - intros b ob B. apply G in B. destruct B as [B Nb]. destruct (i_place _ _ H b ob B) as [P|[P|P]]; [auto| |auto]. right. left.
    destruct (Nat.eq_dec (shard_of (o_id ob)) k) as [E|E]; [|now rewrite upd_ne]. rewrite E in *. rewrite upd_eq, lerase_in. split; [exact P|]. exact (Hu b ob B Nb).
  - intros b ob B. destruct (kill_ref t a o b ob (proj1 Ha) B) as (x & X1 & <-). exact (i_ref _ _ H b x X1).
  - intros b Hb1. destruct (i_held _ _ H b Hb1) as (ob & B). exists ob. apply G. split; [exact B|]. intros ->. contradiction.
  - intros j i b Hj. destruct (Nat.eq_dec j k) as [->|E]; [congruence|]. rewrite upd_ne by exact E. exact (i_busy _ _ H _ _ _ Hj).
  - intros b ob B. apply G in B. destruct B as [B Nb]. cbn [set_cell files]. rewrite !dset_ne by exact (Hu b ob B Nb). exact (i_files1 _ _ H b ob B).
  - intros i Hi. cbn [set_cell files]. unfold dset. destruct (bytes_eqb i id) eqn:E; [reflexivity|]. apply bytes_eqb_neq in E. apply (i_files2 _ _ H).
    intros b ob B. destruct (Nat.eq_dec b a) as [->|Nb]; [destruct B, Ha; congruence|]. apply (Hi b ob). now apply G.
  - cbn [set_cell handles]. rewrite (i_handles _ _ H). apply map_ext_in. intros b Hb1. f_equal. unfold id_at.
    destruct (i_held _ _ H b Hb1) as (ob & B). assert (B' : alive t' b ob) by (apply G; split; [exact B|intros ->; contradiction]).
    destruct B' as [-> _]. destruct B as [-> _]. reflexivity.
Qed.

Lemma kill_all_frame l t : live (kill_all l t) = live t /\ cached (kill_all l t) = cached t /\ busy (kill_all l t) = busy t /\ disk (kill_all l t) = disk t /\
  held (kill_all l t) = held t /\ going (kill_all l t) = going t /\ closing (kill_all l t) = closing t.
Proof.
  revert t; induction l as [|a l IH]; intros t; cbn [kill_all fold_left]; [auto 8|].
  change (fold_left _ l ?x) with (kill_all l x). destruct (oget t a) as [o|]; [|apply IH].
  destruct (IH (oset a (kill o) t)) as (-> & -> & -> & -> & -> & -> & ->). auto 8.
Qed.
Lemma kill_all_alive l t : (forall a, In a l -> exists o, oget t a = Some o) ->
  (forall b ob, alive (kill_all l t) b ob <-> (alive t b ob /\ ~ In b l)) /\
  (forall b ob, oget (kill_all l t) b = Some ob -> exists ob0, oget t b = Some ob0 /\ o_ref ob0 = o_ref ob) /\
  (forall b ob, oget t b = Some ob -> exists ob', oget (kill_all l t) b = Some ob').
Proof.
  revert t; induction l as [|a l IH]; intros t Hl; cbn [kill_all fold_left].
  - split; [intros b ob; cbn; tauto|split; eauto].
  - change (fold_left _ l ?x) with (kill_all l x). destruct (Hl a (or_introl eq_refl)) as (o & Ho). rewrite Ho.
    assert (Hk : forall b ob, oget t b = Some ob -> exists ob', oget (oset a (kill o) t) b = Some ob').
    { intros b ob B. destruct (Nat.eq_dec b a) as [->|E]; [exists (kill o); eapply nth_set_eq; exact Ho|exists ob; unfold oget; cbn; rewrite nth_set_ne by exact E; exact B]. }
    destruct (IH (oset a (kill o) t)) as (I1 & I2 & I3).
    { intros b Hb. destruct (Hl b (or_intror Hb)) as (ob & Hob). eapply Hk. exact Hob. }
    split; [|split].
    + intros b ob. rewrite I1. cbn [In]. split.
      * intros [[B1 B2] N]. destruct (nth_set _ _ _ _ _ _ Ho B1) as [[-> ->]|[E B3]]; [discriminate|]. split; [split; [exact B3|exact B2]|]. intuition.
      * intros [[B1 B2] N]. split; [|tauto]. split; [|exact B2]. unfold oget. cbn. rewrite nth_set_ne by (intros ->; tauto). exact B1.
    + intros b ob B. destruct (I2 b ob B) as (x & X1 & X2). destruct (kill_ref t a o b x Ho X1) as (y & Y1 & Y2). exists y. split; [exact Y1|congruence].
    + intros b ob B. destruct (Hk b ob B) as (x & X). exact (I3 b x X).
Qed.

Definition small (t : table) : Prop := forall k, length (cached t k) <= max_cached.

Lemma evict_TI t s k : TI t s -> TI (evict k t) s.
Proof.
  intros H. unfold evict. destruct (max_cached <? length (cached t k)) eqn:El; [|exact H].
  destruct (existsb (in_use t) (firstn eject_number (cached t k))) eqn:Eu; [exact H|].
  set (l := firstn eject_number (cached t k)). set (t1 := with_cached k _ t).
  assert (Hl : forall a, In a l -> exists o, alive t a o /\ ~ In a (held t) /\ disk t (o_id o) = Some (o_cont o) /\ In a (cached t k) /\ o_id o <> root_id /\ shard_of (o_id o) = k).
  { intros a Hi. apply in_firstn in Hi. destruct (i_cached _ _ H k a Hi) as (C1 & o & C2 & C3 & C4 & C5 & C6). exists o. auto 10. }
  destruct (kill_all_alive l t1) as (G & Gr & _).
  { intros a Hi. destruct (Hl a Hi) as (o & [Ho _] & _). exists o. exact Ho. }
  destruct (kill_all_frame l t1) as (F1 & F2 & F3 & F4 & F5 & _). set (t' := kill_all l t1) in *.
  assert (Ga : forall b ob, alive t1 b ob <-> alive t b ob) by (intros; reflexivity).
  assert (Gn : forall j b, In b (cached t' j) <-> In b (cached t j) /\ (j = k -> In b (skipn eject_number (cached t k)))).
  { intros j b. rewrite F2. cbn [t1 with_cached cached]. destruct (Nat.eq_dec j k) as [->|E]; [rewrite upd_eq|rewrite upd_ne by exact E; tauto].
    split; [intros Hi; split; [eapply in_skipn; exact Hi|auto]|tauto]. }
  assert (Gl : forall j b, In b (cached t' j) -> ~ In b l).
  { intros j b Hb Hi. apply Gn in Hb. destruct Hb as [B1 B2]. destruct (Hl b Hi) as (o & Ho & _ & _ & _ & _ & Hk).
    destruct (i_cached _ _ H j b B1) as (_ & o2 & O2 & _ & O4 & _). assert (o2 = o) by (destruct O2, Ho; congruence). subst o2.
    assert (j = k) by congruence. eapply NoDup_split; [apply (i_nodup _ _ H k)|exact Hi|auto]. }
  assert (Glive : forall j id b, In (id, b) (live t j) -> ~ In b l).
  { intros j id b Hb Hi. destruct (i_live _ _ H _ _ _ Hb) as (_ & M2 & M3 & ob & M4 & M5). destruct (Hl b Hi) as (o & Ho & _ & _ & Hin & _ & Hk).
    assert (o = ob) by (destruct M4, Ho; congruence). subst o. assert (E : j = k) by congruence. rewrite E in M3. contradiction. }
  constructor.
  - destruct (i_root _ _ H) as (r & Hr & Hi). exists r. split; [|exact Hi]. apply G. split; [exact Hr|]. intros Hin.
    destruct (Hl 0 Hin) as (o & Ho & _ & _ & _ & N & _). assert (o = r) by (destruct Ho, Hr; congruence). congruence.
  - intros j id b. rewrite F1. cbn [t1 with_cached live]. intros Hi. destruct (i_live _ _ H _ _ _ Hi) as (M1 & M2 & M3 & ob & M4 & M5).
    split; [exact M1|]. split; [exact M2|]. split; [intros Hc; apply Gn in Hc; tauto|]. exists ob. split; [|exact M5]. apply G. split; [exact M4|]. exact (Glive _ _ _ Hi).
  - intros j b Hi. pose proof (Gl j b Hi) as Nl. apply Gn in Hi. destruct Hi as [Hi _]. destruct (i_cached _ _ H j b Hi) as (C1 & ob & C2 & C3). rewrite F5, F4.
    split; [exact C1|]. exists ob. split; [|exact C3]. apply G. split; [exact C2|exact Nl].
  - intros j. rewrite F2. cbn [t1 with_cached cached]. destruct (Nat.eq_dec j k) as [->|E]; [rewrite upd_eq; apply NoDup_skipn|rewrite upd_ne by exact E]; apply (i_nodup _ _ H).
  - intros b c ob oc B C. apply G in B. apply G in C. apply (i_uniq _ _ H); [apply Ga|apply Ga]; tauto.
  - intros b ob B. apply G in B. destruct B as [B Nb]. apply Ga in B. rewrite F1. cbn [t1 with_cached live].
    destruct (i_place _ _ H b ob B) as [P|[P|P]]; [auto|auto|]. right. right. apply Gn. split; [exact P|]. intros E. rewrite E in P.
    rewrite <- (firstn_skipn eject_number (cached t k)) in P. apply in_app_or in P. destruct P as [P|P]; [now elim Nb|exact P].
  - intros b ob B. rewrite F5. destruct (Gr b ob B) as (x & X1 & <-). exact (i_ref _ _ H b x X1).
  - intros b. rewrite F5. cbn [t1 with_cached held]. intros Hb. destruct (i_held _ _ H b Hb) as (ob & B). exists ob. apply G. split; [exact B|].
    intros Hi. destruct (Hl b Hi) as (_ & _ & N & _). contradiction.
  - intros j id b. rewrite F3, F1, F5. apply (i_busy _ _ H).
  - intros b ob B. apply G in B. destruct B as [B _]. rewrite F4. exact (i_files1 _ _ H b ob B).
  - intros id Hi. rewrite F4. cbn [t1 with_cached disk].
    assert (D : (exists a o, In a l /\ alive t a o /\ o_id o = id) \/ (forall a o, alive t a o -> o_id o <> id)).
    { assert (D' : (exists a, In a l /\ id_at t a = id) \/ (forall a, In a l -> id_at t a <> id)).
      { clear. induction l as [|x l IH]; [right; easy|]. destruct (list_eq_dec byte_eq_dec (id_at t x) id) as [E|E]; [left; exists x; split; [now left|exact E]|].
        destruct IH as [(a & A1 & A2)|IH]; [left; exists a; split; [now right|exact A2]|right]. intros a [<-|Ha]; auto. }
      destruct D' as [(a & A1 & A2)|D'].
      - left. destruct (Hl a A1) as (o & Ho & _). exists a, o. split; [exact A1|]. split; [exact Ho|]. unfold id_at in A2. destruct Ho as [E _]. rewrite E in A2. exact A2.
      - right. intros a o Ho E. destruct (in_dec Nat.eq_dec a l) as [Hin|Hn].
        + apply (D' a Hin). unfold id_at. destruct Ho as [E2 _]. rewrite E2. exact E.
        + apply (Hi a o); [apply G; split; [exact Ho|exact Hn]|exact E]. }
    destruct D as [(a & o & A1 & A2 & <-)|D]; [|now apply (i_files2 _ _ H)].
    destruct (Hl a A1) as (o2 & O1 & _ & O2 & _). assert (o2 = o) by (destruct O1, A2; congruence). subst o2. rewrite O2. apply (i_files1 _ _ H a o A2).
  - rewrite F5. cbn [t1 with_cached held]. rewrite (i_handles _ _ H). apply map_ext_in. intros b Hb. f_equal. unfold id_at.
    destruct (i_held _ _ H b Hb) as (ob & B). assert (B' : alive t' b ob).
    { apply G. split; [exact B|]. intros Hi. destruct (Hl b Hi) as (_ & _ & N & _). contradiction. }
    destruct B' as [-> _]. destruct B as [-> _]. reflexivity.
Qed.
