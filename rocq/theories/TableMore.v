(** Leaks, classes and prompt closers. *)
From Coq Require Import ZArith Lia.
From Verif Require Import Base BaseLemmas CodecModel FullFsModel TableModel TableSpec TableProofs TableTop.
Local Open Scope nat_scope.
Local Open Scope list_scope.
Notation count a l := (count_occ Nat.eq_dec l a).

(** ** Nothing is left in the live map *)
Definition LK (t : table) : Prop := forall k id a, In (id, a) (live t k) -> In a (held t) \/ In a (going t) \/ In id (closing t) \/ busy t k = Some (id, a).

Lemma evict_frame k t : live (evict k t) = live t /\ disk (evict k t) = disk t /\ held (evict k t) = held t /\ going (evict k t) = going t /\ closing (evict k t) = closing t.
Proof.
  unfold evict. destruct (_ <? _); [|auto]. destruct (existsb _ _); [auto|].
  destruct (kill_all_frame (firstn eject_number (cached t k)) (with_cached k (skipn eject_number (cached t k)) t)) as (-> & _ & _ & -> & -> & -> & ->). auto.
Qed.
Lemma evict_LK k t : LK t -> LK (evict k t).
Proof. intros H j id a. destruct (evict_frame k t) as (-> & _ & -> & -> & ->). rewrite evict_busy. apply H. Qed.
Lemma hold_frame a t : live (hold_obj a t) = live t /\ cached (hold_obj a t) = cached t /\ busy (hold_obj a t) = busy t /\ disk (hold_obj a t) = disk t /\
  going (hold_obj a t) = going t /\ closing (hold_obj a t) = closing t /\ (forall x, In x (held t) -> In x (held (hold_obj a t))) /\ (forall o, oget t a = Some o -> In a (held (hold_obj a t))).
Proof. unfold hold_obj. destruct (oget t a) as [o|]; cbn; repeat split; auto; discriminate. Qed.
Lemma hold_LK a t : LK t -> LK (hold_obj a t).
Proof. intros H k id b. destruct (hold_frame a t) as (-> & _ & -> & _ & -> & -> & Hh & _). intros Hi. destruct (H k id b Hi) as [G|G]; auto. Qed.
Lemma with_live_LK k id a t : LK t -> In a (held t) -> LK (with_live k ((id, a) :: live t k) t).
Proof.
  intros H Ha j i b. cbn [with_live live held going closing busy]. destruct (Nat.eq_dec j k) as [->|E]; [rewrite upd_eq|rewrite upd_ne by exact E; apply H].
  intros [[= <- <-]|Hi]; [auto|now apply H].
Qed.
Lemma remove_one_other id l x : x <> id -> In x l -> In x (remove_one id l).
Proof.
  intros N. induction l as [|y l IH]; [easy|]. cbn. destruct (bytes_eqb y id) eqn:E.
  - apply bytes_eqb_eq in E. intros [H|H]; [congruence|exact H].
  - intros [H|H]; [now left|right; auto].
Qed.

Lemma step_LK x t s : TI t s -> LK t -> healthy x -> forall t' r, tstep x t = (t', r) -> LK t'.
Proof.
  intros H HL Hx t' r. destruct x as [id ty bad|id ty bad|a|a c|a want|a bad|a|a|id bad|k bad]; cbn [tstep].
  - destruct (bytes_eqb id root_id); [destruct (ty =? TDIR)%N; intros [= <- _]; [now apply hold_LK|exact HL]|].
    destruct (busy t (shard_of id)); [intros [= <- _]; exact HL|].
    destruct (lfind id (live t (shard_of id))) as [a|]; [intros [= <- _]; now apply hold_LK|].
    destruct (cfind t (shard_of id) id) as [a|] eqn:Ec.
    + intros [= <- _]. apply cfind_some in Ec. destruct Ec as (_ & o & Ho & _). destruct (hold_frame a t) as (El & _ & _ & _ & _ & _ & _ & Hh).
      rewrite <- El. apply (with_live_LK (shard_of id) id a (with_cached (shard_of id) (remove_nat a (cached t (shard_of id))) (hold_obj a t))); [exact (hold_LK a t HL)|exact (Hh o Ho)].
    + destruct (disk t id) as [c|]; [|intros [= <- _]; exact HL]. destruct bad; [intros [= <- _]; exact HL|]. destruct (good_class ty); [|intros [= <- _]; exact HL].
      intros [= <- _]. set (t1 := with_heap _ t). set (a := length (heap t)). destruct (hold_frame a t1) as (El & _ & _ & _ & _ & _ & _ & Hh).
      change (live t (shard_of id)) with (live t1 (shard_of id)). rewrite <- El. apply with_live_LK; [apply (hold_LK a t1); exact HL|].
      apply (Hh (mkObj id ty c 0 false)). unfold oget, t1, a. cbn. rewrite nth_error_app2 by lia. rewrite Nat.sub_diag. reflexivity.
  - destruct (bytes_eqb id root_id); [intros [= <- _]; exact HL|]. destruct (busy t (shard_of id)); [intros [= <- _]; exact HL|].
    destruct (disk t id) as [c|]; [intros [= <- _]; exact HL|]. destruct bad; [intros [= <- _]; exact HL|]. destruct (good_class ty); [|intros [= <- _]; exact HL].
    destruct (lfind id (live t (shard_of id))) as [a|]; [intros [= <- _]; exact HL|].
    intros [= <- _]. set (t1 := store _ _ _). set (a := length (heap t)). destruct (hold_frame a t1) as (El & _ & _ & _ & _ & _ & _ & Hh).
    change (live t (shard_of id)) with (live t1 (shard_of id)). rewrite <- El. apply with_live_LK; [apply (hold_LK a t1); exact HL|].
    apply (Hh (mkObj id ty blank 0 false)). unfold oget, t1, a. cbn. rewrite nth_error_app2 by lia. rewrite Nat.sub_diag. reflexivity.
  - intros E. destruct (access_ok _ _ _ _ _ _ H E) as [(_ & -> & _)|(o & Ho & Hh & _ & _ & [= <- <-])]; exact HL.
  - intros E. destruct (access_ok _ _ _ _ _ _ H E) as [(_ & -> & _)|(o & Ho & Hh & _ & _ & [= <- <-])]; exact HL.
  - intros E. destruct (access_ok _ _ _ _ _ _ H E) as [(_ & -> & _)|(o & Ho & Hh & _ & _ & F)]; [exact HL|].
    destruct (_ =? _)%N; [destruct (_ =? _)%N|]; injection F as <- <-; exact HL.
  - intros E. destruct (access_ok _ _ _ _ _ _ H E) as [(_ & -> & _)|(o & Ho & Hh & _ & _ & [= <- <-])]; exact HL.
  - intros E. destruct (access_ok _ _ _ _ _ _ H E) as [(_ & -> & _)|(o & Ho & Hh & _ & _ & F)]; [exact HL|].
    pose proof (i_ref _ _ H a o (proj1 Ho)) as Hr. pose proof (count_remove a (held t) a Hh) as Hc. rewrite Nat.eqb_refl in Hc.
    assert (G : forall g, (In a (remove_nat a (held t)) \/ In a g) -> (forall b, In b (going t) -> In b g) ->
      LK (with_going g (oset a (with_ref (o_ref o - 1) o) (with_held (remove_nat a (held t)) t)))).
    { intros g Hg Hgg k id b Hi. cbn [with_going oset with_heap with_held live held going closing busy] in *. destruct (HL k id b Hi) as [G|[G|G]].
      - destruct (Nat.eq_dec b a) as [->|N]; [destruct Hg; auto|]. left. now apply remove_nat_other.
      - right. left. auto.
      - auto. }
    destruct (o_ref o - 1 <=? 0)%Z eqn:Ez; injection F as <- <-.
    + apply G; [right; now left|intros b; now right].
    + apply Z.leb_gt in Ez. apply (G (going t)); [left|auto]. apply (count_occ_In Nat.eq_dec). lia.
  - destruct (existsb (Nat.eqb a) (going t)); [|intros [= <- _]; exact HL]. destruct (oget t a) as [o|] eqn:Eo; [|intros [= <- _]; exact HL].
    intros [= <- _]. intros k id b Hi. cbn [with_closing with_going live held going closing busy] in *. destruct (HL k id b Hi) as [G|[G|[G|G]]]; auto.
    + destruct (Nat.eq_dec b a) as [->|N]; [|right; left; now apply remove_nat_other]. right. right. left. left.
      destruct (i_live _ _ H _ _ _ Hi) as (_ & _ & _ & o1 & [O1 _] & O2). congruence.
    + right. right. left. now right.
  - destruct (existsb (bytes_eqb id) (closing t)); [|intros [= <- _]; exact HL].
    assert (G : forall k i b, i <> id -> In (i, b) (live t k) -> In b (held t) \/ In b (going t) \/ In i (remove_one id (closing t)) \/ busy t k = Some (i, b)).
    { intros k i b N Hi. destruct (HL k i b Hi) as [G|[G|[G|G]]]; auto. right. right. left. now apply remove_one_other. }
    destruct (bytes_eqb id root_id) eqn:Er.
    + apply bytes_eqb_eq in Er. destruct (oget t 0) as [o|]; [|intros [= <- _]; exact HL]. intros [= <- _] k i b Hi. apply G; [|exact Hi].
      destruct (i_live _ _ H _ _ _ Hi) as (L1 & _). congruence.
    + destruct (busy t (shard_of id)) eqn:Eb; [intros [= <- _]; exact HL|].
      assert (Hone : forall k i b, In (i, b) (live t k) -> i = id -> k = shard_of id /\ forall a, lfind id (live t (shard_of id)) = Some a -> b = a).
      { intros k i b Hi ->. destruct (i_live _ _ H _ _ _ Hi) as (_ & L2 & _ & ob & L4 & L5). split; [congruence|]. intros a Ha. apply lfind_in in Ha.
        destruct (i_live _ _ H _ _ _ Ha) as (_ & _ & _ & oa & M4 & M5). eapply (i_uniq _ _ H); [exact L4|exact M4|congruence]. }
      destruct (lfind id (live t (shard_of id))) as [a|] eqn:El.
      * destruct (in_use t a) eqn:Eu; intros [= <- _] k i b Hi.
        -- destruct (list_eq_dec byte_eq_dec i id) as [E|N]; [|exact (G k i b N Hi)]. destruct (Hone k i b Hi E) as [-> Hb]. rewrite (Hb a eq_refl). left.
           unfold in_use in Eu. destruct (oget t a) as [o|] eqn:Eo; [|discriminate]. rewrite (i_ref _ _ H a o Eo) in Eu. apply Z.ltb_lt in Eu.
           apply (count_occ_In Nat.eq_dec). cbn [with_closing held]. lia.
        -- cbn [with_busy with_closing live held going closing busy] in *. destruct (list_eq_dec byte_eq_dec i id) as [E|N].
           ++ destruct (Hone k i b Hi E) as [-> Hb]. rewrite (Hb a eq_refl), E. right. right. right. apply upd_eq.
           ++ destruct (G k i b N Hi) as [G'|[G'|[G'|G']]]; auto. right. right. right. destruct (Nat.eq_dec k (shard_of id)) as [->|Nk]; [congruence|now rewrite upd_ne].
      * intros [= <- _] k i b Hi. destruct (list_eq_dec byte_eq_dec i id) as [E|N]; [|exact (G k i b N Hi)]. destruct (Hone k i b Hi E) as [-> _]. rewrite E in Hi. exfalso. exact (lfind_none _ _ b El Hi).
  - destruct (busy t k) as [[id a]|] eqn:Eb; [|intros [= <- _]; exact HL].
    destruct (oget t a) as [o|]; [|intros [= <- _]; exact HL]. destruct (o_dead o); [intros [= <- _]; exact HL|].
    assert (G : forall j i b, In (i, b) (upd (live t) k (lerase id (live t k)) j) -> In b (held t) \/ In b (going t) \/ In i (closing t) \/ upd (busy t) k None j = Some (i, b)).
    { intros j i b Hi. destruct (Nat.eq_dec j k) as [->|E].
      - rewrite upd_eq in Hi. apply lerase_in in Hi. destruct Hi as [Hi N]. destruct (HL k i b Hi) as [G|[G|[G|G]]]; auto. congruence.
      - rewrite upd_ne in Hi by exact E. rewrite upd_ne by exact E. now apply HL. }
    destruct (c_nlink (o_cont o) <=? 0)%N; [intros [= <- _]; apply evict_LK; exact G|]. destruct bad as [g|]; [contradiction|].
    intros [= <- _]. apply evict_LK. exact G.
Qed.

(** ** Files without links are removed *)
Definition ND (t : table) : Prop := forall id c, id <> root_id -> (forall a o, alive t a o -> o_id o <> id) -> disk t id = Some c -> c_nlink c <> 0%N.

Lemma ND_mono t t' : ND t -> (forall a o, alive t a o -> exists o', alive t' a o' /\ o_id o' = o_id o) ->
  (forall id, (forall a o, alive t' a o -> o_id o <> id) -> disk t' id = disk t id) -> ND t'.
Proof.
  intros H Ha Hd id c Hr Hn Hc. apply (H id c Hr).
  - intros a o A. destruct (Ha a o A) as (o' & A' & <-). exact (Hn a o' A').
  - rewrite <- Hd by exact Hn. exact Hc.
Qed.
Lemma hold_alive a t b o : alive t b o -> exists o', alive (hold_obj a t) b o' /\ o_id o' = o_id o /\ o_class o' = o_class o.
Proof.
  intros [B1 B2]. unfold hold_obj. destruct (oget t a) as [oa|] eqn:Ea; [|exists o; repeat split; auto].
  destruct (Nat.eq_dec b a) as [->|N].
  - exists (with_ref (o_ref oa + 1) oa). assert (oa = o) by congruence. subst. repeat split; auto. unfold oget. cbn. eapply nth_set_eq. exact Ea.
  - exists o. repeat split; auto. unfold oget. cbn. rewrite nth_set_ne by exact N. exact B1.
Qed.
Lemma hold_alive_back a t b o' : alive (hold_obj a t) b o' -> exists o, alive t b o /\ o_id o = o_id o' /\ o_class o = o_class o'.
Proof.
  unfold hold_obj. destruct (oget t a) as [oa|] eqn:Ea; [|intros B; exists o'; auto]. intros [B1 B2].
  destruct (nth_set _ _ _ _ _ _ Ea B1) as [[-> ->]|[N B3]]; [exists oa|exists o']; repeat split; auto.
Qed.
Lemma grow_alive t n b o : alive t b o -> alive (with_heap (heap t ++ [n]) t) b o.
Proof.
  intros [B1 B2]. split; [|exact B2]. unfold oget in *. cbn. rewrite nth_error_app1; [exact B1|]. apply nth_error_Some. congruence.
Qed.
Lemma grow_alive_back t n b o : alive (with_heap (heap t ++ [n]) t) b o -> alive t b o \/ o = n.
Proof.
  intros [B1 B2]. unfold oget in B1. cbn in B1. destruct (Nat.lt_ge_cases b (length (heap t))) as [L|L].
  - left. split; [|exact B2]. rewrite nth_error_app1 in B1 by exact L. exact B1.
  - right. rewrite nth_error_app2 in B1 by exact L. destruct (b - length (heap t)) as [|[|x]]; cbn in B1; congruence.
Qed.
Lemma oset_alive a oa n t b o : oget t a = Some oa -> o_id n = o_id oa -> o_class n = o_class oa -> o_dead n = o_dead oa -> alive t b o ->
  exists o', alive (oset a n t) b o' /\ o_id o' = o_id o /\ o_class o' = o_class o.
Proof.
  intros Ea E1 E2 E3 [B1 B2]. destruct (Nat.eq_dec b a) as [->|N].
  - exists n. assert (oa = o) by congruence. subst. split; [split; [eapply nth_set_eq; exact Ea|congruence]|auto].
  - exists o. split; [split; [unfold oget; cbn; rewrite nth_set_ne by exact N; exact B1|exact B2]|auto].
Qed.
Lemma oset_alive_back a oa n t b o' : oget t a = Some oa -> o_id n = o_id oa -> o_class n = o_class oa -> (o_dead n = false -> o_dead oa = false) -> alive (oset a n t) b o' ->
  exists o, alive t b o /\ o_id o = o_id o' /\ o_class o = o_class o'.
Proof.
  intros Ea E1 E2 E3 [B1 B2]. destruct (nth_set _ _ _ _ _ _ Ea B1) as [[-> ->]|[N B3]]; [exists oa|exists o']; repeat split; auto.
Qed.

Lemma step_ND x t s : TI t s -> ND t -> forall t' r, tstep x t = (t', r) -> ND t'.
Proof.
  intros H HN t' r.
  assert (Hst : forall t1 a o v, ND t1 -> alive t1 a o -> ND (store (o_id o) v t1)).
  { intros t1 a o v H1 A. apply (ND_mono t1); [exact H1|intros b ob B; eauto|]. intros id Hi. cbn [store with_disk disk]. apply dset_ne. intros ->. exact (Hi a o A eq_refl). }
  assert (Hh : forall t1 a, ND t1 -> ND (hold_obj a t1)).
  { intros t1 a H1. destruct (hold_frame a t1) as (_ & _ & _ & Ed & _). apply (ND_mono t1); [exact H1| |intros; now rewrite Ed].
    intros b o B. destruct (hold_alive a t1 b o B) as (o' & B1 & B2 & _). eauto. }
  destruct x as [id ty bad|id ty bad|a|a c|a want|a bad|a|a|id bad|k bad]; cbn [tstep].
  - destruct (bytes_eqb id root_id); [destruct (ty =? TDIR)%N; intros [= <- _]; [now apply Hh|exact HN]|].
    destruct (busy t (shard_of id)); [intros [= <- _]; exact HN|].
    destruct (lfind id (live t (shard_of id))) as [a|]; [intros [= <- _]; now apply Hh|].
    destruct (cfind t (shard_of id) id) as [a|] eqn:Ec; [intros [= <- _]; exact (Hh t a HN)|].
    destruct (disk t id) as [c|]; [|intros [= <- _]; exact HN]. destruct bad; [intros [= <- _]; exact HN|]. destruct (good_class ty); [|intros [= <- _]; exact HN].
    intros [= <- _]. apply (Hh (with_heap (heap t ++ [mkObj id ty c 0 false]) t) (length (heap t))). apply (ND_mono t); [exact HN| |reflexivity].
    intros b o B. exists o. split; [now apply grow_alive|reflexivity].
  - destruct (bytes_eqb id root_id); [intros [= <- _]; exact HN|]. destruct (busy t (shard_of id)); [intros [= <- _]; exact HN|].
    destruct (disk t id) as [c|]; [intros [= <- _]; exact HN|]. destruct bad; [intros [= <- _]; exact HN|]. destruct (good_class ty); [|intros [= <- _]; exact HN].
    destruct (lfind id (live t (shard_of id))) as [a|]; [intros [= <- _]; exact HN|].
    intros [= <- _]. set (n := mkObj id ty blank 0 false). apply (Hh (store id (Some blank) (with_heap (heap t ++ [n]) t)) (length (heap t))).
    apply (Hst _ (length (heap t)) n).
    + apply (ND_mono t); [exact HN| |reflexivity]. intros b o B. exists o. split; [now apply grow_alive|reflexivity].
    + split; [|reflexivity]. unfold oget. cbn. rewrite nth_error_app2 by lia. rewrite Nat.sub_diag. reflexivity.
  - intros E. destruct (access_ok _ _ _ _ _ _ H E) as [(_ & -> & _)|(o & Ho & _ & _ & _ & [= <- <-])]; exact HN.
  - intros E. destruct (access_ok _ _ _ _ _ _ H E) as [(_ & -> & _)|(o & Ho & _ & _ & _ & [= <- <-])]; [exact HN|].
    apply (ND_mono t); [exact HN| |reflexivity]. intros b ob B. destruct (oset_alive a o (with_cont c o) t b ob (proj1 Ho) eq_refl eq_refl eq_refl B) as (o' & B1 & B2 & _). eauto.
  - intros E. destruct (access_ok _ _ _ _ _ _ H E) as [(_ & -> & _)|(o & Ho & _ & _ & _ & F)]; [exact HN|].
    destruct (_ =? _)%N; [destruct (_ =? _)%N|]; injection F as <- <-; exact HN.
  - intros E. destruct (access_ok _ _ _ _ _ _ H E) as [(_ & -> & _)|(o & Ho & _ & _ & _ & [= <- <-])]; [exact HN|]. now apply (Hst t a o).
  - intros E. destruct (access_ok _ _ _ _ _ _ H E) as [(_ & -> & _)|(o & Ho & _ & _ & _ & [= <- <-])]; [exact HN|].
    assert (G : ND (oset a (with_ref (o_ref o - 1) o) (with_held (remove_nat a (held t)) t))).
    { apply (ND_mono t); [exact HN| |reflexivity]. intros b ob B.
      destruct (oset_alive a o (with_ref (o_ref o - 1) o) (with_held (remove_nat a (held t)) t) b ob (proj1 Ho) eq_refl eq_refl eq_refl B) as (o' & B1 & B2 & _). eauto. }
    destruct (o_ref o - 1 <=? 0)%Z; exact G.
  - destruct (existsb (Nat.eqb a) (going t)); [|intros [= <- _]; exact HN]. destruct (oget t a) as [o|]; intros [= <- _]; exact HN.
  - destruct (existsb (bytes_eqb id) (closing t)); [|intros [= <- _]; exact HN].
    destruct (bytes_eqb id root_id) eqn:Er.
    + apply bytes_eqb_eq in Er. subst id. destruct (i_root _ _ H) as (r0 & Hr & Hi). destruct (Hr) as [Hr1 _]. rewrite Hr1. intros [= <- _].
      rewrite <- Hi at 1. apply (Hst (with_closing (remove_one root_id (closing t)) t) 0 r0 _ HN Hr).
    + destruct (busy t (shard_of id)); [intros [= <- _]; exact HN|]. destruct (lfind _ _) as [a|]; [destruct (in_use t a)|]; intros [= <- _]; exact HN.
  - destruct (busy t k) as [[id a]|] eqn:Eb; [|intros [= <- _]; exact HN].
    destruct (i_busy _ _ H _ _ _ Eb) as [B1 B2]. destruct (i_live _ _ H _ _ _ B1) as (L1 & L2 & L3 & o & Ho & L5). destruct (Ho) as [Ho1 Ho2]. rewrite Ho1, Ho2.
    assert (Hev : forall t1 s1, TI t1 s1 -> ND t1 -> ND (evict k t1)).
    { intros t1 s1 H1 N1. unfold evict. destruct (max_cached <? _); [|exact N1]. destruct (existsb _ _); [exact N1|].
      set (l := firstn eject_number (cached t1 k)). set (t2 := with_cached k _ t1).
      destruct (kill_all_alive l t2) as (G & _).
      { intros b Hi. apply in_firstn in Hi. destruct (i_cached _ _ H1 k b Hi) as (_ & ob & [C _] & _). exists ob. exact C. }
      destruct (kill_all_frame l t2) as (_ & _ & _ & F4 & _). intros i c Hr Hn Hc. rewrite F4 in Hc.
      assert (D : (exists b ob, In b l /\ alive t1 b ob /\ o_id ob = i) \/ (forall b ob, In b l -> alive t1 b ob -> o_id ob <> i)).
      { assert (Hl : forall b, In b l -> exists ob, alive t1 b ob).
        { intros b Hi. apply in_firstn in Hi. destruct (i_cached _ _ H1 k b Hi) as (_ & ob & C & _). eauto. }
        clear - Hl. induction l as [|x l IH]; [right; easy|].
        destruct (Hl x (or_introl eq_refl)) as (ox & Hx). destruct (list_eq_dec byte_eq_dec (o_id ox) i) as [E|E]; [left; exists x, ox; split; [now left|auto]|].
        destruct IH as [(b & ob & B1 & B2)|IH]; [intros b Hb; apply Hl; now right|left; exists b, ob; split; [now right|exact B2]|right].
        intros b ob [<-|Hb] B; [now rewrite (alive_fun _ _ _ _ B Hx)|eauto]. }
      destruct D as [(b & ob & D1 & D2 & D3)|D].
      - apply in_firstn in D1. destruct (i_cached _ _ H1 k b D1) as (_ & o2 & C2 & _ & _ & C5 & C6). rewrite (alive_fun _ _ _ _ C2 D2) in *. rewrite D3 in C5.
        change (disk t2 i) with (disk t1 i) in Hc. rewrite C5 in Hc. now injection Hc as <-.
      - apply (N1 i c Hr); [|exact Hc]. intros b ob B E. destruct (in_dec Nat.eq_dec b l) as [Hin|Hni]; [exact (D b ob Hin B E)|]. apply (Hn b ob); [apply G; split; [exact B|exact Hni]|exact E]. }
    assert (H1 : TI (with_busy k None t) s) by (apply busy_TI; [exact H|discriminate]). set (t1 := with_busy k None t) in *.
    assert (Eb1 : busy t1 k = None) by (unfold t1; cbn [with_busy busy]; apply upd_eq).
    destruct (c_nlink (o_cont o) <=? 0)%N eqn:En.
    + intros [= <- _]. apply (Hev _ (set_cell id None s)); [exact (remove_TI t1 s k id a o H1 B1 Ho B2 Eb1)|].
      intros i c Hr Hn Hc. cbn [store with_disk disk] in Hc. unfold dset in Hc. destruct (bytes_eqb i id) eqn:E; [discriminate|]. apply bytes_eqb_neq in E.
      apply (HN i c Hr); [|exact Hc]. intros b ob B Ei. apply (Hn b ob); [|exact Ei]. apply (kill_alive t a o Ho). split; [exact B|].
      intros ->. rewrite (alive_fun _ _ _ _ B Ho) in Ei. congruence.
    + apply N.leb_gt in En. destruct bad as [g|]; intros [= <- _].
      * rewrite <- L5. exact (Hst t1 a o (Some g) HN Ho).
      * assert (H2 : TI (store id (Some (o_cont o)) t1) s).
        { rewrite <- L5 at 1. eapply flush_TI; [exact H1|exact Ho|]. eapply live_not_cached; [exact H1|exact B1|exact Ho]. }
        apply (Hev _ s); [exact (rest_TI _ s k id a o H2 B1 Ho B2 Eb1 (dset_eq _ _ _) ltac:(lia))|].
        pose proof (Hst t1 a o (Some (o_cont o)) HN Ho) as N1. rewrite L5 in N1. exact N1.
Qed.

Lemma run_more xs : forall t s, TI t s -> small t -> LK t -> ND t -> Forall healthy xs ->
  let t' := fst (trun xs t) in exists s', lawful_run s (snd (trun xs t)) s' /\ TI t' s' /\ LK t' /\ ND t'.
Proof.
  induction xs as [|x xs IH]; intros t s H Hs HL HN Hx; cbn [trun].
  - exists s. cbn. auto.
  - inversion Hx as [|? ? Hx1 Hx2]; subst. destruct (tstep x t) as [t1 r] eqn:E. destruct (step_TI x t s H Hs t1 r E) as (s1 & L & H1 & Hs1).
    destruct (IH t1 s1 H1 Hs1 (step_LK x t s H HL Hx1 t1 r E) (step_ND x t s H HN t1 r E) Hx2) as (s' & L' & H2). destruct (trun xs t1) as [t2 h2]. cbn [fst snd] in *.
    exists s'. split; [cbn; eauto|exact H2].
Qed.

(** ** Classes *)
Lemma step_class x t s : TI t s -> forall t' r, tstep x t = (t', r) -> forall b o', alive t' b o' ->
  (exists o, alive t b o /\ o_id o = o_id o' /\ o_class o = o_class o') \/
  (exists id ty bad, (x = AOpen id ty bad \/ x = ACreate id ty bad) /\ o_id o' = id /\ o_class o' = ty).
Proof.
  intros H t' r E b o' A.
  assert (Hev : forall k t1, (forall c, In c (cached t1 k) -> exists o, oget t1 c = Some o) -> alive (evict k t1) b o' -> alive t1 b o').
  { intros k t1 Hc. unfold evict. destruct (_ <? _); [|auto]. destruct (existsb _ _); [auto|]. intros B.
    destruct (kill_all_alive (firstn eject_number (cached t1 k)) (with_cached k (skipn eject_number (cached t1 k)) t1)) as (G & _).
    - intros c Hi. apply Hc. eapply in_firstn. exact Hi.
    - apply G in B. exact (proj1 B). }
  destruct x as [id ty bad|id ty bad|a|a c|a want|a bad|a|a|id bad|k bad]; cbn [tstep] in E.
  - destruct (bytes_eqb id root_id); [destruct (ty =? TDIR)%N; injection E as <- _; left; [now apply hold_alive_back in A|eauto]|].
    destruct (busy t (shard_of id)); [injection E as <- _; left; eauto|].
    destruct (lfind id (live t (shard_of id))) as [a|]; [injection E as <- _; left; now apply hold_alive_back in A|].
    destruct (cfind t (shard_of id) id) as [a|]; [injection E as <- _; left; exact (hold_alive_back a t b o' A)|].
    destruct (disk t id) as [c|]; [|injection E as <- _; left; eauto]. destruct bad; [injection E as <- _; left; eauto|]. destruct (good_class ty); [|injection E as <- _; left; eauto].
    injection E as <- _. destruct (hold_alive_back _ (with_heap (heap t ++ [mkObj id ty c 0 false]) t) b o' A) as (o & B & E1 & E2).
    apply grow_alive_back in B. destruct B as [B| ->]; [left; eauto|right; exists id, ty, None; cbn in *; auto].
  - destruct (bytes_eqb id root_id); [injection E as <- _; left; eauto|]. destruct (busy t (shard_of id)); [injection E as <- _; left; eauto|].
    destruct (disk t id) as [c|]; [injection E as <- _; left; eauto|]. destruct bad; [injection E as <- _; left; eauto|]. destruct (good_class ty); [|injection E as <- _; left; eauto].
    destruct (lfind id (live t (shard_of id))) as [a|]; [injection E as <- _; left; eauto|].
    injection E as <- _. destruct (hold_alive_back _ (store id (Some blank) (with_heap (heap t ++ [mkObj id ty blank 0 false]) t)) b o' A) as (o & B & E1 & E2).
    apply (grow_alive_back t) in B. destruct B as [B| ->]; [left; eauto|right; exists id, ty, None; cbn in *; auto].
  - left. destruct (access_ok _ _ _ _ _ _ H E) as [(_ & -> & _)|(o & Ho & _ & _ & _ & [= <- <-])]; eauto.
  - left. destruct (access_ok _ _ _ _ _ _ H E) as [(_ & -> & _)|(o & Ho & _ & _ & _ & [= <- <-])]; [eauto|]. eapply (oset_alive_back a o (with_cont c o)); eauto; exact (proj1 Ho).
  - left. destruct (access_ok _ _ _ _ _ _ H E) as [(_ & -> & _)|(o & Ho & _ & _ & _ & F)]; [eauto|].
    destruct (_ =? _)%N; [destruct (_ =? _)%N|]; injection F as <- <-; eauto.
  - left. destruct (access_ok _ _ _ _ _ _ H E) as [(_ & -> & _)|(o & Ho & _ & _ & _ & [= <- <-])]; eauto.
  - left. destruct (access_ok _ _ _ _ _ _ H E) as [(_ & -> & _)|(o & Ho & _ & _ & _ & [= <- <-])]; [eauto|].
    apply (oset_alive_back a o (with_ref (o_ref o - 1) o) (with_held (remove_nat a (held t)) t)); auto. { exact (proj1 Ho). } destruct (o_ref o - 1 <=? 0)%Z; exact A.
  - left. destruct (existsb (Nat.eqb a) (going t)); [|injection E as <- _; eauto]. destruct (oget t a) as [o|]; injection E as <- _; eauto.
  - left. destruct (existsb (bytes_eqb id) (closing t)); [|injection E as <- _; eauto]. destruct (bytes_eqb id root_id); [destruct (oget t 0); injection E as <- _; eauto|].
    destruct (busy t (shard_of id)); [injection E as <- _; eauto|]. destruct (lfind _ _) as [a|]; [destruct (in_use t a)|]; injection E as <- _; eauto.
  - left. destruct (busy t k) as [[id a]|] eqn:Eb; [|injection E as <- _; eauto].
    destruct (i_busy _ _ H _ _ _ Eb) as [B1 _]. destruct (i_live _ _ H _ _ _ B1) as (_ & _ & _ & o & Ho & L5). destruct (Ho) as [Ho1 Ho2]. rewrite Ho1, Ho2 in E.
    assert (Hc : forall c, In c (cached t k) -> exists o, oget t c = Some o).
    { intros c Hi. destruct (i_cached _ _ H _ _ Hi) as (_ & oc & [C _] & _). eauto. }
    destruct (c_nlink (o_cont o) <=? 0)%N.
    + injection E as <- _. apply Hev in A.
      * apply (oset_alive_back a o (kill o) t b o' Ho1 eq_refl eq_refl); [discriminate|exact A].
      * intros c Hi. destruct (Hc c Hi) as (oc & C). destruct (Nat.eq_dec c a) as [->|N]; [exists (kill o); eapply nth_set_eq; exact Ho1|exists oc; unfold oget; cbn; rewrite nth_set_ne by exact N; exact C].
    + destruct bad; injection E as <- _; [eauto|]. apply Hev in A; [eauto|]. intros c. cbn [with_cached cached]. rewrite upd_eq. intros Hi. apply in_app_or in Hi.
      destruct Hi as [Hi|[<-|[]]]; [exact (Hc c Hi)|exists o; exact Ho1].
Qed.
Lemma run_class kind xs : kind root_id = TDIR -> forall t s, TI t s -> small t -> (forall a o, alive t a o -> o_class o = kind (o_id o)) -> Forall (typed kind) xs ->
  let t' := fst (trun xs t) in forall a o, alive t' a o -> o_class o = kind (o_id o).
Proof.
  intros Hk. induction xs as [|x xs IH]; intros t s H Hs Hc Hx; cbn [trun]; [exact Hc|].
  inversion Hx as [|? ? Hx1 Hx2]; subst. destruct (tstep x t) as [t1 r] eqn:E. destruct (step_TI x t s H Hs t1 r E) as (s1 & _ & H1 & Hs1).
  specialize (IH t1 s1 H1 Hs1). destruct (trun xs t1) as [t2 h2]. cbn [fst] in *. apply IH; [|exact Hx2].
  intros a o A. destruct (step_class x t s H t1 r E a o A) as [(o0 & A0 & <- & <-)|(id & ty & bad & [-> | ->] & E1 & E2)]; [now apply (Hc a)| |]; cbn [typed] in Hx1; congruence.
Qed.

(** ** Prompt closers *)
Lemma going_only x t : (forall a, x <> ADrop a) -> (forall a, x <> AReadId a) -> going (fst (tstep x t)) = going t.
Proof.
  assert (Ha : forall a f, (forall o, going (fst (f o)) = going t) -> going (fst (access a t f)) = going t).
  { intros a f Hf. unfold access. destruct (is_held a t); [|reflexivity]. destruct (oget t a) as [o|]; [|reflexivity]. destruct (o_dead o); [reflexivity|apply Hf]. }
  intros N1 N2. destruct x as [id ty bad|id ty bad|a|a c|a want|a bad|a|a|id bad|k bad]; cbn [tstep].
  - destruct (bytes_eqb id root_id); [destruct (ty =? TDIR)%N; cbn [fst]; [apply hold_frame|reflexivity]|].
    destruct (busy t (shard_of id)); [reflexivity|]. destruct (lfind _ _) as [a|]; [cbn [fst]; apply hold_frame|].
    destruct (cfind _ _ _) as [a|]; [cbn; apply hold_frame|]. destruct (disk t id); [|reflexivity]. destruct bad; [reflexivity|]. destruct (good_class ty); [|reflexivity].
    cbn [fst]. rewrite with_live_hold. destruct (hold_frame (length (heap t)) (with_live (shard_of id) ((id, length (heap t)) :: live t (shard_of id)) (with_heap (heap t ++ [mkObj id ty c 0 false]) t))) as (_ & _ & _ & _ & -> & _). reflexivity.
  - destruct (bytes_eqb id root_id); [reflexivity|]. destruct (busy t (shard_of id)); [reflexivity|]. destruct (disk t id); [reflexivity|]. destruct bad; [reflexivity|].
    destruct (good_class ty); [|reflexivity]. destruct (lfind _ _) as [a|]; [reflexivity|]. cbn [fst]. rewrite with_live_hold. set (t1 := with_live _ _ _). destruct (hold_frame (length (heap t)) t1) as (_ & _ & _ & _ & -> & _). reflexivity.
  - apply Ha. reflexivity.
  - apply Ha. reflexivity.
  - apply Ha. intros o. destruct (_ =? _)%N; [destruct (_ =? _)%N|]; reflexivity.
  - apply Ha. reflexivity.
  - now elim (N1 a).
  - now elim (N2 a).
  - destruct (existsb _ _); [|reflexivity]. destruct (bytes_eqb id root_id); [destruct (oget t 0); reflexivity|]. destruct (busy t (shard_of id)); [reflexivity|].
    destruct (lfind _ _) as [a|]; [destruct (in_use t a)|]; reflexivity.
  - destruct (busy t k) as [[id a]|]; [|reflexivity]. destruct (oget t a) as [o|]; [|reflexivity]. destruct (o_dead o); [reflexivity|].
    destruct (_ <=? _)%N; [|destruct bad; [reflexivity|]]; cbn [fst]; match goal with |- going (evict ?k ?t) = _ => destruct (evict_frame k t) as (_ & _ & _ & -> & _) end; reflexivity.
Qed.
Lemma dead_only x t t' s : TI t s -> small t -> tstep x t = (t', TDead) -> exists a, x = AReadId a.
Proof.
  intros H Hs E. destruct (step_TI x t s H Hs t' _ E) as (s' & L & _). inversion L; subst. eauto.
Qed.
Lemma prompt_run xs : prompt xs -> forall t s, TI t s -> small t -> going t = [] -> forall x r, In (x, r) (snd (trun xs t)) -> r <> TDead.
Proof.
  induction 1 as [|a l Hp IH|x l N1 N2 Hp IH]; intros t s H Hs Hg y r; cbn [trun].
  - easy.
  - destruct (tstep (ADrop a) t) as [t1 r1] eqn:E1. destruct (step_TI _ t s H Hs t1 r1 E1) as (s1 & L1 & H1 & Hs1).
    destruct (tstep (AReadId a) t1) as [t2 r2] eqn:E2. destruct (step_TI _ t1 s1 H1 Hs1 t2 r2 E2) as (s2 & L2 & H2 & Hs2).
    assert (G : going t2 = [] /\ r2 <> TDead).
    { cbn [tstep] in E1. destruct (access_ok _ _ _ _ _ _ H E1) as [(_ & -> & _)|(o & Ho & Hh & _ & _ & F)].
      - cbn [tstep] in E2. rewrite Hg in E2. cbn in E2. injection E2 as <- <-. split; [exact Hg|discriminate].
      - set (t0 := oset a (with_ref (o_ref o - 1) o) (with_held (remove_nat a (held t)) t)) in *.
        assert (Ho1 : oget t0 a = Some (with_ref (o_ref o - 1) o)) by (unfold oget; cbn; eapply nth_set_eq; exact (proj1 Ho)).
        destruct (o_ref o - 1 <=? 0)%Z; injection F as <- <-; cbn [tstep] in E2.
        + cbn [with_going going] in E2. rewrite Hg in E2. cbn [existsb] in E2. rewrite Nat.eqb_refl in E2. cbn [orb] in E2.
          change (oget (with_going [a] t0) a) with (oget t0 a) in E2. rewrite Ho1 in E2. cbn [with_ref o_dead] in E2. rewrite (proj2 Ho) in E2.
          injection E2 as <- <-. cbn. rewrite Nat.eqb_refl. split; [reflexivity|discriminate].
        + change (going t0) with (going t) in E2. rewrite Hg in E2. cbn in E2. injection E2 as <- <-. split; [exact Hg|discriminate]. }
    specialize (IH t2 s2 H2 Hs2 (proj1 G) y r). destruct (trun l t2) as [t3 h3]. cbn [snd] in *. intros [E|[E|Hi]]; [| |now apply IH].
    + injection E as <- <-. intros ->. destruct (dead_only _ _ _ _ H Hs E1). discriminate.
    + injection E as <- <-. apply G.
  - destruct (tstep x t) as [t1 r1] eqn:E1. destruct (step_TI _ t s H Hs t1 r1 E1) as (s1 & L1 & H1 & Hs1).
    pose proof (going_only x t N1 N2) as G. rewrite E1 in G. cbn [fst] in G. rewrite Hg in G. specialize (IH t1 s1 H1 Hs1 G y r).
    destruct (trun l t1) as [t3 h3]. cbn [snd] in *. intros [E|Hi]; [|now apply IH]. injection E as <- <-. intros ->.
    destruct (dead_only _ _ _ _ H Hs E1) as (a & ->). now elim (N2 a).
Qed.

(** ** Statements used in PropertiesTable.v *)
Lemma start_LK d : LK (start d).
Proof. intros k id a []. Qed.
Lemma start_ND d : (forall id c, id <> root_id -> d id = Some c -> c_nlink c <> 0%N) -> ND (start d).
Proof.
  intros H id c Hr _. unfold start. cbn [disk]. destruct (d root_id) as [c0|]; [apply H; exact Hr|]. rewrite dset_ne by exact Hr. apply H. exact Hr.
Qed.
Lemma quiet_links t s id c : TI t s -> LK t -> ND t -> quiet t -> id <> root_id -> files s id = Some c -> unused s id -> c_nlink c <> 0%N.
Proof.
  intros H HL HN (Q1 & Q2 & Q3) Hr Hf Hu.
  assert (D : (exists a o, alive t a o /\ o_id o = id) \/ (forall a o, alive t a o -> o_id o <> id)).
  { destruct (lfind id (live t (shard_of id))) as [a|] eqn:El.
    - left. apply lfind_in in El. destruct (i_live _ _ H _ _ _ El) as (_ & _ & _ & o & A & B). eauto.
    - destruct (cfind t (shard_of id) id) as [a|] eqn:Ec; [|right; now apply (no_object t s)].
      left. apply cfind_some in Ec. destruct Ec as (C1 & o & C2 & C3). destruct (i_cached _ _ H _ _ C1) as (_ & o' & A & _). exists a, o'. split; [exact A|]. destruct A. congruence. }
  destruct D as [(a & o & A & E)|D].
  - destruct (i_files1 _ _ H a o A) as [F _]. rewrite E, Hf in F. injection F as ->. destruct (i_place _ _ H a o A) as [P|[P|P]].
    + congruence.
    + exfalso. destruct (HL _ _ _ P) as [G|[G|[G|G]]].
      * apply (Hu a). apply (handle_iff t s a id H). split; [exact G|eauto].
      * rewrite Q1 in G. exact G.
      * rewrite Q2 in G. exact G.
      * rewrite Q3 in G. discriminate.
    + destruct (i_cached _ _ H _ _ P) as (_ & o' & A' & _ & _ & _ & C). now rewrite (alive_fun _ _ _ _ A A').
  - rewrite (i_files2 _ _ H id D) in Hf. exact (HN id c Hr D Hf).
Qed.
Lemma cast_handle t s a id c : TI t s -> In (a, id) (handles s) -> files s id = Some c -> exists o, alive t a o /\ o_id o = id /\ o_cont o = c /\
  forall want, snd (tstep (ACast a want) t) = if (o_class o =? kind_of c)%N && (o_class o =? want)%N then TDone else TErr E_PERM.
Proof.
  intros H Hh Hf. apply (handle_iff t s a id H) in Hh. destruct Hh as (H1 & o & A & E). destruct (i_files1 _ _ H a o A) as [F _]. rewrite E, Hf in F. injection F as ->.
  exists o. split; [exact A|split; [exact E|split; [reflexivity|]]]. intros want. cbn [tstep]. unfold access, is_held.
  replace (existsb (Nat.eqb a) (held t)) with true by (symmetry; apply existsb_exists; exists a; split; [exact H1|apply Nat.eqb_refl]).
  rewrite (proj1 A), (proj2 A). destruct (o_class o =? kind_of (o_cont o))%N, (o_class o =? want)%N; reflexivity.
Qed.
