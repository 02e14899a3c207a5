(** A file object holds what it should, through every use, and its files alone hold it
    once it is flushed. *)
From Verif Require Import Base BaseLemmas StreamSpec BlockModel LiteModel FullStreamModel FullStreamProofs AdaptorModel AdaptorProofs AttrModel AttrProofs
  BtreeModel GBtreeModel BtreeSpec BtreeInv BtreeTree BtreeSearch BtreeInsert BtreeDelete BtreeDir BtreeFlush BtreeTop GBtreeProofs FullFsModel ObjModel.
From Coq Require Import Permutation.
Local Open Scope list_scope.

#[local] Transparent full_max_blocks.
Lemma full_max_blocks_of_N : N.of_nat full_max_blocks = full_max_blocks_N.
Proof. unfold full_max_blocks. apply N2Nat.id. Qed.
#[local] Opaque full_max_blocks.

Record senv_ok (E : senv) : Prop := {
  so_full : full_env_ok (v_aead E) (v_hmac E) (v_bs E) (v_iv E) (v_rnd E) (v_fuel E);
  so_cmp : cmp_ok (v_cmp E);
  so_junk : forall n, length (v_junk E n) = BLOCK_SIZE;
  so_room : forall id, (2 ^ 32 + N.of_nat (v_pad E id) <= full_max_blocks_N * N.of_nat (v_bs E))%N;
  so_clock : forall k, ts_in_range (v_clock E k);
  so_uid : (v_uid E < 2 ^ 32)%N;
  so_gid : (v_gid E < 2 ^ 32)%N }.

Section Obj.
Variable E : senv.
Hypothesis HE : senv_ok E.
Notation A := (v_aead E).
Notation hmac := (v_hmac E).
Notation dkey := (v_dkey E).
Notation mkey := (v_mkey E).
Notation pad := (v_pad E).
Notation bs := (v_bs E).
Notation iv_size := (v_iv E).
Notation store_time := (v_store E).
Notation rnd := (v_rnd E).
Notation cmp := (v_cmp E).
Notation junk := (v_junk E).
Notation hs := (attr_header_size (v_store E)).

Definition olim (id : bytes) : nat := full_max_blocks * bs - pad id.
Definition SR (id pre : bytes) (h : option bytes) (s : full_st) (c : bytes) : Prop :=
  FRep A hmac (dkey id) (mkey id) id bs iv_size hs h s (pre ++ c).

Lemma pad_room id : (4294967296 + N.of_nat (pad id) <= N.of_nat (full_max_blocks * bs))%N.
Proof.
  pose proof (so_room _ HE id) as H. rewrite Nat2N.inj_mul, full_max_blocks_of_N. exact H.
Qed.
Lemma pad_le id : pad id <= full_max_blocks * bs.
Proof. pose proof (pad_room id) as H. generalize dependent (full_max_blocks * bs). intros n H. lia. Qed.

Lemma o_array id pre h : length pre = pad id -> behaves_as_array (sm_step (o_strm E id)) (SR id pre h) (olim id).
Proof.
  intros Hp. unfold olim, o_strm. rewrite <- Hp. apply padded_full_array; [apply (so_full _ HE)|].
  rewrite Hp. apply pad_le.
Qed.

Lemma page_top_N p : (page_pos p + N.of_nat BLOCK_SIZE <= 4294967296)%N.
Proof.
  unfold page_pos. rewrite BLOCK_SIZE_N.
  replace 4294967296%N with (1048576 * 4096)%N by reflexivity. rewrite N.mul_mod_distr_r by discriminate.
  pose proof (N.mod_lt p 1048576 ltac:(discriminate)) as Hm. generalize dependent (p mod 1048576)%N. intros x Hx. lia.
Qed.
Lemma o_top id p : N.to_nat (page_pos p) + BLOCK_SIZE <= olim id.
Proof.
  pose proof (pad_room id) as H. unfold olim. pose proof (page_top_N p) as Hp.
  generalize dependent (full_max_blocks * bs). generalize dependent (page_pos p). intros q Hq n Hn. lia.
Qed.

Definition words (f : fob) : option (N * N * N) :=
  if fo_dirty f then None else Some (a_root_page (fo_attrs f), a_start_free (fo_attrs f), a_num_free (fo_attrs f)).
Definition ocont (id pre : bytes) (h : option bytes) (f : fob) (nd : inode) : Prop :=
  if (i_type nd =? TDIR)%N
  then i_data nd = [] /\ GDir (o_strm E id) (SR id pre h) (olim id) (words f) cmp (to_g E id f) (i_dir nd)
  else i_dir nd = [] /\ fo_cache f = [] /\ SR id pre h (fo_s f) (i_data nd) /\ length (i_data nd) <= olim id.

Record ORep (id : bytes) (f : fob) (nd : inode) : Prop := mkORep {
  or_mode : a_mode (fo_attrs f) = i_mode nd;
  or_nlink : a_nlink (fo_attrs f) = i_nlink nd;
  or_range : attrs_in_range (fo_attrs f);
  or_cont : exists pre h, length pre = pad id /\ (fo_dirty f = false -> h = Some (pack_attrs store_time (fo_attrs f))) /\ ocont id pre h f nd }.

(** What the object would lose if it were dropped: nothing. *)
Record fclean (f : fob) : Prop := mkFclean {
  fc_attrs : fo_dirty f = false;
  fc_mac : f_dirty (fo_s f) = false;
  fc_cache : forall p n, lookup p (fo_cache f) = Some n -> n_dirty n = false }.
(** The stored files alone hold the file. *)
Definition OClean (id data meta : bytes) (nd : inode) : Prop :=
  forall k, exists a, ORep id (mkFob (mkFull data meta false k) a false []) nd.

Lemma ORep_parent id f nd p : ORep id f nd -> ORep id f (with_parent p nd).
Proof. intros [H1 H2 H3 H4]. constructor; assumption. Qed.
Lemma OClean_parent id d m nd p : OClean id d m nd -> OClean id d m (with_parent p nd).
Proof. intros H k. destruct (H k) as [a Ha]. exists a. now apply ORep_parent. Qed.

Lemma ORep_entries id f nd : ORep id f nd -> i_type nd = TDIR -> Forall entry_ok (i_dir nd).
Proof.
  intros [_ _ _ (pre & h & _ & _ & Hc)] Ht. unfold ocont in Hc. rewrite Ht, N.eqb_refl in Hc.
  destruct Hc as [_ (st & _ & F & o & _ & _ & He)]. exact He.
Qed.
Lemma ORep_nodir id f nd : ORep id f nd -> i_type nd <> TDIR -> i_dir nd = [].
Proof.
  intros [_ _ _ (pre & h & _ & _ & Hc)] Ht. unfold ocont in Hc. destruct (N.eqb_spec (i_type nd) TDIR); [contradiction|]. apply Hc.
Qed.

(** ** Attributes *)
Definition same_words (a b : attrs) : Prop :=
  a_root_page a = a_root_page b /\ a_start_free a = a_start_free b /\ a_num_free a = a_num_free b.

Lemma ORep_attrs id f nd a d nd' : ORep id f nd ->
  same_words a (fo_attrs f) -> attrs_in_range a -> a_mode a = i_mode nd' -> a_nlink a = i_nlink nd' ->
  i_type nd' = i_type nd -> i_dir nd' = i_dir nd -> i_data nd' = i_data nd ->
  (d = false -> fo_dirty f = false /\ a = fo_attrs f) ->
  ORep id (mkFob (fo_s f) a d (fo_cache f)) nd'.
Proof.
  intros [H1 H2 H3 (pre & h & Hp & Hh & Hc)] (W1 & W2 & W3) Hr Hm Hn Ht Hdir Hdata Hd. constructor; cbn [fo_attrs]; try assumption.
  exists pre, h. split; [exact Hp|]. cbn [fo_dirty fo_attrs]. split.
  { intros E0. destruct (Hd E0) as [D1 ->]. auto. }
  unfold ocont in *. rewrite Ht, Hdir, Hdata. destruct (i_type nd =? TDIR)%N; [|exact Hc].
  destruct Hc as [Hx Hg]. split; [exact Hx|].
  eapply dir_other; [exact Hg|intros c _ Hc; exact Hc|exact W1|exact W2|exact W3|reflexivity|].
  unfold words, to_g. cbn [fo_dirty fo_attrs fo_s fo_cache g_dirty g_root g_free g_nfree].
  destruct d; [left; reflexivity|right]. now rewrite W1, W2, W3.
Qed.

Lemma range_set a (H : attrs_in_range a) t : ts_in_range t ->
  attrs_in_range (set_atime t a) /\ attrs_in_range (set_mtime t a) /\ attrs_in_range (set_ctime t a).
Proof. intros Ht. destruct H as (H0 & H1 & H2 & H3 & H4). unfold attrs_in_range. cbn. repeat split; try apply H0; try apply H1; try apply H2; try apply H3; try apply H4; try apply Ht. Qed.
Lemma range_nlink a v : attrs_in_range a -> (v < 2 ^ 32)%N -> attrs_in_range (AttrModel.set_nlink v a).
Proof.
  intros (H0 & H1) Hv. split; [|exact H1]. unfold flags_of in *. cbn. inversion H0 as [|? ? G0 H0']; subst. inversion H0' as [|? ? G1 H0'']; subst.
  inversion H0'' as [|? ? G2 H0''']; subst. inversion H0''' as [|? ? G3 H4]; subst. repeat (constructor; [assumption|]). exact H4.
Qed.
Lemma range_mode a v : attrs_in_range a -> (v < 2 ^ 32)%N -> attrs_in_range (AttrModel.set_mode v a).
Proof. intros (H0 & H1) Hv. split; [|exact H1]. unfold flags_of in *. cbn. inversion H0 as [|? ? G0 H0']; subst. constructor; assumption. Qed.
Lemma range_mode_lt a : attrs_in_range a -> (a_mode a < 2 ^ 32)%N /\ (a_nlink a < 2 ^ 32)%N.
Proof.
  intros (H0 & _). unfold flags_of in H0. rewrite Forall_forall in H0. split; apply H0; cbn; auto.
Qed.
Lemma range_words a r f n : attrs_in_range a -> (r < 2 ^ 32 /\ f < 2 ^ 32 /\ n < 2 ^ 32)%N -> attrs_in_range (set_words r f n a).
Proof.
  intros (H0 & H1) (G1 & G2 & G3). split; [|exact H1]. unfold flags_of in *. cbn. rewrite Forall_forall in *.
  intros x [<-|[<-|[<-|[<-|[<-|[<-|[<-|[]]]]]]]]; try assumption; apply H0; cbn; auto.
Qed.

Lemma ORep_atime id f nd now : ORep id f nd -> ts_in_range now -> ORep id (fo_atime E now f) nd.
Proof.
  intros H Ht. unfold fo_atime. pose proof (or_mode _ _ _ H) as H1. pose proof (or_nlink _ _ _ H) as H2. pose proof (or_range _ _ _ H) as H3.
  unfold update_atime. fold (atime_due E (fo_attrs f)). destruct (atime_due E (fo_attrs f)) eqn:Ea.
  - rewrite orb_true_r. apply (ORep_attrs id f nd); try assumption; try reflexivity; [unfold same_words; cbn; auto|now apply range_set|discriminate].
  - rewrite orb_false_r. destruct f; exact H.
Qed.
Lemma ORep_mtime id f nd now : ORep id f nd -> ts_in_range now -> ORep id (fo_mtime E now f) nd.
Proof.
  intros H Ht. unfold fo_mtime. pose proof (or_mode _ _ _ H) as H1. pose proof (or_nlink _ _ _ H) as H2. pose proof (or_range _ _ _ H) as H3.
  unfold update_mtime. destruct store_time.
  - rewrite orb_true_r. apply (ORep_attrs id f nd); try assumption; try reflexivity; [unfold same_words; cbn; auto| |discriminate].
    apply range_set; [|assumption]. now apply range_set.
  - rewrite orb_false_r. destruct f; exact H.
Qed.
Lemma ctime_fields now a : a_mode (update_ctime store_time now a) = a_mode a /\ a_nlink (update_ctime store_time now a) = a_nlink a /\ same_words (update_ctime store_time now a) a.
Proof. unfold update_ctime. destruct store_time; cbn; unfold same_words; cbn; auto. Qed.
Lemma ctime_range now a : attrs_in_range a -> ts_in_range now -> attrs_in_range (update_ctime store_time now a).
Proof. intros H Ht. unfold update_ctime. destruct store_time; [|exact H]. now apply range_set. Qed.

Lemma dec32_lt n : (dec32 n < 2 ^ 32)%N. Proof. apply N.mod_lt. discriminate. Qed.
Lemma inc32_lt n : (inc32 n < 2 ^ 32)%N. Proof. apply N.mod_lt. discriminate. Qed.

Lemma ORep_set_mode id f nd now v : ORep id f nd -> ts_in_range now -> (v < 2 ^ 32)%N -> (v / 4096 = i_type nd)%N ->
  ORep id (fo_set_mode E now v f) (with_mode v nd).
Proof.
  intros H Ht Hv Hty. unfold fo_set_mode. pose proof (or_mode _ _ _ H) as H1. pose proof (or_nlink _ _ _ H) as H2. pose proof (or_range _ _ _ H) as H3.
  destruct (N.eqb_spec (a_mode (fo_attrs f)) v) as [Ev|Ev].
  - rewrite H1 in Ev. subst v. destruct nd; exact H.
  - destruct (ctime_fields now (AttrModel.set_mode v (fo_attrs f))) as (C1 & C2 & C3).
    apply (ORep_attrs id f nd); try assumption; try reflexivity.
    + apply ctime_range; [now apply range_mode|exact Ht].
    + rewrite C2. exact H2.
    + discriminate.
Qed.
Lemma ORep_set_nlink id f nd now v : ORep id f nd -> ts_in_range now -> (v < 2 ^ 32)%N ->
  ORep id (fo_set_nlink E now v f) (with_nlink v nd).
Proof.
  intros H Ht Hv. unfold fo_set_nlink. pose proof (or_mode _ _ _ H) as H1. pose proof (or_nlink _ _ _ H) as H2. pose proof (or_range _ _ _ H) as H3.
  destruct (N.eqb_spec (a_nlink (fo_attrs f)) v) as [Ev|Ev].
  - rewrite H2 in Ev. subst v. destruct nd; exact H.
  - destruct (ctime_fields now (AttrModel.set_nlink v (fo_attrs f))) as (C1 & C2 & C3).
    apply (ORep_attrs id f nd); try assumption; try reflexivity.
    + apply ctime_range; [now apply range_nlink|exact Ht].
    + rewrite C1. exact H1.
    + discriminate.
Qed.
Lemma range_uid a v : attrs_in_range a -> (v < 2 ^ 32)%N -> attrs_in_range (AttrModel.set_uid v a) /\ attrs_in_range (AttrModel.set_gid v a).
Proof.
  intros (H0 & H1) Hv. unfold attrs_in_range. cbn. unfold flags_of in *. cbn. rewrite Forall_forall in H0.
  split; (split; [|exact H1]); rewrite Forall_forall; intros x [<-|[<-|[<-|[<-|[<-|[<-|[<-|[]]]]]]]]; try assumption; apply H0; cbn; auto 10.
Qed.
Lemma ORep_set_uid id f nd now v : ORep id f nd -> ts_in_range now -> (v < 2 ^ 32)%N -> ORep id (fo_set_uid E now v f) nd.
Proof.
  intros H Ht Hv. unfold fo_set_uid. pose proof (or_mode _ _ _ H) as H1. pose proof (or_nlink _ _ _ H) as H2. pose proof (or_range _ _ _ H) as H3.
  destruct (_ =? _)%N; [exact H|]. destruct (ctime_fields now (AttrModel.set_uid v (fo_attrs f))) as (C1 & C2 & C3).
  apply (ORep_attrs id f nd); try assumption; try reflexivity; [|rewrite C1; exact H1|rewrite C2; exact H2|discriminate].
  apply ctime_range; [now apply range_uid|exact Ht].
Qed.
Lemma ORep_set_gid id f nd now v : ORep id f nd -> ts_in_range now -> (v < 2 ^ 32)%N -> ORep id (fo_set_gid E now v f) nd.
Proof.
  intros H Ht Hv. unfold fo_set_gid. pose proof (or_mode _ _ _ H) as H1. pose proof (or_nlink _ _ _ H) as H2. pose proof (or_range _ _ _ H) as H3.
  destruct (_ =? _)%N; [exact H|]. destruct (ctime_fields now (AttrModel.set_gid v (fo_attrs f))) as (C1 & C2 & C3).
  apply (ORep_attrs id f nd); try assumption; try reflexivity; [|rewrite C1; exact H1|rewrite C2; exact H2|discriminate].
  apply ctime_range; [now apply range_uid|exact Ht].
Qed.
Lemma ORep_utimens id f nd ts u : ORep id f nd -> ts_in_range u -> match ts with Some (t0, t1) => ts_in_range t0 /\ ts_in_range t1 | None => True end ->
  ORep id (fo_utimens E ts u f) nd.
Proof.
  intros H Hu Ht. unfold fo_utimens. pose proof (or_mode _ _ _ H) as H1. pose proof (or_nlink _ _ _ H) as H2. pose proof (or_range _ _ _ H) as H3.
  destruct store_time; [|exact H]. destruct (match ts with Some p => p | None => (u, u) end) as [t0 t1] eqn:E0.
  assert (Hr : ts_in_range t0 /\ ts_in_range t1) by (destruct ts as [[]|]; injection E0 as <- <-; auto). destruct Hr as [R0 R1].
  apply (ORep_attrs id f nd); try assumption; try reflexivity; [unfold same_words; cbn; auto| |discriminate].
  apply range_set; [|exact Hu]. apply range_set; [|exact R1]. now apply range_set.
Qed.
Lemma ORep_chattr id f nd now c : ORep id f nd -> ts_in_range now ->
  match c with
  | ChMode _ => True
  | ChOwner u g => (u < 2 ^ 32)%N /\ (g < 2 ^ 32)%N
  | ChTimes ts u => ts_in_range u /\ match ts with Some (t0, t1) => ts_in_range t0 /\ ts_in_range t1 | None => True end
  end -> (new_mode c (i_mode nd) / 4096 = i_type nd)%N ->
  ORep id (fo_chattr E now c f) (with_mode (new_mode c (i_mode nd)) nd).
Proof.
  intros H Hn Hc Ht. destruct c as [perm|u g|ts u]; cbn [fo_chattr].
  - rewrite (or_mode _ _ _ H). apply ORep_set_mode; try assumption. cbn [new_mode].
    destruct (range_mode_lt _ (or_range _ _ _ H)) as [Hm _]. rewrite (or_mode _ _ _ H) in Hm. pose proof (N.mod_lt perm 512 ltac:(discriminate)) as Hp.
    assert (Hd : (i_mode nd / 512 < 2 ^ 23)%N) by (apply N.div_lt_upper_bound; [discriminate|exact Hm]). change (2 ^ 32)%N with (2 ^ 23 * 512)%N. lia.
  - replace (with_mode (new_mode (ChOwner u g) (i_mode nd)) nd) with nd by (destruct nd; reflexivity). cbv zeta.
    assert (H' : ORep id (if (u =? u32_max)%N then f else fo_set_uid E now u f) nd) by (destruct (_ =? _)%N; [exact H|apply ORep_set_uid; tauto]).
    destruct (g =? u32_max)%N; [exact H'|apply ORep_set_gid; tauto].
  - replace (with_mode (new_mode (ChTimes ts u) (i_mode nd)) nd) with nd by (destruct nd; reflexivity). now apply ORep_utimens.
Qed.
Lemma ORep_unlink id f nd : ORep id f nd -> ORep id (fo_unlink f) (with_nlink (dec32 (i_nlink nd)) nd).
Proof.
  intros H. unfold fo_unlink. pose proof (or_mode _ _ _ H) as H1. pose proof (or_nlink _ _ _ H) as H2. pose proof (or_range _ _ _ H) as H3.
  apply (ORep_attrs id f nd); try assumption; try reflexivity.
  - unfold same_words. cbn. auto.
  - apply range_nlink; [exact H3|apply dec32_lt].
  - cbn. now rewrite H2.
  - discriminate.
Qed.

(** ** Directories *)
Lemma ORep_dir {X} id f nd (m : GM (o_strm E id) X) dir' (P : res X -> Prop) : ORep id f nd -> i_type nd = TDIR ->
  (forall pre h g, length pre = pad id -> GDir (o_strm E id) (SR id pre h) (olim id) (words f) cmp g (i_dir nd) ->
     exists g' r, m g = (g', r) /\ GDir (o_strm E id) (SR id pre h) (olim id) (words f) cmp g' dir' /\ P r) ->
  exists f' r, fo_dir E id m f = (f', r) /\ ORep id f' (with_dir dir' nd) /\ P r.
Proof.
  intros [H1 H2 H3 (pre & h & Hp & Hh & Hc)] Ht Hm. unfold ocont in Hc. rewrite Ht, N.eqb_refl in Hc. destruct Hc as [Hx Hg].
  destruct (Hm pre h _ Hp Hg) as (g' & r & E1 & Hg' & HP). unfold fo_dir. rewrite E1. exists (of_g E id f g'), r. split; [reflexivity|]. split; [|exact HP].
  pose proof (dir_words _ _ _ (o_top id) _ _ junk (so_junk _ HE) _ _ Hg') as Hw. pose proof (dir_dirty _ _ _ _ _ _ _ Hg') as Hd.
  unfold of_g. constructor; cbn [fo_attrs fo_s fo_dirty fo_cache]; try assumption.
  - apply range_words; assumption.
  - exists pre, h. split; [exact Hp|]. split.
    + intros E0. destruct Hd as [Hd|Hd]; [rewrite Hd in E0; discriminate E0|]. unfold words in Hd. destruct (fo_dirty f); [discriminate Hd|].
      rewrite (Hh eq_refl). injection Hd as <- <- <-. destruct (fo_attrs f). reflexivity.
    + unfold ocont. cbn [with_dir i_dir i_data]. change (i_type (with_dir dir' nd)) with (i_type nd). rewrite Ht, N.eqb_refl. split; [exact Hx|].
      eapply dir_other; [exact Hg'|intros c _ Hc; exact Hc| | | | |]; cbn [fo_attrs fo_s fo_dirty fo_cache to_g g_root g_free g_nfree g_cache g_dirty set_words a_root_page a_start_free a_num_free]; try reflexivity.
      unfold words. cbn [fo_attrs fo_s fo_dirty fo_cache set_words a_root_page a_start_free a_num_free].
      destruct (g_dirty (o_strm E id) g'); auto.
Qed.
Lemma with_dir_same nd : with_dir (i_dir nd) nd = nd. Proof. destruct nd; reflexivity. Qed.

Lemma ORep_get id f nd now name : ORep id f nd -> ts_in_range now -> i_type nd = TDIR -> (N.of_nat (length (i_dir nd)) <= MAX_ENTRIES)%N ->
  exists f' r, fo_get E id now name f = (f', r) /\ ORep id f' nd /\ snd (dspec_step cmp (DGet name) (i_dir nd)) = rmap OEntry r.
Proof.
  intros H Hn Ht Hm. unfold fo_get.
  destruct (ORep_dir id (fo_atime E now f) nd (g_get_entry (o_strm E id) cmp name) (i_dir nd)
    (fun r => snd (dspec_step cmp (DGet name) (i_dir nd)) = rmap OEntry r) (ORep_atime _ _ _ _ H Hn) Ht) as (f' & r & E1 & H' & Hr).
  { intros pre h g Hp Hg. exact (dir_get _ _ _ (o_array id pre h Hp) (o_top id) _ cmp junk (so_cmp _ HE) (so_junk _ HE) g (i_dir nd) name Hm Hg). }
  rewrite with_dir_same in H'. exists f', r. auto.
Qed.
Lemma ORep_add id f nd now name x ty : ORep id f nd -> ts_in_range now -> i_type nd = TDIR -> dop_ok (DAdd name x ty) ->
  (N.of_nat (length (fst (dspec_step cmp (DAdd name x ty) (i_dir nd)))) <= MAX_ENTRIES)%N ->
  exists f' r, fo_add E id now name x ty f = (f', r) /\ ORep id f' (with_dir (fst (dspec_step cmp (DAdd name x ty) (i_dir nd))) nd) /\
    snd (dspec_step cmp (DAdd name x ty) (i_dir nd)) = rmap OBool r.
Proof.
  intros H Hn Ht Ho Hm. unfold fo_add. apply (ORep_dir id (fo_mtime E now f) nd); [now apply ORep_mtime|exact Ht|].
  intros pre h g Hp Hg. exact (dir_add _ _ _ (o_array id pre h Hp) (o_top id) _ cmp junk (so_cmp _ HE) (so_junk _ HE) g (i_dir nd) name x ty Ho Hm Hg).
Qed.
Lemma ORep_remove id f nd now name : ORep id f nd -> ts_in_range now -> i_type nd = TDIR -> (N.of_nat (length (i_dir nd)) <= MAX_ENTRIES)%N ->
  exists f' r, fo_remove E id now name f = (f', r) /\ ORep id f' (with_dir (fst (dspec_step cmp (DRemove name) (i_dir nd))) nd) /\
    snd (dspec_step cmp (DRemove name) (i_dir nd)) = rmap OEntry r.
Proof.
  intros H Hn Ht Hm. unfold fo_remove. apply (ORep_dir id (fo_mtime E now f) nd); [now apply ORep_mtime|exact Ht|].
  intros pre h g Hp Hg. exact (dir_remove _ _ _ (o_array id pre h Hp) (o_top id) _ cmp junk (so_cmp _ HE) (so_junk _ HE) g (i_dir nd) name Hm Hg).
Qed.
Lemma ORep_list id f nd now : ORep id f nd -> ts_in_range now -> i_type nd = TDIR ->
  exists f' l, fo_list E id now f = (f', Ok l) /\ ORep id f' nd /\ Permutation l (i_dir nd).
Proof.
  intros H Hn Ht. unfold fo_list.
  destruct (ORep_dir id (fo_atime E now f) nd (g_list_entries (o_strm E id)) (i_dir nd)
    (fun r => exists l, r = Ok l /\ Permutation l (i_dir nd)) (ORep_atime _ _ _ _ H Hn) Ht) as (f' & r & E1 & H' & l & -> & Hl).
  { intros pre h g Hp Hg. destruct (dir_list _ _ _ (o_array id pre h Hp) (o_top id) _ cmp g (i_dir nd) Hg) as (g' & l & E1 & H1 & H2). eauto 8. }
  rewrite with_dir_same in H'. exists f', l. auto.
Qed.
Lemma ORep_empty id f nd : ORep id f nd -> i_type nd = TDIR ->
  exists f', fo_empty E id f = (f', Ok (match i_dir nd with [] => true | _ => false end)) /\ ORep id f' nd.
Proof.
  intros H Ht. unfold fo_empty.
  destruct (ORep_dir id f nd (g_is_empty (o_strm E id)) (i_dir nd)
    (fun r => r = Ok (match i_dir nd with [] => true | _ => false end)) H Ht) as (f' & r & E1 & H' & ->).
  { intros pre h g Hp Hg. destruct (dir_empty _ _ _ (o_array id pre h Hp) (o_top id) _ cmp junk (so_junk _ HE) g (i_dir nd) Hg) as (g' & E1 & H1). eauto 8. }
  rewrite with_dir_same in H'. exists f'. auto.
Qed.

(** ** Contents *)
Lemma ORep_call id f nd o : ORep id f nd -> i_type nd <> TDIR -> sop_within (olim id) o ->
  exists f', fo_call E id o f = (f', snd (spec_step (i_data nd) o)) /\ ORep id f' (with_data (fst (spec_step (i_data nd) o)) nd).
Proof.
  intros [H1 H2 H3 (pre & h & Hp & Hh & Hc)] Ht Ho. unfold ocont in Hc. destruct (N.eqb_spec (i_type nd) TDIR) as [|Hne]; [contradiction|].
  destruct Hc as (Hd & Hk & Hs & Hl). destruct (o_array id pre h Hp (fo_s f) (i_data nd) o Hs Hl Ho) as (s' & E1 & Hs').
  unfold fo_call. change (sm_step (o_strm E id) (fo_s f) o = (s', snd (spec_step (i_data nd) o))) in E1. rewrite E1.
  eexists. split; [reflexivity|]. constructor; cbn [fo_attrs fo_s fo_dirty fo_cache with_data i_mode i_nlink]; try assumption.
  exists pre, h. split; [exact Hp|]. split; [exact Hh|]. unfold ocont. change (i_type (with_data (fst (spec_step (i_data nd) o)) nd)) with (i_type nd).
  destruct (N.eqb_spec (i_type nd) TDIR) as [|_]; [contradiction|]. cbn [with_data i_dir i_data fo_cache fo_s].
  split; [exact Hd|]. split; [exact Hk|]. split; [exact Hs'|]. apply (spec_step_limit (olim id)); assumption.
Qed.
Lemma with_data_same nd : with_data (i_data nd) nd = nd. Proof. destruct nd; reflexivity. Qed.

Lemma ORep_size id f nd : ORep id f nd -> exists f' n, fo_size E id f = (f', Ok n) /\ ORep id f' nd /\ (i_type nd <> TDIR -> n = length (i_data nd)).
Proof.
  intros H. destruct (N.eqb_spec (i_type nd) TDIR) as [Ht|Ht].
  - unfold fo_size, fo_call. cbn. eexists. eexists. split; [reflexivity|]. split; [destruct f; exact H|]. intros Hx. contradiction.
  - destruct (ORep_call id f nd SSize H Ht I) as (f' & E1 & H'). unfold fo_size. rewrite E1. cbn [spec_step snd fst] in *.
    rewrite with_data_same in H'. eauto 8.
Qed.
Lemma ORep_read id f nd now off len : ORep id f nd -> ts_in_range now -> i_type nd <> TDIR -> off + len <= olim id ->
  exists f', fo_read E id now off len f = (f', Ok (arr_read (i_data nd) off len)) /\ ORep id f' nd.
Proof.
  intros H Hn Ht Hl. destruct (ORep_call id _ nd (SRead off len) (ORep_atime _ _ _ now H Hn) Ht Hl) as (f' & E1 & H').
  unfold fo_read. rewrite E1. cbn [spec_step fst snd out_bytes] in *. rewrite with_data_same in H'. eauto.
Qed.
Lemma ORep_write id f nd now off d : ORep id f nd -> ts_in_range now -> i_type nd <> TDIR -> off + length d <= olim id ->
  exists f', fo_write E id now off d f = (f', Ok tt) /\ ORep id f' (with_data (arr_write (i_data nd) off d) nd).
Proof.
  intros H Hn Ht Hl. destruct (ORep_call id _ nd (SWrite off d) (ORep_mtime _ _ _ now H Hn) Ht Hl) as (f' & E1 & H').
  unfold fo_write. rewrite E1. eauto.
Qed.
Lemma ORep_truncate id f nd now n : ORep id f nd -> ts_in_range now -> i_type nd <> TDIR -> n <= olim id ->
  exists f', fo_truncate E id now n f = (f', Ok tt) /\ ORep id f' (with_data (arr_resize (i_data nd) n) nd).
Proof.
  intros H Hn Ht Hl. destruct (ORep_call id _ nd (SResize n) (ORep_mtime _ _ _ now H Hn) Ht Hl) as (f' & E1 & H').
  unfold fo_truncate. rewrite E1. eauto.
Qed.
Lemma ORep_len id f nd : ORep id f nd -> length (i_data nd) <= olim id.
Proof.
  intros [_ _ _ (pre & h & _ & _ & Hc)]. unfold ocont in Hc. destruct (i_type nd =? TDIR)%N; [|apply Hc]. destruct Hc as [-> _]. cbn. lia.
Qed.
Lemma ORep_link_get id f nd now : ORep id f nd -> ts_in_range now -> i_type nd <> TDIR ->
  exists f', fo_link_get E id now f = (f', Ok (i_data nd)) /\ ORep id f' nd.
Proof.
  intros H Hn Ht. destruct (ORep_size id f nd H) as (f1 & n & E1 & H1 & Hs). specialize (Hs Ht). subst n.
  destruct (ORep_call id f1 nd (SRead 0 (length (i_data nd))) H1 Ht) as (f2 & E2 & H2). { cbn. apply (ORep_len id f nd H). }
  unfold fo_link_get. rewrite E1, E2. cbn [spec_step fst snd] in *. rewrite with_data_same in H2.
  replace (arr_read (i_data nd) 0 (length (i_data nd))) with (i_data nd) by (unfold arr_read; cbn [skipn]; now rewrite firstn_all).
  eexists. split; [reflexivity|]. now apply ORep_atime.
Qed.

(** ** Flushing *)
Lemma ORep_subflush id f nd : ORep id f nd ->
  exists f', fo_subflush E id f = (f', Ok tt) /\ ORep id f' nd /\ forall p n, lookup p (fo_cache f') = Some n -> n_dirty n = false.
Proof.
  intros H. unfold fo_subflush, fo_type. rewrite (or_mode _ _ _ H). fold (i_type nd). destruct (N.eqb_spec (i_type nd) TDIR) as [Ht|Ht].
  - destruct H as [H1 H2 H3 (pre & h & Hp & Hh & Hc)].
    assert (H : ORep id f nd) by (constructor; eauto).
    destruct (ORep_dir id f nd (fun g => g_subflush (o_strm E id) cmp junk g) (i_dir nd) (fun r => r = Ok tt) H Ht) as (f' & r & E1 & H' & ->).
    { intros pre' h' g Hp' Hg. destruct (dir_flush _ _ _ (o_array id pre' h' Hp') (o_top id) _ cmp junk (so_cmp _ HE) (so_junk _ HE) g (i_dir nd) Hg) as (g' & E1 & G1 & G2). eauto. }
    rewrite with_dir_same in H'. exists f'. split; [exact E1|]. split; [exact H'|].
    unfold ocont in Hc. rewrite Ht, N.eqb_refl in Hc.
    destruct (dir_flush _ _ _ (o_array id pre h Hp) (o_top id) _ cmp junk (so_cmp _ HE) (so_junk _ HE) _ (i_dir nd) (proj2 Hc)) as (g' & E2 & G1 & G2).
    unfold fo_dir in E1. rewrite E2 in E1. injection E1 as <-. exact G2.
  - exists f. split; [reflexivity|]. split; [exact H|]. destruct H as [_ _ _ (pre & h & _ & _ & Hc)]. unfold ocont in Hc.
    destruct (N.eqb_spec (i_type nd) TDIR) as [|_]; [contradiction|]. destruct Hc as (_ & -> & _). discriminate.
Qed.

(** Another state of the stream with the same bytes. *)
Lemma ORep_stream id f nd s' d' (Q : option bytes -> option bytes -> Prop) : ORep id f nd ->
  (forall h c, FRep A hmac (dkey id) (mkey id) id bs iv_size hs h (fo_s f) c ->
     exists h', FRep A hmac (dkey id) (mkey id) id bs iv_size hs h' s' c /\ Q h h') ->
  (forall h h' : option bytes, Q h h' -> (fo_dirty f = false -> h = Some (pack_attrs store_time (fo_attrs f))) ->
     d' = false -> h' = Some (pack_attrs store_time (fo_attrs f))) ->
  (forall h c h' h'', FRep A hmac (dkey id) (mkey id) id bs iv_size hs h (fo_s f) c -> Q h h' -> Q h h'' -> h' = h'') ->
  ORep id (mkFob s' (fo_attrs f) d' (fo_cache f)) nd.
Proof.
  intros [H1 H2 H3 (pre & h & Hp & Hh & Hc)] Hs Hd Hq. constructor; cbn [fo_attrs]; try assumption.
  assert (Hc0 : exists c, SR id pre h (fo_s f) c).
  { unfold ocont in Hc. destruct (i_type nd =? TDIR)%N; [|exists (i_data nd); apply Hc]. destruct Hc as [_ Hg].
    destruct (dir_stream _ _ _ _ _ _ _ Hg) as (c & Hc & _). exists c. exact Hc. }
  destruct Hc0 as [c0 Hc0]. destruct (Hs h _ Hc0) as (h' & Hr' & HQ).
  exists pre, h'. split; [exact Hp|]. split; [intros E0; cbn [fo_dirty] in E0; exact (Hd h h' HQ Hh E0)|].
  assert (Hall : forall c, SR id pre h (fo_s f) c -> SR id pre h' s' c).
  { intros c Hcc. destruct (Hs h _ Hcc) as (h'' & Hr'' & HQ''). rewrite (Hq h _ _ _ Hcc HQ HQ''). exact Hr''. }
  unfold ocont in *. destruct (i_type nd =? TDIR)%N.
  - destruct Hc as [Hx Hg]. split; [exact Hx|]. eapply dir_other; [exact Hg|intros c _; apply Hall| | | | |]; try reflexivity.
    unfold words. cbn. destruct d'; auto.
  - destruct Hc as (G1 & G2 & G3 & G4). cbn [fo_cache fo_s]. auto.
Qed.

Lemma ORep_header id f nd : ORep id f nd ->
  exists f', fo_header E id f = (f', Ok tt) /\ ORep id f' nd /\ fo_dirty f' = false /\ fo_cache f' = fo_cache f.
Proof.
  intros H. unfold fo_header. destruct (fo_dirty f) eqn:Ed; [|exists f; auto].
  assert (Hw : forall h c, FRep A hmac (dkey id) (mkey id) id bs iv_size hs h (fo_s f) c -> exists s',
     full_write_header A (dkey id) id iv_size hs rnd (pack_attrs store_time (fo_attrs f)) (fo_s f) = (s', Ok tt) /\
     FRep A hmac (dkey id) (mkey id) id bs iv_size hs (Some (pack_attrs store_time (fo_attrs f))) s' c).
  { intros h c Hr. destruct (full_write_header_ok A hmac (dkey id) (mkey id) id bs iv_size hs rnd (v_fuel E) (so_full _ HE) h (pack_attrs store_time (fo_attrs f)) (fo_s f) c Hr) as (s' & E1 & R1).
    { rewrite pack_length. apply Nat.le_refl. }
    rewrite pack_length, Nat.sub_diag in R1. cbn [zeros repeat] in R1. rewrite app_nil_r in R1. eauto. }
  assert (Hc0 : exists h c, FRep A hmac (dkey id) (mkey id) id bs iv_size hs h (fo_s f) c).
  { destruct H as [_ _ _ (pre & h & _ & _ & Hc)]. unfold ocont in Hc. destruct (i_type nd =? TDIR)%N; [|exists h, (pre ++ i_data nd); apply Hc].
    destruct Hc as [_ Hg]. destruct (dir_stream _ _ _ _ _ _ _ Hg) as (c & Hc & _). exists h, (pre ++ c). exact Hc. }
  destruct Hc0 as (h0 & c0 & Hr0). destruct (Hw h0 c0 Hr0) as (s' & E1 & _). rewrite E1.
  eexists. split; [reflexivity|]. split; [|auto].
  apply (ORep_stream id f nd s' false (fun _ h' => h' = Some (pack_attrs store_time (fo_attrs f))) H).
  - intros h c Hr. destruct (Hw h c Hr) as (s'' & E2 & R2). rewrite E1 in E2. injection E2 as <-. eauto.
  - intros h h' -> _ _. reflexivity.
  - intros h c h' h'' _ -> ->. reflexivity.
Qed.

Lemma ORep_mac id f nd : ORep id f nd ->
  exists s', full_flush hmac (mkey id) id (fo_s f) = (s', Ok tt) /\ ORep id (mkFob s' (fo_attrs f) (fo_dirty f) (fo_cache f)) nd /\ f_dirty s' = false.
Proof.
  intros H.
  assert (Hw : forall h c, FRep A hmac (dkey id) (mkey id) id bs iv_size hs h (fo_s f) c -> exists s',
     full_flush hmac (mkey id) id (fo_s f) = (s', Ok tt) /\ FRep A hmac (dkey id) (mkey id) id bs iv_size hs h s' c /\ f_dirty s' = false).
  { intros h c Hr. eapply full_flush_ok; [apply (so_full _ HE)|exact Hr]. }
  assert (Hc0 : exists h c, FRep A hmac (dkey id) (mkey id) id bs iv_size hs h (fo_s f) c).
  { destruct H as [_ _ _ (pre & h & _ & _ & Hc)]. unfold ocont in Hc. destruct (i_type nd =? TDIR)%N; [|exists h, (pre ++ i_data nd); apply Hc].
    destruct Hc as [_ Hg]. destruct (dir_stream _ _ _ _ _ _ _ Hg) as (c & Hc & _). exists h, (pre ++ c). exact Hc. }
  destruct Hc0 as (h0 & c0 & Hr0). destruct (Hw h0 c0 Hr0) as (s' & E1 & _ & Hd). exists s'. split; [exact E1|]. split; [|exact Hd].
  apply (ORep_stream id f nd s' (fo_dirty f) (fun h h' => h' = h) H).
  - intros h c Hr. destruct (Hw h c Hr) as (s'' & E2 & R2 & _). rewrite E1 in E2. injection E2 as <-. eauto.
  - intros h h' -> Hh Hd'. auto.
  - intros h c h' h'' _ -> ->. reflexivity.
Qed.

Lemma ORep_flush id f nd : ORep id f nd -> exists f', fo_flush E id f = (f', Ok tt) /\ ORep id f' nd /\ fclean f'.
Proof.
  intros H. destruct (ORep_subflush id f nd H) as (f1 & E1 & H1 & C1). destruct (ORep_header id f1 nd H1) as (f2 & E2 & H2 & D2 & K2).
  destruct (ORep_mac id f2 nd H2) as (s' & E3 & H3 & D3). unfold fo_flush. rewrite E1, E2, E3. eexists. split; [reflexivity|]. split; [exact H3|].
  constructor; cbn [fo_dirty fo_s fo_cache]; try assumption. rewrite K2. exact C1.
Qed.

(** ** Dropping and opening *)
Lemma ORep_clean id f nd : ORep id f nd -> fclean f -> OClean id (f_data (fo_s f)) (f_meta (fo_s f)) nd.
Proof.
  intros H [C1 C2 C3] k. exists (fo_attrs f).
  assert (H' : ORep id (mkFob (fo_s f) (fo_attrs f) false []) nd).
  { destruct H as [H1 H2 H3 (pre & h & Hp & Hh & Hc)]. constructor; cbn [fo_attrs]; try assumption. exists pre, h. split; [exact Hp|].
    split; [intros _; exact (Hh C1)|]. unfold ocont in *. destruct (i_type nd =? TDIR)%N; [|cbn [fo_cache fo_s]; intuition].
    destruct Hc as [Hx Hg]. split; [exact Hx|]. pose proof (dir_forget _ _ _ _ _ _ _ Hg C3) as Hg'.
    unfold words, to_g in *. cbn [fo_dirty fo_attrs fo_s fo_cache g_set_cache g_stream g_root g_free g_nfree g_dirty] in *. rewrite C1 in Hg'. exact Hg'. }
  refine (ORep_stream id _ nd (mkFull (f_data (fo_s f)) (f_meta (fo_s f)) false k) false (fun h h' => h' = h) H' _ _ _).
  - cbn [fo_s]. intros h c Hr. exists h. split; [|reflexivity]. rewrite <- C2. now apply FRep_rng.
  - intros h h' -> Hh Hd. auto.
  - intros h c h' h'' _ -> ->. reflexivity.
Qed.

Lemma fo_open_ok id data meta nd k : OClean id data meta nd -> exists f, fo_open E id data meta k = Ok f /\ ORep id f nd /\ fo_dirty f = false /\ fclean f /\
  f_data (fo_s f) = data /\ f_meta (fo_s f) = meta.
Proof.
  intros H. destruct (H (S k)) as [a H1].
  assert (Hc0 : exists pre c, length pre = pad id /\ FRep A hmac (dkey id) (mkey id) id bs iv_size hs (Some (pack_attrs store_time a)) (mkFull data meta false (S k)) (pre ++ c)).
  { destruct H1 as [_ _ _ (pre & h & Hp & Hh & Hc)]. cbn [fo_dirty fo_attrs] in Hh. rewrite (Hh eq_refl) in *. unfold ocont in Hc.
    destruct (i_type nd =? TDIR)%N; [|exists pre, (i_data nd); split; [exact Hp|apply Hc]].
    destruct Hc as [_ Hg]. destruct (dir_stream _ _ _ _ _ _ _ Hg) as (c & Hc & _). exists pre, c. split; [exact Hp|exact Hc]. }
  destruct Hc0 as (pre & c & Hp & Hr).
  pose proof (full_open_ok A hmac (dkey id) (mkey id) id bs iv_size hs (v_check E) _ (mkFull data meta false (S k)) _ k Hr eq_refl) as Ho. cbn [f_data f_meta] in Ho.
  unfold fo_open. rewrite Ho. cbn [rbind f_data f_meta f_dirty].
  pose proof (FRep_rng A hmac (dkey id) (mkey id) id bs iv_size hs _ _ _ k Hr) as Hrk. cbn [f_data f_meta f_dirty] in Hrk.
  unfold load_attrs. rewrite (full_read_header_ok A hmac (dkey id) (mkey id) id bs iv_size hs _ hs _ _ Hrk) by apply Nat.le_refl.
  replace (firstn hs (pack_attrs store_time a)) with (pack_attrs store_time a) by (symmetry; apply firstn_all2; rewrite pack_length; apply Nat.le_refl). cbn [rmap]. rewrite pack_unpack by (exact (or_range _ _ _ H1)). cbn [rbind].
  unfold padded_open. cbn [sm_step o_base bb_step full_backend bk_size full_size f_data].
  pose proof (fr_data _ _ _ _ _ _ _ _ _ _ _ Hr) as Hlen. cbn [f_data] in Hlen. rewrite app_length in Hlen.
  unfold full_size at 1. cbn [f_data]. destruct (Nat.ltb_spec (length data) (pad id)) as [Hlt|_]; [lia|].
  eexists. split; [reflexivity|]. split; [|split; [reflexivity|split; [constructor; cbn; try reflexivity; discriminate|split; reflexivity]]].
  assert (Hw : same_words (if store_time then a else without_times a) a) by (destruct store_time; unfold same_words; cbn; auto).
  destruct H1 as [G1 G2 G3 (pre' & h & Hp' & Hh & Hc)]. cbn [fo_attrs fo_dirty] in *. rewrite (Hh eq_refl) in *. clear Hh.
  constructor; cbn [fo_attrs].
  - destruct store_time; exact G1.
  - destruct store_time; exact G2.
  - destruct store_time; [exact G3|]. destruct G3 as (G3 & _). unfold attrs_in_range. cbn. split; [exact G3|]. unfold ts_in_range. cbn. repeat split; lia.
  - exists pre', (Some (pack_attrs store_time a)). split; [exact Hp'|]. split.
    + intros _. f_equal. destruct store_time; [reflexivity|]. destruct a; reflexivity.
    + unfold ocont in *. destruct (i_type nd =? TDIR)%N; [|exact Hc]. destruct Hc as [Hx Hg]. split; [exact Hx|].
      destruct Hw as (W1 & W2 & W3).
      eapply dir_other; [exact Hg|intros c' _ Hc'; exact Hc'|exact W1|exact W2|exact W3|reflexivity|].
      right. unfold words. cbn [fo_dirty fo_attrs]. now rewrite W1, W2, W3.
Qed.

(** A file that has just been made. *)
Lemma fo_create_ok id k now perm ty : ts_in_range now -> (ty < 1048576)%N -> exists f, fo_open E id [] [] k = Ok f /\
  ORep id (fo_init E now perm ty f) (mkInode (perm mod 512 + ty * 4096)%N 1 [] [] root_id).
Proof.
  intros Hn Hty. unfold fo_open. rewrite full_open_empty. cbn [rbind f_data f_meta f_dirty].
  assert (Hl : load_attrs A (dkey id) id iv_size store_time (mkFull [] [] false k) = Ok (unpack_attrs store_time None)).
  { unfold load_attrs, full_read_header. rewrite Nat.ltb_irrefl. unfold hmac_read. cbn [f_meta]. unfold arr_read. rewrite skipn_nil, firstn_nil. reflexivity. }
  rewrite Hl. cbn [unpack_attrs rbind].
  pose proof (padded_open_ok (o_base E id) (FRep A hmac (dkey id) (mkey id) id bs iv_size hs None) (full_max_blocks * bs)) as Hpad.
  destruct (Hpad) with (p := pad id) (rnd := rnd k (pad id)) (s := mkFull [] [] false (S k)) (c := @nil byte) as (s' & pre & E1 & Hp & Hr & _).
  - intros s c o HR Hc Ho.
    destruct (BlockProofs.bb_step_ok _ _ (full_backend_ok A hmac (dkey id) (mkey id) id bs iv_size hs (v_check E) (v_sparse E) (v_rnd E) (v_fuel E) (so_full _ HE) None)
      s c o HR ltac:(rewrite bk_maxn_full; exact Hc) ltac:(rewrite bk_maxn_full; exact Ho)) as (s1 & Hs & HR1 & _).
    exists s1. auto.
  - apply FRep_fresh.
  - cbn [length]. lia.
  - apply pad_le.
  - rewrite (fe_rnd _ _ _ _ _ _ (so_full _ HE)). lia.
  - rewrite E1. eexists. split; [reflexivity|]. unfold fo_init, initialize_empty. rewrite N.eqb_refl. cbn [fo_s fo_dirty fo_cache].
    assert (Hm : (perm mod 512 + ty * 4096 < 2 ^ 32)%N) by (pose proof (N.mod_lt perm 512 ltac:(discriminate)); lia).
    unfold PRep in Hr. rewrite skipn_nil in Hr.
    constructor; cbn [fo_attrs a_mode a_nlink i_mode i_nlink]; try reflexivity.
    + split.
      * unfold flags_of. cbn [a_mode a_uid a_gid a_nlink a_root_page a_start_free a_num_free]. unfold u32_max.
        pose proof (so_uid _ HE). pose proof (so_gid _ HE). repeat (constructor; [first [assumption|lia]|]). constructor.
      * cbn [a_atime a_mtime a_ctime a_birth]. assert (Hz : ts_in_range zero_time) by (split; cbn; lia). destruct store_time; auto.
    + exists pre, None. split; [exact Hp|]. split; [discriminate|]. unfold ocont. cbn [i_data i_dir fo_cache fo_s].
      destruct (_ =? TDIR)%N.
      * split; [reflexivity|]. apply dir_new; cbn; try reflexivity; [exact Hr|left; reflexivity].
      * split; [reflexivity|]. split; [reflexivity|]. split; [exact Hr|]. cbn. lia.
Qed.
End Obj.
