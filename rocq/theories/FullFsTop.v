(** Every operation keeps the accounts and has just its effect on names. *)
From Coq Require Import Strings.String Lia.
From Verif Require Import Base BaseLemmas TextModel NameModel BtreeModel BtreeSpec FullFsModel FullFsSpec FullFsProofs FullFsPath FullFsInv.
Local Open Scope list_scope.

Section Top.
Variable cmp : bytes -> bytes -> comparison.
Hypothesis Hcmp : cmp_ok cmp.
Notation NI := (name_in cmp).
Notation IV := (Inv cmp).

Lemma beq_sym a b : bytes_eqb a b = bytes_eqb b a.
Proof.
  destruct (bytes_eqb a b) eqn:E1, (bytes_eqb b a) eqn:E2; try reflexivity.
  - apply bytes_eqb_eq in E1. apply bytes_eqb_neq in E2. congruence.
  - apply bytes_eqb_eq in E2. apply bytes_eqb_neq in E1. congruence.
Qed.

Lemma Inv_perm pos pos' neg st : (forall id, occ id pos = occ id pos') -> IV pos neg st -> IV pos' neg st.
Proof.
  intros H Hv. assert (P : forall id, In id pos <-> In id pos') by (intros id; rewrite !occ_in, H; reflexivity).
  constructor; try apply Hv.
  - destruct (iv_rootref _ _ _ _ Hv) as [H1 H2]. split; [exact H1|]. now rewrite <- P.
  - intros id nd Hg. rewrite <- H. now apply (iv_nlink _ _ _ _ Hv).
  - intros id Hi. apply (iv_pos _ _ _ _ Hv). now apply P.
  - intros id nd Hg. rewrite <- P. now apply (iv_garbage _ _ _ _ Hv id nd).
  - intros id nd Hg Ht. rewrite <- H. now apply (iv_once _ _ _ _ Hv id nd).
  - intros id nd Hg Hr Hz. rewrite <- P. now apply (iv_unlinked _ _ _ _ Hv id nd).
Qed.
Lemma Inv_opened pos neg st l : IV pos neg st -> (forall id, In id (opened st) -> In id l) -> (forall id, In id l -> get st id <> None) ->
  IV pos neg (mkFfs (nodes st) l).
Proof.
  intros Hv H1 H2. constructor; try exact (iv_ids _ _ _ _ Hv); try exact (iv_root _ _ _ _ Hv); try exact (iv_rootref _ _ _ _ Hv);
      try exact (iv_nlink _ _ _ _ Hv); try exact (iv_entries _ _ _ _ Hv); try exact (iv_pos _ _ _ _ Hv);
      try exact (iv_once _ _ _ _ Hv); try exact (iv_dironly _ _ _ _ Hv); try exact (iv_names _ _ _ _ Hv);
      try exact (iv_unlinked _ _ _ _ Hv); try exact (iv_types _ _ _ _ Hv); try exact H2.
  intros id nd Hg. destruct (iv_garbage _ _ _ _ Hv id nd Hg) as [H|[H|[H|H]]]; auto.
Qed.
Lemma Inv_root_parent pos neg st : IV pos neg st -> exists nd, get st root_id = Some nd /\ i_parent nd = root_id.
Proof. intros Hv. destruct (iv_root _ _ _ _ Hv) as (nd & H1 & _ & H2). eauto. Qed.

Lemma nlink_bound pos st x nx : IV pos [] st -> get st x = Some nx -> x <> root_id -> (i_nlink nx <= N.of_nat (size st + occ x pos))%N.
Proof.
  intros Hv Hx Hr. pose proof (iv_nlink _ _ _ _ Hv x nx Hx) as H. unfold root_bonus in H.
  assert (E : bytes_eqb x root_id = false) by now apply bytes_eqb_neq. rewrite E in H. cbn [occ filter length] in H.
  pose proof (refs_size st x). lia.
Qed.
Lemma open_typed pos neg st x nx : IV pos neg st -> get st x = Some nx -> x <> root_id -> open_as x (i_type nx) st = Ok (x, i_type nx).
Proof.
  intros Hv Hx Hr. unfold open_as. assert (bytes_eqb x root_id = false) as -> by now apply bytes_eqb_neq. rewrite Hx.
  destruct (iv_types _ _ _ _ Hv x nx Hx) as [->|[->| ->]]; reflexivity.
Qed.

(** ** Names after a change *)
Lemma nsame_refl f : same_names f f. Proof. now intros d n. Qed.
Lemma nsame_trans f g h : same_names f g -> same_names g h -> same_names f h. Proof. intros H1 H2 d n. now rewrite H1. Qed.
Lemma nset_cong f g d n v : same_names f g -> same_names (set_name cmp f d n v) (set_name cmp g d n v).
Proof. intros H d' n'. unfold set_name. now rewrite H. Qed.
Lemma sf_nsame st st' : same_files st st' -> same_names (NI st') (NI st).
Proof. intros H d n. symmetry. now apply sf_name_in. Qed.

Lemma names_drop st d nd n : get st d = Some nd ->
  same_names (NI (put st d (with_dir (drop_name cmp n (i_dir nd)) nd))) (set_name cmp (NI st) d n None).
Proof.
  intros Hg d' n'. unfold set_name. rewrite !find_name_in, get_put. rewrite (beq_sym d' d).
  destruct (bytes_eqb d d') eqn:E; cbn [andb]; [|reflexivity]. apply bytes_eqb_eq in E. subst d'. cbn [with_dir i_dir]. rewrite Hg.
  rewrite (same_sym cmp Hcmp n' n). destruct (same_name cmp n n') eqn:Es.
  - now rewrite (find_drop_same cmp Hcmp _ _ _ Es).
  - now rewrite (find_drop_other cmp Hcmp _ _ _ Es).
Qed.
Lemma names_add st d nd n x ty : get st d = Some nd ->
  same_names (NI (put st d (with_dir (mkEntry n x ty :: i_dir nd) nd))) (set_name cmp (NI st) d n (Some (x, ty))).
Proof.
  intros Hg d' n'. unfold set_name. rewrite !find_name_in, get_put. rewrite (beq_sym d' d).
  destruct (bytes_eqb d d') eqn:E; cbn [andb]; [|reflexivity]. apply bytes_eqb_eq in E. subst d'. cbn [with_dir i_dir]. rewrite Hg.
  unfold find_name at 1. cbn [find e_name]. destruct (same_name cmp n' n) eqn:Es; reflexivity.
Qed.
Lemma names_keep st x nx nx' : get st x = Some nx -> i_dir nx' = i_dir nx -> same_names (NI (put st x nx')) (NI st).
Proof.
  intros Hg Hd d n. rewrite !find_name_in, get_put. destruct (bytes_eqb x d) eqn:E; [|reflexivity].
  apply bytes_eqb_eq in E. subst d. now rewrite Hg, Hd.
Qed.
Lemma names_new st x nx : get st x = None -> i_dir nx = [] -> same_names (NI (put st x nx)) (NI st).
Proof.
  intros Hg Hd d n. rewrite !find_name_in, get_put. destruct (bytes_eqb x d) eqn:E; [|reflexivity].
  apply bytes_eqb_eq in E. subst d. now rewrite Hg, Hd.
Qed.
Lemma names_unlink st st' x nx : get st x = Some nx -> (forall id, id <> x -> get st' id = get st id) ->
  (get st' x = Some (with_nlink (i_nlink nx - 1) nx) \/ (get st' x = None /\ i_dir nx = [])) -> same_names (NI st') (NI st).
Proof.
  intros Hx Ho Hx' d n. rewrite !find_name_in. destruct (list_eq_dec Byte.byte_eq_dec d x) as [->|Hne]; [|now rewrite Ho].
  rewrite Hx. destruct Hx' as [->|[-> ->]]; reflexivity.
Qed.

Lemma kept_refl st : same_contents st st.
Proof. intros id nd H. eauto. Qed.
Lemma kept_trans a b c : same_contents a b -> same_contents b c -> same_contents a c.
Proof. intros H1 H2 id nd H. destruct (H2 _ _ H) as (n1 & G1 & -> & ->). now apply H1. Qed.
Lemma kept_sf st st' : same_files st st' -> same_contents st st'.
Proof.
  intros H id nd' Hg. destruct (sf_get_some _ _ _ _ (sf_sym _ _ H) Hg) as (nd & Hg0 & Hu). apply unp_fields in Hu.
  exists nd. split; [exact Hg0|]. destruct Hu as (-> & _ & _ & ->). auto.
Qed.
Lemma kept_put st x nx nx' : get st x = Some nx -> i_mode nx' = i_mode nx -> i_data nx' = i_data nx -> same_contents st (put st x nx').
Proof.
  intros Hx Hm Hd id nd'. rewrite get_put. destruct (bytes_eqb x id) eqn:E; [|eauto].
  apply bytes_eqb_eq in E. subst id. intros [= <-]. eauto.
Qed.
Lemma kept_unlink st st' x nx : get st x = Some nx -> (forall id, id <> x -> get st' id = get st id) ->
  (get st' x = Some (with_nlink (i_nlink nx - 1) nx) \/ (get st' x = None /\ i_dir nx = [])) -> same_contents st st'.
Proof.
  intros Hx Ho Hx' id nd' Hg. destruct (list_eq_dec Byte.byte_eq_dec id x) as [->|Hne].
  - destruct Hx' as [E|[E _]]; [|congruence]. rewrite E in Hg. injection Hg as <-. exists nx. auto.
  - rewrite Ho in Hg by exact Hne. eauto.
Qed.

(** What stays of [on] and [linked] along the way. *)
Lemma on_sf st st' h : same_files st st' -> on st h -> on st' h.
Proof.
  intros H (nd & Hg & Ht). destruct (sf_get_some _ _ _ _ H Hg) as (nd' & Hg' & Hu). exists nd'. split; [exact Hg'|].
  now rewrite (unp_type _ _ Hu).
Qed.
Lemma on_put st h x nx nx' : on st h -> get st x = Some nx -> i_mode nx' = i_mode nx -> on (put st x nx') h.
Proof.
  intros (nd & Hg & Ht) Hx Hm. unfold on. rewrite get_put. destruct (bytes_eqb x (fst h)) eqn:E; [|eauto].
  apply bytes_eqb_eq in E. subst x. exists nx'. split; [reflexivity|]. rewrite <- Ht. assert (nd = nx) by congruence. subst. unfold i_type. now rewrite Hm.
Qed.
Definition linked (pos : list bytes) (st : ffs) (d : bytes) : Prop := d = root_id \/ refs st d > 0 \/ In d pos.
Lemma refs_drop pos neg st d nd n e id : IV pos neg st -> get st d = Some nd -> find_name cmp n (i_dir nd) = Some e ->
  refs (put st d (with_dir (drop_name cmp n (i_dir nd)) nd)) id + (if bytes_eqb (e_id e) id then 1 else 0) = refs st id.
Proof.
  intros Hv Hg Hf. pose proof (refs_put st d nd (with_dir (drop_name cmp n (i_dir nd)) nd) id (iv_ids _ _ _ _ Hv) Hg) as H.
  cbn [with_dir i_dir] in H. destruct (cnt_drop cmp Hcmp n (i_dir nd) e id (iv_names _ _ _ _ Hv _ _ Hg) Hf) as [C _]. lia.
Qed.
Lemma linked_drop pos neg st d nd n e y : IV pos neg st -> get st d = Some nd -> find_name cmp n (i_dir nd) = Some e ->
  linked pos st y -> linked (e_id e :: pos) (put st d (with_dir (drop_name cmp n (i_dir nd)) nd)) y.
Proof.
  intros Hv Hg Hf [H|[H|H]]; [now left| |right; right; now right].
  pose proof (refs_drop _ _ _ _ _ _ _ y Hv Hg Hf) as R. destruct (bytes_eqb (e_id e) y) eqn:E.
  - apply bytes_eqb_eq in E. right. right. now left.
  - right. left. lia.
Qed.
Lemma linked_sf pos st st' d : same_files st st' -> linked pos st d -> linked pos st' d.
Proof. intros H. unfold linked. now rewrite (sf_refs _ _ d H). Qed.
Lemma linked_add pos neg st d nd n x ty y : IV (x :: pos) neg st -> get st d = Some nd ->
  linked (x :: pos) st y -> linked pos (put st d (with_dir (mkEntry n x ty :: i_dir nd) nd)) y.
Proof.
  intros Hv Hg. pose proof (refs_put st d nd (with_dir (mkEntry n x ty :: i_dir nd) nd) y (iv_ids _ _ _ _ Hv) Hg) as H.
  cbn [with_dir i_dir] in H. rewrite cnt_cons in H. cbn [e_id] in H. unfold linked.
  intros [H1|[H1|[H1|H1]]]; auto.
  - right. left. lia.
  - subst y. rewrite bytes_eqb_refl in H. right. left. lia.
Qed.

Lemma place st st1 path base n : same_files st st1 -> designates cmp st path (fst base) n -> on st1 base -> place_ok cmp st path -> snd base = TDIR /\ length n <= 255.
Proof.
  intros Hsf D (nd & Hg & Ht) Hp. destruct (Hp _ _ D) as [Hd Hl]. split; [|exact Hl].
  apply (sf_dir _ _ _ Hsf) in Hd. destruct Hd as (nd' & Hg' & Ht'). congruence.
Qed.
Lemma hold_Inv pos neg st id : IV pos neg st -> get st id <> None -> IV pos neg (hold id st).
Proof.
  intros Hv Hg. apply Inv_opened; [exact Hv|intros x Hx; now right|]. intros x [<-|Hx]; [exact Hg|now apply (iv_opened _ _ _ _ Hv)].
Qed.

Lemma base_err st path st1 e : IV [] [] st -> open_base cmp path st = (st1, Err e) -> base_fails cmp st path e.
Proof. intros Hv H. exact (open_base_err cmp [] [] path st Hv st1 e H). Qed.
Lemma base_fails_sf st st' path e : same_files st st' -> base_fails cmp st path e -> base_fails cmp st' path e.
Proof. intros H [X|[L ->]]; [left; eapply sf_fails; eassumption|right; split; [eapply sf_leads; eassumption|reflexivity]]. Qed.
Lemma at_place st st1 path base n e : same_files st st1 -> designates cmp st path (fst base) n -> on st1 base ->
  ((snd base <> TDIR /\ e = E_PERM) \/ (snd base = TDIR /\ length n > 255 /\ e = E_NAMETOOLONG)) -> bad_place cmp st path e.
Proof.
  intros Hsf D (nd & Hg & Ht) H. right. exists (fst base), n. split; [exact D|].
  destruct (sf_get_some _ _ _ _ (sf_sym _ _ Hsf) Hg) as (nd0 & Hg0 & Hu). pose proof (unp_type _ _ Hu).
  destruct H as [[H ->]|(H & Hl & ->)]; [left|right].
  - split; [|reflexivity]. intros (nd' & Hg' & Ht'). congruence.
  - split; [exists nd0; split; [exact Hg0|congruence]|auto].
Qed.
Lemma at_none st st1 path base n : same_files st st1 -> designates cmp st path (fst base) n -> on st1 base ->
  snd base = TDIR -> length n <= 255 -> NI st1 (fst base) n = None -> no_file cmp st path E_NOENT.
Proof.
  intros Hsf D (nd & Hg & Ht) H Hl Hn. right. exists (fst base), n. split; [exact D|].
  destruct (sf_get_some _ _ _ _ (sf_sym _ _ Hsf) Hg) as (nd0 & Hg0 & Hu). pose proof (unp_type _ _ Hu).
  split; [exists nd0; split; [exact Hg0|congruence]|]. split; [exact Hl|]. split; [|reflexivity]. rewrite (sf_name_in cmp _ _ _ _ Hsf). exact Hn.
Qed.

(** ** create *)
Definition valid_ty (ty : N) : Prop := ty = TREG \/ ty = TDIR \/ ty = TLINK.
Lemma new_type perm ty : ((perm mod 512 + ty * 4096) / 4096 = ty)%N.
Proof. rewrite N.div_add by lia. rewrite N.div_small; [reflexivity|]. pose proof (N.mod_lt perm 512). lia. Qed.

Lemma create_ok path perm ty newid bad st : IV [] [] st -> (N.of_nat (size st) < 2 ^ 32 - 1)%N -> valid_ty ty -> place_ok cmp st path ->
  forall st' r, create cmp path perm ty newid bad st = (st', r) ->
  IV [] [] st' /\ size st' <= size st + 1 /\ opened st' = opened st /\
  match r with
  | Ok h => h = (newid, ty) /\ get st newid = None /\
      (exists d n, designates cmp st path d n /\ NI st d n = None /\ same_names (NI st') (set_name cmp (NI st) d n (Some (newid, ty)))) /\
      (exists nd, get st' newid = Some nd /\ i_mode nd = (perm mod 512 + ty * 4096)%N /\ i_nlink nd = 1%N /\ i_dir nd = [] /\ i_data nd = []) /\
      (forall id nd', id <> newid -> get st' id = Some nd' -> exists nd, get st id = Some nd /\ i_mode nd' = i_mode nd /\ i_data nd' = i_data nd)
  | Err e => (e = EUndef -> bad = Some EUndef) /\ same_names (NI st') (NI st) /\ same_contents st st' /\
      (bad_place cmp st path e \/ bad = Some e \/ (bad = None /\ ((get st newid <> None /\ e = E_EXIST) \/ taken cmp st path e)))
  end.
Proof.
  intros Hv Hsz Hty Hplace st' r. unfold create. destruct (open_base cmp path st) as [st1 rb] eqn:Eb.
  destruct (open_base_ok cmp [] [] path st Hv st1 rb Eb) as (W1 & W2 & W3).
  pose proof (sf_size _ _ W1) as Hs1.
  assert (Hfail : forall e (why : Prop), (e = EUndef -> bad = Some EUndef) -> why -> IV [] [] st1 /\ size st1 <= size st + 1 /\ opened st1 = opened st /\ (e = EUndef -> bad = Some EUndef) /\ same_names (NI st1) (NI st) /\ same_contents st st1 /\ why).
  { intros e why He Hy. split; [exact W2|]. split; [lia|]. split; [now destruct W1|]. split; [exact He|]. split; [now apply sf_nsame|]. split; [now apply kept_sf|exact Hy]. }
  destruct rb as [[base n]|e]; [|intros [= <- <-]; apply Hfail; [intros ->; now elim (proj1 W3)|]; left; left; eapply base_err; eassumption].
  destruct W3 as (D & Hon & s & Hch & _).
  destruct (place _ _ _ _ _ W1 D Hon Hplace) as [Htd Hlen].
  destruct bad as [e|]; [intros [= <- <-]; apply Hfail; [intros ->; reflexivity|auto]|].
  destruct (get st1 newid) as [nx|] eqn:Enew.
  { intros [= <- <-]; apply Hfail; [discriminate|]. right. right. split; [reflexivity|]. left. split; [|reflexivity].
    destruct (sf_get_some _ _ _ _ (sf_sym _ _ W1) Enew) as (nd0 & -> & _). discriminate. }
  clear Hfail.
  set (nn := mkInode (perm mod 512 + ty * 4096) 1 [] [] root_id). cbv zeta. fold nn.
  assert (Htn : i_type nn = ty) by (unfold i_type, nn; cbn [i_mode]; apply new_type).
  destruct (new_Inv cmp [] [] st1 newid nn W2 Enew eq_refl eq_refl) as [Hv2 Hs2]; [rewrite Htn; exact Hty|easy|].
  set (st2 := put st1 newid nn) in *.
  assert (Hnr : newid <> root_id). { intros ->. destruct (iv_root _ _ _ _ W2) as (nr & Hr & _). congruence. }
  assert (Hbn : fst base <> newid). { intros E. destruct Hon as (nb & Hb & _). congruence. }
  assert (Hon2 : on st2 base). { destruct Hon as (nb & Hb & Ht). exists nb. split; [|exact Ht]. unfold st2. rewrite get_put_ne by congruence. exact Hb. }
  assert (Hlk : fst base = root_id \/ refs st2 (fst base) > 0 \/ In (fst base) [newid]).
  { destruct (linked_top cmp [] [] _ _ _ W2 Hch) as [E|E]; [now left|]. right. left.
    rewrite refs_cnt. unfold st2. cbn [put nodes]. rewrite cnt_put_new by exact Enew. rewrite refs_cnt in E. lia. }
  assert (Hnn : get st2 newid = Some nn) by apply get_put_eq.
  destruct (add_entry cmp base n newid ty st2) as [st3 ra] eqn:Ea. rewrite <- Htn in Ea at 1.
  pose proof (add_entry_ok cmp [] [] st2 base n newid nn Hv2 Hon2 Hlk Hnn st3 ra Ea) as A.
  assert (N2 : same_names (NI st2) (NI st)).
  { eapply nsame_trans; [|apply sf_nsame; exact W1]. apply names_new; [exact Enew|reflexivity]. }
  assert (Hst : get st newid = None).
  { pose proof (sf_get _ _ newid W1) as E. rewrite Enew in E. now destruct (get st newid). }
  assert (K2 : forall id nd', id <> newid -> get st2 id = Some nd' -> exists nd, get st id = Some nd /\ i_mode nd' = i_mode nd /\ i_data nd' = i_data nd).
  { intros id nd' Hne Hg. unfold st2 in Hg. rewrite get_put_ne in Hg by congruence. now apply (kept_sf _ _ W1). }
  destruct ra as [[|]|e].
  - intros [= <- <-]. destruct A as (nd & _ & _ & Hg & Hf & -> & Hv3 & Hs3). set (st3 := put st2 (fst base) _) in *.
    pose proof (sf_set_parent st3 newid (fst base)) as Hsf. split; [now apply Inv_set_parent|].
    split; [rewrite <- (sf_size _ _ Hsf); lia|]. split; [destruct Hsf as [_ <-]; now destruct W1|].
    split; [reflexivity|]. split; [exact Hst|]. split; [|split].
    + exists (fst base), n. split; [exact D|]. split.
      * rewrite <- N2. rewrite find_name_in, Hg, Hf. reflexivity.
      * eapply nsame_trans; [apply sf_nsame; exact Hsf|]. eapply nsame_trans; [apply names_add; exact Hg|]. rewrite Htn. now apply nset_cong.
    + rewrite get_set_parent, bytes_eqb_refl. unfold st3. rewrite get_put_ne by exact Hbn. rewrite Hnn. cbn [option_map]. eexists. split; [reflexivity|].
      cbn. auto.
    + intros id nd' Hne Hg'. rewrite get_set_parent in Hg'. assert (E : bytes_eqb newid id = false) by (apply bytes_eqb_neq; congruence). rewrite E in Hg'.
      unfold st3 in Hg'. rewrite get_put in Hg'. destruct (bytes_eqb (fst base) id) eqn:Eid; [|now apply K2].
      apply bytes_eqb_eq in Eid. subst id. injection Hg' as <-. destruct (K2 _ _ Hne Hg) as (nd0 & ?). exists nd0. auto.
  - intros [= <- <-]. destruct A as (Hsf & Hv3 & _ & _ & Hnm).
    destruct (sf_get_some _ _ _ _ Hsf Hnn) as (n3 & Hg3 & Hu3). pose proof (unp_fields _ _ Hu3) as (Hm3 & Hl3 & Hd3 & Hda3).
    destruct (unlink_Inv cmp [] st3 newid n3 Hv3 Hg3) as (U1 & U2 & U3 & U4 & U5).
    { rewrite Hl3. cbn. lia. }
    { intros _ _. rewrite Hd3. reflexivity. }
    split; [exact U1|]. split; [rewrite <- (sf_size _ _ Hsf) in U2; lia|]. split; [rewrite U3; destruct Hsf as [_ <-]; now destruct W1|].
    split; [discriminate|]. split; [|split].
    + eapply nsame_trans; [eapply names_unlink; eassumption|]. eapply nsame_trans; [apply sf_nsame; exact Hsf|exact N2].
    + intros id nd' Hg'. destruct (list_eq_dec Byte.byte_eq_dec id newid) as [->|Hne].
      * exfalso. destruct (iv_garbage _ _ _ _ U1 _ _ Hg') as [E|[E|[E|[]]]]; [now elim Hnr| |].
        -- assert (refs (unlink_node newid st3) newid <= refs st3 newid).
           { clear - U4 U5 Hg3 U1 Hv3. rewrite !refs_cnt. unfold unlink_node. rewrite Hg3. unfold finish.
             pose proof (refs_put_same st3 newid n3 (with_nlink (dec32 (i_nlink n3)) n3) newid (iv_ids _ _ _ _ Hv3) Hg3 eq_refl) as Hr. rewrite !refs_cnt in Hr.
             destruct (_ || _)%bool; [lia|]. rewrite get_put_eq. destruct (_ =? _)%N; [|lia]. cbn [nodes]. rewrite <- Hr.
             generalize (nodes (put st3 newid (with_nlink (dec32 (i_nlink n3)) n3))). clear. intros l.
             induction l as [|[i m] l IH]; cbn [ndel filter fst]; [lia|]. unfold ndel in IH.
             destruct (negb (bytes_eqb i newid)); unfold ent_of in *; cbn [flat_map snd]; rewrite ?cnt_app; lia. }
           pose proof (sf_refs _ _ newid Hsf) as R3. pose proof (iv_nlink _ _ _ _ Hv3 _ _ Hg3) as Hnl.
           rewrite Hl3 in Hnl. unfold root_bonus in Hnl. assert (Eb' : bytes_eqb newid root_id = false) by now apply bytes_eqb_neq.
           rewrite Eb', occ_self in Hnl. cbn in Hnl. lia.
        -- rewrite U3 in E. destruct Hsf as [_ <-] in E. cbn in E. apply (iv_opened _ _ _ _ W2) in E. congruence.
      * rewrite U4 in Hg' by exact Hne. destruct (kept_sf _ _ Hsf _ _ Hg') as (n2 & Hg2 & -> & ->). now apply K2.
    + right. right. split; [reflexivity|]. right. exists (fst base), n. split; [exact D|]. split; [|reflexivity]. rewrite <- N2. exact Hnm.
  - destruct A as (_ & _ & [[A _]|(_ & A & _)]); [contradiction|lia].
Qed.

(** ** unlink and rmdir *)
Lemma emptied st d nd n x nx : get st d = Some nd -> get st x = Some nx -> i_dir nx = [] ->
  exists nx', get (put st d (with_dir (drop_name cmp n (i_dir nd)) nd)) x = Some nx' /\ i_dir nx' = [] /\ i_mode nx' = i_mode nx.
Proof.
  intros Hd Hx He. rewrite get_put. destruct (bytes_eqb d x) eqn:E; [|eauto].
  apply bytes_eqb_eq in E. subst x. assert (nx = nd) by congruence. subst. eexists. split; [reflexivity|]. cbn [with_dir i_dir i_mode]. rewrite He. auto.
Qed.
Lemma not_full st st1 x nx : same_files st st1 -> ~ is_full_dir st x -> get st1 x = Some nx -> i_dir nx = [].
Proof.
  intros Hsf Hn Hg. destruct (i_dir nx) as [|e l] eqn:E; [reflexivity|]. elim Hn. apply (sf_full st1); [now apply sf_sym|].
  exists nx. split; [exact Hg|congruence].
Qed.

Lemma remove_ok rmdir path st : IV [] [] st -> (N.of_nat (size st) < 2 ^ 32 - 1)%N ->
  (forall d n x, designates cmp st path d n -> NI st d n = Some x -> (rmdir = true -> is_dir st (fst x)) /\ ~ is_full_dir st (fst x)) ->
  forall st' r, do_remove cmp rmdir path st = (st', r) ->
  IV [] [] st' /\ size st' <= size st /\ opened st' = opened st /\ same_contents st st' /\
  match r with
  | Ok _ => exists d n x, designates cmp st path d n /\ NI st d n = Some x /\ same_names (NI st') (set_name cmp (NI st) d n None)
  | Err e => e <> EUndef /\ same_names (NI st') (NI st) /\ no_file cmp st path e
  end.
Proof.
  intros Hv Hsz Hc st' r. unfold do_remove. destruct (open_base cmp path st) as [st1 rb] eqn:Eb.
  destruct (open_base_ok cmp [] [] path st Hv st1 rb Eb) as (W1 & W2 & W3).
  pose proof (sf_size _ _ W1) as Hs1.
  destruct rb as [[base n]|e].
  2:{ intros [= <- <-]. split; [exact W2|]. split; [lia|]. split; [now destruct W1|]. split; [now apply kept_sf|]. split; [apply W3|]. split; [now apply sf_nsame|]. left. left. eapply base_err; eassumption. }
  destruct W3 as (D & Hon & s & Hch & _).
  destruct (remove_entry cmp base n st1) as [st2 rr] eqn:Er.
  pose proof (remove_entry_ok cmp Hcmp [] [] st1 base n W2 Hon st2 rr Er) as A.
  destruct rr as [[e|]|er].
  3:{ intros [= <- <-]. destruct A as (He & -> & A). split; [exact W2|]. split; [lia|]. split; [now destruct W1|]. split; [now apply kept_sf|]. split; [exact He|]. split; [now apply sf_nsame|]. left. eapply at_place; eassumption. }
  2:{ intros [= <- <-]. destruct A as (Hsf & Hv2 & A1 & A2 & A3). pose proof (sf_trans _ _ _ W1 Hsf) as W. pose proof (sf_size _ _ W).
      split; [exact Hv2|]. split; [lia|]. split; [now destruct W|]. split; [now apply kept_sf|]. split; [discriminate|]. split; [now apply sf_nsame|]. exact (at_none _ _ _ _ _ W1 D Hon A1 A2 A3). }
  destruct A as (nd & Htd & Hlen & Hg & Hf & -> & Hv2 & Hs2). set (st2 := put st1 (fst base) _) in *.
  destruct (find_entry cmp _ _ _ _ _ Hg Hf) as [Hall _].
  destruct (open_entry cmp _ _ _ _ W2 Hall) as (_ & (nx & Hx & Htx) & Hxr). cbn [fst snd] in Hx, Htx.
  assert (Hnm : NI st (fst base) n = Some (e_id e, e_type e)).
  { rewrite (sf_name_in cmp _ _ _ _ W1). rewrite find_name_in, Hg, Hf. reflexivity. }
  destruct (Hc _ _ _ D Hnm) as [Hdir Hfull]. cbn [fst] in Hdir, Hfull.
  pose proof (not_full _ _ _ _ W1 Hfull Hx) as Hemp.
  destruct (emptied _ _ _ n _ _ Hg Hx Hemp) as (nx2 & Hx2 & Hd2 & Hm2). fold st2 in Hx2.
  assert (Ht2 : i_type nx2 = e_type e) by (rewrite <- Htx; unfold i_type; now rewrite Hm2).
  rewrite <- Ht2. rewrite (open_typed _ _ _ _ _ Hv2 Hx2 Hxr).
  assert (Hgo : IV [] [] (unlink_node (e_id e) st2) /\ size (unlink_node (e_id e) st2) <= size st /\ opened (unlink_node (e_id e) st2) = opened st /\
     same_contents st (unlink_node (e_id e) st2) /\ exists d n x, designates cmp st path d n /\ NI st d n = Some x /\ same_names (NI (unlink_node (e_id e) st2)) (set_name cmp (NI st) d n None)).
  { pose proof (nlink_bound _ _ _ _ Hv2 Hx2 Hxr) as Hb. rewrite occ_self in Hb. cbn [occ filter length] in Hb.
    destruct (unlink_Inv cmp [] st2 (e_id e) nx2 Hv2 Hx2) as (U1 & U2 & U3 & U4 & U5).
    { lia. }
    { auto. }
    split; [exact U1|]. split; [lia|]. split; [rewrite U3; now destruct W1|]. split.
    - eapply kept_trans; [apply kept_sf; exact W1|]. eapply kept_trans; [|eapply kept_unlink; eassumption]. eapply kept_put; [exact Hg| |]; reflexivity.
    - exists (fst base), n, (e_id e, e_type e). split; [exact D|]. split; [exact Hnm|].
      eapply nsame_trans; [eapply names_unlink; eassumption|]. eapply nsame_trans; [apply names_drop; exact Hg|]. apply nset_cong. now apply sf_nsame. }
  destruct rmdir.
  - unfold cast_as. cbn [fst snd]. rewrite Hx2, N.eqb_refl.
    assert (Hd : is_dir st1 (e_id e)) by (apply (sf_dir st); auto). destruct Hd as (nx' & Hx' & Ht').
    assert (nx' = nx) by congruence. subst nx'. assert (Et : i_type nx2 = TDIR) by congruence. rewrite Et, N.eqb_refl, Hd2.
    intros [= <- <-]. exact Hgo.
  - intros [= <- <-]. exact Hgo.
Qed.

(** ** link *)
Lemma link_ok src dest st : IV [] [] st -> (N.of_nat (size st) < 2 ^ 32 - 1)%N ->
  (forall x, ends_at cmp st src true (Some x) -> ~ is_dir st x) ->
  forall st' r, do_link cmp src dest st = (st', r) ->
  IV [] [] st' /\ size st' <= size st + 1 /\ opened st' = opened st /\ same_contents st st' /\
  match r with
  | Ok _ => exists x nx d n, ends_at cmp st src true (Some x) /\ get st x = Some nx /\ designates cmp st dest d n /\ NI st d n = None /\
      same_names (NI st') (set_name cmp (NI st) d n (Some (x, i_type nx)))
  | Err e => e <> EUndef /\ same_names (NI st') (NI st) /\ (((fails_at cmp st src true e \/ (ends_at cmp st src true None /\ e = E_NOENT)) \/ bad_place cmp st dest e \/ taken cmp st dest e))
  end.
Proof.
  intros Hv Hsz Hc st' r. unfold do_link. destruct (open_all cmp src true st) as [st1 ro] eqn:Eo.
  destruct (open_all_ok cmp [] [] src true st Hv st1 ro Eo) as (V1 & V2 & V3).
  assert (Hfail : forall e stx (why : Prop), e <> EUndef -> why -> same_files st stx -> IV [] [] stx -> IV [] [] stx /\ size stx <= size st + 1 /\ opened stx = opened st /\ same_contents st stx /\ e <> EUndef /\ same_names (NI stx) (NI st) /\ why).
  { intros e stx why He Hy Hs Hi. pose proof (sf_size _ _ Hs). split; [exact Hi|]. split; [lia|]. split; [now destruct Hs|]. split; [now apply kept_sf|]. split; [exact He|]. split; [now apply sf_nsame|exact Hy]. }
  destruct ro as [[h|]|e]; [|intros [= <- <-]; apply Hfail; [discriminate|auto|exact V1|exact V2]|intros [= <- <-]; apply Hfail; [apply V3|left; left; eapply open_all_err; eassumption|exact V1|exact V2]].
  destruct V3 as (Hend & Hon & _).
  destruct (open_base cmp dest st1) as [st2 rb] eqn:Eb.
  destruct (open_base_ok cmp [] [] dest st1 V2 st2 rb Eb) as (W1 & W2 & W3).
  pose proof (sf_trans _ _ _ V1 W1) as Hsf.
  destruct rb as [[base n]|e]; [|intros [= <- <-]; apply Hfail; [apply W3|right; left; left; apply (base_fails_sf st1); [now apply sf_sym|]; eapply base_err; eassumption|exact Hsf|exact W2]].
  destruct W3 as (D & Honb & s & Hch & _).
  apply (sf_designates cmp _ st) in D; [|now apply sf_sym].
  destruct (on_sf _ _ _ W1 Hon) as (nd & Hg & Ht). rewrite Hg.
  destruct (sf_get_some _ _ _ _ (sf_sym _ _ Hsf) Hg) as (nd0 & Hg0 & Hu0).
  assert (Hnd : i_type nd <> TDIR).
  { intros E. apply (Hc _ Hend). exists nd0. split; [exact Hg0|]. now rewrite (unp_type _ _ Hu0). }
  pose proof (bump_Inv cmp [] [] st2 (fst h) nd W2 Hg Hnd) as Hv2.
  assert (Hlk : fst base = root_id \/ refs st2 (fst base) > 0 \/ In (fst base) [fst h]).
  { destruct (linked_top cmp [] [] _ _ _ W2 Hch) as [E|E]; auto. }
  destruct (add_entry cmp base n (fst h) (i_type nd) st2) as [st3 ra] eqn:Ea.
  pose proof (add_entry_ok cmp [] [fst h] st2 base n (fst h) nd Hv2 Honb Hlk Hg st3 ra Ea) as A.
  destruct ra as [[|]|e].
  - destruct A as (nb & Htb & Hl & Hgb & Hf & -> & Hv3 & Hs3). set (st3 := put st2 (fst base) _) in *.
    assert (Hg3 : exists nd3, get st3 (fst h) = Some nd3 /\ i_mode nd3 = i_mode nd /\ i_data nd3 = i_data nd).
    { unfold st3. rewrite get_put. destruct (bytes_eqb (fst base) (fst h)) eqn:E; [|eauto]. apply bytes_eqb_eq in E.
      assert (nb = nd) by congruence. subst. eauto. }
    destruct Hg3 as (nd3 & Hg3 & Hm3 & Hda3). rewrite Hg3. intros [= <- <-].
    pose proof (iv_nlink _ _ _ _ Hv3 _ _ Hg3) as Hnl. rewrite occ_self in Hnl. cbn [occ filter length] in Hnl.
    pose proof (refs_size st3 (fst h)) as Hrs. pose proof (sf_size _ _ Hsf) as Hs0.
    assert (Hnr : root_bonus (fst h) = 0).
    { unfold root_bonus. destruct (bytes_eqb (fst h) root_id) eqn:E; [|reflexivity]. apply bytes_eqb_eq in E. exfalso.
      destruct (iv_root _ _ _ _ W2) as (nr & Hr & Htr & _). rewrite E in Hg. congruence. }
    assert (Hv4 := inc_Inv cmp [] [] st3 (fst h) nd3 Hv3 Hg3 ltac:(lia)). set (st4 := put st3 _ _) in *.
    assert (Hs4 : size st4 = size st3).
    { pose proof (size_put st3 (fst h) nd3 (with_nlink (inc32 (i_nlink nd3)) nd3) (iv_ids _ _ _ _ Hv3) Hg3) as H. cbn [with_nlink i_dir] in H. fold st4 in H. lia. }
    split; [exact Hv4|]. split; [lia|]. split; [now destruct Hsf|]. split.
    + eapply kept_trans; [apply kept_sf; exact Hsf|]. apply (kept_trans _ st3); [eapply kept_put; [exact Hgb| |]; reflexivity|].
      eapply kept_put; [exact Hg3| |]; reflexivity.
    + exists (fst h), nd0, (fst base), n. split; [exact Hend|]. split; [exact Hg0|]. split; [exact D|]. split.
      * rewrite (sf_name_in cmp _ _ _ _ Hsf). rewrite find_name_in, Hgb, Hf. reflexivity.
      * eapply nsame_trans; [eapply names_keep; [exact Hg3|reflexivity]|]. eapply nsame_trans; [apply names_add; exact Hgb|].
        rewrite (unp_type _ _ Hu0). apply nset_cong. now apply sf_nsame.
  - intros [= <- <-]. destruct A as (Hs3 & Hv3 & _ & _ & A). apply Hfail; [discriminate| |eapply sf_trans; eassumption|].
    { right. right. exists (fst base), n. split; [exact D|]. split; [|reflexivity]. rewrite (sf_name_in cmp _ _ _ _ Hsf). exact A. }
    apply (Inv_sf cmp [] [] st2); [exact W2|exact Hs3|]. eapply Inv_root_parent. exact Hv3.
  - intros [= <- <-]. destruct A as (He & -> & A). apply Hfail; [exact He| |exact Hsf|exact W2]. right. left. eapply at_place; eassumption.
Qed.

(** ** rename *)
Lemma add_true pos neg st h n x nx ty : IV (x :: pos) neg st -> on st h -> snd h = TDIR -> length n <= 255 ->
  linked (x :: pos) st (fst h) -> get st x = Some nx -> ty = i_type nx -> NI st (fst h) n = None ->
  exists nd, get st (fst h) = Some nd /\
    add_entry cmp h n x ty st = (put st (fst h) (with_dir (mkEntry n x ty :: i_dir nd) nd), Ok true) /\
    IV pos neg (put st (fst h) (with_dir (mkEntry n x ty :: i_dir nd) nd)) /\
    size (put st (fst h) (with_dir (mkEntry n x ty :: i_dir nd) nd)) = size st + 1.
Proof.
  intros Hv Hon Htd Hl Hlk Hx -> Hnm. destruct (add_entry cmp h n x (i_type nx) st) as [st' r] eqn:Ea.
  pose proof (add_entry_ok cmp pos neg st h n x nx Hv Hon Hlk Hx st' r Ea) as A.
  destruct r as [[|]|e].
  - destruct A as (nd & _ & _ & Hg & _ & -> & Hv' & Hs). exists nd. auto.
  - destruct A as (_ & _ & _ & _ & A). contradiction.
  - destruct A as (_ & _ & [[A _]|(_ & A & _)]); [contradiction|lia].
Qed.

Lemma typed_put st d nd m x nx : get st d = Some nd -> get st x = Some nx ->
  exists nx', get (put st d (with_dir m nd)) x = Some nx' /\ i_type nx' = i_type nx.
Proof.
  intros Hd Hx. rewrite get_put. destruct (bytes_eqb d x) eqn:E; [|eauto]. apply bytes_eqb_eq in E. subst.
  assert (nx = nd) by congruence. subst. eexists. split; [reflexivity|reflexivity].
Qed.

Lemma rename_ok from to st : IV [] [] st -> (N.of_nat (size st) < 2 ^ 32 - 1)%N -> place_ok cmp st to ->
  (forall d n x d' n' y, designates cmp st from d n -> NI st d n = Some x ->
        designates cmp st to d' n' -> NI st d' n' = Some y -> fst x <> fst y -> ~ is_full_dir st (fst y)) ->
  forall st' r, do_rename cmp from to st = (st', r) ->
  IV [] [] st' /\ size st' <= size st /\ opened st' = opened st /\ same_contents st st' /\
  match r with
  | Ok _ => renamed cmp st from to st'
  | Err e => e <> EUndef /\ same_names (NI st') (NI st) /\ (no_file cmp st from e \/ base_fails cmp st to e)
  end.
Proof.
  intros Hv Hsz Hplace Hc st' r. unfold do_rename. destruct (open_base cmp from st) as [st1 rb] eqn:Eb.
  destruct (open_base_ok cmp [] [] from st Hv st1 rb Eb) as (V1 & V2 & V3).
  assert (Hfail : forall e stx (why : Prop), e <> EUndef -> why -> same_files st stx -> IV [] [] stx -> IV [] [] stx /\ size stx <= size st /\ opened stx = opened st /\ same_contents st stx /\ e <> EUndef /\ same_names (NI stx) (NI st) /\ why).
  { intros e stx why He Hy Hs Hi. pose proof (sf_size _ _ Hs). split; [exact Hi|]. split; [lia|]. split; [now destruct Hs|]. split; [now apply kept_sf|]. split; [exact He|]. split; [now apply sf_nsame|exact Hy]. }
  destruct rb as [[bf nf]|e]; [|intros [= <- <-]; apply Hfail; [apply V3|left; left; left; eapply base_err; eassumption|exact V1|exact V2]].
  destruct V3 as (Df & Honf1 & sf & Hchf & _).
  destruct (open_base cmp to st1) as [st2 rb2] eqn:Eb2.
  destruct (open_base_ok cmp [] [] to st1 V2 st2 rb2 Eb2) as (W1 & W2 & W3).
  pose proof (sf_trans _ _ _ V1 W1) as Hsf.
  destruct rb2 as [[bt nt]|e]; [|intros [= <- <-]; apply Hfail; [apply W3|right; apply (base_fails_sf st1); [now apply sf_sym|]; eapply base_err; eassumption|exact Hsf|exact W2]].
  destruct W3 as (Dt & Hont & s & Hcht & _).
  apply (sf_designates cmp _ st) in Dt; [|now apply sf_sym].
  destruct (place _ _ _ _ _ Hsf Dt Hont Hplace) as [Htd Hlt].
  pose proof (on_sf _ _ _ W1 Honf1) as Honf.
  assert (Lt : linked [] st2 (fst bt)) by (destruct (linked_top cmp [] [] _ _ _ W2 Hcht) as [E|E]; [now left|right; now left]).
  assert (Lf : linked [] st2 (fst bf)).
  { apply (linked_sf _ st1); [exact W1|]. destruct (linked_top cmp [] [] _ _ _ V2 Hchf) as [E|E]; [now left|right; now left]. }
  pose proof (sf_size _ _ Hsf) as Hs2. pose proof (sf_nsame _ _ Hsf) as Hn2.
  destruct (remove_entry cmp bf nf st2) as [st3 rr] eqn:Er.
  pose proof (remove_entry_ok cmp Hcmp [] [] st2 bf nf W2 Honf st3 rr Er) as A.
  destruct rr as [[ef|]|er].
  3:{ intros [= <- <-]. destruct A as (He & -> & A). apply Hfail; [exact He| |exact Hsf|exact W2]. left. left. eapply at_place; eassumption. }
  2:{ intros [= <- <-]. destruct A as (Hs3 & Hv3 & A1 & A2 & A3). apply Hfail; [discriminate| |eapply sf_trans; eassumption|exact Hv3].
      left. eapply at_none; eassumption. }
  destruct A as (nf0 & Htf & Hlf & Hgf & Hff & -> & Hv3 & Hs3). set (st3 := put st2 (fst bf) _) in *.
  destruct (find_entry cmp _ _ _ _ _ Hgf Hff) as [Hall _].
  destruct (open_entry cmp _ _ _ _ W2 Hall) as (_ & (nx & Hx & Htx) & Hxr). cbn [fst snd] in Hx, Htx.
  assert (Hnf : NI st (fst bf) nf = Some (e_id ef, e_type ef)).
  { rewrite <- Hn2. rewrite find_name_in, Hgf, Hff. reflexivity. }
  assert (N3 : same_names (NI st3) (set_name cmp (NI st) (fst bf) nf None)).
  { eapply nsame_trans; [apply names_drop; exact Hgf|]. now apply nset_cong. }
  assert (Hont3 : on st3 bt) by (eapply on_put; [exact Hont|exact Hgf|reflexivity]).
  assert (Honf3 : on st3 bf) by (eapply on_put; [exact Honf|exact Hgf|reflexivity]).
  assert (Lt3 : linked [e_id ef] st3 (fst bt)) by (eapply linked_drop; eassumption).
  assert (Lf3 : linked [e_id ef] st3 (fst bf)) by (eapply linked_drop; eassumption).
  destruct (typed_put st2 (fst bf) nf0 (drop_name cmp nf (i_dir nf0)) (e_id ef) nx Hgf Hx) as (nx3 & Hx3 & Htx3). fold st3 in Hx3.
  assert (K3 : same_contents st st3).
  { eapply kept_trans; [apply kept_sf; exact Hsf|]. eapply kept_put; [exact Hgf| |]; reflexivity. }
  destruct (remove_entry cmp bt nt st3) as [st4 rt] eqn:Et.
  pose proof (remove_entry_ok cmp Hcmp [e_id ef] [] st3 bt nt Hv3 Hont3 st4 rt Et) as A.
  destruct rt as [[et|]|er].
  3:{ destruct A as (_ & _ & [[A _]|(_ & A & _)]); [contradiction|lia]. }
  - destruct A as (nt0 & _ & _ & Hgt & Hft & -> & Hv4 & Hs4). set (st4 := put st3 (fst bt) _) in *.
    assert (Hnt3 : NI st3 (fst bt) nt = Some (e_id et, e_type et)) by (rewrite find_name_in, Hgt, Hft; reflexivity).
    assert (Hslot : bytes_eqb (fst bt) (fst bf) && same_name cmp nt nf = false).
    { rewrite N3 in Hnt3. unfold set_name in Hnt3. destruct (bytes_eqb (fst bt) (fst bf) && same_name cmp nt nf)%bool; [discriminate|reflexivity]. }
    assert (Hnt : NI st (fst bt) nt = Some (e_id et, e_type et)).
    { rewrite N3 in Hnt3. unfold set_name in Hnt3. rewrite Hslot in Hnt3. exact Hnt3. }
    assert (N4 : same_names (NI st4) (set_name cmp (NI st3) (fst bt) nt None)) by (apply names_drop; exact Hgt).
    assert (Hont4 : on st4 bt) by (eapply on_put; [exact Hont3|exact Hgt|reflexivity]).
    assert (Honf4 : on st4 bf) by (eapply on_put; [exact Honf3|exact Hgt|reflexivity]).
    assert (Lt4 : linked [e_id et; e_id ef] st4 (fst bt)) by (eapply linked_drop; eassumption).
    assert (Lf4 : linked [e_id et; e_id ef] st4 (fst bf)) by (eapply linked_drop; eassumption).
    destruct (typed_put st3 (fst bt) nt0 (drop_name cmp nt (i_dir nt0)) (e_id ef) nx3 Hgt Hx3) as (nx4 & Hx4 & Htx4). fold st4 in Hx4.
    assert (K4 : same_contents st st4).
    { eapply kept_trans; [exact K3|]. eapply kept_put; [exact Hgt| |]; reflexivity. }
    assert (Htn4 : NI st4 (fst bt) nt = None).
    { rewrite N4. unfold set_name. rewrite bytes_eqb_refl, (same_refl cmp Hcmp). reflexivity. }
    assert (Hfn4 : NI st4 (fst bf) nf = None).
    { rewrite N4. unfold set_name at 1. destruct (bytes_eqb (fst bf) (fst bt) && same_name cmp nf nt)%bool; [reflexivity|]. rewrite N3. unfold set_name. rewrite bytes_eqb_refl, (same_refl cmp Hcmp). reflexivity. }
    destruct (bytes_eqb (e_id ef) (e_id et)) eqn:Esame.
    + apply bytes_eqb_eq in Esame. rewrite <- Esame in *.
      assert (Hv4' : IV [e_id ef; e_id ef] [] st4) by exact Hv4.
      destruct (add_true _ _ st4 bf nf (e_id ef) nx4 (e_type ef) Hv4' Honf4 Htf Hlf Lf4 Hx4) as (nd5 & Hg5 & Ea5 & Hv5 & Hs5); [congruence|exact Hfn4|].
      rewrite Ea5. set (st5 := put st4 (fst bf) _) in *.
      assert (N5 : same_names (NI st5) (set_name cmp (NI st4) (fst bf) nf (Some (e_id ef, e_type ef)))) by (apply names_add; exact Hg5).
      assert (Hont5 : on st5 bt) by (eapply on_put; [exact Hont4|exact Hg5|reflexivity]).
      assert (Lt5 : linked [e_id ef] st5 (fst bt)) by (eapply linked_add; [exact Hv4'|exact Hg5|exact Lt4]).
      destruct (typed_put st4 (fst bf) nd5 (mkEntry nf (e_id ef) (e_type ef) :: i_dir nd5) (e_id ef) nx4 Hg5 Hx4) as (nx5 & Hx5 & Htx5). fold st5 in Hx5.
      assert (Htt : e_type et = e_type ef).
      { assert (Hin : In et (all_entries st3)) by (apply (find_entry cmp _ _ _ _ _ Hgt Hft)).
        destruct (iv_entries _ _ _ _ Hv3 et Hin) as (ny & Hy & Hty). rewrite <- Esame in Hy. congruence. }
      assert (Htn5 : NI st5 (fst bt) nt = None).
      { rewrite N5. unfold set_name. rewrite Hslot. exact Htn4. }
      destruct (add_true _ _ st5 bt nt (e_id ef) nx5 (e_type et) Hv5 Hont5 Htd Hlt Lt5 Hx5) as (nd6 & Hg6 & Ea6 & Hv6 & Hs6); [congruence|exact Htn5|].
      rewrite Ea6. set (st6 := put st5 (fst bt) _) in *. intros [= <- <-].
      assert (N6 : same_names (NI st6) (set_name cmp (NI st5) (fst bt) nt (Some (e_id ef, e_type et)))) by (apply names_add; exact Hg6).
      split; [exact Hv6|]. split; [lia|]. split; [now destruct Hsf|]. split.
      * eapply kept_trans; [exact K4|]. apply (kept_trans _ st5); [eapply kept_put; [exact Hg5| |]; reflexivity|]. eapply kept_put; [exact Hg6| |]; reflexivity.
      * exists (fst bf), nf, (fst bt), nt, (e_id ef, e_type ef). split; [exact Df|]. split; [exact Dt|]. split; [exact Hnf|]. left.
        exists (e_id ef, e_type et). split; [exact Hnt|]. split; [reflexivity|].
        intros d n. rewrite N6. unfold set_name at 1. destruct (bytes_eqb d (fst bt) && same_name cmp n nt)%bool eqn:E1.
        { apply andb_true_iff in E1. destruct E1 as [E1 E2]. apply bytes_eqb_eq in E1. subst d. rewrite <- Hnt.
          rewrite !find_name_in. destruct (get st (fst bt)); [|reflexivity]. now rewrite (find_same cmp Hcmp _ _ _ E2). }
        rewrite N5. unfold set_name at 1. destruct (bytes_eqb d (fst bf) && same_name cmp n nf)%bool eqn:E3.
        { apply andb_true_iff in E3. destruct E3 as [E3 E2]. apply bytes_eqb_eq in E3. subst d. rewrite <- Hnf.
          rewrite !find_name_in. destruct (get st (fst bf)); [|reflexivity]. now rewrite (find_same cmp Hcmp _ _ _ E2). }
        rewrite N4. unfold set_name. rewrite E1. rewrite N3. unfold set_name. rewrite E3. reflexivity.
    + apply bytes_eqb_neq in Esame.
      assert (Hv4' : IV [e_id ef; e_id et] [] st4).
      { eapply Inv_perm; [|exact Hv4]. intros id. rewrite !occ_cons. lia. }
      assert (Lt4' : linked [e_id ef; e_id et] st4 (fst bt)).
      { destruct Lt4 as [H|[H|H]]; [now left|right; now left|right; right; cbn in *; tauto]. }
      destruct (add_true _ _ st4 bt nt (e_id ef) nx4 (e_type ef) Hv4' Hont4 Htd Hlt Lt4' Hx4) as (nd5 & Hg5 & Ea5 & Hv5 & Hs5); [congruence|exact Htn4|].
      rewrite Ea5. set (st5 := put st4 (fst bt) _) in *.
      assert (N5 : same_names (NI st5) (set_name cmp (NI st4) (fst bt) nt (Some (e_id ef, e_type ef)))) by (apply names_add; exact Hg5).
      assert (Hfull : ~ is_full_dir st (e_id et)).
      { apply (Hc _ _ _ _ _ _ Df Hnf Dt Hnt). exact Esame. }
      (* the replaced file, all along *)
      assert (Hin3 : In et (all_entries st3)) by (apply (find_entry cmp _ _ _ _ _ Hgt Hft)).
      destruct (open_entry cmp _ _ _ _ Hv3 Hin3) as (_ & (ny3 & Hy3 & Hty3) & Hyr). cbn [fst snd] in Hy3, Hty3.
      assert (Hemp3 : i_dir ny3 = []).
      { unfold st3 in Hy3. rewrite get_put in Hy3. destruct (bytes_eqb (fst bf) (e_id et)) eqn:E.
        - apply bytes_eqb_eq in E. rewrite E in Hgf. pose proof (not_full _ _ _ _ Hsf Hfull Hgf) as H. injection Hy3 as <-. cbn [with_dir i_dir]. now rewrite H.
        - apply (not_full _ _ _ _ Hsf Hfull Hy3). }
      assert (Hne : fst bt <> e_id et).
      { intros E. rewrite E in Hgt. assert (ny3 = nt0) by congruence. subst. rewrite Hemp3 in Hft. discriminate Hft. }
      assert (Hy5 : get st5 (e_id et) = Some ny3).
      { unfold st5. rewrite get_put_ne by exact Hne. unfold st4. rewrite get_put_ne by exact Hne. exact Hy3. }
      rewrite <- Hty3. rewrite (open_typed _ _ _ _ _ Hv5 Hy5 Hyr).
      pose proof (nlink_bound _ _ _ _ Hv5 Hy5 Hyr) as Hb. rewrite occ_self in Hb. cbn [occ filter length] in Hb.
      destruct (unlink_Inv cmp [] st5 (e_id et) ny3 Hv5 Hy5) as (U1 & U2 & U3 & U4 & U5).
      { lia. }
      { auto. }
      intros [= <- <-]. split; [exact U1|]. split; [lia|]. split; [rewrite U3; now destruct Hsf|]. split.
      * eapply kept_trans; [exact K4|]. apply (kept_trans _ st5); [eapply kept_put; [exact Hg5| |]; reflexivity|]. eapply kept_unlink; eassumption.
      * exists (fst bf), nf, (fst bt), nt, (e_id ef, e_type ef). split; [exact Df|]. split; [exact Dt|]. split; [exact Hnf|]. right. split.
        { intros y Hy E. rewrite Hnt in Hy. injection Hy as <-. cbn in E. congruence. }
        eapply nsame_trans; [eapply names_unlink; eassumption|]. intros d n. rewrite N5. unfold set_name at 1.
        destruct (bytes_eqb d (fst bt) && same_name cmp n nt)%bool eqn:E1.
        { unfold set_name at 1. now rewrite E1. }
        rewrite N4. unfold set_name at 1. rewrite E1. rewrite N3. unfold set_name at 2. rewrite E1. reflexivity.
  - destruct A as (Hs4 & Hv4 & _ & _ & Hn3). pose proof (sf_size _ _ Hs4) as Hz4.
    pose proof (on_sf _ _ _ Hs4 Hont3) as Hont4. pose proof (linked_sf _ _ _ _ Hs4 Lt3) as Lt4.
    destruct (sf_get_some _ _ _ _ Hs4 Hx3) as (nx4 & Hx4 & Hu4). pose proof (unp_type _ _ Hu4) as Htx4.
    assert (Htn4 : NI st4 (fst bt) nt = None) by (rewrite <- (sf_name_in cmp _ _ _ _ Hs4); exact Hn3).
    destruct (add_true _ _ st4 bt nt (e_id ef) nx4 (e_type ef) Hv4 Hont4 Htd Hlt Lt4 Hx4) as (nd5 & Hg5 & Ea5 & Hv5 & Hs5); [congruence|exact Htn4|].
    rewrite Ea5. set (st5 := put st4 (fst bt) _) in *. intros [= <- <-].
    assert (N5 : same_names (NI st5) (set_name cmp (NI st4) (fst bt) nt (Some (e_id ef, e_type ef)))) by (apply names_add; exact Hg5).
    split; [exact Hv5|]. split; [lia|]. split; [destruct Hs4 as [_ H4]; destruct Hsf as [_ H2]; change (opened st4 = opened st); rewrite <- H4; cbn; congruence|]. split.
    + eapply kept_trans; [exact K3|]. eapply kept_trans; [apply kept_sf; exact Hs4|]. eapply kept_put; [exact Hg5| |]; reflexivity.
    + exists (fst bf), nf, (fst bt), nt, (e_id ef, e_type ef). split; [exact Df|]. split; [exact Dt|]. split; [exact Hnf|]. right. split.
      * intros y Hy E. rewrite N3 in Hn3. unfold set_name in Hn3. destruct (bytes_eqb (fst bt) (fst bf) && same_name cmp nt nf)%bool eqn:E1.
        -- apply andb_true_iff in E1. destruct E1 as [E1 E2]. apply bytes_eqb_eq in E1. rewrite (same_sym cmp Hcmp). auto.
        -- congruence.
      * eapply nsame_trans; [exact N5|]. apply nset_cong. eapply nsame_trans; [apply sf_nsame; exact Hs4|]. exact N3.
Qed.
End Top.
