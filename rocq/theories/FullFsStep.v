(** The effect of every operation, and histories. *)
From Coq Require Import Strings.String Lia.
From Verif Require Import Base BaseLemmas TextModel NameModel BtreeModel BtreeSpec FullFsModel FullFsSpec FullFsProofs FullFsPath FullFsInv FullFsTop.
Local Open Scope list_scope.

Lemma mod_keep m p : ((m / 512 * 512 + p mod 512) / 4096 = m / 4096)%N.
Proof.
  pose proof (N.mod_lt p 512 ltac:(lia)) as Hp.
  assert (E : (m / 4096 = m / 512 / 8)%N) by (rewrite N.div_div by lia; reflexivity). rewrite E.
  assert (E2 : ((m / 512 * 512 + p mod 512) / 4096 = (m / 512 * 512 + p mod 512) / 512 / 8)%N) by (rewrite N.div_div by lia; reflexivity).
  rewrite E2. f_equal. rewrite N.div_add_l by lia. rewrite (N.div_small (p mod 512)) by lia. lia.
Qed.
Lemma new_mode_keep c m : (new_mode c m / 4096 = m / 4096)%N.
Proof. destruct c; cbn [new_mode]; [apply mod_keep|reflexivity|reflexivity]. Qed.

Section Step.
Variable cmp : bytes -> bytes -> comparison.
Hypothesis Hcmp : cmp_ok cmp.
Notation NI := (name_in cmp).
Notation IV := (Inv cmp).

Definition good (o : fop) (st : ffs) (st' : ffs) (r : res fout) : Prop :=
  IV [] [] st' /\ size st' <= size st + 1 /\ effect cmp o st r st' /\ (well_called o st -> r <> Err EUndef).

Lemma changed_put st x nx nx' f : get st x = Some nx -> i_dir nx' = i_dir nx -> (i_mode nx', i_data nx') = f (i_mode nx, i_data nx) ->
  changed cmp st x f (put st x nx').
Proof.
  intros Hx Hd Hf. split; [eapply names_keep; eassumption|]. intros id nd'. rewrite get_put. rewrite (beq_sym id x).
  destruct (bytes_eqb x id) eqn:E; [|eauto]. apply bytes_eqb_eq in E. subst id. intros [= <-]. exists nx. auto.
Qed.
Lemma changed_sf st st1 x f st' : same_files st st1 -> changed cmp st1 x f st' -> changed cmp st x f st'.
Proof.
  intros H [C1 C2]. split; [eapply nsame_trans; [exact C1|now apply sf_nsame]|].
  intros id nd' Hg. destruct (C2 id nd' Hg) as (nd1 & H1 & E). destruct (kept_sf _ _ H _ _ H1) as (nd & Hg0 & Em & Ed).
  exists nd. split; [exact Hg0|]. now rewrite <- Em, <- Ed.
Qed.

Lemma fail_good o st st1 e : IV [] [] st1 -> same_files st st1 -> (well_called o st -> e <> EUndef) -> refused cmp o st e -> good o st st1 (Err e).
Proof.
  intros Hv Hs He Hy. pose proof (sf_size _ _ Hs). split; [exact Hv|]. split; [lia|]. split.
  - split; [exact Hy|]. split; [now apply sf_nsame|]. split; [now apply kept_sf|]. now destruct Hs.
  - intros W [= ->]. now apply He.
Qed.
Lemma remove_one_in x id l : In x l -> x = id \/ In x (remove_one id l).
Proof.
  induction l as [|y l IH]; [easy|]. cbn [remove_one]. destruct (bytes_eqb y id) eqn:E.
  - apply bytes_eqb_eq in E. intros [<-|H]; auto.
  - intros [<-|H]; [right; now left|]. destruct (IH H); [now left|right; now right].
Qed.
Lemma remove_one_sub x id l : In x (remove_one id l) -> In x l.
Proof.
  induction l as [|y l IH]; [easy|]. cbn [remove_one]. destruct (bytes_eqb y id).
  - intros H. now right.
  - intros [<-|H]; [now left|right; auto].
Qed.
Lemma bad_dec (bad : option err) (o : fop) st : (well_called o st -> bad <> Some EUndef) -> forall e, (e = EUndef -> bad = Some EUndef) -> well_called o st -> e <> EUndef.
Proof. intros H e He W ->. apply (H W). now apply He. Qed.

Ltac lost_none V := cbn [refused]; first [right; split; [exact V|reflexivity] | left; right; split; [exact V|reflexivity]].
Ltac lost_err E := cbn [refused]; first [left; eapply (open_all_err cmp [] []); eassumption | left; left; eapply (open_all_err cmp [] []); eassumption].
Theorem step_ok o st : IV [] [] st -> (N.of_nat (size st) < 2 ^ 32 - 1)%N -> careful cmp o st ->
  forall st' r, fs_step cmp o st = (st', r) -> good o st st' r.
Proof.
  intros Hv Hsz Hc st' r. destruct o as [path perm x bad|path perm x bad|target path x bad|src dest|path|path|from to|path trunc|path|id dir|id|id data|path len|path perm|path|path|id|id]; cbn [fs_step careful] in *.
  - destruct (create cmp path perm TREG x bad st) as [st1 rc] eqn:E.
    destruct (create_ok cmp path perm TREG x bad st Hv Hsz (or_introl eq_refl) Hc st1 rc E) as (C1 & C2 & C3 & C4).
    destruct rc as [h|e]; intros [= <- <-].
    + destruct C4 as (-> & D1 & D2 & D3 & D4). cbn [fst]. split; [|split; [exact C2|split; [|discriminate]]].
      * apply hold_Inv; [exact C1|]. destruct D3 as (nd & -> & _). discriminate.
      * split; [|split; [cbn [hold opened]; now rewrite C3|reflexivity]]. split; [exact D1|]. split; [exact D2|]. split; [|exact D4].
        destruct D3 as (nd & G1 & G2 & G3 & G4 & G5). exists nd. auto.
    + destruct C4 as (D1 & D2 & D3 & D4). split; [exact C1|]. split; [lia|]. split; [split; [exact D4|]; auto|]. intros W [= ->]. apply W. auto.
  - destruct (create cmp path perm TDIR x bad st) as [st1 rc] eqn:E.
    destruct (create_ok cmp path perm TDIR x bad st Hv Hsz (or_intror (or_introl eq_refl)) Hc st1 rc E) as (C1 & C2 & C3 & C4).
    destruct rc as [h|e]; intros [= <- <-].
    + destruct C4 as (-> & D1 & D2 & D3 & D4). split; [exact C1|]. split; [exact C2|split; [|discriminate]].
      split; [|exact C3]. split; [exact D1|]. split; [exact D2|]. split; [|exact D4].
      destruct D3 as (nd & G1 & G2 & G3 & G4 & G5). exists nd. auto.
    + destruct C4 as (D1 & D2 & D3 & D4). split; [exact C1|]. split; [lia|]. split; [split; [exact D4|]; auto|]. intros W [= ->]. apply W. auto.
  - destruct (create cmp path 420 TLINK x bad st) as [st1 rc] eqn:E.
    destruct (create_ok cmp path 420 TLINK x bad st Hv Hsz (or_intror (or_intror eq_refl)) Hc st1 rc E) as (C1 & C2 & C3 & C4).
    destruct rc as [h|e].
    + destruct C4 as (-> & D1 & D2 & D3 & D4). destruct D3 as (nd & G1 & G2 & G3 & G4 & G5).
      assert (Ht : i_type nd = TLINK) by (unfold i_type; rewrite G2; apply new_type).
      unfold cast_as. cbn [fst snd]. rewrite G1, Ht. rewrite !N.eqb_refl. intros [= <- <-].
      pose proof (size_put st1 x nd (with_data (arr_write (i_data nd) 0 target) nd) (iv_ids _ _ _ _ C1) G1) as Hs. cbn [with_data i_dir] in Hs.
      split; [eapply data_Inv; try eassumption; reflexivity|]. split; [lia|]. split; [|discriminate].
      split; [|exact C3]. split; [exact D1|]. split; [|split].
      * destruct D2 as (d & n & A1 & A2 & A3). exists d, n. split; [exact A1|]. split; [exact A2|].
        eapply nsame_trans; [eapply names_keep; [exact G1|reflexivity]|exact A3].
      * exists (with_data (arr_write (i_data nd) 0 target) nd). split; [apply get_put_eq|]. cbn [with_data i_mode i_nlink i_data i_dir]. rewrite G5. replace (arr_write [] 0 target) with target by (destruct target as [|b t]; [reflexivity|]; cbn [arr_write]; rewrite skipn_nil, app_nil_r; reflexivity). auto.
      * intros id nd' Hne Hg. rewrite get_put_ne in Hg by congruence. now apply D4.
    + intros [= <- <-]. destruct C4 as (D1 & D2 & D3 & D4). split; [exact C1|]. split; [lia|]. split; [split; [exact D4|]; auto|]. intros W [= ->]. apply W. auto.
  - intros E. destruct (link_ok cmp src dest st Hv Hsz Hc st' r E) as (C1 & C2 & C3 & C4 & C5).
    split; [exact C1|]. split; [exact C2|]. destruct r as [out|e].
    + split; [|discriminate]. split; [exact C4|]. split; [exact C3|exact C5].
    + destruct C5 as (C5 & C6 & C7). split; [split; [exact C7|]; auto|]. intros _ [= ->]. now apply C5.
  - intros E. destruct (remove_ok cmp Hcmp false path st Hv Hsz) with (st' := st') (r := r) as (C1 & C2 & C3 & C4 & C5); [|exact E|].
    { intros d n x D Hn. split; [discriminate|]. eapply Hc; eassumption. }
    split; [exact C1|]. split; [lia|]. destruct r as [out|e].
    + split; [|discriminate]. split; [exact C4|]. split; [exact C3|exact C5].
    + destruct C5 as (C5 & C6 & C7). split; [split; [exact C7|]; auto|]. intros _ [= ->]. now apply C5.
  - intros E. destruct (remove_ok cmp Hcmp true path st Hv Hsz) with (st' := st') (r := r) as (C1 & C2 & C3 & C4 & C5); [|exact E|].
    { intros d n x D Hn. destruct (Hc _ _ _ D Hn) as [H1 H2]. auto. }
    split; [exact C1|]. split; [lia|]. destruct r as [out|e].
    + split; [|discriminate]. split; [exact C4|]. split; [exact C3|exact C5].
    + destruct C5 as (C5 & C6 & C7). split; [split; [exact C7|]; auto|]. intros _ [= ->]. now apply C5.
  - intros E. destruct Hc as [Hp Hf]. destruct (rename_ok cmp Hcmp from to st Hv Hsz Hp Hf st' r E) as (C1 & C2 & C3 & C4 & C5).
    split; [exact C1|]. split; [lia|]. destruct r as [out|e].
    + split; [|discriminate]. split; [exact C4|]. split; [exact C3|exact C5].
    + destruct C5 as (C5 & C6 & C7). split; [split; [exact C7|]; auto|]. intros _ [= ->]. now apply C5.
  - destruct (open_all cmp path true st) as [st1 ro] eqn:E.
    destruct (open_all_ok cmp [] [] path true st Hv st1 ro E) as (V1 & V2 & V3). pose proof (sf_size _ _ V1) as Hs.
    destruct ro as [[h|]|e]; [|intros [= <- <-]; apply fail_good; [exact V2|exact V1|discriminate|destruct trunc; lost_none V3]|intros [= <- <-]; apply fail_good; [exact V2|exact V1|intros _; apply V3|destruct trunc; lost_err E]].
    destruct V3 as (Hend & (nd & Hg & Ht) & _). destruct (sf_get_some _ _ _ _ (sf_sym _ _ V1) Hg) as (nz & Hgz & Huz). pose proof (unp_type _ _ Huz) as Htz. destruct trunc.
    + unfold cast_as. rewrite Hg, Ht, N.eqb_refl. destruct (snd h =? TREG)%N eqn:Ez; [|apply N.eqb_neq in Ez; intros [= <- <-]; apply fail_good; [exact V2|exact V1|discriminate|]; cbn [refused]; right; exists (fst h), nz; split; [exact Hend|]; split; [exact Hgz|]; split; [congruence|reflexivity]].
      intros [= <- <-]. pose proof (size_put st1 (fst h) nd (with_data [] nd) (iv_ids _ _ _ _ V2) Hg) as Hs2. cbn [with_data i_dir] in Hs2.
      split; [|split; [change (size (put st1 (fst h) (with_data [] nd)) <= size st + 1); lia|split; [|discriminate]]].
      * apply hold_Inv; [eapply data_Inv; try eassumption; reflexivity|]. rewrite get_put_eq. discriminate.
      * exists (fst h). split; [reflexivity|]. split; [exact Hend|]. split; [cbn; f_equal; symmetry; apply V1|].
        apply (changed_sf st st1); [exact V1|]. refine (changed_put st1 (fst h) nd _ _ Hg _ _); reflexivity.
    + intros [= <- <-]. split; [|split; [change (size st1 <= size st + 1); lia|split; [|discriminate]]].
      * apply hold_Inv; [exact V2|congruence].
      * exists (fst h). split; [reflexivity|]. split; [exact Hend|]. split; [cbn; f_equal; symmetry; apply V1|].
        split; [exact (sf_nsame cmp _ _ V1)|]. intros id nd' Hg'. destruct (kept_sf _ _ V1 _ _ Hg') as (nd0 & H0 & Em & Ed).
        exists nd0. split; [exact H0|]. rewrite Em, Ed. now destruct (bytes_eqb id (fst h)).
  - destruct (open_all cmp path true st) as [st1 ro] eqn:E.
    destruct (open_all_ok cmp [] [] path true st Hv st1 ro E) as (V1 & V2 & V3). pose proof (sf_size _ _ V1) as Hs.
    destruct ro as [[h|]|e]; [|intros [= <- <-]; apply fail_good; [exact V2|exact V1|discriminate|lost_none V3]|intros [= <- <-]; apply fail_good; [exact V2|exact V1|intros _; apply V3|lost_err E]].
    destruct V3 as (Hend & (nd & Hg & Ht) & _). destruct (sf_get_some _ _ _ _ (sf_sym _ _ V1) Hg) as (nz & Hgz & Huz). pose proof (unp_type _ _ Huz) as Htz.
    destruct (snd h =? TDIR)%N eqn:Ez; [|apply N.eqb_neq in Ez; intros [= <- <-]; apply fail_good; [exact V2|exact V1|discriminate|]; cbn [refused]; right; exists (fst h), nz; split; [exact Hend|]; split; [exact Hgz|]; split; [congruence|reflexivity]].
    apply N.eqb_eq in Ez. intros [= <- <-]. split; [|split; [change (size st1 <= size st + 1); lia|split; [|discriminate]]].
    + apply hold_Inv; [exact V2|congruence].
    + exists (fst h), nz. split; [reflexivity|]. split; [exact Hend|]. split; [exact Hgz|]. split; [congruence|]. split; [cbn; f_equal; symmetry; apply V1|].
      split; [exact (sf_nsame cmp _ _ V1)|]. intros id nd' Hg'. destruct (kept_sf _ _ V1 _ _ Hg') as (nd0 & H0 & Em & Ed).
      exists nd0. split; [exact H0|]. rewrite Em, Ed. now destruct (bytes_eqb id (fst h)).
  - destruct (existsb (bytes_eqb id) (opened st)) eqn:Eo.
    2:{ intros [= <- <-]. apply fail_good; [exact Hv|apply sf_refl| |]; cbn [well_called refused]; [rewrite <- existsb_in; congruence|destruct dir; left; (split; [rewrite <- existsb_in; congruence|reflexivity])]. }
    apply existsb_in in Eo. pose proof (iv_opened _ _ _ _ Hv id Eo) as Hex. destruct (get st id) as [ndc|] eqn:Hgc; [|congruence].
    destruct (i_type ndc =? if dir then TDIR else TREG)%N eqn:Ez.
    2:{ apply N.eqb_neq in Ez. intros [= <- <-]. apply fail_good; [exact Hv|apply sf_refl|destruct dir; discriminate|]. cbn [refused]. destruct dir; right; eauto 8. }
    clear Ez Hex Eo Hgc ndc.
    intros [= <- <-]. set (st0 := mkFfs (nodes st) (remove_one id (opened st))).
    assert (Ha : almost cmp id [] [] st0).
    { unfold almost. apply (Inv_opened cmp [] [] st); [exact Hv| |].
      - intros x Hx. change (get st0 id) with (get st id). destruct (remove_one_in x id _ Hx) as [->|Hx'].
        + destruct (get st id) eqn:Eg; [now left|]. now elim (iv_opened _ _ _ _ Hv id Hx).
        + destruct (get st id); [now right|exact Hx'].
      - intros x. change (get st0 id) with (get st id). destruct (get st id) eqn:Eg.
        + intros [<-|Hx]; [congruence|]. apply (iv_opened _ _ _ _ Hv). eapply remove_one_sub. exact Hx.
        + intros Hx. apply (iv_opened _ _ _ _ Hv). eapply remove_one_sub. exact Hx. }
    destruct (finish_Inv cmp [] st0 id Ha) as (F1 & F2 & F3 & F4).
    split; [exact F1|]. split; [change (size st0) with (size st) in F2; lia|]. split; [|discriminate].
    split; [|split; [|exact F3]].
    + intros d n. rewrite !find_name_in. destruct (F4 d) as [->|(-> & -> & _ & _ & _ & _ & nd & Hg & Hd)]; [reflexivity|].
      change (get st0 id) with (get st id) in Hg. rewrite Hg, Hd. reflexivity.
    + intros x nd' Hg. destruct (F4 x) as [Ex|(_ & Ex & _)]; [|congruence]. rewrite Ex in Hg. exists nd'. auto.
  - destruct (existsb (bytes_eqb id) (opened st)) eqn:Eo.
    2:{ intros [= <- <-]. apply fail_good; [exact Hv|apply sf_refl| |]; cbn [well_called refused]; [rewrite <- existsb_in; congruence|left; split; [rewrite <- existsb_in; congruence|reflexivity]]. }
    apply existsb_in in Eo. pose proof (iv_opened _ _ _ _ Hv id Eo) as Hex. destruct (get st id) as [nd|] eqn:Hg; [|congruence].
    unfold cast_as. cbn [fst snd]. rewrite Hg, N.eqb_refl. destruct (i_type nd =? TREG)%N eqn:Ez; cbn [rbind].
    2:{ apply N.eqb_neq in Ez. intros [= <- <-]. apply fail_good; [exact Hv|apply sf_refl|discriminate|]. cbn [refused]. right. eauto 8. }
    apply N.eqb_eq in Ez. intros [= <- <-]. split; [exact Hv|]. split; [lia|]. split; [|discriminate]. split; [apply sf_refl|]. eauto.
  - destruct (existsb (bytes_eqb id) (opened st)) eqn:Eo.
    2:{ intros [= <- <-]. apply fail_good; [exact Hv|apply sf_refl| |]; cbn [well_called refused]; [rewrite <- existsb_in; congruence|left; split; [rewrite <- existsb_in; congruence|reflexivity]]. }
    apply existsb_in in Eo. pose proof (iv_opened _ _ _ _ Hv id Eo) as Hex. destruct (get st id) as [nd|] eqn:Hg; [|congruence].
    unfold cast_as. cbn [fst snd]. rewrite Hg, N.eqb_refl. destruct (i_type nd =? TREG)%N eqn:Ez.
    2:{ apply N.eqb_neq in Ez. intros [= <- <-]. apply fail_good; [exact Hv|apply sf_refl|discriminate|]. cbn [refused]. right. eauto 8. }
    intros [= <- <-]. pose proof (size_put st id nd (with_data data nd) (iv_ids _ _ _ _ Hv) Hg) as Hs. cbn [with_data i_dir] in Hs.
    split; [eapply data_Inv; try eassumption; reflexivity|]. split; [lia|]. split; [|discriminate]. split; [|reflexivity].
    refine (changed_put st id nd _ _ Hg _ _); reflexivity.
  - destruct (open_all cmp path true st) as [st1 ro] eqn:E.
    destruct (open_all_ok cmp [] [] path true st Hv st1 ro E) as (V1 & V2 & V3). pose proof (sf_size _ _ V1) as Hs.
    destruct ro as [[h|]|e]; [|intros [= <- <-]; apply fail_good; [exact V2|exact V1|discriminate|lost_none V3]|intros [= <- <-]; apply fail_good; [exact V2|exact V1|intros _; apply V3|lost_err E]].
    destruct V3 as (Hend & (nd & Hg & Ht) & _). destruct (sf_get_some _ _ _ _ (sf_sym _ _ V1) Hg) as (nz & Hgz & Huz). pose proof (unp_type _ _ Huz) as Htz.
    unfold cast_as. rewrite Hg, Ht, N.eqb_refl. destruct (snd h =? TREG)%N eqn:Ez; [|apply N.eqb_neq in Ez; intros [= <- <-]; apply fail_good; [exact V2|exact V1|discriminate|]; cbn [refused]; right; exists (fst h), nz; split; [exact Hend|]; split; [exact Hgz|]; split; [congruence|reflexivity]].
    intros [= <- <-]. set (dd := firstn _ _). pose proof (size_put st1 (fst h) nd (with_data dd nd) (iv_ids _ _ _ _ V2) Hg) as Hs2. cbn [with_data i_dir] in Hs2.
    split; [eapply data_Inv; try eassumption; reflexivity|]. split; [lia|]. split; [|discriminate]. split; [cbn; symmetry; apply V1|].
    exists (fst h). split; [exact Hend|]. apply (changed_sf st st1); [exact V1|]. refine (changed_put st1 (fst h) nd _ _ Hg _ _); reflexivity.
  - destruct (open_all cmp path false st) as [st1 ro] eqn:E.
    destruct (open_all_ok cmp [] [] path false st Hv st1 ro E) as (V1 & V2 & V3). pose proof (sf_size _ _ V1) as Hs.
    destruct ro as [[h|]|e]; [|intros [= <- <-]; apply fail_good; [exact V2|exact V1|discriminate|lost_none V3]|intros [= <- <-]; apply fail_good; [exact V2|exact V1|intros _; apply V3|lost_err E]].
    destruct V3 as (Hend & (nd & Hg & Ht) & _). destruct (sf_get_some _ _ _ _ (sf_sym _ _ V1) Hg) as (nz & Hgz & Huz). pose proof (unp_type _ _ Huz) as Htz. rewrite Hg.
    intros [= <- <-]. set (nd' := with_mode _ nd). pose proof (size_put st1 (fst h) nd nd' (iv_ids _ _ _ _ V2) Hg) as Hs2. cbn [nd' with_mode i_dir] in Hs2.
    split; [eapply data_Inv; try eassumption; try reflexivity; unfold i_type; cbn [nd' with_mode i_mode]; apply new_mode_keep|]. split; [fold nd' in Hs2; lia|].
    split; [|discriminate]. split; [cbn; symmetry; apply V1|].
    exists (fst h). split; [exact Hend|]. apply (changed_sf st st1); [exact V1|]. refine (changed_put st1 (fst h) nd _ _ Hg _ _); reflexivity.
  - destruct (open_all cmp path false st) as [st1 ro] eqn:E.
    destruct (open_all_ok cmp [] [] path false st Hv st1 ro E) as (V1 & V2 & V3). pose proof (sf_size _ _ V1) as Hs.
    destruct ro as [[h|]|e]; [|intros [= <- <-]; apply fail_good; [exact V2|exact V1|discriminate|lost_none V3]|intros [= <- <-]; apply fail_good; [exact V2|exact V1|intros _; apply V3|lost_err E]].
    destruct V3 as (Hend & (nd & Hg & Ht) & _). destruct (sf_get_some _ _ _ _ (sf_sym _ _ V1) Hg) as (nz & Hgz & Huz). pose proof (unp_type _ _ Huz) as Htz. rewrite Hg. intros [= <- <-].
    split; [exact V2|]. split; [lia|]. split; [|discriminate]. split; [exact V1|].
    destruct (sf_get_some _ _ _ _ (sf_sym _ _ V1) Hg) as (nd0 & Hg0 & Hu). pose proof (unp_fields _ _ Hu) as (Em & El & _ & Ed).
    exists (fst h), nd0. split; [exact Hend|]. split; [exact Hg0|]. rewrite Em, Ed, <- El. f_equal.
    pose proof (iv_nlink _ _ _ _ Hv _ _ Hg0) as H. cbn in H. lia.
  - destruct (open_all cmp path false st) as [st1 ro] eqn:E.
    destruct (open_all_ok cmp [] [] path false st Hv st1 ro E) as (V1 & V2 & V3). pose proof (sf_size _ _ V1) as Hs.
    destruct ro as [[h|]|e]; [|intros [= <- <-]; apply fail_good; [exact V2|exact V1|discriminate|lost_none V3]|intros [= <- <-]; apply fail_good; [exact V2|exact V1|intros _; apply V3|lost_err E]].
    destruct V3 as (Hend & (nd & Hg & Ht) & _). destruct (sf_get_some _ _ _ _ (sf_sym _ _ V1) Hg) as (nz & Hgz & Huz). pose proof (unp_type _ _ Huz) as Htz. unfold cast_as. rewrite Hg, Ht, N.eqb_refl.
    destruct (snd h =? TLINK)%N eqn:El; cbn [rbind]; [|apply N.eqb_neq in El; intros [= <- <-]; apply fail_good; [exact V2|exact V1|discriminate|]; cbn [refused]; right; exists (fst h), nz; split; [exact Hend|]; split; [exact Hgz|]; split; [congruence|reflexivity]].
    apply N.eqb_eq in El. intros [= <- <-]. split; [exact V2|]. split; [lia|]. split; [|discriminate]. split; [exact V1|].
    destruct (sf_get_some _ _ _ _ (sf_sym _ _ V1) Hg) as (nd0 & Hg0 & Hu). pose proof (unp_fields _ _ Hu) as (_ & _ & _ & Ed).
    exists (fst h), nd0. split; [exact Hend|]. split; [exact Hg0|]. rewrite (unp_type _ _ Hu), Ed. split; [congruence|reflexivity].
  - destruct (existsb (bytes_eqb id) (opened st)) eqn:Eo.
    2:{ intros [= <- <-]. apply fail_good; [exact Hv|apply sf_refl| |]; cbn [well_called refused]; [rewrite <- existsb_in; congruence|left; split; [rewrite <- existsb_in; congruence|reflexivity]]. }
    apply existsb_in in Eo. pose proof (iv_opened _ _ _ _ Hv id Eo) as Hex. destruct (get st id) as [nd|] eqn:Hg; [|congruence].
    destruct (i_type nd =? TDIR)%N eqn:Et.
    2:{ apply N.eqb_neq in Et. intros [= <- <-]. apply fail_good; [exact Hv|apply sf_refl|discriminate|]. cbn [refused]. right. eauto 8. }
    apply N.eqb_eq in Et. intros [= <- <-]. split; [exact Hv|]. split; [lia|]. split; [|discriminate]. split; [apply sf_refl|].
    exists nd. eexists. split; [exact Hg|]. split; [exact Et|]. split; [reflexivity|]. split.
    + intros n x ty Hi. apply in_map_iff in Hi. destruct Hi as (e & [= <- <- <-] & Hi). rewrite find_name_in, Hg.
      rewrite (find_in_distinct cmp Hcmp _ e); [reflexivity| |exact Hi]. now apply (iv_names _ _ _ _ Hv id).
    + intros n x ty Hn. rewrite find_name_in, Hg in Hn. destruct (find_name cmp n (i_dir nd)) as [e|] eqn:Ef; [|discriminate].
      injection Hn as <- <-. apply find_some in Ef. destruct Ef as [Hi Hs]. exists (e_name e). split; [exact Hs|].
      apply in_map_iff. exists e. auto.
  - destruct (existsb (bytes_eqb id) (opened st)); intros [= <- <-].
    + split; [exact Hv|]. split; [lia|]. split; [|discriminate]. apply sf_refl.
    + pose proof (sf_set_parent st id root_id) as Hs. pose proof (sf_size _ _ Hs) as Hs2. split; [|split; [lia|split; [exact Hs|discriminate]]].
      apply (Inv_sf cmp [] [] st); [exact Hv|exact Hs|]. destruct (iv_root _ _ _ _ Hv) as (nr & Hr & _ & Hp).
      rewrite get_set_parent. destruct (bytes_eqb id root_id); [|eauto]. rewrite Hr. cbn. eauto.
Qed.

(** ** Histories *)
Lemma new_repo_Inv : IV [] [] new_repo.
Proof.
  assert (G : forall id nd, get new_repo id = Some nd -> id = root_id /\ nd = mkInode (493 + TDIR * 4096) 1 [] [] root_id).
  { intros id nd. unfold get, new_repo. cbn [nodes nget]. destruct (bytes_eqb root_id id) eqn:E; [|discriminate].
    apply bytes_eqb_eq in E. intros [= <-]. auto. }
  constructor.
  - cbn. constructor; [easy|constructor].
  - eexists. split; [reflexivity|]. split; reflexivity.
  - split; [reflexivity|easy].
  - intros id nd Hg. apply G in Hg. destruct Hg as [-> ->]. reflexivity.
  - intros e [].
  - intros id [].
  - intros id [].
  - intros id nd Hg. apply G in Hg. now left.
  - intros id nd Hg. apply G in Hg. destruct Hg as [-> ->]. intros _. cbn. lia.
  - intros id nd Hg. apply G in Hg. destruct Hg as [-> ->]. now intros H.
  - intros id nd Hg. apply G in Hg. destruct Hg as [-> ->]. exact I.
  - intros id nd Hg. apply G in Hg. destruct Hg as [-> ->]. now intros H.
  - intros id nd Hg. apply G in Hg. destruct Hg as [-> ->]. right. left. reflexivity.
Qed.
Lemma run_ok ops : forall st, IV [] [] st -> (N.of_nat (size st + length ops) < 2 ^ 32 - 1)%N -> careful_run cmp ops st ->
  IV [] [] (fs_run cmp ops st) /\ size (fs_run cmp ops st) <= size st + length ops.
Proof.
  induction ops as [|o ops IH]; intros st Hv Hb Hc; cbn [fs_run careful_run length] in *; [split; [exact Hv|lia]|].
  destruct Hc as [Hc Hr]. destruct (fs_step cmp o st) as [st1 r] eqn:E.
  destruct (step_ok o st Hv ltac:(lia) Hc st1 r E) as (G1 & G2 & _). cbn [fst] in *.
  destruct (IH st1 G1 ltac:(lia) Hr) as [I1 I2]. split; [exact I1|lia].
Qed.
Lemma reached_Inv st : reached cmp st -> IV [] [] st /\ (N.of_nat (size st) < 2 ^ 32 - 1)%N.
Proof.
  intros (ops & Hc & Hl & <-). destruct (run_ok ops new_repo new_repo_Inv) as [I1 I2]; [cbn; lia|exact Hc|].
  split; [exact I1|]. change (size new_repo) with 0 in I2. lia.
Qed.
Lemma Inv_counts st : IV [] [] st -> counts_right st.
Proof.
  intros Hv. constructor.
  - intros id nd Hg. pose proof (iv_nlink _ _ _ _ Hv id nd Hg) as H. cbn in H. lia.
  - intros id. split.
    + intros Hg. destruct (get st id) as [nd|] eqn:E; [|congruence]. destruct (iv_garbage _ _ _ _ Hv id nd E) as [H|[H|[H|[]]]]; auto.
    + intros [->|[H|H]].
      * destruct (iv_root _ _ _ _ Hv) as (nr & -> & _). discriminate.
      * rewrite refs_cnt in H. apply cnt_pos in H. destruct H as (e & He & <-). destruct (iv_entries _ _ _ _ Hv e He) as (nd & -> & _). discriminate.
      * now apply (iv_opened _ _ _ _ Hv).
  - intros e nd He Hg. destruct (iv_entries _ _ _ _ Hv e He) as (nd' & Hg' & Ht). congruence.
Qed.

(** ** Removing a directory succeeds only if it is empty *)
Lemma no_self st d s : IV [] [] st -> chain st (d :: s) -> contains st d d -> False.
Proof.
  intros Hv. induction s as [|y s IH]; intros Hch Hc.
  - exact (contains_not_root cmp [] [] st d d Hv Hc Hch).
  - destruct Hch as (_ & _ & Hcon & Hch). pose proof (contains_dir cmp [] [] _ _ _ Hv Hc) as Hd.
    pose proof (contains_once cmp [] [] st y d d Hv Hd Hcon Hc) as E. subst y. now apply IH.
Qed.
Lemma rmdir_success path st st' o : IV [] [] st -> do_remove cmp true path st = (st', Ok o) ->
  exists d n x nx, designates cmp st path d n /\ NI st d n = Some (x, TDIR) /\ get st x = Some nx /\ i_dir nx = [].
Proof.
  intros Hv. unfold do_remove. destruct (open_base cmp path st) as [st1 rb] eqn:Eb.
  destruct (open_base_ok cmp [] [] path st Hv st1 rb Eb) as (W1 & W2 & W3). destruct rb as [[base n]|e]; [|discriminate].
  destruct W3 as (D & Hon & s & Hch & _).
  destruct (remove_entry cmp base n st1) as [st2 rr] eqn:Er.
  pose proof (remove_entry_ok cmp Hcmp [] [] st1 base n W2 Hon st2 rr Er) as A.
  destruct rr as [[e|]|er]; [|discriminate|discriminate].
  destruct A as (nd & Htd & Hlen & Hg & Hf & -> & Hv2 & Hs2). set (st2 := put st1 (fst base) _) in *.
  destruct (find_entry cmp _ _ _ _ _ Hg Hf) as [Hall _].
  destruct (open_entry cmp _ _ _ _ W2 Hall) as (_ & (nx & Hx & Htx) & Hxr). cbn [fst snd] in Hx, Htx.
  assert (Hx2 : exists nx2, get st2 (e_id e) = Some nx2 /\ i_type nx2 = i_type nx /\ ((e_id e = fst base /\ nx = nd /\ i_dir nx2 = drop_name cmp n (i_dir nd)) \/ i_dir nx2 = i_dir nx)).
  { unfold st2. rewrite get_put. destruct (bytes_eqb (fst base) (e_id e)) eqn:E; [|eauto 6].
    apply bytes_eqb_eq in E. rewrite E in Hg. assert (nx = nd) by congruence. subst. eexists. split; [reflexivity|]. split; [reflexivity|]. left. auto. }
  destruct Hx2 as (nx2 & Hx2 & Ht2 & Hd2). assert (Ht2' : e_type e = i_type nx2) by congruence. rewrite Ht2'.
  rewrite (open_typed cmp _ _ _ _ _ Hv2 Hx2 Hxr). unfold cast_as. cbn [fst snd]. rewrite Hx2, N.eqb_refl.
  destruct (i_type nx2 =? TDIR)%N eqn:Etd; [|discriminate]. apply N.eqb_eq in Etd.
  destruct (i_dir nx2) eqn:Ed; [|discriminate]. intros _.
  destruct (sf_get_some _ _ _ _ (sf_sym _ _ W1) Hx) as (nx0 & Hx0 & Hu). pose proof (unp_fields _ _ Hu) as (_ & _ & Edd & _).
  exists (fst base), n, (e_id e), nx0. split; [exact D|]. split.
  { rewrite (sf_name_in cmp _ _ _ _ W1). rewrite find_name_in, Hg, Hf. repeat f_equal. congruence. }
  split; [exact Hx0|]. rewrite Edd. destruct Hd2 as [(E1 & -> & E2)|E2]; [|congruence]. exfalso.
  apply (no_self st1 (fst base) s W2 Hch). rewrite <- E1 at 2. now apply (find_entry cmp _ _ _ _ _ Hg Hf).
Qed.
End Step.

(** ** Resolution is a function *)
Section Resolve.
Variable cmp : bytes -> bytes -> comparison.
Hypothesis Hcmp : cmp_ok cmp.
Notation NI := (name_in cmp).
Notation IV := (Inv cmp).

Lemma fails_det st k s p e : fails cmp st k s p e -> forall e', fails cmp st k s p e' -> e = e'.
Proof.
  intros X.
  induction X as [k s p e X IH|k d p e X IH|k x d s p e X IH
                 |k d s nd n p N1 N2 Hg Ht|k d s nd n p N1 N2 Hg Ht Hl
                 |k d s nd n p x ty e N1 N2 Hl Hg Ht Hn Hty X IH
                 |d s nd n p x N1 N2 Hl Hg Ht Hn
                 |k d s nd n p x ln e N1 N2 Hl Hg Ht Hn Hx X IH
                 |k d s nd n p x ln s1 e N1 N2 Hl Hg Ht Hn Hx L X IH]; intros e' X'.
  1-3: inversion X'; subst; try congruence; now apply IH.
  - inversion X'; subst; try congruence.
  - inversion X'; subst; try congruence; lia.
  - inversion X'; subst; try congruence; try lia. assert (x0 = x) by congruence. subst. now apply IH.
  - inversion X'; subst; try congruence; lia.
  - inversion X'; subst; try congruence; try lia; assert (x0 = x) by congruence; subst; assert (ln0 = ln) by congruence; subst.
    + now apply IH.
    + apply fails_no in X. exfalso. eapply (proj2 X); eassumption.
  - inversion X'; subst; try congruence; try lia; assert (x0 = x) by congruence; subst; assert (ln0 = ln) by congruence; subst.
    + match goal with H : fails _ _ _ _ (path_comps _) _ |- _ => apply fails_no in H; exfalso; eapply (proj2 H); eassumption end.
    + match goal with H : leads _ _ _ _ (path_comps _) (Some ?s2) |- _ => pose proof (leads_det _ _ _ _ _ _ L _ H) as E; injection E as <- end. now apply IH.
Qed.

Lemma designates_last st path d n : designates cmp st path d n -> n = last (path_comps path) [] /\ exists s, leads cmp st 15 [root_id] (removelast (path_comps path)) (Some (d :: s)).
Proof.
  intros [(-> & -> & ->)|(_ & H1 & H2)]; [|auto]. split; [reflexivity|]. exists []. constructor.
Qed.
Lemma fails_at_no st path follow e o : fails_at cmp st path follow e -> ~ ends_at cmp st path follow o.
Proof.
  intros (P1 & P2 & H). unfold ends_at. apply bytes_eqb_neq in P1. apply bytes_eqb_neq in P2. rewrite P1, P2. cbn [orb].
  intros (d & n & D & Hd & Hl & Hm). apply designates_last in D. destruct D as (-> & s & L).
  destruct H as [X|[[L2 _]|(d' & s' & n' & L2 & -> & H)]].
  - apply fails_no in X. exact (proj2 X _ L).
  - pose proof (leads_det _ _ _ _ _ _ L _ L2). discriminate.
  - pose proof (leads_det _ _ _ _ _ _ L _ L2) as E. injection E as <- <-.
    destruct H as [[H _]|[(_ & H & _)|(x & ln & _ & _ & Hn & -> & Hx & X)]]; [contradiction|lia|].
    rewrite Hn in Hm. cbn in Hm. destruct Hm as (ln' & s' & r & Hx' & L3 & L4 & _).
    assert (ln' = ln) by congruence. subst. pose proof (leads_det _ _ _ _ _ _ L _ L3) as E. injection E as <-.
    apply fails_no in X. exact (proj2 X _ L4).
Qed.
Lemma fails_at_det st path follow e e' : fails_at cmp st path follow e -> fails_at cmp st path follow e' -> e = e'.
Proof.
  intros (P1 & P2 & H) (_ & _ & H').
  destruct H as [X|[[L ->]|(d & s & n & L & -> & H)]]; destruct H' as [X'|[[L' ->]|(d' & s' & n' & L' & -> & H')]];
    try (apply fails_no in X; exfalso; now apply (proj2 X _ L')); try (apply fails_no in X'; exfalso; now apply (proj2 X' _ L));
    try (pose proof (leads_det _ _ _ _ _ _ L _ L') as E; discriminate E).
  - eapply fails_det; eassumption.
  - reflexivity.
  - pose proof (leads_det _ _ _ _ _ _ L _ L') as E. injection E as <- <-.
    destruct H as [[H ->]|[(Hd & H & ->)|(x & ln & Hd & Hl & Hn & _ & Hx & X)]];
    destruct H' as [[H' ->]|[(Hd' & H' & ->)|(x' & ln' & Hd' & Hl' & Hn' & _ & Hx' & X')]]; try reflexivity; try contradiction; try lia.
    assert (x' = x) by congruence. subst. assert (ln' = ln) by congruence. subst. eapply fails_det; eassumption.
Qed.
Lemma ends_at_det st path follow o o' : ends_at cmp st path follow o -> ends_at cmp st path follow o' -> o = o'.
Proof.
  unfold ends_at. destruct (bytes_eqb path [] || bytes_eqb path (str "/")); [congruence|].
  intros (d & n & D & _ & _ & H) (d' & n' & D' & _ & _ & H'). destruct (designates_det _ _ _ _ _ _ _ D D') as [<- <-].
  destruct (name_in cmp st d n) as [[x ty]|]; [|congruence]. destruct (follow && (ty =? TLINK)%N); [|congruence].
  destruct H as (ln & s & r & Hx & L & L2 & ->). destruct H' as (ln' & s' & r' & Hx' & L' & L2' & ->).
  assert (ln' = ln) by congruence. subst. pose proof (leads_det _ _ _ _ _ _ L _ L') as E. injection E as <-.
  now rewrite (leads_det _ _ _ _ _ _ L2 _ L2').
Qed.

(** Opening a path. *)
Lemma open_iff st path : IV [] [] st ->
  (forall x, (exists st', fs_step cmp (FOpen path false) st = (st', Ok (FOId x))) <-> ends_at cmp st path true (Some x)) /\
  (forall e, (exists st', fs_step cmp (FOpen path false) st = (st', Err e)) <-> fails_at cmp st path true e \/ (ends_at cmp st path true None /\ e = E_NOENT)).
Proof.
  intros Hv. cbn [fs_step]. destruct (open_all cmp path true st) as [st1 ro] eqn:E.
  destruct (open_all_ok cmp [] [] path true st Hv st1 ro E) as (_ & _ & V3). destruct ro as [[h|]|er].
  - destruct V3 as (V & _). split.
    + intros x. split.
      * intros (st' & [= _ <-]). exact V.
      * intros H. pose proof (ends_at_det _ _ _ _ _ V H) as Ex. injection Ex as <-. eauto.
    + intros e. split; [intros (st' & H); discriminate H|]. intros [H|[H _]]; exfalso.
      * eapply fails_at_no; eassumption.
      * pose proof (ends_at_det _ _ _ _ _ V H). discriminate.
  - split.
    + intros x. split; [intros (st' & H); discriminate H|]. intros H. pose proof (ends_at_det _ _ _ _ _ V3 H). discriminate.
    + intros e. split; [intros (st' & [= _ <-]); right; auto|]. intros [H|[_ ->]]; [|eauto]. exfalso. eapply fails_at_no; eassumption.
  - pose proof (open_all_err cmp [] [] path true st Hv st1 er E) as X. split.
    + intros x. split; [intros (st' & H); discriminate H|]. intros H. exfalso. eapply fails_at_no; eassumption.
    + intros e. split; [intros (st' & [= _ <-]); now left|]. intros [H|[H _]].
      * pose proof (fails_at_det _ _ _ _ _ X H) as <-. eauto.
      * exfalso. eapply fails_at_no; eassumption.
Qed.
Lemma stat_iff st path : IV [] [] st ->
  (forall x, (exists st' m l z, fs_step cmp (FGetattr path) st = (st', Ok (FOStat x m l z))) <-> ends_at cmp st path false (Some x)) /\
  (forall e, (exists st', fs_step cmp (FGetattr path) st = (st', Err e)) <-> fails_at cmp st path false e \/ (ends_at cmp st path false None /\ e = E_NOENT)).
Proof.
  intros Hv. cbn [fs_step]. destruct (open_all cmp path false st) as [st1 ro] eqn:E.
  destruct (open_all_ok cmp [] [] path false st Hv st1 ro E) as (_ & _ & V3). destruct ro as [[h|]|er].
  - destruct V3 as (V & (nd & Hg & _) & _). rewrite Hg. split.
    + intros x. split.
      * intros (st' & m & l & z & [= _ <- _ _]). exact V.
      * intros H. pose proof (ends_at_det _ _ _ _ _ V H) as Ex. injection Ex as <-. eauto.
    + intros e. split; [intros (st' & H); discriminate H|]. intros [H|[H _]]; exfalso.
      * eapply fails_at_no; eassumption.
      * pose proof (ends_at_det _ _ _ _ _ V H). discriminate.
  - split.
    + intros x. split; [intros (st' & m & l & z & H); discriminate H|]. intros H. pose proof (ends_at_det _ _ _ _ _ V3 H). discriminate.
    + intros e. split; [intros (st' & [= _ <-]); right; auto|]. intros [H|[_ ->]]; [|eauto]. exfalso. eapply fails_at_no; eassumption.
  - pose proof (open_all_err cmp [] [] path false st Hv st1 er E) as X. split.
    + intros x. split; [intros (st' & m & l & z & H); discriminate H|]. intros H. exfalso. eapply fails_at_no; eassumption.
    + intros e. split; [intros (st' & [= _ <-]); now left|]. intros [H|[H _]].
      * pose proof (fails_at_det _ _ _ _ _ X H) as <-. eauto.
      * exfalso. eapply fails_at_no; eassumption.
Qed.

(** Links that lead to each other. *)
Lemma loop_fails st (P : bytes -> Prop) : IV [] [] st -> link_loop cmp st P ->
  forall k n rest, P n -> fails cmp st k [root_id] (n :: rest) E_LOOP.
Proof.
  intros Hv HP. destruct (iv_root _ _ _ _ Hv) as (nr & Hr & Ht & _).
  induction k as [|k IH]; intros n rest Hn; destruct (HP n Hn) as (N1 & N2 & Hl & x & ln & m & r & Hnm & Hx & Hp & Hm).
  - eapply X_loop; eassumption.
  - eapply X_in; try eassumption. rewrite Hp. now apply IH.
Qed.
Lemma loop_open st (P : bytes -> Prop) path n rest : IV [] [] st -> link_loop cmp st P -> P n -> path_comps path = n :: rest ->
  exists st', fs_step cmp (FOpen path false) st = (st', Err E_LOOP).
Proof.
  intros Hv HP Hn Hp. destruct (open_iff st path Hv) as [_ H]. apply H. left. unfold fails_at.
  split; [intros ->; discriminate|]. split; [intros ->; discriminate|]. rewrite Hp. destruct rest as [|c rest].
  - right. right. destruct (HP n Hn) as (N1 & N2 & Hl & x & ln & m & r & Hnm & Hx & Hp' & Hm).
    exists root_id, [], n. split; [constructor|]. split; [reflexivity|]. right. right. exists x, ln.
    destruct (iv_root _ _ _ _ Hv) as (nr & Hr & Ht & _).
    split; [exists nr; auto|]. split; [exact Hl|]. split; [exact Hnm|]. split; [reflexivity|]. split; [exact Hx|].
    rewrite Hp'. now apply (loop_fails st P).
  - left. change (removelast (n :: c :: rest)) with (n :: removelast (c :: rest)). now apply (loop_fails st P).
Qed.

(** Paths without links and dots. *)
Lemma plain_app st k : forall comps s d x, plain_walk cmp st d comps = Some x ->
  exists s', leads cmp st k (d :: s) comps (Some (x :: s')).
Proof.
  induction comps as [|n p IH]; intros s d x; cbn [plain_walk].
  - intros [= ->]. exists s. constructor.
  - destruct (bytes_eqb n (str ".")) eqn:E1; [discriminate|]. destruct (bytes_eqb n (str "..")) eqn:E2; [discriminate|].
    destruct (255 <? length n) eqn:E3; [discriminate|]. cbn [orb].
    destruct (get st d) as [nd|] eqn:Hg; [|discriminate]. destruct (i_type nd =? TDIR)%N eqn:Et; [|discriminate].
    destruct (name_in cmp st d n) as [[y ty]|] eqn:Hn; [|discriminate]. destruct (ty =? TLINK)%N eqn:El; [discriminate|].
    intros H. destruct (IH (d :: s) y x H) as (s' & L). exists s'. eapply L_name; try eassumption.
    + now apply bytes_eqb_neq. + now apply bytes_eqb_neq. + apply Nat.ltb_ge in E3. exact E3. + now apply N.eqb_eq. + now apply N.eqb_neq.
Qed.
Lemma plain_split st : forall comps d x, comps <> [] -> plain_walk cmp st d comps = Some x ->
  exists y, plain_walk cmp st d (removelast comps) = Some y /\ plain_walk cmp st y [last comps []] = Some x.
Proof.
  induction comps as [|n p IH]; intros d x Hne; [easy|]. destruct p as [|m p].
  - intros H. exists d. split; [reflexivity|exact H].
  - change (removelast (n :: m :: p)) with (n :: removelast (m :: p)). change (last (n :: m :: p) []) with (last (m :: p) (@nil byte)).
    cbn [plain_walk]. fold (plain_walk cmp st). destruct (_ || _)%bool; [discriminate|].
    destruct (get st d) as [nd|]; [|discriminate]. destruct (i_type nd =? TDIR)%N; [|discriminate].
    destruct (name_in cmp st d n) as [[y ty]|]; [|discriminate]. destruct (ty =? TLINK)%N; [discriminate|].
    intros H. apply (IH y x); [discriminate|exact H].
Qed.
Lemma plain_open st path x : IV [] [] st -> plain_walk cmp st root_id (path_comps path) = Some x -> path_comps path <> [] ->
  exists st', fs_step cmp (FOpen path false) st = (st', Ok (FOId x)).
Proof.
  intros Hv H Hne. destruct (open_iff st path Hv) as [Hi _]. apply Hi. unfold ends_at.
  assert (E : bytes_eqb path [] || bytes_eqb path (str "/") = false).
  { apply orb_false_iff. split; apply bytes_eqb_neq; intros ->; now apply Hne. }
  rewrite E. destruct (plain_split st _ _ _ Hne H) as (y & H1 & H2).
  destruct (plain_app st 15 _ [] _ _ H1) as (s' & L). exists y, (last (path_comps path) []).
  split; [right; split; [exact Hne|]; split; [reflexivity|]; eauto|].
  cbn [plain_walk] in H2. set (n := last (path_comps path) []) in *.
  destruct (bytes_eqb n (str ".")); [discriminate|]. destruct (bytes_eqb n (str "..")); [discriminate|].
  destruct (255 <? length n) eqn:E3; [discriminate|]. cbn [orb] in H2.
  destruct (get st y) as [nd|] eqn:Hg; [|discriminate]. destruct (i_type nd =? TDIR)%N eqn:Et; [|discriminate].
  destruct (name_in cmp st y n) as [[z ty]|] eqn:Hn; [|discriminate]. destruct (ty =? TLINK)%N eqn:El; [discriminate|].
  split; [exists nd; split; [exact Hg|now apply N.eqb_eq]|]. apply Nat.ltb_ge in E3. split; [exact E3|]. cbn [andb]. congruence.
Qed.

(** ** Deciding carefulness *)
Definition dir_b (st : ffs) (id : bytes) : bool := match get st id with Some nd => (i_type nd =? TDIR)%N | None => false end.
Definition full_b (st : ffs) (id : bytes) : bool := match get st id with Some nd => negb (match i_dir nd with [] => true | _ => false end) | None => false end.
Definition where_b (st : ffs) (path : bytes) : option (bytes * bytes) :=
  match open_base cmp path st with (_, Ok (h, n)) => Some (fst h, n) | _ => None end.
Definition place_b (st : ffs) (path : bytes) : bool := match where_b st path with Some (d, n) => dir_b st d && (length n <=? 255) | None => true end.
Definition what_b (st : ffs) (path : bytes) : option (bytes * N) := match where_b st path with Some (d, n) => NI st d n | None => None end.
Definition careful_b (o : fop) (st : ffs) : bool :=
  match o with
  | FCreate path _ _ _ | FMkdir path _ _ _ | FSymlink _ path _ _ => place_b st path
  | FLink src _ => match open_all cmp src true st with (_, Ok (Some h)) => negb (dir_b st (fst h)) | _ => true end
  | FUnlink path => match what_b st path with Some x => negb (full_b st (fst x)) | None => true end
  | FRmdir path => match what_b st path with Some x => dir_b st (fst x) && negb (full_b st (fst x)) | None => true end
  | FRename from to => place_b st to && match what_b st from, what_b st to with
                                        | Some x, Some y => bytes_eqb (fst x) (fst y) || negb (full_b st (fst y)) | _, _ => true end
  | _ => true
  end.
Lemma dir_b_ok st id : dir_b st id = true <-> is_dir st id.
Proof.
  unfold dir_b, is_dir. destruct (get st id) as [nd|].
  - rewrite N.eqb_eq. split; [eauto|]. intros (nd' & [= <-] & H). exact H.
  - split; [discriminate|]. intros (nd & H & _). discriminate.
Qed.
Lemma full_b_ok st id : full_b st id = true <-> is_full_dir st id.
Proof.
  unfold full_b, is_full_dir. destruct (get st id) as [nd|].
  - split; [intros H; exists nd; split; [reflexivity|]; intros E; rewrite E in H; discriminate|].
    intros (nd' & [= <-] & H). now destruct (i_dir nd).
  - split; [discriminate|]. intros (nd & H & _). discriminate.
Qed.
Lemma where_ok st path d n : IV [] [] st -> designates cmp st path d n -> where_b st path = Some (d, n).
Proof.
  intros Hv D. unfold where_b. destruct (open_base cmp path st) as [st1 rb] eqn:E.
  destruct (open_base_ok cmp [] [] path st Hv st1 rb E) as (_ & _ & W). destruct rb as [[h m]|e].
  - destruct W as (D' & _). destruct (designates_det _ _ _ _ _ _ _ D D') as [-> ->]. reflexivity.
  - now elim (proj2 W _ _ D).
Qed.
Lemma place_b_ok st path : IV [] [] st -> place_b st path = true -> place_ok cmp st path.
Proof.
  intros Hv H d n D. unfold place_b in H. rewrite (where_ok _ _ _ _ Hv D) in H. apply andb_true_iff in H. destruct H as [H1 H2].
  split; [now apply dir_b_ok|now apply Nat.leb_le].
Qed.
Lemma what_ok st path d n : IV [] [] st -> designates cmp st path d n -> what_b st path = NI st d n.
Proof. intros Hv D. unfold what_b. now rewrite (where_ok _ _ _ _ Hv D). Qed.
Lemma careful_b_ok o st : IV [] [] st -> careful_b o st = true -> careful cmp o st.
Proof.
  intros Hv. destruct o; cbn [careful_b careful]; intros H; try exact I; try now apply place_b_ok.
  - intros x Hx Hd. destruct (open_all cmp src true st) as [st1 ro] eqn:E.
    destruct (open_all_ok cmp [] [] src true st Hv st1 ro E) as (_ & _ & V3). destruct ro as [[h|]|e].
    + pose proof (ends_at_det _ _ _ _ _ Hx (proj1 V3)) as Ex. injection Ex as ->. apply dir_b_ok in Hd. rewrite Hd in H. discriminate.
    + pose proof (ends_at_det _ _ _ _ _ Hx V3). discriminate.
    + exact (proj2 V3 _ Hx).
  - intros d n x D Hn. rewrite (what_ok _ _ _ _ Hv D), Hn in H. intros Hf. apply full_b_ok in Hf. rewrite Hf in H. discriminate.
  - intros d n x D Hn. rewrite (what_ok _ _ _ _ Hv D), Hn in H. apply andb_true_iff in H. destruct H as [H1 H2].
    split; [now apply dir_b_ok|]. intros Hf. apply full_b_ok in Hf. rewrite Hf in H2. discriminate.
  - apply andb_true_iff in H. destruct H as [H1 H2]. split; [now apply place_b_ok|].
    intros d n x d' n' y D Hn D' Hn' Hne Hf. rewrite (what_ok _ _ _ _ Hv D), Hn, (what_ok _ _ _ _ Hv D'), Hn' in H2.
    apply full_b_ok in Hf. rewrite Hf in H2. apply bytes_eqb_neq in Hne. rewrite Hne in H2. discriminate.
Qed.
Fixpoint careful_run_b (ops : list fop) (st : ffs) : bool :=
  match ops with [] => true | o :: ops' => careful_b o st && careful_run_b ops' (fst (fs_step cmp o st)) end.
Lemma careful_run_b_ok ops : forall st, IV [] [] st -> (N.of_nat (size st + length ops) < 2 ^ 32 - 1)%N -> careful_run_b ops st = true -> careful_run cmp ops st.
Proof.
  induction ops as [|o ops IH]; intros st Hv Hb H; cbn [careful_run_b careful_run length] in *; [exact I|].
  apply andb_true_iff in H. destruct H as [H1 H2]. pose proof (careful_b_ok _ _ Hv H1) as Hc. split; [exact Hc|].
  destruct (fs_step cmp o st) as [st1 r] eqn:E. destruct (step_ok cmp Hcmp o st Hv ltac:(lia) Hc st1 r E) as (G1 & G2 & _). cbn [fst] in *.
  apply IH; [exact G1|lia|exact H2].
Qed.
Lemma reached_b ops : (N.of_nat (length ops) < 2 ^ 32 - 1)%N -> careful_run_b ops new_repo = true -> reached cmp (fs_run cmp ops new_repo).
Proof.
  intros Hl H. exists ops. split; [|auto]. apply careful_run_b_ok; [apply new_repo_Inv|exact Hl|exact H].
Qed.
End Resolve.
