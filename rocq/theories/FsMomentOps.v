(** Every call does what it should in single steps. *)
From Coq Require Import Strings.String Lia ZArith Permutation.
From Verif Require Import Base BaseLemmas TextModel NameModel BtreeModel BtreeSpec FullFsModel FullFsSpec FullFsProofs FullFsPath FullFsInv FullFsTop FullFsStep FsConcModel FsConcSpec FsConcProofs FsConcSafe FsConcOps FsMomentSpec FsMomentProofs.
Local Open Scope list_scope.

Section Ops.
Variable cmp : bytes -> bytes -> comparison.
Hypothesis Hcmp : cmp_ok cmp.
Notation safe := (safe cmp).
Notation CInv := (CInv cmp).
Notation calm := (calm cmp).
Notation walks := (walks cmp).
Notation base_over := (base_over cmp).
Notation base_missing := (base_missing cmp).
Notation last_over := (last_over cmp).
Notation file_over := (file_over cmp).
Notation file_missing := (file_missing cmp).
Notation happened := (happened cmp).
Notation name_in := (name_in cmp).
Notation set_name := (set_name cmp).

(** ** Entries *)
Definition keptp (st st' : ffs) : Prop := forall id nd, get st id = Some nd ->
  exists nd', get st' id = Some nd' /\ i_mode nd' = i_mode nd /\ i_data nd' = i_data nd.
Lemma keptp_refl st : keptp st st.
Proof. intros id nd H. eauto. Qed.
Lemma keptp_trans a b c : keptp a b -> keptp b c -> keptp a c.
Proof. intros H1 H2 id nd H. destruct (H1 _ _ H) as (n1 & G1 & M1 & D1). destruct (H2 _ _ G1) as (n2 & G2 & M2 & D2). exists n2. split; [exact G2|]. split; congruence. Qed.
Lemma keptp_kept st st' : keptp st st' -> kept (st, st').
Proof. intros H id nd Hg. left. now apply H. Qed.
Lemma keptp_put st id nd nd' : get st id = Some nd -> i_mode nd' = i_mode nd -> i_data nd' = i_data nd -> keptp st (put st id nd').
Proof.
  intros Hg Hm Hd x n Hx. rewrite get_put. destruct (bytes_eqb id x) eqn:E; [|eauto].
  apply bytes_eqb_eq in E. subst. replace n with nd by congruence. eauto.
Qed.
Lemma keptp_calm st st' : keptp st st' -> same_names (name_in st') (name_in st) -> calm (st, st').
Proof. intros H Hn. split; [now apply keptp_kept|]. intros d n _. apply Hn. Qed.

(** The place takes a name. *)
Definition can_add (h : holder) (n : bytes) (st : ffs) : Prop := (exists nd, cast_as TDIR h st = Ok nd) /\ name_too_long n = false.
Lemma can_keeps h n st st' : can_add h n st -> keeps st st' -> can_add h n st'.
Proof.
  intros [(nd & H) Hn] Hk. split; [|exact Hn]. unfold cast_as in *. destruct (get st (fst h)) as [n0|] eqn:E; [|discriminate].
  destruct (Hk _ _ E) as (n1 & -> & Ht & _). rewrite Ht. destruct (snd h =? i_type n0)%N; [|discriminate]. destruct (_ =? TDIR)%N; [eauto|discriminate].
Qed.

Definition entry_err (e : err) : Prop := e = E_PERM \/ e = E_NAMETOOLONG \/ e = EUndef.
Lemma remove_names h n st st' r : remove_entry cmp h n st = (st', r) ->
  match r with
  | Ok o => can_add h n st' /\ is_dir st (fst h) /\ keptp st st' /\ name_in st (fst h) n = option_map (fun e => (e_id e, e_type e)) o /\
      same_names (name_in st') (set_name (name_in st) (fst h) n None)
  | Err e => st' = st /\ entry_err e
  end.
Proof.
  intros H. pose proof (remove_keeps cmp _ _ _ _ _ H) as Hk. unfold remove_entry in H. pose proof (cast_name TDIR h st) as Hca.
  destruct (cast_as TDIR h st) as [nd|e] eqn:Ec.
  2:{ injection H as <- <-. split; [reflexivity|]. unfold entry_err. destruct Hca as [->| ->]; auto. }
  destruct Hca as [Hg Ht]. cbn [dspec_step] in H. destruct (name_too_long n) eqn:El; injection H as <- <-; [split; [reflexivity|unfold entry_err; auto]|].
  split; [apply (can_keeps h n st); [split; [eauto|exact El]|exact Hk]|]. split; [exists nd; auto|]. split; [now apply (keptp_put st _ nd)|].
  split; [unfold FullFsSpec.name_in; now rewrite Hg|]. now apply (names_drop cmp Hcmp).
Qed.
Lemma add_names h n x ty st st' r : add_entry cmp h n x ty st = (st', r) ->
  match r with
  | Ok b => can_add h n st /\ is_dir st (fst h) /\ keptp st st' /\
      if b then name_in st (fst h) n = None /\ same_names (name_in st') (set_name (name_in st) (fst h) n (Some (x, ty)))
      else name_in st (fst h) n <> None /\ same_names (name_in st') (name_in st)
  | Err e => st' = st /\ entry_err e /\ ~ can_add h n st
  end.
Proof.
  intros H. unfold add_entry in H. pose proof (cast_name TDIR h st) as Hca.
  destruct (cast_as TDIR h st) as [nd|e] eqn:Ec.
  2:{ injection H as <- <-. split; [reflexivity|]. split; [unfold entry_err; destruct Hca as [->| ->]; auto|]. intros [(nd & E) _]. congruence. }
  destruct Hca as [Hg Ht]. cbn [dspec_step] in H. destruct (name_too_long n) eqn:El.
  { injection H as <- <-. split; [reflexivity|]. split; [unfold entry_err; auto|]. intros [_ E]. congruence. }
  assert (Hca : can_add h n st) by (split; [eauto|exact El]). assert (Hd : is_dir st (fst h)) by (exists nd; auto).
  assert (Hn : name_in st (fst h) n = option_map (fun e => (e_id e, e_type e)) (find_name cmp n (i_dir nd))) by (unfold FullFsSpec.name_in; now rewrite Hg).
  destruct (find_name cmp n (i_dir nd)) as [e|]; injection H as <- <-; (split; [exact Hca|]); (split; [exact Hd|]); (split; [now apply (keptp_put st _ nd)|]); (split; [rewrite Hn; try discriminate; reflexivity|]).
  - now apply (names_keep cmp st (fst h) nd).
  - now apply (names_add cmp st (fst h) nd).
Qed.
Lemma name_in_same st d n n' : same_name cmp n n' = true -> name_in st d n = name_in st d n'.
Proof. intros H. unfold FullFsSpec.name_in. destruct (get st d); [|reflexivity]. now rewrite (find_same cmp Hcmp _ _ _ H). Qed.

Lemma rename_names bf bt lf lt st st' r : rename_step cmp bf bt lf lt st = (st', r) ->
  match r with
  | Ok _ => kept (st, st') /\ exists x, name_in st (fst bf) lf = Some x /\
     ((exists y, name_in st (fst bt) lt = Some y /\ fst y = fst x /\ same_names (name_in st') (name_in st)) \/
      ((forall y, name_in st (fst bt) lt = Some y -> fst y = fst x -> fst bf = fst bt /\ same_name cmp lf lt = true) /\
       same_names (name_in st') (set_name (set_name (name_in st) (fst bf) lf None) (fst bt) lt (Some x))))
  | Err e => (calm (st, st') /\ ((e = E_NOENT /\ is_dir st (fst bf) /\ name_in st (fst bf) lf = None) \/ entry_err e)) \/
     (entry_err e /\ kept (st, st') /\ exists x, name_in st (fst bf) lf = Some x /\ same_names (name_in st') (set_name (name_in st) (fst bf) lf None))
  end.
Proof.
  unfold rename_step. destruct (remove_entry cmp bf lf st) as [st3 r3] eqn:E3. pose proof (remove_names _ _ _ _ _ E3) as H3.
  destruct r3 as [[ef|]|e].
  3:{ intros [= <- <-]. destruct H3 as [-> He]. left. split; [apply calm_refl|now right]. }
  2:{ intros [= <- <-]. destruct H3 as (_ & Hd & Hk & Hn & Hs). cbn [option_map] in Hn. left. split; [|now left]. apply keptp_calm; [exact Hk|].
      intros d n. rewrite Hs. unfold FullFsSpec.set_name. destruct (bytes_eqb d (fst bf) && same_name cmp n lf)%bool eqn:E; [|reflexivity].
      apply Bool.andb_true_iff in E. destruct E as [E1 E2]. apply bytes_eqb_eq in E1. subst d. rewrite (name_in_same _ _ _ _ E2). now rewrite Hn. }
  destruct H3 as (Cf & _ & K3 & Nf & N3). cbn [option_map] in Nf.
  destruct (remove_entry cmp bt lt st3) as [st4 r4] eqn:E4. pose proof (remove_names _ _ _ _ _ E4) as H4. pose proof (remove_keeps cmp _ _ _ _ _ E4) as P4.
  destruct r4 as [[et|]|e].
  3:{ intros [= <- <-]. destruct H4 as [-> He]. right. split; [exact He|]. split; [now apply keptp_kept|]. eauto. }
  - destruct H4 as (Ct & _ & K4 & Nt3 & N4). cbn [option_map] in Nt3.
    assert (Hslot : bytes_eqb (fst bt) (fst bf) && same_name cmp lt lf = false).
    { rewrite N3 in Nt3. unfold FullFsSpec.set_name in Nt3. destruct (bytes_eqb (fst bt) (fst bf) && same_name cmp lt lf)%bool; [discriminate|reflexivity]. }
    assert (Nt : name_in st (fst bt) lt = Some (e_id et, e_type et)).
    { rewrite N3 in Nt3. unfold FullFsSpec.set_name in Nt3. now rewrite Hslot in Nt3. }
    assert (Ft4 : name_in st4 (fst bt) lt = None) by (rewrite N4; unfold FullFsSpec.set_name; now rewrite bytes_eqb_refl, (same_refl cmp Hcmp)).
    assert (Ff4 : name_in st4 (fst bf) lf = None).
    { rewrite N4. unfold FullFsSpec.set_name at 1. destruct (bytes_eqb (fst bf) (fst bt) && same_name cmp lf lt)%bool; [reflexivity|].
      rewrite N3. unfold FullFsSpec.set_name. now rewrite bytes_eqb_refl, (same_refl cmp Hcmp). }
    pose proof (can_keeps _ _ _ _ Cf P4) as Cf4.
    destruct (bytes_eqb (e_id ef) (e_id et)) eqn:Eid.
    + apply bytes_eqb_eq in Eid. destruct (add_entry cmp bf lf (e_id ef) (e_type ef) st4) as [st5 r5] eqn:E5. pose proof (add_names _ _ _ _ _ _ _ E5) as H5. pose proof (add_keeps cmp _ _ _ _ _ _ _ E5) as P5.
      destruct r5 as [b5|e]; [|destruct H5 as (_ & _ & H5); contradiction]. destruct H5 as (_ & _ & K5 & H5).
      destruct b5; [|destruct H5 as [H5 _]; contradiction]. destruct H5 as [_ N5].
      destruct (add_entry cmp bt lt (e_id et) (e_type et) st5) as [st6 r6] eqn:E6. pose proof (add_names _ _ _ _ _ _ _ E6) as H6.
      destruct r6 as [b6|e]; [|destruct H6 as (_ & _ & H6); elim H6; exact (can_keeps _ _ _ _ Ct P5)]. destruct H6 as (_ & _ & K6 & H6).
      destruct b6; [|destruct H6 as [H6 _]; elim H6; rewrite N5; unfold FullFsSpec.set_name; now rewrite Hslot]. destruct H6 as [_ N6].
      intros [= <- <-]. split; [apply keptp_kept; eauto using keptp_trans|]. exists (e_id ef, e_type ef). split; [exact Nf|]. left.
      exists (e_id et, e_type et). split; [exact Nt|]. split; [now symmetry|].
      intros d n. rewrite N6. unfold FullFsSpec.set_name at 1. destruct (bytes_eqb d (fst bt) && same_name cmp n lt)%bool eqn:E1.
      { apply andb_true_iff in E1. destruct E1 as [E1 E2]. apply bytes_eqb_eq in E1. subst d. rewrite <- Nt. symmetry. now apply name_in_same. }
      rewrite N5. unfold FullFsSpec.set_name at 1. destruct (bytes_eqb d (fst bf) && same_name cmp n lf)%bool eqn:E7.
      { apply andb_true_iff in E7. destruct E7 as [E7 E2]. apply bytes_eqb_eq in E7. subst d. rewrite <- Nf. symmetry. now apply name_in_same. }
      rewrite N4. unfold FullFsSpec.set_name. rewrite E1. rewrite N3. unfold FullFsSpec.set_name. now rewrite E7.
    + apply bytes_eqb_neq in Eid. destruct (add_entry cmp bt lt (e_id ef) (e_type ef) st4) as [st5 r5] eqn:E5. pose proof (add_names _ _ _ _ _ _ _ E5) as H5.
      destruct r5 as [b5|e]; [|destruct H5 as (_ & _ & H5); contradiction]. destruct H5 as (_ & _ & K5 & H5).
      destruct b5; [|destruct H5 as [H5 _]; contradiction]. destruct H5 as [_ N5].
      intros [= <- <-]. split; [apply keptp_kept; eauto using keptp_trans|]. exists (e_id ef, e_type ef). split; [exact Nf|]. right. split.
      { intros y Hy E. rewrite Nt in Hy. injection Hy as <-. cbn in E. congruence. }
      intros d n. rewrite N5. unfold FullFsSpec.set_name at 1. destruct (bytes_eqb d (fst bt) && same_name cmp n lt)%bool eqn:E1.
      { unfold FullFsSpec.set_name at 1. now rewrite E1. }
      rewrite N4. unfold FullFsSpec.set_name at 1. rewrite E1. rewrite N3. unfold FullFsSpec.set_name at 2. now rewrite E1.
  - destruct H4 as (Ct & _ & K4 & Nt3 & N4). cbn [option_map] in Nt3.
    assert (Ft4 : name_in st4 (fst bt) lt = None) by (rewrite N4; unfold FullFsSpec.set_name; now rewrite bytes_eqb_refl, (same_refl cmp Hcmp)).
    destruct (add_entry cmp bt lt (e_id ef) (e_type ef) st4) as [st5 r5] eqn:E5. pose proof (add_names _ _ _ _ _ _ _ E5) as H5.
    destruct r5 as [b5|e]; [|destruct H5 as (_ & _ & H5); contradiction]. destruct H5 as (_ & _ & K5 & H5).
    destruct b5; [|destruct H5 as [H5 _]; contradiction]. destruct H5 as [_ N5].
    intros [= <- <-]. split; [apply keptp_kept; eauto using keptp_trans|]. exists (e_id ef, e_type ef). split; [exact Nf|]. right. split.
    + intros y Hy E. rewrite N3 in Nt3. unfold FullFsSpec.set_name in Nt3. destruct (bytes_eqb (fst bt) (fst bf) && same_name cmp lt lf)%bool eqn:E1.
      * apply andb_true_iff in E1. destruct E1 as [E1 E2]. apply bytes_eqb_eq in E1. rewrite (same_sym cmp Hcmp). auto.
      * congruence.
    + intros d n. rewrite N5. unfold FullFsSpec.set_name at 1. destruct (bytes_eqb d (fst bt) && same_name cmp n lt)%bool eqn:E1.
      { unfold FullFsSpec.set_name at 1. now rewrite E1. }
      rewrite N4. unfold FullFsSpec.set_name at 1. rewrite E1. rewrite N3. unfold FullFsSpec.set_name at 2. now rewrite E1.
Qed.

(** ** Calls, whatever happens between their steps *)
Lemma calm_cons s l : calm s -> Forall calm l -> Forall calm (s :: l).
Proof. intros H Hl. now constructor. Qed.
Lemma calm_app l1 l2 : Forall calm l1 -> Forall calm l2 -> Forall calm (l1 ++ l2).
Proof. intros H1 H2. apply Forall_app. auto. Qed.
Lemma before_app l1 l2 : before (l1 ++ l2) = before l1 ++ before l2.
Proof. apply map_app. Qed.
Definition walk_err (e : err) : Prop := e = E_PERM \/ e = E_NAMETOOLONG \/ e = EUndef \/ e = E_LOOP.

Definition create_err (path newid : bytes) (bad : option err) (ms : list (ffs * ffs)) (e : err) : Prop :=
  (e = E_NOENT -> base_missing (before ms) path \/ bad = Some E_NOENT) /\
  (e = E_EXIST -> (exists d x ms1 ms2 later, before ms = ms1 ++ ms2 /\ last_over ms2 path d (Some x) later) \/ bad = Some E_EXIST \/ exists m, In m (before ms) /\ get m newid <> None).
Lemma plays_create path perm ty newid bad ms r : plays (c_create cmp path perm ty newid bad) ms r ->
  match r with
  | Ok h => h = (newid, ty) /\ new_file newid ty perm ms /\ makes cmp path newid ty ms
  | Err e => Forall calm ms /\ create_err path newid bad ms e
  end.
Proof.
  intros H. unfold c_create in H. apply plays_bind in H. destruct H as (ms1 & ms2 & b & -> & H1 & H). destruct (plays_base cmp _ _ _ H1) as [Hc1 Hb].
  destruct b as [[base name]|e]; cbn [based] in Hb.
  2:{ apply plays_ret in H. destruct H as [-> ->]. rewrite app_nil_r. split; [exact Hc1|]. split; intros ->.
      - left. destruct Hb as [[_ Hb]|[Hb|[Hb|[Hb|Hb]]]]; try discriminate. exact Hb.
      - destruct Hb as [[Hb _]|[Hb|[Hb|[Hb|Hb]]]]; discriminate. }
  apply plays_do_bind in H. destruct H as (st & ms3 & -> & H). destruct bad as [e|].
  { cbn [fst snd] in *. apply (plays_leave cmp) in H. destruct H as [-> Hc]. split; [apply calm_app; [exact Hc1|]; apply calm_cons; [apply calm_refl|exact Hc]|].
    split; intros ->; auto. }
  destruct (get st newid) as [n0|] eqn:Eg; cbn [fst snd] in *.
  { apply (plays_leave cmp) in H. destruct H as [-> Hc]. split; [apply calm_app; [exact Hc1|]; apply calm_cons; [apply calm_refl|exact Hc]|].
    split; [discriminate|]. intros _. right. right. exists st. split; [|congruence]. rewrite before_app. apply in_or_app. right. now left. }
  set (nd := mkInode (perm mod 512 + ty * 4096)%N 1 [] [] root_id) in *. set (st' := hold newid (put st newid nd)) in *.
  assert (Hc2 : calm (st, st')) by (now apply calm_new).
  apply plays_do_bind in H. destruct H as (st2 & ms4 & -> & H). destruct (add_entry cmp base name newid ty st2) as [st2' r2] eqn:Ea.
  pose proof (add_names _ _ _ _ _ _ _ Ea) as Hadd. cbn [fst snd] in *. destruct r2 as [[|]|e].
  - apply (plays_parent_bind cmp) in H. destruct H as (st3 & st3' & ms5 & -> & Hc3 & H). apply (plays_leave cmp) in H. destruct H as [-> Hc].
    destruct Hadd as (_ & _ & Hk & Hn & Hs). split; [reflexivity|]. split.
    + exists (st, st'), nd. split; [apply in_or_app; right; now left|]. cbn [fst snd]. split; [exact Eg|].
      split; [unfold st'; unfold hold, get; cbn [nodes]; exact (get_put_eq st newid nd)|]. now repeat split.
    + exists (ms1 ++ [(st, st')]), (st2, st2'), ((st3, st3') :: ms5), (fst base), name. split; [now rewrite <- app_assoc|].
      split; [apply calm_app; [exact Hc1|]; now repeat apply calm_cons|]. split; [now apply calm_cons|].
      split; [rewrite before_app; now apply base_back|]. split; [now apply keptp_kept|]. cbn [fst snd]. auto.
  - apply plays_do_bind in H. destruct H as (st3 & ms5 & -> & H). cbn [fst snd] in H. apply (plays_leave cmp) in H. destruct H as [-> Hc].
    destruct Hadd as (_ & Hd & Hk & Hn & Hs). split.
    + apply calm_app; [exact Hc1|]. apply calm_cons; [exact Hc2|]. apply calm_cons; [now apply keptp_calm|]. apply calm_cons; [apply calm_down|exact Hc].
    + split; [discriminate|]. intros _. left. destruct (name_in st2 (fst base) name) as [x|] eqn:Ex; [|contradiction].
      exists (fst base), x, [], (before (ms1 ++ (st, st') :: (st2, st2') :: (st3, count_down newid st3) :: ms5)). eexists. split; [reflexivity|].
      exists (before (ms1 ++ [(st, st')])), st2, name. split; [rewrite !before_app, <- app_assoc; reflexivity|]. split; [rewrite before_app; now apply base_back|]. auto.
  - apply (plays_leave cmp) in H. destruct H as [-> Hc]. destruct Hadd as (-> & He & _). split.
    + apply calm_app; [exact Hc1|]. apply calm_cons; [exact Hc2|]. apply calm_cons; [apply calm_refl|exact Hc].
    + split; intros ->; destruct He as [He|[He|He]]; discriminate.
Qed.
Lemma create_happened o path perm (ty : N) newid bad ms (e : err) :
  (o = FCreate path perm newid bad \/ o = FMkdir path perm newid bad \/ exists t, o = FSymlink t path newid bad) -> Forall calm ms -> create_err path newid bad ms e -> happened o (Err e) ms.
Proof. intros Ho Hc [H1 H2]. split; [now left|]. destruct Ho as [->|[->|(t & ->)]]; auto. Qed.

Lemma filed_err o path follow ms e : filed cmp (before ms) path follow (Err e) -> Forall calm ms ->
  (file_missing (before ms) path follow -> nothing_there cmp o (before ms)) -> happened o (Err e) ms.
Proof.
  intros H Hc Hn. split; [now left|]. cbn [filed] in H. split; intros ->.
  - apply Hn. destruct H as [[_ H]|[H|[H|[H|H]]]]; try discriminate. exact H.
  - destruct H as [[H _]|[H|[H|[H|H]]]]; discriminate.
Qed.
Lemma filed_none o path follow ms : filed cmp (before ms) path follow (Ok None) -> Forall calm ms ->
  (file_missing (before ms) path follow -> nothing_there cmp o (before ms)) -> happened o (Err E_NOENT) ms.
Proof. intros H Hc Hn. split; [now left|]. split; [auto|discriminate]. Qed.

(** One use of the file of a path. *)
Lemma plays_with o path follow f ms r : plays (with_path cmp path follow f) ms r -> r <> Err EUndef ->
  (forall l, file_missing l path follow -> nothing_there cmp o l) ->
  (forall h st e, snd (f h st) = Err e -> fst (f h st) = st /\ (e = E_PERM \/ e = EUndef)) ->
  (forall h st out ms1 ms2 , snd (f h st) = Ok out -> Forall calm ms1 -> Forall calm ms2 -> file_over (before ms1) path follow (fst h) ->
     happened o (Ok out) (ms1 ++ (st, fst (f h st)) :: ms2)) ->
  happened o r ms.
Proof.
  intros H Hu Hno Hf Hok. unfold with_path in H. apply plays_bind in H. destruct H as (ms1 & ms2 & b & -> & H1 & H). destruct (plays_all cmp _ _ _ _ H1) as [Hc1 Hb].
  destruct b as [[h|]|e].
  - apply plays_do_bind in H. destruct H as (st & ms3 & -> & H). apply (plays_leave cmp) in H. destruct H as [-> Hc].
    destruct (snd (f h st)) as [out|e] eqn:E; [now apply Hok|]. destruct (Hf _ _ _ E) as [Est He]. rewrite Est. split.
    + left. apply calm_app; [exact Hc1|]. apply calm_cons; [apply calm_refl|exact Hc].
    + split; intros ->; destruct He; discriminate.
  - apply plays_ret in H. destruct H as [-> ->]. rewrite app_nil_r. apply (filed_none o path follow); auto.
  - apply plays_ret in H. destruct H as [-> ->]. rewrite app_nil_r. apply (filed_err o path follow); auto.
Qed.
Lemma uses_intro path follow (P : bytes -> ffs -> ffs -> Prop) ms1 st st' ms2 x : Forall calm ms1 -> Forall calm ms2 -> file_over (before ms1) path follow x ->
  P x st st' -> uses cmp path follow P (ms1 ++ (st, st') :: ms2).
Proof. intros H1 H2 H3 H4. exists ms1, (st, st'), ms2, x. auto. Qed.

Definition simple (o : fop) : Prop :=
  match o with FSymlink _ _ _ _ | FUnlink _ | FRmdir _ | FRename _ _ | FRead _ | FWrite _ _ | FReaddir _ | FEvict _ => False | _ => True end.
Lemma plays_link src dest ms r : plays (c_link cmp src dest) ms r -> r <> Err EUndef -> happened (FLink src dest) r ms.
Proof.
  intros H Hu. unfold c_link in H. apply plays_bind in H. destruct H as (ms1 & ms2 & b & -> & H1 & H). destruct (plays_all cmp _ _ _ _ H1) as [Hc1 Hf].
  destruct b as [[h|]|e].
  2:{ apply plays_ret in H. destruct H as [-> ->]. rewrite app_nil_r. apply (filed_none _ src true); [exact Hf|exact Hc1|]. intros Hm. now left. }
  2:{ apply plays_ret in H. destruct H as [-> ->]. rewrite app_nil_r. apply (filed_err _ src true); [exact Hf|exact Hc1|]. intros Hm. now left. }
  apply plays_bind in H. destruct H as (ms3 & ms4 & b & -> & H2 & H). destruct (plays_base cmp _ _ _ H2) as [Hc3 Hb]. destruct b as [[base name]|e].
  2:{ apply (plays_leave cmp) in H. destruct H as [-> Hc]. split; [left; now repeat apply calm_app|]. cbn [based] in Hb. split; intros ->.
      - right. exists (before ms1), (before ms3 ++ before ms4). split; [now rewrite !before_app|].
        destruct Hb as [[_ Hb]|[Hb|[Hb|[Hb|Hb]]]]; try discriminate. now apply walks_back.
      - destruct Hb as [[Hb _]|[Hb|[Hb|[Hb|Hb]]]]; discriminate. }
  cbn [based] in Hb. apply plays_do_bind in H. destruct H as (st & ms5 & -> & H). apply (plays_leave cmp) in H. destruct H as [-> Hc].
  unfold link_step in *. destruct (get st (fst h)) as [nd|] eqn:Eg; [|cbn in Hu; congruence].
  destruct (add_entry cmp base name (fst h) (i_type nd) st) as [st3 r3] eqn:Ea. pose proof (add_names _ _ _ _ _ _ _ Ea) as Hadd.
  destruct r3 as [[|]|e]; cbn [fst snd] in *.
  - destruct Hadd as (_ & _ & Hk & Hn & Hs). destruct (get st3 (fst h)) as [n3|] eqn:E3; [|cbn in Hu; congruence]. cbn [fst snd] in *.
    exists ms1, (ms3 ++ (st, put st3 (fst h) (with_nlink (inc32 (i_nlink n3)) n3)) :: ms5), (fst h), (i_type nd). split; [reflexivity|]. split; [exact Hc1|]. split; [exact Hf|]. split.
    + exists ms3. eexists. exists ms5, (fst base), name. split; [reflexivity|]. split; [exact Hc3|]. split; [exact Hc|]. split; [exact Hb|]. cbn [fst snd].
      split; [apply keptp_kept; eapply keptp_trans; [exact Hk|]; now apply (keptp_put st3 _ n3)|]. split; [exact Hn|].
      intros d n. rewrite <- Hs. now apply (names_keep cmp st3 (fst h) n3).
    + eexists. exists nd. split; [apply in_or_app; right; now left|]. cbn [fst]. auto.
  - destruct Hadd as (_ & Hd & Hk & Hn & Hs). split; [left; repeat apply calm_app; auto; apply calm_cons; [now apply keptp_calm|exact Hc]|].
    split; [discriminate|]. intros _. destruct (name_in st (fst base) name) as [x|] eqn:Ex; [|contradiction].
    exists (fst base), x, (before ms1). do 2 eexists. split; [apply before_app|]. exists (before ms3), st, name. split; [rewrite before_app; reflexivity|]. auto.
  - destruct Hadd as (-> & He & _). split; [left; repeat apply calm_app; auto; apply calm_cons; [apply calm_refl|exact Hc]|].
    split; intros ->; destruct He as [He|[He|He]]; discriminate.
Qed.
Lemma plays_body o ms r : simple o -> plays (body cmp o) ms r -> r <> Err EUndef -> happened o r ms.
Proof.
  destruct o; cbn [simple]; intros Hs H Hu; try contradiction; cbn [body] in H.
  - (* create *) apply plays_bind in H. destruct H as (ms1 & ms2 & b & -> & H1 & H). apply plays_create in H1. apply plays_ret in H. destruct H as [-> ->]. rewrite app_nil_r.
    destruct b as [h|e].
    + destruct H1 as (-> & H1). cbn. auto.
    + destruct H1 as [H1 H2]. eapply (create_happened _ path perm TREG newid bad); auto.
  - (* mkdir *) apply plays_bind in H. destruct H as (ms1 & ms2 & b & -> & H1 & H). apply plays_create in H1. destruct b as [h|e].
    + apply (plays_leave cmp) in H. destruct H as [-> Hc]. destruct H1 as (-> & (s & nd & Hin & Hnew) & Hm). split.
      * exists s, nd. split; [apply in_or_app; now left|exact Hnew].
      * destruct Hm as (a & s' & z & d & n & -> & Ha & Hz & Hrest). exists a, s', (z ++ ms2), d, n. split; [now rewrite <- app_assoc|].
        split; [exact Ha|]. split; [now apply calm_app|exact Hrest].
    + apply plays_ret in H. destruct H as [-> ->]. rewrite app_nil_r. destruct H1 as [H1 H2]. eapply (create_happened _ path perm TDIR newid bad); auto.
  - now apply plays_link.
  - (* open *) apply plays_bind in H. destruct H as (ms1 & ms2 & b & -> & H1 & H). destruct (plays_all cmp _ _ _ _ H1) as [Hc1 Hb].
    destruct b as [[h|]|e].
    + destruct trunc.
      * apply plays_do_bind in H. destruct H as (st & ms3 & -> & H). pose proof (cast_name TREG h st) as Hca. destruct (cast_as TREG h st) as [nd|e]; cbn [fst snd] in *.
        -- apply plays_ret in H. destruct H as [-> ->]. apply (uses_intro _ _ _ ms1 st _ [] (fst h)); [exact Hc1|constructor|exact Hb|].
           split; [reflexivity|]. destruct Hca as [Hg _]. now apply (changed_put cmp st (fst h) nd).
        -- apply (plays_leave cmp) in H. destruct H as [-> Hc]. split; [left; apply calm_app; [exact Hc1|]; apply calm_cons; [apply calm_refl|exact Hc]|].
           split; intros ->; destruct Hca; discriminate.
      * apply plays_ret in H. destruct H as [-> ->]. rewrite app_nil_r. exists (fst h). auto.
    + apply plays_ret in H. destruct H as [-> ->]. rewrite app_nil_r. apply (filed_none _ path true); auto.
    + apply plays_ret in H. destruct H as [-> ->]. rewrite app_nil_r. apply (filed_err _ path true); auto.
  - (* opendir *) apply plays_bind in H. destruct H as (ms1 & ms2 & b & -> & H1 & H). destruct (plays_all cmp _ _ _ _ H1) as [Hc1 Hb].
    destruct b as [[h|]|e].
    + destruct (snd h =? TDIR)%N.
      * apply plays_ret in H. destruct H as [-> ->]. rewrite app_nil_r. exists (fst h). auto.
      * apply (plays_leave cmp) in H. destruct H as [-> Hc]. split; [left; now apply calm_app|]. split; discriminate.
    + apply plays_ret in H. destruct H as [-> ->]. rewrite app_nil_r. apply (filed_none _ path true); auto.
    + apply plays_ret in H. destruct H as [-> ->]. rewrite app_nil_r. apply (filed_err _ path true); auto.
  - (* close *) apply plays_ask_bind in H. destruct H as (st & ms2 & -> & H). destruct (get st id) as [nd|].
    + destruct (_ =? _)%N.
      * apply (plays_leave cmp) in H. destruct H as [-> Hc]. apply calm_cons; [apply calm_refl|exact Hc].
      * apply plays_ret in H. destruct H as [-> ->]. split; [left; apply calm_cons; [apply calm_refl|constructor]|]. destruct dir; split; discriminate.
    + apply plays_ret in H. destruct H as [-> ->]. congruence.
  - (* truncate *) apply (plays_with _ _ _ _ _ _ H Hu); [auto| |].
    + intros h st e. pose proof (cast_name TREG h st) as Hca. destruct (cast_as TREG h st); [discriminate|]. cbn. intros [= <-]. auto.
    + intros h st out a z. pose proof (cast_name TREG h st) as Hca. destruct (cast_as TREG h st) as [nd|]; [|discriminate]. cbn [fst snd]. intros _ Ha Hz Hf.
      apply (uses_intro _ _ _ a st _ z (fst h)); auto. destruct Hca as [Hg _]. now apply (changed_put cmp st (fst h) nd).
  - (* chmod *) apply (plays_with _ _ _ _ _ _ H Hu); [auto| |].
    + intros h st e. destruct (get st (fst h)); [discriminate|]. cbn. intros [= <-]. auto.
    + intros h st out a z. destruct (get st (fst h)) as [nd|] eqn:Eg; [|discriminate]. cbn [fst snd]. intros _ Ha Hz Hf.
      apply (uses_intro _ _ _ a st _ z (fst h)); auto. now apply (changed_put cmp st (fst h) nd).
  - (* getattr *) apply (plays_with _ _ _ _ _ _ H Hu); [auto| |].
    + intros h st e. cbn [fst snd]. destruct (get st (fst h)); [discriminate|]. intros [= <-]. auto.
    + intros h st out a z. cbn [fst snd]. destruct (get st (fst h)) as [nd|] eqn:Eg; [|discriminate]. intros [= <-] Ha Hz Hf.
      split; [apply calm_app; [exact Ha|]; apply calm_cons; [apply calm_refl|exact Hz]|]. apply (uses_intro _ _ _ a st _ z (fst h)); auto. eauto.
  - (* readlink *) apply (plays_with _ _ _ _ _ _ H Hu); [auto| |].
    + intros h st e. pose proof (cast_name TLINK h st) as Hca. cbn [fst snd]. destruct (cast_as TLINK h st); cbn [rbind]; [discriminate|]. intros [= <-]. auto.
    + intros h st out a z. pose proof (cast_name TLINK h st) as Hca. cbn [fst snd]. destruct (cast_as TLINK h st) as [nd|]; cbn [rbind]; [|discriminate]. intros [= <-] Ha Hz Hf.
      split; [apply calm_app; [exact Ha|]; apply calm_cons; [apply calm_refl|exact Hz]|]. apply (uses_intro _ _ _ a st _ z (fst h)); auto. destruct Hca as [Hg Ht]. eauto.
Qed.

(** ** Calls that rely on what the others may not do *)
Definition Qh (o : fop) (x : res fout * list (ffs * ffs)) (own : list holder) (pos : list bytes) : Prop :=
  Qbody o (fst x) own pos /\ happened o (fst x) (snd x).
Lemma traced_leave o a ids h own pos : safe (leave ids a) (Qbody o) own pos -> (forall ms, Forall calm ms -> happened o a (h ++ ms)) ->
  safe (traced (leave ids a) h) (Qh o) own pos.
Proof.
  intros H Hh. eapply safe_imp; [|exact (safe_traced cmp _ _ (fun ms b => b = a /\ Forall calm ms) own pos h H (plays_leave cmp a ids))].
  intros [b h'] o' q (ms & E & Hq & Hb & Hc). cbn [fst snd] in *. subst h' b. split; [exact Hq|]. now apply Hh.
Qed.
Lemma traced_do {A B} (f : ffs -> ffs * A) (k : A -> prog B) Q own pos h :
  (forall eo ep lost st, CInv (own ++ eo) (pos ++ ep) lost st -> room st ->
     exists own' pos' lost', CInv (own' ++ eo) (pos' ++ ep) lost' (fst (f st)) /\ (tidy st -> lost' = lost) /\ safe (traced (k (snd (f st))) (h ++ [(st, fst (f st))])) Q own' pos') ->
  safe (traced (bind (p_do f) k) h) Q own pos.
Proof. intros H. exact H. Qed.
Lemma traced_open_debt {B} id ty (k : res holder -> prog B) Q own pos h : In id pos -> good_type ty ->
  (id = root_id -> ty = TDIR) ->
  (forall t s, calm s -> safe (traced (k (Ok (id, ty))) (h ++ [s])) Q (own ++ [(id, t)]) pos) -> safe (traced (bind (p_open id ty) k) h) Q own pos.
Proof.
  intros Hin Hty Hroot Ho. apply traced_do. intros eo ep lost st Hi Hr.
  assert (Hg : get st id <> None).
  { apply (ci_debt _ _ _ _ Hi). unfold debts. apply occ_in in Hin. rewrite occ_app. lia. }
  assert (E : open_as id ty st = Ok (id, ty)).
  { unfold open_as. destruct (bytes_eqb id root_id) eqn:E.
    - apply bytes_eqb_eq in E. rewrite (Hroot E). reflexivity.
    - destruct (get st id); [|congruence]. destruct Hty as [->|[->| ->]]; reflexivity. }
  rewrite E. cbn [fst snd]. destruct (get st id) as [nd|] eqn:Eg; [|congruence]. exists (own ++ [(id, i_type nd)]), pos, lost. split.
  - eapply CI_ext; [exact (CI_hold cmp _ _ _ id nd Hi Eg)| |reflexivity]. rewrite <- app_assoc. apply Permutation_middle.
  - split; [auto|]. apply Ho. apply calm_hold.
Qed.
Lemma traced_base {B} path (k : res (holder * bytes) -> prog B) Q fo h :
  (forall r own ms, r <> Err EUndef -> match r with Ok (b, _) => exists t, own = [(fst b, t)] | _ => own = [] end -> Forall calm ms -> based cmp (before ms) path r ->
     safe (traced (k r) (h ++ ms)) Q (own ++ fo) []) ->
  safe (traced (bind (c_base cmp path) k) h) Q fo [].
Proof.
  intros H. apply traced_bind. apply safe_bind.
  pose proof (safe_traced cmp _ _ _ [] [] h (safe_base cmp path) (plays_base cmp path)) as H1.
  apply (safe_frame cmp _ _ fo) in H1. eapply safe_imp; [|exact H1]. cbn beta. intros [r h'] o q (o1 & -> & ms & E & (-> & Hu & Ho) & Hc & Hb).
  cbn [fst snd] in *. subst h'. now apply H.
Qed.
Lemma based_err o path ms e (h : list (ffs * ffs)) : based cmp (before ms) path (Err e) -> Forall calm h -> Forall calm ms ->
  (base_missing (before ms) path -> nothing_there cmp o (before (h ++ ms))) -> happened o (Err e) (h ++ ms).
Proof.
  intros H Hc1 Hc Hn. split; [left; now apply calm_app|]. cbn [based] in H. split; intros ->.
  - apply Hn. destruct H as [[_ H]|[H|[H|[H|H]]]]; try discriminate. exact H.
  - destruct H as [[H _]|[H|[H|[H|H]]]]; discriminate.
Qed.
Lemma calm_err o e ms : Forall calm ms -> e = E_PERM \/ e = E_NAMETOOLONG \/ e = E_NOTEMPTY \/ e = EUndef -> happened o (Err e) ms.
Proof. intros Hc He. split; [now left|]. split; intros ->; destruct He as [H|[H|[H|H]]]; discriminate. Qed.
Lemma takes_more path x ms later more : takes cmp path x ms later -> Forall calm more -> takes cmp path x (ms ++ more) (later ++ more).
Proof.
  intros (a & s & d & n & -> & Ha & Hl & H) Hm. exists a, s, d, n. split; [now rewrite <- app_assoc|]. split; [exact Ha|]. split; [now apply calm_app|exact H].
Qed.

Definition remover (rmdir : bool) (path : bytes) : fop := if rmdir then FRmdir path else FUnlink path.
Lemma traced_remove rmdir path : safe (traced (c_remove cmp rmdir path) []) (Qh (remover rmdir path)) [] [].
Proof.
  set (o := remover rmdir path). assert (Hno : forall id d, o <> FClose id d) by (unfold o; destruct rmdir; discriminate).
  unfold c_remove. apply traced_base. intros r own ms Hu Ho Hc1 Hb. rewrite app_nil_r. cbn [app]. destruct r as [[base name]|er].
  2:{ subst own. split; cbn [fst snd]; [apply Qbody_none; [congruence|exact Hno|discriminate]|]. apply (based_err o path ms er [] Hb); [constructor|exact Hc1|].
      intros Hm. cbn [app]. unfold o. destruct rmdir; now left. }
  cbn [based] in Hb. destruct Ho as (t & ->). apply traced_do. intros eo ep lost st Hi Hr.
  destruct (remove_entry cmp base name st) as [st' r] eqn:Ea.
  pose proof (remove_cases cmp Hcmp _ _ st base name Hi (or_introl eq_refl) _ _ Ea) as Hc. pose proof (remove_names _ _ _ _ _ Ea) as Hn. cbn [fst snd].
  destruct r as [[e|]|er].
  - destruct Hc as (H1 & Hty & nd & nx & _ & Hgx & Htx). exists [(fst base, t)], [e_id e], lost. split; [|split; [reflexivity|]].
    { eapply CI_ext; [exact H1|reflexivity|]. intros id. cbn [app]. now rewrite debts_cons. }
    destruct Hn as (_ & Hd & Hk & Hn & Hs). cbn [option_map] in Hn.
    assert (Ht : takes cmp path (e_id e, e_type e) (ms ++ [(st, st')]) []).
    { exists ms, (st, st'), (fst base), name. split; [reflexivity|]. split; [exact Hc1|]. split; [constructor|]. split; [exact Hb|]. split; [now apply keptp_kept|]. auto. }
    apply traced_open_debt; [now left|exact Hty| |].
    { intros Hx. rewrite <- Htx. exact (root_type cmp _ _ _ _ _ H1 Hgx Hx). }
    clear - Hcmp Hno Ht. intros t' s Hcs. apply (takes_more _ _ _ _ [s]) in Ht; [|now constructor]. set (h := (ms ++ [(st, st')]) ++ [s]) in *. clearbody h. cbn [app] in Ht.
    clear st st' ms. cbn [app]. apply traced_do. intros eo ep lost st Hi Hr.
    assert (Hdone : (rmdir = true -> exists nd, get st (e_id e) = Some nd /\ i_type nd = TDIR /\ i_dir nd = []) -> exists own' pos' lost', CInv (own' ++ eo) (pos' ++ ep) lost' (count_down (e_id e) st) /\ (tidy st -> lost' = lost) /\
      safe (traced (leave [e_id e; fst base] (Ok FOUnit)) (h ++ [(st, count_down (e_id e) st)])) (Qh o) own' pos').
    { intros Hemp. exists [(fst base, t); (e_id e, t')], [], lost. split; [|split; [reflexivity|]].
      - eapply CI_ext; [exact (CI_down cmp _ _ st (e_id e) Hi Hr (or_intror (or_introl eq_refl)) (debt_in [e_id e] ep lost (e_id e) (or_introl eq_refl)))|reflexivity|].
        intros id. cbn [app]. rewrite debts_cons. lia.
      - apply traced_leave; [eapply safe_leave2; [|apply perm_swap]; apply Qbody_none; [discriminate|exact Hno|discriminate]|].
        intros m Hm. rewrite <- app_assoc. cbn [app]. apply (takes_more _ _ _ _ ((st, count_down (e_id e) st) :: m)) in Ht; [|apply calm_cons; [apply calm_down|exact Hm]].
        unfold o, remover. destruct rmdir.
        + destruct (Hemp eq_refl) as (nd & Hg & Hty & Hdir). do 2 eexists. exists (st, count_down (e_id e) st), nd. split; [exact Ht|]. split; [right; now left|]. auto.
        + cbn. eauto. }
    destruct rmdir; [|apply Hdone; discriminate].
    assert (Hf : forall er, er = E_PERM \/ er = E_NOTEMPTY -> exists own' pos' lost', CInv (own' ++ eo) (pos' ++ ep) lost' st /\ (tidy st -> lost' = lost) /\
      safe (traced (leave [e_id e; fst base] (Err er)) (h ++ [(st, st)])) (Qh o) own' pos').
    { intros er He. exists [(fst base, t); (e_id e, t')], [e_id e], lost. split; [exact Hi|split; [reflexivity|]].
      apply traced_leave; [eapply safe_leave2; [|apply perm_swap]; apply Qbody_left; [destruct He as [->| ->]; discriminate|exact Hno|exact He]|].
      intros m Hm. rewrite <- app_assoc. cbn [app]. apply (takes_more _ _ _ _ ((st, st) :: m)) in Ht; [|apply calm_cons; [apply calm_refl|exact Hm]].
      split; [right; split; [exact He|]; cbn; eauto|]. split; intros ->; destruct He; discriminate. }
    unfold cast_as. cbn [fst snd]. destruct (ci_have _ _ _ _ Hi (e_id e) t' (or_intror (or_introl eq_refl))) as (nx & Eg & _). rewrite Eg.
    destruct (e_type e =? i_type nx)%N eqn:E1; [|apply Hf; now left]. destruct (e_type e =? TDIR)%N eqn:E2; [|apply Hf; now left].
    destruct (i_dir nx) eqn:Ed; [|apply Hf; now right]. apply Hdone. intros _. exists nx. apply N.eqb_eq in E1, E2. split; [exact Eg|]. split; congruence.
  - exists [(fst base, t)], [], lost. split; [exact Hc|split; [reflexivity|]]. destruct Hn as (_ & Hd & Hk & Hn & Hs). cbn [option_map] in Hn.
    apply traced_leave; [apply safe_leave1; apply Qbody_none; [discriminate|exact Hno|discriminate]|].
    intros m Hm. rewrite <- app_assoc. cbn [app]. split.
    + left. apply calm_app; [exact Hc1|]. apply calm_cons; [|exact Hm]. apply keptp_calm; [exact Hk|].
      intros d n. rewrite Hs. unfold FullFsSpec.set_name. destruct (bytes_eqb d (fst base) && same_name cmp n name)%bool eqn:E; [|reflexivity].
      apply Bool.andb_true_iff in E. destruct E as [E1 E2]. apply bytes_eqb_eq in E1. subst d. rewrite (name_in_same _ _ _ _ E2). now rewrite Hn.
    + split; [|discriminate]. intros _. assert (Hl : exists d later, last_over (before (ms ++ (st, st') :: m)) path d None later).
      { exists (fst base), (before m), (before ms), st, name. split; [now rewrite before_app|]. auto. }
      unfold o, remover. destruct rmdir; now right.
  - destruct Hc as [_ He]. destruct Hn as [-> _]. exists [(fst base, t)], [], lost. split; [exact Hi|split; [reflexivity|]].
    apply traced_leave; [apply safe_leave1; apply Qbody_none; [destruct He as [->| ->]; discriminate|exact Hno|discriminate]|].
    intros m Hm. rewrite <- app_assoc. cbn [app]. apply calm_err; [|destruct He; auto]. apply calm_app; [exact Hc1|]. apply calm_cons; [apply calm_refl|exact Hm].
Qed.
Lemma traced_rename from to : safe (traced (c_rename cmp from to) []) (Qh (FRename from to)) [] [].
Proof.
  unfold c_rename. apply traced_base. intros r own ms0 Hu Ho Hc0 Hb0. rewrite app_nil_r. cbn [app]. destruct r as [[bf lf]|er].
  2:{ subst own. split; cbn [fst snd]; [apply Qbody_none; [congruence|discriminate|discriminate]|]. apply (based_err _ from ms0 er [] Hb0); [constructor|exact Hc0|].
      intros Hm. cbn [app]. left. now left. }
  cbn [based] in Hb0. destruct Ho as (tf & ->). apply traced_base. intros r own ms1 Hu1 Ho Hc1 Hb1. destruct r as [[bt lt]|er].
  2:{ subst own. cbn [app]. apply traced_leave; [apply safe_leave1; apply Qbody_none; [congruence|discriminate|discriminate]|].
      intros m Hm. rewrite <- app_assoc. pose proof (calm_app _ _ Hc1 Hm) as Hc2. apply (based_err _ to (ms1 ++ m) er ms0); [|exact Hc0|exact Hc2|].
      - cbn [based] in *. destruct Hb1 as [[E Hb1]|Hb1]; [left; split; [exact E|]; rewrite before_app; now apply missing_back|now right].
      - intros Hmi. right. exists (before ms0), (before (ms1 ++ m)). split; [apply before_app|exact Hmi]. }
  cbn [based] in Hb1. destruct Ho as (tt' & ->). cbn [app]. apply traced_do. intros eo ep lost st Hi Hr.
  destruct (rename_step cmp bf bt lf lt st) as [st' r] eqn:Ea.
  pose proof (rename_cases cmp Hcmp _ _ _ st bf bt lf lt Hi (or_intror (or_introl eq_refl)) (or_introl eq_refl) _ _ Ea) as Hc. pose proof (rename_names _ _ _ _ _ _ _ Ea) as Hn. cbn [fst snd].
  assert (Hdone : kept (st, st') /\ (exists x, name_in st (fst bf) lf = Some x /\
     ((exists y, name_in st (fst bt) lt = Some y /\ fst y = fst x /\ same_names (name_in st') (name_in st)) \/
      ((forall y, name_in st (fst bt) lt = Some y -> fst y = fst x -> fst bf = fst bt /\ same_name cmp lf lt = true) /\
       same_names (name_in st') (set_name (set_name (name_in st) (fst bf) lf None) (fst bt) lt (Some x))))) ->
     forall m, Forall calm m -> moves cmp from to (ms0 ++ ms1 ++ (st, st') :: m)).
  { intros [Hk (x & Hx & Hrest)] m Hm. exists ms0, ms1, (st, st'), m, (fst bf), lf, (fst bt), lt, x. split; [reflexivity|]. split; [now apply calm_app|].
    split; [exact Hm|]. split; [exact Hb0|]. split; [exact Hb1|]. split; [exact Hk|]. auto. }
  destruct r as [[e|]|er].
  - specialize (Hdone Hn). destruct Hc as (H1 & Hty & Hroot). exists [(fst bt, tt'); (fst bf, tf)], [e_id e], lost. split; [exact H1|split; [reflexivity|]].
    apply traced_open_debt; [now left|exact Hty|exact Hroot|]. clear - Hcmp Hdone. intros t s Hs. cbn [app]. apply traced_do. intros eo ep lost st2 Hi Hr. cbn [fst snd].
    exists [(fst bt, tt'); (fst bf, tf); (e_id e, t)], [], lost. split; [|split; [reflexivity|]].
    + eapply CI_ext; [exact (CI_down cmp _ _ st2 (e_id e) Hi Hr (or_intror (or_intror (or_introl eq_refl))) (debt_in [e_id e] ep lost (e_id e) (or_introl eq_refl)))|reflexivity|].
      intros id. cbn [app]. rewrite debts_cons. lia.
    + apply traced_leave; [eapply safe_leave3; [apply Qbody_none; discriminate|]; apply (Permutation_app_comm [_; _] [_])|].
      intros m Hm. rewrite <- !app_assoc. cbn [app]. apply (Hdone (s :: (st2, count_down (e_id e) st2) :: m)). apply calm_cons; [exact Hs|]. apply calm_cons; [apply calm_down|exact Hm].
  - specialize (Hdone Hn). exists [(fst bt, tt'); (fst bf, tf)], [], lost. split; [exact Hc|split; [reflexivity|]].
    apply traced_leave; [eapply safe_leave2; [apply Qbody_none; discriminate|reflexivity]|].
    intros m Hm. rewrite <- !app_assoc. cbn [app]. now apply Hdone.
  - assert (Hh : forall m, Forall calm m -> er <> EUndef -> happened (FRename from to) (Err er) (ms0 ++ ms1 ++ (st, st') :: m)).
    { intros m Hm Hnu. destruct Hn as [[Hcs Hn]|(He & Hk & x & Hx & Hs)].
      - split; [left; apply calm_app; [exact Hc0|]; apply calm_app; [exact Hc1|]; now apply calm_cons|]. split; intros ->.
        + left. right. destruct Hn as [(_ & Hd & Hn)|[Hn|[Hn|Hn]]]; try discriminate. exists (fst bf), (before m), (before (ms0 ++ ms1)), st, lf.
          split; [rewrite !before_app, <- app_assoc; reflexivity|]. split; [rewrite before_app; now apply base_back|auto].
        + destruct Hn as [(Hn & _)|[Hn|[Hn|Hn]]]; discriminate.
      - split; [right|].
        + split; [destruct He as [->|[->| ->]]; [now left|now right|congruence]|]. exists x, m, (ms0 ++ ms1), (st, st'), (fst bf), lf.
          split; [now rewrite <- app_assoc|]. split; [now apply calm_app|]. split; [exact Hm|]. split; [rewrite before_app; now apply base_back|]. auto.
        + split; intros ->; destruct He as [He|[He|He]]; discriminate. }
    destruct Hc as [[-> H1]|[He (pos & H1)]].
    + exists [(fst bt, tt'); (fst bf, tf)], [], lost. split; [exact H1|split; [reflexivity|]]. apply traced_leave; [eapply safe_leave2; [apply Qbody_none; discriminate|reflexivity]|].
      intros m Hm. rewrite <- !app_assoc. cbn [app]. now apply Hh.
    + assert (Hnu : er <> EUndef) by (destruct He as [->| ->]; discriminate).
      exists [(fst bt, tt'); (fst bf, tf)], pos, lost. split; [exact H1|split; [reflexivity|]].
      apply traced_leave; [eapply safe_leave2; [|reflexivity]; now apply Qbody_left|].
      intros m Hm. rewrite <- !app_assoc. cbn [app]. now apply Hh.
Qed.
Lemma traced_symlink target path newid bad : bad <> Some EUndef ->
  safe (traced (body cmp (FSymlink target path newid bad)) []) (Qh (FSymlink target path newid bad)) [] [].
Proof.
  intros Hb. cbn [body]. apply traced_bind. apply safe_bind.
  eapply safe_imp; [|exact (safe_traced cmp _ _ _ [] [] [] (safe_create cmp path 420 TLINK newid bad (or_intror (or_intror eq_refl)) Hb) (plays_create path 420 TLINK newid bad))].
  intros [r h] o q (ms & E & (Hu & -> & Hh & Hq) & Hms). cbn [fst snd app] in *. subst h. destruct r as [h|e].
  - rewrite (Hh h eq_refl). destruct Hms as (-> & Hnew & Hm). destruct Hq as [->|[_ [?|?]]]; [|discriminate|discriminate].
    apply traced_do. intros eo ep lost st Hi Hr. destruct (ci_have _ _ _ _ Hi newid TLINK (or_introl eq_refl)) as (nd & Eg & Et).
    assert (Ec : cast_as TLINK (newid, TLINK) st = Ok nd) by (unfold cast_as; cbn [fst snd]; rewrite Eg, Et; reflexivity). rewrite Ec. cbn [fst snd].
    exists [(newid, TLINK)], [], lost. split; [now apply (CI_same cmp _ _ _ newid nd)|]. split; [reflexivity|].
    apply traced_leave; [apply safe_leave1; apply Qbody_none; discriminate|]. intros m Hc. rewrite <- app_assoc. cbn [app].
    exists ms. eexists. exists m. split; [reflexivity|]. split; [exact Hnew|]. split; [exact Hm|]. split; [|exact Hc]. cbn [fst snd].
    now apply (changed_put cmp st newid nd).
  - destruct Hms as [Hc He]. split; cbn [fst snd].
    + split; [congruence|]. split; [reflexivity|]. destruct Hq as [?|[-> Hq]]; [now left|]. right. exists e. split; [reflexivity|].
      destruct Hq as [[= ->]|[= ->]]; cbn; auto.
    + eapply (create_happened _ path 420 TLINK newid bad); eauto.
Qed.
Theorem traced_body o own : no_io o -> starts o own -> safe (traced (body cmp o) []) (Qh o) own [].
Proof.
  intros Hn Hs.
  assert (H : simple o -> safe (traced (body cmp o) []) (Qh o) own []).
  { intros Hsi. eapply safe_imp; [|exact (safe_traced cmp _ _ (fun ms a => a <> Err EUndef -> happened o a ms) own [] [] (safe_body cmp Hcmp o own Hn Hs) (fun ms a Hp => plays_body o ms a Hsi Hp))].
    intros [r h] o' q (ms & E & Hq & Hh). cbn [fst snd app] in *. subst h. split; [exact Hq|]. apply Hh. apply Hq. }
  destruct o; try (apply H; exact I); try contradiction; cbn [starts] in Hs; subst own.
  - now apply traced_symlink.
  - exact (traced_remove false path).
  - exact (traced_remove true path).
  - apply traced_rename.
Qed.
End Ops.
