(** The repository in memory and on the host stands for the map from ids to inodes. *)
From Coq Require Import Strings.String Lia Permutation.
From Verif Require Import Base BaseLemmas TextModel NameModel StreamSpec AttrModel AttrProofs FullStreamModel BtreeModel BtreeSpec BtreeInsert FullFsModel FullFsSpec FullFsProofs FullFsPath FullFsInv
  ObjModel ObjProofs RepoModel RepoSpec FsConcModel FsConcProofs FsConcSafe.
Local Open Scope list_scope.

(** ** Association lists *)
Lemma rget_put_eq id x l : rget id (rput id x l) = Some x.
Proof. induction l as [|[i y] l IH]; cbn; [now rewrite bytes_eqb_refl|]. destruct (bytes_eqb i id) eqn:E; cbn; [now rewrite bytes_eqb_refl|now rewrite E]. Qed.
Lemma rget_put_ne id id' x l : id <> id' -> rget id' (rput id x l) = rget id' l.
Proof.
  intros Hn. induction l as [|[i y] l IH]; cbn.
  - now apply bytes_eqb_neq in Hn as ->.
  - destruct (bytes_eqb i id) eqn:E; cbn; [|now rewrite IH]. apply bytes_eqb_eq in E. subst i. now apply bytes_eqb_neq in Hn as ->.
Qed.
Lemma rget_del_eq id l : rget id (rdel id l) = None.
Proof. induction l as [|[i y] l IH]; cbn; [reflexivity|]. destruct (bytes_eqb i id) eqn:E; cbn; [exact IH|now rewrite E]. Qed.
Lemma rget_del_ne id id' l : id <> id' -> rget id' (rdel id l) = rget id' l.
Proof.
  intros Hn. induction l as [|[i y] l IH]; cbn; [reflexivity|]. destruct (bytes_eqb i id) eqn:E; cbn.
  - apply bytes_eqb_eq in E. subst i. apply bytes_eqb_neq in Hn as ->. exact IH.
  - destruct (bytes_eqb i id'); [reflexivity|exact IH].
Qed.
Lemma nput_same id nd l : nget id l = Some nd -> nput id nd l = l.
Proof.
  induction l as [|[i n] l IH]; cbn; [discriminate|]. destruct (bytes_eqb i id) eqn:E.
  - apply bytes_eqb_eq in E. subst i. now intros [= ->].
  - intros H. now rewrite IH.
Qed.
Lemma put_same st id nd : get st id = Some nd -> put st id nd = st.
Proof. unfold get, put. intros H. rewrite nput_same by exact H. now destruct st. Qed.
Lemma dec_bytes (a b : bytes) : {a = b} + {a <> b}.
Proof. apply (list_eq_dec Byte.byte_eq_dec). Qed.
Lemma occ_count id l : (occ id l > 0) <-> In id l.
Proof. symmetry. apply occ_in. Qed.

Section Repo.
Variable E : senv.
Hypothesis HE : senv_ok E.
Notation cmp := (v_cmp E).
Notation ORep := (ORep E).
Notation OClean := (OClean E).

Definition good_entry (e : entry) : Prop := good_type (e_type e).
Definition fits_file (id : bytes) (x : rfile) (nd : inode) (op : list bytes) : Prop :=
  match x with
  | RStored d m => OClean id d m nd /\ i_parent nd = root_id /\ ~ In id op /\ id <> root_id
  | RLoaded f ref p => ORep id f nd /\ i_parent nd = p /\ ref = occ id op /\ (ref = 0 -> id <> root_id -> fclean f)
  end.
Record good_node (id : bytes) (nd : inode) : Prop := {
  gn_id : length id = 32;
  gn_type : good_type (i_type nd);
  gn_dir : Forall good_entry (i_dir nd) }.
Definition one_file (rp : repo) (st : ffs) (id : bytes) : Prop :=
  match rget id (rp_files rp), get st id with
  | None, None => True
  | Some x, Some nd => good_node id nd /\ fits_file id x nd (opened st)
  | _, _ => False
  end.
Record RR (rp : repo) (st : ffs) : Prop := mkRR {
  rr_file : forall id, one_file rp st id;
  rr_root : get st root_id <> None;
  rr_open : forall id, In id (opened st) -> get st id <> None }.

(** Room for [k] more names in every directory. *)
Notation small := dirs_fit.
Lemma small_le k k' st : k' <= k -> small k st -> small k' st.
Proof. intros Hk H id nd Hg. specialize (H id nd Hg). lia. Qed.
Lemma small_put k st id nd : small k st -> (N.of_nat (length (i_dir nd) + k) <= MAX_ENTRIES)%N -> small k (put st id nd).
Proof.
  intros H Hn x n. rewrite get_put. destruct (bytes_eqb id x); [now intros [= <-]|apply H].
Qed.

Lemma clock_ok k : ts_in_range (v_clock E k). Proof. apply (so_clock _ HE). Qed.

Lemma RR_there rp st id nd : RR rp st -> get st id = Some nd -> exists x, rget id (rp_files rp) = Some x /\ good_node id nd /\ fits_file id x nd (opened st).
Proof. intros H Hg. pose proof (rr_file _ _ H id) as Hf. unfold one_file in Hf. rewrite Hg in Hf. destruct (rget id (rp_files rp)) as [x|]; [|contradiction]. eauto. Qed.
Lemma RR_none rp st id : RR rp st -> get st id = None -> rget id (rp_files rp) = None.
Proof. intros H Hg. pose proof (rr_file _ _ H id) as Hf. unfold one_file in Hf. rewrite Hg in Hf. now destruct (rget id (rp_files rp)). Qed.
Lemma RR_held rp st id : RR rp st -> In id (opened st) -> exists f n p nd, rget id (rp_files rp) = Some (RLoaded f (S n) p) /\ get st id = Some nd /\
  good_node id nd /\ ORep id f nd /\ i_parent nd = p /\ S n = occ id (opened st).
Proof.
  intros H Hi. destruct (get st id) as [nd|] eqn:Eg; [|now elim (rr_open _ _ H id Hi)].
  destruct (RR_there _ _ _ _ H Eg) as (x & Hx & Hg & Hf). destruct x as [d m|f ref p]; cbn in Hf.
  - destruct Hf as (_ & _ & Hno & _). contradiction.
  - destruct Hf as (H1 & H2 & H3 & _). apply occ_in in Hi. destruct ref as [|n]; [lia|]. exists f, n, p, nd. auto 8.
Qed.

(** The file [id] changes; the references do not. *)
Lemma RR_change rp st id f n p nd : RR rp st -> In id (opened st) -> rget id (rp_files rp) = Some (RLoaded f (S n) p) ->
  forall f' p' nd', good_node id nd' -> ORep id f' nd' -> i_parent nd' = p' -> get st id = Some nd ->
  RR (r_set id (RLoaded f' (S n) p') rp) (put st id nd').
Proof.
  intros H Hi Hx f' p' nd' Hgn Ho Hp Hg. destruct (RR_there _ _ _ _ H Hg) as (x & Hx' & _ & Hf). rewrite Hx in Hx'. injection Hx' as <-. cbn in Hf. destruct Hf as (_ & _ & Hr & _).
  constructor.
  - intros y. unfold one_file, r_set. cbn [rp_files]. destruct (dec_bytes id y) as [<-|Hne].
    + rewrite rget_put_eq, get_put_eq. split; [exact Hgn|]. cbn [fits_file opened put]. split; [exact Ho|]. split; [exact Hp|]. split; [exact Hr|discriminate].
    + rewrite rget_put_ne, get_put_ne by exact Hne. exact (rr_file _ _ H y).
  - destruct (dec_bytes id root_id) as [->|Hne]; [rewrite get_put_eq; discriminate|rewrite get_put_ne by exact Hne; apply (rr_root _ _ H)].
  - intros y Hy. cbn [opened put] in Hy. destruct (dec_bytes id y) as [<-|Hne]; [rewrite get_put_eq; discriminate|rewrite get_put_ne by exact Hne; now apply (rr_open _ _ H)].
Qed.

Lemma RR_time rp st t : RR rp st -> RR (mkRepo (rp_files rp) t) st.
Proof. intros [H1 H2 H3]. constructor; assumption. Qed.

(** ** Uses *)
Lemma RR_obj {X} id (f : timespec -> fob -> fob * res X) rp st nd nd' r : RR rp st -> In id (opened st) -> get st id = Some nd ->
  good_node id nd' -> i_parent nd' = i_parent nd ->
  (forall now o, ts_in_range now -> ORep id o nd -> exists o', f now o = (o', r) /\ ORep id o' nd') ->
  exists rp', with_obj E id f rp = (rp', r) /\ RR rp' (put st id nd').
Proof.
  intros H Hi Hg Hgn Hp Hf. destruct (RR_held _ _ _ H Hi) as (o & n & p & nd0 & Hx & Hg0 & _ & Ho & Hp0 & _). rewrite Hg in Hg0. injection Hg0 as <-.
  destruct (Hf (v_clock E (rp_time rp)) o (clock_ok _) Ho) as (o' & E1 & Ho').
  unfold with_obj. rewrite Hx, E1. eexists. split; [reflexivity|]. eapply RR_change; try eassumption. congruence.
Qed.
(** A use that changes nothing to see, and may answer this or that. *)
Lemma RR_look {X} id (f : timespec -> fob -> fob * res X) (P : res X -> Prop) rp st nd : RR rp st -> In id (opened st) -> get st id = Some nd ->
  (forall now o, ts_in_range now -> ORep id o nd -> exists o' r, f now o = (o', r) /\ ORep id o' nd /\ P r) ->
  exists rp' r, with_obj E id f rp = (rp', r) /\ RR rp' st /\ P r.
Proof.
  intros H Hi Hg Hf. destruct (RR_held _ _ _ H Hi) as (o & n & p & nd0 & Hx & Hg0 & Hgn & Ho & Hp0 & _). rewrite Hg in Hg0. injection Hg0 as <-.
  destruct (Hf (v_clock E (rp_time rp)) o (clock_ok _) Ho) as (o' & r & E1 & Ho' & HP).
  unfold with_obj. rewrite Hx, E1. do 2 eexists. split; [reflexivity|]. split; [|exact HP]. rewrite <- (put_same st id nd Hg) at 1. eapply RR_change; try eassumption.
Qed.

Lemma as_class_ok {X} want (h : holder) (f : timespec -> fob -> fob * res X) id nd now o : ORep id o nd ->
  as_class want (snd h) f now o = if (snd h =? i_type nd)%N && (snd h =? want)%N then f now o else (o, Err E_PERM).
Proof. intros Ho. unfold as_class, fo_type. rewrite (or_mode _ _ _ _ Ho). reflexivity. Qed.
Lemma cast_cases want h st nd : get st (fst h) = Some nd ->
  cast_as want h st = if (snd h =? i_type nd)%N && (snd h =? want)%N then Ok nd else Err E_PERM.
Proof. intros Hg. unfold cast_as. rewrite Hg. destruct (snd h =? i_type nd)%N; cbn [andb]; [|reflexivity]. destruct (snd h =? want)%N; reflexivity. Qed.

Lemma sim_get h name rp st : RR rp st -> small 0 st -> In (fst h) (opened st) ->
  exists rp', t_get E h name rp = (rp', get_entry cmp h name st) /\ RR rp' st.
Proof.
  intros H Hs Hi. destruct (get st (fst h)) as [nd|] eqn:Eg; [|now elim (rr_open _ _ H _ Hi)].
  destruct (RR_look (fst h) (as_class TDIR (snd h) (fun now => fo_get E (fst h) now name)) (fun r => r = get_entry cmp h name st) rp st nd H Hi Eg) as (rp' & r & E1 & HR & ->).
  - intros now o Hn Ho. rewrite (as_class_ok TDIR h _ (fst h) nd now o Ho). unfold get_entry. rewrite (cast_cases TDIR h st nd Eg).
    destruct (N.eqb_spec (snd h) (i_type nd)) as [E1|E1]; cbn [andb rbind]; [|eauto 6]. destruct (N.eqb_spec (snd h) TDIR) as [E2|E2]; cbn [rbind]; [|eauto 6].
    destruct (ORep_get E HE (fst h) o nd now name Ho Hn) as (o' & r & E3 & Ho' & Hr); [congruence|specialize (Hs _ _ Eg); now rewrite Nat.add_0_r in Hs|].
    exists o', r. split; [exact E3|]. split; [exact Ho'|]. cbn [dspec_step] in *. destruct (name_too_long name); cbn [snd] in Hr; destruct r; cbn in Hr; congruence.
  - exists rp'. auto.
Qed.

Lemma drop_name_len name m : length (drop_name cmp name m) <= length m.
Proof. unfold drop_name. induction m as [|e m IH]; cbn [filter]; [lia|]. destruct (negb _); cbn [length]; lia. Qed.
Lemma drop_name_good name m : Forall good_entry m -> Forall good_entry (drop_name cmp name m).
Proof. rewrite !Forall_forall. unfold drop_name. intros H e He. apply filter_In in He. now apply H. Qed.

Lemma sim_remove h name rp st k : RR rp st -> small k st -> In (fst h) (opened st) ->
  exists rp', t_remove E h name rp = (rp', snd (remove_entry cmp h name st)) /\ RR rp' (fst (remove_entry cmp h name st)) /\
    small k (fst (remove_entry cmp h name st)) /\ opened (fst (remove_entry cmp h name st)) = opened st /\
    match snd (remove_entry cmp h name st) with Ok (Some e) => good_entry e /\ length (e_id e) = 32 | _ => True end.
Proof.
  intros H Hs Hi. destruct (get st (fst h)) as [nd|] eqn:Eg; [|now elim (rr_open _ _ H _ Hi)].
  destruct (RR_there _ _ _ _ H Eg) as (x & Hx & Hgn & _).
  unfold t_remove, remove_entry. rewrite (cast_cases TDIR h st nd Eg).
  destruct ((snd h =? i_type nd)%N && (snd h =? TDIR)%N) eqn:Ec.
  2:{ destruct (RR_obj (fst h) (as_class TDIR (snd h) (fun now => fo_remove E (fst h) now name)) rp st nd nd (Err E_PERM) H Hi Eg Hgn eq_refl) as (rp' & E1 & HR).
      - intros now o Hn Ho. rewrite (as_class_ok TDIR h _ (fst h) nd now o Ho), Ec. eauto.
      - rewrite (put_same st _ nd Eg) in HR. exists rp'. cbn [fst snd]. auto. }
  apply andb_prop in Ec as Ec2. destruct Ec2 as [E1 E2]. apply N.eqb_eq in E1. apply N.eqb_eq in E2.
  assert (Hm : (N.of_nat (length (i_dir nd)) <= MAX_ENTRIES)%N) by (specialize (Hs _ _ Eg); lia).
  assert (Ht : i_type nd = TDIR) by congruence.
  assert (Hent : Forall entry_ok (i_dir nd)).
  { destruct (RR_held _ _ _ H Hi) as (f0 & n0 & p0 & nd0 & _ & Hg0 & _ & Ho0 & _). rewrite Eg in Hg0. injection Hg0 as <-. exact (ORep_entries E _ _ _ Ho0 Ht). }
  assert (Hgn' : good_node (fst h) (with_dir (fst (dspec_step cmp (DRemove name) (i_dir nd))) nd)).
  { destruct Hgn as [G1 G2 G3]. constructor; [exact G1|exact G2|]. cbn [with_dir i_dir dspec_step]. destruct (name_too_long name); [exact G3|]. now apply drop_name_good. }
  assert (Hres : exists r, snd (dspec_step cmp (DRemove name) (i_dir nd)) = rmap OEntry r).
  { cbn [dspec_step]. destruct (name_too_long name); [eexists (Err _)|eexists (Ok _)]; reflexivity. }
  destruct Hres as [r Hr].
  destruct (RR_obj (fst h) (as_class TDIR (snd h) (fun now => fo_remove E (fst h) now name)) rp st nd _ r H Hi Eg Hgn' eq_refl) as (rp' & E3 & HR).
  { intros now o Hn Ho. rewrite (as_class_ok TDIR h _ (fst h) nd now o Ho), Ec.
    destruct (ORep_remove E HE (fst h) o nd now name Ho Hn Ht Hm) as (o' & r' & E4 & Ho' & Hr'). rewrite Hr in Hr'.
    assert (r = r') by (destruct r, r'; cbn in Hr'; congruence). subst r'. eauto. }
  exists rp'. cbn [dspec_step] in *. destruct (name_too_long name) eqn:El; cbn [fst snd] in *.
  - rewrite with_dir_same, (put_same st _ nd Eg) in HR. destruct r; cbn in Hr; [discriminate Hr|]. injection Hr as <-. auto.
  - destruct r as [r|]; cbn in Hr; [|discriminate Hr]. injection Hr as <-. split; [exact E3|]. split; [exact HR|]. split.
    { apply small_put; [exact Hs|]. cbn [with_dir i_dir]. specialize (Hs _ _ Eg). pose proof (drop_name_len name (i_dir nd)). lia. }
    split; [reflexivity|]. destruct (find_name cmp name (i_dir nd)) as [e|] eqn:Ef; [|exact I]. apply find_some in Ef. destruct Ef as [Hin _].
    rewrite Forall_forall in Hent. destruct Hgn as [_ _ G3]. rewrite Forall_forall in G3. split; [now apply G3|]. apply (Hent e Hin).
Qed.

Lemma get_good h name rp st e : RR rp st -> In (fst h) (opened st) -> get_entry cmp h name st = Ok (Some e) -> good_entry e /\ length (e_id e) = 32.
Proof.
  intros H Hi. destruct (RR_held _ _ _ H Hi) as (f & n & p & nd & _ & Eg & Hgn & Ho & _).
  unfold get_entry. rewrite (cast_cases TDIR h st nd Eg). destruct ((snd h =? i_type nd)%N && (snd h =? TDIR)%N) eqn:Ec; cbn [rbind]; [|discriminate].
  apply andb_prop in Ec. destruct Ec as [E1 E2]. apply N.eqb_eq in E1. apply N.eqb_eq in E2.
  cbn [dspec_step]. destruct (name_too_long name); [discriminate|]. intros [= Hf]. apply find_some in Hf. destruct Hf as [Hin _].
  pose proof (ORep_entries E _ _ _ Ho ltac:(congruence)) as He. rewrite Forall_forall in He. destruct Hgn as [_ _ G]. rewrite Forall_forall in G.
  split; [now apply G|]. apply (He e Hin).
Qed.

Lemma sim_add h name id ty rp st k : RR rp st -> small (S k) st -> In (fst h) (opened st) -> ~ In x00 name -> length id = 32 -> good_type ty ->
  exists rp', t_add E h name id ty rp = (rp', snd (add_entry cmp h name id ty st)) /\ RR rp' (fst (add_entry cmp h name id ty st)) /\
    small k (fst (add_entry cmp h name id ty st)) /\ opened (fst (add_entry cmp h name id ty st)) = opened st.
Proof.
  intros H Hs Hi Hnul Hid Hty. destruct (get st (fst h)) as [nd|] eqn:Eg; [|now elim (rr_open _ _ H _ Hi)].
  assert (Hs0 : small k st) by (apply (small_le (S k)); [lia|exact Hs]).
  destruct (RR_there _ _ _ _ H Eg) as (x & Hx & Hgn & _).
  unfold t_add, add_entry. rewrite (cast_cases TDIR h st nd Eg).
  destruct ((snd h =? i_type nd)%N && (snd h =? TDIR)%N) eqn:Ec.
  2:{ destruct (RR_obj (fst h) (as_class TDIR (snd h) (fun now => fo_add E (fst h) now name id ty)) rp st nd nd (Err E_PERM) H Hi Eg Hgn eq_refl) as (rp' & E1 & HR).
      - intros now o Hn Ho. rewrite (as_class_ok TDIR h _ (fst h) nd now o Ho), Ec. eauto.
      - rewrite (put_same st _ nd Eg) in HR. exists rp'. cbn [fst snd]. auto. }
  apply andb_prop in Ec as Ec2. destruct Ec2 as [E1 E2]. apply N.eqb_eq in E1. apply N.eqb_eq in E2.
  assert (Ht : i_type nd = TDIR) by congruence.
  assert (Hlen : length (fst (dspec_step cmp (DAdd name id ty) (i_dir nd))) <= S (length (i_dir nd))).
  { cbn [dspec_step]. destruct (name_too_long name); cbn [fst]; [lia|]. destruct (find_name cmp name (i_dir nd)); cbn [fst length]; lia. }
  assert (Hm : (N.of_nat (length (fst (dspec_step cmp (DAdd name id ty) (i_dir nd)))) <= MAX_ENTRIES)%N) by (specialize (Hs _ _ Eg); lia).
  assert (Hok : dop_ok (DAdd name id ty)). { split; [exact Hnul|]. split; [exact Hid|]. destruct Hty as [->|[->| ->]]; reflexivity. }
  assert (Hgn' : good_node (fst h) (with_dir (fst (dspec_step cmp (DAdd name id ty) (i_dir nd))) nd)).
  { destruct Hgn as [G1 G2 G3]. constructor; [exact G1|exact G2|]. cbn [with_dir i_dir dspec_step]. destruct (name_too_long name); [exact G3|].
    destruct (find_name cmp name (i_dir nd)); cbn [fst]; [exact G3|]. constructor; [exact Hty|exact G3]. }
  assert (Hres : exists r, snd (dspec_step cmp (DAdd name id ty) (i_dir nd)) = rmap OBool r).
  { cbn [dspec_step]. destruct (name_too_long name); [eexists (Err _); reflexivity|]. destruct (find_name cmp name (i_dir nd)); eexists (Ok _); reflexivity. }
  destruct Hres as [r Hr].
  destruct (RR_obj (fst h) (as_class TDIR (snd h) (fun now => fo_add E (fst h) now name id ty)) rp st nd _ r H Hi Eg Hgn' eq_refl) as (rp' & E3 & HR).
  { intros now o Hn Ho. rewrite (as_class_ok TDIR h _ (fst h) nd now o Ho), Ec.
    destruct (ORep_add E HE (fst h) o nd now name id ty Ho Hn Ht Hok Hm) as (o' & r' & E4 & Ho' & Hr'). rewrite Hr in Hr'.
    assert (r = r') by (destruct r, r'; cbn in Hr'; congruence). subst r'. eauto. }
  assert (Hs' : small k (put st (fst h) (with_dir (fst (dspec_step cmp (DAdd name id ty) (i_dir nd))) nd))).
  { apply small_put; [exact Hs0|]. cbn [with_dir i_dir]. specialize (Hs _ _ Eg). lia. }
  exists rp'. destruct (dspec_step cmp (DAdd name id ty) (i_dir nd)) as [m [o|e]] eqn:Ed; cbn [fst snd] in *.
  - destruct r as [b|]; cbn in Hr; [|discriminate Hr]. injection Hr as ->. auto.
  - destruct r as [b|e']; cbn in Hr; [discriminate Hr|]. injection Hr as ->. cbn [fst snd].
    assert (Hm' : m = i_dir nd). { cbn [dspec_step] in Ed. destruct (name_too_long name); [congruence|]. destruct (find_name cmp name (i_dir nd)); discriminate Ed. }
    subst m. rewrite with_dir_same, (put_same st _ nd Eg) in HR. auto.
Qed.

(** A step that changes one file and keeps type and entries. *)
Lemma good_same id nd nd' : good_node id nd -> i_type nd' = i_type nd -> i_dir nd' = i_dir nd -> good_node id nd'.
Proof. intros [G1 G2 G3] H1 H2. constructor; [exact G1|now rewrite H1|now rewrite H2]. Qed.
Lemma small_same k st id nd nd' : small k st -> get st id = Some nd -> i_dir nd' = i_dir nd -> small k (put st id nd').
Proof. intros H Hg Hd. apply small_put; [exact H|]. rewrite Hd. now apply (H id). Qed.

Lemma sim_down id rp st : RR rp st -> In id (opened st) -> RR (t_count_down E id rp) (count_down id st).
Proof.
  intros H Hi. destruct (get st id) as [nd|] eqn:Eg; [|now elim (rr_open _ _ H _ Hi)]. destruct (RR_there _ _ _ _ H Eg) as (x & _ & Hgn & _).
  unfold t_count_down, count_down. rewrite Eg.
  destruct (RR_obj id (fun _ o => (fo_unlink o, Ok tt)) rp st nd (with_nlink (dec32 (i_nlink nd)) nd) (Ok tt) H Hi Eg) as (rp' & E1 & HR).
  - now apply (good_same id nd).
  - reflexivity.
  - intros now o Hn Ho. eexists. split; [reflexivity|]. now apply ORep_unlink.
  - rewrite E1. exact HR.
Qed.

Lemma sim_up id rp st nd : RR rp st -> In id (opened st) -> get st id = Some nd ->
  exists rp', with_obj E id (fun now o => (fo_set_nlink E now (inc32 (a_nlink (fo_attrs o))) o, Ok FOUnit)) rp = (rp', Ok FOUnit) /\
    RR rp' (put st id (with_nlink (inc32 (i_nlink nd)) nd)).
Proof.
  intros H Hi Eg. destruct (RR_there _ _ _ _ H Eg) as (x & _ & Hgn & _).
  apply (RR_obj id _ rp st nd (with_nlink (inc32 (i_nlink nd)) nd) (Ok FOUnit) H Hi Eg).
  - now apply (good_same id nd).
  - reflexivity.
  - intros now o Hn Ho. eexists. split; [reflexivity|]. rewrite (or_nlink _ _ _ _ Ho). apply ORep_set_nlink; [exact Ho|exact Hn|apply inc32_lt].
Qed.

Lemma sim_type id rp st nd : RR rp st -> In id (opened st) -> get st id = Some nd -> t_type id rp = Ok (i_type nd).
Proof.
  intros H Hi Eg. destruct (RR_held _ _ _ H Hi) as (f & n & p & nd' & Hx & Hg & _ & Ho & _). rewrite Eg in Hg. injection Hg as <-.
  unfold t_type. rewrite Hx. unfold fo_type. now rewrite (or_mode _ _ _ _ Ho).
Qed.
Lemma sim_parent id rp st nd : RR rp st -> In id (opened st) -> get st id = Some nd -> t_parent id rp = Ok (i_parent nd).
Proof.
  intros H Hi Eg. destruct (RR_held _ _ _ H Hi) as (f & n & p & nd' & Hx & Hg & _ & Ho & Hp & _). rewrite Eg in Hg. injection Hg as <-.
  unfold t_parent. now rewrite Hx, Hp.
Qed.
Lemma sim_set_parent id p rp st : RR rp st -> In id (opened st) -> RR (t_set_parent id p rp) (FullFsModel.set_parent id p st).
Proof.
  intros H Hi. destruct (RR_held _ _ _ H Hi) as (f & n & q & nd & Hx & Hg & Hgn & Ho & Hp & _).
  unfold t_set_parent, FullFsModel.set_parent. rewrite Hx, Hg. eapply RR_change; try eassumption; [now apply (good_same id nd)|now apply ORep_parent|reflexivity].
Qed.

Lemma sim_link h base name rp st : RR rp st -> small 1 st -> In (fst h) (opened st) -> In (fst base) (opened st) -> ~ In x00 name ->
  exists rp', t_link E h base name rp = (rp', snd (link_step cmp h base name st)) /\ RR rp' (fst (link_step cmp h base name st)) /\
    opened (fst (link_step cmp h base name st)) = opened st.
Proof.
  intros H Hs Hi Hb Hn. destruct (get st (fst h)) as [nd|] eqn:Eg; [|now elim (rr_open _ _ H _ Hi)]. destruct (RR_there _ _ _ _ H Eg) as (x & _ & Hgn & _).
  unfold t_link, link_step. rewrite (sim_type _ _ _ _ H Hi Eg), Eg.
  destruct (sim_add base name (fst h) (i_type nd) rp st 0 H Hs Hb Hn (gn_id _ _ Hgn) (gn_type _ _ Hgn)) as (rp1 & E1 & H1 & _ & Ho1).
  rewrite E1. destruct (add_entry cmp base name (fst h) (i_type nd) st) as [st1 r]. cbn [fst snd] in *.
  destruct r as [[|]|e]; cbn [fst snd]; try solve [exists rp1; auto].
  assert (Hi1 : In (fst h) (opened st1)) by now rewrite Ho1.
  destruct (get st1 (fst h)) as [nd3|] eqn:Eg1; [|now elim (rr_open _ _ H1 _ Hi1)].
  destruct (sim_up (fst h) rp1 st1 nd3 H1 Hi1 Eg1) as (rp2 & E2 & H2). exists rp2. cbn [fst snd]. auto.
Qed.

Lemma sim_rename bf bt lf lt rp st : RR rp st -> small 2 st -> In (fst bf) (opened st) -> In (fst bt) (opened st) -> ~ In x00 lf -> ~ In x00 lt ->
  exists rp', t_rename E bf bt lf lt rp = (rp', snd (rename_step cmp bf bt lf lt st)) /\ RR rp' (fst (rename_step cmp bf bt lf lt st)) /\
    opened (fst (rename_step cmp bf bt lf lt st)) = opened st /\
    match snd (rename_step cmp bf bt lf lt st) with Ok (Some e) => good_entry e /\ length (e_id e) = 32 | _ => True end.
Proof.
  intros H Hs Hf Ht Hlf Hlt. unfold t_rename, rename_step.
  destruct (sim_remove bf lf rp st 2 H Hs Hf) as (rp1 & E1 & H1 & S1 & O1 & G1). rewrite E1.
  destruct (remove_entry cmp bf lf st) as [st1 r1]. cbn [fst snd] in *. destruct r1 as [[ef|]|e]; cbn [fst snd]; try solve [exists rp1; auto].
  destruct G1 as [Gf Lf]. assert (Ht1 : In (fst bt) (opened st1)) by now rewrite O1.
  destruct (sim_remove bt lt rp1 st1 2 H1 S1 Ht1) as (rp2 & E2 & H2 & S2 & O2 & G2). rewrite E2.
  destruct (remove_entry cmp bt lt st1) as [st2 r2]. cbn [fst snd] in *. rewrite <- O2 in Ht1. rewrite O1 in O2. rewrite <- O2 in Hf.
  destruct r2 as [[et|]|e]; cbn [fst snd].
  - destruct G2 as [Gt Lt]. destruct (bytes_eqb (e_id ef) (e_id et)).
    + destruct (sim_add bf lf (e_id ef) (e_type ef) rp2 st2 1 H2 S2 Hf Hlf Lf Gf) as (rp3 & E3 & H3 & S3 & O3). rewrite E3.
      destruct (add_entry cmp bf lf (e_id ef) (e_type ef) st2) as [st3 r3]. cbn [fst snd] in *. destruct r3 as [b|e]; cbn [fst snd].
      * rewrite <- O3 in Ht1. destruct (sim_add bt lt (e_id et) (e_type et) rp3 st3 0 H3 S3 Ht1 Hlt Lt Gt) as (rp4 & E4 & H4 & _ & O4). rewrite E4.
        destruct (add_entry cmp bt lt (e_id et) (e_type et) st3) as [st4 r4]. cbn [fst snd] in *. exists rp4. destruct r4; cbn [fst snd]; split; try reflexivity; split; try assumption; split; try congruence; exact I.
      * exists rp3. split; [reflexivity|]. split; [exact H3|]. split; [congruence|exact I].
    + destruct (sim_add bt lt (e_id ef) (e_type ef) rp2 st2 1 H2 S2 Ht1 Hlt Lf Gf) as (rp3 & E3 & H3 & S3 & O3). rewrite E3.
      destruct (add_entry cmp bt lt (e_id ef) (e_type ef) st2) as [st3 r3]. cbn [fst snd] in *. exists rp3. destruct r3; cbn [fst snd]; split; try reflexivity; split; try assumption; split; try congruence; auto.
  - destruct (sim_add bt lt (e_id ef) (e_type ef) rp2 st2 1 H2 S2 Ht1 Hlt Lf Gf) as (rp3 & E3 & H3 & S3 & O3). rewrite E3.
    destruct (add_entry cmp bt lt (e_id ef) (e_type ef) st2) as [st3 r3]. cbn [fst snd] in *. exists rp3. destruct r3; cbn [fst snd]; split; try reflexivity; split; try assumption; split; try congruence; auto.
  - exists rp2. split; [reflexivity|]. split; [exact H2|]. split; [congruence|exact I].
Qed.

(** ** The table *)
Lemma sim_open id ty rp st : RR rp st -> good_type ty ->
  exists rp', t_open E id ty rp = (rp', open_as id ty st) /\
    match open_as id ty st with Ok h => h = (id, ty) /\ RR rp' (hold id st) | Err e => RR rp' st end.
Proof.
  intros H Hty. unfold t_open, open_as.
  assert (Hc : good_class ty = true) by (unfold good_class; destruct Hty as [->|[->| ->]]; reflexivity).
  destruct (bytes_eqb id root_id && negb (ty =? TDIR)%N) eqn:Er.
  { apply andb_prop in Er. destruct Er as [-> E2]. destruct (ty =? TDIR)%N; [discriminate E2|]. exists rp. auto. }
  assert (Hsame : open_as id ty st = match get st id with None => Err E_NOENT | Some _ => Ok (id, ty) end).
  { unfold open_as. destruct (bytes_eqb id root_id) eqn:E1.
    - apply bytes_eqb_eq in E1. subst id. cbn [andb] in Er. destruct (ty =? TDIR)%N; [|discriminate Er]. pose proof (rr_root _ _ H). destruct (get st root_id); [reflexivity|contradiction].
    - unfold good_class in Hc. now rewrite Hc. }
  unfold open_as in Hsame. rewrite Hsame. destruct (get st id) as [nd|] eqn:Eg.
  2:{ rewrite (RR_none _ _ _ H Eg). exists rp. auto. }
  destruct (RR_there _ _ _ _ H Eg) as (x & Hx & Hgn & Hf). rewrite Hx.
  assert (Hnew : forall f p, ORep id f nd -> i_parent nd = p -> RR (r_set id (RLoaded f (S (occ id (opened st))) p) rp) (hold id st)).
  { intros f p Ho Hp. constructor.
    - intros y. unfold one_file, r_set. cbn [rp_files]. change (get (hold id st) y) with (get st y). destruct (dec_bytes id y) as [<-|Hne].
      + rewrite rget_put_eq, Eg. split; [exact Hgn|]. cbn [fits_file opened hold]. rewrite occ_cons, bytes_eqb_refl. split; [exact Ho|]. split; [exact Hp|]. split; [reflexivity|discriminate].
      + rewrite rget_put_ne by exact Hne. pose proof (rr_file _ _ H y) as Hy. unfold one_file in Hy. destruct (rget y (rp_files rp)) as [z|], (get st y) as [ny|]; try exact Hy.
        destruct Hy as [G1 G2]. split; [exact G1|]. destruct z as [d m|f0 r0 p0]; cbn [fits_file opened hold] in *.
        * destruct G2 as (A1 & A2 & A3 & A4). split; [exact A1|]. split; [exact A2|]. split; [|exact A4]. intros [E0|E0]; contradiction.
        * rewrite occ_cons. replace (bytes_eqb y id) with false; [exact G2|]. symmetry. apply bytes_eqb_neq. congruence.
    - exact (rr_root _ _ H).
    - intros y Hy. cbn [opened hold] in Hy. change (get (hold id st) y) with (get st y). destruct Hy as [<-|Hy]; [congruence|now apply (rr_open _ _ H)]. }
  destruct x as [d m|f ref p]; cbn [fits_file] in Hf.
  - destruct Hf as (Hcl & Hp & Hno & Hnr). rewrite Hc. destruct (fo_open_ok E id d m nd (rp_time rp) Hcl) as (f & E1 & Ho & _). rewrite E1.
    eexists. split; [reflexivity|]. split; [reflexivity|].
    assert (E0 : occ id (opened st) = 0) by (destruct (occ id (opened st)) eqn:E0; [reflexivity|]; elim Hno; apply occ_in; lia).
    specialize (Hnew f root_id Ho Hp). rewrite E0 in Hnew. exact Hnew.
  - destruct Hf as (Ho & Hp & -> & _). eexists. split; [reflexivity|]. split; [reflexivity|]. now apply Hnew.
Qed.

Lemma occ_remove id y l : In id l -> occ y (remove_one id l) = if bytes_eqb y id then occ y l - 1 else occ y l.
Proof.
  induction l as [|x l IH]; cbn [remove_one]; [intros []|]. intros Hi. destruct (bytes_eqb x id) eqn:E1.
  - apply bytes_eqb_eq in E1. subst x. rewrite occ_cons. destruct (bytes_eqb y id); lia.
  - rewrite !occ_cons. destruct Hi as [->|Hi]; [rewrite bytes_eqb_refl in E1; discriminate E1|]. rewrite (IH Hi). destruct (bytes_eqb y id) eqn:E2; [|reflexivity].
    apply bytes_eqb_eq in E2. subst y. destruct (bytes_eqb id x) eqn:E3; [apply bytes_eqb_eq in E3; subst x; rewrite bytes_eqb_refl in E1; discriminate E1|]. lia.
Qed.
Lemma in_remove_one y id l : In y (remove_one id l) -> In y l.
Proof. induction l as [|x l IH]; cbn [remove_one]; [intros []|]. destruct (bytes_eqb x id); cbn; intuition. Qed.

Lemma sim_drop id rp st : RR rp st -> In id (opened st) -> RR (t_drop E id rp) (drop_ref id st).
Proof.
  intros H Hi. destruct (RR_held _ _ _ H Hi) as (f & n & p & nd & Hx & Eg & Hgn & Ho & Hp & Hocc).
  unfold t_drop, drop_ref, finish. rewrite Hx. cbn [opened].
  set (op := remove_one id (opened st)).
  assert (Hop : forall y, occ y op = if bytes_eqb y id then n else occ y (opened st)).
  { intros y. unfold op. rewrite (occ_remove _ _ _ Hi). destruct (bytes_eqb y id) eqn:E1; [|reflexivity]. apply bytes_eqb_eq in E1. subst y. lia. }
  assert (Hin : forall y, In y op -> In y (opened st)) by (intros y; apply in_remove_one).
  change (get (mkFfs (nodes st) op) id) with (get st id). rewrite Eg.
  assert (Hex : existsb (bytes_eqb id) op = match n with O => false | _ => true end).
  { destruct (existsb (bytes_eqb id) op) eqn:E1.
    - apply existsb_in in E1. apply occ_in in E1. rewrite Hop, bytes_eqb_refl in E1. destruct n; [lia|reflexivity].
    - destruct n; [reflexivity|]. assert (Hx0 : In id op) by (apply occ_in; rewrite Hop, bytes_eqb_refl; lia). apply existsb_in in Hx0. congruence. }
  (* what stays *)
  assert (Hstay : forall f', ORep id f' nd -> (n = 0 -> id <> root_id -> fclean f') -> RR (r_set id (RLoaded f' n p) rp) (mkFfs (nodes st) op)).
  { intros f' Ho' Hc. constructor.
    - intros y. unfold one_file, r_set. cbn [rp_files]. change (get (mkFfs (nodes st) op) y) with (get st y). cbn [opened]. destruct (dec_bytes id y) as [<-|Hne].
      + rewrite rget_put_eq, Eg. split; [exact Hgn|]. cbn [fits_file]. rewrite Hop, bytes_eqb_refl. split; [exact Ho'|]. split; [exact Hp|]. split; [reflexivity|exact Hc].
      + rewrite rget_put_ne by exact Hne. pose proof (rr_file _ _ H y) as Hy. unfold one_file in Hy. destruct (rget y (rp_files rp)) as [z|], (get st y) as [ny|]; try exact Hy.
        destruct Hy as [G1 G2]. split; [exact G1|]. destruct z as [d m|f0 r0 p0]; cbn [fits_file] in *.
        * destruct G2 as (A1 & A2 & A3 & A4). split; [exact A1|]. split; [exact A2|]. split; [intros Hy; apply A3; now apply Hin|exact A4].
        * rewrite Hop. replace (bytes_eqb y id) with false; [exact G2|]. symmetry. apply bytes_eqb_neq. congruence.
    - exact (rr_root _ _ H).
    - intros y Hy. change (get (mkFfs (nodes st) op) y) with (get st y). apply (rr_open _ _ H). now apply Hin. }
  rewrite Hex. destruct n as [|n].
  2:{ rewrite orb_true_r. apply Hstay; [exact Ho|discriminate]. }
  rewrite orb_false_r, (or_nlink _ _ _ _ Ho). destruct (ORep_flush E HE id f nd Ho) as (f' & Ef & Ho' & Hcl). rewrite Ef. cbn [fst].
  destruct (bytes_eqb id root_id) eqn:Er; cbn [negb andb]; [apply Hstay; auto|].
  destruct (i_nlink nd =? 0)%N; [|apply Hstay; auto]. apply bytes_eqb_neq in Er.
  constructor.
  - intros y. unfold one_file, get. cbn [rp_files nodes opened]. destruct (dec_bytes id y) as [<-|Hne].
    + now rewrite rget_del_eq, nget_del_eq.
    + rewrite rget_del_ne, nget_del_ne by exact Hne. pose proof (rr_file _ _ H y) as Hy. unfold one_file in Hy. fold (get st y). destruct (rget y (rp_files rp)) as [z|], (get st y) as [ny|]; try exact Hy.
      destruct Hy as [G1 G2]. split; [exact G1|]. destruct z as [d m|f0 r0 p0]; cbn [fits_file] in *.
      * destruct G2 as (A1 & A2 & A3 & A4). split; [exact A1|]. split; [exact A2|]. split; [intros Hy; apply A3; now apply Hin|exact A4].
      * rewrite Hop. replace (bytes_eqb y id) with false; [exact G2|]. symmetry. apply bytes_eqb_neq. congruence.
  - unfold get. cbn [nodes]. rewrite nget_del_ne by exact Er. exact (rr_root _ _ H).
  - cbn [opened]. intros y Hy. unfold get. cbn [nodes]. destruct (dec_bytes id y) as [<-|Hne].
    + apply occ_in in Hy. rewrite Hop, bytes_eqb_refl in Hy. lia.
    + rewrite nget_del_ne by exact Hne. apply (rr_open _ _ H). now apply Hin.
Qed.

Lemma sim_evict id rp st : RR rp st -> id <> root_id -> RR (t_evict id rp) (fst (fs_step cmp (FEvict id) st)).
Proof.
  intros H Hr. cbn [fs_step]. unfold t_evict. destruct (get st id) as [nd|] eqn:Eg.
  2:{ rewrite (RR_none _ _ _ H Eg). unfold FullFsModel.set_parent. rewrite Eg. destruct (existsb _ _); exact H. }
  destruct (RR_there _ _ _ _ H Eg) as (x & Hx & Hgn & Hf). rewrite Hx. unfold FullFsModel.set_parent. rewrite Eg.
  destruct x as [d m|f [|n] p]; cbn [fits_file] in Hf.
  - destruct Hf as (H1 & H2 & H3 & H4). destruct (existsb _ _); [exact H|]. cbn [fst]. assert (Hw : with_parent root_id nd = nd) by (rewrite <- H2; now destruct nd).
    now rewrite Hw, put_same.
  - destruct Hf as (H1 & H2 & H3 & H4). apply bytes_eqb_neq in Hr as Hr'. rewrite Hr'. replace (existsb (bytes_eqb id) (opened st)) with false.
    2:{ symmetry. destruct (existsb (bytes_eqb id) (opened st)) eqn:E1; [|reflexivity]. apply existsb_in, occ_in in E1. lia. }
    cbn [fst]. assert (Hno : ~ In id (opened st)) by (intros Hi; apply occ_in in Hi; lia).
    constructor.
    + intros y. unfold one_file, r_set. cbn [rp_files opened put]. destruct (dec_bytes id y) as [<-|Hne].
      * rewrite rget_put_eq, get_put_eq. split; [now apply (good_same id nd)|]. cbn [fits_file]. split; [|auto]. apply OClean_parent. apply ORep_clean; auto.
      * rewrite rget_put_ne, get_put_ne by exact Hne. exact (rr_file _ _ H y).
    + rewrite get_put_ne by exact Hr. exact (rr_root _ _ H).
    + cbn [opened put]. intros y Hy. destruct (dec_bytes id y) as [<-|Hne]; [rewrite get_put_eq; discriminate|rewrite get_put_ne by exact Hne; now apply (rr_open _ _ H)].
  - destruct Hf as (H1 & H2 & H3 & H4). replace (existsb (bytes_eqb id) (opened st)) with true; [exact H|]. symmetry. apply existsb_in, occ_in. lia.
Qed.

Lemma sim_create id perm ty bad rp st : RR rp st -> good_type ty -> length id = 32 ->
  let r := match bad, get st id with Some e, _ => Err e | None, Some _ => Err E_EXIST | None, None => Ok tt end in
  exists rp', t_create E id perm ty bad rp = (rp', r) /\
    match r with Ok _ => RR rp' (hold id (put st id (mkInode (perm mod 512 + ty * 4096)%N 1 [] [] root_id))) | Err _ => RR rp' st end.
Proof.
  intros H Hty Hid. cbn zeta. unfold t_create. destruct bad as [e|]; [exists rp; auto|]. destruct (get st id) as [nd|] eqn:Eg.
  { destruct (RR_there _ _ _ _ H Eg) as (x & -> & _). exists rp. auto. }
  rewrite (RR_none _ _ _ H Eg). destruct (fo_create_ok E HE id (rp_time rp) (v_clock E (rp_time rp)) perm ty (clock_ok _)) as (f & E1 & Ho).
  { destruct Hty as [->|[->| ->]]; reflexivity. }
  rewrite E1. eexists. split; [reflexivity|].
  assert (Hno : ~ In id (opened st)) by (intros Hi; now elim (rr_open _ _ H _ Hi)).
  assert (E0 : occ id (opened st) = 0) by (destruct (occ id (opened st)) eqn:E0; [reflexivity|]; elim Hno; apply occ_in; lia).
  set (nd := mkInode (perm mod 512 + ty * 4096)%N 1 [] [] root_id) in *.
  assert (Ht : i_type nd = ty).
  { unfold i_type, nd. cbn [i_mode]. rewrite N.div_add by discriminate. rewrite N.div_small; [lia|]. pose proof (N.mod_lt perm 512 ltac:(discriminate)). lia. }
  change (get (hold id (put st id nd))) with (get (put st id nd)).
  constructor.
  - intros y. unfold one_file, r_set. cbn [rp_files]. change (get (hold id (put st id nd)) y) with (get (put st id nd) y). cbn [opened hold put]. destruct (dec_bytes id y) as [<-|Hne].
    + rewrite rget_put_eq, get_put_eq. split; [constructor; [exact Hid|now rewrite Ht|constructor]|]. cbn [fits_file]. rewrite occ_cons, bytes_eqb_refl, E0.
      split; [exact Ho|]. split; [reflexivity|]. split; [reflexivity|discriminate].
    + rewrite rget_put_ne, get_put_ne by exact Hne. pose proof (rr_file _ _ H y) as Hy. unfold one_file in Hy. destruct (rget y (rp_files rp)) as [z|], (get st y) as [ny|]; try exact Hy.
      destruct Hy as [G1 G2]. split; [exact G1|]. destruct z as [d m|f0 r0 p0]; cbn [fits_file] in *.
      * destruct G2 as (A1 & A2 & A3 & A4). split; [exact A1|]. split; [exact A2|]. split; [|exact A4]. intros [E2|E2]; contradiction.
      * rewrite occ_cons. replace (bytes_eqb y id) with false; [exact G2|]. symmetry. apply bytes_eqb_neq. congruence.
  - change (get (hold id (put st id nd)) root_id) with (get (put st id nd) root_id). pose proof (rr_root _ _ H). rewrite get_put_ne; [assumption|]. intros ->. contradiction.
  - intros y Hy. cbn [opened hold put] in Hy. change (get (hold id (put st id nd)) y) with (get (put st id nd) y). destruct (dec_bytes id y) as [<-|Hne]; [rewrite get_put_eq; discriminate|].
    rewrite get_put_ne by exact Hne. destruct Hy as [Hy|Hy]; [contradiction|]. now apply (rr_open _ _ H).
Qed.
End Repo.
