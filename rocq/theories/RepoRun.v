(** Runs of a repository are runs of the map from ids to inodes. *)
From Coq Require Import Strings.String Lia Permutation.
From Verif Require Import Base BaseLemmas TextModel NameModel StreamSpec AttrModel AttrProofs FullStreamModel FullStreamProofs BtreeModel BtreeSpec BtreeInsert FullFsModel FullFsSpec FullFsProofs FullFsPath FullFsInv FullFsStep
  ObjModel ObjProofs RepoModel RepoSpec FsConcModel FsConcProofs FsConcSafe RepoProofs RepoSim RepoOps.
Local Open Scope list_scope.

Section Run.
Variable E : senv.
Hypothesis HE : senv_ok E.
Notation cmp := (v_cmp E).
Notation RR := (RR E).
Notation psim := (psim E).

(** ** Uses of open files *)
Lemma own_class_ok {X} want bad (f : timespec -> fob -> fob * res X) id nd now o : ORep E id o nd ->
  own_class want bad f now o = if (i_type nd =? want)%N then f now o else (o, Err bad).
Proof. intros Ho. unfold own_class, fo_type. rewrite (or_mode _ _ _ _ Ho). reflexivity. Qed.

Lemma cast_own want id st nd : get st id = Some nd -> cast_as want (id, i_type nd) st = if (i_type nd =? want)%N then Ok nd else Err E_PERM.
Proof. intros H. unfold cast_as. cbn [fst snd]. now rewrite H, N.eqb_refl. Qed.
(** An object is looked at, or refuses. *)
Lemma own_look id want bad (f : timespec -> fob -> fob * res fout) (P : res fout -> Prop) rp st nd : RR rp st -> In id (opened st) -> get st id = Some nd ->
  (i_type nd = want -> forall now o, ts_in_range now -> ORep E id o nd -> exists o' r, f now o = (o', r) /\ ORep E id o' nd /\ P r) ->
  (i_type nd <> want -> P (Err bad)) ->
  RR (fst (with_obj E id (own_class want bad f) rp)) st /\ P (snd (with_obj E id (own_class want bad f) rp)).
Proof.
  intros H Hi Eg Hf Hb. destruct (RR_look E HE id (own_class want bad f) P rp st nd H Hi Eg) as (rp' & r & E1 & HR & HP).
  - intros now o Hn Ho. rewrite (own_class_ok want bad f id nd now o Ho). destruct (N.eqb_spec (i_type nd) want) as [Et|Et]; [now apply Hf|].
    do 2 eexists. split; [reflexivity|]. split; [exact Ho|now apply Hb].
  - rewrite E1. auto.
Qed.
(** An object's contents change, or it refuses. *)
Lemma own_write id (f : timespec -> fob -> fob * res unit) (d : bytes) rp st nd : RR rp st -> In id (opened st) -> get st id = Some nd ->
  (i_type nd = TREG -> forall now o, ts_in_range now -> ORep E id o nd -> exists o', f now o = (o', Ok tt) /\ ORep E id o' (with_data d nd)) ->
  RR (fst (with_obj E id (own_class TREG E_PERM (done f FOUnit)) rp)) (fst (fs_step cmp (FWrite id d) st)) /\
  snd (with_obj E id (own_class TREG E_PERM (done f FOUnit)) rp) = snd (fs_step cmp (FWrite id d) st) /\ opened (fst (fs_step cmp (FWrite id d) st)) = opened st.
Proof.
  intros H Hi Eg Hf. destruct (RR_there _ _ _ _ _ H Eg) as (y & _ & Hgn & _). cbn [fs_step].
  replace (existsb (bytes_eqb id) (opened st)) with true by (symmetry; now apply FullFsInv.existsb_in). rewrite Eg, (cast_own _ _ _ _ Eg).
  destruct (N.eqb_spec (i_type nd) TREG) as [Et|Et]; cbn [fst snd].
  - destruct (RR_obj E HE id (own_class TREG E_PERM (done f FOUnit)) rp st nd (with_data d nd) (Ok FOUnit) H Hi Eg) as (rp' & E1 & HR).
    + now apply (good_same _ nd).
    + reflexivity.
    + intros now o Hn Ho. rewrite (own_class_ok TREG E_PERM _ id nd now o Ho), Et, N.eqb_refl. destruct (Hf Et now o Hn Ho) as (o2 & E1 & Ho2). exists o2. split; [now apply done_ok|exact Ho2].
    + rewrite E1. cbn [fst snd]. split; [exact HR|]. split; reflexivity.
  - destruct (own_look id TREG E_PERM (done f FOUnit) (fun r => r = Err E_PERM) rp st nd H Hi Eg) as [A1 A2]; [contradiction|reflexivity|]. auto.
Qed.

Lemma sim_io o rp st : RR rp st -> In (io_file o) (opened st) -> io_fits E o ->
  RR (fst (r_io E o rp)) (fst (plain_io cmp o st)) /\ same_answer (snd (r_io E o rp)) (snd (plain_io cmp o st)) /\ opened (fst (plain_io cmp o st)) = opened st.
Proof.
  intros H Hi Hf. destruct (get st (io_file o)) as [nd|] eqn:Eg; [|now elim (rr_open _ _ _ H _ Hi)].
  assert (Hex : existsb (bytes_eqb (io_file o)) (opened st) = true) by now apply FullFsInv.existsb_in.
  destruct o; cbn [io_file io_fits r_io plain_io] in *.
  - cbn [fs_step]. rewrite Hex, Eg, (cast_own _ _ _ _ Eg).
    destruct (own_look id TREG E_PERM (fun now o => let '(o1, r) := fo_read E id now off len o in (o1, rmap FOBytes r))
      (fun r => r = if (i_type nd =? TREG)%N then Ok (FOBytes (arr_read (i_data nd) off len)) else Err E_PERM) rp st nd H Hi Eg) as [A1 A2].
    + intros Et now o Hn Ho. rewrite Et. destruct (ORep_read E HE id o nd now off len Ho Hn) as (o' & E1 & Ho'); [rewrite Et; discriminate| |].
      * apply length_olim. now rewrite Nat2N.inj_add.
      * rewrite E1. eauto.
    + intros Et. apply N.eqb_neq in Et. now rewrite Et.
    + rewrite A2. destruct (i_type nd =? TREG)%N; cbn [fst snd]; (split; [exact A1|]; split; [reflexivity|reflexivity]).
  - assert (Hc : contents_of st id = i_data nd) by (unfold contents_of; now rewrite Eg). rewrite Hc.
    destruct (own_write id (fun now => fo_write E id now off d) (arr_write (i_data nd) off d) rp st nd H Hi Eg) as (A1 & A2 & A3).
    + intros Et now o Hn Ho. apply ORep_write; auto; [rewrite Et; discriminate|]. apply length_olim. now rewrite Nat2N.inj_add.
    + split; [exact A1|]. split; [rewrite A2; apply same_refl_answer|exact A3].
  - assert (Hc : contents_of st id = i_data nd) by (unfold contents_of; now rewrite Eg). rewrite Hc.
    destruct (own_write id (fun now => fo_truncate E id now len) (arr_resize (i_data nd) len) rp st nd H Hi Eg) as (A1 & A2 & A3).
    + intros Et now o Hn Ho. apply ORep_truncate; auto; [rewrite Et; discriminate|]. now apply length_olim.
    + split; [exact A1|]. split; [rewrite A2; apply same_refl_answer|exact A3].
  - rewrite Eg. destruct (stat_ok E HE id rp st nd H Hi Eg) as (A1 & s & A2 & A3). cbn [fst snd]. rewrite A2. cbn [same_answer].
    split; [exact A1|]. split; [|reflexivity]. split; [reflexivity|]. split; [reflexivity|]. split; [reflexivity|]. exact A3.
  - cbn [fs_step]. rewrite Hex, Eg.
    destruct (own_look id TDIR E_NOTDIR (fun now o => let '(o1, r) := fo_list E id now o in (o1, rmap (fun l => FOList (map (fun e => (e_name e, e_id e, e_type e)) l)) r))
      (fun r => same_answer r (if (i_type nd =? TDIR)%N then Ok (FOList (map (fun e => (e_name e, e_id e, e_type e)) (i_dir nd))) else Err E_NOTDIR)) rp st nd H Hi Eg) as [A1 A2].
    + intros Et now o Hn Ho. rewrite Et. destruct (ORep_list E HE id o nd now Ho Hn Et) as (o' & l & E1 & Ho' & Hp).
      rewrite E1. do 2 eexists. split; [reflexivity|]. split; [exact Ho'|]. cbn [rmap same_answer N.eqb]. now apply Permutation_map.
    + intros Et. apply N.eqb_neq in Et. rewrite Et. reflexivity.
    + destruct (i_type nd =? TDIR)%N; cbn [fst snd]; (split; [exact A1|]; split; [exact A2|reflexivity]).
  - cbn [fst snd]. destruct (RR_look E HE id (fun _ o => let '(o1, r) := fo_flush E id o in (o1, rmap (fun _ => FOUnit) r)) (fun r => r = Ok FOUnit) rp st nd H Hi Eg) as (rp' & r & E1 & HR & ->).
    + intros now o Hn Ho. destruct (ORep_flush E HE id o nd Ho) as (o' & E1 & Ho' & _). rewrite E1. eauto.
    + rewrite E1. cbn [fst snd]. split; [exact HR|]. split; reflexivity.
Qed.
Lemma io_event o w : In (io_file o) (handles w) -> exists new w', 
  goes cmp w (match io_as o (files w) with Some f => [EIo f (snd (fs_step cmp f (files w)))] | None => [] end) new w' /\
  files w' = fst (plain_io cmp o (files w)) /\ handles w' = handles w /\ threads w' = threads w.
Proof.
  intros Hi.
  assert (Hone : forall f, (f = FRead (io_file o) \/ (exists d, f = FWrite (io_file o) d) \/ f = FReaddir (io_file o)) ->
    exists new w', goes cmp w [EIo f (snd (fs_step cmp f (files w)))] new w' /\ files w' = fst (fs_step cmp f (files w)) /\ handles w' = handles w /\ threads w' = threads w).
  { intros f Hf. do 2 eexists. split; [econstructor; [exact (W_io cmp w f (io_file o) Hf Hi)|constructor]|]. auto. }
  destruct o; cbn [io_as io_file plain_io] in *.
  - destruct (Hone (FRead id) (or_introl eq_refl)) as (new & w' & A1 & A2 & A3). exists new, w'. split; [exact A1|]. split; [|exact A3]. rewrite A2.
    destruct (fs_step cmp (FRead id) (files w)) as [st' [[]|]]; reflexivity.
  - apply Hone. right. left. eauto.
  - apply Hone. right. left. eauto.
  - exists [], w. split; [constructor|]. auto.
  - apply Hone. now right; right.
  - exists [], w. split; [constructor|]. auto.
Qed.

(** ** Mounting *)
Lemma one_stored id rp st nd : RR rp st -> get st id = Some nd -> exists x, rget id (rp_files rp) = Some x /\ good_node id nd /\
  exists d m, t_unload E id x = RStored d m /\ OClean E id d m nd.
Proof.
  intros H Hg. destruct (RR_there _ _ _ _ _ H Hg) as (x & Hx & Hgn & Hf). exists x. split; [exact Hx|]. split; [exact Hgn|].
  destruct x as [d m|f ref p]; cbn [fits_file t_unload] in *.
  - exists d, m. split; [reflexivity|apply Hf].
  - destruct Hf as (Ho & _). destruct (ORep_flush E HE id f nd Ho) as (f' & E1 & Ho' & Hc). rewrite E1. cbn [fst]. do 2 eexists. split; [reflexivity|]. now apply ORep_clean.
Qed.
Lemma rget_unmount id l t : rget id (unmount E (mkRepo l t)) = option_map (t_unload E id) (rget id l).
Proof.
  unfold unmount. cbn [rp_files]. induction l as [|[i x] l IH]; cbn [map rget fst snd]; [reflexivity|].
  destruct (bytes_eqb i id) eqn:E1; [|exact IH]. apply bytes_eqb_eq in E1. now subst i.
Qed.
Lemma remount_ok rp st t : RR rp st -> opened st = [] -> snd (mount E (unmount E rp) t) = Ok tt /\
  forall st', opened st' = [] -> (forall y, get st' y = option_map (with_parent root_id) (get st y)) -> RR (fst (mount E (unmount E rp) t)) st'.
Proof.
  intros H Hop. destruct (get st root_id) as [rn|] eqn:Er; [|now elim (rr_root _ _ _ H)].
  destruct (one_stored _ _ _ _ H Er) as (x & Hx & Hgn & d & m & Hu & Hc).
  assert (Hun : forall y, rget y (unmount E rp) = option_map (t_unload E y) (rget y (rp_files rp))) by (intros y; destruct rp as [l t0]; apply rget_unmount).
  unfold mount. rewrite Hun, Hx. cbn [option_map]. rewrite Hu.
  destruct (fo_open_ok E root_id d m (with_parent root_id rn) t (OClean_parent _ _ _ _ _ _ Hc)) as (f & E1 & Ho & _). rewrite E1. cbn [fst snd]. split; [reflexivity|].
  intros st' Hop' Hg'. constructor.
  - intros y. unfold one_file, r_set. cbn [rp_files]. rewrite Hg', Hop'. destruct (dec_bytes root_id y) as [<-|Hne].
    + rewrite rget_put_eq, Er. cbn [option_map fits_file]. split; [now apply (good_same _ rn)|]. split; [exact Ho|]. split; [reflexivity|]. split; [reflexivity|congruence].
    + rewrite rget_put_ne, Hun by exact Hne. destruct (get st y) as [nd|] eqn:Ey.
      * destruct (one_stored _ _ _ _ H Ey) as (x' & Hx' & Hgn' & d' & m' & Hu' & Hc'). rewrite Hx'. cbn [option_map]. rewrite Hu'. cbn [fits_file].
        split; [now apply (good_same _ nd)|]. split; [now apply OClean_parent|]. split; [reflexivity|]. split; [intros []|congruence].
      * rewrite (RR_none _ _ _ _ H Ey). exact I.
  - rewrite Hg', Er. discriminate.
  - rewrite Hop'. intros y [].
Qed.
Lemma start_ok : RR (fst (mount E [] 0)) new_repo.
Proof.
  destruct (fo_create_ok E HE root_id 0 (v_clock E 0) 493 TDIR (so_clock _ HE 0)) as (f & E1 & Ho); [reflexivity|].
  unfold mount. cbn [rget]. rewrite E1. cbn [fst]. constructor.
  - intros y. unfold one_file, r_set. cbn [rp_files rput]. destruct (dec_bytes root_id y) as [<-|Hne].
    + cbn [rget]. rewrite bytes_eqb_refl. change (get new_repo root_id) with (Some (mkInode (493 + TDIR * 4096)%N 1 [] [] root_id)). cbn [fits_file].
      split; [constructor; [reflexivity|now right; left|constructor]|]. split; [exact Ho|]. split; [reflexivity|]. split; [reflexivity|congruence].
    + cbn [rget]. apply bytes_eqb_neq in Hne. rewrite Hne. unfold get, new_repo. cbn [nodes nget]. rewrite Hne. exact I.
  - discriminate.
  - intros y [].
Qed.

(** Everything is forgotten that can be. *)
Definition forget_all (ids : list bytes) (st : ffs) : ffs := fold_left (fun s id => fst (fs_step cmp (FEvict id) s)) ids st.
Lemma forget_one id st y : opened st = [] -> get (fst (fs_step cmp (FEvict id) st)) y = (if bytes_eqb id y then option_map (with_parent root_id) (get st y) else get st y) /\
  opened (fst (fs_step cmp (FEvict id) st)) = [].
Proof.
  intros Hop. cbn [fs_step]. rewrite Hop. cbn [existsb fst]. unfold FullFsModel.set_parent. destruct (get st id) as [nd|] eqn:Eg.
  - split; [|exact Hop]. rewrite get_put. destruct (bytes_eqb id y) eqn:E1; [|reflexivity]. apply bytes_eqb_eq in E1. subst y. now rewrite Eg.
  - split; [|exact Hop]. destruct (bytes_eqb id y) eqn:E1; [|reflexivity]. apply bytes_eqb_eq in E1. subst y. now rewrite Eg.
Qed.
Lemma forget_all_get ids : forall st y, opened st = [] -> opened (forget_all ids st) = [] /\
  get (forget_all ids st) y = if existsb (fun i => bytes_eqb i y) ids then option_map (with_parent root_id) (get st y) else get st y.
Proof.
  induction ids as [|i ids IH]; intros st y Hop; cbn [forget_all fold_left existsb]; [auto|].
  destruct (forget_one i st y Hop) as [A1 A2]. destruct (IH _ y A2) as [B1 B2]. split; [exact B1|]. fold (forget_all ids (fst (fs_step cmp (FEvict i) st))).
  rewrite B2, A1. destruct (bytes_eqb i y), (existsb (fun i => bytes_eqb i y) ids); cbn [orb]; try reflexivity. now destruct (get st y).
Qed.
Lemma forget_every st y : opened st = [] -> get (forget_all (map fst (nodes st)) st) y = option_map (with_parent root_id) (get st y).
Proof.
  intros Hop. rewrite (proj2 (forget_all_get _ st y Hop)). destruct (existsb _ _) eqn:E1; [reflexivity|].
  destruct (get st y) as [nd|] eqn:Eg; [|reflexivity]. exfalso. unfold get in Eg. destruct st as [l op]. cbn [nodes] in *. clear Hop. induction l as [|[i n] l IH]; cbn [nget map fst existsb] in *; [discriminate|].
  destruct (bytes_eqb i y); [discriminate E1|]. cbn [orb] in E1. auto.
Qed.
Lemma goes_forget ids : forall w, exists new w', goes cmp w (map EEvict ids) new w' /\ files w' = forget_all ids (files w) /\ handles w' = handles w /\ threads w' = threads w.
Proof.
  induction ids as [|i ids IH]; intros w; cbn [map].
  - exists [], w. split; [constructor|]. auto.
  - destruct (IH (mkWorld (fst (fs_step cmp (FEvict i) (files w))) (handles w) (threads w))) as (new & w' & A1 & A2 & A3 & A4).
    do 2 eexists. split; [econstructor; [constructor|exact A1]|]. cbn [files handles threads] in *. auto.
Qed.

(** ** Threads *)
Inductive trel : rthread -> thread -> list bytes -> Prop :=
| TR_idle : trel RIdle TIdle []
| TR_run o p p' own : psim (Qbd o) own p p' -> trel (RRun o p) (TRun o p') own.
Inductive trels : list rthread -> list thread -> list (list bytes) -> Prop :=
| TS_nil : trels [] [] []
| TS_cons t t' own ts ts' owns : trel t t' own -> trels ts ts' owns -> trels (t :: ts) (t' :: ts') (own :: owns).
Lemma trels_at ts ts' owns i t : trels ts ts' owns -> nth_error ts i = Some t -> exists t' own pre post, nth_error ts' i = Some t' /\ trel t t' own /\ owns = pre ++ own :: post /\
  forall u u' own', trel u u' own' -> trels (rset_nth i u ts) (set_nth i u' ts') (pre ++ own' :: post).
Proof.
  intros H. revert i. induction H as [|x x' ow ts ts' owns Hx H IH]; intros [|i] Hi; cbn [nth_error] in *; try discriminate Hi.
  - injection Hi as ->. exists x', ow, [], owns. split; [reflexivity|]. split; [exact Hx|]. split; [reflexivity|]. intros u u' own' Hu. unfold rset_nth, set_nth. cbn [firstn skipn app]. now constructor.
  - destruct (IH i Hi) as (t' & own & pre & post & A1 & A2 & -> & A4). exists t', own, (ow :: pre), post. split; [exact A1|]. split; [exact A2|]. split; [reflexivity|].
    intros u u' own' Hu. specialize (A4 u u' own' Hu). unfold rset_nth, set_nth in *. cbn [firstn skipn app] in *. now constructor.
Qed.
Lemma trels_idle ts ts' owns : trels ts ts' owns -> Forall (fun t => t = RIdle) ts -> concat owns = [].
Proof. induction 1 as [|x x' ow ts ts' owns Hx H IH]; intros HF; [reflexivity|]. inversion HF; subst. inversion Hx; subst. cbn [concat app]. auto. Qed.
Lemma trels_start n : trels (repeat RIdle n) (repeat TIdle n) (repeat [] n) /\ concat (repeat (@nil bytes) n) = [].
Proof. induction n as [|n [IH1 IH2]]; cbn [repeat concat app]; [split; [constructor|reflexivity]|]. split; [constructor; [constructor|exact IH1]|exact IH2]. Qed.

Record WI (w : rworld) (aw : world) : Prop := mkWI {
  wi_files : RR (w_repo w) (files aw);
  wi_handles : handles aw = w_handles w;
  wi_threads : exists owns, trels (w_threads w) (threads aw) owns /\ Permutation (opened (files aw)) (w_handles w ++ concat owns) }.
Lemma start_WI n : WI (mkRworld (fst (mount E [] 0)) [] (repeat RIdle n)) (mkWorld new_repo [] (repeat TIdle n)).
Proof.
  constructor; cbn [w_repo files handles w_handles w_threads threads]; [apply start_ok|reflexivity|]. destruct (trels_start n) as [A1 A2]. exists (repeat [] n). split; [exact A1|]. now rewrite A2.
Qed.

Lemma owns_split (h : list bytes) pre own post l : Permutation l (h ++ concat (pre ++ own :: post)) <-> Permutation l (own ++ (h ++ concat pre ++ concat post)).
Proof.
  rewrite concat_app. cbn [concat]. assert (Hp : Permutation (h ++ concat pre ++ own ++ concat post) (own ++ h ++ concat pre ++ concat post)).
  { rewrite (app_assoc h (concat pre)), Permutation_app_swap_app. now rewrite <- app_assoc. }
  rewrite Hp. reflexivity.
Qed.

Lemma step_WI w aw e w' : WI w aw -> rwstep E w e w' -> event_fits E e -> dirs_fit 2 (files aw) ->
  exists evs new aw', seen_as cmp aw e evs /\ goes cmp aw evs new aw' /\ WI w' aw'.
Proof.
  intros [HR Hh (owns & Ht & Hop)] Hs Hf Hd. destruct Hs as [w i o Hi Hm|w i o upd next Hi|w i o r Hi|w o Hin|w id|w Hnil Hidle]; cbn [event_fits] in Hf.
  - destruct (trels_at _ _ _ _ _ Ht Hi) as (t' & own & pre & post & A1 & A2 & -> & A4). inversion A2; subst t' own.
    exists [ECall i o]. do 2 eexists. split; [constructor|]. split; [econstructor; [|constructor]|].
    { apply W_call; [exact A1|]. destruct o; cbn [call_ok may_call] in *; try exact Hm. now rewrite Hh. }
    constructor; cbn [w_repo files handles w_handles w_threads threads].
    + exact HR.
    + rewrite Hh. destruct o; reflexivity.
    + exists (pre ++ begins o :: post). split; [apply A4; constructor; now apply (sim_body E HE o (w_handles w))|].
      apply owns_split. apply owns_split in Hop. cbn [app] in Hop. rewrite Hop. destruct o; cbn [begins given_up]; try reflexivity. cbn [may_call] in Hm.
      apply remove_one_perm in Hm. cbn [app]. rewrite app_comm_cons. apply Permutation_app_tail. exact Hm.
  - destruct (trels_at _ _ _ _ _ Ht Hi) as (t' & own & pre & post & A1 & A2 & -> & A4). inversion A2 as [|o0 p0 p' own0 Hp]; subst t' own0 p0 o0.
    destruct p' as [b|u' n']; cbn [psim] in Hp; [contradiction|]. apply owns_split in Hop.
    destruct (Hp _ _ _ HR Hop Hd) as (own' & B1 & B2 & B3).
    exists [EStep i]. do 2 eexists. split; [constructor|]. split; [econstructor; [|constructor]|].
    { exact (W_step cmp aw i o u' n' A1). }
    constructor; cbn [w_repo files handles w_handles w_threads threads]; [exact B1|exact Hh|].
    exists (pre ++ own' :: post). split; [apply A4; now constructor|]. now apply owns_split.
  - destruct (trels_at _ _ _ _ _ Ht Hi) as (t' & own & pre & post & A1 & A2 & -> & A4). inversion A2 as [|o0 p0 p' own0 Hp]; subst t' own0 p0 o0.
    destruct p' as [b|u' n']; cbn [psim] in Hp; [|contradiction]. destruct Hp as (ow & Hpe & Hsame & Ho). apply owns_split in Hop.
    exists [ERet i o b]. do 2 eexists. split; [now constructor|]. split; [econstructor; [|constructor]|].
    { exact (W_return cmp aw i o b A1). }
    assert (Hret : after_return b = handed_out r).
    { destruct r as [[]|]; destruct b as [[]|]; cbn [same_answer] in Hsame; try discriminate Hsame; try reflexivity. now injection Hsame as ->. }
    constructor; cbn [w_repo files handles w_handles w_threads threads]; [exact HR|now rewrite Hret, Hh|].
    exists (pre ++ [] :: post). split; [apply A4; constructor|]. apply owns_split. rewrite Hop, Hpe, Ho. cbn [app].
    destruct o, r as [[]|]; cbn [handed_out app]; try reflexivity; contradiction.
  - assert (Hi : In (io_file o) (opened (files aw))) by (apply Permutation_sym in Hop; apply (Permutation_in _ Hop); apply in_or_app; now left).
    destruct (sim_io o _ _ HR Hi Hf) as (A1 & A2 & A3). rewrite <- Hh in Hin. destruct (io_event o aw Hin) as (new & aw' & B1 & B2 & B3 & B4).
    do 3 eexists. split; [constructor; exact A2|]. split; [exact B1|]. constructor; cbn [w_repo files handles w_handles w_threads threads].
    + now rewrite B2.
    + now rewrite B3.
    + exists owns. rewrite B2, B4, A3. auto.
  - destruct (bytes_eqb id root_id) eqn:E1.
    + exists [], [], aw. split; [pose proof (SA_evict cmp aw id) as Hs; now rewrite E1 in Hs|]. split; [constructor|]. constructor; cbn [w_repo files handles w_handles w_threads threads]; [|exact Hh|eauto].
      apply bytes_eqb_eq in E1. subst id. unfold t_evict. rewrite bytes_eqb_refl. destruct (rget root_id (rp_files (w_repo w))) as [[]|]; try exact HR. destruct ref; exact HR.
    + exists [EEvict id]. do 2 eexists. split; [pose proof (SA_evict cmp aw id) as Hs; now rewrite E1 in Hs|]. split; [econstructor; [constructor|constructor]|].
      apply bytes_eqb_neq in E1. constructor; cbn [w_repo files handles w_handles w_threads threads].
      * now apply sim_evict.
      * exact Hh.
      * exists owns. split; [exact Ht|]. rewrite <- Hop. cbn [fs_step]. destruct (existsb _ _); [reflexivity|]. unfold FullFsModel.set_parent. now destruct (get (files aw) id).
  - rewrite Hnil, (trels_idle _ _ _ Ht Hidle) in Hop. cbn [app] in Hop. apply Permutation_sym, Permutation_nil in Hop.
    destruct (remount_ok _ _ (rp_time (w_repo w)) HR Hop) as [A1 A2]. rewrite A1. destruct (goes_forget (map fst (nodes (files aw))) aw) as (new & aw' & B1 & B2 & B3 & B4).
    do 3 eexists. split; [constructor|]. split; [exact B1|]. assert (Hop' : opened (files aw') = []) by (rewrite B2; now apply (forget_all_get _ _ [])).
    constructor; cbn [w_repo files handles w_handles w_threads threads].
    + apply A2; [exact Hop'|]. intros y. rewrite B2. now apply forget_every.
    + now rewrite B3, Hh.
    + exists owns. split; [now rewrite B4|]. rewrite Hop'. now rewrite (trels_idle _ _ _ Ht Hidle).
Qed.
Lemma goes_run n l aw evs new aw' : run cmp n l aw -> goes cmp aw evs new aw' -> run cmp n (new ++ l) aw'.
Proof.
  intros H G. revert l H. induction G as [w|w e w1 es new w2 Hs G IH]; intros l H; [exact H|]. rewrite <- app_assoc. cbn [app]. apply IH. now apply (R_step cmp n l w).
Qed.

Lemma dirs_dec k st : {dirs_fit k st} + {~ dirs_fit k st}.
Proof.
  destruct (forallb (fun i => match get st i with Some nd => (N.of_nat (length (i_dir nd) + k) <=? MAX_ENTRIES)%N | None => true end) (map fst (nodes st))) eqn:E1.
  - left. intros id nd Hg. rewrite forallb_forall in E1. specialize (E1 id). rewrite Hg in E1. apply N.leb_le, E1. unfold get in Hg. clear E1. destruct st as [l op]. cbn [nodes] in *.
    induction l as [|[i n] l IH]; cbn [nget map fst] in *; [discriminate|]. destruct (bytes_eqb i id) eqn:E2; [left; now apply bytes_eqb_eq|right; auto].
  - right. intros H. assert (E2 : forall l, forallb (fun i => match get st i with Some nd => (N.of_nat (length (i_dir nd) + k) <=? MAX_ENTRIES)%N | None => true end) l = true).
    { intros l. apply forallb_forall. intros i _. destruct (get st i) as [nd|] eqn:Eg; [|reflexivity]. apply N.leb_le. exact (H i nd Eg). }
    now rewrite E2 in E1.
Qed.

(** A run of the repository is a run of the map, up to the moment a directory is full. *)
Lemma run_ok n l w : rrun E n l w -> Forall (fun x => event_fits E (fst x)) l ->
  (exists l' aw, sees cmp n l l' aw /\ run cmp n l' aw /\ WI w aw) \/
  (exists l2 l1 l' aw, l = l2 ++ l1 /\ sees cmp n l1 l' aw /\ run cmp n l' aw /\ ~ dirs_fit 2 (files aw)).
Proof.
  induction 1 as [|l w e w' Hr IH Hs]; intros Hf.
  - left. exists [], (mkWorld new_repo [] (repeat TIdle n)). split; [constructor|]. split; [constructor|]. apply start_WI.
  - inversion Hf; subst. destruct (IH H2) as [(l' & aw & A1 & A2 & A3)|(l2 & l1 & l' & aw & -> & A1 & A2 & A3)].
    2:{ right. exists ((e, w') :: l2), l1, l', aw. auto. }
    destruct (dirs_dec 2 (files aw)) as [Hd|Hd].
    2:{ right. exists [(e, w')], l, l', aw. auto. }
    destruct (step_WI _ _ _ _ A3 Hs H1 Hd) as (evs & new & aw' & B1 & B2 & B3).
    left. exists (new ++ l'), aw'. split; [econstructor; try eassumption; apply (wi_handles _ _ B3)|]. split; [now apply (goes_run n l' aw evs)|exact B3].
Qed.
End Run.
