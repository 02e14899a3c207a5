(** Kills of a mounted repository: the invariants. *)
From Coq Require Import Strings.String Lia Permutation.
From Verif Require Import Base BaseLemmas TextModel NameModel StreamSpec AttrModel AttrProofs FullStreamModel FullStreamProofs BtreeModel BtreeSpec BtreeInsert GBtreeModel GBtreeProofs FullFsModel FullFsSpec ObjModel ObjProofs
  RepoModel RepoSpec RepoProofs FsConcModel RepoSim RepoRun RepoSettle RepoKillModel RepoKillSpec.
Local Open Scope list_scope.

Section Kill.
Variable E : senv.
Hypothesis HE : senv_ok E.
Notation cmp := (v_cmp E).
Notation RR := (RR E).

(** ** Stored files *)
Lemma OClean_reads id d m nd : OClean E id d m nd -> reads_as E id d m nd.
Proof.
  intros H k now Hn. destruct (fo_open_ok E id d m nd k H) as (f & E1 & Ho & _). exists f. split; [exact E1|].
  split; [apply (or_mode _ _ _ _ Ho)|]. split; [apply (or_nlink _ _ _ _ Ho)|].
  destruct (N.eqb_spec (i_type nd) TDIR) as [Ht|Ht].
  - destruct (ORep_list E HE id f nd now Ho Hn Ht) as (f' & l & E2 & _ & Hl). eauto.
  - destruct (ORep_read E HE id f nd now 0 (length (i_data nd)) Ho Hn Ht) as (f' & E2 & Ho'). { cbn. apply (ORep_len E id f nd Ho). }
    exists f'. split; [rewrite E2; unfold arr_read; cbn [skipn]; now rewrite firstn_all|].
    destruct (ORep_size E HE id f' nd Ho') as (f'' & n & E3 & _ & Hs). exists f''. now rewrite E3, Hs.
Qed.
Lemma OClean_mac id d m nd : OClean E id d m nd -> hmac_len <= length m /\ firstn hmac_len m = mac_of E id m.
Proof.
  intros H. destruct (H 0) as [a [_ _ _ (pre & h & Hp & Hh & Hc)]]. cbn [fo_dirty fo_attrs] in Hh. rewrite (Hh eq_refl) in *. clear Hh.
  assert (Hr : exists c, FRep (v_aead E) (v_hmac E) (v_dkey E id) (v_mkey E id) id (v_bs E) (v_iv E) (attr_header_size (v_store E)) (Some (pack_attrs (v_store E) a)) (mkFull d m false 0) (pre ++ c)).
  { unfold ocont in Hc. destruct (i_type nd =? TDIR)%N.
    - destruct Hc as [_ Hg]. destruct (dir_stream _ _ _ _ _ _ _ Hg) as (c & Hc & _). exists c. exact Hc.
    - exists (i_data nd). apply Hc. }
  destruct Hr as [c Hr]. destruct (fr_mac _ _ _ _ _ _ _ _ _ _ _ Hr eq_refl) as [H0|H0]; [|exact H0]. cbn [f_meta] in H0. subst m.
  pose proof (fr_hdr _ _ _ _ _ _ _ _ _ _ _ Hr) as Hd. cbn [hdr_ok f_meta] in Hd. rewrite skipn_nil in Hd. cbn [length] in Hd. destruct Hd as (Hd & _).
  unfold enc_header_size, LiteModel.mac_size in Hd. lia.
Qed.

Lemma tag_firstn m : hmac_len <= length m -> tag_of m = firstn hmac_len m.
Proof. intros H. unfold tag_of. apply bytes_ext; [rewrite arr_resize_length, firstn_length; lia|]. intros i Hi. rewrite get_arr_resize, get_firstn. reflexivity. Qed.
Lemma tag_nil : tag_of [] = repeat x00 hmac_len. Proof. reflexivity. Qed.

(** ** What has become of the loaded objects *)
Definition bytes_ok (id : bytes) (f : fob) (h : moments) : Prop :=
  f_dirty (fo_s f) = false -> (exists nd0, In nd0 (since_flush id h) /\ OClean E id (f_data (fo_s f)) (f_meta (fo_s f)) nd0) \/
    (f_data (fo_s f) = [] /\ f_meta (fo_s f) = [] /\ flushed id h = false).
Definition tag_ok (id : bytes) (f : fob) (h : moments) : Prop :=
  (exists nd0 d0 m0, In nd0 (since_made id h) /\ OClean E id d0 m0 nd0 /\ tag_of (f_meta (fo_s f)) = tag_of m0) \/
  (tag_of (f_meta (fo_s f)) = repeat x00 hmac_len /\ flushed id h = false).
Definition kept (rp : repo) (h : moments) : Prop := forall id f ref p, rget id (rp_files rp) = Some (RLoaded f ref p) -> bytes_ok id f h /\ tag_ok id f h.

Lemma now_ok id f e w h nd : get (files w) id = Some nd -> OClean E id (f_data (fo_s f)) (f_meta (fo_s f)) nd -> bytes_ok id f ((e, w) :: h) /\ tag_ok id f ((e, w) :: h).
Proof.
  intros Hg Hc. split.
  - intros _. left. exists nd. cbn [since_flush]. rewrite Hg. split; [now left|exact Hc].
  - left. exists nd. do 2 eexists. cbn [since_made]. rewrite Hg. split; [now left|]. split; [exact Hc|reflexivity].
Qed.
Lemma kept_step rp aw h0 e rp' aw' : RR rp (files aw) -> RR rp' (files aw') -> settles E rp rp' ->
  (forall id, is_flush id e = true -> exists f n p, rget id (rp_files rp) = Some (RLoaded f (S n) p) /\ rget id (rp_files rp') = Some (RLoaded (fst (fo_flush E id f)) (S n) p)) ->
  (exists e0 h1, h0 = (e0, aw) :: h1) -> kept rp h0 -> kept rp' ((e, aw') :: h0).
Proof.
  intros H H' Hs Hfl (e0 & h1 & Eh) Hk id f' ref' p' Hg'.
  destruct (get (files aw') id) as [nd'|] eqn:Ea'; [|rewrite (RR_none _ _ _ _ H' Ea') in Hg'; discriminate].
  destruct (RR_there _ _ _ _ _ H' Ea') as (x' & Hx' & _ & Hf'). rewrite Hg' in Hx'. injection Hx' as <-. cbn [fits_file] in Hf'. destruct Hf' as (Ho' & _).
  assert (Hnow : fclean f' -> bytes_ok id f' ((e, aw') :: h0) /\ tag_ok id f' ((e, aw') :: h0)).
  { intros Hc. apply (now_ok _ _ _ _ _ nd' Ea'). now apply ORep_clean. }
  assert (Hflushed : forall f n p, rget id (rp_files rp) = Some (RLoaded f n p) -> f' = fst (fo_flush E id f) -> fclean f').
  { intros f n p Hg ->. destruct (get (files aw) id) as [nd|] eqn:Ea; [|rewrite (RR_none _ _ _ _ H Ea) in Hg; discriminate].
    destruct (RR_there _ _ _ _ _ H Ea) as (x & Hx & _ & Hf). rewrite Hg in Hx. injection Hx as <-. cbn [fits_file] in Hf. destruct Hf as (Ho & _).
    destruct (ORep_flush E HE id f nd Ho) as (f1 & E1 & _ & Hc). now rewrite E1. }
  destruct (is_flush id e) eqn:Ee.
  { apply Hnow. destruct (Hfl id Ee) as (f & n & p & A1 & A2). rewrite A2 in Hg'. injection Hg' as <- _ _. now apply (Hflushed f (S n) p). }
  clear Hfl. destruct (Hs id f' ref' p' Hg') as [Hcf _]. unfold came_from in Hcf.
  destruct (rget id (rp_files rp)) as [[d m|f ref p]|] eqn:Hg.
  - destruct (get (files aw) id) as [nd|] eqn:Ea; [|rewrite (RR_none _ _ _ _ H Ea) in Hg; discriminate].
    destruct (RR_there _ _ _ _ _ H Ea) as (x & Hx & _ & Hf). rewrite Hg in Hx. injection Hx as <-. cbn [fits_file] in Hf. destruct Hf as (Hc & _).
    destruct Hcf as [Hb Ht]. cbn [f_data f_meta f_dirty] in *. split.
    + intros Hd. left. destruct Hb as [Hb|(-> & -> & _)]; [congruence|]. exists nd. split; [|exact Hc]. cbn [since_flush]. rewrite Ea', Ee, Eh. cbn [since_flush]. rewrite Ea. right. now left.
    + left. exists nd, d, m. split; [|now split]. cbn [since_made]. rewrite Ea', Eh. cbn [since_made]. rewrite Ea. right. now left.
  - destruct Hcf as [[Hb Ht]|Hf]; [|now apply Hnow, (Hflushed f ref p)]. destruct (Hk _ _ _ _ Hg) as [K1 K2]. split.
    + intros Hd. destruct Hb as [Hb|(E1 & E2 & E3)]; [congruence|]. rewrite E1, E2. rewrite E3 in Hd. destruct (K1 Hd) as [(nd0 & B1 & B2)|(B1 & B2 & B3)].
      * left. exists nd0. split; [|exact B2]. cbn [since_flush]. rewrite Ea', Ee. now right.
      * right. split; [exact B1|]. split; [exact B2|]. cbn [flushed]. now rewrite Ea', Ee.
    + unfold tag_ok. rewrite Ht. destruct K2 as [(nd0 & d0 & m0 & B1 & B2 & B3)|[B1 B2]].
      * left. exists nd0, d0, m0. split; [|now split]. cbn [since_made]. rewrite Ea'. now right.
      * right. split; [exact B1|]. cbn [flushed]. now rewrite Ea', Ee.
  - assert (Ea : get (files aw) id = None).
    { destruct (get (files aw) id) as [nd|] eqn:Ea; [|reflexivity]. destruct (RR_there _ _ _ _ _ H Ea) as (x & Hx & _). congruence. }
    assert (Ef : flushed id ((e, aw') :: h0) = false) by (cbn [flushed]; rewrite Ea', Ee, Eh; cbn [flushed orb]; now rewrite Ea).
    destruct Hcf as [Hb Ht]. cbn [f_data f_meta f_dirty] in *. split.
    + intros Hd. right. destruct Hb as [Hb|(-> & -> & _)]; [congruence|]. auto.
    + right. rewrite Ht. split; [reflexivity|exact Ef].
Qed.

(** ** The root *)
Definition root_clean (rp : repo) : Prop := forall f p, rget root_id (rp_files rp) = Some (RLoaded f 0 p) -> fclean f.
Lemma root_clean_step rp st rp' : RR rp st -> settles E rp rp' -> root_clean rp -> root_clean rp'.
Proof.
  intros H Hs Hr f' p' Hg'. destruct (Hs root_id f' 0 p' Hg') as [_ Hz]. destruct (Hz eq_refl) as [[p Hx]|(f & n & p & Hx & ->)]; [exact (Hr f' p Hx)|].
  destruct (get st root_id) as [nd|] eqn:Ea; [|rewrite (RR_none _ _ _ _ H Ea) in Hx; discriminate].
  destruct (RR_there _ _ _ _ _ H Ea) as (x & Hx' & _ & Hf). rewrite Hx in Hx'. injection Hx' as <-. cbn [fits_file] in Hf. destruct Hf as (Ho & _).
  destruct (ORep_flush E HE root_id f nd Ho) as (f1 & E1 & _ & Hc). now rewrite E1.
Qed.

(** The first thing a call on a name does. *)
Definition opens_root {A} (p : rprog A) : Prop := match p with RStep upd _ => upd = (fun rp => fst (t_open E root_id TDIR rp)) | RRet _ => False end.
Lemma opens_bnd {A B} (p : rprog A) (f : A -> rprog B) : opens_root p -> opens_root (rbnd p f).
Proof. destruct p; cbn; [contradiction|auto]. Qed.
Lemma opens_base path : opens_root (r_base E path). Proof. reflexivity. Qed.
Lemma opens_all path fl : opens_root (r_all E path fl).
Proof. unfold r_all. destruct (_ || _); [reflexivity|]. apply opens_bnd, opens_base. Qed.
Lemma opens_create path perm ty x bad : opens_root (r_create E path perm ty x bad).
Proof. unfold r_create. apply opens_bnd, opens_base. Qed.
Lemma opens_body o : may_call o [] -> opens_root (r_body E o).
Proof.
  destruct o; cbn [may_call]; intros H; try contradiction; cbn [r_body]; unfold r_path, r_link, r_remove, r_rename; repeat match goal with
  | |- opens_root (rbnd _ _) => apply opens_bnd
  | |- opens_root (r_all _ _ _) => apply opens_all
  | |- opens_root (r_base _ _) => apply opens_base
  | |- opens_root (r_create _ _ _ _ _ _) => apply opens_create
  end.
Qed.
Lemma opened_root rp : root_clean (fst (t_open E root_id TDIR rp)).
Proof.
  unfold t_open. rewrite bytes_eqb_refl. cbn [andb negb N.eqb]. change (negb (TDIR =? TDIR)%N) with false. cbn [andb].
  destruct (rget root_id (rp_files rp)) as [[d m|f ref p]|] eqn:Eg.
  - change (good_class TDIR) with true. cbn match. destruct (fo_open _ _ _ _ _); intros f' p' H; cbn [fst r_set rp_files] in H; [|congruence]. rewrite rget_put_eq in H. discriminate.
  - intros f' p' H. cbn [fst r_set rp_files] in H. rewrite rget_put_eq in H. discriminate.
  - intros f' p' H. cbn [fst] in H. congruence.
Qed.

(** ** Threads *)
Definition tgood (t : rthread) : Prop := match t with RIdle => True | RRun o p => each E p end.
Definition tfresh (t : rthread) : Prop := match t with RIdle => True | RRun o p => opens_root p end.

Record KI (l : list (kevent * rworld)) (h : moments) (w : rworld) (aw : world) : Prop := mkKI {
  ki_wi : WI E w aw;
  ki_head : exists e0 h1, h = (e0, aw) :: h1;
  ki_kept : kept (w_repo w) h;
  ki_each : Forall tgood (w_threads w);
  ki_root : root_clean (w_repo w) \/ (w_handles w = [] /\ Forall tfresh (w_threads w) /\ ~ worked l) }.

(** ** Mounting what the host has *)
Definition all_clean (stored : list (bytes * rfile)) (st : ffs) : Prop := forall id,
  match get st id with
  | Some nd => good_node id nd /\ exists d m, rget id stored = Some (RStored d m) /\ OClean E id d m nd
  | None => rget id stored = None
  end.
Lemma mount_clean stored st t : all_clean stored st -> get st root_id <> None -> snd (mount E stored t) = Ok tt /\
  (forall st', opened st' = [] -> (forall y, get st' y = option_map (with_parent root_id) (get st y)) -> RR (fst (mount E stored t)) st') /\
  (forall id f ref p, rget id (rp_files (fst (mount E stored t))) = Some (RLoaded f ref p) -> id = root_id /\ fclean f).
Proof.
  intros H Hr. pose proof (H root_id) as H0. destruct (get st root_id) as [rn|] eqn:Er; [|contradiction]. destruct H0 as (Hgn & d & m & Hu & Hc).
  unfold mount. rewrite Hu.
  destruct (fo_open_ok E root_id d m (with_parent root_id rn) t (OClean_parent _ _ _ _ _ _ Hc)) as (f & E1 & Ho & _ & Hcl & _). rewrite E1. cbn [fst snd]. split; [reflexivity|]. split.
  - intros st' Hop' Hg'. constructor.
    + intros y. unfold one_file, r_set. cbn [rp_files]. rewrite Hg', Hop'. destruct (dec_bytes root_id y) as [<-|Hne].
      * rewrite rget_put_eq, Er. cbn [option_map fits_file]. split; [now apply (good_same _ rn)|]. split; [exact Ho|]. split; [reflexivity|]. split; [reflexivity|congruence].
      * rewrite rget_put_ne by exact Hne. pose proof (H y) as Hy. destruct (get st y) as [nd|] eqn:Ey.
        -- destruct Hy as (Hgn' & d' & m' & Hu' & Hc'). rewrite Hu'. cbn [option_map fits_file].
           split; [now apply (good_same _ nd)|]. split; [now apply OClean_parent|]. split; [reflexivity|]. split; [intros []|congruence].
        -- rewrite Hy. exact I.
    + rewrite Hg', Er. discriminate.
    + rewrite Hop'. intros y [].
  - intros id f' ref p. unfold r_set. cbn [rp_files]. rewrite rget_put. destruct (bytes_eqb root_id id) eqn:Q.
    + intros [= <- <- <-]. apply bytes_eqb_eq in Q. auto.
    + intros Hg. pose proof (H id) as Hy. destruct (get st id) as [nd|]; [|congruence]. destruct Hy as (_ & d' & m' & Hu' & _). congruence.
Qed.
Lemma unmount_clean rp st : RR rp st -> all_clean (unmount E rp) st.
Proof.
  intros H id. assert (Hun : rget id (unmount E rp) = option_map (t_unload E id) (rget id (rp_files rp))) by (destruct rp as [l t0]; apply rget_unmount).
  rewrite Hun. destruct (get st id) as [nd|] eqn:Eg.
  - destruct (one_stored E HE _ _ _ _ H Eg) as (x & Hx & Hgn & d & m & Hu & Hc). split; [exact Hgn|]. exists d, m. rewrite Hx. cbn [option_map]. now rewrite Hu.
  - now rewrite (RR_none _ _ _ _ H Eg).
Qed.
Lemma rget_host id l t : rget id (host_files (mkRepo l t)) = option_map (fun x => RStored (host_data x) (host_meta x)) (rget id l).
Proof.
  unfold host_files. cbn [rp_files]. induction l as [|[i x] l IH]; cbn [map rget fst snd]; [reflexivity|].
  destruct (bytes_eqb i id); [reflexivity|exact IH].
Qed.
Lemma rget_host' id rp : rget id (host_files rp) = option_map (fun x => RStored (host_data x) (host_meta x)) (rget id (rp_files rp)).
Proof. destruct rp. apply rget_host. Qed.
(** What nobody holds is whole on the host. *)
Lemma idle_clean rp st id nd x : RR rp st -> root_clean rp -> get st id = Some nd -> rget id (rp_files rp) = Some x -> ~ In id (opened st) ->
  OClean E id (host_data x) (host_meta x) nd.
Proof.
  intros H Hr Hg Hx Hi. destruct (RR_there _ _ _ _ _ H Hg) as (x' & Hx' & _ & Hf). rewrite Hx in Hx'. injection Hx' as <-. destruct x as [d m|f ref p]; cbn [fits_file host_data host_meta] in *.
  - apply Hf.
  - destruct Hf as (Ho & _ & Hn & Hz). assert (ref = 0) as -> by (pose proof (occ_count id (opened st)); destruct ref; [reflexivity|]; elim Hi; apply H0; lia). apply ORep_clean; [exact Ho|].
    destruct (dec_bytes id root_id) as [->|Hne]; [exact (Hr f p Hx)|]. now apply Hz.
Qed.
Lemma host_clean rp st : RR rp st -> root_clean rp -> opened st = [] -> all_clean (host_files rp) st.
Proof.
  intros H Hr Hop id. rewrite rget_host'. destruct (get st id) as [nd|] eqn:Eg.
  - destruct (RR_there _ _ _ _ _ H Eg) as (x & Hx & Hgn & _). split; [exact Hgn|]. rewrite Hx. cbn [option_map]. do 2 eexists. split; [reflexivity|].
    apply (idle_clean rp st id nd x); try assumption. now rewrite Hop.
  - now rewrite (RR_none _ _ _ _ H Eg).
Qed.

(** ** Runs *)
Lemma forall_set {X} (P : X -> Prop) i x : forall l, Forall P l -> P x -> Forall P (rset_nth i x l).
Proof.
  intros l H Hx. unfold rset_nth. rewrite Forall_forall in *. intros y Hy. apply in_app_or in Hy. destruct Hy as [Hy|[<-|Hy]]; [apply H; rewrite <- (firstn_skipn i l); apply in_or_app; now left|exact Hx|].
  apply H. rewrite <- (firstn_skipn (S i) l). apply in_or_app. now right.
Qed.
Lemma forall_nth {X} (P : X -> Prop) i x l : Forall P l -> nth_error l i = Some x -> P x.
Proof. intros H Hn. rewrite Forall_forall in H. apply H. exact (nth_error_In _ _ Hn). Qed.

Lemma kept_fresh rp aw e h : RR rp (files aw) -> (forall id f ref p, rget id (rp_files rp) = Some (RLoaded f ref p) -> fclean f) -> kept rp ((e, aw) :: h).
Proof.
  intros H Hc id f ref p Hg. destruct (get (files aw) id) as [nd|] eqn:Ea; [|rewrite (RR_none _ _ _ _ H Ea) in Hg; discriminate].
  destruct (RR_there _ _ _ _ _ H Ea) as (x & Hx & _ & Hf). rewrite Hg in Hx. injection Hx as <-. cbn [fits_file] in Hf. destruct Hf as (Ho & _).
  apply (now_ok _ _ _ _ _ nd Ea). apply ORep_clean; [exact Ho|]. exact (Hc _ _ _ _ Hg).
Qed.
Lemma worked_cons e w l : worked l -> worked ((e, w) :: l).
Proof. intros (i & w0 & H). exists i, w0. now right. Qed.
Lemma not_worked e w l : ~ worked l -> (forall i, e <> KEv (VStep i)) -> ~ worked ((e, w) :: l).
Proof. intros H He (i & w0 & [H1|H1]); [injection H1 as H1 _; now apply (He i)|apply H; now exists i, w0]. Qed.

Lemma start_KI n : KI [] [(None, mkWorld new_repo [] (repeat TIdle n))] (mkRworld (fst (mount E [] 0)) [] (repeat RIdle n)) (mkWorld new_repo [] (repeat TIdle n)).
Proof.
  assert (Hf : forall P : rthread -> Prop, P RIdle -> Forall P (repeat RIdle n)) by (intros P HP; apply Forall_forall; intros t Ht; now rewrite (repeat_spec _ _ _ Ht)).
  constructor; cbn [w_repo w_handles w_threads].
  - apply start_WI. exact HE.
  - now exists None, [].
  - intros id f ref p Hg. unfold mount in Hg. cbn [rget] in Hg.
    destruct (fo_open E root_id [] [] 0) as [f0|e] eqn:Eo; cbn [fst r_set rp_files rput rget] in Hg; [|discriminate]. destruct (bytes_eqb root_id id) eqn:Q; [|discriminate]. injection Hg as <- _ _.
    apply bytes_eqb_eq in Q. subst id. pose proof (fd_open E root_id [] [] 0 f0 Eo) as [Hb Ht]. cbn [f_data f_meta f_dirty] in *. change (fo_s (fo_init E (v_clock E 0) 493 TDIR f0)) with (fo_s f0).
    assert (Hfl : flushed root_id [(@None kevent, mkWorld new_repo [] (repeat TIdle n))] = false) by (cbn [flushed is_flush orb]; now destruct (get _ _)).
    split.
    + intros Hd. right. change (fo_s (fo_init E (v_clock E 0) 493 TDIR f0)) with (fo_s f0) in *. destruct Hb as [Hb|(-> & -> & _)]; [congruence|]. auto.
    + right. change (fo_s (fo_init E (v_clock E 0) 493 TDIR f0)) with (fo_s f0) in *. rewrite Ht. split; [reflexivity|exact Hfl].
  - now apply Hf.
  - right. split; [reflexivity|]. split; [now apply Hf|]. intros (i & w & []).
Qed.

Lemma ev_settles w e w' : Forall tgood (w_threads w) -> rwstep E w e w' -> (forall r, e <> VRemount r) -> settles E (w_repo w) (w_repo w') /\ Forall tgood (w_threads w').
Proof.
  intros Ht Hs He. destruct Hs as [w i o Hi Hm|w i o upd next Hi|w i o r Hi|w o Hin|w id|w Hnil Hidle]; cbn [w_repo w_threads].
  - split; [apply settles_refl|]. apply forall_set; [exact Ht|]. apply each_body.
  - pose proof (forall_nth _ _ _ _ Ht Hi) as [H1 H2]. split; [apply H1|]. apply forall_set; [exact Ht|]. apply H2.
  - split; [apply settles_refl|]. apply forall_set; [exact Ht|]. exact I.
  - split; [apply r_io_settles|exact Ht].
  - split; [apply t_evict_settles|exact Ht].
  - now elim (He (snd (mount E (unmount E (w_repo w)) (rp_time (w_repo w))))).
Qed.
Lemma root_step l w e w' aw : WI E w aw -> rwstep E w e w' -> (forall r, e <> VRemount r) -> settles E (w_repo w) (w_repo w') ->
  root_clean (w_repo w) \/ (w_handles w = [] /\ Forall tfresh (w_threads w) /\ ~ worked l) ->
  root_clean (w_repo w') \/ (w_handles w' = [] /\ Forall tfresh (w_threads w') /\ ~ worked ((KEv e, w') :: l)).
Proof.
  intros HW Hs He Hset [H|(Hh & Hf & Hw)]; [left; apply (root_clean_step (w_repo w) (files aw)); [apply (wi_files _ _ _ HW)|exact Hset|exact H]|].
  destruct Hs as [w i o Hi Hm|w i o upd next Hi|w i o r Hi|w o Hin|w id|w Hnil Hidle]; cbn [w_repo w_threads w_handles] in *.
  - right. rewrite Hh in *. split; [destruct o; reflexivity|]. split; [apply forall_set; [exact Hf|]; now apply opens_body|]. apply not_worked; [exact Hw|discriminate].
  - left. pose proof (forall_nth _ _ _ _ Hf Hi) as H1. cbn in H1. subst upd. apply opened_root.
  - pose proof (forall_nth _ _ _ _ Hf Hi) as H1. contradiction.
  - rewrite Hh in Hin. contradiction.
  - right. split; [exact Hh|]. split; [exact Hf|]. apply not_worked; [exact Hw|discriminate].
  - now elim (He (snd (mount E (unmount E (w_repo w)) (rp_time (w_repo w))))).
Qed.
Lemma flush_event w e w' id : rwstep E w e w' -> (forall aw, WI E w aw -> is_flush id (Some (KEv e)) = true ->
  exists f n p, rget id (rp_files (w_repo w)) = Some (RLoaded f (S n) p) /\ rget id (rp_files (w_repo w')) = Some (RLoaded (fst (fo_flush E id f)) (S n) p)).
Proof.
  intros Hs aw HW Hf. destruct Hs as [w i o Hi Hm|w i o upd next Hi|w i o r Hi|w o Hin|w y|w Hnil Hidle]; cbn [is_flush] in Hf; try discriminate Hf.
  destruct o as [| | | | |y]; try discriminate Hf. apply bytes_eqb_eq in Hf. subst y. cbn [io_file w_repo] in *.
  destruct (wi_threads _ _ _ HW) as (owns & _ & Hop). assert (Hi : In id (opened (files aw))) by (apply Permutation_sym in Hop; apply (Permutation_in _ Hop); apply in_or_app; now left).
  destruct (RR_held _ _ _ _ (wi_files _ _ _ HW) Hi) as (f & n & p & nd & Hg & _). exists f, n, p. split; [exact Hg|].
  unfold r_io, with_obj. rewrite Hg. destruct (fo_flush E id f) as [f1 r]. cbn [fst r_set rp_files]. now rewrite rget_put_eq.
Qed.

Lemma kstep_KI l h w aw e w' : KI l h w aw -> kstep E w e w' -> kevent_fits E e -> (forall r, e = KKill r -> worked l) -> dirs_fit 2 (files aw) ->
  exists evs new aw', kseen cmp aw e evs /\ goes cmp aw evs new aw' /\ KI ((e, w') :: l) ((Some e, aw') :: h) w' aw'.
Proof.
  intros [HW Hhd Hk Ht Hr] Hs Hf Hl Hd. destruct Hs as [w e w' Hs|w Hnil Hidle].
  - destruct (step_WI E HE _ _ _ _ HW Hs Hf Hd) as (evs & new & aw' & B1 & B2 & B3). exists evs, new, aw'. split; [now constructor|]. split; [exact B2|].
    destruct e as [i o|i|i o r|o r|id|r].
    1-5: destruct (ev_settles _ _ _ Ht Hs ltac:(discriminate)) as [S1 S2];
      (constructor; [exact B3|eauto| |exact S2|exact (root_step l _ _ _ aw HW Hs ltac:(discriminate) S1 Hr)]);
      apply (kept_step (w_repo w) aw h _ _ aw'); [apply (wi_files _ _ _ HW)|apply (wi_files _ _ _ B3)|exact S1|intros id' Hid; exact (flush_event _ _ _ id' Hs aw HW Hid)|exact Hhd|exact Hk].
    inversion Hs as [| | | | |w0 Hnil Hidle E1 E2 E3]. subst w0.
    destruct (mount_clean _ _ (rp_time (w_repo w)) (unmount_clean _ _ (wi_files _ _ _ HW)) (rr_root _ _ _ (wi_files _ _ _ HW))) as (_ & _ & Hc).
    assert (Hall : forall id f ref p, rget id (rp_files (w_repo w')) = Some (RLoaded f ref p) -> fclean f) by (rewrite <- E3; intros id f ref p Hg; apply (Hc id f ref p Hg)).
    rewrite ?E3, ?E2.
    constructor; [exact B3|eauto| |rewrite <- E3; exact Ht|left; intros f p Hg; exact (Hall _ _ _ _ Hg)].
    apply kept_fresh; [apply (wi_files _ _ _ B3)|exact Hall].
  - pose proof (Hl _ eq_refl) as Hw. destruct Hr as [Hr|(_ & _ & Hn)]; [|contradiction].
    destruct (wi_threads _ _ _ HW) as (owns & Hts & Hop). rewrite Hnil, (trels_idle _ _ _ _ Hts Hidle) in Hop. cbn [app] in Hop. apply Permutation_sym, Permutation_nil in Hop.
    destruct (mount_clean _ _ (rp_time (w_repo w)) (host_clean _ _ (wi_files _ _ _ HW) Hr Hop) (rr_root _ _ _ (wi_files _ _ _ HW))) as (A1 & A2 & A3). rewrite A1.
    destruct (goes_forget E (map fst (nodes (files aw))) aw) as (new & aw' & B1 & B2 & B3 & B4).
    do 3 eexists. split; [constructor|]. split; [exact B1|]. assert (Hop' : opened (files aw') = []) by (rewrite B2; now apply (forget_all_get E _ _ [])).
    assert (HR' : RR (fst (mount E (host_files (w_repo w)) (rp_time (w_repo w)))) (files aw')).
    { apply A2; [exact Hop'|]. intros y. rewrite B2. now apply forget_every. }
    assert (Hall : forall id f ref p, rget id (rp_files (fst (mount E (host_files (w_repo w)) (rp_time (w_repo w))))) = Some (RLoaded f ref p) -> fclean f) by (intros id f ref p Hg; apply (A3 id f ref p Hg)).
    constructor; cbn [w_repo w_threads w_handles].
    + constructor; cbn [w_repo files handles w_handles w_threads threads]; [exact HR'|now rewrite B3, (wi_handles _ _ _ HW)|].
      exists owns. split; [now rewrite B4|]. rewrite Hop'. now rewrite (trels_idle _ _ _ _ Hts Hidle).
    + eauto.
    + apply kept_fresh; assumption.
    + exact Ht.
    + left. intros f p Hg. exact (Hall _ _ _ _ Hg).
Qed.

Lemma krun_ok n l w : krun E n l w -> Forall (fun x => kevent_fits E (fst x)) l -> kills_late l ->
  (exists h l' aw, ksees cmp n l h l' aw /\ run cmp n l' aw /\ KI l h w aw) \/
  (exists l2 l1 h l' aw, l = l2 ++ l1 /\ ksees cmp n l1 h l' aw /\ run cmp n l' aw /\ ~ dirs_fit 2 (files aw)).
Proof.
  induction 1 as [|l w e w' Hr IH Hs]; intros Hf Hl.
  - left. do 3 eexists. split; [constructor|]. split; [constructor|]. apply start_KI.
  - inversion Hf; subst. assert (Hl' : kills_late l /\ forall r, e = KKill r -> worked l) by (cbn [kills_late] in Hl; destruct e; [split; [exact Hl|discriminate]|split; [apply Hl|intros _ _; apply Hl]]).
    destruct Hl' as [Hl1 Hl2]. destruct (IH H2 Hl1) as [(h & l' & aw & A1 & A2 & A3)|(l2 & l1 & h & l' & aw & -> & A1 & A2 & A3)].
    2:{ right. exists ((e, w') :: l2), l1, h, l', aw. auto. }
    destruct (dirs_dec 2 (files aw)) as [Hd|Hd].
    2:{ right. exists [(e, w')], l, h, l', aw. auto. }
    destruct (kstep_KI l h _ _ _ _ A3 Hs H1 Hl2 Hd) as (evs & new & aw' & B1 & B2 & B3).
    left. exists ((Some e, aw') :: h), (new ++ l'), aw'. split; [econstructor; try eassumption; apply (wi_handles _ _ _ (ki_wi _ _ _ _ B3))|]. split; [now apply (goes_run E n l' aw evs)|exact B3].
Qed.

(** ** What is found *)
Lemma KI_found l h w aw id x : KI l h w aw -> rget id (rp_files (w_repo w)) = Some x ->
  exists nd, get (files aw) id = Some nd /\
    (~ In id (opened (files aw)) -> (id = root_id -> worked l) -> reads_as E id (host_data x) (host_meta x) nd) /\
    found E id (host_data x) (host_meta x) h.
Proof.
  intros [HW (e0 & h1 & Eh) Hk Ht Hr] Hx. pose proof (wi_files _ _ _ HW) as H.
  destruct (get (files aw) id) as [nd|] eqn:Ea; [|rewrite (RR_none _ _ _ _ H Ea) in Hx; discriminate]. exists nd. split; [reflexivity|]. split.
  - intros Hi Hw. apply OClean_reads. destruct (RR_there _ _ _ _ _ H Ea) as (x' & Hx' & _ & Hf). rewrite Hx in Hx'. injection Hx' as <-. destruct x as [d m|f ref p]; cbn [fits_file host_data host_meta] in *.
    + apply Hf.
    + destruct Hf as (Ho & _ & Hn & Hz). assert (ref = 0) as -> by (pose proof (occ_count id (opened (files aw))); destruct ref; [reflexivity|]; elim Hi; apply H0; lia).
      apply ORep_clean; [exact Ho|]. destruct (dec_bytes id root_id) as [->|Hne]; [|now apply Hz]. destruct Hr as [Hr|(_ & _ & Hn')]; [exact (Hr f p Hx)|]. elim Hn'. now apply Hw.
  - destruct x as [d m|f ref p]; cbn [host_data host_meta].
    + left. exists nd. split; [rewrite Eh; cbn [since_flush]; rewrite Ea; now left|]. apply OClean_reads. destruct (RR_there _ _ _ _ _ H Ea) as (x' & Hx' & _ & Hf). rewrite Hx in Hx'. injection Hx' as <-. apply Hf.
    + destruct (Hk _ _ _ _ Hx) as [K1 K2]. unfold bytes_ok in K1. unfold tag_ok in K2. set (d := f_data (fo_s f)) in *. set (m := f_meta (fo_s f)) in *. destruct (f_dirty (fo_s f)).
      2:{ destruct (K1 eq_refl) as [(nd0 & B1 & B2)|(B1 & B2 & B3)]; [left; exists nd0; split; [exact B1|now apply OClean_reads]|]. right. left. auto. }
      clear K1. unfold found. right.
      destruct (dec_bytes (tag_of m) (mac_of E id m)) as [Eq|Ne].
      { right. right. destruct K2 as [(nd0 & d0 & m0 & B1 & B2 & B3)|[B1 B2]]; [|left; congruence]. destruct (OClean_mac _ _ _ _ B2) as [C1 C2].
        right. exists nd0, d0, m0. split; [exact B1|]. split; [now apply OClean_reads|]. left. rewrite <- C2, <- Eq, B3. now rewrite tag_firstn. }
      destruct m as [|b m'] eqn:Em.
      { destruct (flushed id h) eqn:Ef; [|left; auto]. right. right. destruct K2 as [(nd0 & d0 & m0 & B1 & B2 & B3)|[B1 B2]]; [|congruence]. destruct (OClean_mac _ _ _ _ B2) as [C1 C2].
        right. exists nd0, d0, m0. split; [exact B1|]. split; [now apply OClean_reads|]. right. rewrite <- C2, <- tag_firstn by exact C1. now rewrite <- B3, tag_nil. }
      rewrite <- Em in *. assert (Hm : m <> []) by (rewrite Em; discriminate). clear Em b m'.
      assert (Hne : firstn hmac_len m <> mac_of E id m).
      { intros Eq. apply Ne. rewrite <- Eq. apply tag_firstn. assert (length (firstn hmac_len m) = hmac_len) by (rewrite Eq; apply (fe_hmac _ _ _ _ _ _ (so_full _ HE))). rewrite firstn_length in H0. lia. }
      right. left. split; [exact Hne|]. intros Hc k. unfold fo_open, full_open, hmac_open. rewrite Hc. unfold arr_read at 1. cbn [skipn].
      assert (Hl : length (firstn hmac_len m) =? 0 = false) by (apply Nat.eqb_neq; rewrite firstn_length; destruct m; [contradiction|unfold hmac_len; cbn [length]; lia]).
      unfold arr_read. cbn [skipn]. rewrite Hl. destruct (length (firstn hmac_len m) =? hmac_len); [|reflexivity]. cbn [negb]. rewrite mac_message_ok. cbn [rbind].
      assert (Hb : bytes_eqb (v_hmac E (v_mkey E id) (id ++ skipn hmac_len m)) (firstn hmac_len m) = false) by (apply bytes_eqb_neq; intros Q; apply Hne; symmetry; exact Q).
      rewrite Hb. reflexivity.
Qed.
End Kill.
