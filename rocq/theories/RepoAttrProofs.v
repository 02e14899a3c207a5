(** Nothing but what [RepoAttrSpec] allows changes what stat reports. *)
From Coq Require Import Strings.String Lia.
From Verif Require Import Base BaseLemmas TextModel NameModel StreamSpec BlockModel LiteModel FullStreamModel AdaptorModel AttrModel AttrProofs BtreeModel GBtreeModel GBtreeProofs FullStreamProofs FullFsModel FullFsSpec FsConcModel ObjModel ObjProofs
  RepoModel RepoSpec RepoProofs RepoRun RepoSettle RepoAttrSpec.
Local Open Scope list_scope.

Section Attr.
Variable E : senv.
Definition fseen (f : fob) : seen := seen_of (v_store E) (fo_attrs f).

(** ** Objects *)
Lemma so_atime now f : fseen (fo_atime E now f) = changed now CLook (fseen f).
Proof.
  unfold fseen, fo_atime, update_atime, seen_of. cbn [fo_attrs changed on_times s_times s_mode s_uid s_gid s_nlink].
  destruct (v_store E); [|reflexivity]. unfold on_times. cbn [andb option_map s_times s_mode s_uid s_gid s_nlink t_atime t_mtime t_ctime t_birth]. destruct (_ || _)%bool; reflexivity.
Qed.
Lemma so_mtime now f : fseen (fo_mtime E now f) = changed now CModify (fseen f).
Proof. unfold fseen, fo_mtime, update_mtime, seen_of. cbn [fo_attrs]. destruct (v_store E); reflexivity. Qed.
Lemma so_set_nlink now f : fseen (fo_set_nlink E now (inc32 (a_nlink (fo_attrs f))) f) = changed now CLink (fseen f).
Proof.
  unfold fo_set_nlink. destruct (N.eqb_spec (a_nlink (fo_attrs f)) (inc32 (a_nlink (fo_attrs f)))) as [H|H].
  - exfalso. pose proof (inc32_lt (a_nlink (fo_attrs f))) as Hr. rewrite <- H in Hr. unfold inc32 in H. destruct (N.lt_ge_cases (a_nlink (fo_attrs f) + 1) (2 ^ 32)) as [Hl|Hl].
    + rewrite N.mod_small in H by exact Hl. lia.
    + assert (Hq : (a_nlink (fo_attrs f) + 1 = 2 ^ 32)%N) by lia. rewrite Hq in H. rewrite N.mod_same in H by discriminate. rewrite H in Hq. discriminate Hq.
  - unfold fseen, update_ctime, seen_of. cbn [fo_attrs]. destruct (v_store E); reflexivity.
Qed.
Lemma so_unlink now f : fseen (fo_unlink f) = changed now CUnlink (fseen f).
Proof. unfold fseen, fo_unlink, seen_of. cbn [fo_attrs]. destruct (v_store E); reflexivity. Qed.
Definition with_uid (now : timespec) (v : N) (s : seen) : seen :=
  if (v =? u32_max)%N || (s_uid s =? v)%N then s else touch_ctime now (mkSeen (s_mode s) v (s_gid s) (s_nlink s) (s_times s)).
Definition with_gid (now : timespec) (v : N) (s : seen) : seen :=
  if (v =? u32_max)%N || (s_gid s =? v)%N then s else touch_ctime now (mkSeen (s_mode s) (s_uid s) v (s_nlink s) (s_times s)).
Lemma so_uid now v f : fseen (if (v =? u32_max)%N then f else fo_set_uid E now v f) = with_uid now v (fseen f).
Proof.
  unfold with_uid. destruct (v =? u32_max)%N; [reflexivity|]. unfold fo_set_uid. unfold fseen at 2. cbn [seen_of s_uid orb]. destruct (_ =? _)%N; [reflexivity|].
  unfold fseen, update_ctime, seen_of. cbn [fo_attrs]. destruct (v_store E); reflexivity.
Qed.
Lemma so_gid now v f : fseen (if (v =? u32_max)%N then f else fo_set_gid E now v f) = with_gid now v (fseen f).
Proof.
  unfold with_gid. destruct (v =? u32_max)%N; [reflexivity|]. unfold fo_set_gid. unfold fseen at 2. cbn [seen_of s_gid orb]. destruct (_ =? _)%N; [reflexivity|].
  unfold fseen, update_ctime, seen_of. cbn [fo_attrs]. destruct (v_store E); reflexivity.
Qed.
Lemma so_chattr now c f : fseen (fo_chattr E now c f) = changed now (CSet c) (fseen f).
Proof.
  destruct c as [perm|u g|ts un]; cbn [fo_chattr changed].
  - unfold fo_set_mode, fseen. cbn [seen_of s_mode new_mode]. rewrite N.eqb_sym. destruct (_ =? _)%N; [reflexivity|].
    unfold update_ctime, seen_of. cbn [fo_attrs]. destruct (v_store E); reflexivity.
  - cbv zeta. rewrite so_gid, so_uid. unfold with_uid, with_gid. change 4294967295%N with u32_max. unfold chosen. destruct (fseen f) as [m u0 g0 n t]. cbn [s_mode s_uid s_gid s_nlink s_times].
    change 4294967295%N with u32_max.
    destruct (u =? u32_max)%N, (g =? u32_max)%N; cbn [orb s_gid]; rewrite ?N.eqb_refl; cbn [andb]; [reflexivity| | |].
    + rewrite (N.eqb_sym g g0). destruct (g0 =? g)%N; reflexivity.
    + rewrite (N.eqb_sym u u0). destruct (u0 =? u)%N; reflexivity.
    + rewrite (N.eqb_sym g g0), (N.eqb_sym u u0). destruct (N.eqb_spec u0 u) as [<-|]; cbn [andb s_gid touch_ctime on_times].
      * destruct (g0 =? g)%N; reflexivity.
      * destruct (N.eqb_spec g0 g) as [<-|]; cbn [touch_ctime on_times s_mode s_uid s_gid s_nlink s_times]; [reflexivity|]. destruct t; reflexivity.
  - unfold fo_utimens, fseen, seen_of. destruct (v_store E); [|reflexivity]. destruct ts as [[t0 t1]|]; reflexivity.
Qed.
Lemma so_call id o f : fseen (fst (fo_call E id o f)) = fseen f.
Proof. unfold fo_call. destruct (sm_step _ _ _). reflexivity. Qed.
Lemma so_dir {X} id (m : GM (o_strm E id) X) f : fseen (fst (fo_dir E id m f)) = fseen f.
Proof. unfold fo_dir. destruct (m _) as [g r]. reflexivity. Qed.
Lemma so_size id f : fseen (fst (fo_size E id f)) = fseen f.
Proof. unfold fo_size. pose proof (so_call id SSize f) as H. destruct (fo_call _ _ _ _). exact H. Qed.
Lemma so_flush id f : fseen (fst (fo_flush E id f)) = fseen f.
Proof.
  unfold fo_flush. assert (H1 : fseen (fst (fo_subflush E id f)) = fseen f) by (unfold fo_subflush; destruct (_ =? _)%N; [apply so_dir|reflexivity]).
  destruct (fo_subflush E id f) as [f1 [[]|e]]; cbn [fst] in *; [|exact H1].
  assert (H2 : fseen (fst (fo_header E id f1)) = fseen f1).
  { unfold fo_header. destruct (fo_dirty f1); [|reflexivity]. destruct (full_write_header _ _ _ _ _ _ _ _) as [s [[]|e]]; reflexivity. }
  destruct (fo_header E id f1) as [f2 [[]|e]]; cbn [fst] in *; [|congruence]. destruct (full_flush _ _ _ _) as [s r]. cbn [fst]. change (fseen f2 = fseen f). congruence.
Qed.
Lemma so_read id now a n f : fseen (fst (fo_read E id now a n f)) = changed now CLook (fseen f).
Proof. unfold fo_read. pose proof (so_call id (SRead a n) (fo_atime E now f)) as H. destruct (fo_call _ _ _ _). cbn [fst] in *. rewrite H. apply so_atime. Qed.
Lemma so_write id now a d f : fseen (fst (fo_write E id now a d f)) = changed now CModify (fseen f).
Proof. unfold fo_write. pose proof (so_call id (SWrite a d) (fo_mtime E now f)) as H. destruct (fo_call _ _ _ _). cbn [fst] in *. rewrite H. apply so_mtime. Qed.
Lemma so_truncate id now n f : fseen (fst (fo_truncate E id now n f)) = changed now CModify (fseen f).
Proof. unfold fo_truncate. pose proof (so_call id (SResize n) (fo_mtime E now f)) as H. destruct (fo_call _ _ _ _). cbn [fst] in *. rewrite H. apply so_mtime. Qed.
Lemma so_link_set id now d f : fseen (fst (fo_link_set E id now d f)) = changed now CModify (fseen f).
Proof. unfold fo_link_set. pose proof (so_call id (SWrite 0 d) (fo_mtime E now f)) as H. destruct (fo_call _ _ _ _). cbn [fst] in *. rewrite H. apply so_mtime. Qed.
Lemma so_link_get id now f : fseen (fst (fo_link_get E id now f)) = fseen f \/ fseen (fst (fo_link_get E id now f)) = changed now CLook (fseen f).
Proof.
  unfold fo_link_get. pose proof (so_size id f) as H. destruct (fo_size E id f) as [f1 [n|e]]; cbn [fst] in *; [|now left].
  pose proof (so_call id (SRead 0 n) f1) as H1. destruct (fo_call E id (SRead 0 n) f1) as [f2 r]. cbn [fst] in H1.
  destruct r; cbn [fst]; try (left; congruence). right. rewrite so_atime. congruence.
Qed.
Lemma so_get id now name f : fseen (fst (fo_get E id now name f)) = changed now CLook (fseen f).
Proof. unfold fo_get. rewrite so_dir. apply so_atime. Qed.
Lemma so_add id now name x ty f : fseen (fst (fo_add E id now name x ty f)) = changed now CModify (fseen f).
Proof. unfold fo_add. rewrite so_dir. apply so_mtime. Qed.
Lemma so_remove id now name f : fseen (fst (fo_remove E id now name f)) = changed now CModify (fseen f).
Proof. unfold fo_remove. rewrite so_dir. apply so_mtime. Qed.
Lemma so_list id now f : fseen (fst (fo_list E id now f)) = changed now CLook (fseen f).
Proof. unfold fo_list. rewrite so_dir. apply so_atime. Qed.
Lemma load_any d m k k' b b' id : load_attrs (v_aead E) (v_dkey E id) id (v_iv E) (v_store E) (mkFull d m b k) = load_attrs (v_aead E) (v_dkey E id) id (v_iv E) (v_store E) (mkFull d m b' k').
Proof. reflexivity. Qed.
Lemma so_open id d m k f : fo_open E id d m k = Ok f -> exists t, load_attrs (v_aead E) (v_dkey E id) id (v_iv E) (v_store E) (mkFull d m false 0) = Ok (fo_attrs f, t).
Proof.
  unfold fo_open, full_open. destruct (hmac_open _ _ _ _ _) as [m'|] eqn:Em; cbn [rmap rbind]; [|discriminate].
  rewrite (load_any _ _ _ 0 _ false). destruct (load_attrs _ _ _ _ _ _) as [[at0 dt]|] eqn:El; cbn [rbind f_data f_meta f_dirty]; [|discriminate].
  destruct (padded_open _ _ _ _) as [s1 []]; try discriminate. intros [= <-]. cbn [fo_attrs]. exists dt. rewrite <- El. reflexivity.
Qed.

(** ** Many changes *)
Lemma many_trans P k k' a b c : many E P k k' a b -> many E P k k' b c -> many E P k k' a c.
Proof. intros H G. induction G as [|s s' x j G IH Hp Hj]; [exact H|]. apply many_one; auto. Qed.
Lemma many_wider P k k' j j' a b : j <= k -> k' <= j' -> many E P k k' a b -> many E P j j' a b.
Proof. intros H1 H2 H. induction H as [|s s' x i G IH Hp Hj]; [constructor|]. apply many_one; [exact IH|exact Hp|lia]. Qed.
Lemma many_1 (P : change -> Prop) j c s : P c -> many E P j (S j) s (changed (v_clock E j) c s).
Proof. intros H. apply (many_one E P j (S j) s s c j); [constructor|exact H|lia]. Qed.
Lemma many_imp (P Q : change -> Prop) k k' a b : (forall c, P c -> Q c) -> many E P k k' a b -> many E Q k k' a b.
Proof. intros H G. induction G as [|s s' x i G IH Hp Hj]; [constructor|]. apply many_one; auto. Qed.

(** ** Steps *)
Section Steps.
Variable P : bytes -> change -> Prop.
Variable B : bytes -> timespec -> seen -> Prop.
Hypothesis HL : forall id, P id CLook.

Definition msoft (rp rp' : repo) : Prop := rp_time rp <= rp_time rp' /\ forall id, rget id (rp_files rp') = rget id (rp_files rp) \/
  exists f f' n p p', rget id (rp_files rp) = Some (RLoaded f (S n) p) /\ rget id (rp_files rp') = Some (RLoaded f' (S n) p') /\
    many E (P id) (rp_time rp) (rp_time rp') (fseen f) (fseen f').
Definition msettles (rp rp' : repo) : Prop := rp_time rp <= rp_time rp' /\ forall id,
  match file_seen E id rp, file_seen E id rp' with
  | None, None => True
  | None, Some s' => B id (v_clock E (rp_time rp)) s'
  | Some s, Some s' => many E (P id) (rp_time rp) (rp_time rp') s s'
  | Some s, None => s_nlink s = 0%N /\ id <> root_id
  end.
Lemma msoft_refl rp : msoft rp rp. Proof. clear HL B. split; [lia|]. intros id. now left. Qed.
Lemma msoft_trans a b c : msoft a b -> msoft b c -> msoft a c.
Proof. clear HL B.
  intros [Ta H] [Tb G]. split; [lia|]. intros id. destruct (H id) as [H1|(f & f' & n & p & p' & H1 & H2 & H3)], (G id) as [G1|(g & g' & k & q & q' & G1 & G2 & G3)].
  - left. congruence.
  - right. rewrite H1 in G1. exists g, g', k, q, q'. split; [exact G1|]. split; [exact G2|]. eapply many_wider; [| |exact G3]; lia.
  - right. rewrite <- G1 in H2. exists f, f', n, p, p'. split; [exact H1|]. split; [exact H2|]. eapply many_wider; [| |exact H3]; lia.
  - right. rewrite H2 in G1. injection G1 as <- <- <-. exists f, g', n, p, q'. split; [exact H1|]. split; [exact G2|].
    eapply many_trans; eapply many_wider; [| |exact H3| | |exact G3]; lia.
Qed.
Lemma same_settled rp rp' id : rget id (rp_files rp') = rget id (rp_files rp) ->
  match file_seen E id rp, file_seen E id rp' with
  | None, None => True
  | None, Some s' => B id (v_clock E (rp_time rp)) s'
  | Some s, Some s' => many E (P id) (rp_time rp) (rp_time rp') s s'
  | Some s, None => s_nlink s = 0%N /\ id <> root_id
  end.
Proof. intros H. unfold file_seen. rewrite H. destruct (rget id (rp_files rp)) as [[d m|f n p]|]; try constructor. destruct (load_attrs _ _ _ _ _ _) as [[]|]; constructor. Qed.
Lemma msoft_settles rp rp' : msoft rp rp' -> msettles rp rp'.
Proof.
  intros [H0 H]. split; [exact H0|]. intros id. destruct (H id) as [H1|(f & f1 & n & p & p1 & H1 & H2 & H3)]; [now apply same_settled|]. unfold file_seen. rewrite H1, H2. exact H3.
Qed.
Lemma msettles_refl rp : msettles rp rp. Proof. apply msoft_settles, msoft_refl. Qed.

(** What an object goes through in one use. *)
Definition uses {X} (id : bytes) (g : timespec -> fob -> fob * res X) : Prop :=
  forall j o, many E (P id) j (S j) (fseen o) (fseen (fst (g (v_clock E j) o))).
Lemma uses_one {X} id (g : timespec -> fob -> fob * res X) c : P id c -> (forall now o, fseen (fst (g now o)) = changed now c (fseen o)) -> uses id g.
Proof. intros Hc H j o. rewrite H. now apply many_1. Qed.
Lemma uses_none {X} id (g : timespec -> fob -> fob * res X) : (forall now o, fseen (fst (g now o)) = fseen o) -> uses id g.
Proof. intros H j o. rewrite H. constructor. Qed.
Lemma with_obj_msoft {X} id (g : timespec -> fob -> fob * res X) rp : uses id g -> msoft rp (fst (with_obj E id g rp)).
Proof. clear HL B.
  intros H. unfold with_obj. destruct (rget id (rp_files rp)) as [[d m|f [|n] p]|] eqn:Eg; try apply msoft_refl.
  specialize (H (rp_time rp) f). destruct (g _ f) as [f' r]. cbn [fst] in *. split; [cbn [r_set rp_time]; lia|]. intros y. unfold r_set. cbn [rp_files rp_time]. rewrite rget_put.
  destruct (bytes_eqb id y) eqn:E1; [|now left]. apply bytes_eqb_eq in E1. subst y. right. exists f, f', n, p, p. auto.
Qed.
Lemma uses_class {X} id want cls (g : timespec -> fob -> fob * res X) : uses id g -> uses id (as_class want cls g).
Proof. intros H j o. unfold as_class. destruct (_ && _); [apply H|constructor]. Qed.
Lemma uses_own {X} id want bad (g : timespec -> fob -> fob * res X) : uses id g -> uses id (own_class want bad g).
Proof. intros H j o. unfold own_class. destruct (_ =? _)%N; [apply H|constructor]. Qed.
Lemma uses_done id g x : uses id g -> uses id (done g x).
Proof. intros H j o. unfold done. specialize (H j o). destruct (g _ o). exact H. Qed.
Lemma uses_stat id : uses id (stat_use E id).
Proof. apply uses_none. intros now o. unfold stat_use. pose proof (so_size id o) as H. destruct (fo_size E id o). exact H. Qed.
Lemma uses_link_get id : uses id (fun now o => fo_link_get E id now o).
Proof. intros j o. destruct (so_link_get id (v_clock E j) o) as [-> | ->]; [constructor|now apply many_1]. Qed.
Lemma uses_rmdir id : P id CUnlink -> uses id (rmdir_use E id).
Proof.
  intros Hu j o. unfold rmdir_use. pose proof (so_list id (v_clock E j) o) as H. destruct (fo_list E id (v_clock E j) o) as [o1 [[|]|]]; cbn [fst] in *; try (rewrite H; now apply many_1).
  rewrite (so_unlink (v_clock E j)), H. eapply many_trans; now apply many_1.
Qed.

Lemma t_get_msoft h name rp : msoft rp (fst (t_get E h name rp)).
Proof. apply with_obj_msoft, uses_class. apply (uses_one _ _ CLook); [apply HL|]. intros. apply so_get. Qed.
Lemma t_add_msoft h name x ty rp : P (fst h) CModify -> msoft rp (fst (t_add E h name x ty rp)).
Proof. intros Hm. apply with_obj_msoft, uses_class. apply (uses_one _ _ CModify); [exact Hm|]. intros. apply so_add. Qed.
Lemma t_remove_msoft h name rp : P (fst h) CModify -> msoft rp (fst (t_remove E h name rp)).
Proof. intros Hm. apply with_obj_msoft, uses_class. apply (uses_one _ _ CModify); [exact Hm|]. intros. apply so_remove. Qed.
Lemma t_target_msoft h rp : msoft rp (fst (t_target E h rp)).
Proof. apply with_obj_msoft, uses_class. apply uses_link_get. Qed.
Lemma t_down_msoft id rp : P id CUnlink -> msoft rp (t_count_down E id rp).
Proof. intros Hu. apply with_obj_msoft. apply (uses_one _ _ CUnlink); [exact Hu|]. intros. apply so_unlink. Qed.
Lemma t_set_parent_msoft id p rp : msoft rp (t_set_parent id p rp).
Proof. clear HL B.
  unfold t_set_parent. destruct (rget id (rp_files rp)) as [[d m|f [|n] q]|] eqn:Eg; try apply msoft_refl. split; [cbn [r_set rp_time]; lia|]. intros y. unfold r_set. cbn [rp_files rp_time]. rewrite rget_put.
  destruct (bytes_eqb id y) eqn:E1; [|now left]. apply bytes_eqb_eq in E1. subst y. right. exists f, f, n, q, p. split; [exact Eg|]. split; [reflexivity|constructor].
Qed.
Lemma t_rename_msoft bf bt lf lt rp : (forall id, P id CModify) -> msoft rp (fst (t_rename E bf bt lf lt rp)).
Proof.
  intros HM. unfold t_rename. pose proof (t_remove_msoft bf lf rp (HM _)) as H1. destruct (t_remove E bf lf rp) as [rp1 [[ef|]|]]; cbn [fst] in *; try exact H1.
  pose proof (msoft_trans _ _ _ H1 (t_remove_msoft bt lt rp1 (HM _))) as H2. destruct (t_remove E bt lt rp1) as [rp2 [[et|]|]]; cbn [fst] in *; try exact H2.
  - destruct (bytes_eqb _ _).
    + pose proof (msoft_trans _ _ _ H2 (t_add_msoft bf lf (e_id ef) (e_type ef) rp2 (HM _))) as H3. destruct (t_add _ _ _ _ _ rp2) as [rp3 [x|]]; cbn [fst] in *; try exact H3.
      pose proof (msoft_trans _ _ _ H3 (t_add_msoft bt lt (e_id et) (e_type et) rp3 (HM _))) as H4. destruct (t_add _ _ _ _ _ rp3) as [rp4 [y|]]; exact H4.
    + pose proof (msoft_trans _ _ _ H2 (t_add_msoft bt lt (e_id ef) (e_type ef) rp2 (HM _))) as H3. destruct (t_add _ _ _ _ _ rp2) as [rp3 [x|]]; exact H3.
  - pose proof (msoft_trans _ _ _ H2 (t_add_msoft bt lt (e_id ef) (e_type ef) rp2 (HM _))) as H3. destruct (t_add _ _ _ _ _ rp2) as [rp3 [x|]]; exact H3.
Qed.
Lemma t_link_msoft h base name rp : (forall id, P id CModify) -> (forall id, P id CLink) -> msoft rp (fst (t_link E h base name rp)).
Proof.
  intros HM HK. unfold t_link. destruct (t_type _ _) as [ty|]; [|apply msoft_refl]. pose proof (t_add_msoft base name (fst h) ty rp (HM _)) as H.
  destruct (t_add _ _ _ _ _ _) as [rp1 [[]|]]; cbn [fst] in *; try exact H.
  eapply msoft_trans; [exact H|]. apply with_obj_msoft. apply (uses_one _ _ CLink); [apply HK|]. intros. apply so_set_nlink.
Qed.

Lemma set_settled id x rp : (match file_seen E id rp with
    | None => match x with RLoaded f _ _ => B id (v_clock E (rp_time rp)) (fseen f) | RStored _ _ => False end
    | Some s => match x with RLoaded f _ _ => many E (P id) (rp_time rp) (S (rp_time rp)) s (fseen f) | RStored _ _ => False end
    end) -> msettles rp (r_set id x rp).
Proof.
  intros H. split; [apply Nat.le_succ_diag_r|]. intros y. destruct (bytes_eqb id y) eqn:Q.
  - apply bytes_eqb_eq in Q. subst y. replace (file_seen E id (r_set id x rp)) with (match x with RLoaded f _ _ => Some (fseen f) | RStored d m =>
      match load_attrs (v_aead E) (v_dkey E id) id (v_iv E) (v_store E) (mkFull d m false 0) with Ok (a, _) => Some (seen_of (v_store E) a) | Err _ => None end end).
    + destruct x as [d m|f n p]; [destruct (file_seen E id rp); contradiction|]. destruct (file_seen E id rp); exact H.
    + unfold file_seen at 1, r_set. cbn [rp_files]. rewrite rget_put, bytes_eqb_refl. destruct x; reflexivity.
  - apply same_settled. unfold r_set. cbn [rp_files]. now rewrite rget_put, Q.
Qed.
Lemma t_open_msettles id ty rp : msettles rp (fst (t_open E id ty rp)).
Proof.
  unfold t_open. destruct (_ && _); [apply msettles_refl|]. destruct (rget id (rp_files rp)) as [[d m|f ref p]|] eqn:Eg; [| |apply msettles_refl].
  - destruct (good_class ty); [|apply msettles_refl]. destruct (fo_open E id d m (rp_time rp)) as [f|] eqn:Eo; [|apply msettles_refl]. cbn [fst].
    apply set_settled. destruct (so_open _ _ _ _ _ Eo) as [t Ht]. unfold file_seen. rewrite Eg, Ht. constructor.
  - cbn [fst]. apply set_settled. unfold file_seen. rewrite Eg. constructor.
Qed.
Lemma t_create_msettles id perm ty bad rp : (forall now, B id now (born E now perm ty)) -> msettles rp (fst (t_create E id perm ty bad rp)).
Proof.
  intros HB. unfold t_create. destruct bad; [apply msettles_refl|]. destruct (rget id (rp_files rp)) as [x|] eqn:Eg; [apply msettles_refl|].
  destruct (fo_open E id [] [] (rp_time rp)) as [f|] eqn:Eo; [|apply msettles_refl]. cbn [fst]. apply set_settled. unfold file_seen. rewrite Eg.
  replace (fseen (fo_init E (v_clock E (rp_time rp)) perm ty f)) with (born E (v_clock E (rp_time rp)) perm ty); [apply HB|].
  unfold fseen, fo_init, initialize_empty, seen_of, born. cbn [fo_attrs]. rewrite N.eqb_refl. destruct (v_store E); reflexivity.
Qed.
Lemma t_drop_msettles id rp : msettles rp (t_drop E id rp).
Proof.
  unfold t_drop. destruct (rget id (rp_files rp)) as [[d m|f [|[|n]] p]|] eqn:Eg; try apply msettles_refl.
  - destruct (negb (bytes_eqb id root_id) && (a_nlink (fo_attrs f) =? 0)%N) eqn:Ed.
    + apply andb_prop in Ed. destruct Ed as [E1 E2]. apply Bool.negb_true_iff, bytes_eqb_neq in E1. apply N.eqb_eq in E2. split; [apply Nat.le_succ_diag_r|]. intros y. destruct (bytes_eqb id y) eqn:Q.
      * apply bytes_eqb_eq in Q. subst y. unfold file_seen. cbn [rp_files]. rewrite rget_del, bytes_eqb_refl, Eg. auto.
      * apply same_settled. cbn [rp_files]. now rewrite rget_del, Q.
    + apply set_settled. unfold file_seen. rewrite Eg, so_flush. constructor.
  - apply set_settled. unfold file_seen. rewrite Eg. constructor.
Qed.

(** ** Programs *)
Fixpoint meach {A} (p : rprog A) : Prop :=
  match p with
  | RRet _ => True
  | RStep upd next => (forall rp, msettles rp (upd rp)) /\ forall rp, meach (next rp)
  end.
Lemma meach_bnd {A C} (p : rprog A) (f : A -> rprog C) : meach p -> (forall a, meach (f a)) -> meach (rbnd p f).
Proof. induction p as [a|u n IH]; cbn [meach rbnd]; [auto|]. intros [H1 H2] Hf. split; [exact H1|]. intros rp. apply IH; auto. Qed.
Lemma meach_do {A} (f : repo -> repo * A) : (forall rp, msettles rp (fst (f rp))) -> meach (r_do f).
Proof. intros H. split; [exact H|]. intros rp. exact I. Qed.
Lemma meach_ret {A} (a : A) : meach (RRet a). Proof. exact I. Qed.
Lemma meach_open id ty : meach (q_open E id ty). Proof. apply meach_do. apply t_open_msettles. Qed.
Lemma meach_drop id : meach (q_drop E id). Proof. apply meach_do. intros rp. apply t_drop_msettles. Qed.
Lemma meach_leave {A} ids (a : A) : meach (r_leave E ids a).
Proof. induction ids as [|i ids IH]; cbn [r_leave]; [exact I|]. apply meach_bnd; [apply meach_drop|auto]. Qed.
Lemma meach_set_parent id p : meach (q_set_parent id p). Proof. apply meach_do. intros rp. apply msoft_settles, t_set_parent_msoft. Qed.
Lemma meach_same {A} (f : repo -> A) : meach (r_do (fun rp => (rp, f rp))). Proof. apply meach_do. intros rp. apply msettles_refl. Qed.
Lemma meach_get h name : meach (r_do (t_get E h name)). Proof. apply meach_do. intros rp. apply msoft_settles, t_get_msoft. Qed.
Lemma meach_target h : meach (r_do (t_target E h)). Proof. apply meach_do. intros rp. apply msoft_settles, t_target_msoft. Qed.
Lemma meach_add h name x ty : (forall id, P id CModify) -> meach (r_do (t_add E h name x ty)). Proof. intros H. apply meach_do. intros rp. apply msoft_settles, t_add_msoft, H. Qed.
Lemma meach_remove h name : (forall id, P id CModify) -> meach (r_do (t_remove E h name)). Proof. intros H. apply meach_do. intros rp. apply msoft_settles, t_remove_msoft, H. Qed.
Lemma meach_down id : P id CUnlink -> meach (r_do (fun rp => (t_count_down E id rp, tt))). Proof. intros H. apply meach_do. intros rp. apply msoft_settles, t_down_msoft, H. Qed.
Lemma meach_obj {X} id (g : timespec -> fob -> fob * res X) : uses id g -> meach (r_do (with_obj E id g)).
Proof. intros H. apply meach_do. intros rp. apply msoft_settles, with_obj_msoft, H. Qed.
Create HintDb md.
Hint Resolve meach_ret meach_open meach_drop meach_leave meach_set_parent meach_same meach_get meach_target : md.
Ltac me :=
  repeat first
    [ solve [eauto with md]
    | apply meach_bnd; [|intros ?]
    | match goal with
      | |- meach (if ?b then _ else _) => destruct b
      | |- meach (match ?x with _ => _ end) => destruct x
      end ].
Lemma meach_r_open k : forall splits pid parent, meach (r_open E k splits pid parent).
Proof.
  induction k as [|k IH]; [intros; cbn [r_open]; me|]. induction splits as [|s ss IHs]; intros pid parent; [cbn [r_open]; me|].
  cbn [r_open]. fold (r_open E (S k)). me.
Qed.
Hint Resolve meach_r_open : md.
Lemma meach_base path : meach (r_base E path). Proof. unfold r_base. me. Qed.
Hint Resolve meach_base : md.
Lemma meach_all path fl : meach (r_all E path fl). Proof. unfold r_all. me. Qed.
Hint Resolve meach_all : md.
Lemma meach_r_create path perm ty x bad : (forall id, P id CModify) -> P x CUnlink -> (forall now, B x now (born E now perm ty)) -> meach (r_create E path perm ty x bad).
Proof.
  intros HM HU HB. unfold r_create. apply meach_bnd; [me|]. intros [[b name]|]; [|me]. apply meach_bnd; [apply meach_do; intros rp; now apply t_create_msettles|].
  intros [u|]; [|me]. apply meach_bnd; [now apply meach_add|]. intros [[]|]; [me| |me]. apply meach_bnd; [now apply meach_down|me].
Qed.
Lemma meach_path path fl f : (forall h, uses (fst h) (f h)) -> meach (r_path E path fl f).
Proof. intros H. unfold r_path. apply meach_bnd; [me|]. intros [[h|]|]; try exact I. apply meach_bnd; [apply meach_obj, H|]. intros. me. Qed.
Lemma meach_r_remove b path : (forall id, P id CModify) -> (forall id, P id CUnlink) -> meach (r_remove E b path).
Proof.
  intros HM HU. unfold r_remove. apply meach_bnd; [me|]. intros [[ba name]|]; [|exact I]. apply meach_bnd; [now apply meach_remove|]. intros [[e|]|]; try solve [me]. apply meach_bnd; [me|]. intros [h|]; [|me].
  apply meach_bnd; [|intros; me]. apply meach_obj. destruct b.
  - apply uses_class, uses_rmdir, HU.
  - apply (uses_one _ _ CUnlink); [apply HU|]. intros. apply so_unlink.
Qed.
End Steps.

Lemma meach_body o : meach (makes o) (brings E o) (r_body E o).
Proof.
  assert (HL : forall id, makes o id CLook) by (intros; now left).
  destruct o; cbn [r_body]; try exact I.
  - apply meach_bnd; [|intros; exact I]. apply meach_r_create; [exact HL|intros; now right; left|right; now right|intros; split; reflexivity].
  - apply meach_bnd; [|intros [h|]; [apply meach_leave|exact I]]. apply meach_r_create; [exact HL|intros; now right; left|right; now right|intros; split; reflexivity].
  - apply meach_bnd; [apply meach_r_create; [exact HL|intros; now right; left|right; now right|intros; split; reflexivity]|]. intros [h|]; [|exact I]. apply meach_bnd; [|intros; apply meach_leave].
    apply meach_obj, uses_class, uses_done. apply (uses_one _ _ _ CModify); [now right; left|]. intros. apply so_link_set.
  - unfold r_link. apply meach_bnd; [now apply meach_all|]. intros [[h|]|]; try exact I. apply meach_bnd; [now apply meach_base|]. intros [[b name]|]; [|apply meach_leave].
    apply meach_bnd; [|intros; apply meach_leave]. apply meach_do. intros rp. apply msoft_settles, t_link_msoft; intros; right; auto.
  - apply meach_r_remove; [exact HL|intros; right; auto|intros; right; auto].
  - apply meach_r_remove; [exact HL|intros; right; auto|intros; right; auto].
  - unfold r_rename. apply meach_bnd; [now apply meach_base|]. intros [[bf lf]|]; [|exact I]. apply meach_bnd; [now apply meach_base|]. intros [[bt lt]|]; [|apply meach_leave].
    apply meach_bnd; [apply meach_do; intros rp; apply msoft_settles, t_rename_msoft; intros; right; auto|]. intros [[et|]|]; try apply meach_leave. apply meach_bnd; [apply meach_open|].
    intros [h|]; [|apply meach_leave]. apply meach_bnd; [apply meach_down; right; auto|intros; apply meach_leave].
  - apply meach_bnd; [now apply meach_all|]. intros [[h|]|]; try exact I. destruct trunc; [|exact I]. apply meach_bnd.
    + apply meach_obj, uses_class, uses_done. apply (uses_one _ _ _ CModify); [now right|]. intros. apply so_truncate.
    + intros [x|]; [exact I|apply meach_leave].
  - apply meach_bnd; [now apply meach_all|]. intros [[h|]|]; try exact I. destruct (_ =? _)%N; [exact I|apply meach_leave].
  - apply meach_bnd; [apply meach_same|]. intros [ty|]; [|exact I]. destruct (_ =? _)%N; [apply meach_leave|exact I].
  - apply meach_path; [exact HL|]. intros h. apply uses_class, uses_done. apply (uses_one _ _ _ CModify); [now right|]. intros. apply so_truncate.
  - apply meach_path; [exact HL|]. intros h. apply (uses_one _ _ _ (CSet c)); [now right|]. intros. apply so_chattr.
  - apply meach_path; [exact HL|]. intros h. apply uses_stat.
  - apply meach_path; [exact HL|]. intros h. apply uses_class. intros j o. pose proof (uses_link_get _ HL (fst h) j o) as H. cbv beta in H. destruct (fo_link_get _ _ _ _). exact H.
Qed.

(** ** Uses of open files *)
Lemma one_use {X} id y (g : timespec -> fob -> fob * res X) (Q : change -> Prop) rp :
  (forall now o, fseen (fst (g now o)) = fseen o \/ exists c, Q c /\ fseen (fst (g now o)) = changed now c (fseen o)) ->
  match file_seen E y rp, file_seen E y (fst (with_obj E id g rp)) with
  | None, None => True
  | Some s, Some s' => s' = s \/ id = y /\ exists c, Q c /\ s' = changed (v_clock E (rp_time rp)) c s
  | _, _ => False
  end.
Proof.
  intros H.
  unfold with_obj. destruct (rget id (rp_files rp)) as [[d m|f [|n] p]|] eqn:Eg; cbn [fst]; try (destruct (file_seen E y rp); [now left|exact I]).
  specialize (H (v_clock E (rp_time rp)) f). destruct (g _ f) as [f' r]. cbn [fst] in *. destruct (bytes_eqb id y) eqn:Q1.
  - apply bytes_eqb_eq in Q1. subst y. unfold file_seen, r_set. cbn [rp_files]. rewrite rget_put, bytes_eqb_refl, Eg. change (seen_of (v_store E) (fo_attrs f')) with (fseen f'). change (seen_of (v_store E) (fo_attrs f)) with (fseen f).
    destruct H as [H|H]; [now left|right; auto].
  - assert (Hs : file_seen E y (r_set id (RLoaded f' (S n) p) rp) = file_seen E y rp) by (unfold file_seen, r_set; cbn [rp_files]; now rewrite rget_put, Q1).
    rewrite Hs. destruct (file_seen E y rp); [now left|exact I].
Qed.
Lemma own_any {X} want bad (g : timespec -> fob -> fob * res X) (Q : change -> Prop) :
  (forall now o, fseen (fst (g now o)) = fseen o \/ exists c, Q c /\ fseen (fst (g now o)) = changed now c (fseen o)) ->
  forall now o, fseen (fst (own_class want bad g now o)) = fseen o \/ exists c, Q c /\ fseen (fst (own_class want bad g now o)) = changed now c (fseen o).
Proof. intros H now o. unfold own_class. destruct (_ =? _)%N; [apply H|now left]. Qed.
Lemma io_account o rp y :
  match file_seen E y rp, file_seen E y (fst (r_io E o rp)) with
  | None, None => True
  | Some s, Some s' => s' = s \/ io_file o = y /\ exists c, io_makes o c /\ s' = changed (v_clock E (rp_time rp)) c s
  | _, _ => False
  end.
Proof.
  destruct o as [id off len|id off d|id n|id|id|id]; cbn [r_io io_file]; apply one_use; try apply own_any; intros now o.
  - right. exists CLook. split; [reflexivity|]. pose proof (so_read id now off len o) as H. destruct (fo_read _ _ _ _ _ _). exact H.
  - right. exists CModify. split; [reflexivity|]. pose proof (so_write id now off d o) as H. unfold done. destruct (fo_write _ _ _ _ _ _). exact H.
  - right. exists CModify. split; [reflexivity|]. pose proof (so_truncate id now n o) as H. unfold done. destruct (fo_truncate _ _ _ _ _). exact H.
  - left. unfold stat_use. pose proof (so_size id o) as H. destruct (fo_size E id o). exact H.
  - right. exists CLook. split; [reflexivity|]. pose proof (so_list id now o) as H. destruct (fo_list _ _ _ _). exact H.
  - left. pose proof (so_flush id o) as H. destruct (fo_flush E id o). exact H.
Qed.

(** ** Out of memory and back *)
Hypothesis HE : senv_ok E.
Lemma clean_load id f nd : ORep E id f nd -> fclean f ->
  exists a t, load_attrs (v_aead E) (v_dkey E id) id (v_iv E) (v_store E) (mkFull (f_data (fo_s f)) (f_meta (fo_s f)) false 0) = Ok (a, t) /\ seen_of (v_store E) a = fseen f.
Proof.
  intros [_ _ Hr (pre & h & Hp & Hh & Hc)] [C1 C2 _].
  assert (Hs : exists c, FRep (v_aead E) (v_hmac E) (v_dkey E id) (v_mkey E id) id (v_bs E) (v_iv E) (attr_header_size (v_store E)) h (fo_s f) (pre ++ c)).
  { unfold ocont in Hc. destruct (i_type nd =? TDIR)%N; [|exists (i_data nd); apply Hc]. destruct Hc as [_ Hg]. destruct (dir_stream _ _ _ _ _ _ _ Hg) as (c & Hc & _). exists c. exact Hc. }
  destruct Hs as [c Hs]. rewrite (Hh C1) in Hs. apply (FRep_rng _ _ _ _ _ _ _ _ _ _ _ 0) in Hs. rewrite C2 in Hs.
  unfold load_attrs. rewrite (full_read_header_ok _ _ _ _ _ _ _ _ _ (attr_header_size (v_store E)) _ _ Hs) by apply Nat.le_refl.
  replace (firstn (attr_header_size (v_store E)) (pack_attrs (v_store E) (fo_attrs f))) with (pack_attrs (v_store E) (fo_attrs f)) by (symmetry; apply firstn_all2; rewrite pack_length; apply Nat.le_refl).
  cbn [rmap]. rewrite pack_unpack by exact Hr. do 2 eexists. split; [reflexivity|]. unfold fseen, seen_of. destruct (v_store E); reflexivity.
Qed.
Lemma evict_account id rp st y : RR E rp st -> file_seen E y (t_evict id rp) = file_seen E y rp.
Proof.
  intros H. unfold t_evict. destruct (rget id (rp_files rp)) as [[d m|f [|n] p]|] eqn:Eg; try reflexivity. destruct (bytes_eqb id root_id) eqn:Er; [reflexivity|].
  destruct (bytes_eqb id y) eqn:Q; [|unfold file_seen, r_set; cbn [rp_files]; now rewrite rget_put, Q]. apply bytes_eqb_eq in Q. subst y.
  unfold file_seen, r_set. cbn [rp_files]. rewrite rget_put, bytes_eqb_refl, Eg.
  pose proof (rr_file _ _ _ H id) as Hf. unfold one_file in Hf. rewrite Eg in Hf. destruct (get st id) as [nd|]; [|contradiction]. destruct Hf as [_ (Ho & _ & _ & Hc)].
  apply bytes_eqb_neq in Er. destruct (clean_load _ _ _ Ho (Hc eq_refl Er)) as (a & t & E1 & E2). rewrite E1. now rewrite E2.
Qed.
Lemma unload_seen id rp st t y x : RR E rp st -> rget id (rp_files rp) = Some x -> y = mkRepo (unmount E rp) t -> file_seen E id y = file_seen E id rp /\
  exists d m nd, rget id (unmount E rp) = Some (RStored d m) /\ OClean E id d m nd.
Proof.
  intros H Hx ->. pose proof (rr_file _ _ _ H id) as Hf. unfold one_file in Hf. rewrite Hx in Hf. destruct (get st id) as [nd|] eqn:Eg; [|contradiction]. destruct Hf as [_ Hf].
  assert (Hun : rget id (unmount E rp) = Some (t_unload E id x)) by (destruct rp as [l t0]; rewrite rget_unmount; cbn [rp_files] in Hx; now rewrite Hx).
  unfold file_seen. cbn [rp_files]. rewrite Hun, Hx. destruct x as [d m|f n p]; cbn [t_unload fits_file] in *.
  - split; [reflexivity|]. exists d, m, nd. split; [reflexivity|apply Hf].
  - destruct Hf as (Ho & _). destruct (ORep_flush E HE id f nd Ho) as (f' & E1 & Ho' & Hc). rewrite E1. cbn [fst].
    destruct (clean_load _ _ _ Ho' Hc) as (a & t' & E2 & E3). rewrite E2, E3. split.
    + pose proof (so_flush id f) as Hs. rewrite E1 in Hs. cbn [fst] in Hs. now rewrite Hs.
    + do 3 eexists. split; [reflexivity|]. exact (ORep_clean E _ _ _ Ho' Hc).
Qed.
Lemma remount_account rp st t y : RR E rp st -> file_seen E y (fst (mount E (unmount E rp) t)) = file_seen E y rp.
Proof.
  intros H. assert (Hother : forall z, file_seen E z (mkRepo (unmount E rp) t) = file_seen E z rp).
  { intros z. destruct (rget z (rp_files rp)) as [x|] eqn:Ex; [now apply (unload_seen z rp st t _ x H Ex)|]. unfold file_seen. cbn [rp_files].
    assert (Hun : rget z (unmount E rp) = None) by (destruct rp as [l t0]; rewrite rget_unmount; cbn [rp_files] in Ex; now rewrite Ex). now rewrite Hun, Ex. }
  destruct (rget root_id (rp_files rp)) as [x|] eqn:Ex.
  - destruct (unload_seen root_id rp st t _ x H Ex eq_refl) as (_ & d & m & nd & Hun & Hc). unfold mount. rewrite Hun.
    destruct (fo_open_ok E root_id d m nd t Hc) as (f & E1 & _). rewrite E1. cbn [fst]. rewrite <- Hother. destruct (bytes_eqb root_id y) eqn:Q.
    + apply bytes_eqb_eq in Q. subst y. destruct (so_open _ _ _ _ _ E1) as [t' Et]. unfold file_seen, r_set. cbn [rp_files]. now rewrite rget_put, bytes_eqb_refl, Hun, Et.
    + unfold file_seen, r_set. cbn [rp_files]. now rewrite rget_put, Q.
  - exfalso. pose proof (rr_file _ _ _ H root_id) as Hf. unfold one_file in Hf. rewrite Ex in Hf. pose proof (rr_root _ _ _ H) as Hr. destruct (get st root_id); [contradiction|now apply Hr].
Qed.

(** ** Events *)
Definition tmeach (t : rthread) : Prop := match t with RIdle => True | RRun o p => meach (makes o) (brings E o) p end.
Lemma forall_at {X} (Q : X -> Prop) l i x : Forall Q l -> nth_error l i = Some x -> Q x.
Proof. intros H Hn. rewrite Forall_forall in H. apply H. eapply nth_error_In; exact Hn. Qed.
Lemma forall_put {X} (Q : X -> Prop) l i x : Forall Q l -> Q x -> Forall Q (rset_nth i x l).
Proof.
  intros H Hx. unfold rset_nth. rewrite Forall_forall in *. intros y Hy. apply in_app_or in Hy. destruct Hy as [Hy|[<-|Hy]]; [|exact Hx|].
  - apply H. rewrite <- (firstn_skipn i l). apply in_or_app. now left.
  - apply H. rewrite <- (firstn_skipn (S i) l). apply in_or_app. now right.
Qed.
Lemma run_tmeach n l w : rrun E n l w -> Forall tmeach (w_threads w).
Proof.
  induction 1 as [|l w e w' Hr IH Hs].
  - cbn [w_threads]. apply Forall_forall. intros t Ht. apply repeat_spec in Ht. now subst t.
  - destruct Hs as [w i o Hi Hm|w i o upd next Hi|w i o r Hi|w o Hin|w id|w Hnil Hidle]; cbn [w_threads]; try exact IH.
    + apply forall_put; [exact IH|]. apply meach_body.
    + apply forall_put; [exact IH|]. pose proof (forall_at _ _ _ _ IH Hi) as Hp. apply Hp.
    + apply forall_put; [exact IH|exact I].
Qed.
Lemma event_accounted w aw e w' : WI E w aw -> Forall tmeach (w_threads w) -> rwstep E w e w' -> forall id, accounted E w e w' id.
Proof.
  intros HW Ht Hs id. destruct Hs as [w i o Hi Hm|w i o upd next Hi|w i o r Hi|w o Hin|w x|w Hnil Hidle]; cbn [accounted w_repo]; try reflexivity.
  - exists o, (RStep upd next). split; [exact Hi|]. pose proof (forall_at _ _ _ _ Ht Hi) as Hp. destruct Hp as [Hp _]. destruct (Hp (w_repo w)) as [_ Hp']. apply (Hp' id).
  - apply io_account.
  - apply (evict_account x _ _ _ (wi_files _ _ _ HW)).
  - apply (remount_account _ _ _ _ (wi_files _ _ _ HW)).
Qed.

(** ** Calls take effect *)
Inductive will (c : chattr) : rprog (res fout) -> Prop :=
| will_fail e : will c (RRet (Err e))
| will_step upd next : (forall rp, (exists id, applies E c id rp (upd rp)) \/ will c (next rp)) -> will c (RStep upd next).
Lemma will_bnd {A} c (p : rprog A) f : (forall a, will c (f a)) -> will c (rbnd p f).
Proof. intros H. induction p as [a|u n IH]; cbn [rbnd]; [apply H|]. constructor. intros rp. right. apply IH. Qed.
Lemma will_leave c ids e : will c (r_leave E ids (Err e)).
Proof. induction ids as [|i ids IH]; cbn [r_leave]; [constructor|]. now apply will_bnd. Qed.
Lemma with_obj_applies id g c rp : (forall now o, fseen (fst (g now o)) = changed now (CSet c) (fseen o)) ->
  applies E c id rp (fst (@with_obj E fout id g rp)) \/ snd (@with_obj E fout id g rp) = Err EUndef.
Proof.
  intros H. unfold with_obj. destruct (rget id (rp_files rp)) as [[d m|f [|n] p]|] eqn:Eg; try (now right).
  left. specialize (H (v_clock E (rp_time rp)) f). destruct (g _ f) as [f' r]. cbn [fst] in *. exists (fseen f). unfold file_seen, r_set. cbn [rp_files]. rewrite Eg, rget_put, bytes_eqb_refl. split; [reflexivity|].
  f_equal. exact H.
Qed.
Lemma will_chattr path c : will c (r_body E (FChattr path c)).
Proof.
  cbn [r_body]. unfold r_path. apply will_bnd. intros [[h|]|]; try constructor. cbn [r_do rbnd]. intros rp.
  destruct (with_obj_applies (fst h) (fun now o => (fo_chattr E now c o, Ok FOUnit)) c rp) as [H|H]; [intros; apply so_chattr|left; eauto|]. right. rewrite H. apply will_leave.
Qed.
(** Each thread either has to do it or has done it. *)
Definition due (l : list (revent * rworld)) (i : nat) (t : rthread) : Prop :=
  match t with RRun (FChattr _ c) p => will c p \/ exists id, since_call i (applies E c id) l | _ => True end.
Definition all_due (l : list (revent * rworld)) (w : rworld) : Prop := forall i t, nth_error (w_threads w) i = Some t -> due l i t.
Lemma nth_set {X} i j (x : X) : forall l, i < length l -> nth_error (rset_nth i x l) j = if i =? j then Some x else nth_error l j.
Proof.
  unfold rset_nth. revert j. induction i as [|i IH]; intros j [|y l] Hl; cbn [length] in Hl; try lia.
  - destruct j; reflexivity.
  - destruct j as [|j]; [reflexivity|]. cbn [firstn skipn app nth_error]. rewrite IH by lia. reflexivity.
Qed.
Lemma due_later e w l i t : due l i t -> (forall o, e <> VCall i o) -> due ((e, w) :: l) i t.
Proof. intros H Hn. destruct t as [|o p]; [exact I|]. destruct o; cbn [due] in *; try exact I. destruct H as [H|[id H]]; [now left|right; exists id; now constructor]. Qed.
Lemma run_due n l w : rrun E n l w -> all_due l w /\ (l <> [] -> exists e l', l = (e, w) :: l') /\ (l = [] -> Forall (fun t => t = RIdle) (w_threads w)).
Proof.
  induction 1 as [|l w e w' Hr IH Hs].
  - split; [|split; [congruence|]].
    + intros i t Hi. cbn [w_threads] in Hi. apply nth_error_In, repeat_spec in Hi. now subst t.
    + intros _. cbn [w_threads]. apply Forall_forall. intros t Ht. now apply repeat_spec in Ht.
  - destruct IH as (IH & Hlast & Hidle0). split; [|split; [intros _; eauto|discriminate]].
    destruct Hs as [w i o Hi Hm|w i o upd next Hi|w i o r Hi|w o Hin|w x|w Hnil Hidle]; intros j t Hj; cbn [w_threads] in Hj;
      try (apply due_later; [now apply IH|discriminate]);
      (assert (Hlen : i < length (w_threads w)) by (apply nth_error_Some; rewrite Hi; discriminate)); rewrite nth_set in Hj by exact Hlen; destruct (Nat.eqb_spec i j) as [<-|Hne];
      try (apply due_later; [now apply IH|congruence]).
    + injection Hj as <-. destruct o; cbn [due]; try exact I. left. apply will_chattr.
    + injection Hj as <-. pose proof (IH _ _ Hi) as Hd. destruct o; cbn [due] in *; try exact I. destruct Hd as [Hd|[id Hd]]; [|right; exists id; now constructor].
      inversion Hd as [|u n' Hw]; subst. destruct (Hw (w_repo w)) as [[id Ha]|Ha]; [|now left]. right. exists id.
      destruct l as [|x l]; [exfalso; specialize (Hidle0 eq_refl); pose proof (forall_at _ _ _ _ Hidle0 Hi); discriminate|].
      destruct (Hlast ltac:(discriminate)) as (e0 & l' & El). rewrite El. constructor. exact Ha.
    + injection Hj as <-. exact I.
Qed.
Lemma returned_due n l w i path c r w' : rrun E n l w -> rwstep E w (VRet i (FChattr path c) (Ok r)) w' -> exists id, since_call i (applies E c id) l.
Proof.
  intros Hr Hs. destruct (run_due _ _ _ Hr) as (H & _). inversion Hs as [| |w0 i0 o r0 Hi| | |]; subst. specialize (H _ _ Hi). cbn [due] in H. destruct H as [H|H]; [inversion H|exact H].
Qed.

(** ** One call alone *)
Lemma alone_bnd {A C} (p : rprog A) (f : A -> rprog C) : forall rp, r_alone (rbnd p f) rp = r_alone (f (snd (r_alone p rp))) (fst (r_alone p rp)).
Proof. induction p as [a|u n IH]; intros rp; cbn [rbnd r_alone]; [reflexivity|apply IH]. Qed.
Lemma alone_seen {A} P (p : rprog A) : meach P (fun _ _ _ => False) p -> forall rp, rp_time rp <= rp_time (fst (r_alone p rp)) /\
  forall id s', file_seen E id (fst (r_alone p rp)) = Some s' ->
  exists s, file_seen E id rp = Some s /\ many E (P id) (rp_time rp) (rp_time (fst (r_alone p rp))) s s'.
Proof.
  induction p as [a|u n IH]; cbn [meach r_alone fst]; intros Hp rp.
  - split; [apply Nat.le_refl|]. intros id s' H. exists s'. split; [exact H|constructor].
  - destruct Hp as [H1 H2]. destruct (IH rp (H2 rp) (u rp)) as [T2 H3]. destruct (H1 rp) as [T1 H4]. split; [lia|]. intros id s' Hs. destruct (H3 id s' Hs) as (s1 & E1 & M1).
    specialize (H4 id). rewrite E1 in H4. destruct (file_seen E id rp) as [s|]; [|contradiction]. exists s. split; [reflexivity|].
    eapply many_trans; eapply many_wider; [| |exact H4| | |exact M1]; lia.
Qed.
Lemma drop_seen id rp s : file_seen E id rp = Some s -> s_nlink s <> 0%N -> file_seen E id (t_drop E id rp) = Some s.
Proof.
  intros H Hn. unfold t_drop. destruct (rget id (rp_files rp)) as [[d m|f [|[|n]] p]|] eqn:Eg; try exact H.
  - unfold file_seen in H. rewrite Eg in H. injection H as <-. cbn [seen_of s_nlink] in Hn. apply N.eqb_neq in Hn. rewrite Hn, Bool.andb_false_r.
    unfold file_seen, r_set. cbn [rp_files]. rewrite rget_put, bytes_eqb_refl. change (Some (fseen (fst (fo_flush E id f))) = Some (fseen f)). now rewrite so_flush.
  - unfold file_seen in *. rewrite Eg in H. unfold r_set. cbn [rp_files]. now rewrite rget_put, bytes_eqb_refl.
Qed.
Lemma changed_links now c s : s_nlink (changed now (CSet c) s) = s_nlink s.
Proof. destruct c as [p|u g|ts u]; cbn [changed]; try reflexivity; [destruct (_ =? _)%N; reflexivity|cbv zeta; destruct (_ && _); reflexivity]. Qed.
Lemma chattr_alone path c rp r id m n z : snd (r_alone (r_body E (FChattr path c)) rp) = Ok r ->
  snd (r_alone (r_body E (FGetattr path)) rp) = Ok (FOStat id m n z) -> n <> 0%N ->
  let rp' := fst (r_alone (r_body E (FChattr path c)) rp) in
  exists s s1 j, rp_time rp <= j < rp_time rp' /\ file_seen E id rp = Some s /\ many E (fun c => c = CLook) (rp_time rp) j s s1 /\
    file_seen E id rp' = Some (changed (v_clock E j) (CSet c) s1).
Proof.
  intros H1 H2 Hn. cbv zeta. revert H1 H2. cbn [r_body]. unfold r_path. rewrite !alone_bnd.
  pose proof (alone_seen (fun _ c => c = CLook) (r_all E path false) (meach_all (fun _ c => c = CLook) (fun _ _ _ => False) (fun _ => eq_refl) path false) rp) as [T1 HL].
  destruct (r_alone (r_all E path false) rp) as [rp1 [[h|]|]]; cbn [fst snd] in *; try (cbn [r_alone snd]; discriminate).
  cbn [r_do rbnd r_alone]. unfold with_obj. destruct (rget (fst h) (rp_files rp1)) as [[d mt|f [|k] p]|] eqn:Eg; try (cbn [fst snd r_leave r_do rbnd q_drop r_alone]; discriminate).
  destruct (stat_use E (fst h) (v_clock E (rp_time rp1)) f) as [o' ro] eqn:Est. cbn [fst snd r_leave r_do rbnd q_drop r_alone].
  intros _ Hro. unfold stat_use in Est. pose proof (so_size (fst h) f) as Hsz. destruct (fo_size E (fst h) f) as [o1 r1]. injection Est as <- <-. cbn [fst] in Hsz.
  destruct r1 as [sz|]; [|discriminate]. cbn [rmap] in Hro. assert (Hid : id = fst h) by congruence. assert (Hnl : n = a_nlink (fo_attrs o1)) by congruence. subst id. clear Hro.
  assert (Hs1 : file_seen E (fst h) rp1 = Some (fseen f)) by (unfold file_seen; now rewrite Eg).
  destruct (HL _ _ Hs1) as (s & E1 & M1). exists s, (fseen f), (rp_time rp1).
  assert (Hl : s_nlink (fseen f) = n) by (rewrite <- Hsz, Hnl; reflexivity).
  assert (Hset : file_seen E (fst h) (r_set (fst h) (RLoaded (fo_chattr E (v_clock E (rp_time rp1)) c f) (S k) p) rp1) = Some (changed (v_clock E (rp_time rp1)) (CSet c) (fseen f))).
  { unfold file_seen, r_set. cbn [rp_files]. rewrite rget_put, bytes_eqb_refl. f_equal. apply so_chattr. }
  split; [|split; [exact E1|split; [exact M1|]]].
  - split; [exact T1|]. destruct (t_drop_msettles (fun _ _ => True) (fun _ _ _ => True) (fst h) (r_set (fst h) (RLoaded (fo_chattr E (v_clock E (rp_time rp1)) c f) (S k) p) rp1)) as [T2 _].
    unfold r_set in T2 at 1. cbn [rp_time] in T2. exact T2.
  - apply drop_seen; [exact Hset|]. rewrite changed_links. congruence.
Qed.
End Attr.

(** ** Who changes what *)
Lemma many_keeps {X} E (P : change -> Prop) k k' (g : seen -> X) s s' : (forall c now t, P c -> g (changed now c t) = g t) -> many E P k k' s s' -> g s' = g s.
Proof. intros H M. induction M as [|s s' c j M IH Hp Hj]; [reflexivity|]. now rewrite H. Qed.
Lemma set_type now c s : (s_mode (changed now c s) / 512 = s_mode s / 512)%N.
Proof.
  destruct c as [| | | |[perm|u g|ts u]]; try reflexivity; cbn [changed]; cbv zeta.
  - destruct (N.eqb_spec (s_mode s / 512 * 512 + perm mod 512)%N (s_mode s)) as [H|H]; [reflexivity|]. cbn [touch_ctime on_times s_mode].
    rewrite N.div_add_l by discriminate. rewrite (N.div_small (perm mod 512)); [apply N.add_0_r|]. apply N.mod_lt. discriminate.
  - destruct (_ && _); reflexivity.
Qed.
Lemma set_birth now c s : birth_of (changed now c s) = birth_of s.
Proof.
  unfold birth_of. destruct c as [| | | |[perm|u g|ts u]]; cbn [changed on_times touch_ctime s_times]; cbv zeta; try (destruct (s_times s) as [[]|]; cbn; try destruct (_ || _)%bool; reflexivity).
  - destruct (_ =? _)%N; [reflexivity|]. destruct (s_times s) as [[]|]; reflexivity.
  - destruct (_ && _); [reflexivity|]. destruct (s_times s) as [[]|]; reflexivity.
  - destruct ts as [[]|], (s_times s) as [[]|]; reflexivity.
Qed.
Lemma chosen_same v o : chosen v (chosen v o) = chosen v o.
Proof. unfold chosen. destruct (v =? 4294967295)%N; reflexivity. Qed.
Lemma many_owner E (P : change -> Prop) k k' u g s s' : (forall c, P c -> c = CLook \/ c = CSet (ChOwner u g)) -> many E P k k' s s' ->
  s_uid s' = s_uid s /\ s_gid s' = s_gid s \/ s_uid s' = chosen u (s_uid s) /\ s_gid s' = chosen g (s_gid s).
Proof.
  intros HP M. induction M as [|s s' c j M IH Hp Hj]; [now left|]. destruct (HP c Hp) as [-> | ->]; [exact IH|]. right. cbn [changed]. cbv zeta.
  assert (A : chosen u (s_uid s') = chosen u (s_uid s) /\ chosen g (s_gid s') = chosen g (s_gid s)) by (destruct IH as [[-> ->]|[-> ->]]; rewrite ?chosen_same; auto).
  destruct A as [A1 A2]. rewrite A1, A2. destruct (N.eqb_spec (chosen u (s_uid s)) (s_uid s')) as [H1|H1], (N.eqb_spec (chosen g (s_gid s)) (s_gid s')) as [H2|H2];
    cbn [andb touch_ctime on_times s_uid s_gid]; auto.
Qed.
Lemma many_mode E (P : change -> Prop) k k' perm s s' : (forall c, P c -> c = CLook \/ c = CSet (ChMode perm)) -> many E P k k' s s' ->
  s_mode s' = s_mode s \/ s_mode s' = (s_mode s / 512 * 512 + perm mod 512)%N.
Proof.
  intros HP M. induction M as [|s s' c j M IH Hp Hj]; [now left|]. destruct (HP c Hp) as [-> | ->]; [exact IH|]. right. cbn [changed]. cbv zeta.
  assert (A : (s_mode s' / 512 = s_mode s / 512)%N).
  { destruct IH as [-> | ->]; [reflexivity|]. rewrite N.div_add_l by discriminate. rewrite (N.div_small (perm mod 512)); [apply N.add_0_r|]. apply N.mod_lt. discriminate. }
  rewrite A. destruct (N.eqb_spec (s_mode s / 512 * 512 + perm mod 512)%N (s_mode s')) as [H|H]; [now symmetry|reflexivity].
Qed.
Lemma set_mtime now c t : c <> CModify -> (forall ts u, c <> CSet (ChTimes ts u)) -> mtime_of (changed now c t) = mtime_of t.
Proof.
  intros H1 H2. unfold mtime_of. destruct c as [| | | |[perm|u g|ts u]]; try contradiction; cbn [changed on_times touch_ctime s_times]; cbv zeta;
    try (destruct (s_times t) as [[]|]; cbn; try destruct (_ || _)%bool; reflexivity).
  - destruct (_ =? _)%N; [reflexivity|]. destruct (s_times t) as [[]|]; reflexivity.
  - destruct (_ && _); [reflexivity|]. destruct (s_times t) as [[]|]; reflexivity.
  - now elim (H2 ts u).
Qed.
Lemma set_links now c t : c <> CLink -> c <> CUnlink -> s_nlink (changed now c t) = s_nlink t.
Proof. intros H1 H2. destruct c; try contradiction; try reflexivity. apply changed_links. Qed.
Lemma set_owner now c t : (forall u g, c <> CSet (ChOwner u g)) -> (s_uid (changed now c t), s_gid (changed now c t)) = (s_uid t, s_gid t).
Proof. intros H. destruct c as [| | | |[perm|u g|ts u]]; try reflexivity; [cbn [changed]; cbv zeta; destruct (_ =? _)%N; reflexivity|now elim (H u g)]. Qed.
Lemma set_mode_keeps now c t : (forall p, c <> CSet (ChMode p)) -> s_mode (changed now c t) = s_mode t.
Proof. intros H. destruct c as [| | | |[perm|u g|ts u]]; try reflexivity; [now elim (H perm)|cbn [changed]; cbv zeta; destruct (_ && _); reflexivity]. Qed.
Lemma makes_relink o id c : makes o id c -> c = CLink \/ c = CUnlink -> may_relink o.
Proof. intros [-> | H] D; [destruct D; discriminate|]. destruct o as [| | | | | | |path [|]| | | | | | | | | |]; cbn in *; auto; destruct D; subst; congruence. Qed.
Lemma makes_modify o id c : makes o id c -> c = CModify \/ (exists ts u, c = CSet (ChTimes ts u)) -> may_modify o.
Proof.
  intros [-> | H] D; [destruct D as [D|(ts & u & D)]; discriminate|].
  destruct o as [| | | | | | |path [|]| | | | | |path [| |]| | | |]; cbn in *; auto; destruct D as [D|(ts & u & D)]; subst; congruence.
Qed.
Lemma makes_set o id c : makes o id (CSet c) -> exists path, o = FChattr path c.
Proof.
  intros [H|H]; [discriminate H|]. destruct o as [| | | | | | |path [|]| | | | | |path x| | | |]; cbn in H; try contradiction; try discriminate H;
    repeat match goal with H : _ \/ _ |- _ => destruct H as [H|H] | H : _ /\ _ |- _ => destruct H as [H ?] end; try discriminate H. exists path. congruence.
Qed.
Lemma may_relink_dec o : may_relink o \/ ~ may_relink o.
Proof. destruct o; cbn; tauto. Qed.
Lemma may_modify_dec o : may_modify o \/ ~ may_modify o.
Proof. destruct o as [| | | | | | |path [|]| | | | | |path [| |]| | | |]; cbn; tauto. Qed.
Lemma accounted_spared E w e w' id s s' : accounted E w e w' id -> file_seen E id (w_repo w) = Some s -> file_seen E id (w_repo w') = Some s' -> spared w e s s'.
Proof.
  intros H E1 E2. assert (Hsame : s' = s -> spared w e s s') by (intros ->; constructor; auto).
  destruct e as [i o|i|i o r|o r|x|r]; cbn [accounted] in H; try (apply Hsame; congruence).
  - destruct H as (o & p & Hi & H). rewrite E1, E2 in H. assert (Hrun : running w (VStep i) o) by (exists i, p; auto). constructor.
    + apply (many_keeps E _ _ _ (fun t => (s_mode t / 512)%N) s s' (fun c now t _ => set_type now c t) H).
    + apply (many_keeps E _ _ _ birth_of s s' (fun c now t _ => set_birth now c t) H).
    + assert (D : (exists path perm, o = FChattr path (ChMode perm)) \/ forall path perm, o <> FChattr path (ChMode perm))
        by (destruct o as [| | | | | | | | | | | | |path [perm| |]| | | |]; try (right; discriminate); left; eauto).
      destruct D as [(path & perm & ->)|D].
      * destruct (many_mode E _ _ _ perm s s' ltac:(intros c Hc; exact Hc) H) as [A|A]; eauto.
      * left. refine (many_keeps E _ _ _ s_mode s s' _ H). intros c now t Hc. apply set_mode_keeps. intros perm ->. destruct (makes_set _ _ _ Hc) as [path Hp]. now elim (D path perm).
    + assert (D : (exists path u g, o = FChattr path (ChOwner u g)) \/ forall path u g, o <> FChattr path (ChOwner u g))
        by (destruct o as [| | | | | | | | | | | | |path [|u g|]| | | |]; try (right; discriminate); left; eauto).
      destruct D as [(path & u & g & ->)|D].
      * destruct (many_owner E _ _ _ u g s s' ltac:(intros c Hc; exact Hc) H) as [A|A]; [now left|right]. exists path, u, g. auto.
      * left. assert (A : (s_uid s', s_gid s') = (s_uid s, s_gid s)); [|injection A; auto].
        refine (many_keeps E _ _ _ (fun t => (s_uid t, s_gid t)) s s' _ H). intros c now t Hc. apply set_owner. intros u g ->. destruct (makes_set _ _ _ Hc) as [path Hp]. now elim (D path u g).
    + destruct (may_relink_dec o) as [D|D]; [right; eauto|left]. refine (many_keeps E _ _ _ s_nlink s s' _ H).
      intros c now t Hc. apply set_links; intros ->; apply D; eapply makes_relink; eauto.
    + destruct (may_modify_dec o) as [D|D]; [right; left; eauto|left]. refine (many_keeps E _ _ _ mtime_of s s' _ H).
      intros c now t Hc. apply set_mtime; [intros ->|intros ts u ->]; apply D; eapply makes_modify; eauto.
  - rewrite E1, E2 in H. destruct H as [H|(Hid & c & Hc & ->)]; [auto|]. constructor.
    + apply set_type.
    + apply set_birth.
    + left. apply set_mode_keeps. intros q ->. destruct o; cbn in Hc; congruence.
    + left. assert (A : (s_uid (changed (v_clock E (rp_time (w_repo w))) c s), s_gid (changed (v_clock E (rp_time (w_repo w))) c s)) = (s_uid s, s_gid s)); [|injection A; auto].
      apply set_owner. intros u g ->. destruct o; cbn in Hc; congruence.
    + left. apply set_links; intros ->; destruct o; cbn in Hc; congruence.
    + destruct o; cbn in Hc; try contradiction; subst c; try (left; apply set_mtime; congruence); right; right; do 2 eexists; (split; [reflexivity|reflexivity]).
Qed.
