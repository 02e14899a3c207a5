(** The storage refines two byte strings per id. *)
From Coq Require Import Lia Strings.String.
From Verif Require Import Base BaseLemmas TextModel TextProofs NameModel NameProofs FullFsModel TableIoModel TableIoSpec.
Local Open Scope nat_scope.
Local Open Scope list_scope.

Definition ok_id (id : bytes) : Prop := length id = 32.

(** ** Components *)
Lemma hex_no_slash l : ~ In slash (hexify l).
Proof. intros H. pose proof (hexify_digits l) as F. rewrite Forall_forall in F. apply F in H. vm_compute in H. intuition discriminate. Qed.
Lemma hex_meta_no_slash l : ~ In slash (hexify l ++ meta_suffix).
Proof. intros H. apply in_app_or in H. destruct H as [H|H]; [exact (hex_no_slash _ H)|]. vm_compute in H. intuition discriminate. Qed.
Lemma hexify_inj a b : hexify a = hexify b -> a = b.
Proof. intros E. pose proof (parse_hexify a) as H. rewrite E, parse_hexify in H. congruence. Qed.
Lemma hex_not_meta a b : hexify a <> hexify b ++ meta_suffix.
Proof.
  intros E. assert (H : In x2e (hexify a)) by (rewrite E; apply in_or_app; right; vm_compute; auto).
  pose proof (hexify_digits a) as F. rewrite Forall_forall in F. apply F in H. vm_compute in H. intuition discriminate.
Qed.

Definition dc (legacy : bool) (id : bytes) : list bytes := split_slash (data_path legacy id).
Definition mc (legacy : bool) (id : bytes) : list bytes := split_slash (meta_path legacy id).
Definition dirs (legacy : bool) (id : bytes) : list (list bytes) := map split_slash (dir_paths legacy id).
Definition base_dir (legacy : bool) (id : bytes) : list bytes :=
  if legacy then [hexify (firstn 1 id); hexify (firstn 5 (skipn 1 id))] else [hexify (firstn 1 id)].
Definition leaf (legacy : bool) (id : bytes) : bytes := hexify (skipn (if legacy then 6 else 1) id).

Lemma dc_eq l id : dc l id = base_dir l id ++ [leaf l id].
Proof.
  unfold dc, data_path, base_dir, leaf. destruct l.
  - unfold FIRST_LEVEL, SECOND_LEVEL. rewrite <- app_assoc. cbn [app]. rewrite !split_app, split_simple by apply hex_no_slash. reflexivity.
  - rewrite split_app, split_simple by apply hex_no_slash. reflexivity.
Qed.
Lemma mc_eq l id : mc l id = base_dir l id ++ [leaf l id ++ meta_suffix].
Proof.
  unfold mc, meta_path, data_path, base_dir, leaf. destruct l.
  - unfold FIRST_LEVEL, SECOND_LEVEL. rewrite <- !app_assoc. cbn [app]. rewrite !split_app, split_simple by (apply hex_no_slash || apply hex_meta_no_slash). reflexivity.
  - rewrite <- app_assoc. cbn [app]. rewrite split_app, split_simple by (apply hex_no_slash || apply hex_meta_no_slash). reflexivity.
Qed.
Lemma dirs_eq l id : dirs l id = if l then [[hexify (firstn 1 id)]; base_dir l id] else [base_dir l id].
Proof.
  unfold dirs, dir_paths, base_dir. destruct l; cbn [map].
  - unfold FIRST_LEVEL, SECOND_LEVEL. rewrite split_app, !split_simple by apply hex_no_slash. reflexivity.
  - now rewrite split_simple by apply hex_no_slash.
Qed.
Lemma last_dir l id : split_slash (last (dir_paths l id) []) = base_dir l id.
Proof.
  pose proof (dirs_eq l id) as E. unfold dirs, dir_paths in *. destruct l; cbn [map last] in *; congruence.
Qed.
Lemma id_parts l id i : base_dir l id ++ [leaf l id] = base_dir l i ++ [leaf l i] -> id = i.
Proof.
  unfold base_dir, leaf. destruct l; cbn [app]; intros E.
  - assert (E1 : hexify (firstn 1 id) = hexify (firstn 1 i)) by congruence.
    assert (E2 : hexify (firstn 5 (skipn 1 id)) = hexify (firstn 5 (skipn 1 i))) by congruence.
    assert (E3 : hexify (skipn 6 id) = hexify (skipn 6 i)) by congruence.
    apply hexify_inj in E1, E2, E3. rewrite <- (firstn_skipn 1 id), <- (firstn_skipn 1 i). f_equal; [exact E1|].
    rewrite <- (firstn_skipn 5 (skipn 1 id)), <- (firstn_skipn 5 (skipn 1 i)), !skipn_skipn. cbn [Nat.add]. congruence.
  - assert (E1 : hexify (firstn 1 id) = hexify (firstn 1 i)) by congruence.
    assert (E3 : hexify (skipn 1 id) = hexify (skipn 1 i)) by congruence.
    apply hexify_inj in E1, E3. rewrite <- (firstn_skipn 1 id), <- (firstn_skipn 1 i). congruence.
Qed.
Lemma dc_inj l i j : dc l i = dc l j -> i = j.
Proof. rewrite !dc_eq. apply id_parts. Qed.
Lemma mc_inj l i j : mc l i = mc l j -> i = j.
Proof.
  rewrite !mc_eq. intros E. apply app_inj_tail in E. destruct E as [E1 E2]. apply (id_parts l). rewrite E1. f_equal. f_equal. now apply app_inv_tail in E2.
Qed.
Lemma dc_mc l i j : dc l i <> mc l j.
Proof. rewrite dc_eq, mc_eq. intros E. apply app_inj_tail in E. destruct E as [_ E]. exact (hex_not_meta _ _ E). Qed.
Lemma base_len l i : length (base_dir l i) = if l then 2 else 1.
Proof. destruct l; reflexivity. Qed.
Lemma dc_len l i : length (dc l i) = if l then 3 else 2.
Proof. rewrite dc_eq, app_length, base_len. destruct l; reflexivity. Qed.
Lemma mc_len l i : length (mc l i) = if l then 3 else 2.
Proof. rewrite mc_eq, app_length, base_len. destruct l; reflexivity. Qed.
Lemma dirs_len l i p : In p (dirs l i) -> length p < (if l then 3 else 2).
Proof. rewrite dirs_eq. destruct l; cbn [In]; intros H; repeat (destruct H as [<-|H]; [rewrite ?base_len; cbn; lia|]); easy. Qed.
Lemma dc_parent l i : removelast (dc l i) = base_dir l i.
Proof. rewrite dc_eq. apply removelast_last. Qed.
Lemma mc_parent l i : removelast (mc l i) = base_dir l i.
Proof. rewrite mc_eq. apply removelast_last. Qed.
Lemma base_in l i : In (base_dir l i) (dirs l i).
Proof. rewrite dirs_eq. destruct l; cbn; auto. Qed.
Lemma first_byte i : ok_id i -> exists b, firstn 1 i = [b].
Proof. intros H. destruct i as [|b i]; [discriminate|]. exists b. reflexivity. Qed.
Lemma own_base l i r : ok_id i -> own (base_dir l i ++ r).
Proof. intros H. destruct (first_byte i H) as (b & E). unfold base_dir. rewrite E. destruct l; cbn [app]; exists b; eexists; reflexivity. Qed.
Lemma own_dc l i : ok_id i -> own (dc l i).
Proof. intros H. rewrite dc_eq. now apply own_base. Qed.
Lemma own_mc l i : ok_id i -> own (mc l i).
Proof. intros H. rewrite mc_eq. now apply own_base. Qed.
Lemma own_dir l i p : ok_id i -> In p (dirs l i) -> own p.
Proof.
  intros H. rewrite dirs_eq. destruct (first_byte i H) as (b & E). unfold base_dir. rewrite E. destruct l; cbn [In]; intros G; repeat (destruct G as [<-|G]; [eexists; eexists; reflexivity|]); easy.
Qed.

(** ** The host *)
Lemma hget_hdel h p q : hget (hdel h p) q = if path_dec p q then None else hget h q.
Proof.
  induction h as [|[r n] h IH]; [cbn; now destruct (path_dec p q)|]. cbn [hdel filter fst]. fold (hdel h p). destruct (path_dec r p) as [->|N].
  - rewrite IH. cbn [hget]. destruct (path_dec p q); reflexivity.
  - cbn [hget]. rewrite IH. destruct (path_dec r q) as [->|N2]; [|reflexivity]. destruct (path_dec p q); [congruence|reflexivity].
Qed.
Lemma hget_hput h p n q : hget (hput h p n) q = if path_dec p q then Some n else hget h q.
Proof. unfold hput. cbn [hget]. rewrite hget_hdel. now destruct (path_dec p q). Qed.
Lemma occupied_child h p q n : hget h q = Some n -> q <> [] -> removelast q = p -> occupied h p = true.
Proof.
  intros H N E. unfold occupied. apply existsb_exists. induction h as [|[r m] h IH]; [discriminate|]. cbn [hget] in H. destruct (path_dec r q) as [->|N2].
  - exists (q, m). split; [now left|]. cbn [fst]. destruct (path_dec (removelast q) p); [|contradiction]. now destruct q.
  - destruct (IH H) as (x & X1 & X2). exists x. split; [now right|exact X2].
Qed.

(** ** What the storage holds *)
Section S.
Variable l : bool.
Variable h0 : host.
Record Rep (h : host) (m : store) : Prop := mkRep {
  r_foreign : forall p, ~ own p -> hget h p = hget h0 p;
  r_data : forall id, ok_id id -> hget h (dc l id) = option_map HFile (fst (m id));
  r_meta : forall id, ok_id id -> hget h (mc l id) = option_map HFile (snd (m id));
  r_own : forall p n, own p -> hget h p = Some n -> (exists id, ok_id id /\ (p = dc l id \/ p = mc l id)) \/ n = HDir;
  r_dirs : forall id, ok_id id -> m id <> (None, None) -> forall p, In p (dirs l id) -> hget h p = Some HDir }.

Lemma dir_state h m id p : Rep h m -> ok_id id -> In p (dirs l id) -> hget h p = None \/ hget h p = Some HDir.
Proof.
  intros H Hi Hp. destruct (hget h p) as [n|] eqn:E; [|now left]. right. destruct (r_own h m H p n (own_dir l id p Hi Hp) E) as [(i & _ & [F|F])| ->]; [| |reflexivity].
  - pose proof (dirs_len l id p Hp) as L. rewrite F, dc_len in L. lia.
  - pose proof (dirs_len l id p Hp) as L. rewrite F, mc_len in L. lia.
Qed.
Lemma not_file id i p : In p (dirs l id) -> p <> dc l i /\ p <> mc l i.
Proof. intros Hp. pose proof (dirs_len l id p Hp) as L. split; intros ->; [rewrite dc_len in L|rewrite mc_len in L]; lia. Qed.

(** A directory is made. *)
Lemma mkdir_Rep h m id p : Rep h m -> ok_id id -> In p (dirs l id) -> Rep (hput h p HDir) m.
Proof.
  intros H Hi Hp. pose proof (own_dir l id p Hi Hp) as Ho. split.
  - intros q Hq. rewrite hget_hput. destruct (path_dec p q) as [->|_]; [contradiction|now apply (r_foreign h m H)].
  - intros i Hid. rewrite hget_hput. destruct (path_dec p (dc l i)) as [E|_]; [now elim (proj1 (not_file id i p Hp))|now apply (r_data h m H)].
  - intros i Hid. rewrite hget_hput. destruct (path_dec p (mc l i)) as [E|_]; [now elim (proj2 (not_file id i p Hp))|now apply (r_meta h m H)].
  - intros q n Hq. rewrite hget_hput. destruct (path_dec p q) as [->|_]; [intros [= <-]; now right|now apply (r_own h m H)].
  - intros i Hid Hm q Hq. rewrite hget_hput. destruct (path_dec p q) as [->|_]; [reflexivity|now apply (r_dirs h m H i)].
Qed.
Lemma ensure_Rep h m id s : Rep h m -> ok_id id -> In (split_slash s) (dirs l id) -> is_dir h (removelast (split_slash s)) = true ->
  exists h', hcall1 (HEnsure s) h = (h', None) /\ Rep h' m /\ hget h' (split_slash s) = Some HDir /\ (forall q, hget h q = Some HDir -> hget h' q = Some HDir).
Proof.
  intros H Hi Hp Hd. cbn [hcall1]. destruct (dir_state h m id _ H Hi Hp) as [E|E]; rewrite E.
  - rewrite Hd. eexists. split; [reflexivity|]. split; [now apply (mkdir_Rep h m id)|]. split; [rewrite hget_hput; now destruct (path_dec _ _)|].
    intros q Hq. rewrite hget_hput. now destruct (path_dec _ _).
  - exists h. auto.
Qed.

(** A file is made, replaced or removed. *)
Lemma data_Rep h m id v : Rep h m -> ok_id id -> (v <> None -> forall p, In p (dirs l id) -> hget h p = Some HDir) ->
  Rep (match v with Some c => hput h (dc l id) (HFile c) | None => hdel h (dc l id) end) (at_id m id (v, snd (m id))).
Proof.
  intros H Hi Hd. set (h' := match v with Some c => _ | None => _ end).
  assert (G : forall q, hget h' q = if path_dec (dc l id) q then option_map HFile v else hget h q).
  { intros q. unfold h'. destruct v; [apply hget_hput|apply hget_hdel]. }
  pose proof (own_dc l id Hi) as Ho. split.
  - intros q Hq. rewrite G. destruct (path_dec _ _) as [<-|_]; [contradiction|now apply (r_foreign h m H)].
  - intros i Hid. rewrite G. unfold at_id. destruct (path_dec _ _) as [E|N].
    + apply dc_inj in E. subst i. now rewrite bytes_eqb_refl.
    + destruct (bytes_eqb i id) eqn:E; [apply bytes_eqb_eq in E; congruence|now apply (r_data h m H)].
  - intros i Hid. rewrite G. destruct (path_dec _ _) as [E|N]; [now elim (dc_mc l id i)|]. rewrite (r_meta h m H i Hid). unfold at_id.
    destruct (bytes_eqb i id) eqn:E; [apply bytes_eqb_eq in E; now subst|reflexivity].
  - intros q n Hq. rewrite G. destruct (path_dec _ _) as [<-|_]; [|now apply (r_own h m H)]. intros _. left. eauto.
  - intros i Hid Hm q Hq. rewrite G. destruct (path_dec _ _) as [E|N]; [now elim (proj1 (not_file i id q Hq))|]. unfold at_id in Hm.
    destruct (bytes_eqb i id) eqn:E; [|now apply (r_dirs h m H i)]. apply bytes_eqb_eq in E. subst i.
    destruct v; [now apply Hd|]. apply (r_dirs h m H id Hi); [|exact Hq]. intros F. rewrite F in Hm. now apply Hm.
Qed.
Lemma meta_Rep h m id v : Rep h m -> ok_id id -> (v <> None -> forall p, In p (dirs l id) -> hget h p = Some HDir) ->
  Rep (match v with Some c => hput h (mc l id) (HFile c) | None => hdel h (mc l id) end) (at_id m id (fst (m id), v)).
Proof.
  intros H Hi Hd. set (h' := match v with Some c => _ | None => _ end).
  assert (G : forall q, hget h' q = if path_dec (mc l id) q then option_map HFile v else hget h q).
  { intros q. unfold h'. destruct v; [apply hget_hput|apply hget_hdel]. }
  pose proof (own_mc l id Hi) as Ho. split.
  - intros q Hq. rewrite G. destruct (path_dec _ _) as [<-|_]; [contradiction|now apply (r_foreign h m H)].
  - intros i Hid. rewrite G. destruct (path_dec _ _) as [E|N]; [now elim (dc_mc l i id)|]. rewrite (r_data h m H i Hid). unfold at_id.
    destruct (bytes_eqb i id) eqn:E; [apply bytes_eqb_eq in E; now subst|reflexivity].
  - intros i Hid. rewrite G. unfold at_id. destruct (path_dec _ _) as [E|N].
    + apply mc_inj in E. subst i. now rewrite bytes_eqb_refl.
    + destruct (bytes_eqb i id) eqn:E; [apply bytes_eqb_eq in E; congruence|now apply (r_meta h m H)].
  - intros q n Hq. rewrite G. destruct (path_dec _ _) as [<-|_]; [|now apply (r_own h m H)]. intros _. left. eauto.
  - intros i Hid Hm q Hq. rewrite G. destruct (path_dec _ _) as [E|N]; [now elim (proj2 (not_file i id q Hq))|]. unfold at_id in Hm.
    destruct (bytes_eqb i id) eqn:E; [|now apply (r_dirs h m H i)]. apply bytes_eqb_eq in E. subst i.
    destruct v; [now apply Hd|]. apply (r_dirs h m H id Hi); [|exact Hq]. intros F. rewrite F in Hm. now apply Hm.
Qed.
Lemma at_same (m : store) id v : m id = v -> forall h, Rep h m -> Rep h (at_id m id v).
Proof.
  intros E h H. assert (G : forall i, at_id m id v i = m i). { intros i. unfold at_id. destruct (bytes_eqb i id) eqn:F; [apply bytes_eqb_eq in F; congruence|reflexivity]. }
  split; intros; try rewrite G in *; try now apply H. eapply (r_dirs h m H); eauto.
Qed.
Lemma at_ext (m m' : store) h : (forall i, m i = m' i) -> Rep h m -> Rep h m'.
Proof.
  intros G H. split; intros; try rewrite <- G in *; try now apply H. eapply (r_dirs h m H); eauto.
Qed.
Lemma at_at (m : store) id v w : forall i, at_id (at_id m id v) id w i = at_id m id w i.
Proof. intros i. unfold at_id. now destruct (bytes_eqb i id). Qed.
Lemma at_eq (m : store) id v : at_id m id v id = v.
Proof. unfold at_id. now rewrite bytes_eqb_refl. Qed.

(** The emptied directory goes. *)
Lemma rmdir_Rep h m id s : Rep h m -> ok_id id -> split_slash s = base_dir l id -> exists h', hcall1 (HRmdir s) h = (h', None) /\ Rep h' m.
Proof.
  intros H Hi Es. cbn [hcall1]. rewrite Es. destruct (hget h (base_dir l id)) as [[|c]|] eqn:E; [|exists h; auto|exists h; auto].
  destruct (occupied h (base_dir l id)) eqn:Eo; [exists h; auto|]. eexists. split; [reflexivity|]. set (b := base_dir l id) in *.
  pose proof (base_in l id) as Hb. fold b in Hb.
  assert (Hempty : forall i, ok_id i -> base_dir l i = b -> m i = (None, None)).
  { intros i Hid Eb. destruct (m i) as [[d|] [e|]] eqn:Em; [| | |reflexivity]; exfalso.
    - pose proof (r_data h m H i Hid) as R. rewrite Em in R. cbn in R. assert (F : occupied h b = true); [|congruence].
      eapply occupied_child; [exact R| |rewrite dc_parent; exact Eb]. intros F. apply (f_equal (@length bytes)) in F. rewrite dc_len in F. destruct l; discriminate.
    - pose proof (r_data h m H i Hid) as R. rewrite Em in R. cbn in R. assert (F : occupied h b = true); [|congruence].
      eapply occupied_child; [exact R| |rewrite dc_parent; exact Eb]. intros F. apply (f_equal (@length bytes)) in F. rewrite dc_len in F. destruct l; discriminate.
    - pose proof (r_meta h m H i Hid) as R. rewrite Em in R. cbn in R. assert (F : occupied h b = true); [|congruence].
      eapply occupied_child; [exact R| |rewrite mc_parent; exact Eb]. intros F. apply (f_equal (@length bytes)) in F. rewrite mc_len in F. destruct l; discriminate. }
  split.
  - intros q Hq. rewrite hget_hdel. destruct (path_dec b q) as [<-|_]; [elim Hq; now apply (own_dir l id)|now apply (r_foreign h m H)].
  - intros i Hid. rewrite hget_hdel. destruct (path_dec b (dc l i)) as [F|_]; [now elim (proj1 (not_file id i b Hb))|now apply (r_data h m H)].
  - intros i Hid. rewrite hget_hdel. destruct (path_dec b (mc l i)) as [F|_]; [now elim (proj2 (not_file id i b Hb))|now apply (r_meta h m H)].
  - intros q n Hq. rewrite hget_hdel. destruct (path_dec b q); [discriminate|now apply (r_own h m H)].
  - intros i Hid Hm q Hq. rewrite hget_hdel. destruct (path_dec b q) as [<-|_]; [|now apply (r_dirs h m H i)]. exfalso. apply Hm. apply Hempty; [exact Hid|].
    pose proof Hq as Hq'. rewrite dirs_eq in Hq'. pose proof (base_len l id) as Lb. fold b in Lb. destruct l.
    + destruct Hq' as [F|[F|[]]]; [rewrite <- F in Lb; discriminate|exact F].
    + destruct Hq' as [F|[]]. exact F.
Qed.

(** ** Operations and crashes *)
Definition outcome (op : ioop) (h : host) (m : store) : Prop :=
  (exists h', io_step l op h = (h', snd (store_step op m)) /\ Rep h' (fst (store_step op m))) /\
  (forall n, exists v, crash_leaves op (m (op_id op)) v /\ Rep (fst (hcalls (firstn n (io_calls l op)) h)) (at_id m (op_id op) v)).

Lemma hcalls_app a b h : hcalls (a ++ b) h = match hcalls a h with (h', None) => hcalls b h' | (h', Some e) => (h', Some e) end.
Proof. revert h. induction a as [|c a IH]; intros h; cbn [app hcalls]; [reflexivity|]. destruct (hcall1 c h) as [h1 [e|]]; [reflexivity|apply IH]. Qed.

(** Making the directories, all of them or some. *)
Lemma ensure_all h m id : Rep h m -> ok_id id -> exists h', hcalls (map HEnsure (dir_paths l id)) h = (h', None) /\ Rep h' m /\ (forall p, In p (dirs l id) -> hget h' p = Some HDir).
Proof.
  intros H Hi. assert (Hin : forall s, In s (dir_paths l id) -> In (split_slash s) (dirs l id)) by (intros s Hs; unfold dirs; now apply in_map).
  unfold dirs. unfold dir_paths in *. destruct l eqn:El; cbn [map hcalls] in *; rewrite <- El in Hin.
  - set (s1 := hexify (firstn FIRST_LEVEL id)) in *. set (s2 := s1 ++ slash :: _) in *.
    assert (E1 : split_slash s1 = [s1]) by (apply split_simple, hex_no_slash).
    assert (E2 : removelast (split_slash s2) = [s1]) by (unfold s2; rewrite split_app, split_simple by apply hex_no_slash; reflexivity).
    destruct (ensure_Rep h m id s1 H Hi (Hin s1 (or_introl eq_refl))) as (h1 & C1 & R1 & G1 & _); [now rewrite E1|]. rewrite C1.
    destruct (ensure_Rep h1 m id s2 R1 Hi (Hin s2 (or_intror (or_introl eq_refl)))) as (h2 & C2 & R2 & G2 & F2); [rewrite E2; rewrite E1 in G1; cbn [is_dir]; now rewrite G1|]. rewrite C2.
    exists h2. split; [reflexivity|]. split; [exact R2|]. cbn [In]. intros p [<-|[<-|[]]]; auto.
  - set (s1 := hexify (firstn 1 id)) in *.
    assert (E1 : split_slash s1 = [s1]) by (apply split_simple, hex_no_slash).
    destruct (ensure_Rep h m id s1 H Hi (Hin s1 (or_introl eq_refl))) as (h1 & C1 & R1 & G1 & _); [now rewrite E1|]. rewrite C1.
    exists h1. split; [reflexivity|]. split; [exact R1|]. cbn [In]. intros p [<-|[]]; auto.
Qed.
Lemma ensure_some n h m id : Rep h m -> ok_id id -> Rep (fst (hcalls (firstn n (map HEnsure (dir_paths l id))) h)) m.
Proof.
  intros H Hi. revert n h H. assert (Hin : forall s, In s (dir_paths l id) -> In (split_slash s) (dirs l id)) by (intros s Hs; unfold dirs; now apply in_map).
  induction (dir_paths l id) as [|s r IH]; intros n h H; [now rewrite firstn_nil|]. destruct n as [|n]; [exact H|]. cbn [map firstn hcalls].
  pose proof (Hin s (or_introl eq_refl)) as Hs. cbn [hcall1]. destruct (hget h (split_slash s)).
  - apply IH; [intros; apply Hin; now right|exact H].
  - destruct (is_dir h _); [|exact H]. apply IH; [intros; apply Hin; now right|]. now apply (mkdir_Rep h m id).
Qed.
Lemma excl_data h m id : Rep h m -> ok_id id -> (forall p, In p (dirs l id) -> hget h p = Some HDir) ->
  match fst (m id) with
  | Some _ => hcall1 (HExcl (data_path l id)) h = (h, Some E_EXIST)
  | None => exists h', hcall1 (HExcl (data_path l id)) h = (h', None) /\ Rep h' (at_id m id (Some [], snd (m id))) /\ (forall p, In p (dirs l id) -> hget h' p = Some HDir)
  end.
Proof.
  intros H Hi Hd. cbn [hcall1]. fold (dc l id). rewrite (r_data h m H id Hi). destruct (fst (m id)) as [d|] eqn:E; [reflexivity|]. cbn [option_map].
  rewrite dc_parent. assert (Hb : is_dir h (base_dir l id) = true). { pose proof (Hd _ (base_in l id)) as G. pose proof (base_len l id) as L. unfold is_dir. destruct (base_dir l id); [destruct l; discriminate|]. now rewrite G. }
  rewrite Hb. eexists. split; [reflexivity|]. split; [exact (data_Rep h m id (Some []) H Hi (fun _ => Hd))|].
  intros p Hp. rewrite hget_hput. destruct (path_dec _ _) as [<-|_]; [now elim (proj1 (not_file id id _ Hp))|now apply Hd].
Qed.
Lemma excl_meta h m id : Rep h m -> ok_id id -> (forall p, In p (dirs l id) -> hget h p = Some HDir) ->
  match snd (m id) with
  | Some _ => hcall1 (HExcl (meta_path l id)) h = (h, Some E_EXIST)
  | None => exists h', hcall1 (HExcl (meta_path l id)) h = (h', None) /\ Rep h' (at_id m id (fst (m id), Some []))
  end.
Proof.
  intros H Hi Hd. cbn [hcall1]. fold (mc l id). rewrite (r_meta h m H id Hi). destruct (snd (m id)) as [d|] eqn:E; [reflexivity|]. cbn [option_map].
  rewrite mc_parent. assert (Hb : is_dir h (base_dir l id) = true). { pose proof (Hd _ (base_in l id)) as G. pose proof (base_len l id) as L. unfold is_dir. destruct (base_dir l id); [destruct l; discriminate|]. now rewrite G. }
  rewrite Hb. eexists. split; [reflexivity|]. exact (meta_Rep h m id (Some []) H Hi (fun _ => Hd)).
Qed.

Lemma create_ok h m id : Rep h m -> ok_id id -> outcome (IoCreate id) h m.
Proof.
  intros H Hi. destruct (ensure_all h m id H Hi) as (h1 & C1 & R1 & G1). unfold outcome. cbn [io_step io_calls store_step op_id]. unfold io_create. split.
  - rewrite hcalls_app, C1. cbn [hcalls]. pose proof (excl_data h1 m id R1 Hi G1) as D. destruct (m id) as [[d|] y] eqn:Em; cbn [fst snd] in D.
    + rewrite D. exists h1. auto.
    + destruct D as (h2 & C2 & R2 & G2). rewrite C2. pose proof (excl_meta h2 _ id R2 Hi G2) as D. rewrite at_eq in D. cbn [fst snd] in D. destruct y as [y|].
      * rewrite D. exists h2. auto.
      * destruct D as (h3 & C3 & R3). rewrite C3. exists h3. split; [reflexivity|]. eapply at_ext; [apply at_at|exact R3].
  - intros n. rewrite firstn_app, hcalls_app. set (k := length (map HEnsure (dir_paths l id))). destruct (Nat.le_gt_cases k n) as [L|L].
    + rewrite (firstn_all2 (n := n) (map HEnsure (dir_paths l id))) by exact L. rewrite C1. destruct (n - k) as [|[|j]].
      * exists (m id). split; [now left|]. now apply at_same.
      * cbn [firstn hcalls]. pose proof (excl_data h1 m id R1 Hi G1) as D. destruct (fst (m id)) as [d|] eqn:Em.
        -- rewrite D. exists (m id). split; [now left|]. now apply at_same.
        -- destruct D as (h2 & C2 & R2 & G2). rewrite C2. exists (Some [], snd (m id)). cbn [crash_leaves op_id]. split; [right; auto|exact R2].
      * cbn [firstn hcalls]. pose proof (excl_data h1 m id R1 Hi G1) as D. destruct (fst (m id)) as [d|] eqn:Em.
        -- rewrite D. exists (m id). split; [now left|]. now apply at_same.
        -- destruct D as (h2 & C2 & R2 & G2). rewrite C2. pose proof (excl_meta h2 _ id R2 Hi G2) as D. rewrite at_eq in D. cbn [fst snd] in D. destruct (snd (m id)) as [y|] eqn:Ey.
           ++ rewrite D. exists (Some [], Some y). cbn [crash_leaves op_id]. split; [right; rewrite Ey; auto|exact R2].
           ++ destruct D as (h3 & C3 & R3). rewrite C3. rewrite firstn_nil. exists (Some [], Some []). cbn [crash_leaves op_id]. split; [right; auto|]. eapply at_ext; [apply at_at|exact R3].
    + replace (n - k) with 0 by lia. cbn [firstn]. pose proof (ensure_some n h m id H Hi) as S. destruct (hcalls (firstn n _) h) as [h2 [e|]]; cbn [fst hcalls] in *; exists (m id); (split; [now left|]); now apply at_same.
Qed.

Lemma open_calls h m id : Rep h m -> ok_id id -> forall n, fst (hcalls (firstn n (io_open l id)) h) = h.
Proof.
  intros H Hi [|[|n]]; [reflexivity| |]; unfold io_open; cbn [firstn hcalls hcall1]; fold (dc l id); fold (mc l id); rewrite (r_data h m H id Hi).
  - now destruct (fst (m id)).
  - destruct (fst (m id)); cbn [option_map]; [|reflexivity]. rewrite (r_meta h m H id Hi). destruct (snd (m id)); cbn [option_map]; [|reflexivity]. now rewrite firstn_nil.
Qed.
Lemma open_answer h m id : Rep h m -> ok_id id -> hcalls (io_open l id) h = (h, match m id with (Some _, Some _) => None | _ => Some E_NOENT end).
Proof.
  intros H Hi. unfold io_open. cbn [hcalls hcall1]. fold (dc l id). fold (mc l id). rewrite (r_data h m H id Hi). destruct (m id) as [[d|] [e|]] eqn:E; cbn [fst option_map]; try reflexivity;
  rewrite (r_meta h m H id Hi), E; reflexivity.
Qed.
Lemma put_ok h m id d e : Rep h m -> ok_id id -> outcome (IoPut id d e) h m.
Proof.
  intros H Hi. split.
  - cbn [io_step store_step]. rewrite (open_answer h m id H Hi). fold (dc l id). fold (mc l id). destruct (m id) as [[d0|] [e0|]] eqn:E; cbn [fst snd]; try (exists h; split; [reflexivity|exact H]).
    eexists. split; [reflexivity|].
    assert (Hd : forall p, In p (dirs l id) -> hget h p = Some HDir) by (apply (r_dirs h m H id Hi); rewrite E; discriminate).
    pose proof (data_Rep h m id (Some d) H Hi (fun _ => Hd)) as R1. cbn beta match in R1.
    assert (R2 := meta_Rep _ _ id (Some e) R1 Hi). cbn beta match in R2. rewrite at_eq in R2. cbn [fst] in R2. eapply at_ext; [apply at_at|apply R2].
    intros _ p Hp. rewrite hget_hput. destruct (path_dec _ _) as [F|_]; [subst; now elim (proj1 (not_file id id _ Hp))|now apply Hd].
  - intros n. exists (m id). split; [reflexivity|]. cbn [io_calls op_id]. rewrite (open_calls h m id H Hi). now apply at_same.
Qed.
Lemma get_ok h m id : Rep h m -> ok_id id -> outcome (IoGet id) h m.
Proof.
  intros H Hi. split.
  - cbn [io_step store_step]. rewrite (open_answer h m id H Hi). unfold hread. fold (dc l id). fold (mc l id). rewrite (r_data h m H id Hi), (r_meta h m H id Hi).
    destruct (m id) as [[d0|] [e0|]] eqn:E; cbn [fst snd option_map]; exists h; auto.
  - intros n. exists (m id). split; [reflexivity|]. cbn [io_calls op_id]. rewrite (open_calls h m id H Hi). now apply at_same.
Qed.

Lemma unlink_data h m id : Rep h m -> ok_id id -> exists h', hcall1 (HUnlink (data_path l id)) h = (h', None) /\ Rep h' (at_id m id (None, snd (m id))).
Proof.
  intros H Hi. cbn [hcall1]. fold (dc l id). rewrite (r_data h m H id Hi). destruct (fst (m id)) as [d|] eqn:E; cbn [option_map].
  - eexists. split; [reflexivity|]. apply (data_Rep h m id None H Hi). intros F. now elim F.
  - exists h. split; [reflexivity|]. apply at_same; [|exact H]. rewrite <- E. apply surjective_pairing.
Qed.
Lemma unlink_meta h m id : Rep h m -> ok_id id -> exists h', hcall1 (HUnlink (meta_path l id)) h = (h', None) /\ Rep h' (at_id m id (fst (m id), None)).
Proof.
  intros H Hi. cbn [hcall1]. fold (mc l id). rewrite (r_meta h m H id Hi). destruct (snd (m id)) as [d|] eqn:E; cbn [option_map].
  - eexists. split; [reflexivity|]. apply (meta_Rep h m id None H Hi). intros F. now elim F.
  - exists h. split; [reflexivity|]. apply at_same; [|exact H]. rewrite <- E. apply surjective_pairing.
Qed.
Lemma rmdirs n h m id : Rep h m -> ok_id id ->
  Rep (fst (hcalls (firstn n (if l then [HRmdir (last (dir_paths l id) []); HRmdir (last (dir_paths l id) [])] else [HRmdir (last (dir_paths l id) [])])) h)) m.
Proof.
  intros H Hi. set (c := HRmdir _).
  assert (G : forall h, Rep h m -> exists h', hcall1 c h = (h', None) /\ Rep h' m) by (intros h1 R; apply (rmdir_Rep h1 m id); [exact R|exact Hi|apply last_dir]).
  assert (G2 : forall j h, Rep h m -> Rep (fst (hcalls (firstn j (repeat c 2)) h)) m).
  { intros [|[|j]] h1 R; cbn [firstn repeat hcalls]; [exact R| |].
    - destruct (G h1 R) as (h2 & -> & R2). exact R2.
    - destruct (G h1 R) as (h2 & -> & R2). destruct (G h2 R2) as (h3 & -> & R3). rewrite firstn_nil. exact R3. }
  destruct l; [apply (G2 n h H)|]. destruct n as [|n]; [exact H|]. cbn [firstn]. rewrite firstn_nil. apply (G2 1 h H).
Qed.
Lemma unlink_ok h m id : Rep h m -> ok_id id -> outcome (IoUnlink id) h m.
Proof.
  intros H Hi. destruct (unlink_data h m id H Hi) as (h1 & C1 & R1). destruct (unlink_meta h1 _ id R1 Hi) as (h2 & C2 & R2). rewrite at_eq in R2. cbn [fst] in R2.
  assert (R2' : Rep h2 (at_id m id (None, None))) by (eapply at_ext; [apply at_at|exact R2]).
  assert (G : forall n, Rep (fst (hcalls (firstn (S (S n)) (io_unlink l id)) h)) (at_id m id (None, None))).
  { intros n. unfold io_unlink. cbn [app firstn hcalls]. rewrite C1, C2. now apply rmdirs. }
  split.
  - cbn [io_step store_step fst snd]. eexists. split; [reflexivity|]. specialize (G (length (io_unlink l id))). rewrite firstn_all2 in G by lia. exact G.
  - intros [|[|n]]; cbn [io_calls op_id].
    + exists (m id). split; [now left|]. now apply at_same.
    + exists (None, snd (m id)). split; [right; now left|]. unfold io_unlink. cbn [app firstn hcalls]. rewrite C1. exact R1.
    + exists (None, None). split; [right; now right|]. apply G.
Qed.
Lemma op_ok op h m : Rep h m -> ok_id (op_id op) -> outcome op h m.
Proof. intros H Hi. destruct op; [now apply create_ok|now apply put_ok|now apply get_ok|now apply unlink_ok]. Qed.

Theorem run_ok evs : Forall (fun e => ok_id (op_id (fst e))) evs -> forall h m, Rep h m ->
  exists m', history m evs (snd (host_run l evs h)) m' /\ Rep (fst (host_run l evs h)) m'.
Proof.
  induction 1 as [|[op [n|]] evs Hx Hf IH]; intros h m H; cbn [host_run fst] in *.
  - exists m. split; [constructor|exact H].
  - destruct (proj2 (op_ok op h m H Hx) n) as (v & Hv & R). destruct (IH _ _ R) as (m' & L & R'). exists m'. split; [|exact R']. eapply H_crash; eauto.
  - destruct (proj1 (op_ok op h m H Hx)) as (h1 & E & R). rewrite E. destruct (IH _ _ R) as (m' & L & R'). destruct (host_run l evs h1) as [h2 ans]. cbn [fst snd] in *.
    exists m'. split; [|exact R']. now apply H_op.
Qed.
Lemma clean_Rep : clean h0 -> Rep h0 (fun _ => (None, None)).
Proof.
  intros H. split.
  - reflexivity.
  - intros id Hi. now rewrite (H _ (own_dc l id Hi)).
  - intros id Hi. now rewrite (H _ (own_mc l id Hi)).
  - intros p n Hp. rewrite (H p Hp). discriminate.
  - intros id _ F. now elim F.
Qed.
End S.

Lemma components_ok l i c : ok_id i -> In c (split_slash (data_path l i)) \/ In c (split_slash (meta_path l i)) -> c <> [] /\ c <> str "." /\ c <> str "..".
Proof.
  intros Hi Hc. change (split_slash (data_path l i)) with (dc l i) in Hc. change (split_slash (meta_path l i)) with (mc l i) in Hc. rewrite dc_eq, mc_eq in Hc.
  assert (G : exists x r, c = hexify x ++ r /\ x <> []).
  { assert (L : forall x : bytes, length x > 0 -> x <> []) by (intros [|b x]; [cbn; lia|discriminate]).
    assert (B : forall q, In q (base_dir l i) -> exists x r, q = hexify x ++ r /\ x <> []).
    { intros q Hq. unfold base_dir in Hq. destruct l; cbn [In] in Hq; repeat (destruct Hq as [<-|Hq]; [eexists; exists []; rewrite app_nil_r; split; [reflexivity|apply L; rewrite firstn_length, ?skipn_length; unfold ok_id in Hi; lia]|]); easy. }
    assert (Lf : skipn (if l then 6 else 1) i <> []) by (apply L; rewrite skipn_length; unfold ok_id in Hi; destruct l; lia).
    unfold leaf in Hc. destruct Hc as [H|H]; apply in_app_or in H; destruct H as [H|[<-|[]]]; auto; [exists (skipn (if l then 6 else 1) i), []; now rewrite app_nil_r|eauto]. }
  destruct G as (x & r & -> & N). destruct x as [|b x]; [easy|].
  assert (D : forall y s, hexify [b] ++ y = s -> exists z w, s = z :: w /\ is_hex_digit z).
  { intros y s E. pose proof (hexify_digits [b]) as F. cbn [hexify flat_map app] in *. inversion F as [|z w Fz Fw]; subst. eauto. }
  assert (Eh : hexify (b :: x) ++ r = hexify [b] ++ (hexify x ++ r)) by reflexivity. rewrite Eh.
  repeat split; intros E; destruct (D _ _ E) as (z & w & E2 & F); vm_compute in E2; try discriminate; injection E2 as <- _; vm_compute in F; intuition discriminate.
Qed.
