(** What a step does to the bytes on the host: nothing, unless it marks the file, flushes
    it, or the file is a new one. *)
From Coq Require Import Strings.String Lia.
From Verif Require Import Base BaseLemmas TextModel NameModel StreamSpec BlockModel LiteModel FullStreamModel AdaptorModel AttrModel BtreeModel GBtreeModel FullFsModel ObjModel RepoModel.
Local Open Scope list_scope.

(** The place of the tag in the metadata file, zeros where the file is too short. *)
Definition tag_of (m : bytes) : bytes := arr_resize m hmac_len.

(** The bytes are the same, or the object knows that the tag is out of date; the tag is
    the same. *)
Definition drift (s s' : full_st) : Prop :=
  (f_dirty s' = true \/ f_data s' = f_data s /\ f_meta s' = f_meta s /\ f_dirty s' = f_dirty s) /\ tag_of (f_meta s') = tag_of (f_meta s).
Lemma drift_refl s : drift s s. Proof. split; auto. Qed.
Lemma drift_trans a b c : drift a b -> drift b c -> drift a c.
Proof.
  intros [[H1|(H1 & H2 & H3)] T1] [[G1|(G1 & G2 & G3)] T2]; (split; [|congruence]); auto.
  - left. congruence.
  - right. repeat split; congruence.
Qed.

Lemma tag_write m off d : tag_of (hmac_write m off d) = tag_of m.
Proof.
  unfold tag_of, hmac_write. apply bytes_ext; [now rewrite !arr_resize_length|]. rewrite arr_resize_length. intros i Hi.
  rewrite !get_arr_resize, get_arr_write. destruct (Nat.leb_spec (off + hmac_len) i); [lia|]. reflexivity.
Qed.
Lemma tag_resize m n : tag_of (hmac_resize m n) = tag_of m.
Proof.
  unfold tag_of, hmac_resize. apply bytes_ext; [now rewrite !arr_resize_length|]. rewrite arr_resize_length. intros i Hi.
  rewrite !get_arr_resize. destruct (Nat.ltb_spec i (n + hmac_len)); [reflexivity|]. lia.
Qed.

Section Stream.
Variable A : aead.
Variables (dkey id : bytes) (bs iv hs : nat) (check sparse : bool) (rnd : nat -> nat -> bytes) (fuel : nat).
Notation B := (full_backend A dkey id bs iv hs check sparse rnd fuel).

Lemma write_drift a e r d s : drift s (fst (bk_write B a e r d s)).
Proof.
  cbn [bk_write full_backend]. unfold full_write_multi. destruct (over_max _ _); [apply drift_refl|].
  destruct (full_write_loop _ _ _ _ _ _ _ _ _ _) as [[[x m] k]|]; cbn [fst]; [|apply drift_refl]. split; [left; reflexivity|apply tag_write].
Qed.
Lemma adjust_drift n s : drift s (fst (bk_adjust B n s)).
Proof. cbn [bk_adjust full_backend]. unfold full_adjust. cbn [fst]. split; [left; reflexivity|apply tag_resize]. Qed.
Lemma then_drift s x k : drift s (fst x) -> (forall s', drift s' (fst (k s'))) -> drift s (fst (then_ B x k)).
Proof. intros H Hk. unfold then_. destruct x as [s1 [u|e]]; cbn [fst] in *; [|exact H]. eapply drift_trans; [exact H|apply Hk]. Qed.
Lemma uwrite_drift w off s : drift s (fst (bb_unchecked_write B w off s)).
Proof.
  unfold bb_unchecked_write. destruct (_ <=? _); [apply drift_refl|]. destruct (_ && _).
  - destruct w; apply write_drift.
  - destruct (if (0 <? off mod bk_bs B) && _ then _ else _); [|apply drift_refl].
    destruct (if 0 <? (off + _) mod _ then _ else _) as [[b2 eff]|]; [|apply drift_refl]. apply write_drift.
Qed.
Lemma uresize_drift c n s : drift s (fst (bb_unchecked_resize B c n s)).
Proof.
  unfold bb_unchecked_resize, bb_zero_fill. destruct (_ =? _); [apply drift_refl|]. destruct (n <? c).
  - apply then_drift; [|intros; apply adjust_drift]. destruct (0 <? _); [|apply drift_refl]. destruct (rmap _ _); [apply write_drift|apply drift_refl].
  - apply then_drift; [|intros; apply adjust_drift]. destruct (_ || _); apply uwrite_drift.
Qed.
Lemma bb_drift o s : drift s (fst (bb_step B s o)).
Proof.
  destruct o as [off len|off d|n|]; cbn [bb_step].
  - apply drift_refl.
  - unfold bb_write. destruct (length d <=? 0); [apply drift_refl|].
    match goal with |- context [then_ B ?x ?k] => pose proof (then_drift s x k) as H; destruct (then_ B x k) as [s' r] end. cbn [fst] in *. apply H.
    + destruct (_ <? _); [apply uresize_drift|apply drift_refl].
    + intros s1. apply uwrite_drift.
  - unfold bb_resize. pose proof (uresize_drift (bk_size B s) n s) as H. destruct (bb_unchecked_resize _ _ _ _); exact H.
  - apply drift_refl.
Qed.
End Stream.

(** ** Directories, over any stream all of whose calls drift *)
Section Dir.
Variable E : senv.
Variable id : bytes.
Notation D := (o_strm E id).

Lemma strm_drift o s : drift s (fst (sm_step D s o)).
Proof.
  unfold o_strm, padded. cbn [sm_step]. destruct o as [off len|off d|n|]; cbn [padded_step o_base sm_step]; try apply bb_drift.
  match goal with |- context [bb_step ?b s SSize] => pose proof (bb_drift (v_aead E) (v_dkey E id) id (v_bs E) (v_iv E) (attr_header_size (v_store E)) (v_check E) (v_sparse E) (v_rnd E) (v_fuel E) SSize s) as H; destruct (bb_step b s SSize) end.
  exact H.
Qed.

Definition gsafe {X} (m : GM D X) : Prop := forall g, drift (g_stream D g) (g_stream D (fst (m g))).
Lemma gs_bind {X Y} (m : GM D X) (f : X -> GM D Y) : gsafe m -> (forall x, gsafe (f x)) -> gsafe (g_bind D m f).
Proof.
  intros Hm Hf g. unfold g_bind. specialize (Hm g). destruct (m g) as [g' [x|e]]; cbn [fst] in *; [|exact Hm]. eapply drift_trans; [exact Hm|apply Hf].
Qed.
Lemma gs_same {X} (m : GM D X) : (forall g, g_stream D (fst (m g)) = g_stream D g) -> gsafe m.
Proof. intros H g. rewrite H. apply drift_refl. Qed.
Lemma gs_ret {X} (x : X) : gsafe (g_ret D x). Proof. now apply gs_same. Qed.
Lemma gs_throw {X} e : gsafe (@g_throw D X e). Proof. now apply gs_same. Qed.
Lemma gs_lift {X} (r : res X) : gsafe (g_lift D r). Proof. now apply gs_same. Qed.
Lemma gs_gets {X} (f : gbt D -> X) : gsafe (g_gets D f). Proof. now apply gs_same. Qed.
Lemma gs_call {X} o (a : sout -> res X) : gsafe (g_call D o a).
Proof. intros g. unfold g_call. pose proof (strm_drift o (g_stream D g)) as H. destruct (sm_step D (g_stream D g) o). exact H. Qed.
Lemma gs_get_node p : gsafe (g_get_node D p).
Proof. apply gs_same. intros g. unfold g_get_node. destruct (lookup _ _); reflexivity. Qed.
Lemma gs_put_node p n : gsafe (g_put_node D p n). Proof. now apply gs_same. Qed.
Create HintDb gsd.
Hint Resolve gs_ret gs_throw gs_lift gs_gets gs_call gs_get_node gs_put_node : gsd.
Ltac gs :=
  repeat first
    [ solve [eauto with gsd]
    | apply gs_bind; [|intros ?]
    | match goal with
      | |- gsafe (g_modify _ _) => apply gs_same; intros ?; reflexivity
      | |- gsafe (if ?b then _ else _) => destruct b
      | |- gsafe (match ?x with _ => _ end) => destruct x
      end ].
Lemma gs_check b : gsafe (g_dir_check D b). Proof. unfold g_dir_check. gs. Qed.
Lemma gs_size : gsafe (g_size D). Proof. unfold g_size. gs. Qed.
Lemma gs_resize n : gsafe (g_resize D n). Proof. unfold g_resize. gs. Qed.
Lemma gs_read o l : gsafe (g_read D o l). Proof. unfold g_read. gs. Qed.
Lemma gs_write o l : gsafe (g_write D o l). Proof. unfold g_write. gs. Qed.
Hint Resolve gs_check gs_size gs_resize gs_read gs_write : gsd.
Lemma gs_read_page n : gsafe (g_read_page D n). Proof. unfold g_read_page. gs. Qed.
Lemma gs_write_page n d : gsafe (g_write_page D n d). Proof. unfold g_write_page. gs. Qed.
Hint Resolve gs_read_page gs_write_page : gsd.
Lemma gs_rfp n : gsafe (g_read_free_page D n). Proof. unfold g_read_free_page. gs. Qed.
Lemma gs_wfp n a b : gsafe (g_write_free_page D n a b). Proof. unfold g_write_free_page. gs. Qed.
Hint Resolve gs_rfp gs_wfp : gsd.
Lemma gs_alloc : gsafe (g_allocate_page D). Proof. unfold g_allocate_page. gs. Qed.
Lemma gs_dealloc n : gsafe (g_deallocate_page D n). Proof. unfold g_deallocate_page. gs. Qed.
Lemma gs_set_entries p x : gsafe (g_set_entries D p x). Proof. unfold g_set_entries. gs. Qed.
Lemma gs_set_children p x : gsafe (g_set_children D p x). Proof. unfold g_set_children. gs. Qed.
Lemma gs_set_parent p x : gsafe (g_set_parent D p x). Proof. unfold g_set_parent. gs. Qed.
Lemma gs_read_node p : gsafe (g_read_node D p). Proof. unfold g_read_node. gs. Qed.
Hint Resolve gs_alloc gs_dealloc gs_set_entries gs_set_children gs_set_parent gs_read_node : gsd.
Lemma gs_retrieve p n : gsafe (g_retrieve_node D p n). Proof. unfold g_retrieve_node. gs. Qed.
Lemma gs_existing n : gsafe (g_retrieve_existing_node D n). Proof. unfold g_retrieve_existing_node. gs. Qed.
Hint Resolve gs_retrieve gs_existing : gsd.
Lemma gs_root : gsafe (g_get_root_node D). Proof. unfold g_get_root_node. gs. Qed.
Lemma gs_del n : gsafe (g_del_node D n). Proof. unfold g_del_node. gs. Qed.
Lemma gs_adjust cs p : gsafe (g_adjust_children D cs p). Proof. induction cs as [|c cs IH]; cbn [g_adjust_children]; gs. Qed.
Hint Resolve gs_root gs_del gs_adjust : gsd.
Variable cmp : bytes -> bytes -> comparison.
Variable junk : N -> bytes.
Lemma gs_find_loop f : forall n name, gsafe (g_find_loop D cmp f n name).
Proof. induction f as [|f IH]; intros n name; cbn [g_find_loop]; gs. Qed.
Hint Resolve gs_find_loop : gsd.
Lemma gs_find name : gsafe (g_find_node D cmp name). Proof. unfold g_find_node. gs. Qed.
Hint Resolve gs_find : gsd.
Lemma gs_get name : gsafe (g_get_entry D cmp name). Proof. unfold g_get_entry. gs. Qed.
Lemma gs_insert_here n e a : gsafe (g_insert_here D cmp n e a). Proof. unfold g_insert_here. gs. Qed.
Hint Resolve gs_get gs_insert_here : gsd.
Lemma gs_balance f : forall n e a, gsafe (g_insert_and_balance D cmp f n e a).
Proof. induction f as [|f IH]; intros n e a; cbn [g_insert_and_balance]; gs. Qed.
Hint Resolve gs_balance : gsd.
Lemma gs_add name x ty : gsafe (g_add_entry D cmp name x ty). Proof. unfold g_add_entry. gs. Qed.
Hint Resolve gs_add : gsd.
Lemma gs_rightmost f : forall n, gsafe (g_rightmost_leaf D f n).
Proof. induction f as [|f IH]; intros n; cbn [g_rightmost_leaf]; gs. Qed.
Hint Resolve gs_rightmost : gsd.
Lemma gs_replace n i : gsafe (g_replace_with_sub_entry D n i). Proof. unfold g_replace_with_sub_entry. gs. Qed.
Lemma gs_sibling p n : gsafe (g_find_sibling D p n). Proof. unfold g_find_sibling. gs. Qed.
Lemma gs_rotate l r p i : gsafe (g_rotate D l r p i). Proof. unfold g_rotate. gs. Qed.
Lemma gs_merge l r p i : gsafe (g_merge D l r p i). Proof. unfold g_merge. gs. Qed.
Hint Resolve gs_replace gs_sibling gs_rotate gs_merge : gsd.
Lemma gs_up f : forall n, gsafe (g_balance_up D cmp f n).
Proof. induction f as [|f IH]; intros n; cbn [g_balance_up]; gs. Qed.
Hint Resolve gs_up : gsd.
Lemma gs_remove name : gsafe (g_remove_entry D cmp name). Proof. unfold g_remove_entry. gs. Qed.
Lemma gs_iterate f : forall n, gsafe (g_recursive_iterate D f n).
Proof.
  induction f as [|f IH]; intros n; cbn [g_recursive_iterate]; [gs|]. apply gs_bind; [gs|]. intros nd. apply gs_bind; [|intros; gs].
  generalize (n_children nd). intros cs. induction cs as [|c cs IHc]; gs.
Qed.
Lemma gs_miterate f : forall n, gsafe (g_mutable_iterate D f n).
Proof.
  induction f as [|f IH]; intros n; cbn [g_mutable_iterate]; [gs|]. apply gs_bind; [gs|]. intros nd. apply gs_bind; [gs|intros _]. apply gs_bind; [|intros; gs].
  generalize (n_children nd). intros cs. induction cs as [|c cs IHc]; gs.
Qed.
Hint Resolve gs_remove gs_iterate gs_miterate : gsd.
Lemma gs_list : gsafe (g_list_entries D). Proof. unfold g_list_entries. gs. Qed.
Lemma gs_add_all es : gsafe (g_add_all D cmp es). Proof. induction es as [|e es IH]; cbn [g_add_all]; gs. Qed.
Hint Resolve gs_list gs_add_all : gsd.
Lemma gs_rebuild : gsafe (g_rebuild D cmp). Proof. unfold g_rebuild. gs. Qed.
Lemma gs_write_node n nd : gsafe (g_write_node D junk n nd). Proof. unfold g_write_node. gs. Qed.
Hint Resolve gs_rebuild gs_write_node : gsd.
Lemma gs_flush_loop c : gsafe (g_flush_loop D junk c).
Proof. induction c as [|[p nd] c IH]; cbn [g_flush_loop]; gs. Qed.
Hint Resolve gs_flush_loop : gsd.
Lemma gs_flush : gsafe (g_flush_cache D junk). Proof. unfold g_flush_cache. gs. Qed.
Hint Resolve gs_flush : gsd.
Lemma gs_subflush : gsafe (g_subflush D cmp junk). Proof. unfold g_subflush. gs. Qed.
Lemma gs_empty : gsafe (g_is_empty D). Proof. unfold g_is_empty. gs. Qed.
End Dir.

(** ** Objects *)
Section Obj.
Variable E : senv.
Definition fdrift (f f' : fob) : Prop := drift (fo_s f) (fo_s f').
Lemma fd_refl f : fdrift f f. Proof. apply drift_refl. Qed.
Lemma fd_trans a b c : fdrift a b -> fdrift b c -> fdrift a c. Proof. apply drift_trans. Qed.
Lemma fd_call id o f : fdrift f (fst (fo_call E id o f)).
Proof. unfold fo_call, fdrift. pose proof (strm_drift E id o (fo_s f)) as H. destruct (sm_step _ _ _). exact H. Qed.
Lemma fd_dir {X} id (m : GM (o_strm E id) X) f : gsafe E id m -> fdrift f (fst (fo_dir E id m f)).
Proof. intros H. unfold fo_dir, fdrift. specialize (H (to_g E id f)). destruct (m (to_g E id f)) as [g r]. exact H. Qed.
Lemma fd_size id f : fdrift f (fst (fo_size E id f)).
Proof. unfold fo_size. pose proof (fd_call id SSize f) as H. destruct (fo_call _ _ _ _). exact H. Qed.
Lemma fd_read id now a n f : fdrift f (fst (fo_read E id now a n f)).
Proof. unfold fo_read. pose proof (fd_call id (SRead a n) (fo_atime E now f)) as H. destruct (fo_call _ _ _ _). exact H. Qed.
Lemma fd_write id now a d f : fdrift f (fst (fo_write E id now a d f)).
Proof. unfold fo_write. pose proof (fd_call id (SWrite a d) (fo_mtime E now f)) as H. destruct (fo_call _ _ _ _). exact H. Qed.
Lemma fd_truncate id now n f : fdrift f (fst (fo_truncate E id now n f)).
Proof. unfold fo_truncate. pose proof (fd_call id (SResize n) (fo_mtime E now f)) as H. destruct (fo_call _ _ _ _). exact H. Qed.
Lemma fd_link_set id now d f : fdrift f (fst (fo_link_set E id now d f)).
Proof. unfold fo_link_set. pose proof (fd_call id (SWrite 0 d) (fo_mtime E now f)) as H. destruct (fo_call _ _ _ _). exact H. Qed.
Lemma fd_link_get id now f : fdrift f (fst (fo_link_get E id now f)).
Proof.
  unfold fo_link_get. pose proof (fd_size id f) as H. destruct (fo_size E id f) as [f1 [n|e]]; cbn [fst] in *; [|exact H].
  pose proof (fd_call id (SRead 0 n) f1) as H1. destruct (fo_call E id (SRead 0 n) f1) as [f2 r]. cbn [fst] in H1.
  destruct r; cbn [fst]; (eapply fd_trans; [exact H|exact H1]).
Qed.
Lemma fd_get id now name f : fdrift f (fst (fo_get E id now name f)).
Proof. unfold fo_get. exact (fd_dir id _ (fo_atime E now f) (gs_get E id _ name)). Qed.
Lemma fd_add id now name x ty f : fdrift f (fst (fo_add E id now name x ty f)).
Proof. unfold fo_add. exact (fd_dir id _ (fo_mtime E now f) (gs_add E id _ name x ty)). Qed.
Lemma fd_remove id now name f : fdrift f (fst (fo_remove E id now name f)).
Proof. unfold fo_remove. exact (fd_dir id _ (fo_mtime E now f) (gs_remove E id _ name)). Qed.
Lemma fd_list id now f : fdrift f (fst (fo_list E id now f)).
Proof. unfold fo_list. exact (fd_dir id _ (fo_atime E now f) (gs_list E id)). Qed.
Lemma fd_set_mode now v f : fdrift f (fo_set_mode E now v f).
Proof. unfold fo_set_mode. destruct (_ =? _)%N; apply drift_refl. Qed.
Lemma fd_chattr now c f : fdrift f (fo_chattr E now c f).
Proof.
  destruct c as [p|u g|ts u]; cbn [fo_chattr]; [apply fd_set_mode| |].
  - cbv zeta. apply fd_trans with (if (u =? u32_max)%N then f else fo_set_uid E now u f).
    + destruct (u =? u32_max)%N; [apply fd_refl|]. unfold fo_set_uid. destruct (_ =? _)%N; apply drift_refl.
    + destruct (g =? u32_max)%N; [apply fd_refl|]. generalize (if (u =? u32_max)%N then f else fo_set_uid E now u f). intros f1.
      unfold fo_set_gid. destruct (_ =? _)%N; apply drift_refl.
  - unfold fo_utimens. destruct (v_store E); [|apply fd_refl]. destruct (match ts with Some p => p | None => (u, u) end). apply drift_refl.
Qed.
Lemma fd_set_nlink now v f : fdrift f (fo_set_nlink E now v f).
Proof. unfold fo_set_nlink. destruct (_ =? _)%N; apply drift_refl. Qed.
Lemma fd_open id d m k f : fo_open E id d m k = Ok f -> drift (mkFull d m false 0) (fo_s f).
Proof.
  unfold fo_open, full_open. destruct (hmac_open _ _ _ _ _); cbn [rmap rbind]; [|discriminate].
  destruct (load_attrs _ _ _ _ _ _) as [[at0 dt]|]; cbn [rbind f_data f_meta f_dirty]; [|discriminate].
  unfold padded_open. set (s0 := mkFull d m false (S k)).
  pose proof (fun o s => bb_drift (v_aead E) (v_dkey E id) id (v_bs E) (v_iv E) (attr_header_size (v_store E)) (v_check E) (v_sparse E) (v_rnd E) (v_fuel E) o s) as HB.
  change (sm_step (o_base E id) s0 SSize) with (s0, OSize (full_size s0)). cbv beta iota.
  assert (H1 : drift (mkFull d m false 0) s0) by (split; auto).
  destruct (full_size s0 <? v_pad E id); [|intros [= <-]; exact H1].
  specialize (HB (SWrite 0 (firstn (v_pad E id) (v_rnd E k (v_pad E id)))) s0). unfold o_base. cbn [sm_step].
  destruct (bb_step (full_backend _ _ _ _ _ _ _ _ _ _) s0 _) as [s2 r]. cbn [fst] in HB.
  destruct r; try discriminate. intros [= <-]. exact (drift_trans _ _ _ H1 HB).
Qed.

(** ** Steps *)
Definition soft (rp rp' : repo) : Prop := forall id, rget id (rp_files rp') = rget id (rp_files rp) \/
  exists f f' n p p', rget id (rp_files rp) = Some (RLoaded f (S n) p) /\ rget id (rp_files rp') = Some (RLoaded f' (S n) p') /\ fdrift f f'.
Definition came_from (id : bytes) (x : option rfile) (f' : fob) : Prop :=
  match x with
  | None => drift (mkFull [] [] false 0) (fo_s f')
  | Some (RStored d m) => drift (mkFull d m false 0) (fo_s f')
  | Some (RLoaded f _ _) => fdrift f f' \/ f' = fst (fo_flush E id f)
  end.
Definition at_zero (id : bytes) (x : option rfile) (f' : fob) : Prop :=
  (exists p, x = Some (RLoaded f' 0 p)) \/ exists f n p, x = Some (RLoaded f n p) /\ f' = fst (fo_flush E id f).
Definition settles (rp rp' : repo) : Prop := forall id f' ref' p', rget id (rp_files rp') = Some (RLoaded f' ref' p') ->
  came_from id (rget id (rp_files rp)) f' /\ (ref' = 0 -> at_zero id (rget id (rp_files rp)) f').

Lemma soft_refl rp : soft rp rp. Proof. intros id. now left. Qed.
Lemma soft_trans a b c : soft a b -> soft b c -> soft a c.
Proof.
  intros H G id. destruct (H id) as [H1|(f & f' & n & p & p' & H1 & H2 & H3)], (G id) as [G1|(g & g' & k & q & q' & G1 & G2 & G3)].
  - left. congruence.
  - right. rewrite H1 in G1. exists g, g', k, q, q'. auto.
  - right. rewrite <- G1 in H2. exists f, f', n, p, p'. auto.
  - right. rewrite H2 in G1. injection G1 as <- <- <-. exists f, g', n, p, q'. split; [exact H1|]. split; [exact G2|]. exact (fd_trans _ _ _ H3 G3).
Qed.
Lemma soft_settles rp rp' : soft rp rp' -> settles rp rp'.
Proof.
  intros H id f' ref' p' Hg. destruct (H id) as [H1|(f & f1 & n & p & p1 & H1 & H2 & H3)].
  - rewrite Hg in H1. rewrite <- H1. cbn [came_from]. split; [left; apply fd_refl|]. intros ->. left. eauto.
  - rewrite Hg in H2. injection H2 as -> -> ->. rewrite H1. cbn [came_from]. split; [now left|discriminate].
Qed.
Lemma settles_refl rp : settles rp rp. Proof. apply soft_settles, soft_refl. Qed.

Lemma rget_put id id' x l : rget id' (rput id x l) = if bytes_eqb id id' then Some x else rget id' l.
Proof.
  induction l as [|[i y] l IH]; cbn; [reflexivity|]. destruct (bytes_eqb i id) eqn:E1; cbn.
  - apply bytes_eqb_eq in E1. subst i. now destruct (bytes_eqb id id').
  - rewrite IH. destruct (bytes_eqb i id') eqn:E2; [|reflexivity]. apply bytes_eqb_eq in E2. subst i.
    destruct (bytes_eqb id id') eqn:E3; [|reflexivity]. apply bytes_eqb_eq in E3. subst id'. rewrite bytes_eqb_refl in E1. discriminate E1.
Qed.

Lemma with_obj_soft {X} id (g : timespec -> fob -> fob * res X) rp : (forall now o, fdrift o (fst (g now o))) -> soft rp (fst (with_obj E id g rp)).
Proof.
  intros H. unfold with_obj. destruct (rget id (rp_files rp)) as [[d m|f [|n] p]|] eqn:Eg; try apply soft_refl.
  specialize (H (v_clock E (rp_time rp)) f). destruct (g _ f) as [f' r]. cbn [fst] in *. intros y. unfold r_set. cbn [rp_files]. rewrite rget_put.
  destruct (bytes_eqb id y) eqn:E1; [|now left]. apply bytes_eqb_eq in E1. subst y. right. exists f, f', n, p, p. auto.
Qed.
Lemma as_class_drift {X} want cls (g : timespec -> fob -> fob * res X) : (forall now o, fdrift o (fst (g now o))) -> forall now o, fdrift o (fst (as_class want cls g now o)).
Proof. intros H now o. unfold as_class. destruct (_ && _); [apply H|apply fd_refl]. Qed.
Lemma own_class_drift {X} want bad (g : timespec -> fob -> fob * res X) : (forall now o, fdrift o (fst (g now o))) -> forall now o, fdrift o (fst (own_class want bad g now o)).
Proof. intros H now o. unfold own_class. destruct (_ =? _)%N; [apply H|apply fd_refl]. Qed.
Lemma done_drift g x : (forall now o, fdrift o (fst (g now o))) -> forall now o, fdrift o (fst (done g x now o)).
Proof. intros H now o. unfold done. specialize (H now o). destruct (g now o). exact H. Qed.
Lemma stat_drift id now o : fdrift o (fst (stat_use E id now o)).
Proof. unfold stat_use. pose proof (fd_size id o) as H. destruct (fo_size E id o). exact H. Qed.
Lemma rmdir_drift id now o : fdrift o (fst (rmdir_use E id now o)).
Proof. unfold rmdir_use. pose proof (fd_list id now o) as H. destruct (fo_list E id now o) as [o1 [[|]|]]; exact H. Qed.

Lemma t_get_soft h name rp : soft rp (fst (t_get E h name rp)).
Proof. apply with_obj_soft, as_class_drift. intros. apply fd_get. Qed.
Lemma t_add_soft h name x ty rp : soft rp (fst (t_add E h name x ty rp)).
Proof. apply with_obj_soft, as_class_drift. intros. apply fd_add. Qed.
Lemma t_remove_soft h name rp : soft rp (fst (t_remove E h name rp)).
Proof. apply with_obj_soft, as_class_drift. intros. apply fd_remove. Qed.
Lemma t_target_soft h rp : soft rp (fst (t_target E h rp)).
Proof. apply with_obj_soft, as_class_drift. intros. apply fd_link_get. Qed.
Lemma t_down_soft id rp : soft rp (t_count_down E id rp).
Proof. apply with_obj_soft. intros. apply drift_refl. Qed.
Lemma t_set_parent_soft id p rp : soft rp (t_set_parent id p rp).
Proof.
  unfold t_set_parent. destruct (rget id (rp_files rp)) as [[d m|f [|n] q]|] eqn:Eg; try apply soft_refl. intros y. unfold r_set. cbn [rp_files]. rewrite rget_put.
  destruct (bytes_eqb id y) eqn:E1; [|now left]. apply bytes_eqb_eq in E1. subst y. right. exists f, f, n, q, p. split; [exact Eg|]. split; [reflexivity|apply fd_refl].
Qed.
Lemma t_link_soft h base name rp : soft rp (fst (t_link E h base name rp)).
Proof.
  unfold t_link. destruct (t_type _ _); [|apply soft_refl]. pose proof (t_add_soft base name (fst h) a rp) as H. destruct (t_add _ _ _ _ _ _) as [rp1 [[]|]]; cbn [fst] in *; try exact H.
  eapply soft_trans; [exact H|]. apply with_obj_soft. intros. apply fd_set_nlink.
Qed.
Lemma t_rename_soft bf bt lf lt rp : soft rp (fst (t_rename E bf bt lf lt rp)).
Proof.
  unfold t_rename. pose proof (t_remove_soft bf lf rp) as H1. destruct (t_remove E bf lf rp) as [rp1 [[ef|]|]]; cbn [fst] in *; try exact H1.
  pose proof (soft_trans _ _ _ H1 (t_remove_soft bt lt rp1)) as H2. destruct (t_remove E bt lt rp1) as [rp2 [[et|]|]]; cbn [fst] in *; try exact H2.
  - destruct (bytes_eqb _ _).
    + pose proof (soft_trans _ _ _ H2 (t_add_soft bf lf (e_id ef) (e_type ef) rp2)) as H3. destruct (t_add _ _ _ _ _ rp2) as [rp3 [x|]]; cbn [fst] in *; try exact H3.
      pose proof (soft_trans _ _ _ H3 (t_add_soft bt lt (e_id et) (e_type et) rp3)) as H4. destruct (t_add _ _ _ _ _ rp3) as [rp4 [y|]]; exact H4.
    + pose proof (soft_trans _ _ _ H2 (t_add_soft bt lt (e_id ef) (e_type ef) rp2)) as H3. destruct (t_add _ _ _ _ _ rp2) as [rp3 [x|]]; exact H3.
  - pose proof (soft_trans _ _ _ H2 (t_add_soft bt lt (e_id ef) (e_type ef) rp2)) as H3. destruct (t_add _ _ _ _ _ rp2) as [rp3 [x|]]; exact H3.
Qed.

Ltac other id y := destruct (bytes_eqb id y) eqn:?Q; [apply bytes_eqb_eq in Q; subst y|apply (settles_refl _ y)].
Lemma t_open_settles id ty rp : settles rp (fst (t_open E id ty rp)).
Proof.
  unfold t_open. destruct (_ && _); [apply settles_refl|]. destruct (rget id (rp_files rp)) as [[d m|f ref p]|] eqn:Eg; [| |apply settles_refl].
  - destruct (good_class ty); [|apply settles_refl]. destruct (fo_open E id d m (rp_time rp)) as [f|] eqn:Eo; [|apply settles_refl]. cbn [fst].
    intros y f' ref' p'. unfold r_set. cbn [rp_files]. rewrite rget_put. destruct (bytes_eqb id y) eqn:Q; [apply bytes_eqb_eq in Q; subst y|apply settles_refl].
    intros [= <- <- <-]. rewrite Eg. cbn [came_from]. split; [|discriminate]. eapply fd_open; exact Eo.
  - cbn [fst]. intros y f' ref' p'. unfold r_set. cbn [rp_files]. rewrite rget_put. destruct (bytes_eqb id y) eqn:Q; [apply bytes_eqb_eq in Q; subst y|apply settles_refl].
    intros [= <- <- <-]. rewrite Eg. cbn [came_from]. split; [left; apply fd_refl|discriminate].
Qed.
Lemma t_create_settles id perm ty bad rp : settles rp (fst (t_create E id perm ty bad rp)).
Proof.
  unfold t_create. destruct bad; [apply settles_refl|]. destruct (rget id (rp_files rp)) as [x|] eqn:Eg; [apply settles_refl|].
  destruct (fo_open E id [] [] (rp_time rp)) as [f|] eqn:Eo; [|apply settles_refl]. cbn [fst]. intros y f' ref' p'. unfold r_set. cbn [rp_files]. rewrite rget_put.
  destruct (bytes_eqb id y) eqn:Q; [apply bytes_eqb_eq in Q; subst y|apply settles_refl]. intros [= <- <- <-]. rewrite Eg. cbn [came_from]. split; [|discriminate].
  exact (fd_open _ _ _ _ _ Eo).
Qed.
Lemma rget_del id y l : rget y (rdel id l) = if bytes_eqb id y then None else rget y l.
Proof.
  unfold rdel. induction l as [|[i x] l IH]; cbn [filter rget fst]; [now destruct (bytes_eqb id y)|]. destruct (bytes_eqb i id) eqn:E1; cbn [negb rget].
  - apply bytes_eqb_eq in E1. subst i. rewrite IH. now destruct (bytes_eqb id y).
  - destruct (bytes_eqb i y) eqn:E2; [|exact IH]. apply bytes_eqb_eq in E2. subst i. destruct (bytes_eqb id y) eqn:E3; [|reflexivity].
    apply bytes_eqb_eq in E3. subst y. rewrite bytes_eqb_refl in E1. discriminate E1.
Qed.
Lemma t_drop_settles id rp : settles rp (t_drop E id rp).
Proof.
  unfold t_drop. destruct (rget id (rp_files rp)) as [[d m|f [|[|n]] p]|] eqn:Eg; try apply settles_refl.
  - destruct (_ && _).
    + intros y f' ref' p'. cbn [rp_files]. rewrite rget_del. destruct (bytes_eqb id y) eqn:Q; [discriminate|apply settles_refl].
    + intros y f' ref' p'. unfold r_set. cbn [rp_files]. rewrite rget_put. destruct (bytes_eqb id y) eqn:Q; [apply bytes_eqb_eq in Q; subst y|apply settles_refl].
      intros [= <- <- <-]. rewrite Eg. cbn [came_from]. split; [now right|]. intros _. right. eauto 6.
  - intros y f' ref' p'. unfold r_set. cbn [rp_files]. rewrite rget_put. destruct (bytes_eqb id y) eqn:Q; [apply bytes_eqb_eq in Q; subst y|apply settles_refl].
    intros [= <- <- <-]. rewrite Eg. cbn [came_from]. split; [left; apply fd_refl|discriminate].
Qed.
Lemma t_evict_settles id rp : settles rp (t_evict id rp).
Proof.
  unfold t_evict. destruct (rget id (rp_files rp)) as [[d m|f [|n] p]|] eqn:Eg; try apply settles_refl. destruct (bytes_eqb id root_id); [apply settles_refl|].
  intros y f' ref' p'. unfold r_set. cbn [rp_files]. rewrite rget_put. destruct (bytes_eqb id y) eqn:Q; [discriminate|apply settles_refl].
Qed.
Lemma r_io_settles o rp : settles rp (fst (r_io E o rp)).
Proof.
  destruct o as [id off len|id off d|id n|id|id|id]; cbn [r_io].
  - apply soft_settles, with_obj_soft, own_class_drift. intros now o. pose proof (fd_read id now off len o) as H. destruct (fo_read _ _ _ _ _ _). exact H.
  - apply soft_settles, with_obj_soft, own_class_drift, done_drift. intros. apply fd_write.
  - apply soft_settles, with_obj_soft, own_class_drift, done_drift. intros. apply fd_truncate.
  - apply soft_settles, with_obj_soft. intros. apply stat_drift.
  - apply soft_settles, with_obj_soft, own_class_drift. intros now o. pose proof (fd_list id now o) as H. destruct (fo_list _ _ _ _). exact H.
  - unfold with_obj. destruct (rget id (rp_files rp)) as [[d m|f [|n] p]|] eqn:Eg; try apply settles_refl. destruct (fo_flush E id f) as [f1 r] eqn:Ef. cbn [fst].
    intros y f' ref' p'. unfold r_set. cbn [rp_files]. rewrite rget_put. destruct (bytes_eqb id y) eqn:Q; [apply bytes_eqb_eq in Q; subst y|apply settles_refl].
    intros [= <- <- <-]. rewrite Eg. cbn [came_from]. rewrite Ef. split; [now right|discriminate].
Qed.

(** ** Programs *)
Fixpoint each {A} (p : rprog A) : Prop :=
  match p with
  | RRet _ => True
  | RStep upd next => (forall rp, settles rp (upd rp)) /\ forall rp, each (next rp)
  end.
Lemma each_bnd {A B} (p : rprog A) (f : A -> rprog B) : each p -> (forall a, each (f a)) -> each (rbnd p f).
Proof. induction p as [a|u n IH]; cbn [each rbnd]; [auto|]. intros [H1 H2] Hf. split; [exact H1|]. intros rp. apply IH; auto. Qed.
Lemma each_do {A} (f : repo -> repo * A) : (forall rp, settles rp (fst (f rp))) -> each (r_do f).
Proof. intros H. split; [exact H|]. intros rp. exact I. Qed.
Lemma each_ret {A} (a : A) : each (RRet a). Proof. exact I. Qed.
Lemma each_open id ty : each (q_open E id ty). Proof. apply each_do. apply t_open_settles. Qed.
Lemma each_drop id : each (q_drop E id). Proof. apply each_do. intros rp. apply t_drop_settles. Qed.
Lemma each_leave {A} ids (a : A) : each (r_leave E ids a).
Proof. induction ids as [|i ids IH]; cbn [r_leave]; [exact I|]. apply each_bnd; [apply each_drop|auto]. Qed.
Lemma each_set_parent id p : each (q_set_parent id p). Proof. apply each_do. intros rp. apply soft_settles, t_set_parent_soft. Qed.
Lemma each_same {A} (f : repo -> A) : each (r_do (fun rp => (rp, f rp))). Proof. apply each_do. intros rp. apply settles_refl. Qed.
Lemma each_get h name : each (r_do (t_get E h name)). Proof. apply each_do. intros rp. apply soft_settles, t_get_soft. Qed.
Lemma each_add h name x ty : each (r_do (t_add E h name x ty)). Proof. apply each_do. intros rp. apply soft_settles, t_add_soft. Qed.
Lemma each_remove h name : each (r_do (t_remove E h name)). Proof. apply each_do. intros rp. apply soft_settles, t_remove_soft. Qed.
Lemma each_target h : each (r_do (t_target E h)). Proof. apply each_do. intros rp. apply soft_settles, t_target_soft. Qed.
Lemma each_down id : each (r_do (fun rp => (t_count_down E id rp, tt))). Proof. apply each_do. intros rp. apply soft_settles, t_down_soft. Qed.
Lemma each_link h b name : each (r_do (t_link E h b name)). Proof. apply each_do. intros rp. apply soft_settles, t_link_soft. Qed.
Lemma each_rename a b c d : each (r_do (t_rename E a b c d)). Proof. apply each_do. intros rp. apply soft_settles, t_rename_soft. Qed.
Lemma each_create id perm ty bad : each (r_do (t_create E id perm ty bad)). Proof. apply each_do. intros rp. apply t_create_settles. Qed.
Lemma each_obj {X} id (g : timespec -> fob -> fob * res X) : (forall now o, fdrift o (fst (g now o))) -> each (r_do (with_obj E id g)).
Proof. intros H. apply each_do. intros rp. apply soft_settles, with_obj_soft, H. Qed.
Create HintDb ed.
Hint Resolve each_ret each_open each_drop each_leave each_set_parent each_same each_get each_add each_remove each_target each_down each_link each_rename each_create : ed.
Ltac ee :=
  repeat first
    [ solve [eauto with ed]
    | apply each_bnd; [|intros ?]
    | match goal with
      | |- each (if ?b then _ else _) => destruct b
      | |- each (match ?x with _ => _ end) => destruct x
      end ].
Lemma each_r_open k : forall splits pid parent, each (r_open E k splits pid parent).
Proof.
  induction k as [|k IH]; [intros; cbn [r_open]; ee|]. induction splits as [|s ss IHs]; intros pid parent; [cbn [r_open]; ee|].
  cbn [r_open]. fold (r_open E (S k)). ee.
Qed.
Hint Resolve each_r_open : ed.
Lemma each_base path : each (r_base E path). Proof. unfold r_base. ee. Qed.
Hint Resolve each_base : ed.
Lemma each_all path fl : each (r_all E path fl). Proof. unfold r_all. ee. Qed.
Hint Resolve each_all : ed.
Lemma each_r_create path perm ty x bad : each (r_create E path perm ty x bad). Proof. unfold r_create. ee. Qed.
Hint Resolve each_r_create : ed.
Lemma each_path path fl f : (forall h now o, fdrift o (fst (f h now o))) -> each (r_path E path fl f).
Proof. intros H. unfold r_path. apply each_bnd; [ee|]. intros [[h|]|]; try exact I. apply each_bnd; [apply each_obj, H|]. intros. ee. Qed.

Lemma each_body o : each (r_body E o).
Proof.
  destruct o; cbn [r_body]; try exact I.
  - ee.
  - ee.
  - apply each_bnd; [ee|]. intros [h|]; [|exact I]. apply each_bnd; [|intros; ee]. apply each_obj, as_class_drift, done_drift. intros. apply fd_link_set.
  - unfold r_link. ee.
  - unfold r_remove. apply each_bnd; [ee|]. intros [[b name]|]; [|exact I]. apply each_bnd; [ee|]. intros [[e|]|]; try solve [ee]. apply each_bnd; [ee|]. intros [h|]; [|ee].
    apply each_bnd; [|intros; ee]. apply each_obj. intros. apply drift_refl.
  - unfold r_remove. apply each_bnd; [ee|]. intros [[b name]|]; [|exact I]. apply each_bnd; [ee|]. intros [[e|]|]; try solve [ee]. apply each_bnd; [ee|]. intros [h|]; [|ee].
    apply each_bnd; [|intros; ee]. apply each_obj, as_class_drift. intros. apply rmdir_drift.
  - unfold r_rename. ee.
  - apply each_bnd; [ee|]. intros [[h|]|]; try exact I. destruct trunc; [|exact I]. apply each_bnd; [|intros; ee]. apply each_obj, as_class_drift, done_drift. intros. apply fd_truncate.
  - ee.
  - ee.
  - apply each_path. intros h. apply as_class_drift, done_drift. intros. apply fd_truncate.
  - apply each_path. intros h now o. apply fd_chattr.
  - apply each_path. intros h now o. apply stat_drift.
  - apply each_path. intros h. apply as_class_drift. intros now o. pose proof (fd_link_get (fst h) now o) as H. destruct (fo_link_get _ _ _ _). exact H.
Qed.
End Obj.
