(** Proofs about names that are alike. *)
From Coq Require Import Strings.String.
From Verif Require Import Base BaseLemmas TextModel NameModel NameSpec BtreeModel BtreeSpec BtreeShape FullFsModel FullFsSpec FullFsPath FullFsProofs FullFsInv FullFsStep FullFsTop LongNameModel LongNameSpec LongNameTop LiteTreeSpec NameTop LiteTreeTop NormModel NormSpec.
Local Open Scope list_scope.

(** ** The comparisons *)
Lemma lex_refl a : lex a a = Eq.
Proof. induction a as [|x a IH]; [reflexivity|]. cbn [lex]. rewrite N.compare_refl. exact IH. Qed.
Lemma lex_eq : forall a b, lex a b = Eq -> a = b.
Proof.
  induction a as [|x a IH]; intros [|y b] H; cbn [lex] in H; try discriminate H; [reflexivity|].
  destruct (N.compare_spec x y) as [->|?|?]; try discriminate H. now rewrite (IH b H).
Qed.
Lemma lex_sym : forall a b, lex b a = CompOpp (lex a b).
Proof.
  induction a as [|x a IH]; intros [|y b]; try reflexivity. cbn [lex]. rewrite N.compare_antisym.
  destruct (N.compare x y); [apply IH|reflexivity|reflexivity].
Qed.
Lemma lex_trans : forall a b c, lex a b = Lt -> lex b c = Lt -> lex a c = Lt.
Proof.
  induction a as [|x a IH]; intros [|y b] [|z c] H1 H2; cbn [lex] in *; try discriminate; try reflexivity.
  destruct (N.compare_spec x y) as [->|H|H]; try discriminate H1.
  - destruct (N.compare_spec y z) as [->|H'|H']; try discriminate H2; [exact (IH _ _ H1 H2)|reflexivity].
  - destruct (N.compare_spec y z) as [->|H'|H']; try discriminate H2;
      (destruct (N.compare_spec x z) as [->|?|?]; [lia|reflexivity|lia]).
Qed.
Lemma lex_cmp_ok (key : bytes -> list N) : cmp_ok (fun a b => lex (key a) (key b)).
Proof.
  split.
  - intros a b. apply lex_sym.
  - intros a b c. apply lex_trans.
  - intros a b c H. apply lex_eq in H. now rewrite H.
Qed.
Lemma binary_lex : forall a b, binary_compare a b = lex (map b2n a) (map b2n b).
Proof.
  induction a as [|x a IH]; intros [|y b]; try reflexivity. cbn [binary_compare map lex].
  destruct (N.compare (b2n x) (b2n y)); [apply IH|reflexivity|reflexivity].
Qed.
Lemma is_ascii_ok s : is_ascii s = true -> ascii s.
Proof.
  unfold is_ascii, ascii. rewrite forallb_forall, Forall_forall. intros H c Hc. apply N.ltb_lt. exact (H c Hc).
Qed.

Section Full.
Variable U : unicode.
Variable fold : bytes -> list N.
Hypothesis HU : unicode_ok U fold.
Variable ci un : bool.
Notation cmp := (dir_name_comparison U ci un).
Notation key := (name_key U fold ci un).

Lemma comparison_key a b : cmp a b = lex (key a) (key b).
Proof.
  unfold dir_name_comparison, name_key. destruct ci, un; cbn [andb].
  - unfold case_uni_norm_insensitve_compare. destruct (is_ascii a) eqn:Ea, (is_ascii b) eqn:Eb; cbn [andb];
      rewrite ?(uo_caseless _ _ HU); try reflexivity.
    now rewrite (uo_ascii _ _ HU a (is_ascii_ok _ Ea)), (uo_ascii _ _ HU b (is_ascii_ok _ Eb)).
  - apply (uo_caseless _ _ HU).
  - unfold uni_norm_insensitive_compare. destruct (is_ascii a) eqn:Ea, (is_ascii b) eqn:Eb; cbn [andb]; rewrite binary_lex; try reflexivity.
    now rewrite (uo_ascii _ _ HU a (is_ascii_ok _ Ea)), (uo_ascii _ _ HU b (is_ascii_ok _ Eb)).
  - apply binary_lex.
Qed.
Lemma comparison_ok : cmp_ok cmp.
Proof.
  pose proof (lex_cmp_ok key) as [H1 H2 H3]. split.
  - intros a b. rewrite !comparison_key. apply H1.
  - intros a b c. rewrite !comparison_key. apply H2.
  - intros a b c. rewrite !comparison_key. apply H3.
Qed.
Lemma comparison_eq a b : cmp a b = Eq <-> key a = key b.
Proof. rewrite comparison_key. split; [apply lex_eq|intros ->; apply lex_refl]. Qed.

Lemma map_b2n_inj : forall a b, map b2n a = map b2n b -> a = b.
Proof.
  induction a as [|x a IH]; intros [|y b] H; try discriminate H; [reflexivity|]. cbn [map] in H. injection H as H1 H2.
  f_equal; [|now apply IH]. unfold b2n in H1. rewrite <- (n2b_b2n x), <- (n2b_b2n y). unfold b2n. now rewrite H1.
Qed.
Lemma key_dots a b : In b [[]; str "."; str ".."] -> key a = key b -> a = b.
Proof.
  intros Hb. assert (Ab : ascii b) by (destruct Hb as [<-|[<-|[<-|[]]]]; vm_compute; repeat constructor).
  unfold name_key. destruct ci, un; rewrite ?(uo_ascii _ _ HU b Ab).
  - intros H. apply (uo_dots_fold _ _ HU _ b Hb) in H. rewrite <- (uo_dots_nfd _ _ HU a); [exact H|]. now rewrite H.
  - exact (uo_dots_fold _ _ HU a b Hb).
  - intros H. apply map_b2n_inj in H. rewrite <- (uo_dots_nfd _ _ HU a); [exact H|]. now rewrite H.
  - apply map_b2n_inj.
Qed.

(** ** Paths that are alike *)
Lemma same_alike a b x : key a = key b -> same_name cmp a x = same_name cmp b x.
Proof. intros H. unfold same_name. now rewrite (cmp_eq_l _ comparison_ok a b x) by now apply comparison_eq. Qed.
Lemma find_alike a b m : key a = key b -> find_name cmp a m = find_name cmp b m.
Proof.
  intros H. unfold find_name. induction m as [|e m IH]; [reflexivity|]. cbn [find].
  rewrite (same_alike a b (e_name e) H). now rewrite IH.
Qed.
Lemma drop_alike a b m : key a = key b -> drop_name cmp a m = drop_name cmp b m.
Proof.
  intros H. unfold drop_name. induction m as [|e m IH]; [reflexivity|]. cbn [filter].
  rewrite (same_alike a b (e_name e) H). now rewrite IH.
Qed.
Lemma short_name a : length a <= 255 -> name_too_long a = false.
Proof. intros H. unfold name_too_long. apply Nat.ltb_ge. exact H. Qed.
Lemma get_entry_alike h a b st : alike key a b -> get_entry cmp h a st = get_entry cmp h b st.
Proof.
  intros (Hk & La & Lb). unfold get_entry. destruct (cast_as TDIR h st) as [nd|]; [|reflexivity]. cbn [rbind dspec_step].
  rewrite (short_name a La), (short_name b Lb), (find_alike a b _ Hk). reflexivity.
Qed.
Lemma remove_entry_alike h a b st : alike key a b -> remove_entry cmp h a st = remove_entry cmp h b st.
Proof.
  intros (Hk & La & Lb). unfold remove_entry. destruct (cast_as TDIR h st) as [nd|]; [|reflexivity]. cbn [dspec_step].
  rewrite (short_name a La), (short_name b Lb), (find_alike a b _ Hk), (drop_alike a b _ Hk). reflexivity.
Qed.
Lemma dot_alike a b c : In c [[]; str "."; str ".."] -> key a = key b -> bytes_eqb a c = bytes_eqb b c.
Proof.
  intros Hc Hk. destruct (bytes_eqb a c) eqn:Ea.
  - apply bytes_eqb_eq in Ea. subst a. symmetry in Hk. apply (key_dots b c Hc) in Hk. subst b. symmetry. apply bytes_eqb_refl.
  - destruct (bytes_eqb b c) eqn:Eb; [|reflexivity]. apply bytes_eqb_eq in Eb. subst b. apply (key_dots a c Hc) in Hk. subst a.
    rewrite bytes_eqb_refl in Ea. discriminate Ea.
Qed.
Lemma generic_open_alike k : forall ps qs, Forall2 (alike key) ps qs -> forall pid h st,
  generic_open cmp k ps pid h st = generic_open cmp k qs pid h st.
Proof.
  destruct k as [|k]; [reflexivity|]. intros ps qs H. induction H as [|a b ps qs Hab H IH]; [reflexivity|]. intros pid h st.
  cbn [generic_open]. cbn [generic_open] in IH.
  rewrite (dot_alike a b (str ".")), (dot_alike a b (str "..")) by (try apply Hab; cbn; auto).
  rewrite (get_entry_alike h a b st Hab).
  destruct (bytes_eqb b (str ".")); [apply IH|]. destruct (bytes_eqb b (str "..")).
  - destruct (get st (fst h)) as [nd|]; [|reflexivity]. destruct (open_as (i_parent nd) TDIR st) as [h'|]; [apply IH|reflexivity].
  - destruct (get_entry cmp h b st) as [[e|]|]; try reflexivity.
    destruct (open_as (e_id e) (e_type e) st) as [child|]; [|reflexivity].
    destruct (e_type e =? TLINK)%N; [|apply IH].
    destruct (cast_as TLINK child _) as [nd|]; [|reflexivity].
    destruct (generic_open cmp k _ _ _ _) as [st2 [[h2|]|]]; [apply IH|reflexivity|reflexivity].
Qed.

Lemma Forall2_removelast {A B} (R : A -> B -> Prop) l m : Forall2 R l m -> Forall2 R (removelast l) (removelast m).
Proof.
  induction 1 as [|x y l m Hxy H IH]; [constructor|]. destruct H as [|x' y' l m Hx H]; [constructor|].
  cbn [removelast] in *. constructor; [exact Hxy|exact IH].
Qed.
Lemma Forall2_last {A B} (R : A -> B -> Prop) l m d d' : Forall2 R l m -> l <> [] -> R (last l d) (last m d').
Proof.
  induction 1 as [|x y l m Hxy H IH]; [congruence|]. intros _. destruct H as [|x' y' l m Hx H]; [exact Hxy|].
  apply IH. discriminate.
Qed.
Lemma base_alike p q st : paths_alike key p q ->
  open_base cmp p st = open_base cmp q st \/
  exists st1 h a b, alike key a b /\ open_base cmp p st = (st1, Ok (h, a)) /\ open_base cmp q st = (st1, Ok (h, b)).
Proof.
  intros [Hn H]. unfold open_base. destruct H as [|a b ps qs Hab H]; [congruence|]. destruct H as [|a' b' ps qs Hab' H].
  - right. exists st, root_holder, a, b. auto.
  - assert (HF : Forall2 (alike key) (a :: a' :: ps) (b :: b' :: qs)) by exact (Forall2_cons _ _ Hab (Forall2_cons _ _ Hab' H)).
    rewrite (generic_open_alike 16 _ _ (Forall2_removelast _ _ _ HF)).
    destruct (generic_open cmp 16 (removelast (b :: b' :: qs)) root_id root_holder st) as [st1 [[h|]|]]; [|now left|now left].
    right. exists st1, h, (last (a :: a' :: ps) []), (last (b :: b' :: qs) []). split; [|auto].
    apply (Forall2_last _ _ _ [] [] HF). discriminate.
Qed.
Lemma not_root p : path_comps p <> [] -> bytes_eqb p [] || bytes_eqb p (str "/") = false.
Proof.
  intros H. apply Bool.orb_false_iff. split.
  - destruct (bytes_eqb p []) eqn:E; [|reflexivity]. apply bytes_eqb_eq in E. subst p. now contradict H.
  - destruct (bytes_eqb p (str "/")) eqn:E; [|reflexivity]. apply bytes_eqb_eq in E. subst p. now contradict H.
Qed.
Lemma alike_comps p q : paths_alike key p q -> path_comps q <> [].
Proof. intros [Hn H] E. rewrite E in H. destruct (path_comps p); [now apply Hn|inversion H]. Qed.
Lemma open_all_alike p q f st : paths_alike key p q -> open_all cmp p f st = open_all cmp q f st.
Proof.
  intros H. unfold open_all. rewrite (not_root p (proj1 H)), (not_root q (alike_comps p q H)).
  destruct (base_alike p q st H) as [->|(st1 & h & a & b & Hab & -> & ->)]; [reflexivity|].
  now rewrite (get_entry_alike h a b st1 Hab).
Qed.
Lemma remove_alike r p q st : paths_alike key p q -> do_remove cmp r p st = do_remove cmp r q st.
Proof.
  intros H. unfold do_remove. destruct (base_alike p q st H) as [->|(st1 & h & a & b & Hab & -> & ->)]; [reflexivity|].
  now rewrite (remove_entry_alike h a b st1 Hab).
Qed.
Lemma respelled_same o o' st : respelled key o o' -> fs_step cmp o st = fs_step cmp o' st.
Proof.
  intros H. destruct H as [p q t H|p q H|p q H|p q H|p q n H|p q m H|p q H|p q H|p q d H];
    cbn [fs_step]; try (now rewrite (open_all_alike p q _ st H)); try (exact (remove_alike _ p q st H)).
  unfold do_link. now rewrite (open_all_alike p q _ st H).
Qed.
End Full.

(** ** Spellings *)
Section Spelling.
Variable cmp : bytes -> bytes -> comparison.

(** Every entry comes from [st], or is spelt as one of [extra] and not too long. *)
Definition from_or (extra : list bytes) (st st' : ffs) : Prop :=
  forall d n x ty, shows st' d n x ty -> shows st d n x ty \/ (In n extra /\ length n <= 255).

Lemma fo_refl ex st : from_or ex st st.
Proof. intros d n x ty H. now left. Qed.
Lemma fo_trans ex a b c : from_or ex a b -> from_or ex b c -> from_or ex a c.
Proof. intros H1 H2 d n x ty H. destruct (H2 d n x ty H) as [H'|H']; [exact (H1 d n x ty H')|now right]. Qed.
Lemma fo_put ex st id nd nd' : get st id = Some nd -> incl (i_dir nd') (i_dir nd) -> from_or ex st (put st id nd').
Proof.
  intros Hg Hi d n x ty (m & Hm & Hin). left. rewrite get_put in Hm. destruct (bytes_eqb id d) eqn:E; [|exists m; auto].
  apply bytes_eqb_eq in E. subst d. injection Hm as <-. exists nd. auto.
Qed.
Lemma fo_set_parent ex st id p : from_or ex st (set_parent id p st).
Proof. unfold set_parent. destruct (get st id) as [nd|] eqn:E; [|apply fo_refl]. apply (fo_put ex st id nd _ E). apply incl_refl. Qed.
Lemma fo_nodes ex st st' : nodes st' = nodes st -> from_or ex st st'.
Proof. intros H d n x ty (nd & Hg & Hin). left. exists nd. unfold get in *. rewrite H in Hg. auto. Qed.
Lemma nget_ndel id l d nd : nget d (ndel id l) = Some nd -> nget d l = Some nd.
Proof.
  destruct (bytes_eqb id d) eqn:E.
  - apply bytes_eqb_eq in E. subst d. rewrite nget_del_eq. discriminate.
  - rewrite nget_del_ne; [auto|]. intros ->. rewrite bytes_eqb_refl in E. discriminate E.
Qed.
Lemma fo_finish ex st id : from_or ex st (finish id st).
Proof.
  unfold finish. destruct (_ || _); [apply fo_refl|]. destruct (get st id) as [nd|]; [|apply fo_refl].
  destruct (i_nlink nd =? 0)%N; [|apply fo_refl]. intros d n x ty (m & Hm & Hin). left. exists m. split; [|exact Hin].
  exact (nget_ndel id (nodes st) d m Hm).
Qed.
Lemma fo_unlink ex st id : from_or ex st (unlink_node id st).
Proof.
  unfold unlink_node. destruct (get st id) as [nd|] eqn:E; [|apply fo_refl].
  eapply fo_trans; [|apply fo_finish]. apply (fo_put ex st id nd _ E). apply incl_refl.
Qed.
Lemma fo_add ex st h n id ty : In n ex -> from_or ex st (fst (add_entry cmp h n id ty st)).
Proof.
  intros Hn. unfold add_entry. destruct (cast_as TDIR h st) as [nd|e] eqn:Ec; [|apply fo_refl].
  cbn [dspec_step]. destruct (name_too_long n) eqn:El; [apply fo_refl|].
  assert (Hg : get st (fst h) = Some nd).
  { unfold cast_as in Ec. destruct (get st (fst h)) as [nd'|]; [|discriminate Ec]. destruct (_ =? _)%N; [|discriminate Ec].
    destruct (_ =? _)%N; [|discriminate Ec]. now injection Ec as ->. }
  destruct (find_name cmp n (i_dir nd)) as [e|]; cbn [fst].
  - apply (fo_put ex st (fst h) nd _ Hg). apply incl_refl.
  - intros d m x t (nd' & Hm & Hin). rewrite get_put in Hm. destruct (bytes_eqb (fst h) d) eqn:E; [|left; exists nd'; auto].
    apply bytes_eqb_eq in E. subst d. injection Hm as <-. cbn [i_dir with_dir] in Hin. destruct Hin as [Hin|Hin].
    + right. injection Hin as <- _ _. split; [exact Hn|]. unfold name_too_long in El. apply Nat.ltb_ge in El. exact El.
    + left. exists nd. auto.
Qed.
Lemma fo_remove ex st h n : from_or ex st (fst (remove_entry cmp h n st)).
Proof.
  unfold remove_entry. destruct (cast_as TDIR h st) as [nd|e] eqn:Ec; [|apply fo_refl].
  cbn [dspec_step]. destruct (name_too_long n) eqn:El; [apply fo_refl|].
  assert (Hg : get st (fst h) = Some nd).
  { unfold cast_as in Ec. destruct (get st (fst h)) as [nd'|]; [|discriminate Ec]. destruct (_ =? _)%N; [|discriminate Ec].
    destruct (_ =? _)%N; [|discriminate Ec]. now injection Ec as ->. }
  apply (fo_put ex st (fst h) nd _ Hg). cbn [i_dir with_dir]. unfold drop_name. intros e He. now apply filter_In in He.
Qed.
Lemma fo_generic ex k : forall ps pid h st, from_or ex st (fst (generic_open cmp k ps pid h st)).
Proof.
  induction k as [|k IHk]; [intros; apply fo_refl|]. induction ps as [|s ps IH]; intros pid h st; [apply fo_refl|].
  cbn [generic_open]. cbn [generic_open] in IH. destruct (bytes_eqb s (str ".")); [apply IH|]. destruct (bytes_eqb s (str "..")).
  - destruct (get st (fst h)) as [nd|]; [|apply fo_refl]. destruct (open_as (i_parent nd) TDIR st) as [h'|]; [apply IH|apply fo_refl].
  - destruct (get_entry cmp h s st) as [[e|]|]; try apply fo_refl.
    destruct (open_as (e_id e) (e_type e) st) as [child|]; [|apply fo_refl].
    destruct (e_type e =? TLINK)%N; [|eapply fo_trans; [apply (fo_set_parent ex st (e_id e) pid)|apply IH]].
    destruct (cast_as TLINK child _) as [nd|]; [|apply fo_set_parent].
    pose proof (IHk (path_comps (i_data nd)) pid h (set_parent (e_id e) pid st)) as H.
    destruct (generic_open cmp k _ _ _ _) as [st2 [[h2|]|]]; cbn [fst] in H |- *;
      (eapply fo_trans; [apply (fo_set_parent ex st (e_id e) pid)|]); [|exact H|exact H].
    eapply fo_trans; [exact H|apply IH].
Qed.
Lemma fo_base ex p st : from_or ex st (fst (open_base cmp p st)).
Proof.
  unfold open_base. destruct (path_comps p) as [|a [|b l]]; try apply fo_refl.
  pose proof (fo_generic ex 16 (removelast (a :: b :: l)) root_id root_holder st) as H.
  destruct (generic_open cmp 16 _ _ _ _) as [st2 [[h2|]|]]; exact H.
Qed.
Lemma base_name p st st1 h n : open_base cmp p st = (st1, Ok (h, n)) -> n = last (path_comps p) [].
Proof.
  unfold open_base. destruct (path_comps p) as [|a [|b l]]; try (now intros [= _ _ <-]).
  destruct (generic_open cmp 16 _ _ _ _) as [st2 [[h2|]|]]; now intros [= _ _ <-].
Qed.
Lemma fo_open_all ex p f st : from_or ex st (fst (open_all cmp p f st)).
Proof.
  unfold open_all. destruct (_ || _); [apply fo_refl|]. pose proof (fo_base ex p st) as H.
  destruct (open_base cmp p st) as [st1 [[base name]|e]]; [|exact H]. cbn [fst] in H.
  destruct (get_entry cmp base name st1) as [[e|]|]; try exact H.
  destruct (open_as (e_id e) (e_type e) st1) as [h|]; [|exact H].
  assert (H2 : from_or ex st (set_parent (e_id e) (fst base) st1)) by (eapply fo_trans; [exact H|apply fo_set_parent]).
  destruct (f && _)%bool; [|exact H2]. destruct (cast_as TLINK h _) as [nd|]; [|exact H2].
  eapply fo_trans; [exact H2|apply fo_generic].
Qed.
Lemma fo_create p perm ty x bad st : from_or [last (path_comps p) []] st (fst (create cmp p perm ty x bad st)).
Proof.
  unfold create. pose proof (fo_base [last (path_comps p) []] p st) as H.
  destruct (open_base cmp p st) as [st1 [[base name]|e]] eqn:Eb; [|exact H]. cbn [fst] in H.
  destruct bad as [e|]; [exact H|]. destruct (get st1 x) as [nx|] eqn:Ex; [exact H|].
  assert (H2 : from_or [last (path_comps p) []] st (put st1 x (mkInode (perm mod 512 + ty * 4096)%N 1 [] [] root_id))).
  { eapply fo_trans; [exact H|]. intros d n y t (m & Hm & Hin). left. rewrite get_put in Hm.
    destruct (bytes_eqb x d); [|exists m; auto]. injection Hm as <-. destruct Hin. }
  pose proof (fo_add [last (path_comps p) []] (put st1 x (mkInode (perm mod 512 + ty * 4096)%N 1 [] [] root_id)) base name x ty) as H3.
  rewrite (base_name _ _ _ _ _ Eb) in *.
  destruct (add_entry cmp base _ x ty _) as [st3 [[|]|e]]; cbn [fst] in *;
    (eapply fo_trans; [exact H2|]); (eapply fo_trans; [apply H3; now left|]); [apply fo_set_parent|apply fo_unlink|apply fo_refl].
Qed.
Lemma fo_more ex ex' st st' : incl ex ex' -> from_or ex st st' -> from_or ex' st st'.
Proof. intros Hi H d n x ty Hs. destruct (H d n x ty Hs) as [G|[G1 G2]]; auto. Qed.
Lemma cast_get w h st nd : cast_as w h st = Ok nd -> get st (fst h) = Some nd.
Proof.
  unfold cast_as. destruct (get st (fst h)) as [nd'|]; [|discriminate]. destruct (_ =? _)%N; [|discriminate].
  destruct (_ =? _)%N; [|discriminate]. now intros [= ->].
Qed.
Ltac keep H := eapply fo_trans; [exact H|]; eapply fo_put; [eassumption|apply incl_refl].
Lemma spelling o st : from_or (spelt o) st (fst (fs_step cmp o st)).
Proof.
  destruct o as [p perm x bad|p perm x bad|tg p x bad|p q|p|p|p q|p t|p|id dir|id|id data|p len|p perm|p|p|id|id]; cbn [fs_step spelt].
  - pose proof (fo_create p perm TREG x bad st) as H. destruct (create cmp p perm TREG x bad st) as [st1 [h|e]]; [|exact H].
    eapply fo_trans; [exact H|]. now apply fo_nodes.
  - pose proof (fo_create p perm TDIR x bad st) as H. now destruct (create cmp p perm TDIR x bad st) as [st1 [h|e]].
  - pose proof (fo_create p 420 TLINK x bad st) as H. destruct (create cmp p 420 TLINK x bad st) as [st1 [h|e]]; [|exact H].
    destruct (cast_as TLINK h st1) as [nd|] eqn:Ec; [|exact H]. apply cast_get in Ec. cbn [fst] in *. keep H.
  - unfold do_link. pose proof (fo_open_all [last (path_comps q) []] p true st) as H. destruct (open_all cmp p true st) as [st1 [[h|]|e]]; try exact H.
    pose proof (fo_base [last (path_comps q) []] q st1) as H1. destruct (open_base cmp q st1) as [st2 [[base name]|e]] eqn:Eb; cbn [fst] in *;
      [|eapply fo_trans; eassumption].
    assert (H2 : from_or [last (path_comps q) []] st st2) by (eapply fo_trans; eassumption).
    destruct (get st2 (fst h)) as [nd|]; [|exact H2]. rewrite (base_name _ _ _ _ _ Eb).
    pose proof (fo_add [last (path_comps q) []] st2 base (last (path_comps q) []) (fst h) (i_type nd) ltac:(now left)) as H3.
    assert (H4 := fo_trans _ _ _ _ H2 H3).
    destruct (add_entry cmp base _ (fst h) (i_type nd) st2) as [st3 [[|]|e]]; cbn [fst] in *; try exact H4.
    destruct (get st3 (fst h)) as [nd3|] eqn:E3; [|exact H4]. cbn [fst]. keep H4.
  - apply (fo_more []); [intros ? []|]. unfold do_remove. pose proof (fo_base [] p st) as H. destruct (open_base cmp p st) as [st1 [[base name]|e]]; [|exact H].
    assert (H2 := fo_trans _ _ _ _ H (fo_remove [] st1 base name)). cbn [fst] in *. destruct (remove_entry cmp base name st1) as [st2 [[e|]|]]; try exact H2.
    destruct (open_as (e_id e) (e_type e) st2) as [h|]; [|exact H2]. exact (fo_trans _ _ _ _ H2 (fo_unlink _ _ _)).
  - apply (fo_more []); [intros ? []|]. unfold do_remove. pose proof (fo_base [] p st) as H. destruct (open_base cmp p st) as [st1 [[base name]|e]]; [|exact H].
    assert (H2 := fo_trans _ _ _ _ H (fo_remove [] st1 base name)). cbn [fst] in *. destruct (remove_entry cmp base name st1) as [st2 [[e|]|]]; try exact H2.
    destruct (open_as (e_id e) (e_type e) st2) as [h|]; [|exact H2]. destruct (cast_as TDIR h st2) as [nd|]; [|exact H2].
    destruct (i_dir nd); [|exact H2]. exact (fo_trans _ _ _ _ H2 (fo_unlink _ _ _)).
  - set (ex := [last (path_comps p) []; last (path_comps q) []]).
    assert (Hp : In (last (path_comps p) []) ex) by now left. assert (Hq : In (last (path_comps q) []) ex) by (right; now left).
    unfold do_rename. pose proof (fo_base ex p st) as H. destruct (open_base cmp p st) as [st1 [[bf lf]|e]] eqn:E1; [|exact H]. cbn [fst] in H.
    pose proof (fo_trans _ _ _ _ H (fo_base ex q st1)) as H2. destruct (open_base cmp q st1) as [st2 [[bt lt]|e]] eqn:E2; [|exact H2]. cbn [fst] in H2.
    apply base_name in E1, E2. rewrite <- E1 in Hp. rewrite <- E2 in Hq. clearbody ex.
    pose proof (fo_trans _ _ _ _ H2 (fo_remove ex st2 bf lf)) as H3. destruct (remove_entry cmp bf lf st2) as [st3 [[ef|]|]]; try exact H3. cbn [fst] in H3.
    pose proof (fo_trans _ _ _ _ H3 (fo_remove ex st3 bt lt)) as H4. destruct (remove_entry cmp bt lt st3) as [st4 [[et|]|]]; try exact H4; cbn [fst] in H4.
    + destruct (bytes_eqb (e_id ef) (e_id et)).
      * pose proof (fo_trans _ _ _ _ H4 (fo_add ex st4 bf lf (e_id ef) (e_type ef) Hp)) as H5.
        destruct (add_entry cmp bf lf _ _ st4) as [st5 [b|]]; [|exact H5]. cbn [fst] in H5.
        pose proof (fo_trans _ _ _ _ H5 (fo_add ex st5 bt lt (e_id et) (e_type et) Hq)) as H6.
        now destruct (add_entry cmp bt lt _ _ st5) as [st6 [b'|]].
      * pose proof (fo_trans _ _ _ _ H4 (fo_add ex st4 bt lt (e_id ef) (e_type ef) Hq)) as H5.
        destruct (add_entry cmp bt lt _ _ st4) as [st5 [b|]]; [|exact H5]. cbn [fst] in H5.
        destruct (open_as (e_id et) (e_type et) st5); [|exact H5]. exact (fo_trans _ _ _ _ H5 (fo_unlink _ _ _)).
    + pose proof (fo_trans _ _ _ _ H4 (fo_add ex st4 bt lt (e_id ef) (e_type ef) Hq)) as H5.
      now destruct (add_entry cmp bt lt _ _ st4) as [st5 [b|]].
  - pose proof (fo_open_all [] p true st) as H. destruct (open_all cmp p true st) as [st1 [[h|]|e]]; try exact H. destruct t.
    + destruct (cast_as TREG h st1) as [nd|] eqn:Ec; [|exact H]. apply cast_get in Ec. cbn [fst] in *.
      eapply fo_trans; [|apply fo_nodes; reflexivity]. keep H.
    + eapply fo_trans; [exact H|]. now apply fo_nodes.
  - pose proof (fo_open_all [] p true st) as H. destruct (open_all cmp p true st) as [st1 [[h|]|e]]; try exact H.
    destruct (snd h =? TDIR)%N; [|exact H]. eapply fo_trans; [exact H|]. now apply fo_nodes.
  - destruct (existsb _ _); [|apply fo_refl]. destruct (get st id) as [nd|]; [|apply fo_refl]. destruct (_ =? _)%N; [|apply fo_refl].
    eapply fo_trans; [|apply fo_finish]. now apply fo_nodes.
  - destruct (existsb _ _); apply fo_refl.
  - destruct (existsb _ _); [|apply fo_refl]. destruct (cast_as TREG _ st) as [nd|] eqn:Ec; [|apply fo_refl]. apply cast_get in Ec.
    eapply fo_put; [exact Ec|apply incl_refl].
  - pose proof (fo_open_all [] p true st) as H. destruct (open_all cmp p true st) as [st1 [[h|]|e]]; try exact H.
    destruct (cast_as TREG h st1) as [nd|] eqn:Ec; [|exact H]. apply cast_get in Ec. cbn [fst] in *. keep H.
  - pose proof (fo_open_all [] p false st) as H. destruct (open_all cmp p false st) as [st1 [[h|]|e]]; try exact H.
    destruct (get st1 (fst h)) as [nd|] eqn:Ec; [|exact H]. cbn [fst] in *. keep H.
  - pose proof (fo_open_all [] p false st) as H. destruct (open_all cmp p false st) as [st1 [[h|]|e]]; try exact H.
    destruct (get st1 (fst h)) as [nd|] eqn:Ec; exact H.
  - pose proof (fo_open_all [] p false st) as H. now destruct (open_all cmp p false st) as [st1 [[h|]|e]].
  - destruct (existsb _ _); [|apply fo_refl]. destruct (get st id) as [nd|]; [|apply fo_refl]. destruct (_ =? _)%N; apply fo_refl.
  - destruct (existsb _ _); [apply fo_refl|apply fo_set_parent].
Qed.
End Spelling.

(** ** Names that are stored *)
Lemma split_no_slash : forall s w, In w (split_slash s) -> ~ In slash w.
Proof.
  induction s as [|c s IH]; intros w; cbn [split_slash].
  - intros [<-|[]] [].
  - destruct (Byte.eqb c slash) eqn:E.
    + intros [<-|H]; [intros []|exact (IH w H)].
    + destruct (split_slash s) as [|x xs] eqn:Es.
      * intros [<-|[]] [H|[]]. subst c. rewrite byte_eqb_refl in E. discriminate E.
      * intros [<-|H]; [|apply IH; now right]. intros [H|H]; [subst c; rewrite byte_eqb_refl in E; discriminate E|].
        exact (IH x (or_introl eq_refl) H).
Qed.
Lemma comps_no_slash p w : In w (path_comps p) -> ~ In slash w.
Proof. unfold path_comps. intros H. apply filter_In in H as [H _]. exact (split_no_slash p w H). Qed.
Lemma comps_not_nil p w : In w (path_comps p) -> w <> [].
Proof. unfold path_comps. intros H. apply filter_In in H as [_ H]. intros ->. discriminate H. Qed.
Lemma last_in {A} (l : list A) d : l <> [] -> In (last l d) l.
Proof.
  induction l as [|x l IH]; [congruence|]. intros _. destruct l as [|y l]; [now left|]. right. apply IH. discriminate.
Qed.
Lemma end_no_slash p : ~ In slash (last (path_comps p) []).
Proof.
  destruct (path_comps p) as [|a l] eqn:E; [intros []|]. rewrite <- E. apply (comps_no_slash p). apply last_in. rewrite E. discriminate.
Qed.
Lemma spelt_no_slash o n : In n (spelt o) -> ~ In slash n.
Proof.
  destruct o; cbn [spelt]; intros H; repeat (destruct H as [<-|H]; [apply end_no_slash|]); destruct H.
Qed.
Lemma run_names cmp ops : forall st, (forall d n x ty, shows st d n x ty -> length n <= 255 /\ ~ In slash n) ->
  forall d n x ty, shows (fs_run cmp ops st) d n x ty -> length n <= 255 /\ ~ In slash n.
Proof.
  induction ops as [|o ops IH]; intros st H; [exact H|]. cbn [fs_run]. apply IH. intros d n x ty Hs.
  destruct (spelling cmp o st d n x ty Hs) as [Hs'|[H1 H2]]; [exact (H d n x ty Hs')|]. split; [exact H2|exact (spelt_no_slash o n H1)].
Qed.
Lemma reached_names cmp st : reached cmp st -> forall d n x ty, shows st d n x ty -> length n <= 255 /\ ~ In slash n.
Proof.
  intros (ops & _ & _ & <-). apply run_names. intros d n x ty (nd & Hg & Hin). unfold get, new_repo in Hg. cbn [nodes nget] in Hg.
  destruct (bytes_eqb root_id d); [|discriminate Hg]. injection Hg as <-. destruct Hin.
Qed.

(** ** getpath *)
Lemma shows_set_parent st id p d n x ty : shows (set_parent id p st) d n x ty <-> shows st d n x ty.
Proof.
  unfold set_parent. destruct (get st id) as [nd|] eqn:E; [|tauto]. unfold shows. rewrite get_put.
  destruct (bytes_eqb id d) eqn:Ed; [|tauto]. apply bytes_eqb_eq in Ed. subst d. rewrite E.
  split; (intros (m & Hm & Hin); injection Hm as <-; eexists; split; [reflexivity|exact Hin]).
Qed.
Lemma as_shown_imp st st' d names x : (forall d n x ty, shows st d n x ty -> shows st' d n x ty) ->
  as_shown st d names x -> as_shown st' d names x.
Proof. intros H. induction 1; econstructor; eauto. Qed.

Section Getpath.
Variable U : unicode.
Variable fold : bytes -> list N.
Hypothesis HU : unicode_ok U fold.
Variable ci un : bool.
Notation cmp := (dir_name_comparison U ci un).
Notation key := (name_key U fold ci un).

Lemma walk_alike : forall ps qs, Forall2 (alike key) ps qs -> forall pid h st,
  getpath_walk cmp ps pid h st = getpath_walk cmp qs pid h st.
Proof.
  intros ps qs H. induction H as [|a b ps qs Hab H IH]; [reflexivity|]. intros pid h st. cbn [getpath_walk].
  rewrite (get_entry_alike U fold HU ci un h a b st Hab). destruct (get_entry cmp h b st) as [[e|]|]; try reflexivity.
  destruct (open_as (e_id e) (e_type e) st) as [child|]; [|reflexivity]. now rewrite IH.
Qed.

Lemma get_entry_some h s st e : get_entry cmp h s st = Ok (Some e) ->
  length s <= 255 /\ key s = key (e_name e) /\ shows st (fst h) (e_name e) (e_id e) (e_type e) /\ snd h = TDIR /\
  exists nd, get st (fst h) = Some nd /\ i_type nd = TDIR /\ find_name cmp s (i_dir nd) = Some e.
Proof.
  unfold get_entry. destruct (cast_as TDIR h st) as [nd|] eqn:Ec; [|discriminate]. cbn [rbind dspec_step].
  destruct (name_too_long s) eqn:El; [discriminate|]. intros [= Hf].
  assert (H2 : snd h = TDIR /\ i_type nd = TDIR).
  { unfold cast_as in Ec. destruct (get st (fst h)) as [nd'|]; [|discriminate Ec]. destruct (snd h =? i_type nd')%N eqn:E1; [|discriminate Ec].
    destruct (snd h =? TDIR)%N eqn:E2; [|discriminate Ec]. injection Ec as ->. apply N.eqb_eq in E1, E2. split; congruence. }
  apply cast_get in Ec. unfold find_name in Hf. apply find_some in Hf as Hf'. destruct Hf' as [Hin Hs]. unfold same_name in Hs.
  refine (conj _ (conj _ (conj _ (conj (proj1 H2) _)))).
  - unfold name_too_long in El. apply Nat.ltb_ge in El. exact El.
  - apply (comparison_eq U fold HU ci un). destruct (cmp s (e_name e)); [reflexivity|discriminate Hs|discriminate Hs].
  - exists nd. split; [exact Ec|]. now destruct e.
  - exists nd. exact (conj Ec (conj (proj2 H2) Hf)).
Qed.
Lemma open_as_id id ty st c : open_as id ty st = Ok c -> c = (id, ty).
Proof.
  unfold open_as. destruct (bytes_eqb id root_id).
  - destruct (ty =? TDIR)%N; [now intros [= <-]|discriminate].
  - destruct (get st id); [|discriminate]. destruct (_ || _); [now intros [= <-]|discriminate].
Qed.

Lemma walk_ok : forall ps pid h st st1 names, getpath_walk cmp ps pid h st = (st1, Ok names) ->
  Forall2 (fun s n => key s = key n /\ length s <= 255) ps names /\ exists x, as_shown st (fst h) names x.
Proof.
  induction ps as [|s ps IH]; intros pid h st st1 names; cbn [getpath_walk].
  - intros [= _ <-]. split; [constructor|]. exists (fst h). constructor.
  - destruct (get_entry cmp h s st) as [[e|]|] eqn:Eg; try discriminate.
    destruct (open_as (e_id e) (e_type e) st) as [child|] eqn:Eo; [|discriminate]. apply open_as_id in Eo. subst child.
    destruct (getpath_walk cmp ps _ _ _) as [st2 [ns|]] eqn:Ew; [|discriminate]. intros [= _ <-].
    apply IH in Ew as (H1 & x & H2). apply get_entry_some in Eg as (G1 & G2 & G3 & _ & _). split; [constructor; auto|].
    exists x. apply (as_cons st (fst h) (e_name e) (e_id e) (e_type e)); [exact G3|].
    cbn [fst] in H2. revert H2. apply as_shown_imp. intros d n y ty. apply shows_set_parent.
Qed.
Lemma shown_names st d names x : as_shown st d names x -> (forall d n x ty, shows st d n x ty -> length n <= 255 /\ ~ In slash n) ->
  Forall (fun n => length n <= 255 /\ ~ In slash n) names.
Proof. intros H HN. induction H; constructor; eauto. Qed.

Lemma comps_text names : Forall (fun n => n <> [] /\ ~ In slash n) names -> path_comps (flat_map (fun n => slash :: n) names) = names.
Proof.
  intros H. destruct names as [|n names]; [reflexivity|].
  exact (names_of_path (n :: names) H).
Qed.

Theorem getpath_ok st path size st1 buf : reached cmp st -> path_comps path <> [] ->
  getpath cmp path size st = (st1, Ok buf) ->
  exists names x, let text := flat_map (fun n => slash :: n) names in
    buf = text ++ repeat x00 (size - length text) /\ length text < size /\
    as_shown st root_id names x /\ paths_alike key path text /\
    getpath cmp text size st = (st1, Ok buf).
Proof.
  intros HR Hn. unfold getpath at 1. rewrite (not_root path Hn).
  destruct (getpath_walk cmp (path_comps path) root_id root_holder st) as [st2 [names|]] eqn:Ew; [|discriminate].
  destruct (size <=? _) eqn:El; [discriminate|]. intros [= <- <-]. apply Nat.leb_gt in El.
  destruct (walk_ok _ _ _ _ _ _ Ew) as (H1 & x & H2). cbn [fst root_holder] in H2.
  pose proof (shown_names _ _ _ _ H2 (reached_names cmp st HR)) as HN.
  assert (HA : Forall2 (alike key) (path_comps path) names).
  { clear - H1 HN. induction H1 as [|s n ps ns [G1 G2] _ IH]; [constructor|]. inversion HN as [|? ? [G3 _] HN']; subst. constructor; [|exact (IH HN')].
    split; auto. }
  assert (HV : Forall (fun n => n <> [] /\ ~ In slash n) names).
  { assert (Hc : forall w, In w (path_comps path) -> w <> []) by (intros w; apply comps_not_nil). clear - HA HN HU Hc.
    induction HA as [|s n ps ns [G1 _] _ IH]; [constructor|]. inversion HN as [|? ? [G3 G4] HN']; subst. constructor; [|apply IH; auto; intros w Hw; apply Hc; now right].
    split; [|exact G4]. intros ->. apply (Hc s (or_introl eq_refl)). apply (key_dots U fold HU ci un s []); [now left|exact G1]. }
  exists names, x. cbn zeta. refine (conj eq_refl (conj El (conj H2 (conj (conj Hn _) _)))).
  - rewrite comps_text by exact HV. exact HA.
  - unfold getpath. rewrite not_root.
    + rewrite comps_text by exact HV. rewrite <- (walk_alike _ _ HA), Ew. apply Nat.leb_gt in El. now rewrite El.
    + rewrite comps_text by exact HV. intros ->. inversion HA as [E|]. now apply Hn.
Qed.

Lemma sf_plain st st' : same_files st st' -> forall ps d, plain_walk cmp st d ps = plain_walk cmp st' d ps.
Proof.
  intros HS. induction ps as [|s ps IH]; intros d; [reflexivity|]. cbn [plain_walk].
  destruct (_ || _); [reflexivity|]. pose proof (sf_get st st' d HS) as Hg. rewrite (sf_name_in cmp st st' d s HS).
  destruct (get st d) as [nd|], (get st' d) as [nd'|]; try discriminate Hg; [|reflexivity].
  assert (Ht : i_type nd = i_type nd') by (cbn in Hg; injection Hg as Hm _ _ _; unfold i_type; now rewrite Hm).
  rewrite Ht. destruct (i_type nd' =? TDIR)%N; [|reflexivity]. destruct (name_in cmp st' d s) as [[x ty]|]; [|reflexivity].
  destruct (ty =? TLINK)%N; [reflexivity|apply IH].
Qed.
Lemma shown_entry st d nd e : get st d = Some nd -> In e (i_dir nd) -> In e (all_entries st).
Proof.
  intros Hg Hin. unfold all_entries. apply in_flat_map. exists (d, nd). split; [|exact Hin]. unfold get in Hg. clear Hin.
  induction (nodes st) as [|[i m] l IH]; [discriminate Hg|]. cbn [nget] in Hg. destruct (bytes_eqb i d) eqn:E.
  - apply bytes_eqb_eq in E. subst i. injection Hg as ->. now left.
  - right. exact (IH Hg).
Qed.
Lemma walk_plain : forall ps pid h st x, Inv cmp [] [] st -> (forall nd, get st (fst h) = Some nd -> i_type nd = snd h) ->
  plain_walk cmp st (fst h) ps = Some x ->
  exists st1 names, getpath_walk cmp ps pid h st = (st1, Ok names) /\ as_shown st (fst h) names x.
Proof.
  induction ps as [|s ps IH]; intros pid h st x HV Hh; cbn [plain_walk getpath_walk].
  - intros [= <-]. exists st, []. split; [reflexivity|constructor].
  - destruct (_ || _) eqn:Ed; [discriminate|]. apply Bool.orb_false_iff in Ed as [_ El]. apply Nat.ltb_ge in El.
    destruct (get st (fst h)) as [nd|] eqn:Eg; [|discriminate]. destruct (i_type nd =? TDIR)%N eqn:Et; [|discriminate]. apply N.eqb_eq in Et.
    unfold name_in. rewrite Eg. destruct (find_name cmp s (i_dir nd)) as [e|] eqn:Ef; [|discriminate]. cbn [option_map].
    destruct (e_type e =? TLINK)%N eqn:Ety; [discriminate|]. intros Hw.
    assert (Hin : In e (i_dir nd)) by (unfold find_name in Ef; now apply find_some in Ef).
    pose proof (shown_entry st (fst h) nd e Eg Hin) as Hall.
    destruct (iv_entries _ _ _ _ HV e Hall) as (ne & Ene & Ete).
    assert (Ege : get_entry cmp h s st = Ok (Some e)).
    { assert (Hs : snd h = TDIR) by (rewrite <- (Hh nd eq_refl); exact Et). unfold get_entry, cast_as. rewrite Eg, Et, Hs, N.eqb_refl. cbn [rbind dspec_step].
      rewrite (short_name s El), Ef. reflexivity. }
    rewrite Ege.
    assert (Hr : e_id e <> root_id).
    { intros Hr. destruct (iv_rootref _ _ _ _ HV) as [Hz _]. unfold refs in Hz. apply length_zero_iff_nil in Hz.
      assert (Hf : In e (filter (fun e0 => bytes_eqb (e_id e0) root_id) (all_entries st))).
      { apply filter_In. split; [exact Hall|]. rewrite Hr. apply bytes_eqb_refl. }
      rewrite Hz in Hf. destruct Hf. }
    assert (Eo : open_as (e_id e) (e_type e) st = Ok (e_id e, e_type e)).
    { unfold open_as. destruct (bytes_eqb (e_id e) root_id) eqn:E; [apply bytes_eqb_eq in E; contradiction|]. rewrite Ene.
      rewrite <- Ete. destruct (iv_types _ _ _ _ HV _ _ Ene) as [->|[->| ->]]; reflexivity. }
    rewrite Eo. cbn [fst].
    destruct (IH (e_id e) (e_id e, e_type e) (set_parent (e_id e) pid st) x) as (st1 & names & Ew & Hs).
    + now apply Inv_set_parent.
    + cbn [fst snd]. intros m Hm. destruct (sf_get_some _ _ _ _ (sf_sym _ _ (sf_set_parent st (e_id e) pid)) Hm) as (m' & Hm' & Hu).
      rewrite Ene in Hm'. injection Hm' as <-. rewrite <- Ete. symmetry. now apply unp_type.
    + cbn [fst]. rewrite <- (sf_plain st _ (sf_set_parent st (e_id e) pid)). exact Hw.
    + rewrite Ew. exists st1, (e_name e :: names). split; [reflexivity|].
      apply (as_cons st (fst h) (e_name e) (e_id e) (e_type e)); [exists nd; split; [exact Eg|now destruct e]|].
      cbn [fst] in Hs. revert Hs. apply as_shown_imp. intros d n y ty. apply shows_set_parent.
Qed.
Lemma walk_same : forall ps pid h st st1 r, getpath_walk cmp ps pid h st = (st1, r) -> same_files st st1.
Proof.
  induction ps as [|s ps IH]; intros pid h st st1 r; cbn [getpath_walk]; [intros [= <- _]; apply sf_refl|].
  destruct (get_entry cmp h s st) as [[e|]|]; try (intros [= <- _]; apply sf_refl).
  destruct (open_as (e_id e) (e_type e) st) as [child|]; [|intros [= <- _]; apply sf_refl].
  destruct (getpath_walk cmp ps _ _ _) as [st2 [ns|]] eqn:Ew; intros [= <- _];
    (eapply sf_trans; [apply (sf_set_parent st (e_id e) pid)|exact (IH _ _ _ _ _ Ew)]).
Qed.
Lemma getpath_same path size st st1 r : getpath cmp path size st = (st1, r) -> same_files st st1.
Proof.
  unfold getpath. destruct (_ || _); [intros [= <- _]; apply sf_refl|].
  destruct (getpath_walk cmp _ _ _ _) as [st2 [ns|]] eqn:Ew; intros [= <- _]; exact (walk_same _ _ _ _ _ _ Ew).
Qed.
Theorem getpath_plain st path size x : reached cmp st -> path_comps path <> [] -> plain_walk cmp st root_id (path_comps path) = Some x ->
  exists st1 names, as_shown st root_id names x /\
    let text := flat_map (fun n => slash :: n) names in
    getpath cmp path size st = (st1, if length text <? size then Ok (text ++ repeat x00 (size - length text)) else Err E_NAMETOOLONG).
Proof.
  intros HR Hn Hw. destruct (reached_Inv cmp (comparison_ok U fold HU ci un) st HR) as [HV _].
  destruct (walk_plain (path_comps path) root_id root_holder st x HV) as (st1 & names & Ew & Hs).
  - cbn [fst snd root_holder]. intros nd Hg. destruct (iv_root _ _ _ _ HV) as (nr & Er & Et & _). rewrite Er in Hg. now injection Hg as <-.
  - exact Hw.
  - exists st1, names. split; [exact Hs|]. cbn zeta. unfold getpath. rewrite (not_root path Hn), Ew.
    destruct (Nat.ltb_spec (length (flat_map (fun n => slash :: n) names)) size) as [Hl|Hl].
    + apply Nat.leb_gt in Hl. now rewrite Hl.
    + apply Nat.leb_le in Hl. now rewrite Hl.
Qed.
End Getpath.

(** ** New names *)
Section New.
Variable U : unicode.
Variable fold : bytes -> list N.
Hypothesis HU : unicode_ok U fold.
Variable ci un : bool.
Notation cmp := (dir_name_comparison U ci un).
Notation key := (name_key U fold ci un).

Lemma distinct_in m : names_distinct cmp m -> forall a b, In a m -> In b m -> key (e_name a) = key (e_name b) -> a = b.
Proof.
  induction m as [|e m IH]; intros Hd a b Ha Hb Hk; [destruct Ha|]. cbn [names_distinct] in Hd. destruct Hd as [Hf Hd].
  assert (Hn : forall c, In c m -> key (e_name e) <> key (e_name c)).
  { intros c Hc E. unfold find_name in Hf. pose proof (List.find_none _ _ Hf c Hc) as H. cbn beta in H. unfold same_name in H.
    assert (E' : cmp (e_name e) (e_name c) = Eq) by now apply (comparison_eq U fold HU). rewrite E' in H. discriminate H. }
  destruct Ha as [<-|Ha], Hb as [<-|Hb]; [reflexivity| | |].
  - exfalso. exact (Hn b Hb Hk).
  - exfalso. apply (Hn a Ha). now symmetry.
  - exact (IH Hd a b Ha Hb Hk).
Qed.

Lemma one_spelling st d n x ty n' x' ty' : reached cmp st -> shows st d n x ty -> shows st d n' x' ty' -> key n = key n' -> n = n' /\ x = x' /\ ty = ty'.
Proof.
  intros HR (nd & Hg & Hin) (nd' & Hg' & Hin') Hk. rewrite Hg in Hg'. injection Hg' as <-.
  destruct (reached_Inv cmp (comparison_ok U fold HU ci un) st HR) as [HV _].
  pose proof (distinct_in _ (iv_names _ _ _ _ HV d nd Hg) _ _ Hin Hin' Hk) as E. injection E as -> -> ->. auto.
Qed.

Lemma new_spelling o path perm x ty data st st' out : reached cmp st -> careful cmp o st -> spelt o = [last (path_comps path) []] ->
  fs_step cmp o st = (st', Ok out) -> made cmp st path x ty perm data st' ->
  exists d, designates cmp st path d (last (path_comps path) []) /\ shows st' d (last (path_comps path) []) x ty.
Proof.
  intros HR HC Hsp E (Hx & (d & n & Hd & Hnone & Hnames) & _).
  destruct (reached_Inv cmp (comparison_ok U fold HU ci un) st HR) as [HV _].
  assert (Hn : n = last (path_comps path) []).
  { destruct Hd as [(-> & _ & ->)|(_ & -> & _)]; reflexivity. }
  subst n. exists d. split; [exact Hd|].
  pose proof (Hnames d (last (path_comps path) [])) as H. unfold set_name in H. rewrite bytes_eqb_refl in H. unfold same_name in H.
  assert (E1 : cmp (last (path_comps path) []) (last (path_comps path) []) = Eq) by now apply (comparison_eq U fold HU).
  rewrite E1 in H. cbn [andb] in H. unfold name_in in H. destruct (get st' d) as [nd'|] eqn:Eg; [|discriminate H].
  destruct (find_name cmp _ (i_dir nd')) as [e|] eqn:Ef; [|discriminate H]. cbn [option_map] in H. injection H as Hid Hty.
  assert (Hin : In e (i_dir nd')) by (unfold find_name in Ef; now apply find_some in Ef).
  assert (Hs : shows st' d (e_name e) (e_id e) (e_type e)) by (exists nd'; split; [exact Eg|now destruct e]).
  pose proof (spelling cmp o st d (e_name e) (e_id e) (e_type e)) as G. rewrite E in G. cbn [fst] in G. destruct (G Hs) as [(nd & Hg & Hin')|[G1 _]].
  - exfalso. destruct (iv_entries _ _ _ _ HV _ (shown_entry st d nd _ Hg Hin')) as (ne & Ene & _). cbn [e_id] in Ene. rewrite Hid, Hx in Ene. discriminate Ene.
  - rewrite Hsp in G1. destruct G1 as [G1|[]]. rewrite G1, <- Hid, <- Hty. exact Hs.
Qed.
End New.

(** ** Normalised paths (lite) *)
Section Lite.
Variable cmac : bytes -> bytes.
Variable keystream : bytes -> nat -> bytes.
Variable blake : bytes -> bytes.
Hypothesis cmac_len : forall m, length (cmac m) = 16.
Hypothesis ks_len : forall iv n, length (keystream iv n) = n.
Hypothesis blake_len : forall m, length (blake m) = 32.
Notation make := (make_translator cmac keystream blake).
Variable threshold : nat.
Variable suffix : bytes.
Variable nfc fold : option (bytes -> res bytes).
Variable g : bytes -> bytes.
Hypothesis Hg : by_names nfc fold g.
Notation tr := (make false threshold suffix None None).
Notation trn := (make false threshold suffix nfc fold).

Lemma trn_encrypt path q r : normal nfc fold path = Ok q -> t_encrypt tr q = Ok r -> t_encrypt trn path = Ok r.
Proof.
  intros Hq E. unfold make_translator in *. set (inner := if 0 <? threshold then _ else _) in *. clearbody inner. cbn iota in E.
  unfold normal in Hq. destruct nfc as [f|], fold as [f'|]; cbn [normalizing t_encrypt rbind] in *.
  - destruct (f path) as [p|]; [|discriminate Hq]. cbn [rbind] in *. rewrite Hq. cbn [rbind]. now rewrite E.
  - destruct (f path) as [p|]; [|discriminate Hq]. cbn [rbind] in *. injection Hq as ->. now rewrite E.
  - rewrite Hq. cbn [rbind]. now rewrite E.
  - injection Hq as ->. exact E.
Qed.
Lemma normal_path_of names : Forall (fun n => n <> [] /\ ~ In slash n) names -> normal_path g (path_of names) = path_of (map g names).
Proof. intros H. unfold normal_path. change (filter _ _) with (names_of (path_of names)). now rewrite names_of_path. Qed.
Lemma normal_fuse path : fuse_path path -> fuse_path (normal_path g path) /\ normal nfc fold path = Ok (normal_path g path) /\
  (path <> [slash] -> normal_path g path <> [slash]).
Proof.
  intros (names & HF & ->). rewrite normal_path_of by exact HF. destruct (Hg names HF) as [H1 H2].
  split; [exists (map g names); auto|]. split; [exact H1|]. intros Hp.
  destruct names as [|n names]; [now contradict Hp|]. cbn [map path_of flat_map app]. intros E. injection E as E.
  cbn [map] in H2. inversion H2 as [|? ? [H3 _] _]; subst. apply H3. now apply app_eq_nil in E.
Qed.

Variable L : list bytes.
Hypothesis HL : names_fit blake false threshold L.
Lemma accepted path : incl (split_slash path) L -> exists r, t_encrypt tr path = Ok r.
Proof.
  intros Hi. unfold names_fit in HL. destruct (Nat.eqb_spec threshold 0) as [E|E].
  - destruct (legacy_names_total cmac keystream blake cmac_len ks_len suffix path) as (P & HP).
    + rewrite Forall_forall in *. intros w Hw. apply HL. now apply Hi.
    + rewrite E. eauto.
  - destruct (new_names_total cmac keystream blake cmac_len ks_len blake_len threshold suffix None None path) as (P & l & HP); [lia|eauto].
Qed.
Lemma trn_same path : fuse_path path -> incl (split_slash (normal_path g path)) L -> t_encrypt trn path = t_encrypt tr (normal_path g path).
Proof.
  intros Hp Hi. destruct (accepted _ Hi) as (r & E). rewrite E. destruct (normal_fuse path Hp) as (_ & Hn & _). exact (trn_encrypt _ _ _ Hn E).
Qed.

Definition op_fits (o : lop) : Prop := Forall (fun p => fuse_path p /\ incl (split_slash (normal_path g p)) L) (op_paths o).
Lemma process_same path act cb fs : t_encrypt trn path = t_encrypt tr (normal_path g path) ->
  process trn path act cb fs = process tr (normal_path g path) act cb fs.
Proof. intros E. unfold process. now rewrite E. Qed.
Lemma step_normal o fs : op_fits o -> lite_step trn o fs = lite_step tr (normal_op g o) fs.
Proof.
  intros H. unfold op_fits in H. destruct o as [p c x i b l|p b|p i b|p q b|p b|p b|p q b]; cbn [op_paths normal_op lite_step] in *;
    inversion H as [|? ? [Hp Hi] H']; subst; pose proof (trn_same _ Hp Hi) as E.
  - destruct c; [now apply process_same|now rewrite E].
  - now apply process_same.
  - now apply process_same.
  - inversion H' as [|? ? [Hp' Hi'] _]; subst. pose proof (trn_same _ Hp' Hi') as E'. unfold process. rewrite E', E. reflexivity.
  - now apply process_same.
  - now apply process_same.
  - inversion H' as [|? ? [Hp' Hi'] _]; subst. pose proof (trn_same _ Hp' Hi') as E'. unfold lite_rename. now rewrite E, E'.
Qed.
Lemma history_normal ops : Forall op_fits ops -> forall fs,
  lite_answers trn ops fs = lite_answers tr (map (normal_op g) ops) fs /\ lite_run trn ops fs = lite_run tr (map (normal_op g) ops) fs.
Proof.
  induction 1 as [|o ops Ho _ IH]; intros fs; [split; reflexivity|]. cbn [map lite_answers lite_run].
  rewrite (step_normal o fs Ho). destruct (IH (fst (lite_step tr (normal_op g o) fs))) as [-> ->]. split; reflexivity.
Qed.
Lemma op_paths_normal o : op_paths (normal_op g o) = map (normal_path g) (op_paths o).
Proof. now destruct o. Qed.
Lemma from_fuse_normal o : from_fuse o -> from_fuse (normal_op g o).
Proof.
  unfold from_fuse. rewrite op_paths_normal, Forall_map. apply Forall_impl. intros p [H1 H2].
  destruct (normal_fuse p H1) as (G1 & _ & G2). auto.
Qed.
Lemma fits ops : Forall from_fuse ops -> incl (op_names (map (normal_op g) ops)) L -> Forall op_fits ops.
Proof.
  intros HF HI. rewrite Forall_forall in *. intros o Ho. unfold op_fits. rewrite Forall_forall. intros p Hp.
  pose proof (HF o Ho) as H. unfold from_fuse in H. rewrite Forall_forall in H. split; [apply (H p Hp)|].
  intros w Hw. apply HI. unfold op_names. apply in_flat_map. exists (normal_path g p). split; [|exact Hw].
  apply in_flat_map. exists (normal_op g o). split; [now apply in_map|]. rewrite op_paths_normal. now apply in_map.
Qed.
Lemma found_normal fs path : fuse_path path -> incl (split_slash (normal_path g path)) L -> found trn fs path = found tr fs (normal_path g path).
Proof. intros Hp Hi. unfold found. now rewrite (trn_same path Hp Hi). Qed.
End Lite.
