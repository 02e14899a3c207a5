(** A lite repository as a whole behaves as the plain file system of [LiteFsSpec]. *)
From Verif Require Import Base BaseLemmas StreamSpec BlockModel BlockProofs LiteModel LiteProofs LiteTamper
  NameModel HandleModel HandleSpec HandleProofs LongNameModel LongNameSpec LongNameProofs LiteTreeSpec LiteFsModel LiteFsSpec NameTop.

(** ** The files that the plain tree names *)
Definition nodes (P : nat -> Prop) (v : hfs) : Prop := forall q es c j, v q = Some es -> ent c es = Some (KFile j) -> P j.
Definition ents (P : nat -> Prop) (es : hents) : Prop := forall c j, ent c es = Some (KFile j) -> P j.

Lemma ents_put P c k es : ents P es -> (forall j, k = KFile j -> P j) -> ents P (ent_put c k es).
Proof.
  intros H Hk d j E. destruct (bytes_dec c d) as [->|N]; [rewrite ent_put_eq in E; injection E as E; exact (Hk _ E)|].
  rewrite ent_put_ne in E by exact N. exact (H _ _ E).
Qed.
Lemma ents_del P c es : ents P es -> ents P (ent_del c es).
Proof.
  intros H d j E. destruct (bytes_dec c d) as [->|N]; [rewrite ent_del_eq in E; discriminate|].
  rewrite ent_del_ne in E by exact N. exact (H _ _ E).
Qed.
Lemma nodes_at P v q es : nodes P v -> v q = Some es -> ents P es.
Proof. intros H E c j Hj. exact (H _ _ _ _ E Hj). Qed.
Lemma hset_case v p x q es : hset v p x q = Some es -> x = Some es \/ v q = Some es.
Proof. unfold hset. destruct (hpath_eqb p q); auto. Qed.
Lemma nodes_set P v p x : nodes P v -> (forall es, x = Some es -> ents P es) -> nodes P (hset v p x).
Proof.
  intros H Hx q es c j E Hj. apply hset_case in E as [E|E]; [exact (Hx _ E _ _ Hj)|exact (H _ _ _ _ E Hj)].
Qed.
Lemma nodes_move P v a b : nodes P v -> nodes P (h_move a b v).
Proof.
  intros H q es c j E Hj. unfold h_move in E. destruct (strip_prefix b q); [exact (H _ _ _ _ E Hj)|].
  destruct (strip_prefix a q); [discriminate E|exact (H _ _ _ _ E Hj)].
Qed.
Lemma nodes_open P v bad creat excl ino p : nodes P v -> (creat = true -> P ino) -> nodes P (fst (h_open bad creat excl ino p v)).
Proof.
  intros H Hi. unfold h_open. destruct bad; [exact H|]. destruct p as [|x p]; [exact H|].
  destruct (v (parent (x :: p))) as [es|] eqn:E; [|exact H].
  destruct (ent (leaf (x :: p)) es) as [[| |]|]; try exact H. destruct creat; [|exact H]. cbn [fst].
  apply nodes_set; [exact H|]. intros es' [= <-]. apply ents_put; [exact (nodes_at _ _ _ _ H E)|]. intros j [= <-]. auto.
Qed.
Definition new_ino (o : lop) : option nat :=
  match o with LOpen _ true _ ino _ _ | LSymlink _ ino _ => Some ino | _ => None end.
Lemma nodes_plain P o v : nodes P v -> (forall i, new_ino o = Some i -> P i) -> nodes P (fst (plain_step o v)).
Proof.
  intros H Hi. destruct o as [path creat excl ino bad late|path bad|path ino bad|src dest bad|path bad|path bad|from to bad]; cbn [plain_step].
  - pose proof (nodes_open P v bad creat excl ino (names_of path) H) as Q.
    destruct (h_open bad creat excl ino (names_of path) v) as [v1 [[]|e]]; cbn [fst] in *; apply Q; intros ->; apply Hi; reflexivity.
  - unfold h_mkdir. destruct bad; [exact H|]. destruct (names_of path) as [|x p]; [exact H|].
    destruct (v (parent (x :: p))) as [es|] eqn:E; [|exact H]. destruct (ent (leaf (x :: p)) es); [exact H|]. cbn [fst].
    apply nodes_set; [apply nodes_set; [exact H|]|].
    + intros es' [= <-]. apply ents_put; [exact (nodes_at _ _ _ _ H E)|discriminate].
    + intros es' [= <-] c j Hj. discriminate Hj.
  - apply nodes_open; [exact H|]. intros _. apply Hi. reflexivity.
  - unfold h_link. destruct bad; [exact H|]. destruct (names_of src) as [|x p]; [exact H|]. destruct (names_of dest) as [|y q]; [exact H|].
    destruct (v (parent (x :: p))) as [es|] eqn:E; [|exact H]. destruct (v (parent (y :: q))) as [ed|] eqn:E'; [|exact H].
    destruct (ent (leaf (x :: p)) es) as [[i| |]|] eqn:F, (ent (leaf (y :: q)) ed); try exact H. cbn [fst].
    apply nodes_set; [exact H|]. intros es' [= <-]. apply ents_put; [exact (nodes_at _ _ _ _ H E')|]. intros j [= <-]. exact (H _ _ _ _ E F).
  - unfold h_unlink. destruct bad; [exact H|]. destruct (names_of path) as [|x p]; [exact H|].
    destruct (v (parent (x :: p))) as [es|] eqn:E; [|exact H].
    destruct (ent (leaf (x :: p)) es) as [[| |]|]; try exact H; cbn [fst]; (apply nodes_set; [exact H|]); intros es' [= <-]; apply ents_del; exact (nodes_at _ _ _ _ H E).
  - unfold h_rmdir. destruct bad; [exact H|]. destruct (names_of path) as [|x p]; [exact H|].
    destruct (v (parent (x :: p))) as [es|] eqn:E; [|exact H].
    destruct (ent (leaf (x :: p)) es) as [[| |]|]; try exact H. destruct (v (x :: p)) as [[|]|]; try exact H. cbn [fst].
    apply nodes_set; [apply nodes_set; [exact H|]|discriminate]. intros es' [= <-]. apply ents_del; exact (nodes_at _ _ _ _ H E).
  - unfold h_rename. destruct bad; [exact H|]. destruct (names_of from) as [|x p]; [exact H|]. destruct (names_of to) as [|y q]; [exact H|].
    set (a := x :: p). set (b := y :: q).
    destruct (v (parent a)) as [ea|] eqn:E; [|exact H]. destruct (v (parent b)) as [eb|] eqn:E'; [|exact H].
    destruct (ent (leaf a) ea) as [k|] eqn:F; [|exact H]. destruct (hpath_eqb a b); [exact H|].
    set (go := match hset v (parent a) _ (parent b) with Some _ => _ | None => _ end).
    assert (G : nodes P (fst go)).
    { subst go. set (v1 := hset v (parent a) (Some (ent_del (leaf a) ea))).
      assert (H1 : nodes P v1) by (apply nodes_set; [exact H|]; intros es' [= <-]; apply ents_del; exact (nodes_at _ _ _ _ H E)).
      destruct (v1 (parent b)) as [eb1|] eqn:E1; [|exact H].
      assert (H2 : nodes P (hset v1 (parent b) (Some (ent_put (leaf b) k eb1)))).
      { apply nodes_set; [exact H1|]. intros es' [= <-]. apply ents_put; [exact (nodes_at _ _ _ _ H1 E1)|]. intros j ->. exact (H _ _ _ _ E F). }
      cbn [fst]. destruct k; try exact H2. apply nodes_move. exact H2. }
    destruct k as [i| |m].
    + destruct (ent (leaf b) eb) as [[j| |]|]; try exact G; [destruct (i =? j); [exact H|exact G]|exact H].
    + destruct (strip_prefix a b); [exact H|]. destruct (ent (leaf b) eb) as [[| |]|]; try exact G; try exact H.
      destruct (v b) as [[|]|]; try exact H; exact G.
    + destruct (ent (leaf b) eb) as [[j| |]|]; try exact G; exact H.
Qed.
Lemma nodes_imp (P Q : nat -> Prop) v : (forall j, P j -> Q j) -> nodes P v -> nodes Q v.
Proof. intros I H q es c j E Hj. exact (I _ (H _ _ _ _ E Hj)). Qed.
Lemma nodes_found P v path j : nodes P v -> plain_found v path = Some (KFile j) -> P j.
Proof.
  intros H E. unfold plain_found in E. destruct (names_of path) as [|x p]; [discriminate E|].
  destruct (v (parent (x :: p))) as [es|] eqn:F; [|discriminate E]. exact (H _ _ _ _ F E).
Qed.

Lemma node_reg i : node_of (KFile (reg_ino i)) = NReg i.
Proof. unfold node_of, reg_ino. rewrite Nat.even_mul. change (Nat.even 2) with true. cbn [orb]. rewrite Nat.div2_double. reflexivity. Qed.
Lemma node_link i : node_of (KFile (link_ino i)) = NLink i.
Proof.
  unfold node_of, link_ino. rewrite Nat.add_1_r, Nat.even_succ, Nat.odd_mul. change (Nat.odd 2) with false. cbn [andb].
  rewrite Nat.div2_succ_double. reflexivity.
Qed.

(** ** Contents *)
Section Sim.
Variable A : aead.
Variable bs iv_size : nat.
Variable check sparse : bool.
Variable session_key : bytes -> bytes.
Variable padding_of : bytes -> nat.
Variable padded : bool.
Variable rnd : nat -> nat -> bytes.
Variable iv_fuel : nat.
Hypothesis HE : lite_env_ok A bs iv_size rnd iv_fuel.
Hypothesis HP : padded = false -> forall id, padding_of id = 0.

Local Notation lim := (lite_max_blocks * bs).
Local Notation Rel := (rel A bs iv_size check session_key padding_of).
Local Notation Holds := (holds A bs iv_size check session_key padding_of).
Local Notation oi := (open_inode A bs iv_size check sparse session_key padding_of rnd iv_fuel).

Lemma rel_ext s p s' p' : Rel s p -> (forall x, h_names s' x = h_names s x) -> (forall i, h_files s' i = h_files s i) ->
  (forall h, h_handles s' h = h_handles s h) -> h_next s' = h_next s ->
  (forall x, p_names p' x = p_names p x) -> (forall i, p_files p' i = p_files p i) -> (forall h, p_handles p' h = p_handles p h) ->
  p_next p' = p_next p -> Rel s' p'.
Proof.
  intros [R1 R2 R3 R4 R5 R6] A1 A2 A3 A4 B1 B2 B3 B4. constructor.
  - intros x. rewrite A1, B1. apply R1.
  - congruence.
  - intros x i. rewrite B1, B4. apply R3.
  - intros i. rewrite B2, B4. apply R4.
  - intros i c g. rewrite A2, B2. apply R5.
  - intros h. specialize (R6 h). rewrite A3, B3. destruct (p_handles p h) as [[i g]|], (h_handles s h) as [[[j key] pad]|]; try exact R6.
    destruct R6 as (-> & Hi & R6). split; [reflexivity|]. split; [rewrite B4; exact Hi|]. intros c g' f. rewrite A2, B2. apply R6.
Qed.

(** A new file. *)
Lemma rel_new s p f key pad g rng : Rel s p -> Holds f key pad [] ->
  Rel (mkH (h_names s) (fupd (h_files s) (h_next s) (Some f)) (h_handles s) (S (h_next s)) rng)
      (mkP (p_names p) (fupd (p_files p) (p_next p) (Some ([], g))) (p_handles p) (S (p_next p))).
Proof.
  intros [R1 R2 R3 R4 R5 R6] Hl. rewrite R2.
  constructor; cbn [h_names h_files h_handles h_next p_names p_files p_handles p_next].
  - exact R1.
  - reflexivity.
  - intros z j Hz. apply R3 in Hz. lia.
  - intros j Hj. destruct (Nat.eq_dec (p_next p) j) as [->|N]; [rewrite fupd_eq; discriminate|].
    rewrite fupd_ne by assumption. apply R4. lia.
  - intros j c g0 Hj. destruct (Nat.eq_dec (p_next p) j) as [<-|N].
    + rewrite fupd_eq in Hj. rewrite fupd_eq. injection Hj as <- <-. exists f, key, pad. auto.
    + rewrite fupd_ne in Hj by assumption. rewrite !fupd_ne by assumption. eauto.
  - intros h'. specialize (R6 h').
    destruct (p_handles p h') as [[j g1]|], (h_handles s h') as [[[j' key'] pad']|]; try exact R6.
    destruct R6 as (-> & Hj & R6). split; [reflexivity|]. split; [lia|].
    intros c0 g0 f0 Hc Hf. rewrite fupd_ne in Hc by lia. rewrite fupd_ne in Hf by lia. eauto.
Qed.

Lemma open_new s p trunc : Rel s p ->
  exists s1 f key pad, oi (new_file s) (h_next s) trunc = (s1, Ok (key, pad)) /\ h_files s1 (h_next s) = Some f /\ Holds f key pad [] /\
    Rel s1 (mkP (p_names p) (fupd (p_files p) (p_next p) (Some ([], if trunc then 1 else 0))) (p_handles p) (S (p_next p))).
Proof.
  intros R. unfold open_inode, new_file. cbn [h_files h_rng]. rewrite fupd_eq.
  destruct (holds_fresh A bs iv_size check session_key padding_of padded rnd iv_fuel HE HP (h_rng s)) as (l & El & Hl).
  destruct trunc; cbv iota; rewrite El.
  - unfold io. cbn [set_file h_files h_rng]. rewrite fupd_eq.
    destruct (holds_io A bs iv_size check sparse session_key padding_of rnd iv_fuel HE _ _ _ [] (l_rng l) (SResize 0) Hl ltac:(cbn; lia)) as (l' & E' & H').
    rewrite E'. cbn [spec_step fst snd] in *. change (arr_resize [] 0) with (@nil byte) in H'.
    eexists _, (l_file l'), (l_key l), (l_pad l). split; [reflexivity|].
    split; [cbn [set_file h_files]; apply fupd_eq|]. split; [exact H'|].
    eapply rel_ext; [exact (rel_new s p _ _ _ 1 0 R H')|..]; cbn [set_file h_names h_files h_handles h_next p_names p_files p_handles p_next]; try reflexivity.
    intros j. destruct (Nat.eq_dec (h_next s) j) as [->|N]; [rewrite !fupd_eq; reflexivity|rewrite !fupd_ne by assumption; reflexivity].
  - eexists _, (l_file l), (l_key l), (l_pad l). split; [reflexivity|].
    split; [cbn [set_file h_files]; apply fupd_eq|]. split; [exact Hl|].
    eapply rel_ext; [exact (rel_new s p _ _ _ 0 0 R Hl)|..]; cbn [set_file h_names h_files h_handles h_next p_names p_files p_handles p_next]; try reflexivity.
    intros j. destruct (Nat.eq_dec (h_next s) j) as [->|N]; [rewrite !fupd_eq; reflexivity|rewrite !fupd_ne by assumption; reflexivity].
Qed.

(** ** Names *)
Variable trans : translator.
Variable link_max : nat.
Variable tab : bool.
Variable RN : hfs -> hfs -> Prop.
Variable okp okq : bytes -> Prop.
Variable linkable : bytes -> Prop.
Definition always_same (o : lop) : Prop := match o with LOpen _ false _ _ _ _ => True | _ => False end.
Hypothesis step_RN : forall o v h, RN v h -> Forall okp (op_paths o) ->
  (RN (fst (plain_step o v)) (fst (lite_step trans o h)) /\ snd (lite_step trans o h) = snd (plain_step o v)) \/
  (~ always_same o /\ exists e, tab = true /\ may_refuse v o e /\ RN v (fst (lite_step trans o h)) /\ snd (lite_step trans o h) = Err e).
Hypothesis locate_RN : forall v h path, RN v h -> okq path ->
  locate trans h path = match plain_found v path with Some k => Ok k | None => Err LongNameModel.ENOENT end.
Hypothesis okp_okq : forall path, okp path -> okq path.
Hypothesis linkable_ok : forall t, linkable t ->
  exists stored, t_link_enc trans t = Ok stored /\ t_link_dec trans stored = Ok t /\ ~ In x00 stored /\ ~ In x00 t /\ length stored <= 30 * S (length t).
Hypothesis link_dec_nil : t_link_dec trans [] = Ok [].

Definition pst_of (p : pfs) : pst := mkP (fun _ => None) (pf_files p) (pf_handles p) (pf_next p).
Definition known (p : pfs) (j : nat) : Prop := Nat.div2 j < (if Nat.even j then pf_next p else pf_nlinks p).
Record LR (s : lst) (p : pfs) : Prop := {
  lr_tree : RN (pf_tree p) (ls_tree s);
  lr_rel : Rel (ls_h s) (pst_of p);
  lr_nl : ls_nlinks s = pf_nlinks p;
  lr_nodes : nodes (known p) (pf_tree p);
  lr_links : forall i, i < pf_nlinks p -> exists t stored, pf_links p i = Some t /\ ls_links s i = Some stored /\
               linkable t /\ t_link_enc trans t = Ok stored /\ length stored <= link_max }.

Lemma lr_known s p path j : LR s p -> plain_found (pf_tree p) path = Some (KFile j) -> known p j.
Proof. intros H. apply nodes_found. apply H. Qed.

Lemma lr_tree_set s p v t : LR s p -> RN v t -> nodes (known p) v -> LR (set_tree s t) (with_tree p v).
Proof. intros [H1 H2 H3 H4 H5] H6 H7. constructor; assumption. Qed.

Lemma h_open_found v bad creat excl ino path v1 :
  h_open bad creat excl ino (names_of path) v = (v1, Ok tt) ->
  (v1 = v /\ plain_found v path <> None /\ plain_found v path <> Some KDir /\ creat && excl = false) \/
  (creat = true /\ plain_found v path = None /\ plain_found v1 path = Some (KFile ino)).
Proof.
  unfold h_open, plain_found. destruct bad; [discriminate|]. destruct (names_of path) as [|x p] eqn:En; [discriminate|].
  destruct (v (parent (x :: p))) as [es|] eqn:E; [|discriminate].
  destruct (ent (leaf (x :: p)) es) as [[i| |m]|] eqn:F; try discriminate.
  - intros H. left. destruct (creat && excl); [discriminate H|]. injection H as <-. split; [reflexivity|]. split; [congruence|]. split; [congruence|reflexivity].
  - intros H. left. destruct (creat && excl); [discriminate H|]. injection H as <-. split; [reflexivity|]. split; [congruence|]. split; [congruence|reflexivity].
  - destruct creat; [|discriminate]. intros [= <-]. right. split; [reflexivity|]. split; [reflexivity|]. rewrite hset_eq. apply ent_put_eq.
Qed.

(** Opening. *)
Definition opened (s : lst) (p : pfs) (i : nat) (key pad : bytes) : Prop :=
  LR s p /\ i < pf_next p /\ exists c g f, pf_files p i = Some (c, g) /\ h_files (ls_h s) i = Some f /\ Holds f key pad c.

Lemma open_sim s p path creat excl trunc bad : LR s p -> okp path -> creat && excl = true \/ not_link p path ->
  let vo := v_open A bs iv_size check sparse session_key padding_of rnd iv_fuel trans s path creat excl trunc bad in
  let po := p_open p path creat excl trunc bad in
  (exists s1 p1 i key pad, vo = (s1, Ok (i, key, pad)) /\ po = (p1, Ok i) /\ opened s1 p1 i key pad) \/
  (exists s1 p1 e, vo = (s1, Err e) /\ po = (p1, Err e) /\ LR s1 p1) \/
  (creat = true /\ exists s1 e, vo = (s1, Err e) /\ tab = true /\ LR s1 p /\
     may_refuse (pf_tree p) (LOpen path creat excl (reg_ino (pf_next p)) bad None) e).
Proof.
  intros L Hp Hl vo po. subst vo po. unfold v_open, p_open.
  assert (Hnx : h_next (ls_h s) = pf_next p) by apply (r_next _ _ _ _ _ _ _ _ (lr_rel _ _ L)).
  rewrite Hnx. set (o := LOpen path creat excl (reg_ino (pf_next p)) bad None).
  destruct (step_RN o _ _ (lr_tree _ _ L) ltac:(constructor; [exact Hp|constructor])) as [[S1 S2]|(Hns & e & Ht & Hm & S1 & S2)].
  2:{ right. right. split; [destruct creat; [reflexivity|contradiction Hns; exact I]|].
      destruct (lite_step trans o (ls_tree s)) as [t1 r]. cbn [fst snd] in *. subst r.
      exists (set_tree s t1), e. split; [reflexivity|]. split; [exact Ht|]. split; [|exact Hm].
      pose proof (lr_tree_set s p (pf_tree p) t1 L S1 (lr_nodes _ _ L)) as Q. destruct p; exact Q. }
  assert (Hn : creat = true -> known p (reg_ino (pf_next p)) \/ True) by auto.
  assert (Hpl : plain_step o (pf_tree p) = h_open bad creat excl (reg_ino (pf_next p)) (names_of path) (pf_tree p)).
  { unfold o. cbn [plain_step]. destruct (h_open bad creat excl _ (names_of path) (pf_tree p)) as [v1 [[]|e]]; reflexivity. }
  rewrite Hpl in S1, S2. destruct (lite_step trans o (ls_tree s)) as [t1 r] eqn:El.
  destruct (h_open bad creat excl (reg_ino (pf_next p)) (names_of path) (pf_tree p)) as [v1 r'] eqn:Eo. cbn [fst snd] in *. subst r'.
  destruct r as [[]|e].
  2:{ right. left. exists (set_tree s t1), (with_tree p v1), e. split; [reflexivity|]. split; [reflexivity|].
      apply lr_tree_set; [exact L|exact S1|].
      (* a refused open changes nothing *)
      assert (v1 = pf_tree p) as ->; [|apply L].
      clear - Eo. unfold h_open in Eo. destruct bad; [injection Eo as <- _; reflexivity|]. destruct (names_of path) as [|x0 q0]; [injection Eo as <- _; reflexivity|].
      destruct (pf_tree p (parent (x0 :: q0))) as [es0|]; [|injection Eo as <- _; reflexivity].
      destruct (ent (leaf (x0 :: q0)) es0) as [[| |]|]; try (injection Eo as <- _; reflexivity).
      destruct creat; [discriminate Eo|injection Eo as <- _; reflexivity]. }
  rewrite (locate_RN _ _ path S1 (okp_okq _ Hp)).
  assert (Eat : at_path (with_tree p v1) path = option_map node_of (plain_found v1 path)) by reflexivity.
  rewrite Eat. clear Eat.
  destruct (h_open_found _ _ _ _ _ _ _ Eo) as [(Ev & Hf1 & Hf2 & Hce)|(Hc & Hf1 & Hf2)].
  - (* an existing file *)
    subst v1. destruct (plain_found (pf_tree p) path) as [k|] eqn:Ef; [|congruence]. cbn [option_map].
    assert (L1 : LR (set_tree s t1) (with_tree p (pf_tree p))) by (apply lr_tree_set; [exact L|exact S1|apply L]).
    destruct (node_of k) as [|i|i|] eqn:Ek.
    + right. left. exists (set_tree s t1), (with_tree p (pf_tree p)), EUndef. auto.
    + destruct k as [j| |]; try discriminate Ek. pose proof (lr_known _ _ _ _ L Ef) as Kj. unfold known in Kj. unfold node_of in Ek.
      destruct (Nat.even j); [|discriminate Ek]. injection Ek as Ek. rewrite Ek in Kj. cbn [with_tree pf_files pf_next].
      destruct (Nat.eqb_spec i (pf_next p)) as [X|_]; [lia|].
      pose proof (r_file_ex _ _ _ _ _ _ _ _ (lr_rel _ _ L) i Kj) as Hex. cbn [pst_of p_files] in Hex.
      cbn [with_tree pf_files]. destruct (pf_files p i) as [[c g]|] eqn:Ec; [|congruence].
      left. destruct trunc.
      * destruct (open_trunc A bs iv_size check sparse session_key padding_of padded rnd iv_fuel HE HP (ls_h s) (pst_of p) i c g (lr_rel _ _ L) Ec) as (h1 & f & key & pad & E & R1 & Hf & H).
        rewrite E. eexists _, _, i, key, pad. split; [reflexivity|]. split; [reflexivity|].
        split; [|split; [exact Kj|exists [], (S g), f; cbn [with_file pf_files]; rewrite fupd_eq; auto]].
        destruct L1 as [Q1 Q2 Q3 Q4 Q5]. constructor; try assumption.
      * destruct (open_plain A bs iv_size check sparse session_key padding_of rnd iv_fuel HE (ls_h s) (pst_of p) i c g (lr_rel _ _ L) Ec) as (h1 & f & key & pad & E & R1 & Hf & H & _).
        rewrite E. eexists _, _, i, key, pad. split; [reflexivity|]. split; [reflexivity|].
        split; [|split; [exact Kj|exists c, g, f; auto]].
        destruct L1 as [Q1 Q2 Q3 Q4 Q5]. constructor; try assumption.
    + exfalso. destruct Hl as [Hl|Hl]; [congruence|]. apply (Hl i). unfold at_path. rewrite Ef. cbn [option_map]. congruence.
    + right. left. exists (set_tree s t1), (with_tree p (pf_tree p)), EUndef. auto.
  - (* a new one *)
    rewrite Hf2. cbn [option_map]. rewrite node_reg, Nat.eqb_refl.
    destruct (open_new (ls_h s) (pst_of p) trunc (lr_rel _ _ L)) as (h1 & f & key & pad & E & Hf & H & R1).
    rewrite Hnx in E, Hf. rewrite E. left. cbn [with_new with_tree pf_files pf_next]. rewrite fupd_eq.
    eexists _, _, (pf_next p), key, pad. split; [reflexivity|]. split; [reflexivity|].
    set (p2 := if trunc then _ else _).
    assert (Hp2 : forall j, pf_files p2 j = fupd (pf_files p) (pf_next p) (Some ([], if trunc then 1 else 0)) j).
    { intros j. unfold p2. destruct trunc; [|reflexivity]. cbn [with_file with_new with_tree pf_files].
      destruct (Nat.eq_dec (pf_next p) j) as [->|N]; [rewrite !fupd_eq; reflexivity|rewrite !fupd_ne by assumption; reflexivity]. }
    assert (Hrest : pf_tree p2 = v1 /\ pf_handles p2 = pf_handles p /\ pf_next p2 = S (pf_next p) /\ pf_links p2 = pf_links p /\ pf_nlinks p2 = pf_nlinks p)
      by (unfold p2; destruct trunc; auto).
    destruct Hrest as (Z1 & Z2 & Z3 & Z4 & Z5).
    split; [|split; [lia|exists [], (if trunc then 1 else 0), f; rewrite Hp2, fupd_eq; auto]].
    constructor.
    + rewrite Z1. exact S1.
    + eapply rel_ext; [exact R1|..]; cbn [set_h set_tree ls_h pst_of p_names p_files p_handles p_next]; try reflexivity; try assumption.
      intros h. rewrite Z2. reflexivity.
    + rewrite Z5. apply L.
    + rewrite Z1. assert (Hk : forall j, known p j -> known p2 j) by (unfold known; intros j; rewrite Z3, Z5; destruct (Nat.even j); lia).
      pose proof (nodes_open (known p2) (pf_tree p) bad creat excl (reg_ino (pf_next p)) (names_of path)
                    (nodes_imp _ _ _ Hk (lr_nodes _ _ L))) as Q.
      rewrite Eo in Q. apply Q. intros _. unfold known, reg_ino. rewrite Nat.even_mul. change (Nat.even 2) with true. cbn [orb].
      rewrite Nat.div2_double, Z3. lia.
    + intros i. rewrite Z4, Z5. apply L.
Qed.

(** ** One call *)
Variable old : bool.
Hypothesis link_proper : forall t, ~ In x00 t -> (old = true -> Forall (fun w => length w <= 2000) (split_slash t)) -> linkable t.
Local Notation vstep := (v_step A bs iv_size check sparse session_key padding_of padded rnd iv_fuel trans link_max).

Definition paths_ok (op : vop) : Prop :=
  match op with VGetattr path | VReadlink path _ => okq path | _ => Forall okp (vop_paths op) end.

(** The same answer, or a refusal. *)
Definition same (s : lst) (p : pfs) (r : lst * vout) (op : vop) : Prop :=
  LR (fst r) (fst (p_step p op)) /\ snd r = snd (p_step p op).
Definition refused (p : pfs) (r : lst * vout) (op : vop) : Prop :=
  exists o e, tab = true /\ name_part p op = Some o /\ may_refuse (pf_tree p) o e /\ LR (fst r) p /\ snd r = VRes (Err e).

Lemma name_sim s p o : LR s p -> Forall okp (op_paths o) -> new_ino o = None ->
  (LR (fst (v_name trans s o)) (fst (p_name p o)) /\ snd (v_name trans s o) = snd (p_name p o)) \/
  exists e, tab = true /\ may_refuse (pf_tree p) o e /\ LR (fst (v_name trans s o)) p /\ snd (v_name trans s o) = VRes (Err e).
Proof.
  intros L Ho Hi. unfold v_name, p_name.
  destruct (step_RN o _ _ (lr_tree _ _ L) Ho) as [[S1 S2]|(_ & e & Ht & Hm & S1 & S2)];
    destruct (lite_step trans o (ls_tree s)) as [t1 r]; cbn [fst snd] in *.
  - left. split; [|congruence]. apply lr_tree_set; [exact L|exact S1|]. apply nodes_plain; [apply L|]. intros i E. congruence.
  - right. exists e. subst r. split; [exact Ht|]. split; [exact Hm|]. split; [|reflexivity].
    pose proof (lr_tree_set s p (pf_tree p) t1 L S1 (lr_nodes _ _ L)) as Q. destruct p; exact Q.
Qed.

Lemma link_sim s p target path bad stored (b : option err) : LR s p -> okp path -> linkable target -> t_link_enc trans target = Ok stored ->
  (b = None -> length stored <= link_max) -> bad = b ->
  let r := match lite_step trans (LSymlink path (link_ino (ls_nlinks s)) b) (ls_tree s) with
           | (t1, Ok tt) => (mkLst t1 (ls_h s) (fupd (ls_links s) (ls_nlinks s) (Some stored)) (S (ls_nlinks s)), VRes (Ok tt))
           | (t1, Err e) => (set_tree s t1, VRes (Err e))
           end in
  same s p r (VSymlink target path b) \/ refused p r (VSymlink target path b).
Proof.
  intros L Hp Ht Es Hm -> r. subst r. unfold same, refused. rewrite (lr_nl _ _ L). set (o := LSymlink path (link_ino (pf_nlinks p)) b).
  cbn [p_step name_part]. fold o.
  destruct (step_RN o _ _ (lr_tree _ _ L) ltac:(constructor; [exact Hp|constructor])) as [[S1 S2]|(_ & e & Htab & Hr & S1 & S2)].
  2:{ right. exists o, e. destruct (lite_step trans o (ls_tree s)) as [t1 r]; cbn [fst snd] in *. subst r. cbn [fst snd].
      split; [exact Htab|]. split; [reflexivity|]. split; [exact Hr|]. split; [|reflexivity].
      pose proof (lr_tree_set s p (pf_tree p) t1 L S1 (lr_nodes _ _ L)) as Q. destruct p; exact Q. }
  left. assert (Hk : forall j, known p j -> known (with_link p target) j).
  { intros j. unfold known, with_link. cbn [pf_next pf_nlinks]. destruct (Nat.even j); lia. }
  pose proof (nodes_plain (known (with_link p target)) o (pf_tree p) (nodes_imp _ _ _ Hk (lr_nodes _ _ L))) as Q.
  assert (Hkn : known (with_link p target) (link_ino (pf_nlinks p))).
  { unfold known, link_ino. rewrite Nat.add_1_r, Nat.even_succ, Nat.odd_mul. change (Nat.odd 2) with false. cbn [andb].
    rewrite Nat.div2_succ_double. cbn [with_link pf_nlinks]. lia. }
  specialize (Q ltac:(intros i [= <-]; exact Hkn)).
  assert (Hsame : snd (plain_step o (pf_tree p)) <> Ok tt -> fst (plain_step o (pf_tree p)) = pf_tree p).
  { unfold o. cbn [plain_step]. unfold h_open. intros N. destruct b; [reflexivity|]. destruct (names_of path) as [|x0 q0]; [reflexivity|].
    destruct (pf_tree p (parent (x0 :: q0))) as [es0|]; [|reflexivity].
    destruct (ent (leaf (x0 :: q0)) es0) as [[| |]|]; try reflexivity. exfalso. apply N. reflexivity. }
  assert (Hb : snd (plain_step o (pf_tree p)) = Ok tt -> b = None).
  { unfold o. cbn [plain_step]. unfold h_open. destruct b; [discriminate|reflexivity]. }
  destruct (lite_step trans o (ls_tree s)) as [t1 r]. destruct (plain_step o (pf_tree p)) as [v1 r']. cbn [fst snd] in *. subst r'.
  destruct r as [[]|e]; cbn [fst snd].
  - split; [|reflexivity]. destruct L as [L1 L2 L3 L4 L5]. constructor; cbn [with_link with_tree pf_tree pf_nlinks pf_links ls_tree ls_h ls_nlinks ls_links]; auto.
    intros i Hi. destruct (Nat.eq_dec (pf_nlinks p) i) as [<-|N].
    + rewrite !fupd_eq. exists target, stored. split; [reflexivity|]. split; [reflexivity|]. split; [exact Ht|]. split; [exact Es|]. exact (Hm (Hb eq_refl)).
    + rewrite !fupd_ne by assumption. apply L5. lia.
  - split; [|reflexivity]. rewrite Hsame in * by discriminate. apply lr_tree_set; [exact L|exact S1|apply L].
Qed.

Lemma step_sim s p op : LR s p -> paths_ok op -> proper lim link_max old p op ->
  same s p (vstep s op) op \/ refused p (vstep s op) op \/
  exists target path, op = VSymlink target path None /\ link_max < 30 * S (length target) /\
    (same s p (vstep s op) (VSymlink target path (Some ENAMETOOLONG)) \/ refused p (vstep s op) (VSymlink target path (Some ENAMETOOLONG))).
Proof.
  intros L Ho Hp.
  assert (Known : forall path i, at_path p path = Some (NReg i) -> exists c g f key pad, pf_files p i = Some (c, g) /\ h_files (ls_h s) i = Some f /\ Holds f key pad c).
  { intros path i E. unfold at_path in E. destruct (plain_found (pf_tree p) path) as [[j| |]|] eqn:Ef; try discriminate E. cbn [option_map node_of] in E.
    pose proof (lr_known _ _ _ _ L Ef) as K. unfold known in K. destruct (Nat.even j); [|discriminate E]. injection E as E. rewrite E in K.
    pose proof (r_file_ex _ _ _ _ _ _ _ _ (lr_rel _ _ L) i K) as Hx. cbn [pst_of p_files] in Hx. destruct (pf_files p i) as [[c g]|] eqn:Ec; [|congruence].
    destruct (r_files _ _ _ _ _ _ _ _ (lr_rel _ _ L) i c g Ec) as (f & key & pad & F1 & F2). exists c, g, f, key, pad. auto. }
  assert (KnownL : forall path i, at_path p path = Some (NLink i) -> exists t stored, pf_links p i = Some t /\ ls_links s i = Some stored /\ linkable t /\ t_link_enc trans t = Ok stored /\ length stored <= link_max).
  { intros path i E. unfold at_path in E. destruct (plain_found (pf_tree p) path) as [[j| |]|] eqn:Ef; try discriminate E. cbn [option_map node_of] in E.
    pose proof (lr_known _ _ _ _ L Ef) as K. unfold known in K. destruct (Nat.even j); [discriminate E|]. injection E as E. rewrite E in K. exact (lr_links _ _ L i K). }
  destruct op as [path creat excl trunc h bad|h o|h|path n bad|path|path bad|path bad|path bad|src dest bad|from to bad|target path bad|path size|];
    cbn [paths_ok vop_paths] in Ho; cbn [proper] in Hp.
  - (* open *)
    inversion Ho as [|? ? Hok _]; subst.
    destruct (open_sim s p path creat excl trunc bad L Hok Hp) as [(s1 & p1 & i & key & pad & E1 & E2 & (L1 & Hi & c & g & f & F1 & F2 & F3))|[(s1 & p1 & e & E1 & E2 & L1)|(Hc & s1 & e & E1 & Ht & L1 & Hm)]].
    + left. unfold same. cbn [v_step p_step]. rewrite E1, E2. cbn [fst snd]. split; [|reflexivity]. unfold opened_with. rewrite F1.
      destruct L1 as [Q1 Q2 Q3 Q4 Q5]. constructor; try assumption.
      exact (rel_handle A bs iv_size check session_key padding_of _ (pst_of p1) h i key pad c g f Q2 F1 F2 Hi F3).
    + left. unfold same. cbn [v_step p_step]. rewrite E1, E2. cbn [fst snd]. auto.
    + right. left. unfold refused. cbn [v_step name_part]. rewrite E1. cbn [fst snd]. eauto 10.
  - (* io *)
    left. unfold same. cbn [v_step p_step]. destruct Hp as [Hst Hw].
    pose proof (r_handle _ _ _ _ _ _ _ _ (lr_rel _ _ L) h) as Rh. cbn [pst_of p_handles p_files p_next] in Rh.
    destruct (pf_handles p h) as [[i g]|] eqn:Eh, (h_handles (ls_h s) h) as [[[j key] pad]|] eqn:Eh'; try contradiction; [|auto].
    destruct Rh as (-> & Hi & Rh). pose proof (r_file_ex _ _ _ _ _ _ _ _ (lr_rel _ _ L) i Hi) as Hex. cbn [pst_of p_files] in Hex.
    destruct (pf_files p i) as [[c g']|] eqn:Ec; [|congruence].
    destruct (r_files _ _ _ _ _ _ _ _ (lr_rel _ _ L) i c g' Ec) as (f & key0 & pad0 & Hf & H0).
    destruct (Rh _ _ _ eq_refl Hf) as [Hle Heq].
    assert (g = g') as <-.
    { destruct (Nat.eq_dec g g') as [E|N]; [exact E|]. exfalso. apply Hst. exists i, g, c, g'. auto. }
    specialize (Heq eq_refl). unfold io. rewrite Hf.
    destruct (holds_io A bs iv_size check sparse session_key padding_of rnd iv_fuel HE _ _ _ _ (h_rng (ls_h s)) o Heq Hw) as (l & E & H'). rewrite E. cbn [fst snd].
    split; [|reflexivity]. pose proof L as [Q1 Q2 Q3 Q4 Q5]. constructor; try assumption.
    exact (rel_content A bs iv_size check session_key padding_of rnd iv_fuel HE _ (pst_of p) i c g f key pad (l_file l) _ (l_rng l) Q2 Ec Hf Heq H').
  - (* close *)
    left. unfold same. cbn [v_step p_step fst snd]. split; [|reflexivity]. pose proof L as [Q1 Q2 Q3 Q4 Q5]. constructor; try assumption.
    exact (rel_close A bs iv_size check session_key padding_of _ (pst_of p) h Q2).
  - (* truncate *)
    inversion Ho as [|? ? Hok _]; subst. destruct Hp as [Hn Hl].
    destruct (open_sim s p path false false false bad L Hok (or_intror Hl)) as [(s1 & p1 & i & key & pad & E1 & E2 & (L1 & Hi & c & g & f & F1 & F2 & F3))|[(s1 & p1 & e & E1 & E2 & L1)|(Hc & _)]]; [| |discriminate Hc].
    + left. unfold same. cbn [v_step p_step]. rewrite E1, E2, F1. unfold io. rewrite F2.
      destruct (holds_io A bs iv_size check sparse session_key padding_of rnd iv_fuel HE _ _ _ _ (h_rng (ls_h s1)) (SResize n) F3 Hn) as (l & E & H'). rewrite E. cbn [fst snd].
      split; [|reflexivity]. pose proof L1 as [Q1 Q2 Q3 Q4 Q5]. constructor; try assumption.
      exact (rel_content A bs iv_size check session_key padding_of rnd iv_fuel HE _ (pst_of p1) i c g f key pad (l_file l) _ (l_rng l) Q2 F1 F2 F3 H').
    + left. unfold same. cbn [v_step p_step]. rewrite E1, E2. cbn [fst snd]. auto.
  - (* getattr *)
    left. unfold same. cbn [v_step p_step fst snd]. rewrite (locate_RN _ _ path (lr_tree _ _ L) Ho).
    specialize (Known path). specialize (KnownL path). unfold at_path in *. destruct (plain_found (pf_tree p) path) as [k|]; [|auto]. cbn [option_map] in *.
    destruct (node_of k) as [|i|i|]; cbn [fst snd]; auto.
    + destruct (Known i eq_refl) as (c & g & f & key & pad & F1 & F2 & F3). rewrite F1, F2.
      rewrite (holds_stat A bs iv_size check session_key padding_of padded rnd iv_fuel HE HP _ _ _ _ _ F3). auto.
    + destruct (KnownL i eq_refl) as (t & stored & F1 & F2 & F3 & F4 & F5). rewrite F1, F2.
      destruct (linkable_ok t F3) as (st & G1 & G2 & G3 & G4 & G5). rewrite F4 in G1. injection G1 as <-.
      rewrite G2. destruct stored as [|x0 q0]; [|auto]. cbn [fst snd]. split; [exact L|].
      rewrite link_dec_nil in G2. injection G2 as <-. reflexivity.
  - destruct (name_sim s p (LMkdir path bad) L Ho eq_refl) as [H|(e & H)]; [left; exact H|right; left; exists (LMkdir path bad), e; tauto].
  - destruct (name_sim s p (LRmdir path bad) L Ho eq_refl) as [H|(e & H)]; [left; exact H|right; left; exists (LRmdir path bad), e; tauto].
  - destruct (name_sim s p (LUnlink path bad) L Ho eq_refl) as [H|(e & H)]; [left; exact H|right; left; exists (LUnlink path bad), e; tauto].
  - destruct (name_sim s p (LLink src dest bad) L Ho eq_refl) as [H|(e & H)]; [left; exact H|right; left; exists (LLink src dest bad), e; tauto].
  - destruct (name_sim s p (LRename from to bad) L Ho eq_refl) as [H|(e & H)]; [left; exact H|right; left; exists (LRename from to bad), e; tauto].
  - (* symlink *)
    inversion Ho as [|? ? Hok _]; subst. destruct Hp as [Hz Hold]. pose proof (link_proper target Hz Hold) as Hlk.
    destruct (linkable_ok target Hlk) as (stored & G1 & G2 & G3 & G4 & G5). cbn [v_step]. rewrite G1.
    destruct bad as [e|].
    + destruct (link_sim s p target path (Some e) stored (Some e) L Hok Hlk G1 ltac:(discriminate) eq_refl) as [H|H]; auto.
    + destruct (Nat.ltb_spec link_max (length stored)) as [Hlt|Hle].
      * right. right. exists target, path. split; [reflexivity|]. split; [lia|].
        exact (link_sim s p target path (Some ENAMETOOLONG) stored (Some ENAMETOOLONG) L Hok Hlk G1 ltac:(discriminate) eq_refl).
      * destruct (link_sim s p target path None stored None L Hok Hlk G1 ltac:(intros; lia) eq_refl) as [H|H]; auto.
  - (* readlink *)
    left. unfold same. cbn [v_step p_step]. destruct Hp as (H1 & H2 & H3). destruct (Nat.leb_spec size 1) as [X|_]; [lia|].
    rewrite (locate_RN _ _ path (lr_tree _ _ L) Ho).
    specialize (KnownL path). specialize (H3). unfold at_path in *. destruct (plain_found (pf_tree p) path) as [k|]; [|auto]. cbn [option_map] in *.
    destruct (node_of k) as [|i|i|]; cbn [fst snd]; auto.
    destruct (KnownL i eq_refl) as (t & stored & F1 & F2 & F3 & F4 & F5). rewrite F1, F2. cbn [fst snd]. split; [exact L|].
    destruct (linkable_ok t F3) as (st & G1 & G2 & G3 & G4 & G5). rewrite F4 in G1. injection G1 as <-.
    f_equal. apply readlink_ok; auto; [lia|]. exact (H3 i t eq_refl F1).
  - (* remount *)
    left. unfold same. cbn [v_step p_step fst snd]. split; [|reflexivity]. pose proof L as [Q1 [R1 R2 R3 R4 R5 R6] Q3 Q4 Q5].
    constructor; try assumption. cbn [set_h ls_h]. constructor; try assumption. intros h. exact I.
Qed.

(** ** Histories *)
Lemma history_app l1 s o1 s1 : history link_max l1 s o1 s1 -> forall l2 o2 s2, history link_max l2 s1 o2 s2 -> history link_max (l1 ++ l2) s (o1 ++ o2) s2.
Proof.
  induction 1 as [s|op ops s outs s' H IH|op ops s o e outs s' H1 H2 H IH|target path ops s outs s' H1 H IH]; intros l2 o2 s2 H'; cbn [app].
  - exact H'.
  - apply hi_step. apply IH. exact H'.
  - eapply hi_refuse; eauto.
  - apply hi_long; [exact H1|]. exact (IH _ _ _ H').
Qed.
Lemma same_history s p r op : same s p r op -> history link_max [op] p [snd r] (fst (p_step p op)).
Proof. intros [_ ->]. apply hi_step. apply hi_nil. Qed.
Lemma refused_history p r op : refused p r op -> history link_max [op] p [snd r] p.
Proof. intros (o & e & _ & H1 & H2 & _ & ->). eapply hi_refuse; eauto. apply hi_nil. Qed.

Lemma step_history s p op : LR s p -> paths_ok op -> proper lim link_max old p op ->
  exists p1, history link_max [op] p [snd (vstep s op)] p1 /\ LR (fst (vstep s op)) p1.
Proof.
  intros L Ho Hp. destruct (step_sim s p op L Ho Hp) as [H|[H|(target & path & -> & Hlt & [H|H])]].
  - exists (fst (p_step p op)). split; [exact (same_history _ _ _ _ H)|apply H].
  - exists p. split; [exact (refused_history _ _ _ H)|]. destruct H as (o & e & _ & _ & _ & H & _). exact H.
  - eexists. split; [apply hi_long; [exact Hlt|exact (same_history _ _ _ _ H)]|apply H].
  - exists p. split; [apply hi_long; [exact Hlt|exact (refused_history _ _ _ H)]|]. destruct H as (o & e & _ & _ & _ & H & _). exact H.
Qed.

Theorem run_history ops : forall s p, LR s p -> Forall paths_ok ops -> all_proper lim link_max old ops p ->
  exists p', history link_max ops p (snd (run_ops vstep s ops)) p' /\ LR (fst (run_ops vstep s ops)) p'.
Proof.
  induction ops as [|op ops IH]; intros s p L Ho Hp; [exists p; split; [apply hi_nil|exact L]|].
  inversion Ho as [|? ? Ho1 Ho2]; subst. cbn [all_proper] in Hp. destruct Hp as [Hp1 Hp2].
  destruct (step_history s p op L Ho1 Hp1) as (p1 & H1 & L1). specialize (Hp2 _ _ H1).
  cbn [run_ops]. destruct (vstep s op) as [s1 r]. cbn [fst snd] in *. destruct (IH s1 p1 L1 Ho2 Hp2) as (p' & H2 & L2).
  destruct (run_ops vstep s1 ops) as [s2 rs]. cbn [fst snd] in *. exists p'. split; [|exact L2]. exact (history_app _ _ _ _ H1 _ _ _ H2).
Qed.

Theorem run_same ops : tab = false -> short_links link_max ops -> forall s p, LR s p -> Forall paths_ok ops -> run_proper lim link_max old p ops ->
  snd (run_ops vstep s ops) = snd (run_ops p_step p ops) /\ LR (fst (run_ops vstep s ops)) (fst (run_ops p_step p ops)).
Proof.
  intros Ht. induction ops as [|op ops IH]; intros Hs s p L Ho Hp; [auto|].
  pose proof (Forall_inv Ho) as Ho1. pose proof (Forall_inv_tail Ho) as Ho2. pose proof (Forall_inv Hs) as Hs1. pose proof (Forall_inv_tail Hs) as Hs2. cbn [run_proper] in Hp. destruct Hp as [Hp1 Hp2].
  destruct (step_sim s p op L Ho1 Hp1) as [[H1 H2]|[(o & e & X & _)|(target & path & -> & Hlt & _)]]; [|congruence|lia].
  cbn [run_ops]. destruct (vstep s op) as [s1 r]. destruct (p_step p op) as [p1 r']. cbn [fst snd] in *.
  destruct (IH Hs2 s1 p1 H1 Ho2 Hp2) as [E2 L2]. destruct (run_ops vstep s1 ops) as [s2 rs]. destruct (run_ops p_step p1 ops) as [p2 rs']. cbn [fst snd] in *.
  split; [congruence|exact L2].
Qed.

Lemma LR_empty : RN empty_fs empty_fs -> LR ls_empty pf_empty.
Proof.
  intros H. constructor; cbn [ls_empty pf_empty pf_tree ls_tree ls_h ls_nlinks pf_nlinks].
  - exact H.
  - exact (rel_empty A bs iv_size check session_key padding_of padded HP).
  - reflexivity.
  - intros q es c j E Hj. destruct q; [injection E as <-; discriminate Hj|discriminate E].
  - intros i Hi. lia.
Qed.
End Sim.
