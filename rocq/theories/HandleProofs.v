(** Handles on lite files act on one byte array per file. *)
From Verif Require Import Base BaseLemmas StreamSpec BlockModel BlockProofs LiteModel LiteProofs LiteTamper
  HandleModel HandleSpec.

Section HandleProofs.
Variable A : aead.
Variable bs iv_size : nat.
Variable check sparse : bool.
Variable session_key : bytes -> bytes.
Variable padding_of : bytes -> nat.
Variable padded : bool.
Variable rnd : nat -> nat -> bytes.
Variable iv_fuel : nat.
Hypothesis HE : lite_env_ok A bs iv_size rnd iv_fuel.
Hypothesis HP : padded = false -> forall id, padding_of id = 0.

Local Notation LRep := (LRep A bs iv_size check session_key padding_of).
Local Notation lim := (lite_max_blocks * bs).
Local Notation step := (hstep A bs iv_size check sparse session_key padding_of padded rnd iv_fuel).
Local Notation lopen := (lite_open bs iv_size session_key padding_of rnd).

(** [f] holds [c] under this key and padding; the random source does not matter. *)
Definition holds (f key pad c : bytes) : Prop := LRep (mkLite f key pad 0) c /\ length c <= lim.

Lemma holds_rng f key pad c k : holds f key pad c -> LRep (mkLite f key pad k) c.
Proof. intros [[R1 R2 R3] _]. constructor; assumption. Qed.

Lemma holds_open f key pad c k : holds f key pad c -> lopen f k = Ok (mkLite f key pad k).
Proof.
  intros H. exact (proj1 (lite_reopen A bs iv_size check session_key padding_of rnd iv_fuel HE _ c k (holds_rng _ _ _ _ 0 H))).
Qed.

Lemma holds_same f key pad key' pad' c c' : holds f key pad c -> holds f key' pad' c' -> key' = key /\ pad' = pad.
Proof.
  intros H H'. pose proof (holds_open _ _ _ _ 0 H) as E. rewrite (holds_open _ _ _ _ 0 H') in E.
  injection E as -> ->. auto.
Qed.

Lemma holds_fresh k : exists l, lopen [] k = Ok l /\ holds (l_file l) (l_key l) (l_pad l) [].
Proof.
  destruct (lite_open_fresh A bs iv_size check session_key padding_of rnd iv_fuel HE k) as (l & E & R).
  exists l. split; [exact E|]. split; [|cbn; lia]. destruct l; destruct R as [R1 R2 R3]; constructor; assumption.
Qed.

Lemma holds_io f key pad c k o : holds f key pad c -> sop_within lim o ->
  exists l, bb_step (lite_backend A bs iv_size check sparse rnd iv_fuel) (mkLite f key pad k) o = (l, snd (spec_step c o)) /\
    holds (l_file l) key pad (fst (spec_step c o)).
Proof.
  intros H Ho.
  assert (Hf : Forall (lop_within lim) [LOp o]) by (constructor; [exact Ho|constructor]).
  destruct (run_key A bs iv_size check sparse session_key padding_of rnd iv_fuel HE _ c [LOp o] (holds_rng _ _ _ _ k H) (proj2 H) Hf) as [K1 K2].
  destruct (bb_step_ok (lite_backend A bs iv_size check sparse rnd iv_fuel) LRep
              (lite_backend_ok A bs iv_size check sparse session_key padding_of rnd iv_fuel HE) _ c o (holds_rng _ _ _ _ k H)
              ltac:(rewrite bk_maxn_lite; exact (proj2 H)) ltac:(rewrite bk_maxn_lite; exact Ho)) as (l & E & R & Hl).
  rewrite bk_maxn_lite in Hl. cbn [run_ops lite_step] in K1, K2. rewrite E in K1, K2. cbn [fst l_key l_pad] in K1, K2.
  exists l. split; [exact E|]. split; [|exact Hl].
  destruct l as [f' key' pad' k']. cbn [l_key l_pad l_file] in *. subst.
  destruct R as [R1 R2 R3]. constructor; assumption.
Qed.

Lemma holds_stat s f key pad c : holds f key pad c ->
  stat_size bs iv_size session_key padding_of padded rnd s f = OSize (length c).
Proof.
  intros H. unfold stat_size. pose proof (real_size_ok A bs iv_size check session_key padding_of rnd iv_fuel HE _ c (holds_rng _ _ _ _ (h_rng s) H)) as E.
  pose proof (rep_len _ _ _ _ _ _ _ _ (proj1 H)) as L. unfold l_header in L. cbn [l_file l_pad] in L.
  destruct (Nat.eqb_spec (length f) 0) as [Z|Z]; [unfold lite_id_size in L; lia|].
  destruct padded.
  - rewrite (holds_open _ _ _ _ (h_rng s) H). rewrite E. reflexivity.
  - rewrite <- E. unfold lite_size. cbn [l_file l_pad l_header].
    destruct (rep_hdr _ _ _ _ _ _ _ _ (proj1 H)) as (id & _ & _ & _ & Hid). rewrite HP in Hid by reflexivity.
    cbn [l_pad] in Hid. rewrite <- Hid, Nat.sub_0_r. unfold l_header. cbn [l_pad]. rewrite <- Hid, Nat.add_0_r.
    destruct (Nat.leb_spec (length f) lite_id_size) as [Q|Q]; [|reflexivity].
    unfold calculate_real_size. destruct (Nat.leb_spec (length f) lite_id_size); [reflexivity|lia].
Qed.

(** ** The relation between the repository and the plain files *)
Record rel (s : hst) (p : pst) : Prop := {
  r_names : forall x, h_names s x = p_names p x;
  r_next : h_next s = p_next p;
  r_name_file : forall x i, p_names p x = Some i -> i < p_next p;
  r_file_ex : forall i, i < p_next p -> p_files p i <> None;
  r_files : forall i c g, p_files p i = Some (c, g) -> exists f key pad, h_files s i = Some f /\ holds f key pad c;
  r_handle : forall h, match p_handles p h, h_handles s h with
                       | None, None => True
                       | Some (i, g), Some (j, key, pad) =>
                           j = i /\ i < p_next p /\
                           forall c g' f, p_files p i = Some (c, g') -> h_files s i = Some f ->
                             g <= g' /\ (g = g' -> holds f key pad c)
                       | _, _ => False
                       end }.

Lemma rel_empty : rel h_empty p_empty.
Proof. constructor; cbn; try discriminate; auto; intros; lia. Qed.

Lemma fupd_eq {X} (m : nat -> option X) i v : fupd m i v i = v.
Proof. unfold fupd. rewrite Nat.eqb_refl. reflexivity. Qed.
Lemma fupd_ne {X} (m : nat -> option X) i j v : i <> j -> fupd m i v j = m j.
Proof. unfold fupd. intros H. apply Nat.eqb_neq in H. rewrite H. reflexivity. Qed.

(** New stored bytes and new content for one file, same generation. *)
Lemma rel_content s p i c g f key pad f' c' rng : rel s p -> p_files p i = Some (c, g) -> h_files s i = Some f ->
  holds f key pad c -> holds f' key pad c' -> rel (set_file s i f' rng) (set_content p i (c', g)).
Proof.
  intros [R1 R2 R3 R4 R5 R6] Hp Hs H H'. constructor; cbn [set_file set_content h_names h_files h_handles h_next p_names p_files p_handles p_next]; auto.
  - intros j Hj. destruct (Nat.eq_dec i j) as [->|N]; [rewrite fupd_eq; discriminate|rewrite fupd_ne by assumption; auto].
  - intros j c0 g0 Hj. destruct (Nat.eq_dec i j) as [->|N].
    + rewrite fupd_eq in Hj. injection Hj as <- <-. rewrite fupd_eq. eauto.
    + rewrite fupd_ne in Hj by assumption. rewrite fupd_ne by assumption. eauto.
  - intros h. specialize (R6 h). destruct (p_handles p h) as [[j g1]|], (h_handles s h) as [[[j' key'] pad']|]; try exact R6.
    destruct R6 as (-> & Hj & R6). split; [reflexivity|]. split; [exact Hj|]. intros c0 g0 f0 Hc Hf.
    destruct (Nat.eq_dec i j) as [->|N].
    + rewrite fupd_eq in Hc. rewrite fupd_eq in Hf. injection Hc as <- <-. injection Hf as <-.
      destruct (R6 _ _ _ Hp Hs) as [Hle Heq]. split; [exact Hle|]. intros E. specialize (Heq E).
      destruct (holds_same _ _ _ _ _ _ _ H Heq) as [-> ->]. exact H'.
    + rewrite fupd_ne in Hc by assumption. rewrite fupd_ne in Hf by assumption. eauto.
Qed.

Lemma rel_rng s p rng : rel s p -> rel (mkH (h_names s) (h_files s) (h_handles s) (h_next s) rng) p.
Proof. intros [R1 R2 R3 R4 R5 R6]. constructor; assumption. Qed.

Lemma rel_trunc s p i c g f f' key pad rng : rel s p -> p_files p i = Some (c, g) -> h_files s i = Some f ->
  holds f' key pad [] -> rel (set_file s i f' rng) (set_content p i ([], S g)).
Proof.
  intros [R1 R2 R3 R4 R5 R6] Hp Hs H'. constructor; cbn [set_file set_content h_names h_files h_handles h_next p_names p_files p_handles p_next]; auto.
  - intros j Hj. destruct (Nat.eq_dec i j) as [->|N]; [rewrite fupd_eq; discriminate|rewrite fupd_ne by assumption; auto].
  - intros j c0 g0 Hj. destruct (Nat.eq_dec i j) as [->|N].
    + rewrite fupd_eq in Hj. injection Hj as <- <-. rewrite fupd_eq. eauto.
    + rewrite fupd_ne in Hj by assumption. rewrite fupd_ne by assumption. eauto.
  - intros h. specialize (R6 h). destruct (p_handles p h) as [[j g1]|], (h_handles s h) as [[[j' key'] pad']|]; try exact R6.
    destruct R6 as (-> & Hj & R6). split; [reflexivity|]. split; [exact Hj|]. intros c0 g0 f0 Hc Hf.
    destruct (Nat.eq_dec i j) as [->|N].
    + rewrite fupd_eq in Hc. rewrite fupd_eq in Hf. injection Hc as <- <-. injection Hf as <-.
      destruct (R6 _ _ _ Hp Hs) as [Hle _]. split; [lia|]. intros E. exfalso. clear - Hle E. lia.
    + rewrite fupd_ne in Hc by assumption. rewrite fupd_ne in Hf by assumption. eauto.
Qed.

Lemma rel_handle s p h i key pad c g f : rel s p -> p_files p i = Some (c, g) -> h_files s i = Some f -> i < p_next p ->
  holds f key pad c -> rel (set_handle s h (Some (i, key, pad))) (set_p_handle p h (Some (i, g))).
Proof.
  intros [R1 R2 R3 R4 R5 R6] Hp Hs Hi H. constructor; cbn [set_handle set_p_handle h_names h_files h_handles h_next p_names p_files p_handles p_next]; auto.
  intros h'. destruct (Nat.eq_dec h h') as [->|N].
  - rewrite !fupd_eq. split; [reflexivity|]. split; [exact Hi|]. intros c0 g0 f0 Hc Hf.
    rewrite Hp in Hc. injection Hc as <- <-. rewrite Hs in Hf. injection Hf as <-. auto.
  - rewrite !fupd_ne by assumption. apply R6.
Qed.

Lemma rel_close s p h : rel s p -> rel (set_handle s h None) (set_p_handle p h None).
Proof.
  intros [R1 R2 R3 R4 R5 R6]. constructor; cbn [set_handle set_p_handle h_names h_files h_handles h_next p_names p_files p_handles p_next]; auto.
  intros h'. destruct (Nat.eq_dec h h') as [->|N]; [rewrite !fupd_eq; exact I|rewrite !fupd_ne by assumption; apply R6].
Qed.

Lemma rel_name s p x v : rel s p -> (forall i, v = Some i -> i < p_next p) -> rel (set_name s x v) (set_p_name p x v).
Proof.
  intros [R1 R2 R3 R4 R5 R6] Hv. constructor; cbn [set_name set_p_name h_names h_files h_handles h_next p_names p_files p_handles p_next]; auto.
  - intros y. destruct (Nat.eq_dec x y) as [->|N]; [rewrite !fupd_eq; reflexivity|rewrite !fupd_ne by assumption; apply R1].
  - intros y i Hy. destruct (Nat.eq_dec x y) as [->|N]; [rewrite fupd_eq in Hy; auto|rewrite fupd_ne in Hy by assumption; eauto].
Qed.

Lemma set_file_same s i f rng p : rel s p -> h_files s i = Some f -> rel (set_file s i f rng) p.
Proof.
  intros [R1 R2 R3 R4 R5 R6] Hs.
  assert (E : forall j, fupd (h_files s) i (Some f) j = h_files s j).
  { intros j. destruct (Nat.eq_dec i j) as [->|N]; [rewrite fupd_eq; auto|apply fupd_ne; exact N]. }
  constructor; cbn [set_file h_names h_files h_handles h_next]; auto.
  - intros j c g Hj. rewrite E. eauto.
  - intros h. specialize (R6 h). destruct (p_handles p h) as [[j g1]|], (h_handles s h) as [[[j' key'] pad']|]; try exact R6.
    destruct R6 as (-> & Hj & R6). split; [reflexivity|]. split; [exact Hj|]. intros c0 g0 f0 Hc Hf. rewrite E in Hf. eauto.
Qed.

(** Opening without O_TRUNC. *)
Lemma open_plain s p i c g : rel s p -> p_files p i = Some (c, g) ->
  exists s1 f key pad, open_inode A bs iv_size check sparse session_key padding_of rnd iv_fuel s i false = (s1, Ok (key, pad)) /\
    rel s1 p /\ h_files s1 i = Some f /\ holds f key pad c /\ h_handles s1 = h_handles s /\ h_names s1 = h_names s.
Proof.
  intros R Hp. destruct (r_files _ _ R _ _ _ Hp) as (f & key & pad & Hf & H).
  unfold open_inode. rewrite Hf, (holds_open _ _ _ _ (h_rng s) H). cbn [l_file l_rng l_key l_pad].
  eexists _, f, key, pad. split; [reflexivity|]. split; [apply set_file_same; assumption|].
  cbn [set_file h_files h_handles h_names]. rewrite fupd_eq. auto.
Qed.

(** Opening with O_TRUNC. *)
Lemma open_trunc s p i c g : rel s p -> p_files p i = Some (c, g) ->
  exists s1 f key pad, open_inode A bs iv_size check sparse session_key padding_of rnd iv_fuel s i true = (s1, Ok (key, pad)) /\
    rel s1 (set_content p i ([], S g)) /\ h_files s1 i = Some f /\ holds f key pad [].
Proof.
  intros R Hp. destruct (r_files _ _ R _ _ _ Hp) as (f0 & key0 & pad0 & Hf & H).
  unfold open_inode. rewrite Hf. destruct (holds_fresh (h_rng s)) as (l & El & Hl). rewrite El.
  unfold io. cbn [set_file h_files h_rng]. rewrite fupd_eq.
  destruct (holds_io _ _ _ [] (l_rng l) (SResize 0) Hl ltac:(cbn; lia)) as (l' & E' & H').
  rewrite E'. cbn [spec_step fst snd] in *.
  change (arr_resize [] 0) with (@nil byte) in H'.
  eexists _, (l_file l'), (l_key l), (l_pad l). split; [reflexivity|].
  split; [|cbn [set_file h_files]; rewrite fupd_eq; auto].
  unfold set_file at 1. cbn [h_names h_files h_handles h_next].
  pose proof (rel_trunc s p i c g f0 (l_file l') (l_key l) (l_pad l) (l_rng l') R Hp Hf H') as Q.
  destruct Q as [R1 R2 R3 R4 R5 R6].
  assert (E : forall j, fupd (fupd (h_files s) i (Some (l_file l))) i (Some (l_file l')) j = fupd (h_files s) i (Some (l_file l')) j).
  { intros j. destruct (Nat.eq_dec i j) as [->|N]; [rewrite !fupd_eq; reflexivity|rewrite !fupd_ne by assumption; reflexivity]. }
  constructor; cbn [h_names h_files h_handles h_next set_file set_content] in *; auto.
  - intros j c0 g0 Hj. rewrite E. eauto.
  - intros h. specialize (R6 h). cbn [set_content p_handles p_next p_files] in *.
    destruct (p_handles p h) as [[j g1]|], (h_handles s h) as [[[j' key'] pad']|]; try exact R6.
    destruct R6 as (-> & Hj & R6). split; [reflexivity|]. split; [exact Hj|]. intros c1 g2 f1 Hc Hf1. rewrite E in Hf1. eauto.
Qed.

Lemma step_rel s p op : rel s p -> allowed lim p op ->
  rel (fst (step s op)) (fst (pstep p op)) /\ snd (step s op) = snd (pstep p op).
Proof.
  intros R Hal.
  assert (HN : forall x, h_names s x = p_names p x) by apply R.
  assert (HF : forall x i, p_names p x = Some i -> exists c g, p_files p i = Some (c, g)).
  { intros x i Hx. pose proof (r_file_ex _ _ R i (r_name_file _ _ R _ _ Hx)). destruct (p_files p i) as [[c g]|]; [eauto|congruence]. }
  destruct op as [x h|x h trunc|h o|x n|x|x|x y|x y|h]; cbn [hstep pstep].
  - (* create *)
    rewrite HN. destruct (p_names p x) as [i|] eqn:Ex; [split; [exact R|reflexivity]|].
    set (i := h_next s).
    set (s1 := mkH _ _ _ _ _).
    set (p1 := mkP (fupd (p_names p) x (Some (p_next p))) (fupd (p_files p) (p_next p) (Some ([], 0))) (p_handles p) (S (p_next p))).
    destruct (holds_fresh (h_rng s)) as (l & El & Hl).
    assert (Hop : open_inode A bs iv_size check sparse session_key padding_of rnd iv_fuel s1 i false
                  = (set_file s1 i (l_file l) (l_rng l), Ok (l_key l, l_pad l))).
    { unfold open_inode, s1. cbn [h_files h_rng]. rewrite fupd_eq, El. reflexivity. }
    rewrite Hop. cbn [fst snd]. split; [|reflexivity].
    assert (En : i = p_next p) by apply R.
    assert (R1 : rel (set_file s1 i (l_file l) (l_rng l)) p1).
    { destruct R as [R1 R2 R3 R4 R5 R6]. unfold s1, p1.
      constructor; cbn [set_file h_names h_files h_handles h_next p_names p_files p_handles p_next].
      - intros z. rewrite En. unfold fupd. destruct (x =? z); auto.
      - rewrite En. reflexivity.
      - intros z j Hz. unfold fupd in Hz. destruct (x =? z); [injection Hz as <-; lia|]. apply R3 in Hz. lia.
      - intros j Hj. destruct (Nat.eq_dec (p_next p) j) as [->|N]; [rewrite fupd_eq; discriminate|].
        rewrite fupd_ne by assumption. apply R4. lia.
      - intros j c g Hj. rewrite En. destruct (Nat.eq_dec (p_next p) j) as [<-|N].
        + rewrite fupd_eq in Hj. rewrite fupd_eq. injection Hj as <- <-. exists (l_file l), (l_key l), (l_pad l). auto.
        + rewrite fupd_ne in Hj by assumption. rewrite !fupd_ne by assumption. eauto.
      - intros h'. specialize (R6 h').
        destruct (p_handles p h') as [[j g1]|], (h_handles s h') as [[[j' key'] pad']|]; try exact R6.
        destruct R6 as (-> & Hj & R6). split; [reflexivity|]. split; [lia|].
        intros c0 g0 f0 Hc Hf. rewrite En in Hf. rewrite fupd_ne in Hc by lia. rewrite !fupd_ne in Hf by lia. eauto. }
    assert (Hq : rel (set_handle (set_file s1 i (l_file l) (l_rng l)) h (Some (i, l_key l, l_pad l))) (set_p_handle p1 h (Some (i, 0)))).
    { apply (rel_handle _ _ h i (l_key l) (l_pad l) [] 0 (l_file l)); [exact R1|unfold p1; cbn [p_files]; rewrite En; apply fupd_eq|
        cbn [set_file h_files]; apply fupd_eq|unfold p1; cbn [p_next]; lia|exact Hl]. }
    rewrite En in Hq at 2. unfold set_p_handle, p1 in Hq. cbn [p_names p_files p_handles p_next] in Hq.
    rewrite En in *. exact Hq.
  - (* open *)
    unfold open_path, by_path. rewrite HN. destruct (p_names p x) as [i|] eqn:Ex; [|split; [exact R|reflexivity]].
    destruct (HF _ _ Ex) as (c & g & Hc). rewrite Hc. pose proof (r_name_file _ _ R _ _ Ex) as Hi.
    destruct trunc.
    + destruct (open_trunc s p i c g R Hc) as (s1 & f & key & pad & E & R1 & Hf & H). rewrite E. cbn [fst snd].
      split; [|reflexivity]. eapply rel_handle with (c := []) (f := f); eauto. cbn [set_content p_files]. apply fupd_eq.
    + destruct (open_plain s p i c g R Hc) as (s1 & f & key & pad & E & R1 & Hf & H & _). rewrite E. cbn [fst snd].
      split; [|reflexivity]. eapply rel_handle with (f := f); eauto.
  - (* io *)
    cbn [allowed] in Hal. destruct Hal as [Hnot Ho]. unfold by_handle.
    pose proof (r_handle _ _ R h) as Rh.
    destruct (p_handles p h) as [[i g]|] eqn:Eh, (h_handles s h) as [[[j key] pad]|] eqn:Eh'; try contradiction.
    2: split; [exact R|reflexivity].
    destruct Rh as (-> & Hi & Rh). pose proof (r_file_ex _ _ R i Hi) as Hex.
    destruct (p_files p i) as [[c g']|] eqn:Ec; [|congruence].
    destruct (r_files _ _ R _ _ _ Ec) as (f & key0 & pad0 & Hf & H0).
    destruct (Rh _ _ _ eq_refl Hf) as [Hle Heq].
    assert (g = g') as <-.
    { destruct (Nat.eq_dec g g') as [E|N]; [exact E|]. exfalso. apply Hnot. exists i, g, c, g'. auto. }
    specialize (Heq eq_refl). unfold io. rewrite Hf.
    destruct (holds_io _ _ _ _ (h_rng s) o Heq Ho) as (l & E & H'). rewrite E. cbn [fst snd]. split; [|reflexivity].
    eapply rel_content; eauto.
  - (* truncate *)
    cbn [allowed] in Hal. unfold open_path, by_path. rewrite HN. destruct (p_names p x) as [i|] eqn:Ex; [|split; [exact R|reflexivity]].
    destruct (HF _ _ Ex) as (c & g & Hc). rewrite Hc.
    destruct (open_plain s p i c g R Hc) as (s1 & f & key & pad & E & R1 & Hf & H & _). rewrite E.
    unfold io. rewrite Hf. destruct (holds_io _ _ _ _ (h_rng s1) (SResize n) H Hal) as (l & E' & H'). rewrite E'. cbn [fst snd spec_step] in *.
    split; [|reflexivity]. eapply rel_content; eauto.
  - (* stat *)
    unfold by_path. rewrite HN. destruct (p_names p x) as [i|] eqn:Ex; [|split; [exact R|reflexivity]].
    destruct (HF _ _ Ex) as (c & g & Hc). rewrite Hc. destruct (r_files _ _ R _ _ _ Hc) as (f & key & pad & Hf & H).
    rewrite Hf. cbn [fst snd]. split; [exact R|]. rewrite (holds_stat s f key pad c H). reflexivity.
  - (* unlink *)
    rewrite HN. destruct (p_names p x) as [i|]; cbn [fst snd]; [|split; [exact R|reflexivity]].
    split; [apply rel_name; [exact R|discriminate]|reflexivity].
  - (* link *)
    rewrite !HN. destruct (p_names p x) as [i|] eqn:Ex; [|split; [exact R|reflexivity]].
    destruct (p_names p y); cbn [fst snd]; [split; [exact R|reflexivity]|].
    split; [|reflexivity]. apply rel_name; [exact R|]. intros j [= <-]. exact (r_name_file _ _ R _ _ Ex).
  - (* rename *)
    rewrite !HN. destruct (p_names p x) as [i|] eqn:Ex; [|split; [exact R|reflexivity]].
    assert (Hi := r_name_file _ _ R _ _ Ex).
    assert (G : rel (set_name (set_name s x None) y (Some i)) (set_p_name (set_p_name p x None) y (Some i))).
    { apply rel_name; [apply rel_name; [exact R|discriminate]|]. intros j [= <-]. exact Hi. }
    destruct (p_names p y) as [j|]; [destruct (i =? j)|]; cbn [fst snd]; auto.
  - (* close *) cbn [fst snd]. split; [apply rel_close; exact R|reflexivity].
Qed.

Theorem run_rel ops : forall s p, rel s p -> all_allowed lim p ops ->
  snd (run_ops step s ops) = snd (run_ops pstep p ops) /\ rel (fst (run_ops step s ops)) (fst (run_ops pstep p ops)).
Proof.
  induction ops as [|op ops IH]; intros s p R Hal; [auto|]. cbn [run_ops all_allowed] in *. destruct Hal as [H1 H2].
  destruct (step_rel s p op R H1) as [R1 E]. destruct (step s op) as [s1 r]. destruct (pstep p op) as [p1 r']. cbn [fst snd] in *. subst r'.
  destruct (IH s1 p1 R1 H2) as [E2 R2]. destruct (run_ops step s1 ops) as [s2 rs]. destruct (run_ops pstep p1 ops) as [p2 rs']. cbn [fst snd] in *.
  split; [congruence|exact R2].
Qed.
End HandleProofs.
