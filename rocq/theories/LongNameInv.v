(** Every benign operation keeps the long-name tables right. *)
From Coq Require Import Strings.String.
From Verif Require Import Base BaseLemmas TextModel CryptoModel NameModel LongNameModel LongNameSpec LongNameProofs.
Local Open Scope list_scope.

Notation TN := kLongNameTableFileName.
Definition rows (es : hents) : list (bytes * bytes) :=
  match ent TN es with Some (KTable m) => m | _ => [] end.

Lemma rows_put_other u k es : u <> TN -> rows (ent_put u k es) = rows es.
Proof. intros N. unfold rows. rewrite ent_put_ne by exact N. reflexivity. Qed.
Lemma rows_del_other u es : u <> TN -> rows (ent_del u es) = rows es.
Proof. intros N. unfold rows. rewrite ent_del_ne by exact N. reflexivity. Qed.
Lemma rows_put m es : rows (ent_put TN (KTable m) es) = m.
Proof. unfold rows. rewrite ent_put_eq. reflexivity. Qed.

Lemma update_nodup u l m : NoDup (map fst m) -> NoDup (map fst (update_mapping u l m)).
Proof.
  unfold update_mapping. destruct (ent u m) eqn:E; [auto|]. intros ND. cbn [map fst]. constructor; [|exact ND].
  apply ent_none. exact E.
Qed.
Lemma update_ne u v l m : u <> v -> ent v (update_mapping u l m) = ent v m.
Proof.
  intros N. unfold update_mapping. destruct (ent u m); [reflexivity|]. cbn [ent]. apply bytes_eqb_neq in N. rewrite N. reflexivity.
Qed.
Lemma update_eq u l m : ent u (update_mapping u l m) = match ent u m with Some l' => Some l' | None => Some l end.
Proof.
  unfold update_mapping. destruct (ent u m) eqn:E; [exact E|]. cbn [ent]. rewrite bytes_eqb_refl. reflexivity.
Qed.

Section Inv.
Variable trans : translator.
Variable suffix : bytes.
Variable named : bytes -> bytes -> Prop.
Variable okp : bytes -> Prop.   (* the paths that occur *)
Notation long := (long_entry suffix).
Hypothesis named_long : forall u l, named u l -> (l <> [] <-> long u).
Hypothesis named_TN : forall u l, named u l -> u <> TN.
Hypothesis enc : forall path P l, okp path -> t_encrypt trans path = Ok (P, l) ->
  (comps P = [] /\ l = []) \/
  (comps P <> [] /\ named (leaf (comps P)) l /\ (l <> [] -> get_last_component P = leaf (comps P))).

Lemma not_long_TN : ~ long TN.
Proof. intros (H & _). apply H. reflexivity. Qed.

Record dir_ok (es : hents) : Prop := mkDirOk {
  do_nodup : NoDup (map fst es);
  do_rows : NoDup (map fst (rows es));
  do_long : forall u, ent u es <> None -> long u -> exists l, named u l /\ ent u (rows es) = Some l;
  do_exact : forall u, ent u (rows es) <> None -> long u /\ ent u es <> None;
  do_named : forall u, ent u es <> None -> u = TN \/ exists l, named u l;
  do_table : ent TN es = None \/ exists m, ent TN es = Some (KTable m) }.

Definition inv (fs : hfs) : Prop := tree_ok fs /\ forall p es, fs p = Some es -> dir_ok es.

Lemma dir_ok_nil : dir_ok [].
Proof. constructor; [constructor|constructor|cbn; congruence|cbn; congruence|cbn; congruence|left; reflexivity]. Qed.

Lemma inv_empty : inv empty_fs.
Proof.
  split.
  - split; [discriminate|]. intros p c. split.
    + intros (es & He & Hk). destruct p; [injection He as <-; discriminate|discriminate].
    + destruct p; cbn; congruence.
  - intros p es. unfold empty_fs. destruct p; [|discriminate]. intros [= <-]. exact dir_ok_nil.
Qed.

(** An empty table may appear. *)
Lemma dir_ok_new_table es : dir_ok es -> ent TN es = None -> dir_ok (ent_put TN (KTable []) es).
Proof.
  intros [ND NR HL HE HN0 HT0] HT. assert (HR : rows es = []) by (unfold rows; rewrite HT; reflexivity). constructor.
  - apply ent_put_nodup. exact ND.
  - rewrite rows_put. constructor.
  - intros u Hu Lu. assert (N : TN <> u) by (intros <-; exact (not_long_TN Lu)). rewrite ent_put_ne in Hu by exact N.
    destruct (HL u Hu Lu) as (l & Hn & Hr). rewrite HR in Hr. discriminate.
  - rewrite rows_put. cbn. congruence.
  - intros u Hu. destruct (bytes_dec TN u) as [E|N]; [auto|]. rewrite ent_put_ne in Hu by exact N. auto.
  - right. eexists. apply ent_put_eq.
Qed.

(** An entry without a long name comes or goes. *)
Lemma dir_ok_short u l es es' : dir_ok es -> named u l -> l = [] -> NoDup (map fst es') ->
  (forall v, v <> u -> ent v es' = ent v es) -> dir_ok es'.
Proof.
  intros [ND NR HL HE HN0 HT0] Hn -> ND' Ho.
  assert (Ns : ~ long u) by (rewrite <- (named_long _ _ Hn); congruence).
  assert (HR : rows es' = rows es).
  { unfold rows. rewrite (Ho TN) by (intros <-; exact (named_TN _ _ Hn eq_refl)). reflexivity. }
  constructor; rewrite ?HR; auto.
  - intros v Hv Lv. apply HL; [|exact Lv]. rewrite <- Ho; [exact Hv|]. intros ->. contradiction.
  - intros v Hv. destruct (HE v Hv) as (Lv & He). split; [exact Lv|]. rewrite Ho; [exact He|]. intros ->. contradiction.
  - intros v Hv. destruct (bytes_dec v u) as [->|N]; [eauto|]. rewrite Ho in Hv by exact N. auto.
  - rewrite (Ho TN) by (intros <-; exact (named_TN _ _ Hn eq_refl)). exact HT0.
Qed.

(** An entry with a long name comes, with its row. *)
Lemma dir_ok_add u l es es' m : dir_ok es -> named u l -> l <> [] -> NoDup (map fst es') ->
  (forall v, v <> u -> ent v es' = ent v es) -> ent u es' <> None -> ent TN es = Some (KTable m) ->
  dir_ok (ent_put TN (KTable (update_mapping u l m)) es').
Proof.
  intros [ND NR HL HE HN0 HT0] Hn Hl ND' Ho Hu Ht. assert (HR : rows es = m) by (unfold rows; rewrite Ht; reflexivity). rewrite HR in *.
  pose proof (named_TN _ _ Hn) as NT. assert (Lu : long u) by (apply (named_long _ _ Hn); exact Hl).
  constructor; rewrite ?rows_put.
  - apply ent_put_nodup. exact ND'.
  - apply update_nodup. exact NR.
  - intros v Hv Lv. assert (N : TN <> v) by (intros <-; exact (not_long_TN Lv)). rewrite ent_put_ne in Hv by exact N.
    destruct (bytes_dec v u) as [->|N2].
    + rewrite update_eq. destruct (ent u m) as [l'|] eqn:Em.
      * destruct (HE u ltac:(congruence)) as (_ & He). destruct (HL u He Lu) as (l2 & Hn2 & Hr2). exists l2. split; [exact Hn2|congruence].
      * exists l. auto.
    + rewrite update_ne by congruence. apply HL; [|exact Lv]. rewrite <- Ho by exact N2. exact Hv.
  - intros v Hv. destruct (bytes_dec v u) as [->|N2].
    + split; [exact Lu|]. rewrite ent_put_ne by congruence. exact Hu.
    + rewrite update_ne in Hv by congruence. destruct (HE v Hv) as (Lv & He). split; [exact Lv|].
      rewrite ent_put_ne by (intros <-; exact (not_long_TN Lv)). rewrite Ho by exact N2. exact He.
  - intros v Hv. destruct (bytes_dec TN v) as [E|N]; [auto|]. rewrite ent_put_ne in Hv by exact N.
    destruct (bytes_dec v u) as [->|N2]; [eauto|]. rewrite Ho in Hv by exact N2. auto.
  - right. eexists. apply ent_put_eq.
Qed.

(** An entry with a long name goes, with its row. *)
Lemma dir_ok_del u l es es' m : dir_ok es -> named u l -> l <> [] -> NoDup (map fst es') ->
  (forall v, v <> u -> ent v es' = ent v es) -> ent u es' = None -> ent TN es = Some (KTable m) ->
  dir_ok (ent_put TN (KTable (remove_mapping u m)) es').
Proof.
  intros [ND NR HL HE HN0 HT0] Hn Hl ND' Ho Hu Ht. assert (HR : rows es = m) by (unfold rows; rewrite Ht; reflexivity). rewrite HR in *.
  pose proof (named_TN _ _ Hn) as NT. unfold remove_mapping.
  constructor; rewrite ?rows_put.
  - apply ent_put_nodup. exact ND'.
  - apply ent_del_nodup. exact NR.
  - intros v Hv Lv. assert (N : TN <> v) by (intros <-; exact (not_long_TN Lv)). rewrite ent_put_ne in Hv by exact N.
    assert (N2 : v <> u) by (intros ->; congruence).
    rewrite ent_del_ne by congruence. apply HL; [|exact Lv]. rewrite <- Ho by exact N2. exact Hv.
  - intros v Hv. assert (N2 : v <> u) by (intros ->; rewrite ent_del_eq in Hv; congruence).
    rewrite ent_del_ne in Hv by congruence. destruct (HE v Hv) as (Lv & He). split; [exact Lv|].
    rewrite ent_put_ne by (intros <-; exact (not_long_TN Lv)). rewrite Ho by exact N2. exact He.
  - intros v Hv. destruct (bytes_dec TN v) as [E|N]; [auto|]. rewrite ent_put_ne in Hv by exact N.
    destruct (bytes_dec v u) as [->|N2]; [eauto|]. rewrite Ho in Hv by exact N2. auto.
  - right. eexists. apply ent_put_eq.
Qed.

(** The table is written back unchanged. *)
Lemma dir_ok_same es m : dir_ok es -> ent TN es = Some (KTable m) -> dir_ok (ent_put TN (KTable m) es).
Proof.
  intros [ND NR HL HE HN0 HT0] Ht. assert (HR : rows es = m) by (unfold rows; rewrite Ht; reflexivity). rewrite HR in *.
  constructor; rewrite ?rows_put; auto.
  - apply ent_put_nodup. exact ND.
  - intros v Hv Lv. rewrite ent_put_ne in Hv by (intros <-; exact (not_long_TN Lv)). auto.
  - intros v Hv. destruct (HE v Hv) as (Lv & He). split; [exact Lv|]. rewrite ent_put_ne by (intros <-; exact (not_long_TN Lv)). exact He.
  - intros v Hv. destruct (bytes_dec TN v) as [E|N]; [auto|]. rewrite ent_put_ne in Hv by exact N. auto.
  - right. eexists. apply ent_put_eq.
Qed.

(** Two states that differ only in tables. *)
Definition lookup (fs : hfs) (d : hpath) (u : bytes) : option kind :=
  match fs d with Some es => ent u es | None => None end.
Definition like (fs fs1 : hfs) : Prop :=
  forall d, (fs d = None <-> fs1 d = None) /\ forall u, u <> TN -> lookup fs1 d u = lookup fs d u.
Lemma like_refl fs : like fs fs.
Proof. intros d. split; [reflexivity|auto]. Qed.
Lemma like_trans a b c : like a b -> like b c -> like a c.
Proof. intros H1 H2 d. destruct (H1 d) as (A & B), (H2 d) as (C & D). split; [tauto|]. intros u N. rewrite D, B by exact N. reflexivity. Qed.

Lemma open_table_spec d fs fs1 r : inv fs -> open_table d fs = (fs1, r) ->
  inv fs1 /\ like fs fs1 /\
  match r with
  | Ok m => exists es, fs1 d = Some es /\ ent TN es = Some (KTable m)
  | Err _ => True
  end.
Proof.
  intros (T & D). unfold open_table. destruct (fs d) as [es|] eqn:Ed.
  2: { intros [= <- <-]. split; [split; auto|split; [apply like_refl|exact I]]. }
  destruct (ent TN es) as [[i| |m]|] eqn:Et; intros [= <- <-]; try (split; [split; auto|split; [apply like_refl|eauto]]; fail).
  - split; [|split].
    + split.
      * eapply tree_hset; [exact T|exact Ed|]. apply same_put; congruence.
      * intros p e. destruct (hpath_dec d p) as [->|N].
        -- rewrite hset_eq. intros [= <-]. apply dir_ok_new_table; eauto.
        -- rewrite hset_ne by exact N. apply D.
    + intros q. destruct (hpath_dec d q) as [->|N].
      * unfold lookup. rewrite hset_eq, Ed. split; [split; discriminate|]. intros u Nu. apply ent_put_ne. congruence.
      * unfold lookup. rewrite hset_ne by exact N. split; [reflexivity|auto].
    + exists (ent_put TN (KTable []) es). rewrite hset_eq, ent_put_eq. auto.
Qed.

Lemma commit_inv d m fs es m0 : tree_ok fs -> fs d = Some es -> ent TN es = Some (KTable m0) ->
  (forall q e, q <> d -> fs q = Some e -> dir_ok e) -> dir_ok (ent_put TN (KTable m) es) -> inv (commit_table d m fs).
Proof.
  intros T Hd Ht Ho Hok. unfold commit_table. rewrite Hd. split.
  - eapply tree_hset; [exact T|exact Hd|]. apply same_put; congruence.
  - intros q e. destruct (hpath_dec d q) as [->|N].
    + rewrite hset_eq. intros [= <-]. exact Hok.
    + rewrite hset_ne by exact N. apply Ho. congruence.
Qed.

(** What a callback has to do. *)
Definition done (act : action) (p : hpath) (fs1 fs2 : hfs) : Prop :=
  p <> [] /\ tree_ok fs2 /\
  exists es1 es2, fs1 (parent p) = Some es1 /\ fs2 (parent p) = Some es2 /\ NoDup (map fst es2) /\
    (forall v, v <> leaf p -> ent v es2 = ent v es1) /\
    match act with ACreate => ent (leaf p) es2 <> None | ADelete => ent (leaf p) es2 = None end /\
    (forall q e, q <> parent p -> fs2 q = Some e -> dir_ok e).

Lemma done_short act p l fs1 fs2 : inv fs1 -> named (leaf p) l -> l = [] -> done act p fs1 fs2 -> inv fs2.
Proof.
  intros (T1 & D1) Hn Hl (Hp & T2 & es1 & es2 & E1 & E2 & ND & Ho & Ha & Hr). split; [exact T2|].
  intros q e. destruct (hpath_dec q (parent p)) as [->|N].
  - rewrite E2. intros [= <-]. eapply dir_ok_short; eauto.
  - apply Hr. exact N.
Qed.

Lemma process_inv path act callback fs : okp path -> inv fs ->
  (forall P l fs1 fs2 r, t_encrypt trans path = Ok (P, l) -> inv fs1 -> like fs fs1 -> callback (comps P) fs1 = (fs2, r) ->
     match r with
     | Err _ => inv fs2
     | Ok _ => done act (comps P) fs1 fs2
     end) ->
  inv (fst (process trans path act callback fs)).
Proof.
  intros Hf HI Hcb. unfold process. destruct (t_encrypt trans path) as [[P l]|e] eqn:Ee; [|exact HI].
  pose proof (enc _ _ _ Hf Ee) as HE.
  destruct l as [|x l'].
  - destruct (callback (comps P) fs) as [fs2 r] eqn:Ec.
    specialize (Hcb P [] fs fs2 r eq_refl HI (like_refl fs) Ec). cbn [fst]. destruct r as [[]|e]; [|exact Hcb].
    destruct HE as [(HE & _)|(Hp & Hn & _)].
    + destruct Hcb as (Hp & _). congruence.
    + eapply done_short; eauto.
  - set (l := x :: l') in *. assert (Hl : l <> []) by discriminate. clearbody l. clear x l'.
    destruct HE as [(_ & HE)|(Hp & Hn & Hg)]; [congruence|]. rewrite (Hg Hl).
    destruct (open_table (parent (comps P)) fs) as [fs1 [m|e]] eqn:Eo; destruct (open_table_spec _ _ _ _ HI Eo) as (HI1 & HL1 & HR1); [|exact HI1].
    destruct (callback (comps P) fs1) as [fs2 r] eqn:Ec. specialize (Hcb P l fs1 fs2 r eq_refl HI1 HL1 Ec).
    destruct r as [[]|e]; [|exact Hcb]. cbn [fst].
    destruct Hcb as (_ & T2 & es1 & es2 & E1 & E2 & ND & Ho & Ha & Hr).
    destruct HR1 as (es & Hes & Ht). rewrite E1 in Hes. injection Hes as <-.
    pose proof (named_TN _ _ Hn) as NT.
    eapply commit_inv; [exact T2|exact E2|rewrite Ho by congruence; exact Ht|exact Hr|].
    destruct HI1 as (T1 & D1). destruct act; [eapply dir_ok_add|eapply dir_ok_del]; eauto.
Qed.

(** ** The callbacks *)
Lemma put_done act p fs1 es k : inv fs1 -> p <> [] -> fs1 (parent p) = Some es -> ent (leaf p) es <> Some KDir -> k <> KDir -> act = ACreate ->
  done act p fs1 (hset fs1 (parent p) (Some (ent_put (leaf p) k es))).
Proof.
  intros (T & D) Hp He Hk Hk2 ->. split; [exact Hp|]. split.
  - eapply tree_hset; [exact T|exact He|]. apply same_put; assumption.
  - exists es, (ent_put (leaf p) k es). rewrite hset_eq. split; [exact He|]. split; [reflexivity|].
    split; [apply ent_put_nodup, (do_nodup _ (D _ _ He))|]. split; [intros v N; apply ent_put_ne; congruence|].
    split; [rewrite ent_put_eq; discriminate|]. intros q e N. rewrite hset_ne by congruence. apply D.
Qed.
Lemma same_done p fs1 es : inv fs1 -> p <> [] -> fs1 (parent p) = Some es -> ent (leaf p) es <> None -> done ACreate p fs1 fs1.
Proof.
  intros (T & D) Hp He Hk. split; [exact Hp|]. split; [exact T|]. exists es, es. split; [exact He|]. split; [exact He|].
  split; [apply (do_nodup _ (D _ _ He))|]. split; [auto|]. split; [exact Hk|]. intros q e _. apply D.
Qed.

Lemma open_cb bad creat excl ino p fs1 fs2 r : inv fs1 -> h_open bad creat excl ino p fs1 = (fs2, r) ->
  match r with Err _ => fs2 = fs1 | Ok _ => done ACreate p fs1 fs2 end.
Proof.
  intros HI. unfold h_open. destruct bad; [intros [= <- <-]; reflexivity|]. destruct p as [|x p]; [intros [= <- <-]; reflexivity|].
  set (q := x :: p). assert (Hq : q <> []) by discriminate. clearbody q.
  destruct (fs1 (parent q)) as [es|] eqn:Ed; [|intros [= <- <-]; reflexivity].
  destruct (ent (leaf q) es) as [[i| |m]|] eqn:El.
  - destruct (creat && excl); intros [= <- <-]; [reflexivity|]. eapply same_done; eauto; congruence.
  - intros [= <- <-]. destruct (creat && excl); reflexivity.
  - destruct (creat && excl); intros [= <- <-]; [reflexivity|]. eapply same_done; eauto; congruence.
  - destruct creat; intros [= <- <-]; [|reflexivity]. apply put_done; auto; congruence.
Qed.

Lemma mkdir_cb bad p fs1 fs2 r : inv fs1 -> h_mkdir bad p fs1 = (fs2, r) ->
  match r with Err _ => fs2 = fs1 | Ok _ => done ACreate p fs1 fs2 end.
Proof.
  intros HI. unfold h_mkdir. destruct bad; [intros [= <- <-]; reflexivity|]. destruct p as [|x p]; [intros [= <- <-]; reflexivity|].
  set (q := x :: p). assert (Hq : q <> []) by discriminate. clearbody q.
  destruct (fs1 (parent q)) as [es|] eqn:Ed; [|intros [= <- <-]; reflexivity].
  destruct (ent (leaf q) es) as [k|] eqn:El; intros [= <- <-]; [reflexivity|]. destruct HI as (T & D).
  pose proof (tree_mkdir fs1 _ _ _ T Ed El) as T2. rewrite <- (parent_leaf q Hq) in T2.
  assert (Nq : q <> parent q). { rewrite (parent_leaf q Hq) at 1. intros E. symmetry in E. exact (snoc_ne _ _ E). }
  split; [exact Hq|]. split; [exact T2|]. exists es, (ent_put (leaf q) KDir es). split; [exact Ed|].
  rewrite hset_ne, hset_eq by exact Nq. split; [reflexivity|]. split; [apply ent_put_nodup, (do_nodup _ (D _ _ Ed))|].
  split; [intros v N; apply ent_put_ne; congruence|]. split; [rewrite ent_put_eq; discriminate|].
  intros r e N. destruct (hpath_dec q r) as [<-|N2].
  - rewrite hset_eq. intros [= <-]. exact dir_ok_nil.
  - rewrite !hset_ne by congruence. apply D.
Qed.

Lemma link_cb bad src p fs1 fs2 r : inv fs1 -> h_link bad src p fs1 = (fs2, r) ->
  match r with Err _ => fs2 = fs1 | Ok _ => done ACreate p fs1 fs2 end.
Proof.
  intros HI. unfold h_link. destruct bad; [intros [= <- <-]; reflexivity|].
  destruct src as [|y src]; [intros [= <- <-]; reflexivity|]. destruct p as [|x p]; [intros [= <- <-]; reflexivity|].
  set (q := x :: p). assert (Hq : q <> []) by discriminate. set (s := y :: src). clearbody q s.
  destruct (fs1 (parent s)) as [es|]; [|intros [= <- <-]; reflexivity].
  destruct (fs1 (parent q)) as [ed|] eqn:Ed; [|intros [= <- <-]; reflexivity].
  destruct (ent (leaf s) es) as [[i| |m]|]; destruct (ent (leaf q) ed) as [k|] eqn:El; intros [= <- <-]; try reflexivity.
  apply put_done; auto; congruence.
Qed.

Lemma del_done p fs1 es : inv fs1 -> p <> [] -> fs1 (parent p) = Some es -> ent (leaf p) es <> Some KDir ->
  done ADelete p fs1 (hset fs1 (parent p) (Some (ent_del (leaf p) es))).
Proof.
  intros (T & D) Hp He Hk. split; [exact Hp|]. split.
  - eapply tree_hset; [exact T|exact He|]. apply same_del; assumption.
  - exists es, (ent_del (leaf p) es). rewrite hset_eq. split; [exact He|]. split; [reflexivity|].
    split; [apply ent_del_nodup, (do_nodup _ (D _ _ He))|]. split; [intros v N; apply ent_del_ne; congruence|].
    split; [rewrite ent_del_eq; reflexivity|]. intros q e N. rewrite hset_ne by congruence. apply D.
Qed.

Lemma unlink_cb bad p fs1 fs2 r : inv fs1 -> h_unlink bad p fs1 = (fs2, r) ->
  match r with Err _ => fs2 = fs1 | Ok _ => done ADelete p fs1 fs2 end.
Proof.
  intros HI. unfold h_unlink. destruct bad; [intros [= <- <-]; reflexivity|]. destruct p as [|x p]; [intros [= <- <-]; reflexivity|].
  set (q := x :: p). assert (Hq : q <> []) by discriminate. clearbody q.
  destruct (fs1 (parent q)) as [es|] eqn:Ed; [|intros [= <- <-]; reflexivity].
  destruct (ent (leaf q) es) as [[i| |m]|] eqn:El; intros [= <- <-]; try reflexivity; apply del_done; auto; congruence.
Qed.

Lemma rmdir_cb bad p fs1 fs2 r : inv fs1 -> h_rmdir bad p fs1 = (fs2, r) ->
  match r with Err _ => fs2 = fs1 | Ok _ => done ADelete p fs1 fs2 end.
Proof.
  intros HI. unfold h_rmdir. destruct bad; [intros [= <- <-]; reflexivity|]. destruct p as [|x p]; [intros [= <- <-]; reflexivity|].
  set (q := x :: p). assert (Hq : q <> []) by discriminate. clearbody q.
  destruct (fs1 (parent q)) as [es|] eqn:Ed; [|intros [= <- <-]; reflexivity].
  destruct (ent (leaf q) es) as [[i| |m]|] eqn:El; [| | |intros [= <- <-]; reflexivity]; destruct (fs1 q) as [[|y l]|] eqn:Efq; intros [= <- <-]; try reflexivity.
  destruct HI as (T & D). assert (T2 : tree_ok (hset (hset fs1 (parent q) (Some (ent_del (leaf q) es))) q None)).
  { pose proof (tree_rmdir fs1 (parent q) (leaf q) es T Ed) as T2. rewrite <- (parent_leaf q Hq) in T2. exact (T2 Efq). }
  assert (Nq : q <> parent q). { rewrite (parent_leaf q Hq) at 1. intros E. symmetry in E. exact (snoc_ne _ _ E). }
  split; [exact Hq|]. split; [exact T2|]. exists es, (ent_del (leaf q) es). split; [exact Ed|].
  rewrite hset_ne, hset_eq by exact Nq. split; [reflexivity|]. split; [apply ent_del_nodup, (do_nodup _ (D _ _ Ed))|].
  split; [intros v N; apply ent_del_ne; congruence|]. split; [apply ent_del_eq|].
  intros r e N. destruct (hpath_dec q r) as [<-|N2].
  - rewrite hset_eq. discriminate.
  - rewrite !hset_ne by congruence. apply D.
Qed.

Lemma drop_inv p fs : inv fs -> (forall es, fs p = Some es -> forall u, ent u es <> None -> ~ long u) -> inv (drop_table p fs).
Proof.
  intros (T & D) Hno. unfold drop_table. destruct (fs p) as [es|] eqn:Ep; [|split; auto].
  assert (HX : ent TN es <> Some KDir -> inv (hset fs p (Some (ent_del TN es)))).
  { intros HN. split.
    - eapply tree_hset; [exact T|exact Ep|]. apply same_del. exact HN.
    - intros q e. destruct (hpath_dec p q) as [<-|N]; [|rewrite hset_ne by exact N; apply D].
      rewrite hset_eq. intros [= <-]. assert (HR : rows (ent_del TN es) = []) by (unfold rows; rewrite ent_del_eq; reflexivity).
      constructor; rewrite ?HR.
      + apply ent_del_nodup, (do_nodup _ (D _ _ Ep)).
      + constructor.
      + intros u Hu Lu. exfalso. apply (Hno es eq_refl u); [|exact Lu].
        destruct (bytes_dec TN u) as [<-|N]; [rewrite ent_del_eq in Hu; congruence|rewrite ent_del_ne in Hu by exact N; exact Hu].
      + cbn. congruence.
      + intros u Hu. destruct (bytes_dec TN u) as [<-|N]; [rewrite ent_del_eq in Hu; congruence|].
        rewrite ent_del_ne in Hu by exact N. exact (do_named _ (D _ _ Ep) u Hu).
      + left. apply ent_del_eq. }
  destruct (ent TN es) as [[i| |m]|]; try (apply HX; congruence); split; auto.
Qed.

(** ** Rename *)
Lemma found_in fs path P l : okp path -> t_encrypt trans path = Ok (P, l) -> comps P <> [] ->
  found trans fs path = lookup fs (parent (comps P)) (leaf (comps P)).
Proof.
  intros Hf E Hp. unfold found. rewrite E. unfold lookup. destruct (comps P); [congruence|reflexivity].
Qed.

Lemma rename_short a b la lb fs fs' ea eb k : inv fs -> renamed a b fs fs' ea eb k -> named (leaf a) la -> named (leaf b) lb ->
  la = [] -> lb = [] -> inv fs'.
Proof.
  intros (T & D) R Hna Hnb Hla Hlb. split; [apply R|]. intros q e Hq.
  assert (Na : dir_ok (ent_del (leaf a) ea)).
  { eapply dir_ok_short; [exact (D _ _ (rn_src _ _ _ _ _ _ _ R))|exact Hna|exact Hla| |].
    - apply ent_del_nodup, (do_nodup _ (D _ _ (rn_src _ _ _ _ _ _ _ R))).
    - intros v N. apply ent_del_ne. congruence. }
  assert (Nb : forall e0, dir_ok e0 -> dir_ok (ent_put (leaf b) k e0)).
  { intros e0 H0. eapply dir_ok_short; [exact H0|exact Hnb|exact Hlb| |].
    - apply ent_put_nodup, (do_nodup _ H0).
    - intros v N. apply ent_put_ne. congruence. }
  destruct (hpath_dec q (parent b)) as [->|N1].
  - rewrite (rn_new _ _ _ _ _ _ _ R) in Hq. injection Hq as <-. apply Nb. destruct (hpath_eqb _ _); [exact Na|exact (D _ _ (rn_dst _ _ _ _ _ _ _ R))].
  - destruct (hpath_dec q (parent a)) as [->|N2].
    + rewrite (rn_old _ _ _ _ _ _ _ R N1) in Hq. injection Hq as <-. exact Na.
    + destruct (rn_rest _ _ _ _ _ _ _ R q e Hq N2 N1) as (q' & Hq'). exact (D _ _ Hq').
Qed.

(** The rows after a rename, for the two directories. *)
Definition upd_a (la : bytes) (u : bytes) (m : list (bytes * bytes)) := match la with [] => m | _ => remove_mapping u m end.
Definition upd_b (lb : bytes) (u : bytes) (m : list (bytes * bytes)) := match lb with [] => m | _ => update_mapping u lb m end.

Lemma leave_ok u la es m : dir_ok es -> named u la -> ent TN es = Some (KTable m) ->
  dir_ok (ent_put TN (KTable (upd_a la u m)) (ent_del u es)).
Proof.
  intros H Hn Ht. assert (N : u <> TN) by exact (named_TN _ _ Hn). destruct la as [|x la].
  - apply dir_ok_same; [|rewrite ent_del_ne by exact N; exact Ht]. eapply dir_ok_short; [exact H|exact Hn|reflexivity| |].
    + apply ent_del_nodup, (do_nodup _ H).
    + intros v Nv. apply ent_del_ne. congruence.
  - eapply dir_ok_del; [exact H|exact Hn|discriminate| | | |exact Ht].
    + apply ent_del_nodup, (do_nodup _ H).
    + intros v Nv. apply ent_del_ne. congruence.
    + apply ent_del_eq.
Qed.
Lemma enter_ok u lb k es m : dir_ok es -> named u lb -> ent TN es = Some (KTable m) ->
  dir_ok (ent_put TN (KTable (upd_b lb u m)) (ent_put u k es)).
Proof.
  intros H Hn Ht. assert (N : u <> TN) by exact (named_TN _ _ Hn). destruct lb as [|x lb].
  - apply dir_ok_same; [|rewrite ent_put_ne by exact N; exact Ht]. eapply dir_ok_short; [exact H|exact Hn|reflexivity| |].
    + apply ent_put_nodup, (do_nodup _ H).
    + intros v Nv. apply ent_put_ne. congruence.
  - eapply dir_ok_add; [exact H|exact Hn|discriminate| | | |exact Ht].
    + apply ent_put_nodup, (do_nodup _ H).
    + intros v Nv. apply ent_put_ne. congruence.
    + rewrite ent_put_eq. discriminate.
Qed.

(** [dir_ok] sees a directory through its lookups. *)
Lemma dir_ok_ext es es' : dir_ok es -> NoDup (map fst es') -> (forall v, ent v es' = ent v es) -> dir_ok es'.
Proof.
  intros [ND NR HL HE HN0 HT0] ND' H. assert (HR : rows es' = rows es) by (unfold rows; rewrite H; reflexivity).
  constructor; rewrite ?HR; auto.
  - intros u. rewrite H. apply HL.
  - intros u. rewrite H. apply HE.
  - intros u. rewrite H. apply HN0.
  - rewrite H. exact HT0.
Qed.

Lemma rename_inv from to bad fs : okp from -> okp to -> inv fs ->
  (forall i, found trans fs from = Some (KFile i) -> found trans fs to = Some (KFile i) ->
     from = to \/ exists P, t_encrypt trans from = Ok (P, [])) ->
  inv (fst (lite_rename trans from to bad fs)).
Proof.
  intros Hf Ht HI Hg. unfold lite_rename.
  destruct (t_encrypt trans from) as [[A la]|ea] eqn:Ea; [|exact HI].
  destruct (t_encrypt trans to) as [[B lb]|eb] eqn:Eb; [|destruct la; exact HI].
  pose proof (enc _ _ _ Hf Ea) as HA. pose proof (enc _ _ _ Ht Eb) as HB.
  assert (Hshort : la = [] -> lb = [] -> inv (fst (h_rename bad (comps A) (comps B) fs))).
  { intros Ea0 Eb0. destruct (h_rename bad (comps A) (comps B) fs) as [fs' r] eqn:Er.
    destruct (h_rename_spec _ _ _ _ _ _ (proj1 HI) Er) as [(-> & _)|[(-> & _)|(_ & e1 & e2 & k & R)]]; [exact HI|exact HI|].
    destruct HA as [(HA & _)|(HA & HnA & _)]; [destruct R; congruence|].
    destruct HB as [(HB & _)|(HB & HnB & _)]; [destruct R; congruence|].
    eapply rename_short; eauto. }
  set (slow := match open_table (parent (comps A)) fs with (fs1, Err e) => (fs1, Err e) | (fs1, Ok _) => _ end).
  assert (Hslow : la <> [] \/ lb <> [] -> inv (fst slow)).
  2: { destruct la as [|x la']; [destruct lb as [|y lb']; [exact (Hshort eq_refl eq_refl)|]|]; apply Hslow; [right|left]; discriminate. }
  intros Hlong. unfold slow. clear slow Hshort.
  destruct (open_table (parent (comps A)) fs) as [fs1 [m1|e]] eqn:O1;
    destruct (open_table_spec _ _ _ _ HI O1) as (HI1 & HL1 & HR1); [|exact HI1].
  destruct (open_table (parent (comps B)) fs1) as [fs2 [m2|e]] eqn:O2;
    destruct (open_table_spec _ _ _ _ HI1 O2) as (HI2 & HL2 & HR2); [|exact HI2].
  destruct (h_rename bad (comps A) (comps B) fs2) as [fs3 r] eqn:Er.
  pose proof (h_rename_spec _ _ _ _ _ _ (proj1 HI2) Er) as HS.
  destruct r as [[]|e].
  2: { destruct HS as [(-> & _)|[(_ & HX & _)|(HX & _)]]; [exact HI2|discriminate|discriminate]. }
  cbv zeta. cbn [fst].
  assert (HpA : comps A <> []) by (destruct HS as [(_ & e0 & HX)|[(_ & _ & HX & _)|(_ & e1 & e2 & k & R)]]; [discriminate|exact HX|apply R]).
  assert (HpB : comps B <> []) by (destruct HS as [(_ & e0 & HX)|[(_ & _ & _ & HX & _)|(_ & e1 & e2 & k & R)]]; [discriminate|exact HX|apply R]).
  destruct HA as [(HA & _)|(_ & HnA & HgA)]; [congruence|]. destruct HB as [(HB & _)|(_ & HnB & HgB)]; [congruence|].
  (* the tables as they are in fs2 *)
  assert (OB : exists eb0 mb, fs2 (parent (comps B)) = Some eb0 /\ ent TN eb0 = Some (KTable mb)).
  { destruct HR2 as (es & H1 & H2). eauto. }
  assert (OA : exists ea0 ma, fs2 (parent (comps A)) = Some ea0 /\ ent TN ea0 = Some (KTable ma)).
  { destruct (hpath_dec (parent (comps A)) (parent (comps B))) as [->|N]; [exact OB|].
    destruct HR1 as (es & H1 & H2). exists es, m1. split; [|exact H2]. clear - O2 H1 N. unfold open_table in O2.
    destruct (fs1 (parent (comps B))) as [e|]; [|injection O2 as <- _; exact H1].
    destruct (ent TN e) as [[| |]|]; injection O2 as <- _; try exact H1. rewrite hset_ne by congruence. exact H1. }
  destruct OA as (ea0 & ma & EA & TA). destruct OB as (eb0 & mb & EB & TB).
  assert (rowA : match open_table (parent (comps A)) fs2 with (_, Ok m) => m | _ => [] end = ma).
  { unfold open_table. rewrite EA, TA. reflexivity. }
  assert (rowB : match open_table (parent (comps B)) fs2 with (_, Ok m) => m | _ => [] end = mb).
  { unfold open_table. rewrite EB, TB. reflexivity. }
  rewrite rowA, rowB, !hpath_eqb_refl. clear rowA rowB.
  set (a := comps A) in *. set (b := comps B) in *.
  assert (GA : match la with [] => ma | _ => remove_mapping (get_last_component A) ma end = upd_a la (leaf a) ma).
  { destruct la; [reflexivity|]. unfold upd_a. rewrite HgA by discriminate. reflexivity. }
  assert (GA' : match la with [] => mb | _ => remove_mapping (get_last_component A) mb end = upd_a la (leaf a) mb).
  { destruct la; [reflexivity|]. unfold upd_a. rewrite HgA by discriminate. reflexivity. }
  assert (GB : forall m, match lb with [] => m | _ => update_mapping (get_last_component B) lb m end = upd_b lb (leaf b) m).
  { intros m. destruct lb; [reflexivity|]. unfold upd_b. rewrite HgB by discriminate. reflexivity. }
  rewrite GA, GA', !GB. clear GA GA' GB.
  pose proof (named_TN _ _ HnA) as NTA. pose proof (named_TN _ _ HnB) as NTB.
  destruct HI2 as (T2 & D2).
  destruct (hpath_dec (parent a) (parent b)) as [Epp|Npp].
  - (* one directory *)
    rewrite Epp, hpath_eqb_refl in *. assert (ea0 = eb0) by congruence. subst eb0. assert (ma = mb) by congruence. subst mb.
    set (m' := upd_b lb (leaf b) (upd_a la (leaf a) ma)).
    (* what the directory holds after the host's rename *)
    assert (Hdone : exists e3 m3, fs3 (parent b) = Some e3 /\ ent TN e3 = Some (KTable m3) /\ tree_ok fs3 /\
               dir_ok (ent_put TN (KTable m') e3) /\ (forall q e, q <> parent b -> fs3 q = Some e -> dir_ok e)).
    { destruct HS as [(_ & e0 & HX)|[(-> & _ & _ & _ & ea1 & eb1 & k & H1 & H2 & H3 & H4)|(_ & ea1 & eb1 & k & R)]]; [discriminate| |].
      - (* nothing happened *)
        exists ea0, ma. repeat (split; [assumption|]). split; [|intros q e _; apply D2].
        assert (ea1 = ea0) by congruence. assert (eb1 = ea0) by congruence. subst ea1 eb1.
        assert (HB : ent (leaf b) ea0 <> None).
        { destruct H4 as [<-|(i & -> & HB)]; congruence. }
        assert (Hfa : found trans fs from = lookup fs2 (parent a) (leaf a)).
        { rewrite (found_in fs from A la Hf Ea HpA). destruct (HL1 (parent a)) as (_ & X1), (HL2 (parent a)) as (_ & X2).
          fold a. rewrite X2, X1 by exact NTA. reflexivity. }
        assert (Hfb : found trans fs to = lookup fs2 (parent b) (leaf b)).
        { rewrite (found_in fs to B lb Ht Eb HpB). destruct (HL1 (parent b)) as (_ & X1), (HL2 (parent b)) as (_ & X2).
          fold b. rewrite X2, X1 by exact NTB. reflexivity. }
        assert (Hcase : a = b \/ la = []).
        { destruct H4 as [H4|(i & -> & HB')]; [left; exact H4|].
          destruct (Hg i) as [Heq|(P & HP)].
          - rewrite Hfa. unfold lookup. rewrite Epp, H3. exact H2.
          - rewrite Hfb. unfold lookup. rewrite H3. exact HB'.
          - left. subst to. rewrite Ea in Eb. injection Eb as -> ->. reflexivity.
          - right. congruence. }
        assert (Hda : dir_ok ea0) by exact (D2 _ _ H3).
        unfold m'. destruct la as [|x la'].
        + cbn [upd_a]. destruct lb as [|y lb']; [destruct Hlong; congruence|].
          cbn [upd_b]. eapply dir_ok_add; [exact Hda|exact HnB|discriminate|apply (do_nodup _ Hda)|auto|exact HB|exact TA].
        + destruct Hcase as [Hab|HX]; [|discriminate].
          assert (Hlb : lb <> []).
          { apply (named_long _ _ HnB). rewrite <- Hab. apply (named_long _ _ HnA). discriminate. }
          destruct lb as [|y lb']; [congruence|]. cbn [upd_a upd_b]. rewrite Hab in *.
          (* as if the entry left and came back *)
          pose proof (leave_ok _ _ _ _ Hda HnA TA) as L1. cbn [upd_a] in L1.
          pose proof (enter_ok _ _ k _ _ L1 HnB (ent_put_eq _ _ _)) as L2. cbn [upd_b] in L2.
          eapply dir_ok_ext; [exact L2|apply ent_put_nodup, (do_nodup _ Hda)|].
          intros v. destruct (bytes_dec TN v) as [<-|Nv]; [rewrite !ent_put_eq; reflexivity|].
          rewrite !(ent_put_ne TN v) by exact Nv.
          destruct (bytes_dec (leaf b) v) as [<-|Nv2]; [rewrite ent_put_eq; exact H2|].
          rewrite ent_put_ne, ent_put_ne, ent_del_ne by assumption. reflexivity.
      - pose proof (rn_new _ _ _ _ _ _ _ R) as HN. rewrite Epp, hpath_eqb_refl in HN.
        pose proof (rn_src _ _ _ _ _ _ _ R) as HSrc. rewrite Epp in HSrc. assert (ea1 = ea0) by congruence. subst ea1.
        assert (Hda : dir_ok ea0) by exact (D2 _ _ HSrc).
        eexists. exists ma. split; [exact HN|]. split; [rewrite ent_put_ne, ent_del_ne by assumption; exact TA|].
        split; [apply R|]. split.
        + pose proof (leave_ok _ _ _ _ Hda HnA TA) as L1.
          pose proof (enter_ok _ _ k _ _ L1 HnB (ent_put_eq _ _ _)) as L2.
          eapply dir_ok_ext; [exact L2|apply ent_put_nodup, ent_put_nodup, ent_del_nodup, (do_nodup _ Hda)|].
          intros v. destruct (bytes_dec TN v) as [<-|Nv]; [rewrite !ent_put_eq; reflexivity|].
          rewrite !(ent_put_ne TN v) by exact Nv.
          destruct (bytes_dec (leaf b) v) as [<-|Nv2]; [rewrite !ent_put_eq; reflexivity|].
          rewrite !(ent_put_ne (leaf b)) by assumption. rewrite (ent_put_ne TN v) by exact Nv. reflexivity.
        + intros q e Nq Hq. assert (Nq' : q <> parent a) by (rewrite Epp; exact Nq).
          destruct (rn_rest _ _ _ _ _ _ _ R q e Hq Nq' Nq) as (q' & Hq'). exact (D2 _ _ Hq'). }
    destruct Hdone as (e3 & m3 & H3 & HT3 & T3 & Hok & Hrest).
    assert (C1 : inv (commit_table (parent b) m' fs3)) by (eapply commit_inv; eauto).
    (* the second commit writes the same rows again *)
    assert (E4 : commit_table (parent b) m' fs3 (parent b) = Some (ent_put TN (KTable m') e3)).
    { unfold commit_table. rewrite H3, hset_eq. reflexivity. }
    eapply commit_inv; [apply C1|exact E4|apply ent_put_eq|intros q e _; apply C1|].
    apply dir_ok_same; [exact Hok|apply ent_put_eq].
  - (* two directories *)
    assert (Npp' : hpath_eqb (parent a) (parent b) = false) by (apply hpath_eqb_neq; exact Npp).
    assert (Npp2 : hpath_eqb (parent b) (parent a) = false) by (apply hpath_eqb_neq; congruence).
    rewrite Npp', Npp2.
    assert (Hdone : exists e3a m3a e3b m3b, fs3 (parent a) = Some e3a /\ ent TN e3a = Some (KTable m3a) /\
               fs3 (parent b) = Some e3b /\ ent TN e3b = Some (KTable m3b) /\ tree_ok fs3 /\
               dir_ok (ent_put TN (KTable (upd_a la (leaf a) ma)) e3a) /\
               dir_ok (ent_put TN (KTable (upd_b lb (leaf b) mb)) e3b) /\
               (forall q e, q <> parent a -> q <> parent b -> fs3 q = Some e -> dir_ok e)).
    { destruct HS as [(_ & e0 & HX)|[(-> & _ & _ & _ & ea1 & eb1 & k & H1 & H2 & H3 & H4)|(_ & ea1 & eb1 & k & R)]]; [discriminate| |].
      - (* two links of one file *)
        exists ea0, ma, eb0, mb. repeat (split; [assumption|]).
        assert (ea1 = ea0) by congruence. assert (eb1 = eb0) by congruence. subst ea1 eb1.
        destruct H4 as [H4|(i & -> & HB)]; [congruence|].
        assert (Hfa : found trans fs from = lookup fs2 (parent a) (leaf a)).
        { rewrite (found_in fs from A la Hf Ea HpA). destruct (HL1 (parent a)) as (_ & X1), (HL2 (parent a)) as (_ & X2).
          fold a. rewrite X2, X1 by exact NTA. reflexivity. }
        assert (Hfb : found trans fs to = lookup fs2 (parent b) (leaf b)).
        { rewrite (found_in fs to B lb Ht Eb HpB). destruct (HL1 (parent b)) as (_ & X1), (HL2 (parent b)) as (_ & X2).
          fold b. rewrite X2, X1 by exact NTB. reflexivity. }
        assert (Hla : la = []).
        { destruct (Hg i) as [Heq|(P & HP)].
          - rewrite Hfa. unfold lookup. rewrite H1. exact H2.
          - rewrite Hfb. unfold lookup. rewrite H3. exact HB.
          - exfalso. subst to. rewrite Ea in Eb. injection Eb as -> ->. apply Npp. reflexivity.
          - congruence. }
        subst la. destruct lb as [|y lb']; [destruct Hlong; congruence|]. cbn [upd_a upd_b].
        split; [apply dir_ok_same; [exact (D2 _ _ H1)|exact TA]|]. split; [|intros q e _ _; apply D2].
        pose proof (D2 _ _ H3) as Hdb.
        eapply dir_ok_add; [exact Hdb|exact HnB|discriminate|apply (do_nodup _ Hdb)|auto|congruence|exact TB].
      - pose proof (rn_new _ _ _ _ _ _ _ R) as HN. rewrite Npp' in HN. pose proof (rn_old _ _ _ _ _ _ _ R Npp) as HO.
        pose proof (rn_src _ _ _ _ _ _ _ R) as HSrc. pose proof (rn_dst _ _ _ _ _ _ _ R) as HDst.
        assert (ea1 = ea0) by congruence. assert (eb1 = eb0) by congruence. subst ea1 eb1.
        exists (ent_del (leaf a) ea0), ma, (ent_put (leaf b) k eb0), mb. split; [exact HO|].
        split; [rewrite ent_del_ne by exact NTA; exact TA|]. split; [exact HN|].
        split; [rewrite ent_put_ne by exact NTB; exact TB|]. split; [apply R|].
        split; [apply leave_ok; [exact (D2 _ _ HSrc)|exact HnA|exact TA]|].
        split; [apply enter_ok; [exact (D2 _ _ HDst)|exact HnB|exact TB]|].
        intros q e N1 N2 Hq. destruct (rn_rest _ _ _ _ _ _ _ R q e Hq N1 N2) as (q' & Hq'). exact (D2 _ _ Hq'). }
    destruct Hdone as (e3a & m3a & e3b & m3b & HA3 & TA3 & HB3 & TB3 & T3 & OkA & OkB & Hrest).
    set (fs4 := commit_table (parent a) (upd_a la (leaf a) ma) fs3).
    assert (E4 : fs4 = hset fs3 (parent a) (Some (ent_put TN (KTable (upd_a la (leaf a) ma)) e3a))).
    { unfold fs4, commit_table. rewrite HA3. reflexivity. }
    assert (T4 : tree_ok fs4).
    { rewrite E4. eapply tree_hset; [exact T3|exact HA3|]. apply same_put; congruence. }
    eapply (commit_inv _ _ _ e3b); [exact T4|rewrite E4, hset_ne by exact Npp; exact HB3|exact TB3| |exact OkB].
    intros q e Nq. rewrite E4. destruct (hpath_dec (parent a) q) as [<-|N2].
    + rewrite hset_eq. intros [= <-]. exact OkA.
    + rewrite hset_ne by exact N2. apply Hrest; congruence.
Qed.

(** ** One operation, and a history *)
Lemma step_inv o fs : inv fs -> Forall okp (op_paths o) -> benign trans suffix o fs -> inv (fst (lite_step trans o fs)).
Proof.
  intros HI Hp (_ & Hb). destruct o as [path creat excl ino bad late|path bad|path ino bad|src dest bad|path bad|path bad|from to bad]; cbn [lite_step op_paths] in *.
  - inversion Hp as [|x xs Hf _]. subst.
    assert (Hcb : forall P l fs1 fs2 r, t_encrypt trans path = Ok (P, l) -> inv fs1 -> like fs fs1 ->
      match h_open bad creat excl ino (comps P) fs1 with
      | (fs3, Ok tt) => (fs3, match late with Some e => Err e | None => Ok tt end)
      | (fs3, Err e) => (fs3, Err e)
      end = (fs2, r) ->
      match r with Err _ => inv fs2 | Ok _ => done ACreate (comps P) fs1 fs2 end \/ creat = false /\ inv fs2).
    { intros P l fs1 fs2 r HE HI1 HL1 Hr.
      destruct (h_open bad creat excl ino (comps P) fs1) as [fs3 [[]|e]] eqn:Eo.
      2: { injection Hr as <- <-. pose proof (open_cb _ _ _ _ _ _ _ _ HI1 Eo) as HO. cbn in HO. subst fs3. left. exact HI1. }
      pose proof (open_cb _ _ _ _ _ _ _ _ HI1 Eo) as HO. cbn in HO.
      destruct late as [e|]; injection Hr as <- <-; [|left; exact HO].
      assert (Hsame : (exists k, lookup fs1 (parent (comps P)) (leaf (comps P)) = Some k) -> inv fs3).
      { intros (k & Hk). unfold lookup in Hk. unfold h_open in Eo. destruct bad; [discriminate|].
        destruct (comps P) eqn:EP; [discriminate|]. rewrite <- EP in *. destruct (fs1 (parent (comps P))) as [es|]; [|discriminate].
        rewrite Hk in Eo. destruct k; [| |]; try (destruct (creat && excl); [discriminate|]); injection Eo as <-; exact HI1. }
      destruct creat.
      - left. destruct (enc _ _ _ Hf HE) as [(HX & _)|(HpP & Hn & _)]; [destruct HO; congruence|].
        destruct Hb as [Hb|(P' & HP')].
        + apply Hsame. rewrite (found_in fs path P l Hf HE HpP) in Hb.
          destruct (HL1 (parent (comps P))) as (_ & X1). rewrite X1 by exact (named_TN _ _ Hn).
          destruct (lookup fs (parent (comps P)) (leaf (comps P))); [eauto|congruence].
        + eapply done_short; [exact HI1|exact Hn|congruence|exact HO].
      - right. split; [reflexivity|]. apply Hsame. unfold h_open in Eo. destruct bad; [discriminate|].
        destruct (comps P) eqn:EP; [discriminate|]. rewrite <- EP in *. unfold lookup. destruct (fs1 (parent (comps P))) as [es|]; [|discriminate].
        destruct (ent (leaf (comps P)) es); [eauto|discriminate]. }
    destruct creat.
    + apply process_inv; [exact Hf|exact HI|]. intros P l fs1 fs2 r HE HI1 HL1 Hr.
      destruct (Hcb P l fs1 fs2 r HE HI1 HL1) as [HX|(HX & _)]; [|exact HX|discriminate].
      destruct (h_open bad true excl ino (comps P) fs1) as [fs3 [[]|e]]; exact Hr.
    + destruct (t_encrypt trans path) as [[P l]|e] eqn:HE; [|exact HI].
      destruct (h_open bad false excl ino (comps P) fs) as [fs2 r] eqn:Eo.
      assert (fs2 = fs).
      { unfold h_open in Eo. destruct bad; [injection Eo as <- _; reflexivity|]. destruct (comps P); [injection Eo as <- _; reflexivity|].
        destruct (fs _) as [es|]; [|injection Eo as <- _; reflexivity]. destruct (ent _ es) as [[| |]|]; injection Eo as <- _; reflexivity. }
      subst fs2. destruct r as [[]|e]; exact HI.
  - inversion Hp as [|x xs Hf _]. subst. apply process_inv; [exact Hf|exact HI|]. intros P l fs1 fs2 r HE HI1 _ Hr.
    pose proof (mkdir_cb _ _ _ _ _ HI1 Hr) as HO. destruct r; [exact HO|subst; exact HI1].
  - inversion Hp as [|x xs Hf _]. subst. apply process_inv; [exact Hf|exact HI|]. intros P l fs1 fs2 r HE HI1 _ Hr.
    pose proof (open_cb _ _ _ _ _ _ _ _ HI1 Hr) as HO. destruct r; [exact HO|subst; exact HI1].
  - inversion Hp as [|x xs Hf Hp']. subst. inversion Hp' as [|x xs Hf' _]. subst. apply process_inv; [exact Hf'|exact HI|].
    intros P l fs1 fs2 r HE HI1 _ Hr. destruct (t_encrypt trans src) as [[S0 ls]|e]; [|injection Hr as <- <-; exact HI1].
    pose proof (link_cb _ _ _ _ _ _ HI1 Hr) as HO. destruct r; [exact HO|subst; exact HI1].
  - inversion Hp as [|x xs Hf _]. subst. apply process_inv; [exact Hf|exact HI|]. intros P l fs1 fs2 r HE HI1 _ Hr.
    pose proof (unlink_cb _ _ _ _ _ HI1 Hr) as HO. destruct r; [exact HO|subst; exact HI1].
  - inversion Hp as [|x xs Hf _]. subst. apply process_inv; [exact Hf|exact HI|]. intros P l fs1 fs2 r HE HI1 HL1 Hr.
    assert (HD : inv (drop_table (comps P) fs1)).
    { apply drop_inv; [exact HI1|]. intros es Hes u Hu Lu. unfold entries_of in Hb. rewrite HE in Hb.
      destruct (HL1 (comps P)) as (XN & XL). assert (NT : u <> TN) by (intros ->; exact (not_long_TN Lu)).
      specialize (XL u NT). unfold lookup in XL. rewrite Hes in XL. destruct (fs (comps P)) as [es0|]; [|congruence].
      assert (Hi : In u (map fst es0)). { destruct (In_dec bytes_dec u (map fst es0)) as [Hi|Hi]; [exact Hi|]. apply ent_none in Hi. congruence. }
      rewrite Forall_forall in Hb. exact (Hb u Hi Lu). }
    pose proof (rmdir_cb _ _ _ _ _ HD Hr) as HO. destruct r; [|subst; exact HD].
    destruct HO as (Hp0 & T2 & es1 & es2 & E1 & E2 & ND & Ho & Ha & Hrest). split; [exact Hp0|]. split; [exact T2|].
    exists es1, es2. split; [|auto 6].
    assert (Nq : comps P <> parent (comps P)).
    { rewrite (parent_leaf (comps P) Hp0) at 1. intros E. symmetry in E. exact (snoc_ne _ _ E). }
    unfold drop_table in E1. destruct (fs1 (comps P)) as [es|]; [|exact E1].
    destruct (ent TN es) as [[| |]|]; rewrite ?hset_ne in E1 by exact Nq; exact E1.
  - inversion Hp as [|x xs Hf Hp']. subst. inversion Hp' as [|x xs Hf' _]. subst. apply rename_inv; auto.
Qed.

Theorem run_inv ops : Forall okp (flat_map op_paths ops) -> forall fs, inv fs -> benign_run trans suffix ops fs -> inv (lite_run trans ops fs).
Proof.
  induction ops as [|o ops IH]; intros HO fs HI HB; [exact HI|]. destruct HB as (H1 & H2). cbn [lite_run flat_map] in *.
  apply Forall_app in HO. destruct HO as (HO1 & HO2). apply IH; [exact HO2| |exact H2]. apply step_inv; assumption.
Qed.
End Inv.
