(** Lemmas about the file map and reference counting. *)
From Coq Require Import Strings.String Lia.
From Verif Require Import Base BaseLemmas TextModel NameModel BtreeModel BtreeSpec FullFsModel FullFsSpec.
Local Open Scope list_scope.

(** ** The map *)
Lemma nget_put_eq id nd l : nget id (nput id nd l) = Some nd.
Proof.
  induction l as [|[i n] l IH]; cbn [nput nget].
  - now rewrite bytes_eqb_refl.
  - destruct (bytes_eqb i id) eqn:E; cbn [nget]; [now rewrite bytes_eqb_refl|now rewrite E].
Qed.
Lemma nget_put_ne id id' nd l : id <> id' -> nget id' (nput id nd l) = nget id' l.
Proof.
  intros Hne. assert (Hf : bytes_eqb id id' = false) by now apply bytes_eqb_neq.
  induction l as [|[i n] l IH]; cbn [nput nget].
  - now rewrite Hf.
  - destruct (bytes_eqb i id) eqn:E; cbn [nget].
    + apply bytes_eqb_eq in E. subst i. now rewrite Hf.
    + destruct (bytes_eqb i id'); congruence.
Qed.
Lemma nget_in id nd l : nget id l = Some nd -> In (id, nd) l.
Proof.
  induction l as [|[i n] l IH]; cbn [nget]; [discriminate|].
  destruct (bytes_eqb i id) eqn:E.
  - apply bytes_eqb_eq in E. intros [= ->]. subst. now left.
  - intros H. right. auto.
Qed.
Lemma in_nget id nd l : NoDup (map fst l) -> In (id, nd) l -> nget id l = Some nd.
Proof.
  induction l as [|[i n] l IH]; cbn [map fst nget In]; intros Hn Hi; [easy|].
  inversion Hn as [|? ? Hni Hn' E]; subst. destruct Hi as [[= -> ->]|Hi].
  - now rewrite bytes_eqb_refl.
  - destruct (bytes_eqb i id) eqn:E.
    + apply bytes_eqb_eq in E. subst. exfalso. apply Hni. now apply (in_map fst) in Hi.
    + auto.
Qed.
Lemma nget_none id l : nget id l = None <-> ~ In id (map fst l).
Proof.
  induction l as [|[i n] l IH]; cbn [nget map fst In]; [tauto|].
  destruct (bytes_eqb i id) eqn:E.
  - apply bytes_eqb_eq in E. subst. split; [discriminate|intros H; elim H; now left].
  - apply bytes_eqb_neq in E. rewrite IH. split; [intros H [->|Hi]; auto|intros H Hi; apply H; now right].
Qed.
Lemma nput_keys id nd l x : In x (map fst (nput id nd l)) <-> x = id \/ In x (map fst l).
Proof.
  induction l as [|[i n] l IH]; cbn [nput map fst In]; [intuition congruence|].
  destruct (bytes_eqb i id) eqn:E; cbn [map fst In].
  - apply bytes_eqb_eq in E. subst. split; intros [H|H]; auto; destruct H; auto.
  - rewrite IH. tauto.
Qed.
Lemma nput_nodup id nd l : NoDup (map fst l) -> NoDup (map fst (nput id nd l)).
Proof.
  induction l as [|[i n] l IH]; cbn [nput map fst]; intros H; [repeat constructor; easy|].
  inversion H as [|? ? Hni Hn E]; subst.
  destruct (bytes_eqb i id) eqn:E; cbn [map fst].
  - apply bytes_eqb_eq in E. subst. now constructor.
  - constructor; [|auto]. rewrite nput_keys. apply bytes_eqb_neq in E. intros [->|Hi]; auto.
Qed.
Lemma ndel_nodup id l : NoDup (map fst l) -> NoDup (map fst (ndel id l)).
Proof.
  induction l as [|[i n] l IH]; cbn [ndel filter map fst]; intros H; [constructor|].
  inversion H as [|? ? Hni Hn E]; subst. specialize (IH Hn).
  destruct (negb (bytes_eqb i id)); [|exact IH]. cbn [map fst]. constructor; [|exact IH].
  intros Hi. apply Hni. apply in_map_iff in Hi. destruct Hi as [[j m] [<- Hi]].
  apply filter_In in Hi. destruct Hi as [Hi _]. now apply (in_map fst) in Hi.
Qed.
Lemma nget_del_eq id l : nget id (ndel id l) = None.
Proof.
  induction l as [|[i n] l IH]; cbn [ndel filter fst]; [reflexivity|].
  destruct (bytes_eqb i id) eqn:E; cbn [negb]; [exact IH|]. cbn [nget]. rewrite E. exact IH.
Qed.
Lemma nget_del_ne id id' l : id <> id' -> nget id' (ndel id l) = nget id' l.
Proof.
  intros Hne. induction l as [|[i n] l IH]; cbn [ndel filter fst]; [reflexivity|].
  destruct (bytes_eqb i id) eqn:E; cbn [negb nget].
  - apply bytes_eqb_eq in E. subst i. assert (bytes_eqb id id' = false) as -> by now apply bytes_eqb_neq. exact IH.
  - destruct (bytes_eqb i id'); [reflexivity|exact IH].
Qed.

Lemma get_put_eq st id nd : get (put st id nd) id = Some nd.
Proof. apply nget_put_eq. Qed.
Lemma get_put_ne st id id' nd : id <> id' -> get (put st id nd) id' = get st id'.
Proof. apply nget_put_ne. Qed.
Lemma get_put st id id' nd : get (put st id nd) id' = if bytes_eqb id id' then Some nd else get st id'.
Proof.
  destruct (bytes_eqb id id') eqn:E.
  - apply bytes_eqb_eq in E. subst. apply get_put_eq.
  - apply get_put_ne. now apply bytes_eqb_neq.
Qed.

(** ** Counting *)
Definition cnt (id : bytes) (l : list entry) : nat := length (filter (fun e => bytes_eqb (e_id e) id) l).
Definition ent_of (l : list (bytes * inode)) : list entry := flat_map (fun p => i_dir (snd p)) l.
Lemma cnt_app id a b : cnt id (a ++ b) = cnt id a + cnt id b.
Proof. unfold cnt. now rewrite filter_app, app_length. Qed.
Lemma cnt_cons id e l : cnt id (e :: l) = (if bytes_eqb (e_id e) id then 1 else 0) + cnt id l.
Proof. unfold cnt. cbn [filter]. now destruct (bytes_eqb (e_id e) id). Qed.
Lemma cnt_pos id l : cnt id l > 0 <-> exists e, In e l /\ e_id e = id.
Proof.
  induction l as [|e l IH]; [cbn; split; [lia|intros (e & [] & _)]|].
  rewrite cnt_cons. destruct (bytes_eqb (e_id e) id) eqn:E.
  - apply bytes_eqb_eq in E. split; [intros _; exists e; split; [now left|exact E]|lia].
  - apply bytes_eqb_neq in E. cbn [plus]. rewrite IH. split; intros (x & Hi & Hx); exists x; (split; [|exact Hx]).
    + now right.
    + destruct Hi as [->|Hi]; [congruence|exact Hi].
Qed.
Lemma cnt_zero id l : cnt id l = 0 <-> forall e, In e l -> e_id e <> id.
Proof.
  split.
  - intros H e Hi He. assert (cnt id l > 0) by (apply cnt_pos; eauto). lia.
  - intros H. destruct (Nat.eq_dec (cnt id l) 0) as [|Hn]; [assumption|].
    assert (Hp : cnt id l > 0) by lia. apply cnt_pos in Hp. destruct Hp as (e & Hi & He). now elim (H e Hi).
Qed.
Lemma refs_cnt st id : refs st id = cnt id (ent_of (nodes st)).
Proof. reflexivity. Qed.

(** Replacing a file. *)
Lemma cnt_put id d nd0 nd l : NoDup (map fst l) -> nget d l = Some nd0 ->
  cnt id (ent_of (nput d nd l)) + cnt id (i_dir nd0) = cnt id (ent_of l) + cnt id (i_dir nd).
Proof.
  induction l as [|[i n] l IH]; cbn [map fst nget nput]; intros Hn Hg; [discriminate|].
  inversion Hn as [|? ? Hni Hn' E]; subst.
  destruct (bytes_eqb i d) eqn:E; cbn [ent_of flat_map snd]; rewrite !cnt_app.
  - injection Hg as ->. lia.
  - specialize (IH Hn' Hg). unfold ent_of in IH. lia.
Qed.
Lemma cnt_put_new id d nd l : nget d l = None ->
  cnt id (ent_of (nput d nd l)) = cnt id (ent_of l) + cnt id (i_dir nd).
Proof.
  induction l as [|[i n] l IH]; cbn [nget nput]; intros Hg.
  - cbn [ent_of flat_map snd]. now rewrite app_nil_r.
  - destruct (bytes_eqb i d) eqn:E; [discriminate|]. cbn [ent_of flat_map snd]. rewrite !cnt_app.
    specialize (IH Hg). unfold ent_of in IH. lia.
Qed.
Lemma cnt_del id d l : (forall nd, In (d, nd) l -> i_dir nd = []) -> cnt id (ent_of (ndel d l)) = cnt id (ent_of l).
Proof.
  induction l as [|[i n] l IH]; cbn [ndel filter fst]; intros H; [reflexivity|].
  assert (IH' := IH (fun nd Hi => H nd (or_intror Hi))). unfold ndel in IH'.
  destruct (bytes_eqb i d) eqn:E; cbn [negb].
  - apply bytes_eqb_eq in E. subst i. cbn [ent_of flat_map snd]. rewrite (H n (or_introl eq_refl)). exact IH'.
  - cbn [ent_of flat_map snd]. rewrite !cnt_app. unfold ent_of in IH'. lia.
Qed.
Lemma in_ent_of e l : In e (ent_of l) <-> exists d nd, In (d, nd) l /\ In e (i_dir nd).
Proof.
  unfold ent_of. rewrite in_flat_map. split.
  - intros ([d nd] & Hi & He). eauto.
  - intros (d & nd & Hi & He). exists (d, nd). auto.
Qed.
Lemma len_put d nd0 nd l : NoDup (map fst l) -> nget d l = Some nd0 ->
  length (ent_of (nput d nd l)) + length (i_dir nd0) = length (ent_of l) + length (i_dir nd).
Proof.
  induction l as [|[i n] l IH]; cbn [map fst nget nput]; intros Hn Hg; [discriminate|].
  inversion Hn as [|? ? Hni Hn' E]; subst.
  destruct (bytes_eqb i d) eqn:E; cbn [ent_of flat_map snd]; rewrite !app_length.
  - injection Hg as ->. lia.
  - specialize (IH Hn' Hg). unfold ent_of in IH. lia.
Qed.
Lemma len_put_new d nd l : nget d l = None ->
  length (ent_of (nput d nd l)) = length (ent_of l) + length (i_dir nd).
Proof.
  induction l as [|[i n] l IH]; cbn [nget nput]; intros Hg.
  - cbn [ent_of flat_map snd]. now rewrite app_nil_r.
  - destruct (bytes_eqb i d) eqn:E; [discriminate|]. cbn [ent_of flat_map snd]. rewrite !app_length.
    specialize (IH Hg). unfold ent_of in IH. lia.
Qed.
Lemma len_del d l : length (ent_of (ndel d l)) <= length (ent_of l).
Proof.
  induction l as [|[i n] l IH]; cbn [ndel filter fst]; [lia|].
  unfold ndel in IH. destruct (negb (bytes_eqb i d)); unfold ent_of in *; cbn [flat_map snd]; rewrite ?app_length; lia.
Qed.

(** Two different directories that name a file make two entries. *)
Lemma two_names id d d' nd nd' l : NoDup (map fst l) -> d <> d' -> nget d l = Some nd -> nget d' l = Some nd' ->
  cnt id (i_dir nd) + cnt id (i_dir nd') <= cnt id (ent_of l).
Proof.
  induction l as [|[i n] l IH]; cbn [map fst nget]; intros Hn Hne Hd Hd'; [discriminate|].
  inversion Hn as [|? ? Hni Hn' E]; subst. cbn [ent_of flat_map snd]. rewrite cnt_app.
  assert (Hone : forall x m, nget x l = Some m -> cnt id (i_dir m) <= cnt id (ent_of l)).
  { intros x m Hx. pose proof (cnt_put id x m (with_dir [] m) l Hn' Hx) as H. cbn in H. lia. }
  unfold ent_of in Hone.
  destruct (bytes_eqb i d) eqn:E; destruct (bytes_eqb i d') eqn:E'.
  - apply bytes_eqb_eq in E. apply bytes_eqb_eq in E'. congruence.
  - injection Hd as ->. specialize (Hone _ _ Hd'). lia.
  - injection Hd' as ->. specialize (Hone _ _ Hd). lia.
  - specialize (IH Hn' Hne Hd Hd'). unfold ent_of in IH. lia.
Qed.
Lemma one_name id d nd l : NoDup (map fst l) -> nget d l = Some nd -> cnt id (i_dir nd) <= cnt id (ent_of l).
Proof. intros Hn Hd. pose proof (cnt_put id d nd (with_dir [] nd) l Hn Hd) as H. cbn in H. lia. Qed.

(** ** Directories as lists *)
Section Dir.
Variable cmp : bytes -> bytes -> comparison.
Hypothesis Hcmp : cmp_ok cmp.

Lemma same_refl a : same_name cmp a a = true.
Proof.
  unfold same_name. pose proof (cmp_sym _ Hcmp a a) as H. destruct (cmp a a); cbn in H; congruence.
Qed.
Lemma same_sym a b : same_name cmp a b = same_name cmp b a.
Proof.
  unfold same_name. pose proof (cmp_sym _ Hcmp a b) as H. rewrite H. now destruct (cmp a b).
Qed.
Lemma same_l a b c : same_name cmp a b = true -> same_name cmp a c = same_name cmp b c.
Proof.
  unfold same_name. intros H. destruct (cmp a b) eqn:E; try discriminate. now rewrite (cmp_eq_l _ Hcmp a b c E).
Qed.
Lemma find_same a b m : same_name cmp a b = true -> find_name cmp a m = find_name cmp b m.
Proof.
  intros H. unfold find_name. induction m as [|e m IH]; [reflexivity|]. cbn [find]. rewrite (same_l a b _ H). now rewrite IH.
Qed.
Lemma find_some n m e : find_name cmp n m = Some e -> In e m /\ same_name cmp n (e_name e) = true.
Proof. intros H. now apply find_some in H. Qed.
Lemma find_none n m : find_name cmp n m = None <-> forall e, In e m -> same_name cmp n (e_name e) = false.
Proof.
  unfold find_name. split.
  - intros H e Hi. now apply (find_none _ _ H).
  - intros H. induction m as [|e m IH]; [reflexivity|]. cbn [find]. rewrite (H e (or_introl eq_refl)). apply IH. intros x Hx. apply H. now right.
Qed.
Lemma drop_id n m : find_name cmp n m = None -> drop_name cmp n m = m.
Proof.
  rewrite find_none. intros H. unfold drop_name. induction m as [|e m IH]; [reflexivity|]. cbn [filter].
  rewrite (H e (or_introl eq_refl)). cbn [negb]. f_equal. apply IH. intros x Hx. apply H. now right.
Qed.
Lemma cnt_drop n m e id : names_distinct cmp m -> find_name cmp n m = Some e ->
  cnt id (drop_name cmp n m) + (if bytes_eqb (e_id e) id then 1 else 0) = cnt id m /\
  length (drop_name cmp n m) + 1 = length m.
Proof.
  induction m as [|x m IH]; [discriminate|]. cbn [names_distinct]. intros [Hx Hd] Hf.
  unfold drop_name, find_name in *. cbn [filter find] in *. destruct (same_name cmp n (e_name x)) eqn:E; cbn [negb].
  - injection Hf as ->. rewrite cnt_cons. cbn [length].
    assert (Hn : find_name cmp n m = None) by (rewrite (find_same _ _ _ E); exact Hx).
    pose proof (drop_id _ _ Hn) as Hd'. unfold drop_name in Hd'. rewrite Hd'. lia.
  - rewrite !cnt_cons. cbn [length]. destruct (IH Hd Hf) as [I1 I2]. lia.
Qed.
Lemma drop_distinct n m : names_distinct cmp m -> names_distinct cmp (drop_name cmp n m).
Proof.
  induction m as [|x m IH]; cbn [names_distinct]; [easy|]. intros [Hx Hd]. unfold drop_name. cbn [filter].
  destruct (negb (same_name cmp n (e_name x))); [|exact (IH Hd)]. cbn [names_distinct]. split; [|exact (IH Hd)].
  apply find_none. intros e He. apply filter_In in He. rewrite find_none in Hx. apply Hx. tauto.
Qed.
Lemma drop_in n m e : In e (drop_name cmp n m) <-> In e m /\ same_name cmp n (e_name e) = false.
Proof. unfold drop_name. rewrite filter_In. now destruct (same_name cmp n (e_name e)). Qed.
Lemma find_drop_same n n' m : same_name cmp n n' = true -> find_name cmp n' (drop_name cmp n m) = None.
Proof.
  intros H. rewrite <- (find_same _ _ _ H). apply find_none. intros e He. apply drop_in in He. tauto.
Qed.
Lemma find_drop_other n n' m : same_name cmp n n' = false -> find_name cmp n' (drop_name cmp n m) = find_name cmp n' m.
Proof.
  intros H. unfold find_name, drop_name. induction m as [|e m IH]; [reflexivity|]. cbn [filter find].
  destruct (same_name cmp n (e_name e)) eqn:E; cbn [negb find].
  - rewrite IH. destruct (same_name cmp n' (e_name e)) eqn:E'; [|reflexivity]. exfalso.
    rewrite (same_l _ _ n' E) in H. rewrite same_sym in E'. congruence.
  - now rewrite IH.
Qed.
Lemma find_in_distinct m e : names_distinct cmp m -> In e m -> find_name cmp (e_name e) m = Some e.
Proof.
  induction m as [|x m IH]; [easy|]. cbn [names_distinct In]. intros [Hx Hd] Hi.
  unfold find_name in *. cbn [find]. destruct Hi as [->|Hi].
  - now rewrite same_refl.
  - destruct (same_name cmp (e_name e) (e_name x)) eqn:E; [|now apply IH].
    pose proof (proj1 (find_none (e_name x) m) Hx e Hi) as Hc. rewrite same_sym in E. congruence.
Qed.
End Dir.
