(** The tables of long names stay right through overlapping calls, as long as no table
    is moved away from a call that is using it. *)
From Verif Require Import Base BaseLemmas TextModel NameModel NameSpec LongNameModel LongNameSpec LongNameProofs LongNameInv
  LiteTreeSpec LiteConcModel LiteConcSpec LiteConcTree LiteConcTables.
Local Open Scope list_scope.

Section Tables.
Variable trans : translator.
Variable suffix : bytes.
Variable named : bytes -> bytes -> Prop.
Variable okp : bytes -> Prop.
Notation long := (long_entry suffix).
Hypothesis named_long : forall u l, named u l -> (l <> [] <-> long u).
Hypothesis named_TN : forall u l, named u l -> u <> TN.
Hypothesis enc : forall path P l, okp path -> t_encrypt trans path = Ok (P, l) ->
  (comps P = [] /\ l = []) \/
  (comps P <> [] /\ named (leaf (comps P)) l /\ (l <> [] -> get_last_component P = leaf (comps P))).
Notation inv := (inv suffix named).
Notation W := with_rows.

(** The edits that a call has made and not committed. *)
Definition edits : Type := nat -> option (rowlist -> rowlist).
Definition enone : edits := fun _ => None.
Definition eput (E : edits) (k : nat) (f : rowlist -> rowlist) : edits :=
  nupd E k (Some (fun m => f (match E k with Some g => g m | None => m end))).
Definition edel (E : edits) (k : nat) : edits := nupd E k None.
Definition appl (E : edits) (rw : nat -> rowlist) : nat -> rowlist :=
  fun k => match E k with Some f => f (rw k) | None => rw k end.

Definition work (o : lop) (conns : list (hpath * nat)) (E : edits) (call : hfs -> hfs * res unit) : Prop :=
  forall rw fs n, inv (W rw fs) -> uniq fs -> low n fs -> (forall d k, In (d, k) conns -> tn fs d = Some (KFile k)) ->
    benign trans suffix o fs ->
    inv (W (if okb (snd (call fs)) then appl E rw else rw) (fst (call fs))).

(** What an edit does not concern stays. *)
Definition of_call (o : lop) (u : bytes) : Prop :=
  exists path P l, In path (op_paths o) /\ t_encrypt trans path = Ok (P, l) /\ get_last_component P = u.
Definition local (o : lop) (f : rowlist -> rowlist) : Prop :=
  forall u, ~ of_call o u -> forall rows, ent u (f rows) = ent u rows /\ forall l, In (u, l) (f rows) <-> In (u, l) rows.

Fixpoint commits (p : prog) (k : nat) : bool :=
  match p with PFinish k' c next => if k' =? k then c else commits next k | _ => false end.

Inductive good (o : lop) : list (hpath * nat) -> edits -> prog -> Prop :=
| g_ret conns E r : (forall k, E k = None) -> good o conns E (PRet r)
| g_open conns E d next : (forall k, E k = None) -> (forall e, next (Err e) = PRet (Err e)) ->
    (forall k, good o ((d, k) :: conns) E (next (Ok k))) -> (forall k j, commits (next (Ok k)) j = false) ->
    good o conns E (POpen d next)
| g_edit conns E k f next : (exists d, In (d, k) conns) -> local o f ->
    (forall e, good o conns E (next (Err e))) -> (forall e j, commits (next (Err e)) j = false) ->
    good o conns (eput E k f) (next (Ok tt)) -> (forall j, commits (next (Ok tt)) j = false) ->
    good o conns E (PEdit k f next)
| g_clear conns E call next : calm call ->
    (forall rw fs, inv (W rw fs) -> benign trans suffix o fs -> inv (W rw (fst (call fs)))) ->
    (forall r, good o conns E (next r)) -> (forall r j, commits (next r) j = false) ->
    good o conns E (PHost call next)
| g_host conns E call next : calm call -> work o conns E call ->
    (forall r, good o conns E (next r)) -> (forall r k, E k <> None -> commits (next r) k = okb r) ->
    good o conns E (PHost call next)
| g_fin conns E k c next : good o (drop_conn k conns) (edel E k) next -> good o conns E (PFinish k c next).

(** ** The system calls *)
Lemma usual_comps path P l : okp path -> t_encrypt trans path = Ok (P, l) -> usual (comps P).
Proof.
  intros Hp E. destruct (enc _ _ _ Hp E) as [(H & _)|(_ & H & _)]; [left; exact H|right]. exact (named_TN _ _ H).
Qed.
Lemma found_W rw fs path : okp path -> found trans (W rw fs) path = found trans fs path.
Proof.
  intros Hp. unfold found. destruct (t_encrypt trans path) as [[P l]|e] eqn:E; [|reflexivity].
  pose proof (usual_comps _ _ _ Hp E) as U. destruct (comps P) as [|x p] eqn:EP; [reflexivity|]. rewrite <- EP in *.
  unfold with_rows. destruct (fs (parent (comps P))) as [es|]; [|reflexivity]. cbn [option_map]. apply f_ent. destruct U; [congruence|assumption].
Qed.
Lemma entries_W rw fs path : entries_of trans (W rw fs) path = entries_of trans fs path.
Proof.
  unfold entries_of. destruct (t_encrypt trans path) as [[P l]|e]; [|reflexivity]. unfold with_rows.
  destruct (fs (comps P)); [|reflexivity]. cbn [option_map]. apply f_keys.
Qed.
Lemma benign_W rw fs o : Forall okp (op_paths o) -> benign trans suffix o fs -> benign trans suffix o (W rw fs).
Proof.
  intros Hp [H1 H2]. split; [exact H1|].
  destruct o as [path creat excl ino bad late|path bad|path ino bad|src dest bad|path bad|path bad|from to bad]; cbn [op_paths] in Hp; try exact H2.
  - destruct creat; [|exact I]. destruct late; [|exact I]. inversion Hp; subst. rewrite found_W by assumption. exact H2.
  - rewrite entries_W. exact H2.
  - inversion Hp as [|? ? A B]; subst. inversion B; subst. rewrite !found_W by assumption. exact H2.
Qed.

Lemma nodup_raw rw fs : inv (W rw fs) -> forall p es, fs p = Some es -> NoDup (map fst es).
Proof.
  intros [_ D] p es E. apply (keys_raw rw). apply (do_nodup suffix named _). apply (D p). unfold with_rows. rewrite E. reflexivity.
Qed.
Lemma open_there rw fs d k : tn fs d = Some (KFile k) -> open_table d (W rw fs) = (W rw fs, Ok (rw k)).
Proof.
  unfold lookup, open_table. intros H. unfold with_rows at 1. destruct (fs d) as [es|]; [|discriminate H]. cbn [option_map].
  rewrite f_ent_TN, H. reflexivity.
Qed.
Lemma commit_ext d m fs fs' p : (forall q, fs q = fs' q) -> commit_table d m fs p = commit_table d m fs' p.
Proof. intros H. unfold commit_table. rewrite H. destruct (fs' d); [|apply H]. unfold hset. destruct (hpath_eqb d p); [reflexivity|apply H]. Qed.

Lemma nodup_steady rw call fs : steady call -> inv (fst (call (W rw fs))) -> forall p es, fst (call fs) p = Some es -> NoDup (map fst es).
Proof.
  intros S H. apply (nodup_raw rw). eapply ext_inv; [exact H|]. intros p. symmetry. apply S.
Qed.

Lemma commit_nodup d m fs : (forall p es, commit_table d m fs p = Some es -> NoDup (map fst es)) -> forall p es, fs p = Some es -> NoDup (map fst es) \/ p = d.
Proof.
  intros H p es E. destruct (hpath_dec d p) as [<-|N]; [right; reflexivity|left]. apply (H p). unfold commit_table. destruct (fs d); [rewrite hset_ne by exact N|]; exact E.
Qed.

Lemma process_short o path P act cb : t_encrypt trans path = Ok (P, []) -> steady (cb (comps P)) ->
  (forall rw fs, inv (W rw fs) -> benign trans suffix o fs -> inv (fst (process trans path act cb (W rw fs)))) ->
  work o [] enone (cb (comps P)).
Proof.
  intros E S H rw fs n HI U L Hc HB. specialize (H rw fs HI HB). unfold process in H. rewrite E in H.
  assert (X : inv (W rw (fst (cb (comps P) fs)))) by (eapply ext_inv; [exact H|intros p; symmetry; apply S]).
  destruct (okb (snd (cb (comps P) fs))); exact X.
Qed.

Definition nodups (call : hfs -> hfs * res unit) : Prop :=
  forall fs, (forall p es, fs p = Some es -> NoDup (map fst es)) -> forall p es, fst (call fs) p = Some es -> NoDup (map fst es).

Lemma process_long o path P l act cb k : t_encrypt trans path = Ok (P, l) -> l <> [] -> steady (cb (comps P)) -> calm (cb (comps P)) ->
  stays (cb (comps P)) (parent (comps P)) -> nodups (cb (comps P)) ->
  (forall rw fs, inv (W rw fs) -> benign trans suffix o fs -> inv (fst (process trans path act cb (W rw fs)))) ->
  work o [(parent (comps P), k)] (eput enone k (edit_of act (get_last_component P) l)) (cb (comps P)).
Proof.
  intros E Hl S C K ND H rw fs n HI U L Hc HB. specialize (H rw fs HI HB). specialize (Hc _ _ (or_introl eq_refl)).
  destruct (S rw fs) as [S1 S2]. destruct (C fs n U L) as [U' _]. specialize (K fs). specialize (ND fs (nodup_raw rw fs HI)).
  unfold process in H. rewrite E in H.
  assert (H' : inv (fst (match cb (comps P) (W rw fs) with
      | (fs2, Ok tt) => (commit_table (parent (comps P)) (edit_of act (get_last_component P) l (rw k)) fs2, Ok tt)
      | (fs2, Err e) => (fs2, Err e) end))).
  { destruct l as [|c l']; [congruence|]. rewrite (open_there rw fs _ _ Hc) in H. destruct act; exact H. }
  clear H. destruct (cb (comps P) (W rw fs)) as [fs2 r]. cbn [fst snd] in S1, S2. rewrite <- S2 in *. destruct r as [[]|e]; cbn [okb fst] in *.
  2:{ eapply ext_inv; [exact H'|]. intros p. symmetry. apply S1. }
  specialize (K eq_refl). rewrite Hc in K.
  apply (same_inv _ _ (commit_table (parent (comps P)) (edit_of act (get_last_component P) l (rw k)) (W rw (fst (cb (comps P) fs))))).
  - eapply ext_inv; [exact H'|]. intros p. apply commit_ext. intros q. symmetry. apply S1.
  - intros q. pose proof (commit_same rw _ _ _ (edit_of act (get_last_component P) l (rw k)) U' K ND q) as Q.
    rewrite (rows_ext (appl (eput enone k (edit_of act (get_last_component P) l)) rw) (nupd rw k (edit_of act (get_last_component P) l (rw k)))); [exact Q|].
    intros j. unfold appl, eput, enone, nupd. destruct (Nat.eqb_spec j k) as [->|]; reflexivity.
Qed.

Lemma open_nodups bad creat excl ino p : nodups (h_open bad creat excl ino p).
Proof.
  intros fs H q es. unfold h_open. destruct bad as [e|]; [apply H|]. destruct p as [|x p0]; [apply H|]. destruct (fs (parent (x :: p0))) as [es0|] eqn:E; [|apply H].
  destruct (ent (leaf (x :: p0)) es0) as [[i| |m]|]; try apply H. destruct creat; [|apply H]. cbn [fst]. unfold hset. destruct (hpath_eqb (parent (x :: p0)) q); [|apply H].
  intros [= <-]. apply ent_put_nodup. exact (H _ _ E).
Qed.
Lemma mkdir_nodups bad p : nodups (h_mkdir bad p).
Proof.
  intros fs H q es. unfold h_mkdir. destruct bad as [e|]; [apply H|]. destruct p as [|x p0]; [apply H|]. destruct (fs (parent (x :: p0))) as [es0|] eqn:E; [|apply H].
  destruct (ent (leaf (x :: p0)) es0) as [k|]; [apply H|]. cbn [fst]. unfold hset. destruct (hpath_eqb (x :: p0) q); [intros [= <-]; constructor|].
  destruct (hpath_eqb (parent (x :: p0)) q); [|apply H]. intros [= <-]. apply ent_put_nodup. exact (H _ _ E).
Qed.
Lemma link_nodups bad s p : nodups (h_link bad s p).
Proof.
  intros fs H q es. unfold h_link. destruct bad as [e|]; [apply H|]. destruct s as [|y s0]; [apply H|]. destruct p as [|x p0]; [apply H|].
  destruct (fs (parent (y :: s0))) as [es1|]; [|apply H]. destruct (fs (parent (x :: p0))) as [es0|] eqn:E; [|apply H].
  destruct (ent (leaf (y :: s0)) es1) as [[i| |m]|]; destruct (ent (leaf (x :: p0)) es0) as [k|]; try apply H. cbn [fst]. unfold hset. destruct (hpath_eqb (parent (x :: p0)) q); [|apply H].
  intros [= <-]. apply ent_put_nodup. exact (H _ _ E).
Qed.
Lemma unlink_nodups bad p : nodups (h_unlink bad p).
Proof.
  intros fs H q es. unfold h_unlink. destruct bad as [e|]; [apply H|]. destruct p as [|x p0]; [apply H|]. destruct (fs (parent (x :: p0))) as [es0|] eqn:E; [|apply H].
  destruct (ent (leaf (x :: p0)) es0) as [[i| |m]|]; try apply H; cbn [fst]; unfold hset; (destruct (hpath_eqb (parent (x :: p0)) q); [|apply H]);
  intros [= <-]; apply ent_del_nodup; exact (H _ _ E).
Qed.
Lemma rmdir_nodups bad p : nodups (h_rmdir bad p).
Proof.
  intros fs H q es. unfold h_rmdir. destruct bad as [e|]; [apply H|]. destruct p as [|x p0]; [apply H|]. destruct (fs (parent (x :: p0))) as [es0|] eqn:E; [|apply H].
  destruct (ent (leaf (x :: p0)) es0) as [[i| |m]|]; destruct (fs (x :: p0)) as [[|z l]|]; try apply H; cbn [fst]; unfold hset.
  destruct (hpath_eqb (x :: p0) q); [discriminate|]. destruct (hpath_eqb (parent (x :: p0)) q); [|apply H]. intros [= <-]. apply ent_del_nodup. exact (H _ _ E).
Qed.

Lemma local_update o path P l e : In path (op_paths o) -> t_encrypt trans path = Ok (P, l) -> local o (update_mapping (get_last_component P) e).
Proof.
  intros Hi E u Hu rows. assert (N : get_last_component P <> u) by (intros X; apply Hu; exists path, P, l; auto). clear Hu E Hi.
  unfold update_mapping. destruct (ent (get_last_component P) rows); [split; [reflexivity|intros; reflexivity]|]. split.
  - cbn [ent]. replace (bytes_eqb (get_last_component P) u) with false by (symmetry; apply bytes_eqb_neq; exact N). reflexivity.
  - intros l'. split; [intros [X|X]; [congruence|exact X]|intros X; right; exact X].
Qed.
Lemma local_remove o path P l : In path (op_paths o) -> t_encrypt trans path = Ok (P, l) -> local o (remove_mapping (get_last_component P)).
Proof.
  intros Hi E u Hu rows. assert (N : get_last_component P <> u) by (intros X; apply Hu; exists path, P, l; auto). clear Hu E Hi.
  unfold remove_mapping. split; [apply ent_del_ne; exact N|]. intros l'. unfold ent_del. rewrite filter_In. cbn [fst].
  replace (bytes_eqb u (get_last_component P)) with false by (symmetry; apply bytes_eqb_neq; congruence). cbn. tauto.
Qed.

(** A call on one name. *)
Lemma process_good o path act cb : okp path -> In path (op_paths o) ->
  (forall P l, t_encrypt trans path = Ok (P, l) -> steady (cb (comps P)) /\ calm (cb (comps P)) /\ stays (cb (comps P)) (parent (comps P)) /\ nodups (cb (comps P))) ->
  (forall rw fs, inv (W rw fs) -> benign trans suffix o fs -> inv (fst (process trans path act cb (W rw fs)))) ->
  forall pre, (forall P l, t_encrypt trans path = Ok (P, l) -> forall conns E next, good o conns E (PHost (cb (comps P)) next) -> good o conns E (pre (comps P) next)) ->
  (forall p next j, commits (pre p next) j = false) ->
  good o [] enone (c_process trans path act pre) /\ forall j, commits (c_process trans path act pre) j = false.
Proof.
  intros Hp Hin Hcb H pre Hpre Hc. unfold c_process. destruct (t_encrypt trans path) as [[P l]|e] eqn:E; [|split; [apply g_ret|]; reflexivity].
  destruct (Hcb P l eq_refl) as (S & C & K & ND). destruct l as [|c l'].
  - split; [|intros j; apply Hc]. eapply Hpre; [reflexivity|]. apply g_host; [exact C|eapply process_short; eassumption|intros r; apply g_ret; reflexivity|].
    intros r k Hk. exfalso. apply Hk. reflexivity.
  - split; [|reflexivity]. set (l := c :: l') in *. assert (Hl : l <> []) by discriminate. clearbody l.
    apply g_open; [reflexivity|reflexivity| |reflexivity].
    intros k. apply g_edit.
    + eexists. left. reflexivity.
    + destruct act; [eapply local_update|eapply local_remove]; eassumption.
    + intros e. apply g_fin, g_ret. intros j. unfold edel, nupd. destruct (j =? k); reflexivity.
    + intros e j. cbn [commits]. destruct (k =? j); reflexivity.
    + assert (G : forall r, good o [(parent (comps P), k)] (eput enone k (edit_of act (get_last_component P) l)) (PFinish k (okb r) (PRet r))).
      { intros r. apply g_fin, g_ret. intros j. unfold edel, eput, enone, nupd. destruct (j =? k); reflexivity. }
      eapply Hpre; [reflexivity|]. apply g_host; [exact C|eapply process_long; eassumption|exact G|].
      intros r j Hj. cbn [commits]. unfold eput, enone, nupd in Hj. rewrite (Nat.eqb_sym k j). destruct (j =? k); [reflexivity|congruence].
    + intros j. apply Hc.
Qed.

(** rename *)
Lemma rename_stays bad a b fs : usual a -> usual b -> tree_ok fs -> snd (h_rename bad a b fs) = Ok tt ->
  tn (fst (h_rename bad a b fs)) (parent a) = tn fs (parent a) /\ tn (fst (h_rename bad a b fs)) (parent b) = tn fs (parent b).
Proof.
  intros Ua Ub T. destruct (h_rename bad a b fs) as [fs' r] eqn:E. cbn [fst snd]. intros ->.
  destruct (h_rename_spec _ _ _ _ _ _ T E) as [(_ & e & X)|[(-> & _)|(_ & ea & eb & k & R)]]; [discriminate X|auto|].
  destruct R as [R1 R2 R3 R4 R5 R6 R7 R8 R9 R10 R11]. destruct Ua as [Ua|Ua]; [congruence|]. destruct Ub as [Ub|Ub]; [congruence|].
  assert (TB : tn fs' (parent b) = tn fs (parent b)).
  { unfold lookup. rewrite R9, R6. rewrite ent_put_ne by exact Ub. destruct (hpath_eqb (parent a) (parent b)) eqn:Q; [|reflexivity].
    apply hpath_eqb_eq in Q. rewrite ent_del_ne by exact Ua. rewrite Q in R4. congruence. }
  split; [|exact TB]. destruct (hpath_dec (parent a) (parent b)) as [Q|N]; [rewrite Q; exact TB|].
  unfold lookup. rewrite (R10 N), R4. apply ent_del_ne. exact Ua.
Qed.

Lemma rename_nodups bad a b fs : tree_ok fs -> (forall p es, fs p = Some es -> NoDup (map fst es)) ->
  forall p es, fst (h_rename bad a b fs) p = Some es -> NoDup (map fst es).
Proof.
  intros T ND p es. destruct (h_rename bad a b fs) as [fs' r] eqn:E. cbn [fst].
  destruct (h_rename_spec _ _ _ _ _ _ T E) as [(-> & _)|[(-> & _)|(_ & ea & eb & k & R)]]; [apply ND|apply ND|]. intros H.
  destruct R as [R1 R2 R3 R4 R5 R6 R7 R8 R9 R10 R11].
  destruct (hpath_dec p (parent b)) as [->|N1].
  - rewrite R9 in H. injection H as <-. apply ent_put_nodup. destruct (hpath_eqb (parent a) (parent b)); [apply ent_del_nodup; exact (ND _ _ R4)|exact (ND _ _ R6)].
  - destruct (hpath_dec p (parent a)) as [->|N2].
    + rewrite (R10 N1) in H. injection H as <-. apply ent_del_nodup. exact (ND _ _ R4).
    + destruct (R11 _ _ H N2 N1) as (q & Hq). exact (ND _ _ Hq).
Qed.

Section Rename.
Variables from to : bytes.
Variable bad : option err.
Hypothesis Hf : okp from.
Hypothesis Ht : okp to.
Variables A la B lb : bytes.
Hypothesis Ea : t_encrypt trans from = Ok (A, la).
Hypothesis Eb : t_encrypt trans to = Ok (B, lb).
Notation o := (LRename from to bad).
Notation a := (comps A).
Notation b := (comps B).
Notation fa := (remove_mapping (get_last_component A)).
Notation fb := (update_mapping (get_last_component B) lb).
Definition eif (l : bytes) (E : edits) (k : nat) (f : rowlist -> rowlist) : edits := match l with [] => E | _ => eput E k f end.

Lemma rename_seq rw fs : inv (W rw fs) -> benign trans suffix o fs -> inv (fst (lite_rename trans from to bad (W rw fs))).
Proof.
  intros HI HB. apply (rename_inv trans suffix named okp named_long named_TN enc); try assumption.
  destruct (benign_W rw fs o) as [_ X]; [repeat constructor; assumption|exact HB|exact X].
Qed.

Lemma rename_short_work : la = [] -> lb = [] -> work o [] enone (h_rename bad a b).
Proof.
  intros Ela Elb rw fs n HI U L Hc HB. pose proof (rename_seq rw fs HI HB) as H. unfold lite_rename in H. rewrite Ea, Eb, Ela, Elb in H.
  assert (X : inv (W rw (fst (h_rename bad a b fs)))).
  { eapply ext_inv; [exact H|]. intros p. symmetry. apply steady_rename; [exact (usual_comps _ _ _ Hf Ea)|exact (usual_comps _ _ _ Ht Eb)]. }
  destruct (okb (snd (h_rename bad a b fs))); exact X.
Qed.

Lemma rename_long rw fs ka kb : (la <> [] \/ lb <> []) -> tn fs (parent a) = Some (KFile ka) -> tn fs (parent b) = Some (KFile kb) ->
  lite_rename trans from to bad (W rw fs) =
    match h_rename bad a b (W rw fs) with
    | (fs3, Err e) => (fs3, Err e)
    | (fs3, Ok tt) =>
      let edit (d : hpath) (m : list (bytes * bytes)) :=
        let m1 := if hpath_eqb d (parent a) then match la with [] => m | _ => fa m end else m in
        if hpath_eqb d (parent b) then match lb with [] => m1 | _ => fb m1 end else m1 in
      (commit_table (parent b) (edit (parent b) (rw kb)) (commit_table (parent a) (edit (parent a) (rw ka)) fs3), Ok tt)
    end.
Proof.
  intros Hl Ha Hb. unfold lite_rename. rewrite Ea, Eb.
  set (slow := match open_table (parent a) (W rw fs) with (fs1, Err e) => (fs1, Err e) | (fs1, Ok _) => _ end).
  assert (E : slow = match h_rename bad a b (W rw fs) with
    | (fs3, Err e) => (fs3, Err e)
    | (fs3, Ok tt) =>
      let edit (d : hpath) (m : list (bytes * bytes)) :=
        let m1 := if hpath_eqb d (parent a) then match la with [] => m | _ => fa m end else m in
        if hpath_eqb d (parent b) then match lb with [] => m1 | _ => fb m1 end else m1 in
      (commit_table (parent b) (edit (parent b) (rw kb)) (commit_table (parent a) (edit (parent a) (rw ka)) fs3), Ok tt)
    end).
  { unfold slow. rewrite (open_there rw fs _ _ Ha). cbv iota beta zeta. rewrite (open_there rw fs _ _ Hb). cbv iota beta.
    rewrite ?(open_there rw fs _ _ Ha), ?(open_there rw fs _ _ Hb). reflexivity. }
  cbv zeta in E |- *. transitivity slow; [|exact E]. unfold slow. destruct la, lb; try reflexivity. destruct Hl; congruence.
Qed.

Lemma rename_work ka kb : (la <> [] \/ lb <> []) ->
  let conns := if hpath_eqb (parent a) (parent b) then [(parent a, ka)] else [(parent b, kb); (parent a, ka)] in
  (hpath_eqb (parent a) (parent b) = true -> ka = kb) ->
  work o conns (eif lb (eif la enone ka fa) kb fb) (h_rename bad a b).
Proof.
  intros Hl conns Hk rw fs n HI U L Hc HB. pose proof (rename_seq rw fs HI HB) as H.
  pose proof (usual_comps _ _ _ Hf Ea) as Ua. pose proof (usual_comps _ _ _ Ht Eb) as Ub.
  assert (Ca : tn fs (parent a) = Some (KFile ka)) by (apply Hc; unfold conns; destruct (hpath_eqb _ _); [left|right; left]; reflexivity).
  assert (Cb : tn fs (parent b) = Some (KFile kb)).
  { destruct (hpath_eqb (parent a) (parent b)) eqn:Q; [|apply Hc; left; reflexivity]. rewrite <- (Hk eq_refl). apply hpath_eqb_eq in Q. rewrite <- Q. exact Ca. }
  rewrite (rename_long rw fs ka kb Hl Ca Cb) in H.
  destruct (steady_rename bad a b Ua Ub rw fs) as [S1 S2]. destruct (rename_calm bad a b Ua Ub fs n U L) as [U' _].
  pose proof (tree_raw rw fs (proj1 HI)) as TR.
  pose proof (rename_nodups bad a b fs TR (nodup_raw rw fs HI)) as ND. pose proof (rename_stays bad a b fs Ua Ub TR) as K.
  destruct (h_rename bad a b (W rw fs)) as [fs3 r]. cbn [fst snd] in S1, S2. rewrite <- S2 in *. destruct r as [[]|e]; cbn [okb fst] in *.
  2:{ eapply ext_inv; [exact H|]. intros p. symmetry. apply S1. }
  destruct (K eq_refl) as [Ka Kb]. rewrite Ca in Ka. rewrite Cb in Kb. clear K.
  set (fs' := fst (h_rename bad a b fs)) in *. clearbody fs'. cbv zeta in H. rewrite !hpath_eqb_refl in H.
  set (ma := if hpath_eqb (parent a) (parent b) then match lb with [] => match la with [] => rw ka | _ => fa (rw ka) end | _ => fb (match la with [] => rw ka | _ => fa (rw ka) end) end
             else match la with [] => rw ka | _ => fa (rw ka) end) in *.
  set (mb := match lb with [] => if hpath_eqb (parent b) (parent a) then match la with [] => rw kb | _ => fa (rw kb) end else rw kb
             | _ => fb (if hpath_eqb (parent b) (parent a) then match la with [] => rw kb | _ => fa (rw kb) end else rw kb) end) in *.
  assert (H0 : inv (commit_table (parent b) mb (commit_table (parent a) ma fs3))) by exact H. clear H.
  assert (H1 : inv (W (nupd (nupd rw ka ma) kb mb) fs')).
  { apply (same_inv _ _ (commit_table (parent b) mb (W (nupd rw ka ma) fs'))); [|apply commit_same; assumption].
    eapply same_inv; [exact H0|]. intros q. clear H0.
    assert (Q1 : same (commit_table (parent a) ma (W rw fs')) (W (nupd rw ka ma) fs')) by (apply commit_same; assumption).
    assert (Q2 : same (commit_table (parent a) ma fs3) (W (nupd rw ka ma) fs')).
    { intros d. rewrite (commit_ext _ _ fs3 (W rw fs') d S1). apply Q1. }
    set (X := commit_table (parent a) ma fs3) in *. set (Y := W (nupd rw ka ma) fs') in *. clearbody X Y ma mb. clear - Q2.
    unfold commit_table. pose proof (Q2 (parent b)) as Qb. destruct (X (parent b)) as [ex|], (Y (parent b)) as [ey|]; try contradiction; [|apply Q2].
    destruct Qb as [Q3 Q4]. unfold hset. destruct (hpath_eqb (parent b) q); [|apply Q2].
    split; [apply ent_put_nodup; exact Q3|]. intros v. destruct (bytes_dec TN v) as [<-|N]; [rewrite !ent_put_eq; reflexivity|]. rewrite !ent_put_ne by exact N. apply Q4. }
  eapply ext_inv; [exact H1|]. intros p. apply rows_ext. intros j. unfold appl.
  destruct (hpath_dec (parent a) (parent b)) as [Q|N].
  - assert (Ek : ka = kb) by (apply Hk; apply hpath_eqb_eq; exact Q). subst kb. unfold mb. rewrite Q, !hpath_eqb_refl.
    unfold eif, eput, enone, nupd. destruct la, lb; destruct (Nat.eqb_spec j ka) as [->|]; rewrite ?Nat.eqb_refl; try reflexivity.
  - assert (Nk : ka <> kb) by (intros ->; apply N; exact (U _ _ _ Ca Cb)). unfold mb, ma. apply hpath_eqb_neq in N. rewrite N.
    assert (N2 : hpath_eqb (parent b) (parent a) = false) by (apply hpath_eqb_neq; apply hpath_eqb_neq in N; congruence). rewrite N2.
    assert (Nk2 : kb =? ka = false) by (apply Nat.eqb_neq; congruence).
    unfold eif, eput, enone, nupd. destruct la, lb; destruct (Nat.eqb_spec j kb) as [->|]; rewrite ?Nk2; try reflexivity; destruct (Nat.eqb_spec j ka) as [->|]; rewrite ?Nat.eqb_refl; try reflexivity.
Qed.
End Rename.

Lemma host_pre (o : lop) (cb : hpath -> hfs -> hfs * res unit) path : forall P l, t_encrypt trans path = Ok (P, l) -> forall conns E next,
  good o conns E (PHost (cb (comps P)) next) -> good o conns E (host cb (comps P) next).
Proof. intros P l _ conns E next H. exact H. Qed.

Lemma rename_good from to bad : okp from -> okp to -> good (LRename from to bad) [] enone (c_rename trans from to bad) /\
  forall j, commits (c_rename trans from to bad) j = false.
Proof.
  intros Hf Ht. unfold c_rename. destruct (t_encrypt trans from) as [[A la]|ea] eqn:Ea; [|split; [apply g_ret|]; reflexivity].
  destruct (t_encrypt trans to) as [[B lb]|eb] eqn:Eb; [|destruct la; (split; [apply g_ret|]; reflexivity)].
  pose proof (usual_comps _ _ _ Hf Ea) as Ua. pose proof (usual_comps _ _ _ Ht Eb) as Ub.
  pose proof (rename_calm bad (comps A) (comps B) Ua Ub) as C.
  set (o := LRename from to bad). cbv zeta.
  set (go := fun ka kb => c_edit_if la ka (remove_mapping (get_last_component A)) (fun r =>
        match r with
        | Err e => PFinish ka (okb (Err e)) (if hpath_eqb (parent (comps A)) (parent (comps B)) then PRet (Err e) else PFinish kb (okb (Err e)) (PRet (Err e)))
        | Ok _ =>
          c_edit_if lb kb (update_mapping (get_last_component B) lb) (fun r =>
            match r with
            | Err e => PFinish ka (okb (Err e)) (if hpath_eqb (parent (comps A)) (parent (comps B)) then PRet (Err e) else PFinish kb (okb (Err e)) (PRet (Err e)))
            | Ok _ => PHost (h_rename bad (comps A) (comps B)) (fun r => PFinish ka (okb r) (if hpath_eqb (parent (comps A)) (parent (comps B)) then PRet r else PFinish kb (okb r) (PRet r)))
            end)
        end)).
  set (slow := POpen (parent (comps A)) (fun r => match r with
      | Err e => PRet (Err e)
      | Ok ka => if hpath_eqb (parent (comps A)) (parent (comps B)) then go ka ka
                 else POpen (parent (comps B)) (fun r => match r with Err e => PRet (Err e) | Ok kb => go ka kb end)
      end)).
  assert (G : (la <> [] \/ lb <> []) -> good o [] enone slow).
  { intros Hl.
    assert (Go : forall ka kb, let conns := if hpath_eqb (parent (comps A)) (parent (comps B)) then [(parent (comps A), ka)] else [(parent (comps B), kb); (parent (comps A), ka)] in
       (hpath_eqb (parent (comps A)) (parent (comps B)) = true -> ka = kb) -> good o conns enone (go ka kb) /\ forall j, commits (go ka kb) j = false).
    { intros ka kb conns Hk. pose proof (rename_work from to bad Hf Ht A la B lb Ea Eb ka kb Hl Hk) as HW. fold conns in HW.
      set (leave := fun r => PFinish ka (okb r) (if hpath_eqb (parent (comps A)) (parent (comps B)) then PRet r else PFinish kb (okb r) (PRet r))).
      assert (CL : forall r j, (j = ka \/ j = kb) -> commits (leave r) j = okb r).
      { intros r j Hj. unfold leave. cbn [commits]. destruct (Nat.eqb_spec ka j) as [|N1]; [reflexivity|].
        destruct (hpath_eqb (parent (comps A)) (parent (comps B))); [exfalso; destruct Hj as [-> | ->]; [congruence|apply N1; auto]|].
        cbn [commits]. destruct (Nat.eqb_spec kb j) as [|N2]; [reflexivity|]. exfalso. destruct Hj; congruence. }
      assert (CF : forall e j, commits (leave (Err e)) j = false).
      { intros e j. unfold leave. cbn [commits okb]. destruct (ka =? j); [reflexivity|]. destruct (hpath_eqb _ _); [reflexivity|]. cbn [commits]. destruct (kb =? j); reflexivity. }
      assert (GL : forall E cn r, (forall j, E j <> None -> j = ka \/ j = kb) -> good o cn E (leave r)).
      { intros E cn r HE. unfold leave. apply g_fin. destruct (hpath_eqb (parent (comps A)) (parent (comps B))).
        - apply g_ret. intros j. unfold edel, nupd. destruct (Nat.eqb_spec j ka) as [|N]; [reflexivity|]. destruct (E j) eqn:Ej; [|reflexivity].
          exfalso. destruct (HE j ltac:(congruence)) as [-> | ->]; [congruence|apply N; symmetry; auto].
        - apply g_fin, g_ret. intros j. unfold edel, nupd. destruct (Nat.eqb_spec j kb) as [|N]; [reflexivity|]. destruct (Nat.eqb_spec j ka) as [|N1]; [reflexivity|].
          destruct (E j) eqn:Ej; [|reflexivity]. exfalso. destruct (HE j ltac:(congruence)); congruence. }
      set (E1 := eif la enone ka (remove_mapping (get_last_component A))) in *.
      set (E2 := eif lb E1 kb (update_mapping (get_last_component B) lb)) in *.
      assert (H0 : forall j, enone j <> None -> j = ka \/ j = kb) by (intros j Hj; exfalso; apply Hj; reflexivity).
      assert (H1 : forall j, E1 j <> None -> j = ka \/ j = kb).
      { intros j. unfold E1, eif. destruct la; [apply H0|]. unfold eput, nupd. destruct (Nat.eqb_spec j ka); [auto|apply H0]. }
      assert (H2 : forall j, E2 j <> None -> j = ka \/ j = kb).
      { intros j. unfold E2, eif. destruct lb; [apply H1|]. unfold eput, nupd. destruct (Nat.eqb_spec j kb); [auto|apply H1]. }
      assert (GH : good o conns E2 (PHost (h_rename bad (comps A) (comps B)) leave)).
      { apply g_host; [exact C|exact HW|intros r; apply GL; exact H2|]. intros r k Hk0. apply CL, H2, Hk0. }
      assert (Ia : exists d, In (d, ka) conns) by (exists (parent (comps A)); unfold conns; destruct (hpath_eqb _ _); [left|right; left]; reflexivity).
      assert (Ib : exists d, In (d, kb) conns).
      { unfold conns. destruct (hpath_eqb (parent (comps A)) (parent (comps B))) eqn:Q; [rewrite <- (Hk eq_refl)|]; eexists; left; reflexivity. }
      set (second := c_edit_if lb kb (update_mapping (get_last_component B) lb) (fun r =>
            match r with Err e => leave (Err e) | Ok _ => PHost (h_rename bad (comps A) (comps B)) leave end)).
      assert (GS : good o conns E1 second /\ forall j, commits second j = false).
      { unfold second, c_edit_if. unfold E2, eif in GH. destruct lb as [|c lb']; [split; [exact GH|reflexivity]|]. split; [|reflexivity].
        apply g_edit; [exact Ib|eapply local_update; [right; left; reflexivity|exact Eb]|intros e; apply GL; exact H1|intros e j; apply CF|exact GH|reflexivity]. }
      change (go ka kb) with (c_edit_if la ka (remove_mapping (get_last_component A)) (fun r => match r with Err e => leave (Err e) | Ok _ => second end)).
      unfold c_edit_if. unfold E1, eif in GS. destruct la as [|c la']; [exact GS|]. split; [|reflexivity].
      apply g_edit; [exact Ia|eapply local_remove; [left; reflexivity|exact Ea]|intros e; apply GL; exact H0|intros e j; apply CF|apply GS|apply GS]. }
    unfold slow. apply g_open; [reflexivity|reflexivity| |].
    - intros ka. destruct (hpath_eqb (parent (comps A)) (parent (comps B))) eqn:Q.
      + apply (Go ka ka). reflexivity.
      + apply g_open; [reflexivity|reflexivity| |]; intros kb; apply (Go ka kb); discriminate.
    - intros ka j. destruct (hpath_eqb (parent (comps A)) (parent (comps B))) eqn:Q; [|reflexivity]. apply (Go ka ka). reflexivity. }
  destruct la as [|x la']; [destruct lb as [|y lb']|].
  - split; [|reflexivity]. apply g_host; [exact C|eapply rename_short_work; try eassumption; reflexivity|intros r; apply g_ret; reflexivity|].
    intros r k Hk. exfalso. apply Hk. reflexivity.
  - split; [|reflexivity]. apply G. right. discriminate.
  - split; [|reflexivity]. apply G. left. discriminate.
Qed.

Lemma start_good o : Forall okp (op_paths o) -> good o [] enone (c_start trans o) /\ forall j, commits (c_start trans o) j = false.
Proof.
  intros HO. 
  assert (SEQ : forall rw fs, inv (W rw fs) -> benign trans suffix o fs -> inv (fst (lite_step trans o (W rw fs)))).
  { intros rw fs HI HB. apply (step_inv trans suffix named okp named_long named_TN enc); [exact HI|exact HO|apply benign_W; assumption]. }
  destruct o as [path creat excl ino bad late|path bad|path ino bad|src dest bad|path bad|path bad|from to bad]; cbn [op_paths c_start] in *.
  - inversion HO as [|? ? Hp _]; subst. cbv zeta.
    set (call := fun p fs0 => match h_open bad creat excl ino p fs0 with
         | (fs1, Ok tt) => (fs1, match late with Some e => Err e | None => Ok tt end) | x => x end).
    assert (FST : forall p fs, fst (call p fs) = fst (h_open bad creat excl ino p fs)).
    { intros p fs. unfold call. destruct (h_open bad creat excl ino p fs) as [fs1 [[]|e]]; reflexivity. }
    assert (CB : forall P l, t_encrypt trans path = Ok (P, l) -> steady (call (comps P)) /\ calm (call (comps P)) /\ stays (call (comps P)) (parent (comps P)) /\ nodups (call (comps P))).
    { intros P l E. pose proof (usual_comps _ _ _ Hp E) as U. split; [|split; [|split]].
      - intros rows fs. destruct (steady_open bad creat excl ino _ U rows fs) as [S1 S2]. unfold call.
        destruct (h_open bad creat excl ino (comps P) (W rows fs)) as [x [[]|e]], (h_open bad creat excl ino (comps P) fs) as [y [[]|e']]; cbn [fst snd] in *; try discriminate; split; auto.
      - apply shrink_calm. intros fs q x. rewrite FST. apply open_shrinks. exact U.
      - intros fs _. rewrite FST. apply open_tn. exact U.
      - intros fs H p es. rewrite FST. apply open_nodups. exact H. }
    destruct creat.
    + apply (process_good (LOpen path true excl ino bad late) path ACreate call Hp (or_introl eq_refl) CB SEQ); [apply host_pre|reflexivity].
    + destruct (t_encrypt trans path) as [[P l]|e] eqn:E; [|split; [apply g_ret|]; reflexivity]. split; [|reflexivity].
      destruct (CB P l eq_refl) as (S & C & K & ND). apply g_host; [exact C| |intros r; apply g_ret; reflexivity|intros r k Hk; exfalso; apply Hk; reflexivity].
      intros rw fs n HI U L Hc HB. specialize (SEQ rw fs HI HB). cbn [lite_step] in SEQ. rewrite E in SEQ.
      assert (X : inv (W rw (fst (call (comps P) fs)))) by (eapply ext_inv; [exact SEQ|intros p; symmetry; apply S]).
      change (inv (W (if okb (snd (call (comps P) fs)) then appl enone rw else rw) (fst (call (comps P) fs)))).
      destruct (okb (snd (call (comps P) fs))); exact X.
  - inversion HO as [|? ? Hp _]; subst. apply (process_good (LMkdir path bad) path ACreate (h_mkdir bad) Hp (or_introl eq_refl)); [|exact SEQ|apply host_pre|reflexivity].
    intros P l E. pose proof (usual_comps _ _ _ Hp E) as U. split; [apply steady_mkdir; exact U|]. split; [apply shrink_calm, mkdir_shrinks; exact U|].
    split; [apply mkdir_stays; exact U|apply mkdir_nodups].
  - inversion HO as [|? ? Hp _]; subst. apply (process_good (LSymlink path ino bad) path ACreate (h_open bad true true ino) Hp (or_introl eq_refl)); [|exact SEQ|apply host_pre|reflexivity].
    intros P l E. pose proof (usual_comps _ _ _ Hp E) as U. split; [apply steady_open; exact U|]. split; [apply shrink_calm, open_shrinks; exact U|].
    split; [intros fs _; apply open_tn; exact U|apply open_nodups].
  - inversion HO as [|? ? Hs HO']; subst. inversion HO' as [|? ? Hp _]; subst.
    set (call := fun p fs0 => match t_encrypt trans src with Err e => (fs0, Err e) | Ok (P, _) => h_link bad (comps P) p fs0 end) in *.
    apply (process_good (LLink src dest bad) dest ACreate call Hp (or_intror (or_introl eq_refl))); [|exact SEQ|apply host_pre|reflexivity].
    intros P l E. pose proof (usual_comps _ _ _ Hp E) as U. unfold call. destruct (t_encrypt trans src) as [[Ps ls]|e] eqn:Es.
    + pose proof (usual_comps _ _ _ Hs Es) as Us. split; [apply steady_link; assumption|]. split; [apply shrink_calm, link_shrinks; exact U|].
      split; [intros fs _; apply link_tn; exact U|apply link_nodups].
    + split; [intros rows fs; split; reflexivity|]. split; [intros fs n H1 H2; split; assumption|]. split; [intros fs; reflexivity|intros fs H; exact H].
  - inversion HO as [|? ? Hp _]; subst. apply (process_good (LUnlink path bad) path ADelete (h_unlink bad) Hp (or_introl eq_refl)); [|exact SEQ|apply host_pre|reflexivity].
    intros P l E. pose proof (usual_comps _ _ _ Hp E) as U. split; [apply steady_unlink; exact U|]. split; [apply shrink_calm, unlink_shrinks; exact U|].
    split; [intros fs _; apply unlink_tn; exact U|apply unlink_nodups].
  - inversion HO as [|? ? Hp _]; subst. apply (process_good (LRmdir path bad) path ADelete (h_rmdir bad) Hp (or_introl eq_refl)); [| | |reflexivity].
    + intros P l E. pose proof (usual_comps _ _ _ Hp E) as U. split; [apply steady_rmdir; exact U|]. split; [apply shrink_calm, rmdir_shrinks; exact U|].
      split; [apply rmdir_stays; exact U|apply rmdir_nodups].
    + intros rw fs HI HB. apply (process_inv trans suffix named okp named_long named_TN enc); [exact Hp|exact HI|].
      intros P l fs1 fs2 r E HI1 HL1 Hr. pose proof (rmdir_cb suffix named bad _ _ _ _ HI1 Hr) as HO2. destruct r; [exact HO2|subst; exact HI1].
    + intros P l E conns E' next H. apply g_clear; [apply shrink_calm, drop_shrinks| |intros _; exact H|reflexivity].
      intros rw fs HI HB. cbn [fst]. eapply ext_inv with (fs := drop_table (comps P) (W rw fs)); [|intros p; symmetry; apply (steady_drop (comps P) rw fs)].
      apply (drop_inv suffix named); [exact HI|]. destruct HB as [_ HB]. cbn in HB. rewrite <- (entries_W rw) in HB. unfold entries_of in HB. rewrite E in HB.
      intros es Hes u Hu. rewrite Hes in HB. rewrite Forall_forall in HB. apply HB.
      destruct (In_dec bytes_dec u (map fst es)) as [Hi|Hi]; [exact Hi|]. apply ent_none in Hi. congruence.
  - inversion HO as [|? ? Hs HO']; subst. inversion HO' as [|? ? Hp _]; subst. apply rename_good; assumption.
Qed.

(** ** The world *)
Definition thr_commits (x : lthread) (k : nat) : bool := match x with LIdle => false | LRun _ _ p => commits p k end.
(** the rows of a database as they will be, if the work of the call has been done *)
Definition arow (w : world) (k : nat) : rowlist :=
  match db_owner (w_db w k) with
  | Some (t, m) => if thr_commits (w_thr w t) k then m else db_rows (w_db w k)
  | None => db_rows (w_db w k)
  end.
Definition owns (t : nat) (w : world) (E : edits) : Prop :=
  forall k, match E k with
            | Some f => db_owner (w_db w k) = Some (t, f (db_rows (w_db w k)))
            | None => forall m, db_owner (w_db w k) <> Some (t, m)
            end.
Definition tgood (n : nat) (x : lthread) (E : edits) : Prop :=
  match x with
  | LIdle => forall k, E k = None
  | LRun o conns p => Forall okp (op_paths o) /\ (forall d k, In (d, k) conns -> k < n) /\ (forall k f, E k = Some f -> local o f) /\ good o conns E p
  end.
Record J (w : world) : Prop := mkJ {
  j_inv : inv (W (arow w) (w_tree w));
  j_uniq : uniq (w_tree w);
  j_low : low (w_next w) (w_tree w);
  j_fresh : forall k, w_next w <= k -> w_db w k = mkDb [] None;
  j_thr : forall t, exists E, owns t w E /\ tgood (w_next w) (w_thr w t) E }.

Lemma tgood_mono n n' x E : n <= n' -> tgood n x E -> tgood n' x E.
Proof. intros L. destruct x; [auto|]. intros (A & B & C). split; [exact A|]. split; [|exact C]. intros d k H. specialize (B _ _ H). lia. Qed.

Lemma advance w w' t x' E' : J w -> w_thr w' = nupd (w_thr w) t x' -> w_next w <= w_next w' ->
  (forall t' k m, t' <> t -> db_owner (w_db w k) = Some (t', m) -> w_db w' k = w_db w k) ->
  (forall t' k m, t' <> t -> db_owner (w_db w' k) = Some (t', m) -> w_db w' k = w_db w k) ->
  inv (W (arow w') (w_tree w')) -> uniq (w_tree w') -> low (w_next w') (w_tree w') ->
  (forall k, w_next w' <= k -> w_db w' k = mkDb [] None) ->
  owns t w' E' -> tgood (w_next w') x' E' -> J w'.
Proof.
  intros HJ Ht Ln K1 K2 HI HU HL HF HO HG. split; try assumption. intros t'. rewrite Ht. unfold nupd. destruct (Nat.eqb_spec t' t) as [->|N]; [eauto|].
  destruct (j_thr w HJ t') as (E & O & G). exists E. split; [|eapply tgood_mono; eassumption]. intros k. specialize (O k). destruct (E k) as [f|].
  - rewrite (K1 _ _ _ N O). exact O.
  - intros m Hm. rewrite (K2 _ _ _ N Hm) in Hm. exact (O m Hm).
Qed.

Lemma arow_thr w w' t x' k : w_db w' k = w_db w k -> w_thr w' = nupd (w_thr w) t x' ->
  (forall m, db_owner (w_db w k) = Some (t, m) -> thr_commits x' k = thr_commits (w_thr w t) k) -> arow w' k = arow w k.
Proof.
  intros D T H. unfold arow. rewrite D. destruct (db_owner (w_db w k)) as [[t' m]|] eqn:O; [|reflexivity]. rewrite T. unfold nupd.
  destruct (Nat.eqb_spec t' t) as [->|N]; [|reflexivity]. rewrite (H m eq_refl). reflexivity.
Qed.

(** Only the thread has moved. *)
Lemma move w t x' E E' : J w -> owns t w E -> (forall k, E' k = E k) -> tgood (w_next w) x' E' ->
  (forall k, E k <> None -> thr_commits x' k = thr_commits (w_thr w t) k) -> J (set_thr w t x').
Proof.
  intros HJ HO HE HG HC.
  assert (HA : forall k, arow (set_thr w t x') k = arow w k).
  { intros k. eapply arow_thr; [reflexivity|reflexivity|]. intros m Hm. apply HC. intros N. specialize (HO k). rewrite N in HO. exact (HO m Hm). }
  eapply (advance w _ t x' E'); try (exact HJ); try reflexivity; try apply HJ.
  - eapply ext_inv; [apply (j_inv w HJ)|]. intros p. apply rows_ext, HA.
  - intros k. rewrite HE. exact (HO k).
  - exact HG.
Qed.

Lemma begin_J w t o : J w -> w_thr w t = LIdle -> Forall okp (op_paths o) -> J (set_thr w t (LRun o [] (c_start trans o))).
Proof.
  intros HJ HT Hp. destruct (j_thr w HJ t) as (E & O & G). rewrite HT in G. destruct (start_good o Hp) as [S1 S2].
  apply (move w t _ E enone HJ O); [intros k; symmetry; apply G| |intros k N; exfalso; apply N, G].
  split; [exact Hp|]. split; [intros d k []|]. split; [discriminate|exact S1].
Qed.
Lemma return_J w t o conns r : J w -> w_thr w t = LRun o conns (PRet r) -> J (set_thr w t LIdle).
Proof.
  intros HJ HT. destruct (j_thr w HJ t) as (E & O & G). rewrite HT in G. destruct G as (_ & _ & _ & G). inversion G; subst.
  apply (move w t _ E E HJ O); [reflexivity|assumption|]. intros k N. exfalso. auto.
Qed.

Lemma lowk w d k : J w -> tn (w_tree w) d = Some (KFile k) -> k < w_next w.
Proof. intros HJ H. destruct (j_low w HJ _ _ H) as (k' & E & L). congruence. Qed.

Lemma go_J w t fail w' h : J w -> undisturbed w -> gentle_step trans suffix (Go t fail) w -> c_step trans (Go t fail) w = Some (w', h) -> J w'.
Proof.
  intros HJ HU HG HS. cbn [c_step gentle_step] in *. destruct (w_thr w t) as [|o conns p] eqn:HT; [discriminate HS|].
  destruct (j_thr w HJ t) as (E & O & G). rewrite HT in G. destruct G as (Hp & Hc & HL & G).
  assert (NOW : forall k m, db_owner (w_db w k) = Some (t, m) -> exists f, E k = Some f /\ m = f (db_rows (w_db w k))).
  { intros k m H. specialize (O k). destruct (E k) as [f|]; [|exfalso; exact (O m H)]. exists f. split; [reflexivity|congruence]. }
  destruct p as [r|d next|k f next|call next|k c next]; [discriminate HS| | | |].
  - (* open a table *)
    inversion G as [|? ? ? ? HE0 HN HO1 HC1| | | |]; subst. destruct fail as [e|].
    + assert (w' = set_thr w t (LRun o conns (next (Err e)))) as -> by congruence. rewrite HN.
      apply (move w t _ E E HJ O); [reflexivity| |intros j N; exfalso; auto]. split; [exact Hp|]. split; [exact Hc|]. split; [exact HL|apply g_ret; exact HE0].
    + unfold open_db in HS. destruct (w_tree w d) as [es|] eqn:Ed.
      2:{ assert (w' = set_thr w t (LRun o conns (next (Err ENOENT)))) as -> by congruence. rewrite HN.
          apply (move w t _ E E HJ O); [reflexivity| |intros j N; exfalso; auto]. split; [exact Hp|]. split; [exact Hc|]. split; [exact HL|apply g_ret; exact HE0]. }
      destruct (ent TN es) as [[k| |m]|] eqn:En.
      * assert (w' = set_thr w t (LRun o ((d, k) :: conns) (next (Ok k)))) as -> by congruence.
        apply (move w t _ E E HJ O); [reflexivity| |intros j N; exfalso; auto]. split; [exact Hp|]. split; [|split; [exact HL|apply HO1]].
        intros d' k' [[= <- <-]|H]; [|eauto]. apply (lowk w d _ HJ). unfold lookup. rewrite Ed. exact En.
      * assert (w' = set_thr w t (LRun o conns (next (Err EInval)))) as -> by congruence. rewrite HN.
        apply (move w t _ E E HJ O); [reflexivity| |intros j N; exfalso; auto]. split; [exact Hp|]. split; [exact Hc|]. split; [exact HL|apply g_ret; exact HE0].
      * assert (w' = set_thr w t (LRun o conns (next (Err EInval)))) as -> by congruence. rewrite HN.
        apply (move w t _ E E HJ O); [reflexivity| |intros j N; exfalso; auto]. split; [exact Hp|]. split; [exact Hc|]. split; [exact HL|apply g_ret; exact HE0].
      * set (k := w_next w) in *. cbv zeta in HS.
        set (w1 := mkWorld (hset (w_tree w) d (Some (ent_put TN (KFile k) es))) (nupd (w_db w) k (mkDb [] None)) (S k) (w_thr w)) in *.
        assert (w' = set_thr w1 t (LRun o ((d, k) :: conns) (next (Ok k)))) as -> by congruence.
        assert (D : forall j, w_db (set_thr w1 t (LRun o ((d, k) :: conns) (next (Ok k)))) j = w_db w j).
        { intros j. cbn. unfold nupd. destruct (Nat.eqb_spec j k) as [->|]; [|reflexivity]. symmetry. apply (j_fresh w HJ). unfold k. lia. }
        set (w' := set_thr w1 t (LRun o ((d, k) :: conns) (next (Ok k)))) in *.
        assert (HA : forall j, arow w' j = arow w j).
        { intros j. eapply arow_thr; [apply D|reflexivity|]. intros m Hm. destruct (NOW _ _ Hm) as (f & Ef & _). congruence. }
        assert (TN' : forall q, tn (w_tree w') q = if hpath_eqb d q then Some (KFile k) else tn (w_tree w) q).
        { intros q. cbn. rewrite tn_hset. destruct (hpath_eqb d q); [apply ent_put_eq|reflexivity]. }
        eapply (advance w w' t _ E); try exact HJ; try reflexivity.
        -- cbn. lia.
        -- intros; apply D.
        -- intros; apply D.
        -- eapply ext_inv; [|intros p; apply rows_ext, HA].
           assert (OT : open_table d (W (arow w) (w_tree w)) = (hset (W (arow w) (w_tree w)) d (Some (ent_put TN (KTable []) (map (table_kind (arow w)) es))), Ok [])).
           { unfold open_table. unfold with_rows at 1. rewrite Ed. cbn [option_map]. rewrite f_ent_TN, En. reflexivity. }
           destruct (open_table_spec suffix named _ _ _ _ (j_inv w HJ) OT) as [X _].
           eapply same_inv; [exact X|]. intros q. unfold with_rows, hset. cbn [w_tree set_thr w1 w']. unfold hset. destruct (hpath_eqb d q) eqn:Q.
           ++ cbn [option_map]. pose proof (nodup_raw _ _ (j_inv w HJ) _ _ Ed) as ND. split.
              ** rewrite f_keys. apply ent_put_nodup. exact ND.
              ** intros v. destruct (bytes_dec TN v) as [<-|N].
                 --- rewrite ent_put_eq, f_ent_TN, ent_put_eq. cbn [option_map]. unfold arow. rewrite (j_fresh w HJ k) by (unfold k; lia). reflexivity.
                 --- rewrite ent_put_ne by exact N. rewrite !f_ent by congruence. rewrite ent_put_ne by exact N. reflexivity.
           ++ destruct (w_tree w q) as [eq|] eqn:Eq; cbn [option_map]; [|exact I]. split; [|auto]. rewrite f_keys. exact (nodup_raw _ _ (j_inv w HJ) _ _ Eq).
        -- intros q1 q2 x H1 H2. rewrite TN' in H1, H2. destruct (hpath_eqb d q1) eqn:Q1; destruct (hpath_eqb d q2) eqn:Q2.
           ++ apply hpath_eqb_eq in Q1, Q2. congruence.
           ++ injection H1 as <-. apply (lowk w _ _ HJ) in H2. unfold k in H2. lia.
           ++ injection H2 as <-. apply (lowk w _ _ HJ) in H1. unfold k in H1. lia.
           ++ exact (j_uniq w HJ _ _ _ H1 H2).
        -- intros q x H. rewrite TN' in H. cbn [w_next w' set_thr w1]. destruct (hpath_eqb d q); [exists k; split; [congruence|lia]|]. destruct (j_low w HJ _ _ H) as (k' & E1 & E2). exists k'. split; [exact E1|unfold k; lia].
        -- intros j Hj. rewrite D. apply (j_fresh w HJ). cbn in Hj. unfold k in Hj. lia.
        -- intros j. rewrite D. exact (O j).
        -- split; [exact Hp|]. split; [|split; [exact HL|apply HO1]]. intros d' k' [[= <- <-]|H]; cbn; [lia|]. specialize (Hc _ _ H). unfold k. lia.
  - (* a statement *)
    inversion G as [| |? ? ? ? ? (d & Hd) Hloc HE1 HC1 HE2 HC2| | |]; subst. destruct fail as [e|].
    + assert (w' = set_thr w t (LRun o conns (next (Err e)))) as -> by congruence.
      apply (move w t _ E E HJ O); [reflexivity| |intros j N; rewrite HT; apply HC1]. split; [exact Hp|]. split; [exact Hc|]. split; [exact HL|apply HE1].
    + assert (HX : exists m, match E k with Some g => g (db_rows (w_db w k)) | None => db_rows (w_db w k) end = m /\
          (db_owner (w_db w k) = None \/ exists m0, db_owner (w_db w k) = Some (t, m0)) /\
          w' = set_thr (set_db w k (mkDb (db_rows (w_db w k)) (Some (t, f m)))) t (LRun o conns (next (Ok tt)))).
      { specialize (O k). destruct (db_owner (w_db w k)) as [[t' m]|] eqn:Eo.
        - destruct (Nat.eqb_spec t' t) as [->|N]; [|discriminate HS]. destruct (NOW _ _ Eo) as (g & Eg & ->). rewrite Eg. eexists. split; [reflexivity|]. split; [right; eauto|congruence].
        - destruct (E k); [discriminate O|]. eexists. split; [reflexivity|]. split; [left; reflexivity|congruence]. }
      destruct HX as (m & Hm & Hown & ->).
      set (w' := set_thr (set_db w k (mkDb (db_rows (w_db w k)) (Some (t, f m)))) t (LRun o conns (next (Ok tt)))).
      assert (D : forall j, w_db w' j = if j =? k then mkDb (db_rows (w_db w k)) (Some (t, f m)) else w_db w j) by reflexivity.
      assert (HA : forall j, arow w' j = arow w j).
      { intros j. destruct (Nat.eqb_spec j k) as [->|N].
        - unfold arow. rewrite D, Nat.eqb_refl. cbn [db_owner db_rows]. cbn [w' set_thr w_thr set_db]. unfold nupd. rewrite Nat.eqb_refl. cbn [thr_commits]. rewrite HC2.
          destruct Hown as [->|(m0 & ->)]; [reflexivity|]. rewrite HT. reflexivity.
        - apply (arow_thr w w' t (LRun o conns (next (Ok tt)))); [rewrite D; destruct (Nat.eqb_spec j k); [congruence|reflexivity]|reflexivity|].
          intros m1 _. rewrite HT. cbn. apply HC2. }
      eapply (advance w w' t _ (eput E k f)); try exact HJ; try reflexivity.
      * intros t' j m1 Nt Hm1. rewrite D. destruct (Nat.eqb_spec j k) as [->|]; [|reflexivity]. exfalso. destruct Hown as [Hown|(m0 & Hown)]; congruence.
      * intros t' j m1 Nt Hm1. rewrite D in Hm1 |- *. destruct (Nat.eqb_spec j k) as [->|]; [|reflexivity]. exfalso. cbn in Hm1. congruence.
      * eapply ext_inv; [apply (j_inv w HJ)|]. intros p. apply rows_ext, HA.
      * apply (j_uniq w HJ).
      * apply (j_low w HJ).
      * intros j Hj. rewrite D. cbn in Hj. destruct (Nat.eqb_spec j k) as [->|]; [|apply (j_fresh w HJ); exact Hj]. specialize (Hc _ _ Hd). lia.
      * intros j. specialize (O j). unfold eput, nupd. rewrite D. destruct (Nat.eqb_spec j k) as [->|]; [|exact O]. cbn [db_owner db_rows]. rewrite <- Hm. reflexivity.
      * split; [exact Hp|]. split; [exact Hc|]. split; [|exact HE2]. intros j g. unfold eput, nupd. destruct (Nat.eqb_spec j k) as [->|]; [|apply HL].
        intros [= <-] u Hu rows. destruct (Hloc u Hu (match E k with Some g => g rows | None => rows end)) as [X1 X2].
        destruct (E k) as [g|] eqn:Ek; [|split; assumption]. destruct (HL k g Ek u Hu rows) as [Y1 Y2].
        split; [congruence|]. intros l. rewrite X2. apply Y2.
  - (* a system call *)
    destruct fail as [e|]; [discriminate HS|]. destruct (call (w_tree w)) as [fs r] eqn:Ecall.
    assert (w' = set_thr (set_wtree w fs) t (LRun o conns (next r))) as -> by congruence.
    set (w' := set_thr (set_wtree w fs) t (LRun o conns (next r))).
    assert (FS : fs = fst (call (w_tree w))) by (rewrite Ecall; reflexivity).
    assert (RS : r = snd (call (w_tree w))) by (rewrite Ecall; reflexivity).
    assert (CA : calm call) by (inversion G; assumption).
    destruct (CA _ _ (j_uniq w HJ) (j_low w HJ)) as [U' L']. rewrite <- FS in U', L'.
    assert (GN : good o conns E (next r)) by (inversion G; auto).
    eapply (advance w w' t _ E); try exact HJ; try reflexivity; try assumption.
    2: apply (j_fresh w HJ). 2: split; [exact Hp|]; split; [exact Hc|split; [exact HL|exact GN]].
    change (w_tree w') with fs. inversion G as [| | |? ? ? ? _ HW _ HC| ? ? ? ? _ HW _ HC|]; subst.
    + eapply ext_inv; [apply (HW _ _ (j_inv w HJ) HG)|]. intros p. apply rows_ext. intros k. apply (arow_thr w w' t (LRun o conns (next (snd (call (w_tree w)))))); [reflexivity|reflexivity|].
      intros m Hm. rewrite HT. apply HC.
    + assert (TA : forall d k, In (d, k) conns -> tn (w_tree w) d = Some (KFile k)).
      { intros d k Hi. destruct (HU t o conns _ d k HT I Hi) as (es & E1 & E2). unfold lookup. rewrite E1. exact E2. }
      eapply ext_inv; [apply (HW _ _ _ (j_inv w HJ) (j_uniq w HJ) (j_low w HJ) TA HG)|]. intros p. apply rows_ext. intros k. clear p.
      unfold arow. cbn [w' set_thr set_wtree w_db w_thr]. unfold nupd. pose proof (O k) as Ok. unfold appl.
      destruct (E k) as [f|] eqn:Ek.
      * rewrite Ok, Nat.eqb_refl. cbn [thr_commits]. rewrite HC by congruence. destruct (okb (snd (call (w_tree w)))); cbv beta; rewrite ?Ek, ?Ok, ?HT; reflexivity.
      * destruct (db_owner (w_db w k)) as [[t' m]|] eqn:Eo; [|destruct (okb _); cbv beta; rewrite ?Ek, Eo; reflexivity].
        destruct (Nat.eqb_spec t' t) as [->|N]; [exfalso; exact (Ok m eq_refl)|]. destruct (okb _); cbv beta; rewrite ?Ek, Eo; reflexivity.
  - (* commit or roll back *)
    inversion G as [| | | | |? ? ? ? ? GN]; subst. cbv zeta in HS.
    set (x' := match db_owner (w_db w k) with Some (t', m) => if t' =? t then mkDb (if c && match fail with None => true | _ => false end then m else db_rows (w_db w k)) None else w_db w k | None => w_db w k end) in *.
    assert (w' = set_thr (set_db w k x') t (LRun o (drop_conn k conns) next)) as -> by congruence.
    set (w' := set_thr (set_db w k x') t (LRun o (drop_conn k conns) next)).
    assert (D : forall j, w_db w' j = if j =? k then x' else w_db w j) by reflexivity.
    assert (HA : forall j, arow w' j = arow w j).
    { intros j. destruct (Nat.eqb_spec j k) as [->|N].
      - unfold arow. rewrite D, Nat.eqb_refl. unfold x'. destruct (db_owner (w_db w k)) as [[t' m]|] eqn:Eo; [|rewrite Eo; reflexivity].
        destruct (Nat.eqb_spec t' t) as [->|N].
        + cbn [db_owner db_rows]. rewrite HT. cbn [thr_commits commits]. rewrite Nat.eqb_refl. destruct c; [|reflexivity]. rewrite HG. reflexivity.
        + rewrite Eo. cbn [w' set_thr w_thr set_db]. unfold nupd. destruct (Nat.eqb_spec t' t); [congruence|reflexivity].
      - apply (arow_thr w w' t (LRun o (drop_conn k conns) next)); [rewrite D; destruct (Nat.eqb_spec j k); [congruence|reflexivity]|reflexivity|].
        intros m1 _. rewrite HT. cbn [thr_commits commits]. destruct (Nat.eqb_spec k j); [congruence|reflexivity]. }
    eapply (advance w w' t _ (edel E k)); try exact HJ; try reflexivity.
    + intros t' j m1 Nt Hm1. rewrite D. destruct (Nat.eqb_spec j k) as [->|]; [|reflexivity]. unfold x'. rewrite Hm1. destruct (Nat.eqb_spec t' t); [congruence|reflexivity].
    + intros t' j m1 Nt Hm1. rewrite D in Hm1 |- *. destruct (Nat.eqb_spec j k) as [->|]; [|reflexivity]. unfold x' in *. destruct (db_owner (w_db w k)) as [[t2 m2]|] eqn:Eo; [|reflexivity].
      destruct (t2 =? t); [discriminate Hm1|reflexivity].
    + eapply ext_inv; [apply (j_inv w HJ)|]. intros p. apply rows_ext, HA.
    + apply (j_uniq w HJ).
    + apply (j_low w HJ).
    + intros j Hj. rewrite D. cbn in Hj. destruct (Nat.eqb_spec j k) as [->|]; [|apply (j_fresh w HJ); exact Hj]. unfold x'. rewrite (j_fresh w HJ k Hj). reflexivity.
    + intros j. specialize (O j). unfold edel, nupd. rewrite D. destruct (Nat.eqb_spec j k) as [->|]; [|exact O]. intros m. unfold x'.
      destruct (db_owner (w_db w k)) as [[t2 m2]|] eqn:Eo; [|congruence]. destruct (Nat.eqb_spec t2 t); [discriminate|]. congruence.
    + split; [exact Hp|]. split; [intros d' k' Hi; apply filter_In in Hi; destruct Hi as [Hi _]; eauto|]. split; [|exact GN].
      intros j g. unfold edel, nupd. destruct (j =? k); [discriminate|apply HL].
Qed.

Lemma kill_J w : J w -> (forall t o conns p, w_thr w t = LRun o conns p -> ~ committing p) ->
  J (mkWorld (w_tree w) (fun k => mkDb (db_rows (w_db w k)) None) (w_next w) (fun _ => LIdle)).
Proof.
  intros HJ HK. assert (NC : forall p k, commits p k = true -> committing p).
  { intros p k. induction p as [| | | |k' c next IH]; cbn [commits committing]; try discriminate. destruct (k' =? k); auto. }
  split; cbn [w_tree w_next].
  - eapply ext_inv; [apply (j_inv w HJ)|]. intros p. apply rows_ext. intros k. unfold arow. cbn [w_db db_owner db_rows].
    destruct (db_owner (w_db w k)) as [[t m]|]; [|reflexivity]. destruct (w_thr w t) as [|o conns q] eqn:HT; [reflexivity|]. cbn [thr_commits].
    destruct (commits q k) eqn:C; [|reflexivity]. exfalso. exact (HK _ _ _ _ HT (NC _ _ C)).
  - apply HJ.
  - apply HJ.
  - intros k Hk. cbn [w_db]. rewrite (j_fresh w HJ k Hk). reflexivity.
  - intros t. exists enone. split; [intros k; cbn; discriminate|intros k; reflexivity].
Qed.

Lemma J0 : inv (W (arow world0) (w_tree world0)) -> J world0.
Proof.
  intros H. split; [exact H| | | |].
  - intros d d' x. unfold lookup. cbn. unfold empty_fs. destruct d; [discriminate|discriminate].
  - intros d x. unfold lookup. cbn. unfold empty_fs. destruct d; discriminate.
  - reflexivity.
  - intros t. exists enone. split; [intros k; cbn; discriminate|intros k; reflexivity].
Qed.

Theorem run_J cs : (forall t o, In (Begin t o) cs -> Forall okp (op_paths o)) -> forall w w' h, J w -> gentle_run trans suffix cs w -> undisturbed_run trans cs w ->
  c_run trans cs w = Some (w', h) -> J w'.
Proof.
  induction cs as [|c cs IH]; intros Hp w w' h HJ HG HU HR; [cbn in HR; congruence|]. cbn [c_run gentle_run undisturbed_run] in *. destruct HG as [H1 H2]. destruct HU as [HU H3].
  destruct (c_step trans c w) as [[w1 h1]|] eqn:ES; [|discriminate HR]. destruct (c_run trans cs w1) as [[w2 h2]|] eqn:ER; [|discriminate HR].
  assert (w' = w2) as -> by congruence. eapply (IH (fun t o H => Hp t o (or_intror H)) w1 w2 h2); try assumption.
  destruct c as [t o|t fail|t|].
  4: { cbn in ES. injection ES as <- <-. apply kill_J; assumption. }
  - cbn in ES. destruct (w_thr w t) eqn:HT; [|discriminate ES]. injection ES as <- <-. apply begin_J; [exact HJ|exact HT|]. apply (Hp t). left. reflexivity.
  - eapply go_J; eassumption.
  - cbn in ES. destruct (w_thr w t) as [|o conns [r| | | |]] eqn:HT; try discriminate ES. injection ES as <- <-. eapply return_J; eassumption.
Qed.

Lemma rest_J w : J w -> at_rest w -> inv (on_disk w).
Proof.
  intros HJ HR. eapply ext_inv; [apply (j_inv w HJ)|]. intros p. apply rows_ext. intros k. unfold arow.
  destruct (db_owner (w_db w k)) as [[t m]|]; [|reflexivity]. rewrite HR. reflexivity.
Qed.

(** ** Killed at any moment *)
Lemma under_rows w k u : J w -> ~ under_way trans w u ->
  ent u (db_rows (w_db w k)) = ent u (arow w k) /\ forall l, In (u, l) (db_rows (w_db w k)) <-> In (u, l) (arow w k).
Proof.
  intros HJ HU. unfold arow. destruct (db_owner (w_db w k)) as [[t m]|] eqn:Eo; [|split; intros; reflexivity].
  destruct (thr_commits (w_thr w t) k) eqn:C; [|split; intros; reflexivity]. destruct (j_thr w HJ t) as (E & O & G). specialize (O k).
  destruct (E k) as [f|] eqn:Ek; [|exfalso; exact (O m Eo)]. assert (m = f (db_rows (w_db w k))) as -> by congruence.
  destruct (w_thr w t) as [|o conns p] eqn:HT; [discriminate C|]. destruct G as (_ & _ & HL & _).
  destruct (HL k f Ek u) with (rows := db_rows (w_db w k)) as [X1 X2].
  - intros (path & P & l & H1 & H2 & H3). apply HU. exists t, o, conns, p, path, P, l. auto.
  - split; [symmetry; exact X1|intros l; symmetry; apply X2].
Qed.

Lemma disk_long w d es u : J w -> on_disk w d = Some es -> ent u es <> None -> long u -> ~ under_way trans w u ->
  exists l, named u l /\ table_of es u = Ok l.
Proof.
  intros HJ Hd Hu HL HW. unfold on_disk, with_rows in Hd. destruct (w_tree w d) as [raw|] eqn:Er; [|discriminate Hd]. cbn [option_map] in Hd.
  assert (es = map (table_kind (fun k => db_rows (w_db w k))) raw) as -> by congruence. clear Hd.
  assert (Hd : W (arow w) (w_tree w) d = Some (map (table_kind (arow w)) raw)) by (unfold with_rows; rewrite Er; reflexivity).
  assert (NT : u <> TN) by (intros ->; exact (not_long_TN suffix HL)).
  rewrite f_ent in Hu by exact NT. pose proof (do_long _ _ _ (proj2 (j_inv w HJ) _ _ Hd) u) as DL. rewrite f_ent in DL by exact NT.
  destruct (DL Hu HL) as (l & Hn & Hr). exists l. split; [exact Hn|]. unfold rows in Hr. unfold table_of. rewrite f_ent_TN in Hr |- *.
  destruct (ent TN raw) as [[k| |m]|] eqn:Et; cbn [option_map] in *; try discriminate Hr; [|rewrite Hr; reflexivity].
  destruct (under_rows w k u HJ HW) as [-> _]. rewrite Hr. reflexivity.
Qed.

Lemma disk_stale w d es m u l : J w -> on_disk w d = Some es -> ent TN es = Some (KTable m) -> In (u, l) m -> ~ under_way trans w u ->
  long u /\ ent u es <> None.
Proof.
  intros HJ Hd Hm Hi HW. unfold on_disk, with_rows in Hd. destruct (w_tree w d) as [raw|] eqn:Er; [|discriminate Hd]. cbn [option_map] in Hd.
  assert (es = map (table_kind (fun k => db_rows (w_db w k))) raw) as -> by congruence. clear Hd.
  assert (Hd : W (arow w) (w_tree w) d = Some (map (table_kind (arow w)) raw)) by (unfold with_rows; rewrite Er; reflexivity).
  rewrite f_ent_TN in Hm. destruct (ent TN raw) as [x|] eqn:Et; [|discriminate Hm].
  assert (TW : tn (w_tree w) d = Some x) by (unfold lookup; rewrite Er; exact Et). destruct (j_low w HJ _ _ TW) as (k & -> & _). cbn [option_map] in Hm.
  assert (m = db_rows (w_db w k)) as -> by congruence. destruct (under_rows w k u HJ HW) as [_ X]. apply X in Hi.
  assert (Hr : rows (map (table_kind (arow w)) raw) = arow w k) by (unfold rows; rewrite f_ent_TN, Et; reflexivity).
  assert (Hu : ent u (arow w k) <> None). { apply (in_map fst) in Hi. cbn [fst] in Hi. apply ent_some in Hi. destruct Hi as (k' & ->). discriminate. }
  rewrite <- Hr in Hu. destruct (do_exact _ _ _ (proj2 (j_inv w HJ) _ _ Hd) u Hu) as (A & B). split; [exact A|].
  assert (NT : u <> TN) by (intros ->; exact (not_long_TN suffix A)). rewrite f_ent in B by exact NT. rewrite f_ent by exact NT. exact B.
Qed.
End Tables.
