(** System calls do not look at the tables of long names. *)
From Verif Require Import Base BaseLemmas TextModel NameModel NameSpec LongNameModel LongNameSpec LongNameProofs LongNameInv
  LiteTreeSpec LiteConcModel LiteConcSpec.

Section Rows.
Variable rows : nat -> rowlist.
Notation tk := (table_kind rows).
Notation f := (map tk).
Notation W := (with_rows rows).

Lemma tk_fst e : fst (tk e) = fst e.
Proof. unfold table_kind. destruct (bytes_eqb _ _); reflexivity. Qed.
Lemma f_keys es : map fst (f es) = map fst es.
Proof. rewrite map_map. apply map_ext. exact tk_fst. Qed.
Lemma f_del c es : f (ent_del c es) = ent_del c (f es).
Proof.
  unfold ent_del. induction es as [|e es IH]; [reflexivity|]. cbn [filter map]. rewrite tk_fst.
  destruct (bytes_eqb (fst e) c); cbn [negb map]; rewrite IH; reflexivity.
Qed.
Lemma f_put c k es : c <> TN -> f (ent_put c k es) = ent_put c k (f es).
Proof.
  intros N. unfold ent_put. cbn [map]. rewrite f_del. f_equal. unfold table_kind. cbn [fst].
  apply bytes_eqb_neq in N. rewrite N. reflexivity.
Qed.
Lemma f_put_TN k es : f (ent_put TN (KFile k) es) = ent_put TN (KTable (rows k)) (f es).
Proof. unfold ent_put. cbn [map]. rewrite f_del. reflexivity. Qed.
Lemma f_ent c es : c <> TN -> ent c (f es) = ent c es.
Proof.
  intros N. induction es as [|[d k] es IH]; [reflexivity|]. cbn [map]. unfold table_kind at 1. cbn [fst snd].
  destruct (bytes_eqb d TN) eqn:E; cbn [ent].
  - apply bytes_eqb_eq in E. subst d. assert (E : bytes_eqb TN c = false) by (apply bytes_eqb_neq; congruence).
    rewrite E. exact IH.
  - rewrite IH. reflexivity.
Qed.
Lemma f_ent_TN es : ent TN (f es) = option_map (fun x => match x with KFile k => KTable (rows k) | y => y end) (ent TN es).
Proof.
  induction es as [|[d k] es IH]; [reflexivity|]. cbn [map]. unfold table_kind at 1. cbn [fst snd].
  destruct (bytes_eqb d TN) eqn:E; cbn [ent]; rewrite E; [destruct k; reflexivity|exact IH].
Qed.
Lemma W_hset fs p v q : hset (W fs) p (option_map f v) q = W (hset fs p v) q.
Proof. unfold hset, with_rows. destruct (hpath_eqb p q); reflexivity. Qed.
Lemma W_ext fs fs' p : fs p = fs' p -> W fs p = W fs' p.
Proof. unfold with_rows. intros ->. reflexivity. Qed.
Lemma W_two fs p v q w r : hset (hset (W fs) p (option_map f v)) q (option_map f w) r = W (hset (hset fs p v) q w) r.
Proof. unfold hset, with_rows. destruct (hpath_eqb q r), (hpath_eqb p r); reflexivity. Qed.
End Rows.

Definition steady (call : hfs -> hfs * res unit) : Prop :=
  forall rows fs, (forall p, fst (call (with_rows rows fs)) p = with_rows rows (fst (call fs)) p) /\
                  snd (call (with_rows rows fs)) = snd (call fs).

Definition usual (p : hpath) : Prop := p = [] \/ leaf p <> TN.

Ltac same := split; [intros; reflexivity|reflexivity].
Ltac dir fs p := unfold with_rows at 1; destruct (fs (parent p)) as [?es|] eqn:?; cbn [option_map]; [|same].

Lemma steady_open bad creat excl ino p : usual p -> steady (h_open bad creat excl ino p).
Proof.
  intros U rows fs. unfold h_open. destruct bad as [e|]; [same|]. destruct p as [|x p0] eqn:Ep; [same|]. rewrite <- Ep in *.
  destruct U as [U|U]; [congruence|]. clear Ep.
  assert (EW : with_rows rows fs (parent p) = option_map (map (table_kind rows)) (fs (parent p))) by reflexivity. rewrite EW.
  destruct (fs (parent p)) as [es|]; cbn [option_map]; [|same]. rewrite f_ent by exact U.
  destruct (ent (leaf p) es) as [[i| |m]|]; try same. destruct creat; [|same]. cbn [fst snd]. split; [|reflexivity].
  intros q. rewrite <- W_hset. cbn [option_map]. rewrite f_put by exact U. reflexivity.
Qed.

Lemma steady_mkdir bad p : usual p -> steady (h_mkdir bad p).
Proof.
  intros U rows fs. unfold h_mkdir. destruct bad as [e|]; [same|]. destruct p as [|x p0] eqn:Ep; [same|]. rewrite <- Ep in *.
  destruct U as [U|U]; [congruence|]. clear Ep.
  assert (EW : with_rows rows fs (parent p) = option_map (map (table_kind rows)) (fs (parent p))) by reflexivity. rewrite EW.
  destruct (fs (parent p)) as [es|]; cbn [option_map]; [|same]. rewrite f_ent by exact U.
  destruct (ent (leaf p) es) as [k|]; [same|]. cbn [fst snd]. split; [|reflexivity].
  intros q. rewrite <- W_two. cbn [option_map map]. rewrite f_put by exact U. reflexivity.
Qed.

Lemma steady_link bad s p : usual s -> usual p -> steady (h_link bad s p).
Proof.
  intros Us U rows fs. unfold h_link. destruct bad as [e|]; [same|]. destruct s as [|y s0] eqn:Es; [same|].
  destruct p as [|x p0] eqn:Ep; [same|]. rewrite <- Ep, <- Es in *.
  destruct U as [U|U]; [congruence|]. destruct Us as [Us|Us]; [congruence|]. clear Ep Es.
  assert (EW : forall d, with_rows rows fs d = option_map (map (table_kind rows)) (fs d)) by reflexivity. rewrite !EW.
  destruct (fs (parent s)) as [es|]; cbn [option_map]; [|same].
  destruct (fs (parent p)) as [ed|]; cbn [option_map]; [|same]. rewrite !f_ent by assumption.
  destruct (ent (leaf s) es) as [[i| |m]|]; destruct (ent (leaf p) ed) as [k|]; try same. cbn [fst snd]. split; [|reflexivity].
  intros q. rewrite <- W_hset. cbn [option_map]. rewrite f_put by exact U. reflexivity.
Qed.

Lemma steady_unlink bad p : usual p -> steady (h_unlink bad p).
Proof.
  intros U rows fs. unfold h_unlink. destruct bad as [e|]; [same|]. destruct p as [|x p0] eqn:Ep; [same|]. rewrite <- Ep in *.
  destruct U as [U|U]; [congruence|]. clear Ep.
  assert (EW : with_rows rows fs (parent p) = option_map (map (table_kind rows)) (fs (parent p))) by reflexivity. rewrite EW.
  destruct (fs (parent p)) as [es|]; cbn [option_map]; [|same]. rewrite f_ent by exact U.
  destruct (ent (leaf p) es) as [[i| |m]|]; try same; cbn [fst snd]; (split; [|reflexivity]);
  intros q; rewrite <- W_hset; cbn [option_map]; rewrite f_del; reflexivity.
Qed.

Lemma steady_rmdir bad p : usual p -> steady (h_rmdir bad p).
Proof.
  intros U rows fs. unfold h_rmdir. destruct bad as [e|]; [same|]. destruct p as [|x p0] eqn:Ep; [same|]. rewrite <- Ep in *.
  destruct U as [U|U]; [congruence|]. clear Ep.
  assert (EW : forall d, with_rows rows fs d = option_map (map (table_kind rows)) (fs d)) by reflexivity. rewrite !EW.
  destruct (fs (parent p)) as [es|]; cbn [option_map]; [|same]. rewrite f_ent by exact U.
  destruct (ent (leaf p) es) as [[i| |m]|]; destruct (fs p) as [[|y l]|]; cbn [option_map map]; try same. cbn [fst snd].
  split; [|reflexivity]. intros q. rewrite <- W_two. cbn [option_map]. rewrite f_del. reflexivity.
Qed.

Lemma W_move rows a b fs q : h_move a b (with_rows rows fs) q = with_rows rows (h_move a b fs) q.
Proof. unfold h_move, with_rows. destruct (strip_prefix b q); [reflexivity|]. destruct (strip_prefix a q); reflexivity. Qed.
Lemma h_move_ext a b fs fs' q : (forall p, fs p = fs' p) -> h_move a b fs q = h_move a b fs' q.
Proof. intros H. unfold h_move. destruct (strip_prefix b q); [apply H|]. destruct (strip_prefix a q); [reflexivity|apply H]. Qed.

Lemma steady_rename bad a b : usual a -> usual b -> steady (h_rename bad a b).
Proof.
  intros Ua Ub rows fs. unfold h_rename. destruct bad as [e|]; [same|]. destruct a as [|x a0] eqn:Ea; [same|].
  destruct b as [|y b0] eqn:Eb; [same|]. rewrite <- Ea, <- Eb in *.
  destruct Ua as [Ua|Ua]; [congruence|]. destruct Ub as [Ub|Ub]; [congruence|]. clear Ea Eb.
  assert (EW : forall d, with_rows rows fs d = option_map (map (table_kind rows)) (fs d)) by reflexivity. rewrite !EW.
  destruct (fs (parent a)) as [ea|]; cbn [option_map]; [|same].
  destruct (fs (parent b)) as [eb|]; cbn [option_map]; [|same]. rewrite !f_ent by assumption.
  destruct (ent (leaf a) ea) as [k|]; [|same]. destruct (hpath_eqb a b); [same|].
  assert (E1 : hset (with_rows rows fs) (parent a) (Some (ent_del (leaf a) (map (table_kind rows) ea))) (parent b) =
               option_map (map (table_kind rows)) (hset fs (parent a) (Some (ent_del (leaf a) ea)) (parent b))).
  { rewrite <- f_del. exact (W_hset rows fs (parent a) (Some (ent_del (leaf a) ea)) (parent b)). }
  rewrite E1. clear E1.
  assert (K : forall go go' : hfs * res unit, (forall q, fst go' q = with_rows rows (fst go) q) /\ snd go' = snd go ->
    (forall q, fst (match k with
       | KDir => match strip_prefix a b with
                 | Some _ => (with_rows rows fs, Err EINVALID)
                 | None => match ent (leaf b) eb with
                           | Some KDir => match option_map (map (table_kind rows)) (fs b) with Some [] => go' | _ => (with_rows rows fs, Err ENOTEMPTY) end
                           | Some _ => (with_rows rows fs, Err ENOTDIR)
                           | None => go'
                           end
                 end
       | KFile i => match ent (leaf b) eb with Some (KFile j) => if i =? j then (with_rows rows fs, Ok tt) else go' | Some KDir => (with_rows rows fs, Err EISDIR) | _ => go' end
       | KTable _ => match ent (leaf b) eb with Some KDir => (with_rows rows fs, Err EISDIR) | _ => go' end
       end) q = with_rows rows (fst (match k with
       | KDir => match strip_prefix a b with
                 | Some _ => (fs, Err EINVALID)
                 | None => match ent (leaf b) eb with
                           | Some KDir => match fs b with Some [] => go | _ => (fs, Err ENOTEMPTY) end
                           | Some _ => (fs, Err ENOTDIR)
                           | None => go
                           end
                 end
       | KFile i => match ent (leaf b) eb with Some (KFile j) => if i =? j then (fs, Ok tt) else go | Some KDir => (fs, Err EISDIR) | _ => go end
       | KTable _ => match ent (leaf b) eb with Some KDir => (fs, Err EISDIR) | _ => go end
       end)) q) /\
    snd (match k with
       | KDir => match strip_prefix a b with
                 | Some _ => (with_rows rows fs, Err EINVALID)
                 | None => match ent (leaf b) eb with
                           | Some KDir => match option_map (map (table_kind rows)) (fs b) with Some [] => go' | _ => (with_rows rows fs, Err ENOTEMPTY) end
                           | Some _ => (with_rows rows fs, Err ENOTDIR)
                           | None => go'
                           end
                 end
       | KFile i => match ent (leaf b) eb with Some (KFile j) => if i =? j then (with_rows rows fs, Ok tt) else go' | Some KDir => (with_rows rows fs, Err EISDIR) | _ => go' end
       | KTable _ => match ent (leaf b) eb with Some KDir => (with_rows rows fs, Err EISDIR) | _ => go' end
       end) = snd (match k with
       | KDir => match strip_prefix a b with
                 | Some _ => (fs, Err EINVALID)
                 | None => match ent (leaf b) eb with
                           | Some KDir => match fs b with Some [] => go | _ => (fs, Err ENOTEMPTY) end
                           | Some _ => (fs, Err ENOTDIR)
                           | None => go
                           end
                 end
       | KFile i => match ent (leaf b) eb with Some (KFile j) => if i =? j then (fs, Ok tt) else go | Some KDir => (fs, Err EISDIR) | _ => go end
       | KTable _ => match ent (leaf b) eb with Some KDir => (fs, Err EISDIR) | _ => go end
       end)).
  { intros go go' G. destruct k as [i| |m].
    - destruct (ent (leaf b) eb) as [[j| |mb]|]; try exact G; try same. destruct (i =? j); [same|exact G].
    - destruct (strip_prefix a b); [same|]. destruct (ent (leaf b) eb) as [[j| |mb]|]; try exact G; destruct (fs b) as [[|z l]|]; cbn [option_map map]; try exact G; same.
    - destruct (ent (leaf b) eb) as [[j| |mb]|]; try exact G; try same. }
  destruct (hset fs (parent a) (Some (ent_del (leaf a) ea)) (parent b)) as [eb1|]; cbn [option_map].
  2: { specialize (K (fs, Err ENOENT) (with_rows rows fs, Err ENOENT) ltac:(same)). clear - K.
       destruct k as [i| |m]; destruct (ent (leaf b) eb) as [[j| |mb]|]; try exact K; destruct (fs b) as [[|z l]|]; exact K. }
  assert (E2 : forall q, hset (hset (with_rows rows fs) (parent a) (Some (ent_del (leaf a) (map (table_kind rows) ea)))) (parent b)
                 (Some (ent_put (leaf b) k (map (table_kind rows) eb1))) q =
               with_rows rows (hset (hset fs (parent a) (Some (ent_del (leaf a) ea))) (parent b) (Some (ent_put (leaf b) k eb1))) q).
  { intros q. rewrite <- W_two. cbn [option_map]. rewrite f_del, f_put by exact Ub. reflexivity. }
  match goal with |- (forall q, fst ?X q = with_rows rows (fst ?Y) q) /\ _ =>
    set (X0 := X); set (Y0 := Y) end.
  refine (_ (K (match k with KDir => h_move a b (hset (hset fs (parent a) (Some (ent_del (leaf a) ea))) (parent b) (Some (ent_put (leaf b) k eb1))) | _ => hset (hset fs (parent a) (Some (ent_del (leaf a) ea))) (parent b) (Some (ent_put (leaf b) k eb1)) end, Ok tt)
               (match k with KDir => h_move a b (hset (hset (with_rows rows fs) (parent a) (Some (ent_del (leaf a) (map (table_kind rows) ea)))) (parent b)
                 (Some (ent_put (leaf b) k (map (table_kind rows) eb1)))) | _ => hset (hset (with_rows rows fs) (parent a) (Some (ent_del (leaf a) (map (table_kind rows) ea)))) (parent b)
                 (Some (ent_put (leaf b) k (map (table_kind rows) eb1))) end, Ok tt) _)).
  - intros K'. exact K'.
  - cbn [fst snd]. split; [|reflexivity]. destruct k as [i| |m]; [exact E2| |exact E2].
    intros q. rewrite (h_move_ext _ _ _ _ q E2). apply W_move.
Qed.

Lemma steady_drop p : steady (fun fs => (drop_table p fs, Ok tt)).
Proof.
  intros rows fs. cbn [fst snd]. split; [|reflexivity]. intros q. unfold drop_table.
  assert (EW : forall d, with_rows rows fs d = option_map (map (table_kind rows)) (fs d)) by reflexivity. rewrite !EW.
  destruct (fs p) as [es|]; cbn [option_map]; [|apply EW]. rewrite f_ent_TN.
  destruct (ent TN es) as [[i| |m]|]; cbn [option_map]; try apply EW; rewrite <- W_hset; cbn [option_map]; rewrite f_del; reflexivity.
Qed.
