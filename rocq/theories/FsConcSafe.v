(** What one thread may assume and must keep, whatever the others do. *)
From Coq Require Import Strings.String Lia ZArith Permutation.
From Verif Require Import Base BaseLemmas TextModel NameModel BtreeModel BtreeSpec FullFsModel FullFsSpec FullFsProofs FullFsPath FullFsInv FsConcModel FsConcSpec FsConcProofs.
Local Open Scope list_scope.

Section Safe.
Variable cmp : bytes -> bytes -> comparison.
Hypothesis Hcmp : cmp_ok cmp.

(** Links that running operations still have to give up ([pos]) or that nobody will
    ([lost]). *)
Definition debts (pos lost : list bytes) (id : bytes) : Z := Z.of_nat (occ id pos + occ id lost).
Definition CInv (own : list holder) (pos lost : list bytes) (st : ffs) : Prop := CI cmp own (debts pos lost) st.

Lemma occ_app id a b : occ id (a ++ b) = occ id a + occ id b.
Proof. unfold occ. now rewrite filter_app, app_length. Qed.
Lemma occ_perm id a b : Permutation a b -> occ id a = occ id b.
Proof. induction 1; rewrite ?occ_cons; lia. Qed.
Lemma occ_ind id x l : Z.of_nat (occ id (x :: l)) = (ind x id + Z.of_nat (occ id l))%Z.
Proof.
  rewrite occ_cons. unfold ind. destruct (bytes_eqb id x) eqn:E1, (bytes_eqb x id) eqn:E2; try lia.
  - apply bytes_eqb_eq in E1. apply bytes_eqb_neq in E2. congruence.
  - apply bytes_eqb_neq in E1. apply bytes_eqb_eq in E2. congruence.
Qed.
Lemma debts_nonneg pos lost id : (0 <= debts pos lost id)%Z.
Proof. unfold debts. lia. Qed.
Lemma CInv_perm own own' pos pos' lost lost' st : CInv own pos lost st -> Permutation own own' -> Permutation pos pos' -> Permutation lost lost' -> CInv own' pos' lost' st.
Proof.
  intros H Ho Hp Hl. eapply CI_ext; [exact H|exact Ho|]. intros id. unfold debts. now rewrite (occ_perm id _ _ Hp), (occ_perm id _ _ Hl).
Qed.

(** [safe p Q own pos]: a thread that holds the references [own] and the debts [pos]
    and has [p] left to do keeps the invariant with every step, and ends with an answer,
    references and debts that satisfy [Q]. *)
Fixpoint safe {A} (p : prog A) (Q : A -> list holder -> list bytes -> Prop) (own : list holder) (pos : list bytes) : Prop :=
  match p with
  | PRet a => Q a own pos
  | PStep upd next => forall eo ep lost st, CInv (own ++ eo) (pos ++ ep) lost st -> room st ->
      exists own' pos' lost', CInv (own' ++ eo) (pos' ++ ep) lost' (upd st) /\ (tidy st -> lost' = lost) /\ safe (next st) Q own' pos'
  end.

Lemma safe_imp {A} (p : prog A) (Q Q' : A -> list holder -> list bytes -> Prop) : (forall a o q, Q a o q -> Q' a o q) ->
  forall own pos, safe p Q own pos -> safe p Q' own pos.
Proof.
  intros HQ. induction p as [a|upd next IH]; cbn [safe]; intros own pos H; [now apply HQ|].
  intros eo ep lost st Hi Hr. destruct (H eo ep lost st Hi Hr) as (o & q & l & H1 & H2 & H3). exists o, q, l. auto.
Qed.
Lemma safe_bind {A B} (p : prog A) (f : A -> prog B) Q : forall own pos,
  safe p (fun a o q => safe (f a) Q o q) own pos -> safe (bind p f) Q own pos.
Proof.
  induction p as [a|upd next IH]; cbn [safe bind]; intros own pos H; [exact H|].
  intros eo ep lost st Hi Hr. destruct (H eo ep lost st Hi Hr) as (o & q & l & H1 & H2 & H3). exists o, q, l. auto.
Qed.
(** References the program does not know of stay. *)
Lemma safe_frame {A} (p : prog A) Q fo : forall own pos, safe p Q own pos ->
  safe p (fun a o q => exists o1, o = o1 ++ fo /\ Q a o1 q) (own ++ fo) pos.
Proof.
  induction p as [a|upd next IH]; cbn [safe]; intros own pos H; [eauto|].
  intros eo ep lost st Hi Hr. rewrite <- app_assoc in Hi. destruct (H (fo ++ eo) ep lost st Hi Hr) as (o & q & l & H1 & H2 & H3).
  exists (o ++ fo), q, l. rewrite <- app_assoc. split; [exact H1|]. split; [exact H2|]. exact (IH st o q H3).
Qed.

Lemma safe_do {A B} (f : ffs -> ffs * A) (k : A -> prog B) Q own pos :
  (forall eo ep lost st, CInv (own ++ eo) (pos ++ ep) lost st -> room st ->
     exists own' pos' lost', CInv (own' ++ eo) (pos' ++ ep) lost' (fst (f st)) /\ (tidy st -> lost' = lost) /\ safe (k (snd (f st))) Q own' pos') ->
  safe (bind (p_do f) k) Q own pos.
Proof. intros H. exact H. Qed.
Lemma safe_ask {A B} (f : ffs -> A) (k : A -> prog B) Q own pos :
  (forall eo D st, CI cmp (own ++ eo) D st -> safe (k (f st)) Q own pos) ->
  safe (bind (p_ask f) k) Q own pos.
Proof. intros H eo ep lost st Hi Hr. exists own, pos, lost. split; [exact Hi|]. split; [reflexivity|]. exact (H _ _ _ Hi). Qed.
(** A step that changes neither names nor counts. *)
Lemma safe_keep {A B} (f : ffs -> ffs * A) (k : A -> prog B) Q own pos :
  (forall eo D st, CI cmp (own ++ eo) D st -> CI cmp (own ++ eo) D (fst (f st)) /\ safe (k (snd (f st))) Q own pos) ->
  safe (bind (p_do f) k) Q own pos.
Proof. intros H eo ep lost st Hi Hr. destruct (H _ _ _ Hi) as [H1 H2]. exists own, pos, lost. split; [exact H1|]. split; [reflexivity|]. exact H2. Qed.

Lemma safe_parent {B} id p (k : unit -> prog B) Q own pos : safe (k tt) Q own pos -> safe (bind (p_set_parent id p) k) Q own pos.
Proof. intros H. apply safe_keep. intros eo D st Hi. split; [now apply CI_parent|exact H]. Qed.

Definition plain_err (e : err) : Prop := e = E_PERM \/ e = E_NOENT.
Lemma open_cases own D st id ty : CI cmp own D st ->
  match open_as id ty st with Ok h => h = (id, ty) /\ exists nd, get st id = Some nd | Err e => plain_err e end.
Proof.
  intros H. unfold open_as, plain_err. destruct (bytes_eqb id root_id) eqn:E.
  - apply bytes_eqb_eq in E. subst. destruct (ci_root _ _ _ _ H) as (n & Hn & _). destruct (ty =? TDIR)%N; [|now left]. split; [reflexivity|eauto].
  - destruct (get st id) eqn:Eg; [|now right]. destruct (_ || _)%bool; [|now left]. split; [reflexivity|eauto].
Qed.
Lemma safe_open {B} id ty (k : res holder -> prog B) Q own pos :
  (forall e, plain_err e -> safe (k (Err e)) Q own pos) -> (forall t, safe (k (Ok (id, ty))) Q (own ++ [(id, t)]) pos) ->
  safe (bind (p_open id ty) k) Q own pos.
Proof.
  intros He Ho. apply safe_do. intros eo ep lost st Hi Hr. pose proof (open_cases _ _ _ id ty Hi) as Hc.
  destruct (open_as id ty st) as [h|e]; cbn [fst snd].
  - destruct Hc as [-> (nd & Hg)]. exists (own ++ [(id, i_type nd)]), pos, lost. split; [|auto].
    eapply CI_ext; [exact (CI_hold cmp _ _ _ id nd Hi Hg)| |reflexivity]. rewrite <- app_assoc. apply Permutation_middle.
  - exists own, pos, lost. auto.
Qed.
Definition good_type (ty : N) : Prop := ty = TREG \/ ty = TDIR \/ ty = TLINK.
(** A file with a debt is there. *)
Lemma safe_open_debt {B} id ty (k : res holder -> prog B) Q own pos : In id pos -> good_type ty ->
  (id = root_id -> ty = TDIR) ->
  (forall t, safe (k (Ok (id, ty))) Q (own ++ [(id, t)]) pos) -> safe (bind (p_open id ty) k) Q own pos.
Proof.
  intros Hin Hty Hroot Ho. apply safe_do. intros eo ep lost st Hi Hr.
  assert (Hg : get st id <> None).
  { apply (ci_debt _ _ _ _ Hi). unfold debts. apply occ_in in Hin. rewrite occ_app. lia. }
  assert (E : open_as id ty st = Ok (id, ty)).
  { unfold open_as. destruct (bytes_eqb id root_id) eqn:E.
    - apply bytes_eqb_eq in E. rewrite (Hroot E). reflexivity.
    - destruct (get st id); [|congruence]. destruct Hty as [->|[->| ->]]; reflexivity. }
  rewrite E. cbn [fst snd]. destruct (get st id) as [nd|] eqn:Eg; [|congruence]. exists (own ++ [(id, i_type nd)]), pos, lost. split; [|auto].
  eapply CI_ext; [exact (CI_hold cmp _ _ _ id nd Hi Eg)| |reflexivity]. rewrite <- app_assoc. apply Permutation_middle.
Qed.
Lemma safe_drop {B} id t (k : unit -> prog B) Q own own' pos : Permutation own ((id, t) :: own') -> safe (k tt) Q own' pos -> safe (bind (p_drop id) k) Q own pos.
Proof.
  intros Hp H. apply safe_do. intros eo ep lost st Hi Hr. cbn [fst snd].
  destruct (CI_drop cmp _ (own' ++ eo) t _ _ id Hi) as (l & H1 & H2); [apply (Permutation_app_tail eo) in Hp; exact Hp|apply debts_nonneg|].
  exists own', pos, (l ++ lost). split.
  - eapply CI_ext; [exact H1|reflexivity|]. intros x. unfold debts. rewrite (occ_app x l lost). lia.
  - split; [|exact H]. intros Ht. now rewrite (H2 Ht).
Qed.
(** Leaving with [own] in some order of the given references. *)
Lemma safe_leave {A} (a : A) (Q : A -> list holder -> list bytes -> Prop) rest pos : Q a rest pos -> forall gone own,
  Permutation own (gone ++ rest) -> (gone = [] -> own = rest) -> safe (leave (map fst gone) a) Q own pos.
Proof.
  intros H. induction gone as [|[x t] gone IH]; intros own Hp Hn; cbn [map leave fst].
  - cbn. now rewrite Hn.
  - apply (safe_drop x t _ _ _ (gone ++ rest)); [exact Hp|]. apply IH; [reflexivity|]. now intros ->.
Qed.
Lemma safe_leave1 {A} x t (a : A) (Q : A -> list holder -> list bytes -> Prop) pos : Q a [] pos -> safe (leave [x] a) Q [(x, t)] pos.
Proof. intros H. apply (safe_leave a Q [] pos H [(x, t)]); [reflexivity|discriminate]. Qed.
Lemma safe_leave_1 {A} x t y u (a : A) (Q : A -> list holder -> list bytes -> Prop) pos : Q a [(y, u)] pos -> safe (leave [x] a) Q [(x, t); (y, u)] pos.
Proof. intros H. apply (safe_leave a Q [(y, u)] pos H [(x, t)]); [reflexivity|discriminate]. Qed.
Lemma safe_leave_2 {A} x t y u (a : A) (Q : A -> list holder -> list bytes -> Prop) pos : Q a [(y, u)] pos -> safe (leave [x] a) Q [(y, u); (x, t)] pos.
Proof. intros H. apply (safe_leave a Q [(y, u)] pos H [(x, t)]); [apply perm_swap|discriminate]. Qed.
Lemma safe_leave2 {A} x t y u (a : A) (Q : A -> list holder -> list bytes -> Prop) pos own : Q a [] pos -> Permutation own [(x, t); (y, u)] -> safe (leave [x; y] a) Q own pos.
Proof. intros H Hp. apply (safe_leave a Q [] pos H [(x, t); (y, u)]); [exact Hp|discriminate]. Qed.
Lemma safe_leave3 {A} x t y u z v (a : A) (Q : A -> list holder -> list bytes -> Prop) pos own : Q a [] pos -> Permutation own [(x, t); (y, u); (z, v)] -> safe (leave [x; y; z] a) Q own pos.
Proof. intros H Hp. apply (safe_leave a Q [] pos H [(x, t); (y, u); (z, v)]); [exact Hp|discriminate]. Qed.

(** ** Paths *)
(** What a walk leaves: a reference to what it found. *)
Definition Qwalk (r : res (option holder)) (own : list holder) (pos : list bytes) : Prop :=
  pos = [] /\ r <> Err EUndef /\ match r with Ok (Some h) => exists t, own = [(fst h, t)] | _ => own = [] end.
Lemma plain_undef e : plain_err e -> e <> EUndef.
Proof. intros [->| ->]; discriminate. Qed.
Lemma Qwalk_err e : e <> EUndef -> Qwalk (Err e) [] [].
Proof. intros H. split; [reflexivity|]. split; [congruence|reflexivity]. Qed.
Lemma Qwalk_none : Qwalk (Ok None) [] [].
Proof. split; [reflexivity|]. split; [discriminate|reflexivity]. Qed.
Lemma Qwalk_some h t : Qwalk (Ok (Some h)) [(fst h, t)] [].
Proof. split; [reflexivity|]. split; [discriminate|eauto]. Qed.
Lemma cast_defined own D st h want : CI cmp own D st -> In (fst h) (map fst own) -> cast_as want h st <> Err EUndef.
Proof.
  intros H Hi. pose proof (ci_there _ _ _ _ _ H Hi) as Hg. unfold cast_as. destruct (get st (fst h)); [|congruence].
  destruct (_ =? _)%N; [|discriminate]. destruct (_ =? _)%N; discriminate.
Qed.

Lemma safe_walk : forall k splits pid parent t, safe (c_open cmp k splits pid parent) Qwalk [(fst parent, t)] [].
Proof.
  induction k as [|k IHk].
  { intros splits pid parent t. destruct splits; cbn [c_open]; apply safe_leave1; now apply Qwalk_err. }
  induction splits as [|s ss IH]; intros pid parent t; cbn [c_open]; [apply Qwalk_some|].
  destruct (bytes_eqb s (str ".")); [apply IH|].
  destruct (bytes_eqb s (str "..")).
  - apply safe_ask. intros eo D st Hi. destruct (ci_have _ _ _ _ Hi (fst parent) t (or_introl eq_refl)) as (nd & -> & _).
    apply safe_open.
    + intros e He. apply safe_leave1. apply Qwalk_err. now apply plain_undef.
    + intros t'. cbn [app]. eapply safe_drop; [reflexivity|]. exact (IH (i_parent nd) (i_parent nd, TDIR) t').
  - apply safe_ask. intros eo D st Hi.
    pose proof (get_entry_cases cmp _ _ st parent s Hi (or_introl eq_refl) _ eq_refl) as Hc.
    destruct (get_entry cmp parent s st) as [[e|]|er].
    + apply safe_open.
      * intros er He. apply safe_leave1. apply Qwalk_err. now apply plain_undef.
      * intros t'. cbn [app]. apply safe_parent. destruct (e_type e =? TLINK)%N.
        -- apply safe_ask. intros eo' D' st' Hi'.
           pose proof (cast_defined _ _ _ (e_id e, e_type e) TLINK Hi' (or_intror (or_introl eq_refl))) as Hg.
           destruct (cast_as TLINK (e_id e, e_type e) st') as [nd|er]; cbn [rmap].
           ++ apply safe_bind. eapply safe_imp; [|apply (safe_frame _ Qwalk [(e_id e, t')] [(fst parent, t)] []); apply IHk].
              cbn beta. intros r o q (o1 & -> & -> & Hu & Ho). destruct r as [[h|]|er].
              ** destruct Ho as (t2 & ->). cbn [app]. eapply safe_drop; [apply perm_swap|]. apply IH.
              ** subst o1. cbn [app fst]. apply safe_leave1. apply Qwalk_none.
              ** subst o1. cbn [app fst]. apply safe_leave1. apply Qwalk_err. congruence.
           ++ cbn [fst]. eapply safe_leave2; [|apply perm_swap]. apply Qwalk_err. congruence.
        -- eapply safe_drop; [reflexivity|]. exact (IH (e_id e) (e_id e, e_type e) t').
    + apply safe_leave1. apply Qwalk_none.
    + apply safe_leave1. apply Qwalk_err. destruct Hc as [->| ->]; discriminate.
Qed.

Definition Qbase (r : res (holder * bytes)) (own : list holder) (pos : list bytes) : Prop :=
  pos = [] /\ r <> Err EUndef /\ match r with Ok (h, _) => exists t, own = [(fst h, t)] | _ => own = [] end.
Lemma safe_base path : safe (c_base cmp path) Qbase [] [].
Proof.
  unfold c_base. apply safe_open.
  - intros e He. split; [reflexivity|]. split; [|reflexivity]. intros [= ->]. now apply plain_undef in He.
  - intros t. cbn [app]. destruct (path_comps path) as [|s [|s' l]].
    + split; [reflexivity|]. split; [discriminate|now exists t].
    + split; [reflexivity|]. split; [discriminate|now exists t].
    + apply safe_bind. eapply safe_imp; [|exact (safe_walk 16 _ root_id (root_id, TDIR) t)].
      intros r o q (-> & Hu & Ho). destruct r as [[h|]|er].
      * split; [reflexivity|]. split; [discriminate|exact Ho].
      * split; [reflexivity|]. split; [discriminate|exact Ho].
      * split; [reflexivity|]. split; [congruence|exact Ho].
Qed.

Lemma safe_all path follow : safe (c_all cmp path follow) Qwalk [] [].
Proof.
  unfold c_all. destruct (_ || _).
  { apply safe_open.
    - intros e He. apply Qwalk_err. now apply plain_undef.
    - intros t. apply (Qwalk_some (root_id, TDIR)). }
  apply safe_bind. eapply safe_imp; [|exact (safe_base path)].
  intros r o q (-> & Hu & Ho). destruct r as [[base name]|er].
  2:{ subst o. apply Qwalk_err. congruence. }
  destruct Ho as (t & ->). apply safe_ask. intros eo D st Hi.
  pose proof (get_entry_cases cmp _ _ st base name Hi (or_introl eq_refl) _ eq_refl) as Hc.
  destruct (get_entry cmp base name st) as [[e|]|er].
  - apply safe_open.
    + intros er He. apply safe_leave1. apply Qwalk_err. now apply plain_undef.
    + intros t'. cbn [app]. apply safe_parent. cbn [fst snd]. destruct (follow && _).
      * apply safe_ask. intros eo' D' st' Hi'.
        pose proof (cast_defined _ _ _ (e_id e, e_type e) TLINK Hi' (or_intror (or_introl eq_refl))) as Hg.
        destruct (cast_as TLINK (e_id e, e_type e) st') as [nd|er]; cbn [rmap].
        -- apply safe_bind. eapply safe_imp; [|apply (safe_frame _ Qwalk [(e_id e, t')] [(fst base, t)] []); apply safe_walk].
           cbn beta. intros r o q (o1 & -> & -> & Hu' & Ho). cbn [fst].
           destruct r as [[h|]|er]; [destruct Ho as (t2 & ->)|subst o1|subst o1]; cbn [app].
           ++ apply safe_leave_2. apply Qwalk_some.
           ++ apply safe_leave1. apply Qwalk_none.
           ++ apply safe_leave1. apply Qwalk_err. congruence.
        -- cbn [fst]. eapply safe_leave2; [|apply perm_swap]. apply Qwalk_err. congruence.
      * apply safe_leave_1. exact (Qwalk_some (e_id e, e_type e) t').
  - apply safe_leave1. apply Qwalk_none.
  - apply safe_leave1. apply Qwalk_err. destruct Hc as [->| ->]; discriminate.
Qed.
End Safe.
