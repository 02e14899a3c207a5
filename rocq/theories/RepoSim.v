(** Every operation on a repository does, step for step, what FsConcModel says. *)
From Coq Require Import Strings.String Lia Permutation.
From Verif Require Import Base BaseLemmas TextModel NameModel StreamSpec AttrModel AttrProofs FullStreamModel BtreeModel BtreeSpec BtreeInsert FullFsModel FullFsSpec FullFsProofs FullFsPath FullFsInv FullFsStep
  ObjModel ObjProofs RepoModel RepoSpec FsConcModel FsConcProofs FsConcSafe RepoProofs.
Local Open Scope list_scope.

Lemma remove_one_perm id l : In id l -> Permutation l (id :: remove_one id l).
Proof.
  induction l as [|x l IH]; [intros []|]. intros Hi. cbn [remove_one]. destruct (bytes_eqb x id) eqn:E.
  - apply bytes_eqb_eq in E. now subst x.
  - destruct Hi as [->|Hi]; [rewrite bytes_eqb_refl in E; discriminate E|]. rewrite (IH Hi) at 1. apply perm_swap.
Qed.
Lemma drop_opened id st : opened (drop_ref id st) = remove_one id (opened st).
Proof.
  unfold drop_ref, finish. cbn [opened]. destruct (_ || _); [reflexivity|]. destruct (get _ id) as [nd|]; [|reflexivity]. destruct (i_nlink nd =? 0)%N; reflexivity.
Qed.
Lemma comps_nul p w : no_nul p -> In w (path_comps p) -> no_nul w.
Proof.
  unfold no_nul. intros Hp Hw. apply filter_In in Hw. destruct Hw as [Hw _]. revert p w Hp Hw. 
  assert (H : forall p w, In w (split_slash p) -> In x00 w -> In x00 p).
  { induction p as [|b p IH]; cbn [split_slash]; intros w Hw H0.
    - destruct Hw as [<-|[]]. destruct H0.
    - destruct (Byte.eqb b slash).
      + destruct Hw as [<-|Hw]; [destruct H0|]. right. now apply (IH w).
      + destruct (split_slash p) as [|w0 ws].
        * destruct Hw as [<-|[]]. destruct H0 as [->|[]]. now left.
        * destruct Hw as [<-|Hw].
          -- destruct H0 as [->|H0]; [now left|]. right. apply (IH w0); [now left|exact H0].
          -- right. apply (IH w); [now right|exact H0]. }
  intros p w Hp Hw H0. apply Hp. now apply (H p w).
Qed.
Lemma last_nul p : no_nul p -> no_nul (last (path_comps p) []).
Proof.
  intros H. assert (forall l : list bytes, (forall w, In w l -> no_nul w) -> no_nul (last l [])) as Hl.
  { induction l as [|w l IH]; intros Hw; [intros []|]. destruct l as [|w' l]; [apply Hw; now left|]. apply IH. intros x Hx. apply Hw. now right. }
  apply Hl. intros w Hw. now apply (comps_nul p).
Qed.

Section Sim.
Variable E : senv.
Hypothesis HE : senv_ok E.
Notation cmp := (v_cmp E).
Notation RR := (RR E).

(** [psim Q own p p']: holding the references [own], [p] does with the repository what
    [p'] does with the map, step for step. *)
Fixpoint psim {A B} (Q : list bytes -> A -> B -> Prop) (own : list bytes) (p : rprog A) (p' : prog B) {struct p} : Prop :=
  match p, p' with
  | RRet a, PRet b => exists o, Permutation own o /\ Q o a b
  | RStep u n, PStep u' n' => forall rp st rest, RR rp st -> Permutation (opened st) (own ++ rest) -> dirs_fit 2 st ->
      exists own', RR (u rp) (u' st) /\ Permutation (opened (u' st)) (own' ++ rest) /\ psim Q own' (n rp) (n' st)
  | _, _ => False
  end.

Lemma psim_imp {A B} (p : rprog A) : forall (Q Q' : list bytes -> A -> B -> Prop) own p', (forall o a b, Q o a b -> Q' o a b) -> psim Q own p p' -> psim Q' own p p'.
Proof.
  induction p as [a|u n IH]; intros Q Q' own [b|u' n'] HQ; cbn [psim]; try contradiction.
  - intros (o & Hp & Ho). exists o. auto.
  - intros H rp st rest H1 H2 H3. destruct (H rp st rest H1 H2 H3) as (o & A1 & A2 & A3). exists o. split; [exact A1|]. split; [exact A2|]. eapply IH; eassumption.
Qed.
Lemma psim_perm {A B} (p : rprog A) : forall (Q : list bytes -> A -> B -> Prop) own own' p', Permutation own own' -> psim Q own p p' -> psim Q own' p p'.
Proof.
  destruct p as [a|u n]; intros Q own own' [b|u' n'] Hp; cbn [psim]; try contradiction.
  - intros (o & Ho & HQ). exists o. split; [|exact HQ]. now rewrite <- Hp.
  - intros H rp st rest H1 H2 H3. apply H; [exact H1| |exact H3]. now rewrite H2, Hp.
Qed.
Lemma psim_bind {A B A' B'} (p : rprog A) (f : A -> rprog A') (f' : B -> prog B') : forall Q own p',
  psim (fun o a b => psim Q o (f a) (f' b)) own p p' -> psim Q own (rbnd p f) (bind p' f').
Proof.
  induction p as [a|u n IH]; intros Q own [b|u' n']; cbn [psim rbnd bind]; try contradiction.
  - intros (o & Hp & H). apply Permutation_sym in Hp. now apply (psim_perm _ _ _ _ _ Hp).
  - intros H rp st rest H1 H2 H3. destruct (H rp st rest H1 H2 H3) as (o & A1 & A2 & A3). exists o. split; [exact A1|]. split; [exact A2|]. now apply IH.
Qed.
Lemma psim_frame {A B} (p : rprog A) fo : forall (Q : list bytes -> A -> B -> Prop) own p', psim Q own p p' ->
  psim (fun o a b => exists o1, o = o1 ++ fo /\ Q o1 a b) (own ++ fo) p p'.
Proof.
  induction p as [a|u n IH]; intros Q own [b|u' n']; cbn [psim]; try contradiction.
  - intros (o & Hp & H). exists (o ++ fo). split; [now apply Permutation_app_tail|]. eauto.
  - intros H rp st rest H1 H2 H3. rewrite <- app_assoc in H2. destruct (H rp st (fo ++ rest) H1 H2 H3) as (o & A1 & A2 & A3). exists (o ++ fo).
    split; [exact A1|]. split; [now rewrite <- app_assoc|]. now apply IH.
Qed.

Lemma held_in own rest st x : Permutation (opened st) (own ++ rest) -> In x own -> In x (opened st).
Proof. intros Hp Hx. apply Permutation_sym in Hp. apply (Permutation_in _ Hp). apply in_or_app. now left. Qed.

(** A step that keeps the references. *)
Lemma psim_use {A B A' B'} (f : repo -> repo * A) (g : ffs -> ffs * B) (k : A -> rprog A') (k' : B -> prog B') Q own :
  (forall rp st, RR rp st -> (forall x, In x own -> In x (opened st)) -> dirs_fit 2 st ->
     RR (fst (f rp)) (fst (g st)) /\ opened (fst (g st)) = opened st /\ psim Q own (k (snd (f rp))) (k' (snd (g st)))) ->
  psim Q own (rbnd (r_do f) k) (bind (p_do g) k').
Proof.
  intros H. cbn [r_do p_do rbnd bind psim]. intros rp st rest H1 H2 H3.
  destruct (H rp st H1 (fun x => held_in own rest st x H2) H3) as (A1 & A2 & A3). exists own. split; [exact A1|]. split; [now rewrite A2|exact A3].
Qed.
Lemma psim_do {A B A' B'} (f : repo -> repo * A) (g : ffs -> ffs * B) (k : A -> rprog A') (k' : B -> prog B') Q own :
  (forall rp st rest, RR rp st -> Permutation (opened st) (own ++ rest) -> dirs_fit 2 st ->
     exists own', RR (fst (f rp)) (fst (g st)) /\ Permutation (opened (fst (g st))) (own' ++ rest) /\ psim Q own' (k (snd (f rp))) (k' (snd (g st)))) ->
  psim Q own (rbnd (r_do f) k) (bind (p_do g) k').
Proof. intros H. exact H. Qed.
(** A look. *)
Lemma psim_look {A A' B'} (f : repo -> repo * A) (g : ffs -> A) (k : A -> rprog A') (k' : A -> prog B') Q own :
  (forall rp st, RR rp st -> (forall x, In x own -> In x (opened st)) -> dirs_fit 2 st ->
     RR (fst (f rp)) st /\ snd (f rp) = g st /\ psim Q own (k (g st)) (k' (g st))) ->
  psim Q own (rbnd (r_do f) k) (bind (p_ask g) k').
Proof.
  intros H. apply psim_use. intros rp st H1 H2 H3. destruct (H rp st H1 H2 H3) as (A1 & A2 & A3). cbn [fst snd]. rewrite A2. auto.
Qed.

Lemma psim_open {A' B'} id ty (k : res holder -> rprog A') (k' : res holder -> prog B') Q own : good_type ty ->
  (forall e, psim Q own (k (Err e)) (k' (Err e))) -> psim Q (id :: own) (k (Ok (id, ty))) (k' (Ok (id, ty))) ->
  psim Q own (rbnd (q_open E id ty) k) (bind (p_open id ty) k').
Proof.
  intros Hty He Ho. unfold q_open, p_open. cbn [r_do p_do rbnd bind psim]. intros rp st rest H1 H2 H3.
  destruct (sim_open E id ty rp st H1 Hty) as (rp' & E1 & E2). rewrite E1. cbn [fst snd]. destruct (open_as id ty st) as [h|e]; cbn [fst snd].
  - destruct E2 as [-> E2]. exists (id :: own). split; [exact E2|]. split; [|exact Ho]. cbn [opened hold app]. now constructor.
  - exists own. auto.
Qed.
Lemma psim_drop {A' B'} id (k : unit -> rprog A') (k' : unit -> prog B') Q own own' : Permutation own (id :: own') ->
  psim Q own' (k tt) (k' tt) -> psim Q own (rbnd (q_drop E id) k) (bind (p_drop id) k').
Proof.
  intros Hp Hk. unfold q_drop, p_drop. cbn [r_do p_do rbnd bind psim]. intros rp st rest H1 H2 H3.
  assert (Hi : In id (opened st)). { apply (held_in own rest st id H2). apply Permutation_sym in Hp. apply (Permutation_in _ Hp). now left. }
  exists own'. cbn [fst snd]. split; [now apply sim_drop|]. split; [|exact Hk]. rewrite drop_opened. apply (Permutation_cons_inv (a := id)).
  rewrite <- (remove_one_perm id _ Hi), H2, Hp. reflexivity.
Qed.
Lemma psim_leave {A B} (a : A) (b : B) (Q : list bytes -> A -> B -> Prop) rest : Q rest a b -> forall ids own, Permutation own (ids ++ rest) -> psim Q own (r_leave E ids a) (leave ids b).
Proof.
  intros HQ. induction ids as [|x ids IH]; intros own Hp; cbn [r_leave leave].
  - cbn [psim]. exists rest. auto.
  - apply (psim_drop x _ _ _ _ (ids ++ rest)); [exact Hp|]. now apply IH.
Qed.
Lemma psim_leave1 {A B} x (a : A) (b : B) (Q : list bytes -> A -> B -> Prop) : Q [] a b -> psim Q [x] (r_leave E [x] a) (leave [x] b).
Proof. intros H. now apply (psim_leave a b Q [] H). Qed.
Lemma psim_parent {A' B'} id p (k : unit -> rprog A') (k' : unit -> prog B') Q own : In id own ->
  psim Q own (k tt) (k' tt) -> psim Q own (rbnd (q_set_parent id p) k) (bind (p_set_parent id p) k').
Proof.
  intros Hi Hk. apply psim_use. intros rp st H1 H2 H3. cbn [fst snd]. split; [apply sim_set_parent; auto|]. split; [|exact Hk].
  unfold FullFsModel.set_parent. destruct (get st id); reflexivity.
Qed.
Lemma psim_get {A' B'} h name (k : res (option entry) -> rprog A') (k' : res (option entry) -> prog B') Q own : In (fst h) own ->
  (forall r, (forall e, r = Ok (Some e) -> good_type (e_type e) /\ length (e_id e) = 32) -> psim Q own (k r) (k' r)) ->
  psim Q own (rbnd (r_do (t_get E h name)) k) (bind (p_ask (get_entry cmp h name)) k').
Proof.
  intros Hi Hk. apply psim_look. intros rp st H1 H2 H3. destruct (sim_get E HE h name rp st H1) as (rp' & E1 & HR); [apply (small_le 2); [lia|exact H3]|auto|].
  rewrite E1. cbn [fst snd]. split; [exact HR|]. split; [reflexivity|]. apply Hk. intros e He. apply (get_good E h name rp st e H1); auto.
Qed.
(** What the holder of an object does with it. *)
Lemma sim_target h rp st : RR rp st -> In (fst h) (opened st) ->
  RR (fst (t_target E h rp)) st /\ snd (t_target E h rp) = rmap i_data (cast_as TLINK h st).
Proof.
  intros H Hi. destruct (get st (fst h)) as [nd|] eqn:Eg; [|now elim (rr_open _ _ _ H _ Hi)].
  destruct (RR_look E HE (fst h) (as_class TLINK (snd h) (fun now => fo_link_get E (fst h) now)) (fun r => r = rmap i_data (cast_as TLINK h st)) rp st nd H Hi Eg) as (rp' & r & E1 & HR & Hr).
  - intros now o Hn Ho. rewrite (as_class_ok E TLINK h _ (fst h) nd now o Ho), (cast_cases TLINK h st nd Eg).
    destruct ((snd h =? i_type nd)%N && (snd h =? TLINK)%N) eqn:Ec; [|do 2 eexists; split; [reflexivity|]; split; [exact Ho|reflexivity]].
    apply andb_prop in Ec. destruct Ec as [E1 E2]. apply N.eqb_eq in E1. apply N.eqb_eq in E2.
    destruct (ORep_link_get E HE (fst h) o nd now Ho Hn) as (o' & E3 & Ho'); [rewrite <- E1, E2; discriminate|]. eauto.
  - unfold t_target. rewrite E1. auto.
Qed.
Lemma psim_target {A' B'} h (k : res bytes -> rprog A') (k' : res bytes -> prog B') Q own : In (fst h) own ->
  (forall r, psim Q own (k r) (k' r)) ->
  psim Q own (rbnd (r_do (t_target E h)) k) (bind (p_ask (fun st => rmap i_data (cast_as TLINK h st))) k').
Proof.
  intros Hi Hk. apply psim_look. intros rp st H1 H2 H3. destruct (sim_target h rp st H1 (H2 _ Hi)) as [A1 A2]. auto.
Qed.

(** ** Paths *)
Definition Qw (o : list bytes) (r r' : res (option holder)) : Prop := r = r' /\ match r with Ok (Some h) => o = [fst h] | _ => o = [] end.
Lemma sim_walk : forall k splits pid parent, psim Qw [fst parent] (r_open E k splits pid parent) (c_open cmp k splits pid parent).
Proof.
  induction k as [|k IHk].
  { intros splits pid parent. destruct splits; cbn [r_open c_open]; apply psim_leave1; split; reflexivity. }
  induction splits as [|s ss IH]; intros pid parent; cbn [r_open c_open].
  { cbn [psim]. exists [fst parent]. split; [reflexivity|]. split; reflexivity. }
  destruct (bytes_eqb s (str ".")); [apply IH|].
  destruct (bytes_eqb s (str "..")).
  - apply psim_look. intros rp st H1 H2 H3. cbn [fst snd]. split; [exact H1|].
    assert (Hi : In (fst parent) (opened st)) by (apply H2; now left). destruct (get st (fst parent)) as [nd|] eqn:Eg; [|now elim (rr_open _ _ _ H1 _ Hi)].
    split; [exact (sim_parent E _ _ _ _ H1 Hi Eg)|]. clear H1 H2 H3 Hi Eg. apply psim_open; [right; now left| |].
    + intros e. apply psim_leave1. split; reflexivity.
    + eapply psim_drop; [apply perm_swap|]. exact (IH (i_parent nd) (i_parent nd, TDIR)).
  - apply psim_get; [now left|]. intros r Hr. destruct r as [[e|]|er].
    + destruct (Hr e eq_refl) as [Hty Hid]. apply psim_open; [exact Hty| |].
      * intros er. apply psim_leave1. split; reflexivity.
      * cbn [fst]. apply psim_parent; [now left|]. destruct (e_type e =? TLINK)%N.
        -- apply psim_target; [now left|]. intros [t|er]; cbn [fst].
           ++ apply psim_bind. eapply psim_perm; [apply perm_swap|]. eapply psim_imp; [|apply (psim_frame _ [e_id e] Qw [fst parent]); apply IHk].
              cbn beta. intros o r r' (o1 & -> & <- & Ho). destruct r as [[h|]|er]; subst o1; cbn [app].
              ** eapply psim_drop; [apply perm_swap|]. apply IH.
              ** apply psim_leave1. split; reflexivity.
              ** apply psim_leave1. split; reflexivity.
           ++ apply (psim_leave _ _ Qw []); [split; reflexivity|reflexivity].
        -- eapply psim_drop; [apply perm_swap|]. exact (IH (e_id e) (e_id e, e_type e)).
    + apply psim_leave1. split; reflexivity.
    + apply psim_leave1. split; reflexivity.
Qed.

Definition Qb (path : bytes) (o : list bytes) (r r' : res (holder * bytes)) : Prop :=
  r = r' /\ match r with Ok (h, name) => o = [fst h] /\ name = last (path_comps path) [] | _ => o = [] end.
Lemma sim_base path : psim (Qb path) [] (r_base E path) (c_base cmp path).
Proof.
  unfold r_base, c_base. apply psim_open; [right; now left| |].
  - intros e. cbn [psim]. exists []. split; [reflexivity|]. split; reflexivity.
  - destruct (path_comps path) as [|s [|s' l]] eqn:Ec.
    + exists [root_id]. split; [reflexivity|]. split; [reflexivity|]. now rewrite Ec.
    + exists [root_id]. split; [reflexivity|]. split; [reflexivity|]. now rewrite Ec.
    + rewrite <- Ec. apply psim_bind. eapply psim_imp; [|exact (sim_walk 16 _ root_id (root_id, TDIR))].
      intros o r r' [<- Ho]. destruct r as [[h|]|er]; subst o; cbn [psim].
      * exists [fst h]. split; [reflexivity|]. split; [reflexivity|]. split; reflexivity.
      * exists []. split; [reflexivity|]. split; reflexivity.
      * exists []. split; [reflexivity|]. split; reflexivity.
Qed.
Lemma sim_all path follow : psim Qw [] (r_all E path follow) (c_all cmp path follow).
Proof.
  unfold r_all, c_all. destruct (_ || _).
  { apply psim_open; [right; now left| |].
    - intros e. exists []. split; [reflexivity|]. split; reflexivity.
    - exists [root_id]. split; [reflexivity|]. split; reflexivity. }
  apply psim_bind. eapply psim_imp; [|exact (sim_base path)].
  intros o r r' [<- Ho]. destruct r as [[base name]|er].
  2:{ subst o. exists []. split; [reflexivity|]. split; reflexivity. }
  destruct Ho as [-> _]. apply psim_get; [now left|]. intros r Hr. destruct r as [[e|]|er].
  - destruct (Hr e eq_refl) as [Hty Hid]. apply psim_open; [exact Hty| |].
    + intros er. apply psim_leave1. split; reflexivity.
    + cbn [fst snd]. apply psim_parent; [now left|]. destruct (follow && _).
      * apply psim_target; [now left|]. intros [t|er]; cbn [fst].
        -- apply psim_bind. eapply psim_perm; [apply perm_swap|]. eapply psim_imp; [|apply (psim_frame _ [e_id e] Qw [fst base]); apply sim_walk].
           cbn beta. intros o r r' (o1 & -> & <- & Ho). apply (psim_leave _ _ Qw o1); [now split|]. apply (Permutation_app_comm o1 [e_id e]).
        -- apply (psim_leave _ _ Qw []); [split; reflexivity|reflexivity].
      * apply (psim_leave _ _ Qw [e_id e]); [split; reflexivity|]. apply perm_swap.
  - apply psim_leave1. split; reflexivity.
  - apply psim_leave1. split; reflexivity.
Qed.
End Sim.
