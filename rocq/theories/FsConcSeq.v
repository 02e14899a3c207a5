(** An operation that nothing interrupts does what the sequential model says. *)
From Coq Require Import Strings.String Lia ZArith Permutation.
From Verif Require Import Base BaseLemmas TextModel NameModel BtreeModel BtreeSpec FullFsModel FullFsSpec FullFsProofs FullFsPath FullFsInv FsConcModel FsConcSpec FsConcProofs.
Local Open Scope list_scope.

Section Seq.
Variable cmp : bytes -> bytes -> comparison.

Definition steady (ns : list (bytes * inode)) (own : list bytes) : Prop :=
  forall id nd, nget id ns = Some nd -> i_nlink nd = 0%N -> id = root_id \/ In id own.
Definition same_links (ns ns' : list (bytes * inode)) : Prop :=
  forall id nd', nget id ns' = Some nd' -> exists nd, nget id ns = Some nd /\ i_nlink nd = i_nlink nd'.
Lemma sl_refl ns : same_links ns ns.
Proof. intros id nd H. eauto. Qed.
Lemma sl_trans a b c : same_links a b -> same_links b c -> same_links a c.
Proof. intros H1 H2 id nd H. destruct (H2 _ _ H) as (n & Hn & E). destruct (H1 _ _ Hn) as (m & Hm & E'). exists m. split; congruence. Qed.
Lemma sl_put ns d nd nd' : nget d ns = Some nd -> i_nlink nd' = i_nlink nd -> same_links ns (nput d nd' ns).
Proof.
  intros Hg Hn id n H. destruct (list_eq_dec Byte.byte_eq_dec d id) as [<-|Hne].
  - rewrite nget_put_eq in H. injection H as <-. eauto.
  - rewrite nget_put_ne in H by exact Hne. eauto.
Qed.
Lemma steady_sl ns ns' own : steady ns own -> same_links ns ns' -> steady ns' own.
Proof. intros H Hs id nd Hg Hn. destruct (Hs _ _ Hg) as (n & Hg' & E). apply (H id n Hg'). congruence. Qed.
Lemma steady_more ns own own' : steady ns own -> incl own own' -> steady ns own'.
Proof. intros H Hi id nd Hg Hn. destruct (H id nd Hg Hn) as [E|E]; auto. Qed.

Lemma alone_bind {A B} (p : prog A) (f : A -> prog B) : forall st, alone (bind p f) st = alone (f (snd (alone p st))) (fst (alone p st)).
Proof. induction p as [a|upd next IH]; intros st; cbn [bind alone]; [reflexivity|]. apply IH. Qed.
Lemma alone_do {A} (f : ffs -> ffs * A) st : alone (p_do f) st = f st.
Proof. unfold p_do. cbn [alone]. now destruct (f st). Qed.
Lemma alone_ask {A} (f : ffs -> A) st : alone (p_ask f) st = (st, f st).
Proof. reflexivity. Qed.

(** Giving up a reference to a file that is not at its end. *)
Lemma drop_steady x ns op own : Permutation op (x :: own) -> steady ns own ->
  exists op', drop_ref x (mkFfs ns op) = mkFfs ns op' /\ Permutation op' own.
Proof.
  intros Hp Hs. exists (remove_one x op). assert (Hp' : Permutation (remove_one x op) own).
  { rewrite (perm_remove_one x _ _ Hp). cbn [remove_one]. now rewrite bytes_eqb_refl. }
  split; [|exact Hp']. unfold drop_ref, finish. cbn [nodes opened].
  destruct (bytes_eqb x root_id || existsb (bytes_eqb x) (remove_one x op)) eqn:E; [reflexivity|]. unfold get. cbn [nodes].
  apply Bool.orb_false_iff in E. destruct E as [E1 E2]. apply bytes_eqb_neq in E1.
  destruct (nget x ns) as [nd|] eqn:Eg; [|reflexivity]. destruct (i_nlink nd =? 0)%N eqn:En; [|reflexivity]. apply N.eqb_eq in En.
  destruct (Hs _ _ Eg En) as [E|E]; [contradiction|]. apply (Permutation_in _ (Permutation_sym Hp')) in E. apply existsb_in in E. congruence.
Qed.
Lemma leave_steady {A} (a : A) : forall ids ns op own, Permutation op (ids ++ own) -> steady ns own ->
  exists op', alone (leave ids a) (mkFfs ns op) = (mkFfs ns op', a) /\ Permutation op' own.
Proof.
  induction ids as [|x ids IH]; intros ns op own Hp Hs; cbn [leave].
  - exists op. split; [reflexivity|exact Hp].
  - rewrite alone_bind. unfold p_drop. rewrite alone_do. cbn [fst snd].
    destruct (drop_steady x ns op (ids ++ own) Hp) as (op1 & -> & H1); [apply (steady_more _ own); [exact Hs|apply incl_appr, incl_refl]|].
    now apply IH.
Qed.

(** Functions that do not look at the references. *)
Definition blind {A} (f : ffs -> ffs * A) : Prop := forall ns o o', exists ns' a,
  f (mkFfs ns o) = (mkFfs ns' o, a) /\ f (mkFfs ns o') = (mkFfs ns' o', a) /\ same_links ns ns'.
Lemma get_entry_blind h n ns o o' : get_entry cmp h n (mkFfs ns o) = get_entry cmp h n (mkFfs ns o').
Proof. reflexivity. Qed.
Lemma blind_ret {A} (a : A) : blind (fun st => (st, a)).
Proof. intros ns o o'. exists ns, a. split; [reflexivity|]. split; [reflexivity|apply sl_refl]. Qed.
Lemma blind_put {A} d nd nd' ns o (a : A) : nget d ns = Some nd -> i_nlink nd' = i_nlink nd -> exists ns',
  put (mkFfs ns o) d nd' = mkFfs ns' o /\ same_links ns ns'.
Proof. intros Hg Hn. exists (nput d nd' ns). split; [reflexivity|]. now apply (sl_put ns d nd). Qed.
Lemma add_blind h n x ty : blind (add_entry cmp h n x ty).
Proof.
  intros ns o o'. unfold add_entry, cast_as. change (get (mkFfs ns o) (fst h)) with (nget (fst h) ns). change (get (mkFfs ns o') (fst h)) with (nget (fst h) ns).
  destruct (nget (fst h) ns) as [nd|] eqn:Eg; [|now apply (blind_ret _ ns o o')].
  destruct (_ =? _)%N; [|now apply (blind_ret _ ns o o')]. destruct (_ =? _)%N; [|now apply (blind_ret _ ns o o')].
  cbn [dspec_step]. destruct (name_too_long n); [now apply (blind_ret _ ns o o')|].
  destruct (find_name cmp n (i_dir nd)); do 2 eexists; (split; [reflexivity|]); (split; [reflexivity|]); now apply (sl_put ns _ nd).
Qed.
Lemma remove_blind h n : blind (remove_entry cmp h n).
Proof.
  intros ns o o'. unfold remove_entry, cast_as. change (get (mkFfs ns o) (fst h)) with (nget (fst h) ns). change (get (mkFfs ns o') (fst h)) with (nget (fst h) ns).
  destruct (nget (fst h) ns) as [nd|] eqn:Eg; [|now apply (blind_ret _ ns o o')].
  destruct (_ =? _)%N; [|now apply (blind_ret _ ns o o')]. destruct (_ =? _)%N; [|now apply (blind_ret _ ns o o')].
  cbn [dspec_step]. destruct (name_too_long n); [now apply (blind_ret _ ns o o')|].
  do 2 eexists. split; [reflexivity|]. split; [reflexivity|]. now apply (sl_put ns _ nd).
Qed.
Lemma set_parent_blind x p ns o o' : exists ns', set_parent x p (mkFfs ns o) = mkFfs ns' o /\ set_parent x p (mkFfs ns o') = mkFfs ns' o' /\ same_links ns ns'.
Proof.
  unfold set_parent. change (get (mkFfs ns o) x) with (nget x ns). change (get (mkFfs ns o') x) with (nget x ns).
  destruct (nget x ns) as [nd|] eqn:Eg; [|exists ns; split; [reflexivity|]; split; [reflexivity|apply sl_refl]].
  exists (nput x (with_parent p nd) ns). split; [reflexivity|]. split; [reflexivity|]. now apply (sl_put ns _ nd).
Qed.

Definition held (r : res (option holder)) (own : list bytes) : list bytes :=
  match r with Ok (Some h) => fst h :: own | _ => own end.
Definition agrees {A} (seq : ffs -> ffs * A) (p : prog A) (before : list bytes) (after : A -> list bytes -> list bytes) : Prop :=
  forall ns o own op, steady ns own -> Permutation op (before ++ own) ->
  exists ns' r op', seq (mkFfs ns o) = (mkFfs ns' o, r) /\ alone p (mkFfs ns op) = (mkFfs ns' op', r) /\ Permutation op' (after r own) /\ same_links ns ns'.
Lemma agrees_leave {A} (a : A) ids after : (forall own, after a own = own) -> agrees (fun st => (st, a)) (leave ids a) ids after.
Proof.
  intros Ha ns o own op Hs Hp. destruct (leave_steady a ids ns op own Hp Hs) as (op' & E & H).
  exists ns, a, op'. split; [reflexivity|]. split; [exact E|]. rewrite Ha. split; [exact H|apply sl_refl].
Qed.
Lemma open_blind id ty ns o o' : open_as id ty (mkFfs ns o) = open_as id ty (mkFfs ns o').
Proof. reflexivity. Qed.
Lemma open_holds id ty ns o h : open_as id ty (mkFfs ns o) = Ok h -> h = (id, ty).
Proof.
  unfold open_as. destruct (bytes_eqb id root_id); [destruct (_ =? _)%N; congruence|]. destruct (get _ id); [|discriminate]. destruct (_ || _)%bool; congruence.
Qed.
(** The first step of [p_open]. *)
Lemma alone_open {B} id ty (k : res holder -> prog B) ns op : alone (bind (p_open id ty) k) (mkFfs ns op) =
  match open_as id ty (mkFfs ns op) with Ok h => alone (k (Ok h)) (mkFfs ns (id :: op)) | Err e => alone (k (Err e)) (mkFfs ns op) end.
Proof. rewrite alone_bind. unfold p_open. rewrite alone_do. destruct (open_as id ty (mkFfs ns op)); reflexivity. Qed.
Lemma alone_drop {B} x (k : unit -> prog B) st : alone (bind (p_drop x) k) st = alone (k tt) (drop_ref x st).
Proof. rewrite alone_bind. unfold p_drop. now rewrite alone_do. Qed.
Lemma alone_set {B} x p (k : unit -> prog B) st : alone (bind (p_set_parent x p) k) st = alone (k tt) (set_parent x p st).
Proof. rewrite alone_bind. unfold p_set_parent. now rewrite alone_do. Qed.
Lemma alone_asks {A B} (f : ffs -> A) (k : A -> prog B) st : alone (bind (p_ask f) k) st = alone (k (f st)) st.
Proof. now rewrite alone_bind. Qed.
Lemma alone_dos {A B} (f : ffs -> ffs * A) (k : A -> prog B) st : alone (bind (p_do f) k) st = alone (k (snd (f st))) (fst (f st)).
Proof. now rewrite alone_bind, alone_do. Qed.

Lemma after_sl {A} ns ns1 (seq : ffs -> ffs * A) p before after o own op : same_links ns ns1 -> agrees seq p before after -> steady ns own ->
  Permutation op (before ++ own) ->
  exists ns' r op', seq (mkFfs ns1 o) = (mkFfs ns' o, r) /\ alone p (mkFfs ns1 op) = (mkFfs ns' op', r) /\ Permutation op' (after r own) /\ same_links ns ns'.
Proof.
  intros Hl H Hs Hp. destruct (H ns1 o own op (steady_sl _ _ _ Hs Hl) Hp) as (ns' & r & op' & E1 & E2 & P & L).
  exists ns', r, op'. split; [exact E1|]. split; [exact E2|]. split; [exact P|]. exact (sl_trans _ _ _ Hl L).
Qed.

Lemma walk_agrees : forall k splits pid parent, agrees (generic_open cmp k splits pid parent) (c_open cmp k splits pid parent) [fst parent] held.
Proof.
  induction k as [|k IHk].
  { intros splits pid parent. destruct splits; cbn [c_open generic_open]; now apply agrees_leave. }
  induction splits as [|s ss IH]; intros pid parent ns o own op Hs Hp; cbn [c_open generic_open].
  { exists ns, (Ok (Some parent)), op. split; [reflexivity|]. split; [reflexivity|]. split; [exact Hp|apply sl_refl]. }
  destruct (bytes_eqb s (str ".")); [now apply IH|].
  assert (Hfail : forall (r : res (option holder)), (forall l, held r l = l) -> exists ns' r' op', (mkFfs ns o, r) = (mkFfs ns' o, r') /\
    alone (leave [fst parent] r) (mkFfs ns op) = (mkFfs ns' op', r') /\ Permutation op' (held r' own) /\ same_links ns ns').
  { intros r Hr. exact (agrees_leave r [fst parent] held (Hr) ns o own op Hs Hp). }
  destruct (bytes_eqb s (str "..")).
  - rewrite alone_asks. change (get (mkFfs ns o) (fst parent)) with (nget (fst parent) ns). change (get (mkFfs ns op) (fst parent)) with (nget (fst parent) ns).
    destruct (nget (fst parent) ns) as [nd|] eqn:Eg; [|now apply Hfail].
    rewrite alone_open, (open_blind _ _ ns op o). destruct (open_as (i_parent nd) TDIR (mkFfs ns o)) as [h|e] eqn:Eo; [|now apply Hfail].
    apply open_holds in Eo. subst h. rewrite alone_drop.
    destruct (drop_steady (fst parent) ns (i_parent nd :: op) (i_parent nd :: own)) as (op1 & -> & P1).
    { rewrite Hp. cbn [app]. apply perm_swap. } { apply (steady_more _ own); [exact Hs|apply incl_tl, incl_refl]. }
    now apply IH.
  - rewrite alone_asks, (get_entry_blind _ _ ns op o). destruct (get_entry cmp parent s (mkFfs ns o)) as [[e|]|er]; [|now apply Hfail|now apply Hfail].
    rewrite alone_open, (open_blind _ _ ns op o). destruct (open_as (e_id e) (e_type e) (mkFfs ns o)) as [h|er] eqn:Eo; [|now apply Hfail].
    apply open_holds in Eo. subst h. rewrite alone_set. cbn [fst].
    destruct (set_parent_blind (e_id e) pid ns o (e_id e :: op)) as (ns1 & -> & -> & L1).
    assert (Hs1 : steady ns1 own) by exact (steady_sl _ _ _ Hs L1).
    destruct (e_type e =? TLINK)%N.
    + rewrite alone_asks. change (cast_as TLINK (e_id e, e_type e) (mkFfs ns1 (e_id e :: op))) with (cast_as TLINK (e_id e, e_type e) (mkFfs ns1 o)).
      destruct (cast_as TLINK (e_id e, e_type e) (mkFfs ns1 o)) as [nd|er]; cbn [rmap].
      * rewrite alone_bind.
        destruct (IHk (path_comps (i_data nd)) pid parent ns1 o (e_id e :: own) (e_id e :: op)) as (ns2 & r & op2 & E1 & E2 & P2 & L2).
        { apply (steady_more _ own); [exact Hs1|apply incl_tl, incl_refl]. } { rewrite Hp. cbn [app]. apply perm_swap. }
        rewrite E1, E2. cbn [fst snd]. assert (L : same_links ns ns2) by exact (sl_trans _ _ _ L1 L2).
        destruct r as [[h|]|er]; cbn [held] in P2.
        -- rewrite alone_drop. destruct (drop_steady (e_id e) ns2 op2 (fst h :: own)) as (op3 & -> & P3).
           { rewrite P2. apply perm_swap. } { apply (steady_more _ own); [exact (steady_sl _ _ _ Hs L)|apply incl_tl, incl_refl]. }
           now apply (after_sl ns ns2 _ _ _ _ o own op3 L (IH (fst h) h)).
        -- now apply (after_sl ns ns2 (fun st => (st, Ok None)) _ [e_id e] held o own op2 L (agrees_leave _ _ _ (fun _ => eq_refl))).
        -- now apply (after_sl ns ns2 (fun st => (st, Err er)) _ [e_id e] held o own op2 L (agrees_leave _ _ _ (fun _ => eq_refl))).
      * apply (after_sl ns ns1 (fun st => (st, Err er)) _ [e_id e; fst parent] held o own _ L1 (agrees_leave _ _ _ (fun _ => eq_refl))); [exact Hs|].
        rewrite Hp. reflexivity.
    + rewrite alone_drop. destruct (drop_steady (fst parent) ns1 (e_id e :: op) (e_id e :: own)) as (op1 & -> & P1).
      { rewrite Hp. cbn [app]. apply perm_swap. } { apply (steady_more _ own); [exact Hs1|apply incl_tl, incl_refl]. }
      exact (after_sl ns ns1 _ _ _ _ o own op1 L1 (IH (e_id e) (e_id e, e_type e)) Hs P1).
Qed.

Definition heldb (r : res (holder * bytes)) (own : list bytes) : list bytes :=
  match r with Ok (h, _) => fst h :: own | _ => own end.
Lemma base_agrees path : agrees (open_base cmp path) (c_base cmp path) [] heldb.
Proof.
  intros ns o own op Hs Hp. unfold c_base, open_base. rewrite alone_open.
  assert (E : open_as root_id TDIR (mkFfs ns op) = Ok (root_id, TDIR)) by reflexivity. rewrite E. clear E. cbn [app] in Hp.
  destruct (path_comps path) as [|s [|s' l]].
  - exists ns, (Ok (root_holder, [])), (root_id :: op). split; [reflexivity|]. split; [reflexivity|]. split; [cbn; now constructor|apply sl_refl].
  - exists ns, (Ok (root_holder, s)), (root_id :: op). split; [reflexivity|]. split; [reflexivity|]. split; [cbn; now constructor|apply sl_refl].
  - rewrite alone_bind.
    destruct (walk_agrees 16 (removelast (s :: s' :: l)) root_id (root_id, TDIR) ns o own (root_id :: op) Hs ltac:(cbn; now constructor)) as (ns1 & r & op1 & E1 & E2 & P & L).
    rewrite E2. unfold root_holder. rewrite E1. cbn [fst snd]. destruct r as [[h|]|e]; do 3 eexists; (split; [reflexivity|]); (split; [reflexivity|]); (split; [exact P|exact L]).
Qed.
Lemma all_agrees path follow : agrees (open_all cmp path follow) (c_all cmp path follow) [] held.
Proof.
  intros ns o own op Hs Hp. unfold c_all, open_all. cbn [app] in Hp. destruct (_ || _).
  { rewrite alone_open. assert (E : open_as root_id TDIR (mkFfs ns op) = Ok (root_id, TDIR)) by reflexivity. rewrite E. clear E.
    exists ns, (Ok (Some root_holder)), (root_id :: op). split; [reflexivity|]. split; [reflexivity|]. split; [cbn; now constructor|apply sl_refl]. }
  rewrite alone_bind. destruct (base_agrees path ns o own op Hs Hp) as (ns1 & b & op1 & E1 & E2 & P1 & L1). rewrite E1, E2. cbn [fst snd].
  destruct b as [[base name]|er].
  2:{ exists ns1, (Err er), op1. split; [reflexivity|]. split; [reflexivity|]. split; [exact P1|exact L1]. }
  cbn [heldb] in P1. assert (Hs1 : steady ns1 own) by exact (steady_sl _ _ _ Hs L1).
  assert (Hfail : forall (r : res (option holder)), (forall l, held r l = l) -> exists ns' r' op', (mkFfs ns1 o, r) = (mkFfs ns' o, r') /\
    alone (leave [fst base] r) (mkFfs ns1 op1) = (mkFfs ns' op', r') /\ Permutation op' (held r' own) /\ same_links ns ns').
  { intros r Hr. exact (after_sl ns ns1 _ _ _ _ o own op1 L1 (agrees_leave r [fst base] held Hr) Hs P1). }
  rewrite alone_asks, (get_entry_blind _ _ ns1 op1 o). destruct (get_entry cmp base name (mkFfs ns1 o)) as [[e|]|er]; [|now apply Hfail|now apply Hfail].
  rewrite alone_open, (open_blind _ _ ns1 op1 o). destruct (open_as (e_id e) (e_type e) (mkFfs ns1 o)) as [h|er] eqn:Eo; [|now apply Hfail].
  apply open_holds in Eo. subst h. rewrite alone_set. cbn [fst snd].
  destruct (set_parent_blind (e_id e) (fst base) ns1 o (e_id e :: op1)) as (ns2 & -> & -> & L2).
  assert (L : same_links ns ns2) by exact (sl_trans _ _ _ L1 L2).
  assert (Hs2 : steady ns2 own) by exact (steady_sl _ _ _ Hs L).
  destruct (follow && _).
  - rewrite alone_asks. change (cast_as TLINK (e_id e, e_type e) (mkFfs ns2 (e_id e :: op1))) with (cast_as TLINK (e_id e, e_type e) (mkFfs ns2 o)).
    destruct (cast_as TLINK (e_id e, e_type e) (mkFfs ns2 o)) as [nd|er]; cbn [rmap].
    + rewrite alone_bind.
      destruct (walk_agrees 16 (path_comps (i_data nd)) (fst base) base ns2 o (e_id e :: own) (e_id e :: op1)) as (ns3 & r & op3 & E3 & E4 & P3 & L3).
      { apply (steady_more _ own); [exact Hs2|apply incl_tl, incl_refl]. } { rewrite P1. cbn [app]. apply perm_swap. }
      rewrite E3, E4. cbn [fst snd]. assert (L' : same_links ns ns3) by exact (sl_trans _ _ _ L L3).
      destruct (leave_steady r [e_id e] ns3 op3 (held r own)) as (op4 & E5 & P4).
      { rewrite P3. destruct r as [[h|]|]; cbn [held app]; [apply perm_swap|reflexivity|reflexivity]. }
      { apply (steady_more _ own); [exact (steady_sl _ _ _ Hs L')|]. destruct r as [[h|]|]; cbn [held]; [apply incl_tl, incl_refl|apply incl_refl|apply incl_refl]. }
      rewrite E5. exists ns3, r, op4. split; [reflexivity|]. split; [reflexivity|]. split; [exact P4|exact L'].
    + apply (after_sl ns ns2 (fun st => (st, Err er)) _ [e_id e; fst base] held o own _ L (agrees_leave _ _ _ (fun _ => eq_refl))); [exact Hs|].
      rewrite P1. reflexivity.
  - destruct (leave_steady (@Ok (option holder) (Some (e_id e, e_type e))) [fst base] ns2 (e_id e :: op1) (e_id e :: own)) as (op4 & E5 & P4).
    { rewrite P1. cbn [app]. apply perm_swap. } { apply (steady_more _ own); [exact Hs2|apply incl_tl, incl_refl]. }
    do 3 eexists. split; [reflexivity|]. split; [exact E5|]. split; [exact P4|exact L].
Qed.

(** Giving up the references when one file may be at its end. *)
Lemma leave_end {A} (a : A) x : forall ids ns op own, Permutation op (ids ++ own) -> In x ids ->
  steady ns (x :: own) ->
  exists op', alone (leave ids a) (mkFfs ns op) = (mkFfs (nodes (finish x (mkFfs ns own))) op', a) /\ Permutation op' own.
Proof.
  induction ids as [|y ids IH]; intros ns op own Hp Hi Hs; [destruct Hi|]. cbn [leave]. rewrite alone_drop.
  destruct (in_dec (list_eq_dec Byte.byte_eq_dec) x ids) as [Hin|Hn].
  - destruct (drop_steady y ns op (ids ++ own) Hp) as (op1 & -> & P1).
    { apply (steady_more _ _ _ Hs). intros z [<-|Hz]; apply in_or_app; auto. }
    now apply IH.
  - destruct Hi as [->|Hi]; [|contradiction].
    assert (P1 : Permutation (remove_one x op) (ids ++ own)).
    { rewrite (perm_remove_one x _ _ Hp). cbn [app remove_one]. now rewrite bytes_eqb_refl. }
    assert (Ed : drop_ref x (mkFfs ns op) = mkFfs (nodes (finish x (mkFfs ns own))) (remove_one x op)).
    { unfold drop_ref, finish. cbn [nodes opened].
      assert (Ex : existsb (bytes_eqb x) (remove_one x op) = existsb (bytes_eqb x) own).
      { apply Bool.eq_true_iff_eq. rewrite !existsb_in. split; intros H.
        - apply (Permutation_in _ P1) in H. apply in_app_or in H. destruct H; [contradiction|assumption].
        - apply (Permutation_in _ (Permutation_sym P1)). apply in_or_app. now right. }
      rewrite Ex. destruct (_ || _); [reflexivity|]. change (get (mkFfs ns own) x) with (nget x ns). change (get (mkFfs ns (remove_one x op)) x) with (nget x ns).
      destruct (nget x ns) as [nd|]; [|reflexivity]. destruct (_ =? _)%N; reflexivity. }
    rewrite Ed. apply leave_steady; [exact P1|].
    intros id nd. unfold finish. cbn [nodes opened]. destruct (_ || _) eqn:Eb.
    + intros Hg Hn0. destruct (Hs _ _ Hg Hn0) as [E|[E|E]]; auto. subst id. apply Bool.orb_true_iff in Eb. destruct Eb as [Eb|Eb]; [left; now apply bytes_eqb_eq|right; now apply existsb_in].
    + change (get (mkFfs ns own) x) with (nget x ns). destruct (nget x ns) as [nx|] eqn:Ex.
      * destruct (i_nlink nx =? 0)%N eqn:En; cbn [nodes]; intros Hg Hn0.
        -- destruct (list_eq_dec Byte.byte_eq_dec x id) as [<-|Hne]; [rewrite nget_del_eq in Hg; discriminate|]. rewrite nget_del_ne in Hg by exact Hne.
           destruct (Hs _ _ Hg Hn0) as [E|[E|E]]; auto; congruence.
        -- destruct (Hs _ _ Hg Hn0) as [E|[E|E]]; auto. subst id. assert (nx = nd) by congruence. subst nx. rewrite Hn0 in En. discriminate.
      * cbn [nodes]. intros Hg Hn0. destruct (Hs _ _ Hg Hn0) as [E|[E|E]]; auto. congruence.
Qed.

(** ** Calls *)
Definition ends {A} (seq : ffs -> ffs * A) (p : prog A) : Prop := forall ns own op, steady ns own -> (forall id nd, nget id ns = Some nd -> (i_nlink nd < 2 ^ 32 - 1)%N) ->
  Permutation op own -> exists op', alone p (mkFfs ns op) = (mkFfs (nodes (fst (seq (mkFfs ns own)))) op', snd (seq (mkFfs ns own))) /\
    Permutation op' (opened (fst (seq (mkFfs ns own)))).
Lemma room_sl ns ns' : same_links ns ns' -> (forall id nd, nget id ns = Some nd -> (i_nlink nd < 2 ^ 32 - 1)%N) -> forall id nd, nget id ns' = Some nd -> (i_nlink nd < 2 ^ 32 - 1)%N.
Proof. intros L H id nd Hg. destruct (L _ _ Hg) as (n & Hn & E). rewrite <- E. exact (H _ _ Hn). Qed.

Lemma put_steady ns x nd own : steady ns own -> steady (nput x nd ns) (x :: own).
Proof.
  intros Hs id n Hg Hn. destruct (list_eq_dec Byte.byte_eq_dec x id) as [<-|Hne]; [right; now left|].
  rewrite nget_put_ne in Hg by exact Hne. destruct (Hs _ _ Hg Hn); auto. right. now right.
Qed.
Lemma unlink_ends {A} x ids ns op own (a : A) : steady ns own -> In x ids -> Permutation op (ids ++ own) ->
  exists op', alone (leave ids a) (count_down x (mkFfs ns op)) = (mkFfs (nodes (unlink_node x (mkFfs ns own))) op', a) /\
    Permutation op' (opened (unlink_node x (mkFfs ns own))).
Proof.
  intros Hs Hi Hp. unfold count_down, unlink_node. change (get (mkFfs ns op) x) with (nget x ns). change (get (mkFfs ns own) x) with (nget x ns).
  destruct (nget x ns) as [nd|] eqn:Eg.
  - unfold put. cbn [nodes opened]. destruct (leave_end a x ids (nput x (with_nlink (dec32 (i_nlink nd)) nd) ns) op own Hp Hi (put_steady _ _ _ _ Hs)) as (op' & E & P).
    rewrite E. exists op'. split; [reflexivity|]. rewrite P. unfold finish. destruct (_ || _); [reflexivity|]. destruct (get _ x); [|reflexivity]. destruct (_ =? _)%N; reflexivity.
  - destruct (leave_steady a ids ns op own Hp Hs) as (op' & E & P). exists op'. split; [exact E|exact P].
Qed.

Lemma remove_ends rmdir path : ends (do_remove cmp rmdir path) (c_remove cmp rmdir path).
Proof.
  intros ns own op Hs Hr Hp. unfold c_remove, do_remove. rewrite alone_bind.
  destruct (base_agrees path ns own own op Hs Hp) as (ns1 & b & op1 & E1 & E2 & P1 & L1). rewrite E1, E2. cbn [fst snd].
  destruct b as [[base name]|er]; cbn [heldb] in P1; [|exists op1; split; [reflexivity|exact P1]].
  rewrite alone_dos. destruct (remove_blind base name ns1 own op1) as (ns2 & x & E3 & E4 & L2). rewrite E3, E4. cbn [fst snd].
  assert (Hs2 : steady ns2 own) by exact (steady_sl _ _ _ (steady_sl _ _ _ Hs L1) L2).
  destruct x as [[e|]|er]; [|now apply leave_steady|now apply leave_steady].
  rewrite alone_open, (open_blind _ _ ns2 op1 own). destruct (open_as (e_id e) (e_type e) (mkFfs ns2 own)) as [h|er] eqn:Eo; [|now apply leave_steady].
  apply open_holds in Eo. subst h. rewrite alone_dos.
  assert (P3 : Permutation (e_id e :: op1) ([e_id e; fst base] ++ own)) by (cbn [app]; now constructor).
  assert (Hfail : forall er : err, exists op', alone (leave [e_id e; fst base] (@Err fout er)) (mkFfs ns2 (e_id e :: op1)) = (mkFfs ns2 op', Err er) /\ Permutation op' own) by (intros er; now apply leave_steady).
  destruct rmdir; cbn [fst snd].
  - change (cast_as TDIR (e_id e, e_type e) (mkFfs ns2 (e_id e :: op1))) with (cast_as TDIR (e_id e, e_type e) (mkFfs ns2 own)).
    destruct (cast_as TDIR (e_id e, e_type e) (mkFfs ns2 own)) as [nd|er]; cbn [fst snd]; [|apply Hfail].
    destruct (i_dir nd); cbn [fst snd]; [|apply Hfail]. apply unlink_ends; [exact Hs2|now left|exact P3].
  - apply unlink_ends; [exact Hs2|now left|exact P3].
Qed.

Lemma create_agrees path perm ty newid bad ns own op : steady ns own -> Permutation op own ->
  exists op', alone (c_create cmp path perm ty newid bad) (mkFfs ns op) =
      (mkFfs (nodes (fst (create cmp path perm ty newid bad (mkFfs ns own)))) op', snd (create cmp path perm ty newid bad (mkFfs ns own))) /\
    opened (fst (create cmp path perm ty newid bad (mkFfs ns own))) = own /\
    steady (nodes (fst (create cmp path perm ty newid bad (mkFfs ns own)))) own /\
    match snd (create cmp path perm ty newid bad (mkFfs ns own)) with
    | Ok h => h = (newid, ty) /\ Permutation op' (newid :: own)
    | Err _ => Permutation op' own
    end.
Proof.
  intros Hs Hp. unfold c_create, create. rewrite alone_bind.
  destruct (base_agrees path ns own own op Hs Hp) as (ns1 & b & op1 & E1 & E2 & P1 & L1). rewrite E1, E2. cbn [fst snd].
  assert (Hs1 : steady ns1 own) by exact (steady_sl _ _ _ Hs L1).
  destruct b as [[base name]|er]; cbn [heldb] in P1; [|exists op1; split; [reflexivity|]; split; [reflexivity|]; split; [exact Hs1|exact P1]].
  rewrite alone_dos. change (get (mkFfs ns1 op1) newid) with (nget newid ns1). change (get (mkFfs ns1 own) newid) with (nget newid ns1).
  assert (Hfail : forall er : err, exists op', alone (leave [fst base] (@Err holder er)) (mkFfs ns1 op1) = (mkFfs ns1 op', Err er) /\ own = own /\ steady ns1 own /\ Permutation op' own).
  { intros er. destruct (leave_steady (@Err holder er) [fst base] ns1 op1 own P1 Hs1) as (op' & E & P). exists op'. auto. }
  destruct bad as [e|]; cbn [fst snd]; [apply Hfail|].
  destruct (nget newid ns1) as [n|] eqn:Eg; cbn [fst snd]; [apply Hfail|]. rewrite alone_dos. unfold hold, put. cbn [nodes opened].
  set (ns2 := nput newid _ ns1).
  assert (Hs2 : steady ns2 own).
  { intros id nd Hg Hn. unfold ns2 in Hg. destruct (list_eq_dec Byte.byte_eq_dec newid id) as [<-|Hne].
    - rewrite nget_put_eq in Hg. injection Hg as <-. discriminate Hn.
    - rewrite nget_put_ne in Hg by exact Hne. exact (Hs1 _ _ Hg Hn). }
  destruct (add_blind base name newid ty ns2 own (newid :: op1)) as (ns3 & r & E3 & E4 & L3). rewrite E3, E4. cbn [fst snd].
  assert (Hs3 : steady ns3 own) by exact (steady_sl _ _ _ Hs2 L3).
  assert (P3 : Permutation (newid :: op1) ([newid; fst base] ++ own)) by (cbn [app]; now constructor).
  destruct r as [[|]|er]; cbn [fst snd].
  - rewrite alone_set. destruct (set_parent_blind newid (fst base) ns3 own (newid :: op1)) as (ns4 & -> & -> & L4). cbn [nodes opened].
    destruct (leave_steady (@Ok holder (newid, ty)) [fst base] ns4 (newid :: op1) (newid :: own)) as (op' & E & P).
    { rewrite P3. apply perm_swap. } { apply (steady_more _ own); [exact (steady_sl _ _ _ Hs3 L4)|apply incl_tl, incl_refl]. }
    exists op'. split; [exact E|]. split; [reflexivity|]. split; [exact (steady_sl _ _ _ Hs3 L4)|]. split; [reflexivity|exact P].
  - rewrite alone_dos. cbn [fst snd].
    destruct (unlink_ends newid [newid; fst base] ns3 (newid :: op1) own (@Err holder E_EXIST) Hs3 (or_introl eq_refl) P3) as (op' & E & P).
    assert (Eo : opened (unlink_node newid (mkFfs ns3 own)) = own).
    { unfold unlink_node, finish. destruct (get _ newid); [|reflexivity]. destruct (_ || _); [reflexivity|]. destruct (get _ newid); [|reflexivity]. destruct (_ =? _)%N; reflexivity. }
    exists op'. split; [exact E|]. split; [exact Eo|]. split; [|now rewrite <- Eo].
    intros id nd Hg Hn. unfold unlink_node in Hg. change (get (mkFfs ns3 own) newid) with (nget newid ns3) in Hg.
    destruct (nget newid ns3) as [nx|] eqn:Ex; [|exact (Hs3 _ _ Hg Hn)]. unfold put in Hg. cbn [nodes opened] in Hg.
    unfold finish in Hg. cbn [nodes opened] in Hg. destruct (_ || _) eqn:Eb.
    + cbn [nodes] in Hg. destruct (list_eq_dec Byte.byte_eq_dec newid id) as [<-|Hne].
      * apply Bool.orb_true_iff in Eb. destruct Eb as [Eb|Eb]; [left; now apply bytes_eqb_eq|right; now apply existsb_in].
      * rewrite nget_put_ne in Hg by exact Hne. exact (Hs3 _ _ Hg Hn).
    + unfold get in Hg. cbn [nodes] in Hg. rewrite nget_put_eq in Hg. destruct (_ =? _)%N eqn:En; cbn [nodes] in Hg.
      * destruct (list_eq_dec Byte.byte_eq_dec newid id) as [<-|Hne]; [rewrite nget_del_eq in Hg; discriminate|].
        rewrite nget_del_ne, nget_put_ne in Hg by exact Hne. exact (Hs3 _ _ Hg Hn).
      * destruct (list_eq_dec Byte.byte_eq_dec newid id) as [<-|Hne].
        -- rewrite nget_put_eq in Hg. injection Hg as <-. rewrite Hn in En. discriminate.
        -- rewrite nget_put_ne in Hg by exact Hne. exact (Hs3 _ _ Hg Hn).
  - destruct (leave_steady (@Err holder er) [newid; fst base] ns3 (newid :: op1) own P3 Hs3) as (op' & E & P). exists op'. auto.
Qed.

Lemma link_ends src dest : ends (do_link cmp src dest) (c_link cmp src dest).
Proof.
  intros ns own op Hs Hr Hp. unfold c_link, do_link. rewrite alone_bind.
  destruct (all_agrees src true ns own own op Hs Hp) as (ns1 & b & op1 & E1 & E2 & P1 & L1). rewrite E1, E2. cbn [fst snd].
  destruct b as [[h|]|er]; cbn [held] in P1; [|exists op1; split; [reflexivity|exact P1]|exists op1; split; [reflexivity|exact P1]].
  assert (Hs1 : steady ns1 own) by exact (steady_sl _ _ _ Hs L1).
  rewrite alone_bind.
  destruct (base_agrees dest ns1 own (fst h :: own) op1 ltac:(apply (steady_more _ own); [exact Hs1|apply incl_tl, incl_refl]) P1) as (ns2 & b & op2 & E3 & E4 & P2 & L2).
  rewrite E3, E4. cbn [fst snd]. assert (L12 : same_links ns ns2) by exact (sl_trans _ _ _ L1 L2). assert (Hs2 : steady ns2 own) by exact (steady_sl _ _ _ Hs L12).
  destruct b as [[base name]|er]; cbn [heldb] in P2; [|now apply leave_steady].
  rewrite alone_dos. unfold link_step. change (get (mkFfs ns2 op2) (fst h)) with (nget (fst h) ns2). change (get (mkFfs ns2 own) (fst h)) with (nget (fst h) ns2).
  destruct (nget (fst h) ns2) as [nd|] eqn:Eg; cbn [fst snd]; [|now apply leave_steady].
  destruct (add_blind base name (fst h) (i_type nd) ns2 own op2) as (ns3 & r & E5 & E6 & L3). rewrite E5, E6.
  assert (Hs3 : steady ns3 own) by exact (steady_sl _ _ _ Hs2 L3).
  destruct r as [[|]|er]; cbn [fst snd]; [|now apply leave_steady|now apply leave_steady].
  change (get (mkFfs ns3 op2) (fst h)) with (nget (fst h) ns3). change (get (mkFfs ns3 own) (fst h)) with (nget (fst h) ns3).
  destruct (nget (fst h) ns3) as [nd3|] eqn:Eg3; cbn [fst snd]; [|now apply leave_steady].
  unfold put. cbn [nodes opened]. apply leave_steady; [exact P2|].
  intros id n Hg Hn. destruct (list_eq_dec Byte.byte_eq_dec (fst h) id) as [<-|Hne].
  - rewrite nget_put_eq in Hg. injection Hg as <-. exfalso. pose proof (room_sl _ _ (sl_trans _ _ _ L12 L3) Hr _ _ Eg3) as Hb. cbn [with_nlink i_nlink] in Hn. unfold inc32 in Hn.
    rewrite N.mod_small in Hn by lia. lia.
  - rewrite nget_put_ne in Hg by exact Hne. exact (Hs3 _ _ Hg Hn).
Qed.

Lemma rename_ends from to : ends (do_rename cmp from to) (c_rename cmp from to).
Proof.
  intros ns own op Hs Hr Hp. unfold c_rename, do_rename. rewrite alone_bind.
  destruct (base_agrees from ns own own op Hs Hp) as (ns1 & b & op1 & E1 & E2 & P1 & L1). rewrite E1, E2. cbn [fst snd].
  destruct b as [[bf lf]|er]; cbn [heldb] in P1; [|exists op1; split; [reflexivity|exact P1]].
  assert (Hs1 : steady ns1 own) by exact (steady_sl _ _ _ Hs L1).
  rewrite alone_bind.
  destruct (base_agrees to ns1 own (fst bf :: own) op1 ltac:(apply (steady_more _ own); [exact Hs1|apply incl_tl, incl_refl]) P1) as (ns2 & b & op2 & E3 & E4 & P2 & L2).
  rewrite E3, E4. cbn [fst snd]. assert (Hs2 : steady ns2 own) by exact (steady_sl _ _ _ Hs1 L2).
  destruct b as [[bt lt]|er]; cbn [heldb] in P2; [|now apply leave_steady].
  rewrite alone_dos. unfold rename_step.
  destruct (remove_blind bf lf ns2 own op2) as (ns3 & r3 & E5 & E6 & L3). rewrite E5, E6. assert (Hs3 : steady ns3 own) by exact (steady_sl _ _ _ Hs2 L3).
  destruct r3 as [[ef|]|er]; cbn [fst snd]; [|now apply leave_steady|now apply leave_steady].
  destruct (remove_blind bt lt ns3 own op2) as (ns4 & r4 & E7 & E8 & L4). rewrite E7, E8. assert (Hs4 : steady ns4 own) by exact (steady_sl _ _ _ Hs3 L4).
  destruct r4 as [[et|]|er]; cbn [fst snd]; [| |now apply leave_steady].
  - destruct (bytes_eqb (e_id ef) (e_id et)).
    + destruct (add_blind bf lf (e_id ef) (e_type ef) ns4 own op2) as (ns5 & r5 & E9 & E10 & L5). rewrite E9, E10. assert (Hs5 : steady ns5 own) by exact (steady_sl _ _ _ Hs4 L5).
      destruct r5 as [b5|er]; cbn [fst snd]; [|now apply leave_steady].
      destruct (add_blind bt lt (e_id et) (e_type et) ns5 own op2) as (ns6 & r6 & E11 & E12 & L6). rewrite E11, E12. assert (Hs6 : steady ns6 own) by exact (steady_sl _ _ _ Hs5 L6).
      destruct r6 as [b6|er]; cbn [fst snd]; now apply leave_steady.
    + destruct (add_blind bt lt (e_id ef) (e_type ef) ns4 own op2) as (ns5 & r5 & E9 & E10 & L5). rewrite E9, E10. assert (Hs5 : steady ns5 own) by exact (steady_sl _ _ _ Hs4 L5).
      destruct r5 as [b5|er]; cbn [fst snd]; [|now apply leave_steady].
      rewrite alone_open, (open_blind _ _ ns5 op2 own). destruct (open_as (e_id et) (e_type et) (mkFfs ns5 own)) as [h|er] eqn:Eo; [|now apply leave_steady].
      rewrite alone_dos. cbn [fst snd]. apply unlink_ends; [exact Hs5|now left|cbn [app]; now constructor].
  - destruct (add_blind bt lt (e_id ef) (e_type ef) ns4 own op2) as (ns5 & r5 & E9 & E10 & L5). rewrite E9, E10. assert (Hs5 : steady ns5 own) by exact (steady_sl _ _ _ Hs4 L5).
    destruct r5 as [b5|er]; cbn [fst snd]; now apply leave_steady.
Qed.

(** A use of the file at the end of a path. *)
Lemma with_ends path follow (f : holder -> ffs -> ffs * res fout) : (forall h, blind (f h)) ->
  ends (fun st => match open_all cmp path follow st with
                  | (st1, Ok (Some h)) => f h st1
                  | (st1, Ok None) => (st1, Err E_NOENT)
                  | (st1, Err e) => (st1, Err e)
                  end) (with_path cmp path follow f).
Proof.
  intros Hf ns own op Hs Hr Hp. unfold with_path. rewrite alone_bind.
  destruct (all_agrees path follow ns own own op Hs Hp) as (ns1 & b & op1 & E1 & E2 & P1 & L1). rewrite E1, E2. cbn [fst snd].
  destruct b as [[h|]|er]; cbn [held] in P1; [|exists op1; split; [reflexivity|exact P1]|exists op1; split; [reflexivity|exact P1]].
  rewrite alone_dos. destruct (Hf h ns1 own op1) as (ns2 & r & E3 & E4 & L2). rewrite E3, E4. cbn [fst snd nodes opened].
  apply leave_steady; [exact P1|]. exact (steady_sl _ _ _ (steady_sl _ _ _ Hs L1) L2).
Qed.
Lemma blind_cast want h (f : inode -> inode) (x : res fout) : (forall nd, i_nlink (f nd) = i_nlink nd) ->
  blind (fun st => match cast_as want h st with Err e => (st, Err e) | Ok nd => (put st (fst h) (f nd), x) end).
Proof.
  intros Hf ns o o'. unfold cast_as. change (get (mkFfs ns o) (fst h)) with (nget (fst h) ns). change (get (mkFfs ns o') (fst h)) with (nget (fst h) ns).
  destruct (nget (fst h) ns) as [nd|] eqn:Eg; [|now apply (blind_ret _ ns o o')].
  destruct (_ =? _)%N; [|now apply (blind_ret _ ns o o')]. destruct (_ =? _)%N; [|now apply (blind_ret _ ns o o')].
  do 2 eexists. split; [reflexivity|]. split; [reflexivity|]. now apply (sl_put ns _ nd).
Qed.

Lemma body_ends o : match o with FClose _ _ => False | FRead _ | FWrite _ _ | FReaddir _ | FEvict _ => False | _ => True end -> ends (fs_step cmp o) (body cmp o).
Proof.
  destruct o; intros Hno; try contradiction; cbn [fs_step body].
  - (* create *) intros ns own op Hs Hr Hp. cbn [fs_step]. rewrite alone_bind. destruct (create_agrees path perm TREG newid bad ns own op Hs Hp) as (op' & E & Eo & Hs' & P).
    rewrite E. cbn [fst snd alone]. destruct (create cmp path perm TREG newid bad (mkFfs ns own)) as [[ns1 o1] [h|e]]; cbn [fst snd nodes opened hold] in *; subst o1.
    + destruct P as [-> P]. exists op'. split; [reflexivity|exact P].
    + exists op'. split; [reflexivity|exact P].
  - (* mkdir *) intros ns own op Hs Hr Hp. cbn [fs_step]. rewrite alone_bind. destruct (create_agrees path perm TDIR newid bad ns own op Hs Hp) as (op' & E & Eo & Hs' & P).
    rewrite E. cbn [fst snd]. destruct (create cmp path perm TDIR newid bad (mkFfs ns own)) as [[ns1 o1] [h|e]]; cbn [fst snd nodes opened] in *; subst o1.
    + destruct P as [-> P]. now apply leave_steady.
    + exists op'. split; [reflexivity|exact P].
  - (* symlink *) intros ns own op Hs Hr Hp. cbn [fs_step]. rewrite alone_bind. destruct (create_agrees path 420 TLINK newid bad ns own op Hs Hp) as (op' & E & Eo & Hs' & P).
    rewrite E. cbn [fst snd]. destruct (create cmp path 420 TLINK newid bad (mkFfs ns own)) as [[ns1 o1] [h|e]]; cbn [fst snd nodes opened] in *; subst o1.
    + destruct P as [-> P]. rewrite alone_dos. destruct (blind_cast TLINK (newid, TLINK) (fun nd => with_data (arr_write (i_data nd) 0 target) nd) (Ok FOUnit) (fun _ => eq_refl) ns1 own op') as (ns2 & r & E1 & E2 & L2).
      rewrite E1, E2. cbn [fst snd nodes opened]. apply leave_steady; [exact P|exact (steady_sl _ _ _ Hs' L2)].
    + exists op'. split; [reflexivity|exact P].
  - apply link_ends.
  - apply remove_ends.
  - apply remove_ends.
  - apply rename_ends.
  - (* open *) intros ns own op Hs Hr Hp. cbn [fs_step]. rewrite alone_bind.
    destruct (all_agrees path true ns own own op Hs Hp) as (ns1 & b & op1 & E1 & E2 & P1 & L1). rewrite E1, E2. cbn [fst snd].
    destruct b as [[h|]|er]; cbn [held] in P1; [|exists op1; split; [reflexivity|exact P1]|exists op1; split; [reflexivity|exact P1]].
    destruct trunc; [|exists op1; split; [reflexivity|exact P1]]. rewrite alone_dos. unfold cast_as.
    change (get (mkFfs ns1 op1) (fst h)) with (nget (fst h) ns1). change (get (mkFfs ns1 own) (fst h)) with (nget (fst h) ns1).
    assert (Hs1 : steady ns1 own) by exact (steady_sl _ _ _ Hs L1).
    destruct (nget (fst h) ns1) as [nd|] eqn:Eg; cbn [fst snd]; [|now apply leave_steady].
    destruct (_ =? _)%N; cbn [fst snd]; [|now apply leave_steady]. destruct (_ =? _)%N; cbn [fst snd]; [|now apply leave_steady].
    exists op1. split; [reflexivity|exact P1].
  - (* opendir *) intros ns own op Hs Hr Hp. cbn [fs_step]. rewrite alone_bind.
    destruct (all_agrees path true ns own own op Hs Hp) as (ns1 & b & op1 & E1 & E2 & P1 & L1). rewrite E1, E2. cbn [fst snd].
    destruct b as [[h|]|er]; cbn [held] in P1; [|exists op1; split; [reflexivity|exact P1]|exists op1; split; [reflexivity|exact P1]].
    destruct (_ =? _)%N; [exists op1; split; [reflexivity|exact P1]|]. apply leave_steady; [exact P1|exact (steady_sl _ _ _ Hs L1)].
  - (* truncate *) apply with_ends. intros h. apply blind_cast. reflexivity.
  - (* chmod *) apply with_ends. intros h ns o o'. change (get (mkFfs ns o) (fst h)) with (nget (fst h) ns). change (get (mkFfs ns o') (fst h)) with (nget (fst h) ns).
    destruct (nget (fst h) ns) as [nd|] eqn:Eg; [|now apply (blind_ret _ ns o o')]. do 2 eexists. split; [reflexivity|]. split; [reflexivity|]. now apply (sl_put ns _ nd).
  - (* getattr *)
    intros ns own op Hs Hr Hp. pose proof (with_ends path false (fun h st => (st, match get st (fst h) with
           | None => Err EUndef
           | Some nd => Ok (FOStat (fst h) (i_mode nd) (i_nlink nd) (N.of_nat (length (i_data nd))))
           end))) as H.
    cbn [fs_step]. destruct (H ltac:(intros h ns0 o0 o0'; do 2 eexists; split; [reflexivity|]; split; [reflexivity|apply sl_refl]) ns own op Hs Hr Hp) as (op' & E & P). rewrite E.
    destruct (open_all cmp path false (mkFfs ns own)) as [st1 [[h|]|er]]; cbn [fst snd] in *; [|exists op'; auto|exists op'; auto].
    exists op'. destruct (get st1 (fst h)); auto.
  - (* readlink *) apply with_ends. intros h ns o o'. do 2 eexists. split; [reflexivity|]. split; [reflexivity|apply sl_refl].
Qed.

Definition in_step (o : fop) : Prop := match o with FRead _ | FWrite _ _ | FReaddir _ | FEvict _ => False | _ => True end.
Lemma body_alone o st : in_step o -> (forall id dir, o = FClose id dir -> In id (opened st)) ->
  (forall id nd, get st id = Some nd -> i_nlink nd = 0%N -> id = root_id \/ In id (opened st)) -> room st ->
  snd (alone (body cmp o) st) = snd (fs_step cmp o st) /\ nodes (fst (alone (body cmp o) st)) = nodes (fst (fs_step cmp o st)) /\
  Permutation (opened (fst (alone (body cmp o) st))) (opened (fst (fs_step cmp o st))).
Proof.
  intros Hi Hc Hs Hr. destruct st as [ns own].
  assert (Hd : match o with FClose _ _ => False | FRead _ | FWrite _ _ | FReaddir _ | FEvict _ => False | _ => True end ->
    snd (alone (body cmp o) (mkFfs ns own)) = snd (fs_step cmp o (mkFfs ns own)) /\ nodes (fst (alone (body cmp o) (mkFfs ns own))) = nodes (fst (fs_step cmp o (mkFfs ns own))) /\
    Permutation (opened (fst (alone (body cmp o) (mkFfs ns own)))) (opened (fst (fs_step cmp o (mkFfs ns own))))).
  { intros H. destruct (body_ends o H ns own own Hs Hr (Permutation_refl _)) as (op' & E & P). rewrite E. cbn [fst snd nodes opened]. auto. }
  destruct o; try (apply Hd; exact I); try contradiction.
  cbn [body fs_step opened]. rewrite (proj2 (existsb_in id own) (Hc id dir eq_refl)). rewrite alone_asks.
  destruct (get (mkFfs ns own) id) as [nd|]; [|auto]. destruct (_ =? _)%N; [|auto]. cbn [leave]. rewrite alone_drop. cbn [alone fst snd]. auto.
Qed.
End Seq.
