(** Proofs about the walk over a repository. *)
From Verif Require Import Base BaseLemmas TextModel NameModel NameProofs LongNameModel LongNameSpec LongNameProofs WalkModel WalkSpec.
Local Open Scope list_scope.

Section NodeInd.
Variable P : node -> Prop.
Hypothesis H1 : P NFile.
Hypothesis H2 : P NLink.
Hypothesis H3 : P NOther.
Hypothesis H4 : P NUp.
Hypothesis H5 : forall o l e, Forall (fun x => P (snd x)) l -> P (NDir o l e).
Fixpoint node_ind2 (n : node) : P n :=
  match n with
  | NFile => H1 | NLink => H2 | NOther => H3 | NUp => H4
  | NDir o l e => H5 o l e ((fix go l : Forall (fun x => P (snd x)) l :=
      match l with [] => Forall_nil _ | x :: l' => Forall_cons x (node_ind2 (snd x)) (go l') end) l)
  end.
End NodeInd.

(** What a walk meets, in order: an entry, or an error. *)
Definition event : Type := (list bytes * bytes * N) + err.
Definition dots (name : bytes) : bool := bytes_eqb name [dot] || bytes_eqb name [dot; dot].
Lemma dots_real name : dots name = false <-> real_name name.
Proof.
  unfold dots, real_name. rewrite orb_false_iff. split; intros (A & B); split.
  - intros ->. discriminate A.
  - intros ->. discriminate B.
  - apply not_true_is_false. rewrite bytes_eqb_eq. exact A.
  - apply not_true_is_false. rewrite bytes_eqb_eq. exact B.
Qed.
Definition ty (b : bool) (c : node) : N := N.land S_IFMT (st_mode (d_type b c)).

Fixpoint events (p : list bytes) (n : node) : list event :=
  match n with
  | NDir (Some e) _ _ => [inr (EPosix e)]
  | NDir None l ends =>
    (fix go (es : list (bytes * bool * node)) : list event :=
       match es with
       | [] => match ends with Some e => [inr (EPosix e)] | None => [] end
       | (name, b, c) :: es' =>
         if dots name then go es' else
         inl (p, name, ty b c) :: (if (ty b c =? S_IFDIR)%N then events (p ++ [name]) c else []) ++ go es'
       end) l
  | NUp => [inr EFuel]
  | _ => [inr (EPosix 20)]
  end.
Fixpoint children (p : list bytes) (ends : option N) (es : list (bytes * bool * node)) : list event :=
  match es with
  | [] => match ends with Some e => [inr (EPosix e)] | None => [] end
  | (name, b, c) :: es' =>
    if dots name then children p ends es' else
    inl (p, name, ty b c) :: (if (ty b c =? S_IFDIR)%N then events (p ++ [name]) c else []) ++ children p ends es'
  end.
Lemma events_dir p l ends : events p (NDir None l ends) = children p ends l.
Proof. cbn [events]. induction l as [|[[name b] c] l IH]; [reflexivity|]. cbn [children]. rewrite IH. reflexivity. Qed.

Fixpoint runev {S} (cb : bytes -> bytes -> N -> S -> res S) (dir : bytes) (evs : list event) (s : S) : res S :=
  match evs with
  | [] => Ok s
  | inr e :: _ => Err e
  | inl (p, name, t) :: evs' =>
    match cb (text dir p) name t s with Ok s' => runev cb dir evs' s' | Err e => Err e end
  end.
Lemma runev_app {S} cb dir a b (s : S) :
  runev cb dir (a ++ b) s = match runev cb dir a s with Ok s' => runev cb dir b s' | Err e => Err e end.
Proof.
  revert s. induction a as [|[[[p name] t]|e] a IH]; intros s; cbn [app runev]; [reflexivity| |reflexivity].
  destruct (cb (text dir p) name t s); [apply IH|reflexivity].
Qed.
Lemma text_snoc dir p name : text dir (p ++ [name]) = text dir p ++ slash :: name.
Proof. unfold text. rewrite flat_map_app. cbn. rewrite app_nil_r, app_assoc. reflexivity. Qed.

Lemma walk_events {S} (cb : bytes -> bytes -> N -> S -> res S) dir n :
  forall p s, recursive_traverse cb (text dir p) n s = runev cb dir (events p n) s.
Proof.
  induction n as [| | | |o l e IH] using node_ind2; intros p s; try reflexivity.
  destruct o as [o|]; [reflexivity|]. rewrite events_dir. cbn [recursive_traverse]. revert s.
  induction IH as [|[[name b] c] l Hc _ IHl]; intros s.
  - cbn [children]. destruct e; reflexivity.
  - cbn [children]. unfold dots. destruct (bytes_eqb name [dot] || bytes_eqb name [dot; dot]); [apply IHl|].
    cbn [runev app]. fold (ty b c). destruct (cb (text dir p) name (ty b c) s) as [s1|er]; [|reflexivity].
    rewrite runev_app. destruct (ty b c =? S_IFDIR)%N.
    + rewrite <- text_snoc. cbn [snd] in Hc. rewrite Hc. destruct (runev cb dir (events (p ++ [name]) c) s1); [apply IHl|reflexivity].
    + cbn [runev]. apply IHl.
Qed.
Lemma walk_top {S} (cb : bytes -> bytes -> N -> S -> res S) dir n s :
  recursive_traverse cb dir n s = runev cb dir (events [] n) s.
Proof. rewrite <- walk_events. unfold text. cbn. rewrite app_nil_r. reflexivity. Qed.

Lemma ty_told c : ty true c = type_of c.
Proof. destruct c; reflexivity. Qed.
Lemma ty_dir c : (type_of c =? S_IFDIR)%N = true <-> c = NUp \/ exists o l e, c = NDir o l e.
Proof.
  destruct c; cbn; split; intros H; try discriminate; try (destruct H as [H|(o & l & e & H)]; discriminate H); eauto 6.
Qed.

Definition no_up (n : node) : Prop := forall p, ~ inside n p NUp.
Section Sub.
Variable o : option N.
Variable l : list (bytes * bool * node).
Variable e : option N.
Variable name : bytes.
Variable b : bool.
Variable c : node.
Hypothesis Hin : In (name, b, c) l.
Hypothesis Hreal : real_name name.
Lemma sub_told : types_told (NDir o l e) -> types_told c.
Proof. intros H p o' l' e' n' b' c' Hi. apply (H (name :: p) o' l' e' n' b' c'). eapply inside_down; eauto. Qed.
Lemma sub_readable : readable (NDir o l e) -> readable c.
Proof. intros H p o' l' e' Hi. apply (H (name :: p) o' l' e'). eapply inside_down; eauto. Qed.
Lemma sub_up : no_up (NDir o l e) -> no_up c.
Proof. intros H p Hi. apply (H (name :: p)). eapply inside_down; eauto. Qed.
End Sub.

(** Soundness: every entry that is met is in the tree. *)
Lemma events_sound n : types_told n -> forall p q name t, In (inl (q, name, t)) (events p n) ->
  exists r c, q = p ++ r /\ inside n (r ++ [name]) c /\ t = type_of c.
Proof.
  induction n as [| | | |o l e IH] using node_ind2; intros HT p q name t Hi;
    try (destruct Hi as [Hi|Hi]; [discriminate Hi|destruct Hi]).
  destruct o as [o|]; [destruct Hi as [Hi|Hi]; [discriminate Hi|destruct Hi]|]. rewrite events_dir in Hi.
  assert (HG : forall l0, incl l0 l -> In (inl (q, name, t)) (children p e l0) ->
    exists r c, q = p ++ r /\ inside (NDir None l e) (r ++ [name]) c /\ t = type_of c).
  { induction l0 as [|[[nm b] c] l0 IHl]; intros Hl Hx.
    - cbn [children] in Hx. destruct e as [e|]; [destruct Hx as [Hx|[]]; discriminate Hx|destruct Hx].
    - assert (Hc : In (nm, b, c) l) by (apply Hl; left; reflexivity).
      assert (Hl0 : incl l0 l) by (intros x Hx0; apply Hl; right; exact Hx0).
      cbn [children] in Hx. destruct (dots nm) eqn:Ed; [exact (IHl Hl0 Hx)|]. apply dots_real in Ed.
      assert (Hb : b = true) by exact (HT [] _ _ _ _ _ _ (inside_here _) Hc). subst b. rewrite ty_told in Hx.
      destruct Hx as [Hx|Hx].
      + injection Hx as <- <- <-. exists [], c. rewrite app_nil_r. split; [reflexivity|]. split; [|reflexivity].
        cbn. eapply inside_down; eauto. constructor.
      + apply in_app_or in Hx. destruct Hx as [Hx|Hx]; [|exact (IHl Hl0 Hx)].
        destruct (type_of c =? S_IFDIR)%N; [|destruct Hx].
        rewrite Forall_forall in IH. specialize (IH _ Hc (sub_told _ _ _ _ _ _ Hc Ed HT) _ _ _ _ Hx). cbn [snd] in IH.
        destruct IH as (r & c' & -> & Hr & Ht). exists (nm :: r), c'. rewrite <- app_assoc. split; [reflexivity|]. split; [|exact Ht].
        cbn. eapply inside_down; eauto. }
  exact (HG l (incl_refl l) Hi).
Qed.

(** Completeness: everything in the tree is met. *)
Lemma events_complete n : types_told n -> readable n -> forall path c p name, inside n (path ++ [name]) c ->
  In (inl (p ++ path, name, type_of c)) (events p n).
Proof.
  intros HT HR path. revert n HT HR. induction path as [|w path IH]; intros n HT HR c p name Hi; cbn in Hi; inversion Hi as [|o l e nm b ch pt c0 Hin Hr Hsub]; subst.
  - assert (Ho : o = None) by exact (proj1 (HR [] _ _ _ (inside_here _))). subst o. rewrite events_dir.
    assert (Hb : b = true) by exact (HT [] _ _ _ _ _ _ (inside_here _) Hin). subst b.
    inversion Hsub; subst. rewrite app_nil_r. clear - Hin Hr. apply dots_real in Hr.
    induction l as [|[[n1 b1] c1] l IHl]; [destruct Hin|]. cbn [children]. destruct Hin as [E|Hin].
    + injection E as -> -> ->. rewrite Hr. left. rewrite ty_told. reflexivity.
    + destruct (dots n1); [auto|]. right. apply in_or_app. right. auto.
  - assert (Ho : o = None) by exact (proj1 (HR [] _ _ _ (inside_here _))). subst o. rewrite events_dir.
    assert (Hb : b = true) by exact (HT [] _ _ _ _ _ _ (inside_here _) Hin). subst b.
    specialize (IH ch (sub_told _ _ _ _ _ _ Hin Hr HT) (sub_readable _ _ _ _ _ _ Hin Hr HR) c (p ++ [w]) name Hsub).
    rewrite <- app_assoc in IH. cbn [app] in IH.
    assert (Hd : (type_of ch =? S_IFDIR)%N = true).
    { apply ty_dir. right. inversion Hsub; subst; [destruct path; discriminate|eauto]. }
    clear - Hin Hr IH Hd. apply dots_real in Hr.
    induction l as [|[[n1 b1] c1] l IHl]; [destruct Hin|]. cbn [children]. destruct Hin as [E|Hin].
    + injection E as -> -> ->. rewrite Hr, ty_told, Hd. right. apply in_or_app. left. exact IH.
    + destruct (dots n1); [auto|]. right. apply in_or_app. right. auto.
Qed.

(** No error is met. *)
Lemma events_fine n : types_told n -> readable n -> no_up n -> (exists o l e, n = NDir o l e) ->
  forall p e, ~ In (inr e) (events p n).
Proof.
  induction n as [| | | |o l e IH] using node_ind2; intros HT HR HU (o0 & l0 & e0 & E) p er; try discriminate E. clear o0 l0 e0 E.
  destruct (HR [] _ _ _ (inside_here _)) as (-> & ->). rewrite events_dir.
  assert (HG : forall l0, incl l0 l -> ~ In (inr er) (children p None l0)); [|exact (HG l (incl_refl l))].
  induction l0 as [|[[nm b] c] l0 IHl]; intros Hl; [intros []|].
  assert (Hc : In (nm, b, c) l) by (apply Hl; left; reflexivity).
  assert (Hl0 : incl l0 l) by (intros x Hx0; apply Hl; right; exact Hx0).
  cbn [children]. destruct (dots nm) eqn:Ed; [exact (IHl Hl0)|]. apply dots_real in Ed.
  assert (Hb : b = true) by exact (HT [] _ _ _ _ _ _ (inside_here _) Hc). subst b. rewrite ty_told.
  intros [Hx|Hx]; [discriminate Hx|]. apply in_app_or in Hx. destruct Hx as [Hx|Hx]; [|exact (IHl Hl0 Hx)].
  destruct (type_of c =? S_IFDIR)%N eqn:Et; [|destruct Hx]. apply ty_dir in Et.
  rewrite Forall_forall in IH. revert Hx. apply (IH _ Hc).
  - exact (sub_told _ _ _ _ _ _ Hc Ed HT).
  - exact (sub_readable _ _ _ _ _ _ Hc Ed HR).
  - exact (sub_up _ _ _ _ _ _ Hc Ed HU).
  - destruct Et as [->|Et]; [|exact Et]. exfalso. apply (HU [nm]). eapply inside_down; eauto. constructor.
Qed.

(** An unreadable directory is met as an error. *)
Lemma events_error n : types_told n -> forall path o l e, inside n path (NDir o l e) -> o <> None \/ e <> None ->
  forall p, exists er, In (inr er) (events p n).
Proof.
  intros HT path. revert n HT. induction path as [|w path IH]; intros n HT o l e Hi Hbad p; inversion Hi as [|o1 l1 e1 nm b ch pt c0 Hin Hr Hsub]; subst.
  - destruct o as [o|]; [eexists; left; reflexivity|]. rewrite events_dir. destruct Hbad as [H|H]; [congruence|]. destruct e as [e|]; [|congruence].
    exists (EPosix e). clear. induction l as [|[[n1 b1] c1] l IHl]; [left; reflexivity|]. cbn [children].
    destruct (dots n1); [exact IHl|]. right. apply in_or_app. right. exact IHl.
  - destruct o1 as [o1|]; [eexists; left; reflexivity|]. rewrite events_dir.
    assert (Hb : b = true) by exact (HT [] _ _ _ _ _ _ (inside_here _) Hin). subst b.
    destruct (IH ch (sub_told _ _ _ _ _ _ Hin Hr HT) _ _ _ Hsub Hbad (p ++ [w])) as (er & Her). exists er.
    assert (Hd : (type_of ch =? S_IFDIR)%N = true) by (apply ty_dir; right; inversion Hsub; subst; eauto).
    clear - Hin Hr Her Hd. apply dots_real in Hr.
    induction l1 as [|[[n1 b1] c1] l IHl]; [destruct Hin|]. cbn [children]. destruct Hin as [E|Hin].
    + injection E as -> -> ->. rewrite Hr, ty_told, Hd. right. apply in_or_app. left. exact Her.
    + destruct (dots n1); [auto|]. right. apply in_or_app. right. auto.
Qed.

Lemma runev_error {S} cb dir evs (s s' : S) : (exists er, In (inr er) evs) -> runev cb dir evs s <> Ok s'.
Proof.
  revert s. induction evs as [|[[[p name] t]|e] evs IH]; intros s (er & H); [destruct H| |discriminate].
  cbn [runev]. destruct H as [H|H]; [discriminate H|]. destruct (cb (text dir p) name t s); [apply IH; eauto|discriminate].
Qed.

(** Each entry once. *)
Definition where_ (ev : event) : option (list bytes * bytes) := match ev with inl (p, n, _) => Some (p, n) | inr _ => None end.
Definition places (evs : list event) : list (list bytes * bytes) :=
  flat_map (fun ev => match ev with inl (p, n, _) => [(p, n)] | inr _ => [] end) evs.
Lemma places_in evs p n : In (p, n) (places evs) <-> exists t, In (inl (p, n, t)) evs.
Proof.
  unfold places. rewrite in_flat_map. split.
  - intros ([[[p' n'] t]|e] & H & Hi); [|destruct Hi]. destruct Hi as [E|[]]. injection E as -> ->. eauto.
  - intros (t & H). eexists. split; [exact H|]. left. reflexivity.
Qed.
Lemma places_app a b : places (a ++ b) = places a ++ places b.
Proof. apply flat_map_app. Qed.
Lemma nodup_app {A} (a b : list A) : NoDup a -> NoDup b -> (forall x, In x a -> ~ In x b) -> NoDup (a ++ b).
Proof.
  intros Ha Hb. induction Ha as [|x a Hx Ha IH]; intros H; [exact Hb|]. cbn. constructor.
  - rewrite in_app_iff. intros [H1|H1]; [tauto|]. exact (H x (or_introl eq_refl) H1).
  - apply IH. intros y Hy. apply H. right. exact Hy.
Qed.
Definition once (n : node) : Prop := forall p o l e, inside n p (NDir o l e) -> NoDup (map (fun x => fst (fst x)) l).
(** Where the entries that a walk meets lie, types told or not. *)
Lemma events_below n : forall p q name t, In (inl (q, name, t)) (events p n) -> exists r, q = p ++ r.
Proof.
  induction n as [| | | |o l e IH] using node_ind2; intros p q name t Hi;
    try (destruct Hi as [Hi|Hi]; [discriminate Hi|destruct Hi]).
  destruct o as [o|]; [destruct Hi as [Hi|Hi]; [discriminate Hi|destruct Hi]|]. rewrite events_dir in Hi.
  induction IH as [|[[nm b] c] l Hc _ IHl]; cbn [children] in Hi.
  - destruct e as [e|]; [destruct Hi as [Hx|[]]; discriminate Hx|destruct Hi].
  - destruct (dots nm); [auto|]. destruct Hi as [Hi|Hi].
    + injection Hi as <- <- <-. exists []. rewrite app_nil_r. reflexivity.
    + apply in_app_or in Hi. destruct Hi as [Hi|Hi]; [|auto]. destruct (ty b c =? S_IFDIR)%N; [|destruct Hi].
      apply Hc in Hi. destruct Hi as (r & ->). exists (nm :: r). rewrite <- app_assoc. reflexivity.
Qed.
Lemma events_once n : once n -> forall p, NoDup (places (events p n)).
Proof.
  induction n as [| | | |o l e IH] using node_ind2; intros HO p; try (constructor; fail).
  destruct o as [o|]; [constructor|]. rewrite events_dir. pose proof (HO [] _ _ _ (inside_here _)) as ND.
  assert (HS : forall nm b c, In (nm, b, c) l -> real_name nm -> once c).
  { intros nm b c Hin Hr q o' l' e' Hi. apply (HO (nm :: q) o' l' e'). eapply inside_down; eauto. }
  clear HO. rewrite Forall_forall in IH.
  assert (HG : forall l0, incl l0 l -> NoDup (map (fun x => fst (fst x)) l0) -> NoDup (places (children p e l0)) /\
    forall q name, In (q, name) (places (children p e l0)) ->
      (q = p /\ In name (map (fun x => fst (fst x)) l0)) \/ (exists w r, q = p ++ w :: r /\ In w (map (fun x => fst (fst x)) l0))).
  { induction l0 as [|[[nm b] c] l0 IHl]; intros Hl ND0.
    - cbn [children]. destruct e; (split; [apply NoDup_nil|intros q name []]).
    - inversion ND0 as [|x y Hnm ND1]; subst. cbn [map fst] in *.
      assert (Hc : In (nm, b, c) l) by (apply Hl; left; reflexivity).
      destruct (IHl (fun x Hx => Hl x (or_intror Hx)) ND1) as (A & B). cbn [children].
      destruct (dots nm) eqn:Ed.
      + split; [exact A|]. intros q name Hq. destruct (B q name Hq) as [(E & H)|(w & r & E & H)]; [left; cbn; auto|right; exists w, r; cbn; auto].
      + apply dots_real in Ed. set (sub := if (ty b c =? S_IFDIR)%N then events (p ++ [nm]) c else []).
        assert (Hsub : NoDup (places sub)).
        { unfold sub. destruct (ty b c =? S_IFDIR)%N; [|constructor]. apply (IH _ Hc). exact (HS _ _ _ Hc Ed). }
        assert (Hbel : forall q name, In (q, name) (places sub) -> exists r, q = p ++ nm :: r).
        { intros q name Hq. apply places_in in Hq. destruct Hq as (t & Hq). unfold sub in Hq. destruct (ty b c =? S_IFDIR)%N; [|destruct Hq].
          apply events_below in Hq. destruct Hq as (r & ->). exists r. rewrite <- app_assoc. reflexivity. }
        assert (Hne : forall (u : list bytes) w r, u <> u ++ w :: r).
        { intros u w r E. apply (f_equal (@length _)) in E. rewrite app_length in E. cbn in E. lia. }
        change (places (inl (p, nm, ty b c) :: sub ++ children p e l0)) with ((p, nm) :: places (sub ++ children p e l0)).
        rewrite places_app. split.
        * constructor.
          -- rewrite in_app_iff. intros [H|H].
             ++ apply Hbel in H. destruct H as (r & E). exact (Hne _ _ _ E).
             ++ destruct (B _ _ H) as [(_ & H1)|(w & r & E & _)]; [contradiction|exact (Hne _ _ _ E)].
          -- apply nodup_app; [exact Hsub|exact A|]. intros [q name] H1 H2. apply Hbel in H1. destruct H1 as (r & ->).
             destruct (B _ _ H2) as [(E & _)|(w & r' & E & Hw)]; [exact (Hne _ _ _ (eq_sym E))|].
             apply app_inv_head in E. injection E as E1 E2. subst w. contradiction.
        * intros q name [E|H]; [injection E as <- <-; left; cbn; auto|]. apply in_app_or in H. destruct H as [H|H].
          -- apply Hbel in H. destruct H as (r & ->). right. exists nm, r. cbn. auto.
          -- destruct (B _ _ H) as [(E & Hx)|(w & r & E & Hx)]; [left; cbn; auto|right; exists w, r; cbn; auto]. }
  exact (proj1 (HG l (incl_refl l) ND)).
Qed.

(** What the callbacks make of it. *)
Lemma run_keep dir evs s : (forall e, ~ In (inr e) evs) ->
  runev keep dir evs s = Ok (s ++ flat_map (fun ev => match ev with inl (p, n, t) => [(text dir p, n, t)] | inr _ => [] end) evs).
Proof.
  revert s. induction evs as [|[[[p name] t]|e] evs IH]; intros s H; cbn [runev flat_map].
  - rewrite app_nil_r. reflexivity.
  - unfold keep at 1. rewrite IH by (intros e He; apply (H e); right; exact He). rewrite <- app_assoc. reflexivity.
  - exfalso. apply (H e). left. reflexivity.
Qed.
Lemma run_tables dir evs s : (forall e, ~ In (inr e) evs) ->
  runev note_table dir evs s = Ok (s ++ map (fun x => text dir (fst x)) (filter (fun x => bytes_eqb (snd x) kLongNameTableFileName) (places evs))).
Proof.
  revert s. induction evs as [|[[[p name] t]|e] evs IH]; intros s H; cbn [runev].
  - cbn. rewrite app_nil_r. reflexivity.
  - unfold note_table at 1. rewrite IH by (intros e He; apply (H e); right; exact He).
    change (places (inl (p, name, t) :: evs)) with ((p, name) :: places evs). cbn [filter snd].
    destruct (bytes_eqb name kLongNameTableFileName); cbn [map fst]; [rewrite <- app_assoc|]; reflexivity.
  - exfalso. apply (H e). left. reflexivity.
Qed.

(** The host reads the text of a path as the path. *)
Lemma comps_text p : Forall (fun w => w <> [] /\ ~ In slash w /\ w <> [dot]) p -> comps (text [dot] p) = p.
Proof.
  intros H. unfold comps, text.
  assert (HS : forall w, ~ In slash w -> split_slash (w ++ flat_map (fun w => slash :: w) p) = w :: p).
  { induction H as [|x p (_ & Hx & _) _ IH]; intros w Hw.
    - cbn. rewrite app_nil_r. pose proof (split_app w [] Hw) as E. clear - Hw. induction w as [|a w IHw]; [reflexivity|].
      assert (Ha : a <> slash) by (intros ->; apply Hw; left; reflexivity).
      rewrite split_cons_other by exact Ha. rewrite IHw by (intros Hi; apply Hw; right; exact Hi). reflexivity.
    - cbn [flat_map app]. rewrite split_app by exact Hw. rewrite IH by exact Hx. reflexivity. }
  rewrite HS by (intros [E|[]]; discriminate E). clear HS.
  change (filter (fun w => negb (bytes_eqb w []) && negb (bytes_eqb w [dot])) ([dot] :: p)) with (filter (fun w => negb (bytes_eqb w []) && negb (bytes_eqb w [dot])) p).
  induction H as [|x p (H1 & _ & H3) _ IH]; [reflexivity|]. cbn [filter].
  replace (bytes_eqb x []) with false by (symmetry; apply not_true_is_false; rewrite bytes_eqb_eq; exact H1).
  replace (bytes_eqb x [dot]) with false by (symmetry; apply not_true_is_false; rewrite bytes_eqb_eq; exact H3).
  cbn [negb andb]. f_equal. exact IH.
Qed.

Lemma inside_names n p c : host_tree n -> inside n p c -> Forall (fun w => w <> [] /\ ~ In slash w /\ w <> [dot]) p.
Proof.
  intros (_ & _ & H) Hi. assert (H0 : forall p o l e, inside n p (NDir o l e) -> forall name b c, In (name, b, c) l -> name <> [] /\ ~ In slash name)
    by (intros; eapply H; eauto). clear H.
  induction Hi as [|o l e name b ch path c Hin Hr Hi IH]; [constructor|]. constructor.
  - destruct (H0 [] _ _ _ (inside_here _) _ _ _ Hin) as (A & B). split; [exact A|]. split; [exact B|exact (proj1 Hr)].
  - apply IH. intros p o' l' e' Hp. apply (H0 (name :: p) o' l' e'). eapply inside_down; eauto.
Qed.
Lemma inside_snoc n p o l e name b c : inside n p (NDir o l e) -> In (name, b, c) l -> real_name name -> inside n (p ++ [name]) c.
Proof.
  intros Hi Hin Hr. remember (NDir o l e) as d. revert Heqd. induction Hi as [n|o1 l1 e1 nm b1 ch path c1 H1 H2 H3 IH]; intros ->.
  - cbn. eapply inside_down; eauto. constructor.
  - cbn. eapply inside_down; eauto.
Qed.
Lemma inside_last n p name c : inside n (p ++ [name]) c ->
  exists o l e b, inside n p (NDir o l e) /\ In (name, b, c) l /\ real_name name.
Proof.
  revert n. induction p as [|w p IH]; intros n Hi; cbn in Hi; inversion Hi as [|o l e nm b ch pt c0 Hin Hr Hsub]; subst.
  - inversion Hsub; subst. exists o, l, e, b. split; [constructor|]. auto.
  - destruct (IH _ Hsub) as (o' & l' & e' & b' & A & B & C). exists o', l', e', b'. split; [|auto]. eapply inside_down; eauto.
Qed.

(** All directories of the host are in a tree that shows them. *)
Lemma shows_all n fs : host_tree n -> tree_ok fs -> shows n fs ->
  (forall p es u, fs p = Some es -> ent u es <> None -> real_name u) ->
  forall p es, fs p = Some es -> exists o l e, inside n p (NDir o l e).
Proof.
  intros ((o0 & l0 & e0 & ->) & _) HT HS HN p. induction p as [|u p IH] using rev_ind; intros es Hp.
  - exists o0, l0, e0. constructor.
  - assert (Hk : fs (p ++ [u]) <> None) by congruence. apply (proj2 HT) in Hk. destruct Hk as (es' & He' & Hk).
    destruct (IH es' He') as (o & l & e & Hi). destruct (HS _ _ _ _ Hi) as (es2 & He2 & A & B).
    rewrite He' in He2. injection He2 as <-.
    assert (Hr : real_name u) by (apply (HN p es' u He'); congruence).
    destruct (A u) as (b & c & Hc); [congruence|]. specialize (B u b c Hr Hc). rewrite Hk in B.
    destruct B as (o' & l' & e' & ->). exists o', l', e'. eapply inside_snoc; eauto.
Qed.

Lemma walk_tables n fs : host_tree n -> readable n -> types_told n -> tree_ok fs -> shows n fs ->
  (forall p es u, fs p = Some es -> ent u es <> None -> real_name u) ->
  (forall p es, fs p = Some es -> ent kLongNameTableFileName es = None \/ exists m, ent kLongNameTableFileName es = Some (KTable m)) ->
  exists dirs, recursive_traverse note_table [dot] n [] = Ok dirs /\ tables fs (map comps dirs).
Proof.
  intros HH HR HT Hok HS HN HTab. pose proof HH as (Hdir & Hup & Hnm).
  assert (Hf : forall e, ~ In (inr e) (events [] n)) by (intros e; apply events_fine; auto).
  rewrite walk_top, (run_tables _ _ _ Hf). eexists. split; [reflexivity|]. cbn [app].
  set (F := filter _ _). rewrite map_map.
  assert (HF : forall q nm, In (q, nm) F -> nm = kLongNameTableFileName /\ exists c, inside n (q ++ [nm]) c).
  { intros q nm H. apply filter_In in H. destruct H as (H & E). cbn [snd] in E. apply bytes_eqb_eq in E. split; [exact E|].
    apply places_in in H. destruct H as (t & H). apply (events_sound n HT) in H. destruct H as (r & c & -> & Hi & _). eauto. }
  assert (HM : map (fun x => comps (text [dot] (fst x))) F = map fst F).
  { apply map_ext_in. intros [q nm] Hq. apply HF in Hq. destruct Hq as (_ & c & Hi). apply comps_text. cbn [fst].
    apply inside_names in Hi; [|exact HH]. apply Forall_app in Hi. tauto. }
  rewrite HM. split.
  - assert (ND : NoDup F) by (apply NoDup_filter; apply events_once; intros p o l e Hi; apply (Hnm p o l e Hi)).
    clear HM. induction F as [|[q nm] F IH]; [constructor|]. inversion ND as [|x y Hx ND1]; subst. cbn [map fst]. constructor.
    + intros Hq. apply in_map_iff in Hq. destruct Hq as ([q' nm'] & E & Hq). cbn [fst] in E. subst q'.
      destruct (HF q nm (or_introl eq_refl)) as (-> & _). destruct (HF q nm' (or_intror Hq)) as (-> & _). contradiction.
    + apply IH; [|exact ND1]. intros q' nm' H. apply HF. right. exact H.
  - intros d. split.
    + intros Hd. apply in_map_iff in Hd. destruct Hd as ([q nm] & E & Hq). cbn [fst] in E. subst q. apply HF in Hq. destruct Hq as (-> & c & Hi).
      apply inside_last in Hi. destruct Hi as (o & l & e & b & Hi & Hin & Hr). destruct (HS _ _ _ _ Hi) as (es & He & _ & B).
      exists es. destruct (HTab d es He) as [Hx|(m & Hm)]; [|eauto]. exfalso. specialize (B _ _ _ Hr Hin). rewrite Hx in B. apply (proj2 B). reflexivity.
    + intros (es & m & He & Hm). destruct (shows_all n fs HH Hok HS HN d es He) as (o & l & e & Hi).
      destruct (HS _ _ _ _ Hi) as (es2 & He2 & A & _). rewrite He in He2. injection He2 as <-.
      assert (Hr : real_name kLongNameTableFileName) by (apply (HN d es _ He); congruence).
      destruct (A kLongNameTableFileName) as (b & c & Hc); [congruence|].
      apply in_map_iff. exists (d, kLongNameTableFileName). split; [reflexivity|]. apply filter_In. split; [|apply bytes_eqb_eq; reflexivity].
      apply places_in. eexists. apply (events_complete n HT HR d c []). eapply inside_snoc; eauto.
Qed.

(** The migration's threshold. *)
Definition seen_of (evs : list event) : list (bytes * bool) :=
  flat_map (fun ev => match ev with inl (_, n, t) => [(n, (t =? S_IFLNK)%N)] | inr _ => [] end) evs.
Lemma run_length dir evs m : (forall e, ~ In (inr e) evs) ->
  runev note_length dir evs m =
  if existsb snd (seen_of evs) then Err EInval
  else Ok (Nat.max m (fold_right (fun e m => Nat.max (length (fst e)) m) 0 (seen_of evs))).
Proof.
  revert m. induction evs as [|[[[p name] t]|e] evs IH]; intros m H; cbn [runev].
  - cbn. rewrite Nat.max_0_r. reflexivity.
  - change (seen_of (inl (p, name, t) :: evs)) with ((name, (t =? S_IFLNK)%N) :: seen_of evs). cbn [existsb snd fst fold_right].
    unfold note_length at 1. destruct (t =? S_IFLNK)%N; [reflexivity|]. cbn [orb].
    rewrite IH by (intros e He; apply (H e); right; exact He). destruct (existsb snd (seen_of evs)); [reflexivity|]. f_equal. lia.
  - exfalso. apply (H e). left. reflexivity.
Qed.
Lemma threshold_walk dir n : (forall e, ~ In (inr e) (events [] n)) ->
  new_threshold dir n = migration_threshold (seen_of (events [] n)).
Proof.
  intros H. unfold new_threshold, migration_threshold. rewrite walk_top, (run_length _ _ _ H).
  destruct (existsb snd (seen_of (events [] n))); reflexivity.
Qed.
Lemma seen_in evs name k : In (name, k) (seen_of evs) <-> exists p t, In (inl (p, name, t)) evs /\ k = (t =? S_IFLNK)%N.
Proof.
  unfold seen_of. rewrite in_flat_map. split.
  - intros ([[[p n] t]|e] & H & Hi); [|destruct Hi]. destruct Hi as [E|[]]. injection E as -> <-. eauto.
  - intros (p & t & H & ->). eexists. split; [exact H|]. left. reflexivity.
Qed.
