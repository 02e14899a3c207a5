(** What a command that walks a repository sees: C96. *)
From Coq Require Import Strings.String.
From Verif Require Import Base BaseLemmas TextModel CryptoModel NameModel NameSpec NameTop
  LongNameModel LongNameSpec LongNameProofs LongNameInv LongNameSuffix LongNameTop PropertiesNames PropertiesLongNames
  WalkModel WalkSpec WalkProofs.
Local Open Scope list_scope.

(** ** C96 *)

(** On a host that tells the types of entries, a walk over directories that can be
    read calls back for everything that is in the tree, each once, and for nothing
    else, with the right path, name and type. *)
Theorem C96_visits :
  forall root, host_tree root -> readable root -> types_told root ->
  forall dir, exists seen, recursive_traverse keep dir root [] = Ok seen /\
    (forall d name t, In (d, name, t) seen <->
       exists path c, d = text dir path /\ t = type_of c /\ inside root (path ++ [name]) c) /\
    exists order, NoDup order /\ seen = map (fun x => (text dir (fst (fst x)), snd (fst x), snd x)) order /\
      (forall path name t, In (path, name, t) order -> exists c, t = type_of c /\ inside root (path ++ [name]) c).
Proof.
  intros root (Hd & Hu & Hn) HR HT dir.
  assert (Hf : forall e, ~ In (inr e) (events [] root)) by (intros e; apply events_fine; auto).
  rewrite walk_top, (run_keep _ _ _ Hf). cbn [app]. eexists. split; [reflexivity|]. split.
  - intros d name t. rewrite in_flat_map. split.
    + intros ([[[p nm] t']|e] & H & Hi); [|destruct Hi]. destruct Hi as [E|[]]. injection E as <- <- <-.
      apply (events_sound root HT) in H. destruct H as (r & c & -> & Hi & ->). exists r, c. auto.
    + intros (path & c & -> & -> & Hi). exists (inl (path, name, type_of c)). split; [|left; reflexivity].
      apply (events_complete root HT HR path c []). exact Hi.
  - exists (flat_map (fun ev : event => match ev with inl x => [x] | inr _ => [] end) (events [] root)). split; [|split].
    + pose proof (events_once root (fun p o l e Hi => proj1 (Hn p o l e Hi)) []) as ND. revert ND.
      generalize (events [] root). intros evs. induction evs as [|[[[p nm] t]|e] evs IH]; intros ND; [constructor| |exact (IH ND)].
      cbn [flat_map app]. change (NoDup ((p, nm) :: places evs)) in ND. inversion ND as [|x y Hx ND1]; subst. constructor; [|exact (IH ND1)].
      intros H. apply Hx. apply places_in. exists t. apply in_flat_map in H. destruct H as ([x|e] & H & Hi); [|destruct Hi].
      destruct Hi as [<-|[]]. exact H.
    + generalize (events [] root). intros evs. induction evs as [|[[[p nm] t]|e] evs IH]; [reflexivity| |exact IH].
      cbn [flat_map app map fst snd]. rewrite IH. reflexivity.
    + intros path name t H. apply in_flat_map in H. destruct H as ([x|e] & H & Hi); [|destruct Hi]. destruct Hi as [->|[]].
      apply (events_sound root HT) in H. destruct H as (r & c & -> & Hi & ->). eauto.
Qed.
Print Assumptions C96_visits.

(** Whatever the callback does: when a directory in the tree cannot be opened or read
    to its end, the walk does not report success. *)
Theorem C96_unreadable :
  forall root, types_told root ->
  forall path o l e, inside root path (NDir o l e) -> o <> None \/ e <> None ->
  forall (S : Type) (callback : bytes -> bytes -> N -> S -> res S) dir s s',
  recursive_traverse callback dir root s <> Ok s'.
Proof.
  intros root HT path o l e Hi Hb S cb dir s s'. rewrite walk_top. apply runev_error. exact (events_error root HT path o l e Hi Hb []).
Qed.
Print Assumptions C96_unreadable.

(** So a change of the suffix that reports success has found every table: every path
    leads, with the suffix the repository has now, to what it led to before. *)
Theorem C96_suffix_change :
  forall cmac keystream blake, sizes_ok cmac keystream blake ->
  forall threshold old new, 0 < threshold -> suffix_ok (suffix_in_force old) -> suffix_ok new ->
  let tr suffix := make_translator cmac keystream blake false threshold suffix None None in
  forall ops, benign_run (tr old) (suffix_in_force old) ops empty_fs ->
  let fs := lite_run (tr old) ops empty_fs in
  forall root, host_tree root -> readable root -> types_told root -> shows root fs ->
  forall bad fs' now, change_long_name_suffix old new bad root fs = (fs', Ok now) ->
    suffix_in_force now = new /\ forall path, fuse_path path -> found (tr now) fs' path = found (tr old) fs path.
Proof.
  intros cmac ks blake Hsz threshold old new Ht Hs Hs2 tr ops Hb fs root HH HR HT HS bad fs' now Hc.
  pose proof Hsz as (H1 & H2 & H3). pose proof (hist_inv_all cmac ks blake H1 H2 H3 threshold Ht old Hs ops Hb) as HI.
  change (lite_run _ ops empty_fs) with fs in HI. unfold change_long_name_suffix in Hc.
  assert (Hnew : new <> []) by (intros ->; destruct Hs2 as ((c & Hc1 & _) & _); destruct Hc1).
  destruct new as [|n0 new]; [congruence|].
  change (match old with [] => kLegacyLongNameSuffix | _ :: _ => old end) with (suffix_in_force old) in Hc.
  destruct (bytes_eqb (suffix_in_force old) (n0 :: new)) eqn:Eq.
  - injection Hc as <- <-. apply bytes_eqb_eq in Eq. split; [exact Eq|]. reflexivity.
  - assert (Hne : suffix_in_force old <> n0 :: new) by (intros E; rewrite E, bytes_eqb_refl in Eq; discriminate Eq).
    destruct (walk_tables root fs HH HR HT (proj1 HI) HS) as (dirs & Ew & Htab).
    + intros p es u Hp Hu. destruct (do_named _ _ _ (proj2 HI _ _ Hp) u Hu) as [->|(l & nm & _ & Hn & _ & -> & _)].
      * split; discriminate.
      * pose proof (pcomp_safe _ _ _ H1 H2 H3 threshold old nm (fun _ => Hs) Hn) as (HL & _). split; intros E; rewrite E in HL; cbn in HL; lia.
    + intros p es Hp. exact (do_table _ _ _ (proj2 HI _ _ Hp)).
    + rewrite Ew in Hc. destruct (change_dirs (suffix_in_force old) (n0 :: new) bad (map comps dirs) fs) as [fs1 [u|er]] eqn:Ec; [|discriminate Hc].
      injection Hc as <- <-. split; [reflexivity|]. destruct u.
      exact (proj1 (C47_suffix_change_keeps_every_path cmac ks blake Hsz threshold old (n0 :: new) Ht Hs Hs2 Hne ops Hb (map comps dirs) bad fs1 Htab Ec)).
Qed.
Print Assumptions C96_suffix_change.

(** And a migration that reports a threshold has seen that no symbolic link is there,
    and leaves every path with the physical names that are there for it. *)
Theorem C96_migration :
  forall cmac keystream blake, sizes_ok cmac keystream blake ->
  forall root, host_tree root -> readable root -> types_told root ->
  forall dir,
    (forall path, inside root path NLink -> new_threshold dir root = Err EInval) /\
    forall threshold, new_threshold dir root = Ok threshold ->
    (forall path, ~ inside root path NLink) /\ 0 < threshold /\
    forall suffix old_suffix, suffix_ok (suffix_in_force suffix) ->
    let old := make_translator cmac keystream blake false 0 old_suffix None None in
    let new := make_translator cmac keystream blake false threshold suffix None None in
    forall path P l c, hd x00 path = slash -> t_encrypt old path = Ok (P, l) -> inside root (steps P) c ->
      exists P', t_encrypt new path = Ok (P', []) /\ steps P' = steps P.
Proof.
  intros cmac ks blake Hsz root (Hd & Hu & Hn) HR HT dir.
  assert (Hf : forall e, ~ In (inr e) (events [] root)) by (intros e; apply events_fine; auto).
  assert (HLK : forall path, inside root path NLink -> new_threshold dir root = Err EInval).
  { intros path Hi. destruct path as [|w path0] using rev_ind.
    - inversion Hi; subst. destruct Hd as (o & l & e & E). discriminate E.
    - rewrite (threshold_walk dir root Hf). unfold migration_threshold.
      assert (HX : existsb snd (seen_of (events [] root)) = true).
      { apply existsb_exists. exists (w, true). split; [|reflexivity]. apply seen_in. exists path0, S_IFLNK. split; [|reflexivity].
        exact (events_complete root HT HR path0 NLink [] w Hi). }
      rewrite HX. reflexivity. }
  split; [exact HLK|]. intros threshold Hth. split; [|split].
  - intros path Hi. rewrite (HLK path Hi) in Hth. discriminate Hth.
  - rewrite (threshold_walk dir root Hf) in Hth.
    exact (proj1 (C40_migration_keeps_names cmac ks blake Hsz _ threshold (str ".ll") [] ex_suffix Hth)).
  - intros suffix old_suffix Hs old new path P l c Hp He Hi. rewrite (threshold_walk dir root Hf) in Hth.
    apply (proj2 (C40_migration_keeps_names cmac ks blake Hsz _ threshold suffix old_suffix Hs Hth) path P l Hp He).
    intros w Hw. apply in_split in Hw. destruct Hw as (a & b & E). rewrite E in Hi.
    assert (HP : exists c', inside root (a ++ [w]) c').
    { clear - Hi. revert root Hi. induction a as [|x a IH]; intros root Hi; cbn in Hi |- *; inversion Hi as [|o l e nm b0 ch pt c0 Hin Hr Hsub]; subst.
      - exists ch. eapply inside_down; eauto. constructor.
      - destruct (IH _ Hsub) as (c' & Hc'). exists c'. eapply inside_down; eauto. }
    destruct HP as (c' & Hc'). apply in_map_iff. exists (w, (type_of c' =? S_IFLNK)%N). split; [reflexivity|].
    apply seen_in. exists a, (type_of c'). split; [|reflexivity]. exact (events_complete root HT HR a c' [] w Hc').
Qed.
Print Assumptions C96_migration.

(** ** Cases *)

(** All directories in a tree. *)
Fixpoint all_dirs (p : list bytes) (n : node) : list (list bytes * option N * list (bytes * bool * node) * option N) :=
  match n with
  | NDir o l e =>
    (p, o, l, e) ::
    (fix go (es : list (bytes * bool * node)) :=
       match es with
       | [] => []
       | (name, b, c) :: es' => (if dots name then [] else all_dirs (p ++ [name]) c) ++ go es'
       end) l
  | _ => []
  end.
Lemma all_dirs_in n q o l e : inside n q (NDir o l e) -> forall p, In (p ++ q, o, l, e) (all_dirs p n).
Proof.
  intros Hi. remember (NDir o l e) as d. revert Heqd. induction Hi as [n|o1 l1 e1 nm b1 ch path c1 H1 H2 H3 IH]; intros -> p.
  - rewrite app_nil_r. left. reflexivity.
  - right. specialize (IH eq_refl (p ++ [nm])). rewrite <- app_assoc in IH. cbn [app] in IH. apply dots_real in H2. clear H3.
    induction l1 as [|[[n1 b2] c2] l1 IHl]; [destruct H1|]. apply in_or_app. destruct H1 as [E|H1]; [|right; exact (IHl H1)].
    injection E as -> -> ->. left. rewrite H2. exact IH.
Qed.
Lemma for_all_dirs n (P : list bytes -> option N -> list (bytes * bool * node) -> option N -> bool) :
  forallb (fun x => match x with (p, o, l, e) => P p o l e end) (all_dirs [] n) = true ->
  forall p o l e, inside n p (NDir o l e) -> P p o l e = true.
Proof. intros H p o l e Hi. rewrite forallb_forall in H. exact (H _ (all_dirs_in n p o l e Hi [])). Qed.
Lemma no_up_b n : n <> NUp -> (forall p o l e, inside n p (NDir o l e) -> forallb (fun x => dots (fst (fst x)) || match snd x with NUp => false | _ => true end) l = true) ->
  forall p, ~ inside n p NUp.
Proof.
  intros Hn H p Hi. destruct p as [|w p] using rev_ind; [inversion Hi; subst; congruence|].
  apply inside_last in Hi. destruct Hi as (o & l & e & b & Hi & Hin & Hr). specialize (H _ _ _ _ Hi). rewrite forallb_forall in H.
  specialize (H _ Hin). cbn [fst snd] in H. apply dots_real in Hr. rewrite Hr in H. discriminate H.
Qed.
Fixpoint nodup_b (l : list bytes) : bool := match l with [] => true | x :: l' => negb (existsb (bytes_eqb x) l') && nodup_b l' end.
Lemma nodup_b_ok l : nodup_b l = true -> NoDup l.
Proof.
  induction l as [|x l IH]; intros H; [constructor|]. cbn [nodup_b] in H. apply andb_true_iff in H. destruct H as (A & B). constructor; [|exact (IH B)].
  intros Hi. apply negb_true_iff in A. assert (HX : existsb (bytes_eqb x) l = true) by (apply existsb_exists; exists x; split; [exact Hi|apply bytes_eqb_refl]). congruence.
Qed.
Definition host_b (n : node) : bool :=
  match n with NDir _ _ _ => true | _ => false end &&
  forallb (fun x => match x with (p, o, l, e) =>
     forallb (fun x => dots (fst (fst x)) || match snd x with NUp => false | _ => true end) l &&
     nodup_b (map (fun x => fst (fst x)) l) &&
     forallb (fun x => negb (bytes_eqb (fst (fst x)) []) && negb (existsb (Byte.eqb slash) (fst (fst x)))) l end) (all_dirs [] n).
Lemma host_b_ok n : host_b n = true -> host_tree n.
Proof.
  unfold host_b. intros H. apply andb_true_iff in H. destruct H as (Hk & H). pose proof (for_all_dirs n (fun p o l e => forallb (fun x => dots (fst (fst x)) || match snd x with NUp => false | _ => true end) l &&
     nodup_b (map (fun x => fst (fst x)) l) &&
     forallb (fun x => negb (bytes_eqb (fst (fst x)) []) && negb (existsb (Byte.eqb slash) (fst (fst x)))) l) H) as HA. clear H.
  split; [destruct n; try discriminate Hk; eauto|]. split.
  - apply no_up_b; [intros ->; discriminate Hk|]. intros p o l e Hi. specialize (HA p o l e Hi). apply andb_true_iff in HA. destruct HA as (HA & _).
    apply andb_true_iff in HA. tauto.
  - intros p o l e Hi. specialize (HA p o l e Hi). apply andb_true_iff in HA. destruct HA as (HA & HC). apply andb_true_iff in HA. destruct HA as (_ & HB).
    split; [apply nodup_b_ok; exact HB|]. intros name b c Hin. rewrite forallb_forall in HC. specialize (HC _ Hin). cbn [fst] in HC.
    apply andb_true_iff in HC. destruct HC as (C1 & C2). apply negb_true_iff in C1, C2. split; [intros ->; discriminate C1|].
    intros Hs. assert (HX : existsb (Byte.eqb slash) name = true); [|congruence]. apply existsb_exists. exists slash. split; [exact Hs|reflexivity].
Qed.
Definition shows_b (n : node) (fs : hfs) : bool :=
  forallb (fun x => match x with (p, o, l, e) =>
    match fs p with
    | None => false
    | Some es => forallb (fun x => existsb (bytes_eqb (fst x)) (map (fun y => fst (fst y)) l)) es &&
        forallb (fun y => dots (fst (fst y)) ||
          match ent (fst (fst y)) es, snd y with
          | Some KDir, NDir _ _ _ => true
          | Some KDir, _ => false
          | Some _, NFile => true
          | None, NFile => negb (bytes_eqb (fst (fst y)) kLongNameTableFileName)
          | _, _ => false
          end) l
    end end) (all_dirs [] n).
Lemma shows_b_ok n fs : shows_b n fs = true -> shows n fs.
Proof.
  intros H p o l e Hi. pose proof (for_all_dirs n (fun p o l e => match fs p with
    | None => false
    | Some es => forallb (fun x => existsb (bytes_eqb (fst x)) (map (fun y => fst (fst y)) l)) es &&
        forallb (fun y => dots (fst (fst y)) ||
          match ent (fst (fst y)) es, snd y with
          | Some KDir, NDir _ _ _ => true
          | Some KDir, _ => false
          | Some _, NFile => true
          | None, NFile => negb (bytes_eqb (fst (fst y)) kLongNameTableFileName)
          | _, _ => false
          end) l end) H p o l e Hi) as HA. clear H. cbn beta in HA. destruct (fs p) as [es|]; [|discriminate HA].
  apply andb_true_iff in HA. destruct HA as (HA & HB). exists es. split; [reflexivity|]. split.
  - intros name Hn. destruct (ent name es) as [k|] eqn:E; [|congruence]. apply ent_in in E. rewrite forallb_forall in HA. specialize (HA _ E).
    apply existsb_exists in HA. destruct HA as (x & Hx & Eq). apply bytes_eqb_eq in Eq. cbn [fst] in Eq. subst x.
    apply in_map_iff in Hx. destruct Hx as ([[nm b] c] & En & Hx). cbn [fst] in En. subst nm. eauto.
  - intros name b c Hr Hin. rewrite forallb_forall in HB. specialize (HB _ Hin). cbn [fst snd] in HB. apply dots_real in Hr. rewrite Hr in HB. cbn [orb] in HB.
    destruct (ent name es) as [[i| |m]|]; destruct c; try discriminate HB; eauto.
    split; [reflexivity|]. intros ->. discriminate HB.
Qed.

(** The directories [fs] as a host shows them that tells types, or only those that
    [told] says. *)
Fixpoint tree_of (told : bytes -> bool) (fuel : nat) (fs : hfs) (p : hpath) : node :=
  match fuel with
  | 0 => NOther
  | Datatypes.S fuel' =>
    match fs p with
    | None => NOther
    | Some es =>
      NDir None
        ((([dot], true, NUp) :: ([dot; dot], true, NUp) ::
          map (fun e => (fst e, told (fst e), match snd e with KDir => tree_of told fuel' fs (p ++ [fst e]) | _ => NFile end)) es) ++
         match p with [] => [(str ".config.pb", true, NFile)] | _ => [] end) None
    end
  end.
Definition ex_root : node := tree_of (fun _ => true) 4 ex_fs [].
Definition ex_rootq : node := tree_of (fun _ => false) 4 ex_fs [].

Lemma ex_host told : told = (fun _ => true) \/ told = (fun _ => false) -> host_tree (tree_of told 4 ex_fs []) /\ shows (tree_of told 4 ex_fs []) ex_fs.
Proof. intros [->| ->]; (split; [apply host_b_ok; vm_compute; reflexivity|apply shows_b_ok; vm_compute; reflexivity]). Qed.
Definition readable_b (n : node) : bool :=
  forallb (fun x => match x with (p, o, l, e) => match o, e with None, None => true | _, _ => false end end) (all_dirs [] n).
Lemma readable_b_ok n : readable_b n = true -> readable n.
Proof.
  intros H p o l e Hi. pose proof (for_all_dirs n (fun p o l e => match o, e with None, None => true | _, _ => false end) H p o l e Hi) as HA.
  cbn beta in HA. destruct o, e; try discriminate HA. auto.
Qed.
Definition told_b (n : node) : bool :=
  forallb (fun x => match x with (p, o, l, e) => forallb (fun y => snd (fst y)) l end) (all_dirs [] n).
Lemma told_b_ok n : told_b n = true -> types_told n.
Proof.
  intros H p o l e name b c Hi Hin. pose proof (for_all_dirs n (fun p o l e => forallb (fun y => snd (fst y)) l) H p o l e Hi) as HA.
  cbn beta in HA. rewrite forallb_forall in HA. exact (HA _ Hin).
Qed.

(** A repository with four tables.  The root's table comes before the subdirectory with
    a long name in the order in which [ex_fs] lists it, so the change, which then stops
    half-way (see C47), needs a host that lists tables last. *)
Fixpoint tables_last (n : node) : node :=
  match n with
  | NDir o l e =>
    let l' := (fix go (es : list (bytes * bool * node)) :=
       match es with [] => [] | (name, b, c) :: es' => (name, b, tables_last c) :: go es' end) l in
    NDir o (filter (fun x => negb (bytes_eqb (fst (fst x)) kLongNameTableFileName)) l' ++
            filter (fun x => bytes_eqb (fst (fst x)) kLongNameTableFileName) l') e
  | _ => n
  end.
Example C96_example :
  let root := tables_last ex_root in
  host_tree root /\ readable root /\ types_told root /\ shows root ex_fs /\
  match recursive_traverse keep [dot] root [] with Ok seen => length seen = 11 | Err _ => False end /\
  match recursive_traverse note_table [dot] root [] with Ok dirs => length dirs = 4 | Err _ => False end /\
  match change_long_name_suffix ll (str "@@") None root ex_fs with
  | (fs', Ok now) => now = str "@@" /\
      found ex_new fs' (str "/the outer directory/the inner directory/a long file name") = Some (KFile 1)
  | _ => False
  end /\
  match new_threshold (str "/data") root with Ok t => t = 128 | Err _ => False end.
Proof.
  cbv zeta. split; [apply host_b_ok; vm_compute; reflexivity|]. split; [apply readable_b_ok; vm_compute; reflexivity|].
  split; [apply told_b_ok; vm_compute; reflexivity|]. split; [apply shows_b_ok; vm_compute; reflexivity|].
  split; [vm_compute; reflexivity|]. split; [vm_compute; reflexivity|]. split; vm_compute; repeat split.
Qed.

(** A directory that cannot be opened, and a link that is found. *)
Example C96_example_refused :
  let root := NDir None [([dot], true, NUp); (str "a", true, NDir (Some 13%N) [] None)] None in
  let linked := NDir None [(str "a", true, NDir None [(str "b", true, NLink)] None)] None in
  types_told root /\ inside root [str "a"] (NDir (Some 13%N) [] None) /\ recursive_traverse keep [dot] root [] = Err (EPosix 13) /\
  host_tree linked /\ readable linked /\ types_told linked /\ inside linked [str "a"; str "b"] NLink /\ new_threshold (str "/d") linked = Err EInval.
Proof.
  cbv zeta. split; [apply told_b_ok; vm_compute; reflexivity|]. split.
  { eapply inside_down; [right; left; reflexivity|split; discriminate|constructor]. }
  split; [reflexivity|]. split; [apply host_b_ok; vm_compute; reflexivity|]. split; [apply readable_b_ok; vm_compute; reflexivity|].
  split; [apply told_b_ok; vm_compute; reflexivity|]. split; [|reflexivity].
  eapply inside_down; [left; reflexivity|split; discriminate|]. eapply inside_down; [left; reflexivity|split; discriminate|constructor].
Qed.

(** ** Where the host does not tell types *)

(** The walk takes a directory of unknown type for something else and does not go into
    it: the change of the suffix reports success, and a file with a long name below
    is found no more. *)
Theorem C96_untold_suffix_refuted :
  ~ (forall ops, benign_run ex_tr ll ops empty_fs ->
     forall root fs' now, host_tree root -> readable root -> shows root (lite_run ex_tr ops empty_fs) ->
     change_long_name_suffix ll (str "@@") None root (lite_run ex_tr ops empty_fs) = (fs', Ok now) ->
     forall path, fuse_path path ->
     found (make_translator ex_cmac ex_ks ex_blake false 10 now None None) fs' path = found ex_tr (lite_run ex_tr ops empty_fs) path).
Proof.
  intros H. specialize (H ex_nest ex_nest_benign ex_rootq). fold ex_fs in H.
  destruct (change_long_name_suffix ll (str "@@") None ex_rootq ex_fs) as [fs' r] eqn:E.
  assert (Hr : r = Ok (str "@@")) by (apply (f_equal snd) in E; cbn [snd] in E; rewrite <- E; vm_compute; reflexivity). subst r.
  specialize (H fs' _ (proj1 (ex_host _ (or_intror eq_refl))) ltac:(apply readable_b_ok; vm_compute; reflexivity) (proj2 (ex_host _ (or_intror eq_refl))) eq_refl).
  apply (f_equal fst) in E. cbn [fst] in E. subst fs'.
  specialize (H (str "/s/another long file name") ltac:(apply fuse_pathb; vm_compute; reflexivity)). vm_compute in H. discriminate H.
Qed.
Print Assumptions C96_untold_suffix_refuted.

(** A migration overlooks a symbolic link of unknown type. *)
Theorem C96_untold_link_refuted :
  ~ (forall root, host_tree root -> readable root ->
     forall dir threshold, new_threshold dir root = Ok threshold -> forall path, ~ inside root path NLink).
Proof.
  intros H. apply (H (NDir None [(str "a", false, NLink)] None) ltac:(apply host_b_ok; vm_compute; reflexivity)
    ltac:(apply readable_b_ok; vm_compute; reflexivity) (str "/d") 128 eq_refl [str "a"]).
  eapply inside_down; [left; reflexivity|split; discriminate|constructor].
Qed.
Print Assumptions C96_untold_link_refuted.
