(** C68: names that differ only in case or Unicode normalisation. *)
From Coq Require Import Strings.String.
From Verif Require Import Base BaseLemmas TextModel NameModel NameSpec BtreeModel BtreeSpec BtreeShape FullFsModel FullFsSpec FullFsStep
  LongNameModel LongNameSpec LongNameTop LiteTreeSpec LiteTreeTop NormModel NormSpec NormProofs
  PropertiesFullFs PropertiesNames PropertiesLongNames PropertiesLiteTree.
Local Open Scope list_scope.

(** ** Full format *)

(** The comparison that a repository uses tells names apart exactly by what is left of
    them ([name_key]) when case, or normalisation, or both are removed, as its
    configuration says, and it orders them. *)
Theorem C68_comparison : forall U fold, unicode_ok U fold -> forall ci un,
  cmp_ok (dir_name_comparison U ci un) /\
  forall a b, dir_name_comparison U ci un a b = lex (name_key U fold ci un a) (name_key U fold ci un b) /\
    (dir_name_comparison U ci un a b = Eq <-> name_key U fold ci un a = name_key U fold ci un b).
Proof.
  intros U fold HU ci un. split; [exact (comparison_ok U fold HU ci un)|]. intros a b.
  split; [exact (comparison_key U fold HU ci un a b)|exact (comparison_eq U fold HU ci un a b)].
Qed.
Print Assumptions C68_comparison.

(** However a path is spelt, the operations that make no name do the same with it:
    the same answer and the same effect. *)
Theorem C68_any_spelling : forall U fold, unicode_ok U fold -> forall ci un st o o',
  respelled (name_key U fold ci un) o o' ->
  fs_step (dir_name_comparison U ci un) o st = fs_step (dir_name_comparison U ci un) o' st.
Proof. intros U fold HU ci un st o o'. exact (respelled_same U fold HU ci un o o' st). Qed.
Print Assumptions C68_any_spelling.

(** A directory shows a new name exactly as it was spelt, for files, directories and
    symbolic links, and never two names that are alike. *)
Theorem C68_new_names_keep_their_spelling : forall U fold, unicode_ok U fold -> forall ci un st,
  reached (dir_name_comparison U ci un) st ->
  (forall o path x ty, makes path x ty o -> careful (dir_name_comparison U ci un) o st ->
   forall st' out, fs_step (dir_name_comparison U ci un) o st = (st', Ok out) ->
   exists d, designates (dir_name_comparison U ci un) st path d (last (path_comps path) []) /\
             shows st' d (last (path_comps path) []) x ty) /\
  (forall d n x ty n' x' ty', shows st d n x ty -> shows st d n' x' ty' ->
     name_key U fold ci un n = name_key U fold ci un n' -> n = n').
Proof.
  intros U fold HU ci un st HR. pose proof (comparison_ok U fold HU ci un) as HC. split.
  - intros o path x ty Ho Hc st' out E.
    destruct (C49_effects _ HC st HR o Hc st' (Ok out) E) as (G & _ & _).
    destruct Ho; destruct G as (G & _); exact (new_spelling U fold HU ci un _ path _ x _ _ st st' out HR Hc eq_refl E G).
  - intros d n x ty n' x' ty' H1 H2 Hk. exact (proj1 (one_spelling U fold HU ci un st d n x ty n' x' ty' HR H1 H2 Hk)).
Qed.
Print Assumptions C68_new_names_keep_their_spelling.

(** No operation changes the spelling of a name but those that make one: whatever a
    directory shows afterwards, it showed before, or the operation spelt it so at the
    end of a path. *)
Theorem C68_spelling_is_stable : forall cmp st o d n x ty,
  shows (fst (fs_step cmp o st)) d n x ty -> shows st d n x ty \/ In n (spelt o).
Proof. intros cmp st o d n x ty H. destruct (spelling cmp o st d n x ty H) as [G|[G _]]; auto. Qed.
Print Assumptions C68_spelling_is_stable.

(** Asking for the true path of a path that exists gives the names as the directories
    show them, if the buffer has room for them and a NUL; and the answer is a path
    like the one given, of which the true path is itself.  Asking changes no file. *)
Theorem C68_true_path : forall U fold, unicode_ok U fold -> forall ci un st,
  let cmp := dir_name_comparison U ci un in
  reached cmp st -> forall path size, path_comps path <> [] ->
  (forall x, plain_walk cmp st root_id (path_comps path) = Some x ->
     exists st' names, as_shown st root_id names x /\
       let text := flat_map (fun n => slash :: n) names in
       getpath cmp path size st = (st', if length text <? size then Ok (text ++ repeat x00 (size - length text)) else Err (EPosix 36))) /\
  (forall st' buf, getpath cmp path size st = (st', Ok buf) ->
     exists names x, let text := flat_map (fun n => slash :: n) names in
       buf = text ++ repeat x00 (size - length text) /\ length text < size /\
       as_shown st root_id names x /\ paths_alike (name_key U fold ci un) path text /\
       getpath cmp text size st = (st', Ok buf)) /\
  same_files st (fst (getpath cmp path size st)).
Proof.
  intros U fold HU ci un st cmp HR path size Hn. split; [|split].
  - intros x Hw. exact (getpath_plain U fold HU ci un st path size x HR Hn Hw).
  - intros st' buf E. exact (getpath_ok U fold HU ci un st path size st' buf HR Hn E).
  - destruct (getpath cmp path size st) as [st1 r] eqn:E. exact (getpath_same U ci un path size st st1 r E).
Qed.
Print Assumptions C68_true_path.

(** A small Unicode library for the examples: "e" with an acute accent, as one
    character (C3 A9) or as two (65 CC 81), and the case of ASCII letters. *)
Fixpoint ex_nfd (s : bytes) : bytes :=
  match s with
  | [] => []
  | c :: r => match c, r with
              | xc3, xa9 :: r' => x65 :: xcc :: x81 :: ex_nfd r'
              | _, _ => c :: ex_nfd r
              end
  end.
Definition ex_fold (s : bytes) : list N := map (fun c => b2n (lower_byte c)) s.
Definition ex_unicode : unicode := mkUnicode ex_nfd (fun a b => lex (ex_fold a) (ex_fold b)).
Lemma ex_nfd_or : forall k s, length s <= k -> ex_nfd s = s \/ In xcc (ex_nfd s).
Proof.
  induction k as [|k IH]; intros s Hl; [destruct s; [now left|cbn in Hl; lia]|].
  destruct s as [|c r]; [now left|]. cbn [length] in Hl.
  assert (Hd : ex_nfd (c :: r) = c :: ex_nfd r \/ exists r', r = xa9 :: r' /\ ex_nfd (c :: r) = x65 :: xcc :: x81 :: ex_nfd r').
  { cbn [ex_nfd]. destruct c; try (left; reflexivity). destruct r as [|c' r']; [left; reflexivity|].
    destruct c'; try (left; reflexivity). right. exists r'. split; reflexivity. }
  destruct Hd as [->|(r' & -> & ->)].
  - destruct (IH r ltac:(lia)) as [->|H]; [now left|right; now right].
  - right. right. now left.
Qed.
Lemma ex_unicode_ok : unicode_ok ex_unicode ex_fold.
Proof.
  split.
  - reflexivity.
  - cbn [u_nfd ex_unicode]. induction a as [|c a IH]; [reflexivity|]. intros H. inversion H as [|? ? Hc Ha]; subst.
    assert (E : ex_nfd (c :: a) = c :: ex_nfd a); [|now rewrite E, (IH Ha)].
    cbn [ex_nfd]. destruct c; try reflexivity. vm_compute in Hc. discriminate Hc.
  - cbn [u_nfd ex_unicode]. intros a H. destruct (ex_nfd_or (length a) a (Nat.le_refl _)) as [E|E]; [exact E|]. exfalso.
    destruct H as [H|[H|[H|[]]]]; rewrite <- H in E; vm_compute in E; intuition discriminate.
  - assert (Hl : forall c, b2n (lower_byte c) = b2n dot -> c = dot).
    { intros c H. destruct c; try reflexivity; vm_compute in H; discriminate H. }
    intros a b [<-|[<-|[<-|[]]]] H.
    + destruct a; [reflexivity|discriminate H].
    + destruct a as [|c [|c' a]]; try discriminate H. injection H as H. now rewrite (Hl c H).
    + destruct a as [|c [|c' [|c'' a]]]; try discriminate H. injection H as H H'. now rewrite (Hl c H), (Hl c' H').
Qed.
Definition ex_cmp := dir_name_comparison ex_unicode true true.
Definition e_acute : bytes := [xc3; xa9].
Definition e_acute2 : bytes := [x65; xcc; x81].
Definition ex_nops : list fop :=
  [FMkdir (str "/Dir") 493 (xid x01) None; FCreate (str "/dIR/Caf" ++ e_acute) 420 (xid x02) None; FClose (xid x02) false;
   FCreate (str "/DIR/CAF" ++ e_acute2) 420 (xid x03) None].
Definition ex_nst : ffs := fs_run ex_cmp ex_nops new_repo.
Lemma ex_nst_reached : reached ex_cmp ex_nst.
Proof. apply (reached_b ex_cmp (comparison_ok ex_unicode ex_fold ex_unicode_ok true true)); vm_compute; reflexivity. Qed.
Example C68_full_example :
  unicode_ok ex_unicode ex_fold /\ reached ex_cmp ex_nst /\
  respelled (name_key ex_unicode ex_fold true true) (FGetattr (str "/Dir/Caf" ++ e_acute)) (FGetattr (str "/DIR/cAF" ++ e_acute2)) /\
  snd (fs_step ex_cmp (FGetattr (str "/DIR/cAF" ++ e_acute2)) ex_nst) = Ok (FOStat (xid x02) 33188 1 0) /\
  snd (fs_step ex_cmp (FCreate (str "/DIR/CAF" ++ e_acute2) 420 (xid x04) None) ex_nst) = Err (EPosix 17) /\
  careful_b ex_cmp (FCreate (str "/dir/New") 420 (xid x04) None) ex_nst = true /\
  snd (fs_step ex_cmp (FCreate (str "/dir/New") 420 (xid x04) None) ex_nst) = Ok (FOId (xid x04)) /\
  shows ex_nst (xid x01) (str "Caf" ++ e_acute) (xid x02) TREG /\
  plain_walk ex_cmp ex_nst root_id (path_comps (str "/DIR/cAF" ++ e_acute2)) = Some (xid x02) /\
  snd (getpath ex_cmp (str "/DIR/cAF" ++ e_acute2) 12 ex_nst) = Ok (str "/Dir/Caf" ++ e_acute ++ [x00; x00]) /\
  snd (getpath ex_cmp (str "/DIR/cAF" ++ e_acute2) 10 ex_nst) = Err (EPosix 36).
Proof.
  split; [exact ex_unicode_ok|]. split; [exact ex_nst_reached|]. split.
  { apply rs_getattr. split; [vm_compute; discriminate|]. vm_compute. repeat constructor. }
  split; [vm_compute; reflexivity|]. split; [vm_compute; reflexivity|]. split; [vm_compute; reflexivity|]. split; [vm_compute; reflexivity|].
  split; [eexists; split; [vm_compute; reflexivity|now left]|]. vm_compute. auto.
Qed.

(** Finding: renaming one link of a file to another link of it, which should do
    nothing, changes the spelling of both names if it spells them otherwise. *)
Theorem C68_rename_onto_own_link_refuted :
  ~ (forall st from to d n d' n' x, reached ex_cmp st -> designates ex_cmp st from d n -> designates ex_cmp st to d' n' ->
     name_in ex_cmp st d n = Some x -> name_in ex_cmp st d' n' = Some x -> (d, n) <> (d', n') ->
     forall y m t, shows st y m (fst x) t -> shows (fst (fs_step ex_cmp (FRename from to) st)) y m (fst x) t).
Proof.
  intros H.
  pose (ops := [FCreate (str "/One") 420 (xid x01) None; FLink (str "/One") (str "/Two")]).
  specialize (H (fs_run ex_cmp ops new_repo) (str "/one") (str "/two") root_id (str "one") root_id (str "two") (xid x01, TREG)).
  assert (HR : reached ex_cmp (fs_run ex_cmp ops new_repo))
    by (apply (reached_b ex_cmp (comparison_ok ex_unicode ex_fold ex_unicode_ok true true)); vm_compute; reflexivity).
  assert (D1 : designates ex_cmp (fs_run ex_cmp ops new_repo) (str "/one") root_id (str "one"))
    by (right; split; [vm_compute; discriminate|]; split; [vm_compute; reflexivity|]; exists []; vm_compute; constructor).
  assert (D2 : designates ex_cmp (fs_run ex_cmp ops new_repo) (str "/two") root_id (str "two"))
    by (right; split; [vm_compute; discriminate|]; split; [vm_compute; reflexivity|]; exists []; vm_compute; constructor).
  specialize (H HR).
  specialize (H D1 D2 ltac:(vm_compute; reflexivity) ltac:(vm_compute; reflexivity) ltac:(discriminate) root_id (str "One") TREG).
  assert (S : shows (fs_run ex_cmp ops new_repo) root_id (str "One") (fst (xid x01, TREG)) TREG)
    by (eexists; split; [vm_compute; reflexivity|right; now left]).
  destruct (H S) as (nd & Hg & Hin). vm_compute in Hg. injection Hg as <-. vm_compute in Hin. intuition discriminate.
Qed.
Print Assumptions C68_rename_onto_own_link_refuted.

(** ** Lite format *)

(** Mounted with normalisation, a repository answers every history of operations as a
    plain tree does that is asked for the normal forms of the paths, and finds a path
    where that tree has its normal form.  [g] is the normal form of a name; that the
    normal form of a path consists of those of its names is assumed of the Unicode
    library. *)
Theorem C68_lite_tree_of_normal_forms :
  forall cmac keystream blake, sizes_ok cmac keystream blake ->
  forall threshold suffix, (0 < threshold -> suffix_ok (suffix_in_force suffix)) ->
  forall nfc fold g, by_names nfc fold g ->
  let trn := make_translator cmac keystream blake false threshold suffix nfc fold in
  forall ops names, Forall from_fuse ops -> incl (op_names (map (normal_op g) ops)) names -> names_fit blake false threshold names ->
  exists v, plain_history (map (normal_op g) ops) empty_fs (lite_answers trn ops empty_fs) v /\
    forall path, fuse_path path -> incl (split_slash (normal_path g path)) names ->
      found trn (lite_run trn ops empty_fs) path = plain_found v (normal_path g path).
Proof.
  intros cmac ks blake HS threshold suffix Hc nfc fold g Hg trn ops names HO HN HF. pose proof HS as (H1 & H2 & H3).
  assert (HO' : Forall from_fuse (map (normal_op g) ops)).
  { rewrite Forall_map. revert HO. apply Forall_impl. intros o. exact (from_fuse_normal nfc fold g Hg o). }
  pose proof (fits g names ops HO HN) as Hfit.
  destruct (history_normal cmac ks blake H1 H2 H3 threshold suffix nfc fold g Hg names HF ops Hfit empty_fs) as [EA ER].
  destruct (C54_directories_are_a_plain_tree cmac ks blake HS false threshold suffix (fun _ => Hc) (map (normal_op g) ops) names HO' HN HF) as (v & HP & HR).
  exists v. unfold trn. rewrite EA, ER. split; [exact HP|]. intros path Hp Hi.
  rewrite (found_normal cmac ks blake H1 H2 H3 threshold suffix nfc fold g Hg names HF _ path Hp Hi).
  apply HR; [|exact Hi]. exact (proj1 (normal_fuse nfc fold g Hg path Hp)).
Qed.
Print Assumptions C68_lite_tree_of_normal_forms.

(** Two paths are stored in one place exactly if their normal forms are the same. *)
Theorem C68_lite_same_place :
  forall cmac keystream blake, sizes_ok cmac keystream blake ->
  forall threshold suffix, (0 < threshold -> suffix_ok (suffix_in_force suffix)) ->
  forall nfc fold g, by_names nfc fold g ->
  let trn := make_translator cmac keystream blake false threshold suffix nfc fold in
  forall p q names, fuse_path p -> fuse_path q -> names_fit blake false threshold names -> no_collision blake threshold names ->
    incl (split_slash (normal_path g p) ++ split_slash (normal_path g q)) names ->
    exists P Q l l', t_encrypt trn p = Ok (P, l) /\ t_encrypt trn q = Ok (Q, l') /\
      (to_lower P = to_lower Q <-> normal_path g p = normal_path g q) /\
      (normal_path g p = normal_path g q -> P = Q /\ l = l').
Proof.
  intros cmac ks blake HS threshold suffix Hc nfc fold g Hg trn p q names Hp Hq HF HN HI. pose proof HS as (H1 & H2 & H3).
  assert (Ip : incl (split_slash (normal_path g p)) names) by (intros w Hw; apply HI; apply in_or_app; auto).
  assert (Iq : incl (split_slash (normal_path g q)) names) by (intros w Hw; apply HI; apply in_or_app; auto).
  destruct (accepted cmac ks blake H1 H2 H3 threshold suffix names HF _ Ip) as ([P l] & EP).
  destruct (accepted cmac ks blake H1 H2 H3 threshold suffix names HF _ Iq) as ([Q l'] & EQ).
  exists P, Q, l, l'. unfold trn.
  rewrite (trn_same cmac ks blake H1 H2 H3 threshold suffix nfc fold g Hg names HF p Hp Ip).
  rewrite (trn_same cmac ks blake H1 H2 H3 threshold suffix nfc fold g Hg names HF q Hq Iq).
  assert (Hd : forall r, fuse_path r -> hd x00 r = slash) by (intros r (ns & _ & ->); destruct ns; reflexivity).
  refine (conj EP (conj EQ (conj _ _))).
  - split.
    + apply (C30_paths_never_collide cmac ks blake HS threshold suffix Hc _ _ P Q l l'); try assumption.
      * apply Hd. exact (proj1 (normal_fuse nfc fold g Hg p Hp)).
      * apply Hd. exact (proj1 (normal_fuse nfc fold g Hg q Hq)).
      * intros a b Ha Hb. apply HN; now apply HI.
    + intros E. rewrite E in EP. rewrite EP in EQ. now injection EQ as -> _.
  - intros E. rewrite E in EP. rewrite EP in EQ. injection EQ as -> ->. auto.
Qed.
Print Assumptions C68_lite_same_place.

(** Folding the case of ASCII letters, for the examples. *)
Definition lower_path (s : bytes) : res bytes := Ok (to_lower s).
Lemma lower_slash c : lower_byte c = slash -> c = slash.
Proof. destruct c; vm_compute; try discriminate; reflexivity. Qed.
Lemma lower_by_names : by_names None (Some lower_path) to_lower.
Proof.
  intros names H. split.
  - unfold normal, lower_path. cbn [rbind]. f_equal. destruct names as [|n names]; [reflexivity|].
    assert (G : forall l, to_lower (flat_map (fun n => slash :: n) l) = flat_map (fun n => slash :: n) (map to_lower l)).
    { unfold to_lower. induction l as [|m l IH]; [reflexivity|]. cbn [flat_map map app]. rewrite map_app, IH. reflexivity. }
    exact (G (n :: names)).
  - rewrite Forall_map. revert H. apply Forall_impl. intros n [H1 H2]. unfold to_lower. split; [destruct n; [congruence|discriminate]|].
    intros Hi. apply in_map_iff in Hi as (c & Hc & Hin). apply lower_slash in Hc. subst c. contradiction.
Qed.
Definition ex_trn := make_translator ex_cmac ex_ks ex_blake false 10 (str ".ll") None (Some lower_path).
Definition ex_lops : list lop :=
  [LMkdir (str "/Dir") None; LOpen (str "/dIR/File") true true 1 None None; LOpen (str "/DIR/FILE") true true 2 None None;
   LOpen (str "/dir/A Long File Name") true true 3 None None].
Example C68_lite_example :
  Forall from_fuse ex_lops /\ names_fit ex_blake false 10 (op_names (map (normal_op to_lower) ex_lops)) /\
  lite_answers ex_trn ex_lops empty_fs = [Ok tt; Ok tt; Err EEXIST; Ok tt] /\
  found ex_trn (lite_run ex_trn ex_lops empty_fs) (str "/DIR/file") = Some (KFile 1) /\
  match t_encrypt ex_trn (str "/DIR") with
  | Ok (P, _) => match lite_run ex_trn ex_lops empty_fs (comps P) with
                 | Some es => listing ex_trn es = [str "a long file name"; str "file"] \/ listing ex_trn es = [str "file"; str "a long file name"]
                 | None => False
                 end
  | Err _ => False
  end.
Proof.
  split; [unfold ex_lops; ffuse|]. split; [apply no_collision_b; vm_compute; reflexivity|]. vm_compute. auto.
Qed.

(** Finding: how names are normalised is an option of mounting, not of the
    repository.  A name made without normalisation is shown by a mount with it, but
    the mount does not find it. *)
Theorem C68_lite_listed_but_not_found_refuted :
  ~ (forall ops n es, Forall from_fuse ops -> names_fit ex_blake false 10 (op_names ops) -> n <> [] -> ~ In slash n ->
     lite_run ex_tr ops empty_fs [] = Some es -> In n (listing ex_trn es) ->
     found ex_trn (lite_run ex_tr ops empty_fs) (slash :: n) <> None).
Proof.
  intros H. pose (ops := [LMkdir (str "/Dir") None]).
  destruct (lite_run ex_tr ops empty_fs []) as [es|] eqn:E; [|vm_compute in E; discriminate E].
  apply (H ops (str "Dir") es).
  - unfold ops. ffuse.
  - apply no_collision_b. vm_compute. reflexivity.
  - discriminate.
  - vm_compute. intuition discriminate.
  - exact E.
  - vm_compute in E. injection E as <-. vm_compute. now left.
  - vm_compute. reflexivity.
Qed.
Print Assumptions C68_lite_listed_but_not_found_refuted.
