(** C93: calls on a repository lead to one place below its directory. *)
From Coq Require Import Strings.String Lia.
From Verif Require Import Base BaseLemmas TextModel NameModel NameSpec NameProofs NameTop LongNameSpec UnixPathModel UnixPathSpec PropertiesNames.
Local Open Scope list_scope.

Lemma follow_steps t l : forall a, follow t a l = follow t a (filter (fun w => negb (bytes_eqb w []) && negb (bytes_eqb w [dot])) l).
Proof.
  induction l as [|w l IH]; intros a; [reflexivity|]. cbn [follow filter].
  destruct (bytes_eqb w []) eqn:E1; cbn [negb andb orb]; [apply IH|]. destruct (bytes_eqb w [dot]) eqn:E2; cbn [negb orb]; [apply IH|].
  cbn [follow]. rewrite E1, E2. cbn [orb]. destruct (bytes_eqb w [dot; dot]); [apply IH|]. destruct (ht_child t a w); [apply IH|reflexivity].
Qed.
Lemma follow_app t l1 l2 : forall a, follow t a (l1 ++ l2) = match follow t a l1 with Some b => follow t b l2 | None => None end.
Proof.
  induction l1 as [|w l1 IH]; intros a; [reflexivity|]. cbn [app follow]. destruct (_ || _); [apply IH|]. destruct (bytes_eqb w [dot; dot]); [apply IH|].
  destruct (ht_child t a w); [apply IH|reflexivity].
Qed.
Lemma follow_down t l : Forall (fun w => w <> [] /\ w <> [dot] /\ w <> [dot; dot]) l -> forall a, follow t a l = down t a l.
Proof.
  induction l as [|w l IH]; intros H a; [reflexivity|]. inversion H as [|? ? (H1 & H2 & H3) H']; subst. cbn [follow down].
  destruct (bytes_eqb w []) eqn:E1; [apply bytes_eqb_eq in E1; contradiction|]. destruct (bytes_eqb w [dot]) eqn:E2; [apply bytes_eqb_eq in E2; contradiction|].
  destruct (bytes_eqb w [dot; dot]) eqn:E3; [apply bytes_eqb_eq in E3; contradiction|]. cbn [orb]. destruct (ht_child t a w); [apply IH; exact H'|reflexivity].
Qed.
Lemma split_app_slash s r : split_slash (s ++ slash :: r) = split_slash s ++ split_slash r.
Proof.
  induction s as [|c s IH]; [apply split_cons_slash|]. cbn [app]. destruct (Byte.eqb c slash) eqn:E.
  - apply slash_eqb in E. subst c. rewrite !split_cons_slash, IH. reflexivity.
  - apply slash_neqb in E. rewrite !split_cons_other by exact E. rewrite IH. pose proof (split_ne s). destruct (split_slash s); [contradiction|reflexivity].
Qed.

(** As long as the directory has not been moved, the calls that go by its descriptor and
    those that go by its name find the same. *)
Theorem C93_same_place : forall t cwd s path, still_there t s -> path <> [] -> hd x00 path <> slash ->
  reach_by_name t cwd s path = Ok (reach_at t s path).
Proof.
  intros t cwd [name d] path (real & Hn & Hr & Hd) Hp Hrel. cbn [sv_name sv_dir] in *. subst name.
  destruct path as [|c path]; [contradiction|]. cbn [hd] in Hrel. apply slash_neqb in Hrel.
  destruct real as [|r real]; [discriminate Hr|]. cbn [hd] in Hr. subst r.
  unfold reach_by_name, concat_and_norm, reach_at. cbn [sv_name sv_dir]. cbn [app is_absolute]. rewrite Hrel. change (Byte.eqb slash slash) with true. cbn [negb].
  change (slash :: real ++ [slash]) with ((slash :: real) ++ [slash]). rewrite last_last. change (Byte.eqb slash slash) with true. cbn [rbind]. f_equal.
  unfold resolve. rewrite Hrel. cbn [app]. change (Byte.eqb slash slash) with true. cbv iota.
  replace (slash :: (real ++ [slash]) ++ c :: path) with ((slash :: real) ++ slash :: (c :: path)) by (cbn [app]; rewrite <- app_assoc; reflexivity).
  rewrite split_app_slash, follow_app. unfold resolve in Hd. change (Byte.eqb slash slash) with true in Hd. rewrite Hd. reflexivity.
Qed.
Print Assumptions C93_same_place.

Lemma split_path_of names : Forall a_name names -> names <> [] -> split_slash (path_of names) = [] :: names.
Proof.
  intros H Hn. assert (E : split_slash (path_of names) = [] :: names); [|exact E]. unfold path_of. destruct names as [|n names]; [contradiction|]. clear Hn.
  revert n H. induction names as [|m names IH]; intros n H; inversion H as [|? ? (_ & _ & _ & H1) H']; subst; cbn [flat_map app].
  - rewrite app_nil_r, split_cons_slash. rewrite split_simple by exact H1. reflexivity.
  - rewrite split_cons_slash. cbn [flat_map app] in IH. rewrite split_app by exact H1. specialize (IH m H').
    rewrite split_cons_slash in IH. injection IH as IH. rewrite IH. reflexivity.
Qed.

(** Encrypted names: every call leads down from the directory, by as many names as there
    are in the path, and not to anything else.  [sizes_ok] and [suffix_ok]: as in C31. *)
Theorem C93_encrypted : forall cmac keystream blake, sizes_ok cmac keystream blake ->
  forall threshold suffix, (0 < threshold -> suffix_ok (suffix_in_force suffix)) ->
  forall p names P l, names_path p names ->
  t_encrypt (make_translator cmac keystream blake false threshold suffix None None) p = Ok (P, l) ->
  P <> [] /\ hd x00 P <> slash /\
  exists ns, length ns = length names /\ Forall a_name ns /\ forall t s, reach_at t s P = down t (sv_dir s) ns.
Proof.
  intros cmac ks blake HK threshold suffix Hs p names P l [Hn ->] He.
  assert (Hh : hd x00 (path_of names) = slash) by (destruct names; reflexivity).
  destruct (C31_encrypted_paths_stay_inside cmac ks blake HK threshold suffix Hs _ P l Hh He) as [HF HR].
  assert (R : hd x00 P <> slash).
  { apply HR. destruct names as [|n names]; [discriminate|]. inversion Hn as [|? ? (H1 & _ & _ & H4) _]; subst. destruct n as [|c n]; [contradiction|].
    cbn. intros ->. apply H4. now left. }
  assert (N : nonempty (split_slash (path_of names)) = names).
  { destruct names as [|n names]; [reflexivity|]. rewrite split_path_of by (exact Hn || discriminate). unfold nonempty. cbn [filter bytes_eqb negb].
    change (filter (fun w => negb (bytes_eqb w [])) (n :: names) = n :: names). clear - Hn. induction (n :: names) as [|x r IH]; [reflexivity|]. inversion Hn as [|? ? (H & _) Hr]; subst. specialize (IH Hr). cbn [filter]. destruct x as [|c x]; [contradiction|]. cbn [bytes_eqb negb]. now rewrite IH. }
  rewrite N in HF.
  assert (PN : P <> []).
  { intros ->. destruct names as [|n names].
    - unfold make_translator in He. destruct (Nat.ltb_spec 0 threshold).
      + cbn [t_encrypt new_translator] in He. unfold new_encrypt_full in He.
        change (split_slash (path_of [])) with [@nil byte; []] in He. cbn [new_components new_component rbind last length] in He.
        destruct (Nat.ltb_spec threshold 0); [lia|]. discriminate He.
      + cbn in He. discriminate He.
    - change (steps []) with (@nil bytes) in HF. inversion HF. }
  split; [exact PN|]. split; [exact R|]. exists (steps P).
  assert (A : Forall a_name (steps P)).
  { clear - HF. induction HF as [|a b x y (H1 & H2 & _) _ IH]; constructor; [|exact IH]. repeat split; [| | |exact H2]; intros ->; cbn in H1; lia. }
  split; [clear - HF; induction HF; [reflexivity|cbn [length]; congruence]|]. split; [exact A|]. intros t s. unfold reach_at, resolve. destruct P as [|c P]; [contradiction|].
  cbn [hd] in R. apply slash_neqb in R. rewrite R. rewrite follow_steps. apply follow_down. fold (steps (c :: P)).
  apply Forall_forall. intros w Hw. destruct (proj1 (Forall_forall _ _) A w Hw) as (H1 & H2 & H3 & _). now repeat split.
Qed.
Print Assumptions C93_encrypted.

(** Plain names: the names of the path themselves. *)
Theorem C93_plain : forall cmac keystream blake threshold suffix nfc fold p names P l, names_path p names ->
  t_encrypt (make_translator cmac keystream blake true threshold suffix nfc fold) p = Ok (P, l) ->
  P <> [] /\ hd x00 P <> slash /\ forall t s, reach_at t s P = down t (sv_dir s) names.
Proof.
  intros cmac ks blake threshold suffix nfc fold p names P l [Hn ->] He. cbn [make_translator t_encrypt noop_translator] in He. unfold noop_encrypt_full in He.
  assert (E : P = dot :: path_of names) by (destruct names as [|n names]; cbn in He; injection He as <- _; reflexivity). clear He. subst P.
  split; [discriminate|]. split; [discriminate|]. intros t s. unfold reach_at, resolve. change (Byte.eqb dot slash) with false. cbv iota.
  rewrite split_cons_other by discriminate. destruct names as [|n names]; [reflexivity|]. rewrite split_path_of by (exact Hn || discriminate).
  change (follow t (sv_dir s) (n :: names) = down t (sv_dir s) (n :: names)). apply follow_down.
  apply Forall_forall. intros w Hw. destruct (proj1 (Forall_forall _ _) Hn w Hw) as (H1 & H2 & H3 & _). now repeat split.
Qed.
Print Assumptions C93_plain.

(** Right after the service is made, its directory has the name that was found. *)
Theorem C93_made : forall t cwd real path s,
  (* realpath(3): absolute, and leads where the path leads *)
  hd x00 real = slash -> resolve t (ht_root t) real = resolve t cwd path ->
  service_for t cwd real path = Ok s ->
  still_there t s /\ resolve t cwd path = Some (sv_dir s).
Proof.
  intros t cwd real path s H1 H2 H3. unfold service_for in H3. destruct (resolve t cwd path) as [d|] eqn:E; [|discriminate H3]. injection H3 as <-. cbn [sv_dir].
  split; [|reflexivity]. exists real. cbn [sv_name sv_dir]. now rewrite H2.
Qed.
Print Assumptions C93_made.

(** Paths that are absolute already are left alone; a base that is not absolute is refused. *)
Theorem C93_norm : forall base path, base <> [] ->
  (hd x00 path = slash -> concat_and_norm base path = Ok path) /\
  (hd x00 path <> slash -> hd x00 base <> slash -> concat_and_norm base path = Err EInval) /\
  (hd x00 path <> slash -> hd x00 base = slash ->
   exists q, concat_and_norm base path = Ok q /\ steps q = steps base ++ steps path).
Proof.
  intros base path Hb. unfold concat_and_norm. destruct base as [|b base]; [contradiction|].
  assert (A : is_absolute path = true <-> hd x00 path = slash).
  { destruct path as [|c path]; [split; discriminate|]. cbn [is_absolute hd]. apply slash_eqb. }
  cbn [hd]. repeat split.
  - intros H. apply A in H. now rewrite H.
  - intros H Hn. destruct (is_absolute path); [now destruct (H (proj1 A eq_refl))|]. cbn [is_absolute]. apply slash_neqb in Hn. now rewrite Hn.
  - intros H ->. destruct (is_absolute path); [now destruct (H (proj1 A eq_refl))|]. cbn [is_absolute]. change (Byte.eqb slash slash) with true. cbn [negb].
    destruct (Byte.eqb (last (slash :: base) x00) slash) eqn:E.
    + eexists. split; [reflexivity|]. apply slash_eqb in E. destruct (exists_last (l := slash :: base)) as (l & x & Hl); [discriminate|].
      rewrite Hl, last_last in *. subst x. rewrite <- app_assoc. cbn [app]. unfold steps. rewrite !split_app_slash, !filter_app. cbn. now rewrite app_nil_r.
    + eexists. split; [reflexivity|]. unfold steps. now rewrite split_app_slash, filter_app.
Qed.
Print Assumptions C93_norm.

(** A host with the directories /r (1), /o (3), and the files /r/f (2) and /o/f (4). *)
Definition ex_tree : htree :=
  mkTree 0 (fun n w => match n with
    | 0 => if bytes_eqb w (str "r") then Some 1 else if bytes_eqb w (str "o") then Some 3 else None
    | 1 => if bytes_eqb w (str "f") then Some 2 else None
    | 3 => if bytes_eqb w (str "f") then Some 4 else None
    | _ => None end) (fun _ => 0).
(** The same after mv /r /s; mv /o /r. *)
Definition ex_moved : htree :=
  mkTree 0 (fun n w => match n with
    | 0 => if bytes_eqb w (str "s") then Some 1 else if bytes_eqb w (str "r") then Some 3 else None
    | _ => ht_child ex_tree n w end) (fun _ => 0).

Example C93_example :
  service_for ex_tree 1 (str "/r") (str ".") = Ok (mkSvc (str "/r/") 1) /\
  still_there ex_tree (mkSvc (str "/r/") 1) /\ names_path (str "/f") [str "f"] /\
  reach_at ex_tree (mkSvc (str "/r/") 1) (str "./f") = Some 2 /\
  concat_and_norm (str "/r/") (str "./f") = Ok (str "/r/./f") /\
  (exists P, t_encrypt (make_translator ex_cmac ex_ks ex_blake false 0 [] None None) (str "/f") = Ok (P, [])).
Proof.
  split; [reflexivity|]. split; [exists (str "/r"); repeat split|]. split.
  { split; [|reflexivity]. constructor; [|constructor]. repeat split; try discriminate. intros [H|[]]; discriminate H. }
  split; [reflexivity|]. split; [reflexivity|]. eexists. vm_compute. reflexivity.
Qed.

(** Not so once the repository's directory has been renamed while it is mounted: files
    are still found in it, listings and attributes are those of whatever has its old
    name. *)
Theorem C93_moved_refuted : ~ (forall t t' cwd real path s p,
  hd x00 real = slash -> resolve t (ht_root t) real = resolve t cwd path -> service_for t cwd real path = Ok s ->
  p <> [] -> hd x00 p <> slash -> reach_by_name t' cwd s p = Ok (reach_at t' s p)).
Proof.
  intros H. specialize (H ex_tree ex_moved 1 (str "/r") (str ".") (mkSvc (str "/r/") 1) (str "./f") eq_refl eq_refl eq_refl ltac:(discriminate) ltac:(discriminate)).
  vm_compute in H. discriminate H.
Qed.
Print Assumptions C93_moved_refuted.

(** Nor, for what lies outside, if the suffix for long names, which nothing checks, has
    a separator in it: a long name then leads above the directory. *)
Theorem C93_suffix_refuted : ~ (forall cmac keystream blake, sizes_ok cmac keystream blake ->
  forall threshold suffix p names P l, names_path p names ->
  t_encrypt (make_translator cmac keystream blake false threshold suffix None None) p = Ok (P, l) ->
  Forall (fun w => w <> [dot; dot]) (steps P)).
Proof.
  intros H. assert (N : names_path (str "/ff") [str "ff"]).
  { split; [|reflexivity]. constructor; [|constructor]. repeat split; try discriminate. intros [E|[E|[]]]; discriminate E. }
  specialize (H ex_cmac ex_ks ex_blake ex_sizes 1 (str "/../../x") (str "/ff") [str "ff"]).
  destruct (t_encrypt (make_translator ex_cmac ex_ks ex_blake false 1 (str "/../../x") None None) (str "/ff")) as [[P l]|] eqn:E; vm_compute in E; [|discriminate E].
  specialize (H P l N eq_refl). injection E as <- <-. vm_compute in H. inversion H as [|? ? _ H1]; subst. inversion H1 as [|? ? H2 _]; subst. now apply H2.
Qed.
Print Assumptions C93_suffix_refuted.
