(** Listing a directory of a lite repository while other threads change it: C85. *)
From Coq Require Import Strings.String.
From Verif Require Import Base BaseLemmas TextModel CryptoModel NameModel NameSpec NameTop
  LongNameModel LongNameSpec LongNameProofs LongNameInv LongNameSuffix LongNameTop PropertiesNames PropertiesLongNames
  LiteTreeSpec LiteTreeProofs LiteTreeTop PropertiesLiteTree
  LiteConcModel LiteConcSpec LiteConcTree LiteConcProofs LiteConcTop PropertiesLiteConc
  ListConcModel ListConcSpec ListConcProofs ListConcTop ListConcQuiet.
Local Open Scope list_scope.

(** Whatever other threads do meanwhile, and whatever SQLite answers: a name that a
    listing shows is "." or "..", or the name of something that was in the directory
    at a moment between the beginning and the end of the listing. *)
Theorem C85_only_what_was_there :
  forall cmac keystream blake, sizes_ok cmac keystream blake ->
  forall threshold suffix, 0 < threshold -> suffix_ok (suffix_in_force suffix) ->
  let tr := make_translator cmac keystream blake false threshold suffix None None in
  forall dir P l, Forall (fun n => n <> [] /\ ~ In slash n) dir -> t_encrypt tr (path_of dir) = Ok (P, l) ->
  forall before w h cs ws li, c_run tr before world0 = Some (w, h) -> s_run tr (comps P) cs w lister0 = Some (ws, li) ->
    Forall from_fuse (calls_of (before ++ changes cs)) -> no_collision blake threshold (dir ++ op_names (calls_of (before ++ changes cs))) ->
    given_seen tr (comps P) [] cs w lister0 ->
  forall name, In name (s_out li) ->
    name = [dot] \/ name = [dot; dot] \/ exists w', In w' ws /\ found tr (w_tree w') (path_of (dir ++ [name])) <> None.
Proof.
  intros cmac ks blake (H1 & H2 & H3) threshold suffix Ht Hs tr dir P l Hd He before w h cs ws li HR HL HF HC HG name Hn.
  destruct (only cmac ks blake H1 H2 H3 threshold Ht suffix Hs _ HC dir Hd P l He before w h cs ws li HR HL HF (incl_appr _ (incl_refl _)) (incl_appl _ (incl_refl _)) HG name Hn)
    as [E|[E|(_ & E)]]; auto.
Qed.
Print Assumptions C85_only_what_was_there.

(** What is there during the whole listing is shown exactly once: if SQLite answers,
    the directory keeps its table of long names, no call on this name is under way, and
    the other calls are such as the tables survive. *)
Theorem C85_what_stays_is_shown_once :
  forall cmac keystream blake, sizes_ok cmac keystream blake ->
  forall threshold suffix, 0 < threshold -> suffix_ok (suffix_in_force suffix) ->
  let tr := make_translator cmac keystream blake false threshold suffix None None in
  forall dir P l, Forall (fun n => n <> [] /\ ~ In slash n) dir -> t_encrypt tr (path_of dir) = Ok (P, l) ->
  forall before w h cs ws li, c_run tr before world0 = Some (w, h) -> s_run tr (comps P) cs w lister0 = Some (ws, li) -> s_pc li = SReady ->
    gentle_run tr (suffix_in_force suffix) (before ++ changes cs) world0 -> undisturbed_run tr (before ++ changes cs) world0 ->
    no_failure cs -> readdir_works tr (comps P) cs w ws -> table_kept (comps P) ws ->
  forall name P' l', name <> [] -> ~ In slash name -> name <> [dot] -> name <> [dot; dot] ->
    no_collision blake threshold (name :: op_names (calls_of (before ++ changes cs))) ->
    t_encrypt tr (path_of (dir ++ [name])) = Ok (P', l') ->
    (forall w', In w' ws -> found tr (w_tree w') (path_of (dir ++ [name])) <> None /\ ~ under_way tr w' (get_last_component P')) ->
    count_occ (list_eq_dec Byte.byte_eq_dec) (s_out li) name = 1.
Proof.
  intros cmac ks blake (H1 & H2 & H3) threshold suffix Ht Hs tr dir P l Hd He before w h cs ws li HR HL HE HG HU HN HW HT name P' l' N1 N2 N3 N4 HC He' HS.
  exact (shown cmac ks blake H1 H2 H3 threshold Ht suffix Hs _ HC dir Hd P l He before w h cs ws li name P' l' HG HU HR HL HE
    (fun x Hx => or_intror Hx) (or_introl eq_refl) (conj N1 N2) N3 N4 HN HW HT He' HS).
Qed.
Print Assumptions C85_what_stays_is_shown_once.

(** If nothing changes, the listing is that of the model without threads. *)
Theorem C85_nothing_changes :
  forall cmac keystream blake, sizes_ok cmac keystream blake ->
  forall threshold suffix, 0 < threshold -> suffix_ok (suffix_in_force suffix) ->
  let tr := make_translator cmac keystream blake false threshold suffix None None in
  forall d w es es', w_tree w d = Some es -> (forall m, ent kLongNameTableFileName es <> Some (KTable m)) -> on_disk w d = Some es' ->
  forall cs ws li, s_run tr d cs w lister0 = Some (ws, li) -> s_pc li = SReady -> changes cs = [] -> no_failure cs ->
    s_out li = list_names tr (table_of es') (reads cs) [].
Proof.
  intros cmac ks blake (H1 & H2 & H3) threshold suffix Ht Hs tr d w es es' E HK E' cs ws li HR HE HC HN.
  unfold on_disk, with_rows in E'. rewrite E in E'. cbn [option_map] in E'.
  assert (es' = map (table_kind (fun k => db_rows (w_db w k))) es) as -> by congruence.
  refine (quiet_run tr (dec_nil cmac ks blake threshold Ht suffix Hs) d w es E HK cs lister0 ws li HC HN HR _ HE).
  split; [intros k H; discriminate H|exact I].
Qed.
Print Assumptions C85_nothing_changes.

(** Witness: a directory has a file with a long name; while it is listed, another file
    with a long name is created in it, which the host gives as well; a third is begun. *)
Definition kept_f : bytes := str "/a long file name".
Definition new_f : bytes := str "/another long name".
Definition gone_f : bytes := str "/short".
Definition before_cs : list choice :=
  [ Begin 0 (LOpen kept_f true true 1 None None); go 0; go 0; go 0; go 0; Return 0;
    Begin 0 (LOpen gone_f true true 3 None None); go 0; Return 0 ].
Definition phys_kept : bytes := Eval vm_compute in physical kept_f.
Definition phys_new : bytes := Eval vm_compute in physical new_f.
Definition phys_gone : bytes := Eval vm_compute in physical gone_f.
Definition list_cs (busy : option err) : list schoice :=
  [ SRead [dot]; SWorld (Begin 1 (LOpen new_f true true 2 None None)); SWorld (go 1); SWorld (go 1); SRead kLongNameTableFileName;
    SWorld (Begin 2 (LUnlink gone_f None)); SWorld (go 2); SWorld (Return 2);
    SRead phys_kept; SWorld (go 1); SOpened None; SWorld (go 1); SLooked busy; SWorld (Return 1); SRead phys_gone; SRead phys_new; SLooked None; SRead [dot; dot] ].
Definition list_run (cs : list schoice) : option (world * list world * lister) :=
  match c_run ex_tr before_cs world0 with
  | Some (w, _) => match s_run ex_tr [] cs w lister0 with Some (ws, li) => Some (w, ws, li) | None => None end
  | None => None
  end.

(** Checks of the hypotheses for one run. *)
Definition hasb (w : world) (u : bytes) : bool := match w_tree w [] with Some es => match ent u es with Some _ => true | None => false end | None => false end.
Fixpoint seenb (past : list world) (cs : list schoice) (w : world) (li : lister) : bool :=
  match cs with
  | [] => true
  | c :: cs' =>
    match c with SRead u => bytes_eqb u [dot] || bytes_eqb u [dot; dot] || existsb (fun w' => hasb w' u) (w :: past) | _ => true end &&
    match s_step ex_tr [] c w li with Some (w1, li1) => seenb (w :: past) cs' w1 li1 | None => true end
  end.
Lemma hasb_ok w u : hasb w u = true -> has [] w u.
Proof. unfold hasb, has. destruct (w_tree w []) as [es|]; [|discriminate]. destruct (ent u es) as [k|] eqn:E; [|discriminate]. intros _. exists es, k. auto. Qed.
Lemma has_hasb w u : has [] w u -> hasb w u = true.
Proof. unfold hasb, has. intros (es & k & -> & ->). reflexivity. Qed.
Lemma seenb_ok cs : forall past w li, seenb past cs w li = true -> given_seen ex_tr [] past cs w li.
Proof.
  induction cs as [|c cs IH]; intros past w li H; [exact I|]. cbn [seenb given_seen] in *. apply andb_true_iff in H. destruct H as (A & B). split.
  - destruct c as [c|u|f|f]; try exact I. apply orb_true_iff in A. destruct A as [A|A].
    + apply orb_true_iff in A. destruct A as [A|A]; apply bytes_eqb_eq in A; auto.
    + right; right. apply existsb_exists in A. destruct A as (w' & Hw & A). exists w'. split; [exact Hw|]. apply hasb_ok. exact A.
  - destruct (s_step ex_tr [] c w li) as [[w1 li1]|]; [|exact I]. apply IH. exact B.
Qed.
Definition onceb (cs : list schoice) (ws : list world) : bool :=
  match ws with
  | w :: _ =>
    match w_tree w [] with
    | Some es => forallb (fun u => negb (forallb (fun w' => hasb w' u) ws) || (count_occ (list_eq_dec Byte.byte_eq_dec) (reads cs) u =? 1)) (map fst es)
    | None => true
    end
  | [] => false
  end.
Lemma onceb_ok cs ws : onceb cs ws = true ->
  forall u, (forall w', In w' ws -> has [] w' u) -> count_occ (list_eq_dec Byte.byte_eq_dec) (reads cs) u = 1.
Proof.
  unfold onceb. destruct ws as [|w ws]; [discriminate|]. intros H u Hu. destruct (Hu w (or_introl eq_refl)) as (es & k & E1 & E2). rewrite E1 in H.
  rewrite forallb_forall in H. specialize (H u). apply ent_in in E2. apply (in_map fst) in E2. specialize (H E2). apply orb_true_iff in H. destruct H as [H|H].
  - exfalso. apply negb_true_iff in H. assert (X : forallb (fun w' => hasb w' u) (w :: ws) = true) by (apply forallb_forall; intros x Hx; apply has_hasb; apply Hu; exact Hx).
    congruence.
  - apply Nat.eqb_eq. exact H.
Qed.
Definition table_isb (k : nat) (w : world) : bool :=
  match w_tree w [] with Some es => match ent kLongNameTableFileName es with Some (KFile j) => j =? k | _ => true end | None => true end.
Lemma keptb_ok k ws : forallb (table_isb k) ws = true -> table_kept [] ws.
Proof.
  intros H w w' es es' i j Hw Hw' E1 E2 E3 E4. rewrite forallb_forall in H. pose proof (H w Hw) as A. pose proof (H w' Hw') as B.
  unfold table_isb in A, B. rewrite E1, E3 in A. rewrite E2, E4 in B. apply Nat.eqb_eq in A, B. congruence.
Qed.
Definition freeb (ts : list nat) (u : bytes) (w : world) : bool :=
  forallb (fun t => match w_thr w t with LIdle => true | LRun o _ _ => negb (existsb (fun p => bytes_eqb (physical p) u) (op_paths o)) end) ts.
Lemma freeb_ok ts u w : quiet ts w -> u <> [] -> freeb ts u w = true -> ~ under_way ex_tr w u.
Proof.
  intros HQ Hu H (t & o & conns & p & path & P & l & HT & Hi & He & E). destruct (in_dec Nat.eq_dec t ts) as [Hin|Hin]; [|rewrite (HQ t Hin) in HT; discriminate HT].
  unfold freeb in H. rewrite forallb_forall in H. specialize (H t Hin). rewrite HT in H. apply negb_true_iff in H.
  assert (X : existsb (fun p => bytes_eqb (physical p) u) (op_paths o) = true).
  { apply existsb_exists. exists path. split; [exact Hi|]. unfold physical. rewrite He, E. apply bytes_eqb_refl. }
  congruence.
Qed.
Lemma run_quiet ts cs : forall w w' h, quiet ts w -> forallb (among ts) cs = true -> c_run ex_tr cs w = Some (w', h) -> quiet ts w'.
Proof.
  induction cs as [|c cs IH]; intros w w' h HQ HC HR; [cbn in HR; injection HR as <- _; exact HQ|]. cbn [c_run forallb] in *. apply andb_true_iff in HC. destruct HC as (C1 & C2).
  destruct (c_step ex_tr c w) as [[w1 h1]|] eqn:E1; [|discriminate HR]. destruct (c_run ex_tr cs w1) as [[w2 h2]|] eqn:E2; [|discriminate HR].
  assert (w2 = w') as <- by congruence. eapply IH; [|exact C2|exact E2]. eapply step_quiet; eassumption.
Qed.
Lemma forallb_app_l {A} (f : A -> bool) a b : forallb f (a ++ b) = true -> forallb f a = true.
Proof. rewrite forallb_app. intros H. apply andb_true_iff in H. apply H. Qed.
Lemma visited_quiet ts cs0 w h d cs li ws li' : forallb (among ts) (cs0 ++ changes cs) = true -> c_run ex_tr cs0 world0 = Some (w, h) ->
  s_run ex_tr d cs w li = Some (ws, li') -> forall w', In w' ws -> quiet ts w'.
Proof.
  intros HA HR HL w' Hw. destruct (visited ex_tr d cs cs0 w h li ws li' HR HL w' Hw) as (pre & post & h' & E1 & E2).
  rewrite E1, app_assoc in HA. apply forallb_app_l in HA. eapply run_quiet; [|exact HA|exact E2]. intros t _. reflexivity.
Qed.

Definition kept_name : bytes := tl kept_f.
Lemma kept_found w' P l : t_encrypt ex_tr (path_of []) = Ok (P, l) -> has (comps P) w' phys_kept -> found ex_tr (w_tree w') (path_of [kept_name]) <> None.
Proof.
  intros EP H. destruct ex_sizes as (S1 & S2 & S3).
  pose proof (found_has ex_cmac ex_ks ex_blake S1 S2 S3 10 (Nat.lt_0_succ 9) (str ".ll") ex_suffix [] (Forall_nil _) P l EP w' kept_name) as F. cbn [app] in F.
  fold ex_tr in F. apply F.
  - split; [vm_compute; discriminate|]. intros X. vm_compute in X. repeat (destruct X as [X|X]; [discriminate X|]). destruct X.
  - assert (Z : pcomp ex_cmac ex_ks ex_blake 10 (str ".ll") kept_name = phys_kept) by (vm_compute; reflexivity). rewrite Z. exact H.
Qed.
Example C85_example :
  exists w h ws li P l P' l', c_run ex_tr before_cs world0 = Some (w, h) /\ s_run ex_tr (comps P) (list_cs None) w lister0 = Some (ws, li) /\ s_pc li = SReady /\
    t_encrypt ex_tr (path_of []) = Ok (P, l) /\ t_encrypt ex_tr (path_of [kept_name]) = Ok (P', l') /\
    Forall from_fuse (calls_of (before_cs ++ changes (list_cs None))) /\
    no_collision ex_blake 10 (kept_name :: op_names (calls_of (before_cs ++ changes (list_cs None)))) /\
    gentle_run ex_tr ll (before_cs ++ changes (list_cs None)) world0 /\ undisturbed_run ex_tr (before_cs ++ changes (list_cs None)) world0 /\
    no_failure (list_cs None) /\ readdir_works ex_tr (comps P) (list_cs None) w ws /\ table_kept (comps P) ws /\
    (forall w', In w' ws -> found ex_tr (w_tree w') (path_of [kept_name]) <> None /\ ~ under_way ex_tr w' (get_last_component P')) /\
    s_out li = [[dot]; kept_name; tl gone_f; tl new_f; [dot; dot]] /\
    (* one was not there at the beginning, another not at the end *)
    found ex_tr (w_tree w) new_f = None /\ found ex_tr (w_tree (last ws w)) gone_f = None.
Proof.
  assert (E0 : match c_run ex_tr before_cs world0 with Some _ => true | None => false end = true) by (vm_compute; reflexivity).
  destruct (c_run ex_tr before_cs world0) as [[w h]|] eqn:E; [clear E0|discriminate E0].
  destruct (s_run ex_tr [] (list_cs None) w lister0) as [[ws li]|] eqn:EL.
  2:{ exfalso. assert (X : match c_run ex_tr before_cs world0 with Some (w, _) => match s_run ex_tr [] (list_cs None) w lister0 with Some _ => true | None => false end | None => false end = true) by (vm_compute; reflexivity). rewrite E, EL in X. discriminate X. }
  assert (X : match c_run ex_tr before_cs world0 with Some (w, _) => match s_run ex_tr [] (list_cs None) w lister0 with
    | Some (ws, li) => match s_pc li with SReady => true | _ => false end && seenb [] (list_cs None) w lister0 && onceb (list_cs None) ws && forallb (table_isb 0) ws &&
        forallb (fun w' => hasb w' phys_kept && freeb [0; 1; 2] phys_kept w') ws
    | None => false end | None => false end = true) by (vm_compute; reflexivity).
  assert (Y : match c_run ex_tr before_cs world0 with Some (w, _) => match s_run ex_tr [] (list_cs None) w lister0 with
    | Some (ws, li) => s_out li = [[dot]; kept_name; tl gone_f; tl new_f; [dot; dot]] /\ found ex_tr (w_tree w) new_f = None /\ found ex_tr (w_tree (last ws w)) gone_f = None
    | None => False end | None => False end) by (vm_compute; repeat split).
  rewrite E, EL in X, Y. apply andb_true_iff in X. destruct X as (X & X5). apply andb_true_iff in X. destruct X as (X & X4).
  apply andb_true_iff in X. destruct X as (X & X3). apply andb_true_iff in X. destruct X as (X1 & X2).
  assert (E1 : match t_encrypt ex_tr (path_of []) with Ok _ => true | Err _ => false end = true) by (vm_compute; reflexivity).
  destruct (t_encrypt ex_tr (path_of [])) as [[P l]|] eqn:EP; [clear E1|discriminate E1].
  assert (CP : comps P = []). { assert (Z : match t_encrypt ex_tr (path_of []) with Ok (P, _) => comps P = [] | Err _ => False end) by (vm_compute; reflexivity). rewrite EP in Z. exact Z. }
  assert (E2 : match t_encrypt ex_tr (path_of [kept_name]) with Ok _ => true | Err _ => false end = true) by (vm_compute; reflexivity).
  destruct (t_encrypt ex_tr (path_of [kept_name])) as [[P' l']|] eqn:EP'; [clear E2|discriminate E2].
  assert (CP' : get_last_component P' = phys_kept). { assert (Z : match t_encrypt ex_tr (path_of [kept_name]) with Ok (P, _) => get_last_component P = phys_kept | Err _ => False end) by (vm_compute; reflexivity). rewrite EP' in Z. exact Z. }
  exists w, h, ws, li, P, l, P', l'. rewrite CP, CP'. split; [reflexivity|]. split; [exact EL|].
  split; [destruct (s_pc li); [reflexivity|discriminate X1..]|]. split; [reflexivity|]. split; [reflexivity|].
  split; [unfold before_cs, list_cs; cbn [calls_of changes flat_map app]; ffuse|]. split; [apply no_collision_b; vm_compute; reflexivity|].
  split; [apply (gentle_runb_ok [0; 1; 2]); [intros t _; reflexivity|vm_compute; reflexivity]|].
  split; [apply (calm_runb_ok [0; 1; 2]); [intros t _; reflexivity|vm_compute; reflexivity]|].
  split; [unfold list_cs, no_failure; repeat (constructor; [exact I|]); constructor|].
  split; [split; [apply seenb_ok; exact X2|apply onceb_ok; exact X3]|]. split; [eapply keptb_ok; exact X4|].
  split; [|exact Y]. intros w' Hw. rewrite forallb_forall in X5. specialize (X5 w' Hw). apply andb_true_iff in X5. destruct X5 as (A & B). split.
  - apply (kept_found w' P l EP). rewrite CP. apply hasb_ok. exact A.
  - apply (freeb_ok [0; 1; 2]); [|vm_compute; discriminate|exact B]. eapply visited_quiet; [|exact E|exact EL|exact Hw]. vm_compute. reflexivity.
Qed.

(** A file that is there all the time can be missing from a listing that reports no
    error: SQLite was busy when its name was looked up, *)
Theorem C85_busy_refuted :
  match list_run (list_cs (Some (EPosix 5))) with
  | Some (w, ws, li) =>
    forallb (fun w' => match found ex_tr (w_tree w') kept_f with Some (KFile 1) => true | _ => false end) ws = true /\
    s_pc li = SReady /\ s_out li = [[dot]; tl gone_f; tl new_f; [dot; dot]]
  | None => False
  end.
Proof. vm_compute. repeat split. Qed.
Print Assumptions C85_busy_refuted.

(** or the call that created it had not yet committed, though the file could already be
    opened by others. *)
Definition early_cs : list schoice :=
  [ SRead [dot]; SRead phys_new; SOpened None; SLooked None; SRead kLongNameTableFileName; SRead [dot; dot] ].
Theorem C85_not_yet_committed_refuted :
  match c_run ex_tr [Begin 1 (LOpen new_f true true 2 None None); go 1; go 1; go 1] world0 with
  | Some (w, _) =>
    found ex_tr (w_tree w) new_f = Some (KFile 2) /\
    match s_run ex_tr [] early_cs w lister0 with
    | Some (ws, li) => s_pc li = SReady /\ s_out li = [[dot]; [dot; dot]]
    | None => False
    end
  | None => False
  end.
Proof. vm_compute. repeat split. Qed.
Print Assumptions C85_not_yet_committed_refuted.

(** Witness for the listing during which nothing changes. *)
Definition quiet_cs : list schoice := [ SRead [dot]; SRead phys_kept; SOpened None; SLooked None; SRead kLongNameTableFileName; SRead phys_gone ].
Example C85_quiet_example :
  match list_run quiet_cs with
  | Some (w, ws, li) => changes quiet_cs = [] /\ s_pc li = SReady /\ s_out li = [[dot]; kept_name; tl gone_f] /\
      match w_tree w [] with Some es => match ent kLongNameTableFileName es with Some (KTable _) => False | _ => True end | None => False end
  | None => False
  end /\ no_failure quiet_cs.
Proof. split; [vm_compute; repeat split|unfold quiet_cs, no_failure; repeat (constructor; [exact I|]); constructor]. Qed.
