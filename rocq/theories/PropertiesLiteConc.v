(** Overlapping calls on the names of a lite repository: C73, C74 and C75. *)
From Coq Require Import Strings.String.
From Verif Require Import Base BaseLemmas TextModel CryptoModel NameModel NameSpec NameTop
  LongNameModel LongNameSpec LongNameProofs LongNameInv LongNameSuffix LongNameTop PropertiesNames PropertiesLongNames
  LiteTreeSpec LiteTreeProofs LiteTreeTop PropertiesLiteTree
  LiteConcModel LiteConcSpec LiteConcTree LiteConcProofs LiteConcTop.
Local Open Scope list_scope.

(** ** C73 *)

(** Whatever the threads do and however their steps are interleaved, also when calls
    of SQLite fail and when the process is killed and started again any number of times:
    there is a moment for each call, between its beginning and its return, such that all
    calls answer as they would if each took effect on a plain tree at its moment, but for
    the refusals of [may_fail]; a call during which the process is killed has had its
    moment or has no effect; and every path leads to what that tree has there. *)
Theorem C73_one_moment :
  forall cmac keystream blake, sizes_ok cmac keystream blake ->
  forall no_op threshold suffix, (no_op = false -> 0 < threshold -> suffix_ok (suffix_in_force suffix)) ->
  let tr := make_translator cmac keystream blake no_op threshold suffix None None in
  forall cs names, Forall from_fuse (calls_of cs) -> incl (op_names (calls_of cs)) names -> names_fit blake no_op threshold names ->
  forall w h, c_run tr cs world0 = Some (w, h) ->
  exists a, moments (may_fail (long_path no_op threshold)) pworld0 h a /\
    forall path, fuse_path path -> incl (split_slash path) names -> found tr (w_tree w) path = plain_found (p_tree a) path.
Proof.
  intros cmac ks blake (H1 & H2 & H3) no_op threshold suffix Hc tr cs names HO HN HF w h HR.
  destruct (moments_exist cmac ks blake H1 H2 H3 no_op threshold suffix Hc names HF cs HO HN w h HR) as (a & M & R).
  exists a. split.
  - eapply moments_mono; [|exact M]. intros v o e [_ H]. exact H.
  - intros path Hp Hi. exact (found_moment cmac ks blake H1 H2 H3 no_op threshold suffix Hc names HF _ _ path R Hp Hi).
Qed.
Print Assumptions C73_one_moment.

(** If no name is too long to be stored, there are no refusals. *)
Theorem C73_exact_without_long_names :
  forall cmac keystream blake, sizes_ok cmac keystream blake ->
  forall no_op threshold suffix, (no_op = false -> 0 < threshold -> suffix_ok (suffix_in_force suffix)) ->
  let tr := make_translator cmac keystream blake no_op threshold suffix None None in
  forall cs names, Forall from_fuse (calls_of cs) -> incl (op_names (calls_of cs)) names -> names_fit blake no_op threshold names ->
  no_long_names no_op threshold names ->
  forall w h, c_run tr cs world0 = Some (w, h) ->
  exists a, moments (fun _ _ _ => False) pworld0 h a /\
    forall path, fuse_path path -> incl (split_slash path) names -> found tr (w_tree w) path = plain_found (p_tree a) path.
Proof.
  intros cmac ks blake (H1 & H2 & H3) no_op threshold suffix Hc tr cs names HO HN HF HL w h HR.
  assert (Ht : tab no_op threshold names = false).
  { unfold tab. destruct no_op; [reflexivity|]. destruct HL as [HL|[->|HL]]; [discriminate|reflexivity|].
    destruct (existsb (fun n => threshold <? length n) names) eqn:E; [|apply Bool.andb_false_r]. exfalso. apply existsb_exists in E as (n & Hn & E).
    rewrite Forall_forall in HL. specialize (HL n Hn). apply Nat.ltb_lt in E. lia. }
  destruct (moments_exist cmac ks blake H1 H2 H3 no_op threshold suffix Hc names HF cs HO HN w h HR) as (a & M & R).
  exists a. split.
  - eapply moments_mono; [|exact M]. intros v o e [H _]. congruence.
  - intros path Hp Hi. exact (found_moment cmac ks blake H1 H2 H3 no_op threshold suffix Hc names HF _ _ path R Hp Hi).
Qed.
Print Assumptions C73_exact_without_long_names.

(** Three threads in the root: while the first makes a directory with a long name, the
    second wants to create a file with a long name and waits for the table; the third
    creates a file with a short name, which needs no table.  Then the second file is
    renamed into the directory while the third file is removed; a link is refused.  In
    the end the process is killed while another file is about to be created. *)
Definition go (t : nat) : choice := Go t None.
Definition long_d : bytes := str "/a directory with a long name".
Definition long_f : bytes := str "/first long file name".
Definition long_g : bytes := str "/a directory with a long name/second long file name".
Definition ex_cs : list choice :=
  [ Begin 0 (LMkdir long_d None); go 0; go 0;
    Begin 1 (LOpen long_f true true 1 None None); go 1;
    Begin 2 (LOpen (str "/short") true true 2 None None); go 2; Return 2;
    go 0; go 0; go 1; Return 0; go 1; go 1; Return 1;
    Begin 0 (LRename long_f long_g None); go 0; go 0;
    Begin 1 (LUnlink (str "/short") None);
    Begin 2 (LLink (str "/short") (str "/another long file name") None); go 2;
    go 0; Go 2 (Some (EPosix 5)); go 0; go 0; go 1; go 0; Return 1; go 0; Return 0; go 2; Return 2;
    Begin 1 (LOpen (str "/never to be created") true true 3 None None); go 1; go 1; Kill ].
Definition ex_h : list levent :=
  [ LInv 0 (LMkdir long_d None); LInv 1 (LOpen long_f true true 1 None None);
    LInv 2 (LOpen (str "/short") true true 2 None None); LRet 2 (Ok tt); LRet 0 (Ok tt); LRet 1 (Ok tt);
    LInv 0 (LRename long_f long_g None); LInv 1 (LUnlink (str "/short") None);
    LInv 2 (LLink (str "/short") (str "/another long file name") None);
    LRet 1 (Ok tt); LRet 0 (Ok tt); LRet 2 (Err (EPosix 5));
    LInv 1 (LOpen (str "/never to be created") true true 3 None None); LKilled ].

Example C73_example :
  Forall from_fuse (calls_of ex_cs) /\ names_fit ex_blake false 10 (op_names (calls_of ex_cs)) /\
  match c_run ex_tr ex_cs world0 with
  | Some (w, h) => h = ex_h /\ found ex_tr (w_tree w) long_g = Some (KFile 1) /\ found ex_tr (w_tree w) long_f = None /\
                   found ex_tr (w_tree w) (str "/short") = None
  | None => False
  end /\
  c_run ex_tr (firstn 5 ex_cs ++ [go 1]) world0 = None.
Proof.
  split; [unfold ex_cs; cbn [calls_of flat_map app]; ffuse|]. split; [apply no_collision_b; vm_compute; reflexivity|]. split; [vm_compute; repeat split|]. vm_compute. reflexivity.
Qed.

Definition short_cs : list choice :=
  [ Begin 0 (LMkdir (str "/d") None); Begin 1 (LOpen (str "/d/f") true true 1 None None); Begin 2 (LRename (str "/d") (str "/e") None);
    go 0; go 2; go 1; Return 1; Return 0; Return 2 ].
Example C73_short_example :
  Forall from_fuse (calls_of short_cs) /\ names_fit ex_blake false 10 (op_names (calls_of short_cs)) /\
  no_long_names false 10 (op_names (calls_of short_cs)) /\
  match c_run ex_tr short_cs world0 with
  | Some (w, h) => skipn 3 h = [LRet 1 (Err ENOENT); LRet 0 (Ok tt); LRet 2 (Ok tt)] /\ found ex_tr (w_tree w) (str "/e") = Some KDir
  | None => False
  end.
Proof.
  split; [unfold short_cs; cbn [calls_of flat_map app]; ffuse|]. split; [apply no_collision_b; vm_compute; reflexivity|].
  split; [right; right; apply Forall_forall; intros n Hn; apply Nat.leb_le; revert n Hn; apply Forall_forall; vm_compute; repeat constructor|].
  vm_compute. repeat split.
Qed.

(** A directory that is empty at all times is not removed: another call has just made
    the table anew, for a file that it then does not create. *)
Definition refusal_cs : list choice :=
  [ Begin 0 (LMkdir (str "/d") None); go 0; Return 0;
    Begin 0 (LRmdir (str "/d") None); go 0;
    Begin 1 (LOpen (str "/d/a long file name") true true 1 (Some (EPosix 13)) None); go 1; go 1; go 1; go 1; Return 1;
    go 0; Return 0 ].
Theorem C73_empty_directory_is_removed_refuted :
  match c_run ex_tr refusal_cs world0 with
  | Some (w, h) =>
    h = [ LInv 0 (LMkdir (str "/d") None); LRet 0 (Ok tt); LInv 0 (LRmdir (str "/d") None);
          LInv 1 (LOpen (str "/d/a long file name") true true 1 (Some (EPosix 13)) None);
          LRet 1 (Err (EPosix 13)); LRet 0 (Err ENOTEMPTY) ]
  | None => False
  end.
Proof. vm_compute. reflexivity. Qed.
Print Assumptions C73_empty_directory_is_removed_refuted.

(** Two renames between the same two directories, in opposite directions: each holds
    the table that the other waits for.  Neither goes on until SQLite gives up waiting,
    and the call that gives up fails. *)
Definition opposite_cs : list choice :=
  [ Begin 0 (LMkdir (str "/d") None); go 0; Return 0; Begin 0 (LMkdir (str "/e") None); go 0; Return 0;
    Begin 0 (LOpen (str "/d/a long file name") true true 1 None None); go 0; go 0; go 0; go 0; Return 0;
    Begin 0 (LOpen (str "/e/another long name") true true 2 None None); go 0; go 0; go 0; go 0; Return 0;
    Begin 0 (LRename (str "/d/a long file name") (str "/e/a long file name") None);
    Begin 1 (LRename (str "/e/another long name") (str "/d/another long name") None);
    go 0; go 0; go 1; go 1; go 0; go 1 ].
Theorem C73_opposite_renames_refuted :
  match c_run ex_tr opposite_cs world0 with
  | Some (w, _) => c_step ex_tr (go 0) w = None /\ c_step ex_tr (go 1) w = None /\
                   c_step ex_tr (Return 0) w = None /\ c_step ex_tr (Return 1) w = None
  | None => False
  end.
Proof. vm_compute. repeat split. Qed.
Print Assumptions C73_opposite_renames_refuted.

(** ** C74 *)

(** If no table is taken away from a call that is using it, then, whenever no call is
    under way, every long-named entry of every directory is recorded. *)
Theorem C74_long_names_recorded :
  forall cmac keystream blake, sizes_ok cmac keystream blake ->
  forall threshold suffix, 0 < threshold -> suffix_ok (suffix_in_force suffix) ->
  let tr := make_translator cmac keystream blake false threshold suffix None None in
  forall cs w h, gentle_run tr (suffix_in_force suffix) cs world0 -> undisturbed_run tr cs world0 ->
    c_run tr cs world0 = Some (w, h) -> at_rest w ->
    all_recorded tr threshold (suffix_in_force suffix) (on_disk w) /\ nothing_stale (suffix_in_force suffix) (on_disk w).
Proof.
  intros cmac ks blake (H1 & H2 & H3) threshold suffix Ht Hs tr cs w h HG HU HR HA.
  pose proof (rest_inv cmac ks blake H1 H2 H3 threshold Ht suffix Hs cs w h (op_names (calls_of cs)) HG HU HR HA (incl_refl _)) as HI.
  split; [eapply (inv_recorded cmac ks blake H1 H2 H3 threshold Ht suffix); eassumption|eapply (inv_not_stale cmac ks blake threshold suffix); exact HI].
Qed.
Print Assumptions C74_long_names_recorded.

(** So a directory then lists exactly the names that can be opened in it, each once. *)
Theorem C74_listing_is_what_can_be_opened :
  forall cmac keystream blake, sizes_ok cmac keystream blake ->
  forall threshold suffix, 0 < threshold -> suffix_ok (suffix_in_force suffix) ->
  let tr := make_translator cmac keystream blake false threshold suffix None None in
  forall cs w h, gentle_run tr (suffix_in_force suffix) cs world0 -> undisturbed_run tr cs world0 ->
    c_run tr cs world0 = Some (w, h) -> at_rest w ->
  forall dir name P l es,
    Forall (fun n => n <> [] /\ ~ In slash n) dir -> name <> [] -> ~ In slash name ->
    no_collision blake threshold (name :: op_names (calls_of cs)) ->
    t_encrypt tr (path_of dir) = Ok (P, l) -> on_disk w (comps P) = Some es ->
    NoDup (listing tr es) /\
    (In name (listing tr es) <-> found tr (on_disk w) (path_of (dir ++ [name])) <> None).
Proof.
  intros cmac ks blake (H1 & H2 & H3) threshold suffix Ht Hs tr cs w h HG HU HR HA dir name P l es Hd Hn Hsl Hc He Hes.
  eapply (listing_matches cmac ks blake H1 H2 H3 threshold Ht (fun n => In n (name :: op_names (calls_of cs))) suffix Hs); eauto.
  - exact (rest_inv cmac ks blake H1 H2 H3 threshold Ht suffix Hs cs w h (name :: op_names (calls_of cs)) HG HU HR HA (fun x Hx => or_intror Hx)).
  - left. reflexivity.
Qed.
Print Assumptions C74_listing_is_what_can_be_opened.

(** A schedule is checked step by step. *)
Definition waitingb (p : prog) : bool := match p with PFinish _ _ _ | PRet _ => false | _ => true end.
Definition table_atb (fs : hfs) (c : hpath * nat) : bool :=
  match fs (fst c) with Some es => match ent kLongNameTableFileName es with Some (KFile k) => k =? snd c | _ => false end | None => false end.
Definition calmb (ts : list nat) (w : world) : bool :=
  forallb (fun t => match w_thr w t with LIdle => true | LRun _ conns p => negb (waitingb p) || forallb (table_atb (w_tree w)) conns end) ts.
Definition fuseb (p : bytes) : bool := Byte.eqb (hd x00 p) slash && fuse_pathb_go (split_slash (tl p)).
Fixpoint committingb (p : prog) : bool := match p with PFinish _ c next => c || committingb next | _ => false end.
Definition gentleb (ts : list nat) (c : choice) (w : world) : bool :=
  match c with
  | Begin _ o => forallb fuseb (op_paths o)
  | Go t fail =>
    match w_thr w t with
    | LRun o _ (PHost _ _) =>
      forallb fuseb (op_paths o) &&
      match o with
      | LOpen p true _ _ _ (Some _) => false
      | LRmdir p _ => forallb (fun u => negb (negb (Byte.eqb (hd x00 u) dot) && ends_with u ll)) (entries_of ex_tr (w_tree w) p)
      | LRename p q _ => match found ex_tr (w_tree w) p, found ex_tr (w_tree w) q with Some (KFile i), Some (KFile j) => negb (i =? j) | _, _ => true end
      | _ => true
      end
    | LRun _ _ (PFinish _ true _) => match fail with None => true | _ => false end
    | _ => true
    end
  | Return _ => true
  | Kill => forallb (fun t => match w_thr w t with LIdle => true | LRun _ _ p => negb (committingb p) end) ts
  end.
Definition among (ts : list nat) (c : choice) : bool :=
  match c with Begin t _ | Go t _ | Return t => existsb (Nat.eqb t) ts | Kill => true end.
Fixpoint gentle_runb (ts : list nat) (cs : list choice) (w : world) : bool :=
  match cs with
  | [] => true
  | c :: cs' => among ts c && gentleb ts c w && match c_step ex_tr c w with None => true | Some (w1, _) => gentle_runb ts cs' w1 end
  end.
Fixpoint calm_runb (ts : list nat) (cs : list choice) (w : world) : bool :=
  calmb ts w &&
  match cs with
  | [] => true
  | c :: cs' => among ts c && match c_step ex_tr c w with None => true | Some (w1, _) => calm_runb ts cs' w1 end
  end.

Lemma fuseb_ok ps : forallb fuseb ps = true -> Forall fuse_path ps.
Proof.
  intros H. apply Forall_forall. intros p Hp. rewrite forallb_forall in H. specialize (H p Hp). unfold fuseb in H. apply andb_true_iff in H. destruct H as (A & B).
  apply fuse_pathb; [|exact B]. apply Byte.byte_dec_bl in A. exact A.
Qed.
Definition quiet (ts : list nat) (w : world) : Prop := forall t, ~ In t ts -> w_thr w t = LIdle.
Lemma gentleb_ok ts c w : quiet ts w -> gentleb ts c w = true -> gentle_step ex_tr ll c w.
Proof.
  intros HQ. destruct c as [t o|t fail|t|]; cbn [gentleb gentle_step]; [apply fuseb_ok| |auto|].
  2:{ intros H t o conns p HT. assert (CB : committing p -> committingb p = true).
      { clear. induction p as [| | | |k c next IH]; cbn; try contradiction. intros [->|H]; [reflexivity|]. rewrite IH by exact H. apply Bool.orb_true_r. }
      destruct (in_dec Nat.eq_dec t ts) as [Ht|Ht]; [|rewrite (HQ t Ht) in HT; discriminate HT].
      rewrite forallb_forall in H. specialize (H t Ht). rewrite HT in H. intros HC. rewrite (CB HC) in H. discriminate H. }
  destruct (w_thr w t) as [|o conns [r|d next|k f next|call next|k [] next]]; auto; [|destruct fail; [discriminate|auto]].
  intros H. apply andb_true_iff in H. destruct H as (H & H2). split; [apply fuseb_ok; exact H|].
  destruct o as [p creat excl ino bad late|p bad|p ino bad|s p bad|p bad|p bad|p q bad]; auto.
  - destruct creat; [|exact I]. destruct late; [discriminate H2|exact I].
  - apply Forall_forall. intros u Hu HL. rewrite forallb_forall in H2. specialize (H2 u Hu). apply (long_iff ll u) in HL. rewrite HL in H2. discriminate H2.
  - intros i E1 E2. rewrite E1, E2, Nat.eqb_refl in H2. discriminate H2.
Qed.
Lemma step_quiet ts c w w1 h : c_step ex_tr c w = Some (w1, h) -> among ts c = true -> quiet ts w -> quiet ts w1.
Proof.
  intros E HA HQ t Ht.
  assert (X : forall A (f : nat -> A) i v, existsb (Nat.eqb i) ts = true -> nupd f i v t = f t).
  { intros A f i v Hi. unfold nupd. destruct (Nat.eqb_spec t i) as [->|]; [|reflexivity]. exfalso. apply Ht. apply existsb_exists in Hi. destruct Hi as (j & Hj & Ej).
    apply Nat.eqb_eq in Ej. congruence. }
  destruct c as [t' o|t' fail|t'|]; cbn [c_step among] in *.
  - destruct (w_thr w t'); [|discriminate E]. injection E as <- _. cbn. rewrite X by exact HA. apply HQ. exact Ht.
  - destruct (w_thr w t') as [|o conns p]; [discriminate E|].
    assert (S : forall w2 x, w_thr w2 = w_thr w -> w_thr (set_thr w2 t' x) t = LIdle) by (intros w2 x H2; cbn; rewrite X by exact HA; rewrite H2; apply HQ; exact Ht).
    destruct p as [r|d next|k f next|call next|k cm next]; [discriminate E| | | |].
    + destruct fail; [injection E as <- _; apply S; reflexivity|]. unfold open_db in E. destruct (w_tree w d) as [es|]; [|injection E as <- _; apply S; reflexivity].
      destruct (ent kLongNameTableFileName es) as [[| |]|]; injection E as <- _; apply S; reflexivity.
    + destruct fail; [injection E as <- _; apply S; reflexivity|]. destruct (db_owner (w_db w k)) as [[t2 m]|]; [destruct (t2 =? t'); [|discriminate E]|]; injection E as <- _; apply S; reflexivity.
    + destruct fail; [discriminate E|]. destruct (call (w_tree w)). injection E as <- _. apply S. reflexivity.
    + injection E as <- _. apply S. reflexivity.
  - destruct (w_thr w t') as [|o conns [r| | | |]]; try discriminate E. injection E as <- _. cbn. rewrite X by exact HA. apply HQ. exact Ht.
  - injection E as <- _. reflexivity.
Qed.
Lemma gentle_runb_ok ts cs : forall w, quiet ts w -> gentle_runb ts cs w = true -> gentle_run ex_tr ll cs w.
Proof.
  induction cs as [|c cs IH]; intros w HQ H; [exact I|]. cbn [gentle_runb gentle_run] in *. apply andb_true_iff in H. destruct H as (A & B).
  apply andb_true_iff in A. destruct A as (A1 & A2). split; [eapply gentleb_ok; eassumption|].
  destruct (c_step ex_tr c w) as [[w1 h1]|] eqn:E; [|exact I]. apply IH; [eapply step_quiet; eassumption|exact B].
Qed.
Lemma calm_runb_ok ts cs : forall w, quiet ts w -> calm_runb ts cs w = true -> undisturbed_run ex_tr cs w.
Proof.
  assert (U : forall w, quiet ts w -> calmb ts w = true -> undisturbed w).
  { intros w HI H t o conns p d k HT HW Hi. assert (Ht : In t ts).
    { destruct (in_dec Nat.eq_dec t ts) as [Ht|Ht]; [exact Ht|]. rewrite (HI t Ht) in HT. discriminate HT. }
    unfold calmb in H. rewrite forallb_forall in H. specialize (H t Ht). rewrite HT in H. apply orb_true_iff in H.
    assert (HX : negb (waitingb p) = false) by (destruct p; cbn in HW |- *; reflexivity || contradiction).
    destruct H as [H|H]; [congruence|]. rewrite forallb_forall in H. specialize (H _ Hi). unfold table_atb in H. cbn [fst snd] in H.
    destruct (w_tree w d) as [es|] eqn:E; [|discriminate H]. exists es. split; [exact E|]. destruct (ent kLongNameTableFileName es) as [[k'| |]|]; try discriminate H.
    apply Nat.eqb_eq in H. congruence. }
  induction cs as [|c cs IH]; intros w HI H; cbn [calm_runb undisturbed_run] in *; apply andb_true_iff in H; destruct H as (A & B); (split; [apply U; assumption|]); [exact I|].
  apply andb_true_iff in B. destruct B as (B1 & B2). destruct (c_step ex_tr c w) as [[w1 h1]|] eqn:E; [|exact I]. apply IH; [eapply step_quiet; eassumption|exact B2].
Qed.
Lemma rest_ok ts cs : forall w w' h, quiet ts w -> forallb (among ts) cs = true ->
  c_run ex_tr cs w = Some (w', h) -> forallb (fun t => match w_thr w' t with LIdle => true | _ => false end) ts = true -> at_rest w'.
Proof.
  induction cs as [|c cs IH]; intros w w' h HI HC HR HE.
  - cbn in HR. injection HR as <- _. intros t. destruct (in_dec Nat.eq_dec t ts) as [Ht|Ht]; [|apply HI; exact Ht].
    rewrite forallb_forall in HE. specialize (HE t Ht). destruct (w_thr w t); [reflexivity|discriminate HE].
  - cbn [c_run forallb] in *. apply andb_true_iff in HC. destruct HC as (C1 & C2). destruct (c_step ex_tr c w) as [[w1 h1]|] eqn:E; [|discriminate HR].
    destruct (c_run ex_tr cs w1) as [[w2 h2]|] eqn:E2; [|discriminate HR]. injection HR as <- _. eapply IH; [|exact C2|exact E2|exact HE].
    eapply step_quiet; eassumption.
Qed.

(** Witness: the schedule above is such a one. *)
Example C74_example :
  gentle_run ex_tr ll ex_cs world0 /\ undisturbed_run ex_tr ex_cs world0 /\
  (forall w h, c_run ex_tr ex_cs world0 = Some (w, h) -> at_rest w) /\
  match c_run ex_tr ex_cs world0, t_encrypt ex_tr long_d with
  | Some (w, _), Ok (P, _) =>
    match on_disk w [], on_disk w (comps P) with
    | Some es, Some es' => listing ex_tr es = [str "a directory with a long name"] /\ listing ex_tr es' = [str "second long file name"]
    | _, _ => False
    end
  | _, _ => False
  end.
Proof.
  split; [apply (gentle_runb_ok [0; 1; 2]); [intros t _; reflexivity|vm_compute; reflexivity]|].
  split; [apply (calm_runb_ok [0; 1; 2]); [intros t _; reflexivity|vm_compute; reflexivity]|]. split.
  - intros w h E. apply (rest_ok [0; 1; 2] ex_cs world0 w h); [intros t _; reflexivity|vm_compute; reflexivity|exact E|].
    assert (X : match c_run ex_tr ex_cs world0 with Some (w, _) => forallb (fun t => match w_thr w t with LIdle => true | _ => false end) [0; 1; 2] | None => false end = true) by (vm_compute; reflexivity).
    rewrite E in X. exact X.
  - vm_compute. repeat split.
Qed.

(** Without that proviso the statement is false: a directory is renamed, and another
    made in its place, while a file with a long name is being created in it.  The file
    is made in the new directory, and its name is recorded in the old one. *)
Definition moved_cs : list choice :=
  [ Begin 0 (LMkdir (str "/d") None); go 0; Return 0;
    Begin 0 (LOpen (str "/d/a long file name") true true 1 None None); go 0; go 0;
    Begin 1 (LRename (str "/d") (str "/e") None); go 1; Return 1;
    Begin 1 (LMkdir (str "/d") None); go 1; Return 1;
    go 0; go 0; Return 0 ].
Lemma lost cs ts P l : t_encrypt ex_tr (str "/d") = Ok (P, l) ->
  match c_run ex_tr cs world0 with
  | Some (w, _) => forallb (fun t => match w_thr w t with LIdle => true | _ => false end) ts &&
                   match on_disk w (comps P) with Some es => unrecorded ll es | None => false end
  | None => false
  end = true ->
  forallb (among ts) cs = true ->
  exists w h, c_run ex_tr cs world0 = Some (w, h) /\ at_rest w /\ ~ all_recorded ex_tr 10 ll (on_disk w).
Proof.
  intros E H HC. destruct (c_run ex_tr cs world0) as [[w h]|] eqn:ER; [|discriminate H]. exists w, h. split; [reflexivity|].
  apply andb_true_iff in H. destruct H as (A & B). split; [eapply rest_ok; [|exact HC|exact ER|exact A]; intros t _; reflexivity|].
  destruct (on_disk w (comps P)) as [es|] eqn:Es; [|discriminate B]. exact (not_recorded _ _ _ _ _ es Es B).
Qed.
Theorem C74_directory_moved_meanwhile_refuted :
  ~ (forall cs w h, gentle_run ex_tr ll cs world0 -> c_run ex_tr cs world0 = Some (w, h) -> at_rest w -> all_recorded ex_tr 10 ll (on_disk w)).
Proof.
  intros H. destruct (t_encrypt ex_tr (str "/d")) as [[P l]|] eqn:E; [|vm_compute in E; discriminate E].
  destruct (lost moved_cs [0; 1] P l E) as (w & h & ER & HA & HN).
  - vm_compute in E. injection E as <- <-. vm_compute. reflexivity.
  - vm_compute. reflexivity.
  - apply HN. apply (H moved_cs w h); [apply (gentle_runb_ok [0; 1]); [intros t _; reflexivity|vm_compute; reflexivity]|exact ER|exact HA].
Qed.
Print Assumptions C74_directory_moved_meanwhile_refuted.

(** An attempt to remove a directory that is empty when the attempt is made deletes
    the table under a file that is being created; the directory stays, the file too. *)
Definition removed_cs : list choice :=
  [ Begin 0 (LMkdir (str "/d") None); go 0; Return 0;
    Begin 0 (LOpen (str "/d/a long file name") true true 1 None None); go 0; go 0;
    Begin 1 (LRmdir (str "/d") None); go 1; go 0; go 0; go 1; Return 1; Return 0 ].
Theorem C74_directory_removed_meanwhile_refuted :
  exists w h, c_run ex_tr removed_cs world0 = Some (w, h) /\ at_rest w /\ ~ all_recorded ex_tr 10 ll (on_disk w) /\
    h = [ LInv 0 (LMkdir (str "/d") None); LRet 0 (Ok tt);
          LInv 0 (LOpen (str "/d/a long file name") true true 1 None None); LInv 1 (LRmdir (str "/d") None);
          LRet 1 (Err ENOTEMPTY); LRet 0 (Ok tt) ].
Proof.
  destruct (t_encrypt ex_tr (str "/d")) as [[P l]|] eqn:E; [|vm_compute in E; discriminate E].
  destruct (lost removed_cs [0; 1] P l E) as (w & h & ER & HA & HN).
  - vm_compute in E. injection E as <- <-. vm_compute. reflexivity.
  - vm_compute. reflexivity.
  - exists w, h. split; [exact ER|]. split; [exact HA|]. split; [exact HN|].
    assert (X : option_map snd (c_run ex_tr removed_cs world0) = Some
      [ LInv 0 (LMkdir (str "/d") None); LRet 0 (Ok tt);
          LInv 0 (LOpen (str "/d/a long file name") true true 1 None None); LInv 1 (LRmdir (str "/d") None);
          LRet 1 (Err ENOTEMPTY); LRet 0 (Ok tt) ]) by (vm_compute; reflexivity).
    rewrite ER in X. cbn [option_map snd] in X. congruence.
Qed.
Print Assumptions C74_directory_removed_meanwhile_refuted.

(** A commit that fails goes unnoticed: the file has been created and the call
    succeeds, but the name is not recorded. *)
Definition unnoticed_cs : list choice :=
  [ Begin 0 (LMkdir (str "/d") None); go 0; Return 0;
    Begin 0 (LOpen (str "/d/a long file name") true true 1 None None); go 0; go 0; go 0; Go 0 (Some (EPosix 28)); Return 0 ].
Theorem C74_failed_commit_refuted :
  exists w h, c_run ex_tr unnoticed_cs world0 = Some (w, h) /\ at_rest w /\ ~ all_recorded ex_tr 10 ll (on_disk w) /\
    h = [ LInv 0 (LMkdir (str "/d") None); LRet 0 (Ok tt);
          LInv 0 (LOpen (str "/d/a long file name") true true 1 None None); LRet 0 (Ok tt) ].
Proof.
  destruct (t_encrypt ex_tr (str "/d")) as [[P l]|] eqn:E; [|vm_compute in E; discriminate E].
  destruct (lost unnoticed_cs [0; 1] P l E) as (w & h & ER & HA & HN).
  - vm_compute in E. injection E as <- <-. vm_compute. reflexivity.
  - vm_compute. reflexivity.
  - exists w, h. split; [exact ER|]. split; [exact HA|]. split; [exact HN|].
    assert (X : option_map snd (c_run ex_tr unnoticed_cs world0) = Some
      [ LInv 0 (LMkdir (str "/d") None); LRet 0 (Ok tt);
          LInv 0 (LOpen (str "/d/a long file name") true true 1 None None); LRet 0 (Ok tt) ]) by (vm_compute; reflexivity).
    rewrite ER in X. cbn [option_map snd] in X. congruence.
Qed.
Print Assumptions C74_failed_commit_refuted.

(** ** C75 *)

(** If the process is killed, at whatever moment, then what is on the disk is right,
    except for the names of calls that were under way: every other long-named entry is
    recorded in the table of its directory, every other row belongs to an entry. *)
Theorem C75_killed_at_any_moment :
  forall cmac keystream blake, sizes_ok cmac keystream blake ->
  forall threshold suffix, 0 < threshold -> suffix_ok (suffix_in_force suffix) ->
  let tr := make_translator cmac keystream blake false threshold suffix None None in
  forall cs w h, gentle_run tr (suffix_in_force suffix) cs world0 -> undisturbed_run tr cs world0 ->
    c_run tr cs world0 = Some (w, h) ->
  forall d es, on_disk w d = Some es ->
    (forall u k, In (u, k) es -> long_entry (suffix_in_force suffix) u -> ~ under_way tr w u ->
       exists name P l, threshold < length name /\ ~ In slash name /\ t_encrypt tr (slash :: name) = Ok (P, l) /\
         get_last_component P = u /\ table_of es u = Ok l) /\
    (forall m u l, ent kLongNameTableFileName es = Some (KTable m) -> In (u, l) m -> ~ under_way tr w u ->
       long_entry (suffix_in_force suffix) u /\ In u (map fst es)).
Proof.
  intros cmac ks blake (H1 & H2 & H3) threshold suffix Ht Hs tr cs w h HG HU HR d es Hd. split.
  - intros u k. eapply (killed_recorded cmac ks blake H1 H2 H3 threshold Ht suffix Hs cs w h); eassumption.
  - intros m u l. eapply (killed_stale cmac ks blake H1 H2 H3 threshold Ht suffix Hs cs w h); eassumption.
Qed.
Print Assumptions C75_killed_at_any_moment.

(** Witness: the first file has been created, the second is being created when the
    process is killed; the first is recorded, the second is not. *)
Definition killed_cs : list choice :=
  [ Begin 0 (LMkdir (str "/d") None); go 0; Return 0;
    Begin 0 (LOpen (str "/d/a long file name") true true 1 None None); go 0; go 0; go 0; go 0; Return 0;
    Begin 0 (LOpen (str "/d/another long name") true true 2 None None); go 0; go 0; go 0 ].
Definition physical (path : bytes) : bytes := match t_encrypt ex_tr path with Ok (P, _) => get_last_component P | Err _ => [] end.
Definition phys_a : bytes := Eval vm_compute in physical (str "/d/a long file name").
Definition phys_b : bytes := Eval vm_compute in physical (str "/d/another long name").
Example C75_example :
  gentle_run ex_tr ll killed_cs world0 /\ undisturbed_run ex_tr killed_cs world0 /\
  match c_run ex_tr killed_cs world0, t_encrypt ex_tr (str "/d") with
  | Some (w, _), Ok (P, _) =>
    ~ under_way ex_tr w phys_a /\ under_way ex_tr w phys_b /\
    match on_disk w (comps P) with
    | Some es => map fst es = [phys_b; phys_a; kLongNameTableFileName] /\ listing ex_tr es = [str "a long file name"]
    | None => False
    end
  | _, _ => False
  end.
Proof.
  split; [apply (gentle_runb_ok [0]); [intros t _; reflexivity|vm_compute; reflexivity]|].
  split; [apply (calm_runb_ok [0]); [intros t _; reflexivity|vm_compute; reflexivity]|].
  destruct (c_run ex_tr killed_cs world0) as [[w h]|] eqn:E; [|vm_compute in E; discriminate E].
  assert (T0 : match w_thr w 0 with LRun o _ _ => o = LOpen (str "/d/another long name") true true 2 None None | LIdle => False end).
  { assert (X : match c_run ex_tr killed_cs world0 with Some (w, _) => match w_thr w 0 with LRun o _ _ => o = LOpen (str "/d/another long name") true true 2 None None | LIdle => False end | None => False end) by (vm_compute; reflexivity).
    rewrite E in X. exact X. }
  assert (TQ : quiet [0] w).
  { assert (QR : forall cs w0 w' h', quiet [0] w0 -> forallb (among [0]) cs = true -> c_run ex_tr cs w0 = Some (w', h') -> quiet [0] w').
    { clear. induction cs as [|c cs IH]; intros w0 w' h' HQ HC HR; [cbn in HR; injection HR as <- _; exact HQ|]. cbn [c_run forallb] in *. apply andb_true_iff in HC. destruct HC as (C1 & C2).
      destruct (c_step ex_tr c w0) as [[w1 h1]|] eqn:E1; [|discriminate HR]. destruct (c_run ex_tr cs w1) as [[w2 h2]|] eqn:E2; [|discriminate HR].
      assert (w2 = w') as <- by congruence. eapply IH; [|exact C2|exact E2]. eapply step_quiet; eassumption. }
    eapply QR; [| |exact E]; [intros t _; reflexivity|vm_compute; reflexivity]. }
  destruct (t_encrypt ex_tr (str "/d")) as [[P l]|] eqn:Ed; [|vm_compute in Ed; discriminate Ed].
  split; [|split].
  - intros (t & o & conns & p & path & P' & l' & HT & Hi & He & Hu).
    destruct (Nat.eq_dec t 0) as [->|N]; [|rewrite TQ in HT by (intros [X|[]]; congruence); discriminate HT]. rewrite HT in T0. subst o.
    destruct Hi as [<-|[]]. assert (X : physical (str "/d/another long name") = phys_a) by (unfold physical; rewrite He; exact Hu). vm_compute in X. discriminate X.
  - destruct (w_thr w 0) as [|o conns p] eqn:HT; [contradiction|]. subst o.
    destruct (t_encrypt ex_tr (str "/d/another long name")) as [[P' l']|] eqn:Ee; [|vm_compute in Ee; discriminate Ee].
    exists 0, (LOpen (str "/d/another long name") true true 2 None None), conns, p, (str "/d/another long name"), P', l'. split; [exact HT|]. split; [left; reflexivity|]. split; [exact Ee|].
    assert (X : physical (str "/d/another long name") = phys_b) by (vm_compute; reflexivity). unfold physical in X. rewrite Ee in X. exact X.
  - assert (X : match c_run ex_tr killed_cs world0, t_encrypt ex_tr (str "/d") with
      | Some (w, _), Ok (P, _) => match on_disk w (comps P) with
        | Some es => map fst es = [phys_b; phys_a; kLongNameTableFileName] /\ listing ex_tr es = [str "a long file name"] | None => False end
      | _, _ => False end) by (vm_compute; repeat split).
    rewrite E, Ed in X. exact X.
Qed.

(** So a kill can leave a file that has no recorded name, and no later call repairs it. *)
Theorem C75_recorded_after_kill_refuted :
  ~ (forall cs w h, undisturbed_run ex_tr cs world0 -> c_run ex_tr cs world0 = Some (w, h) -> at_rest w ->
     Forall (fun c => match c with Go _ (Some _) => False | _ => True end) cs -> all_recorded ex_tr 10 ll (on_disk w)).
Proof.
  intros H. destruct (t_encrypt ex_tr (str "/d")) as [[P l]|] eqn:E; [|vm_compute in E; discriminate E].
  destruct (lost (killed_cs ++ [Kill]) [0] P l E) as (w & h & ER & HA & HN).
  - vm_compute in E. injection E as <- <-. vm_compute. reflexivity.
  - vm_compute. reflexivity.
  - apply HN. apply (H (killed_cs ++ [Kill]) w h); [apply (calm_runb_ok [0]); [intros t _; reflexivity|vm_compute; reflexivity]|exact ER|exact HA|].
    unfold killed_cs, go. cbn [app]. repeat constructor.
Qed.
Print Assumptions C75_recorded_after_kill_refuted.
