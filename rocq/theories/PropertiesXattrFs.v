(** Extended attributes in a mounted lite repository: C90. *)
From Coq Require Import Strings.String.
From Verif Require Import Base BaseLemmas TextModel CryptoModel CryptoProofs StreamSpec BlockModel LiteModel LiteProofs NameModel NameSpec NameTop
  HandleModel HandleSpec LongNameModel LongNameSpec LongNameProofs LongNameInv LongNameTop PropertiesNames PropertiesLongNames PropertiesHandles
  LiteTreeSpec LiteTreeProofs LiteTreeTop PropertiesLiteTree LiteFsModel LiteFsSpec LiteFsProofs LiteFsTop PropertiesLiteFs
  XattrModel XattrSpec XattrProofs XattrTop PropertiesXattr LifeProofs XattrFsModel XattrFsSpec XattrFsProofs Toy.
Local Open Scope list_scope.

(** C90.  Whatever the ciphers and the way names are stored: the answers to any calls
    on files, names, links and attributes, with any unmounting in between, are those of
    a plain file system in which every file has its own attributes, but for the
    refusals that [history] allows.  What others have put on the stored files
    ([before]) is not seen. *)
Theorem C90_attributes_belong_to_the_file :
  forall cmac keystream blake, sizes_ok cmac keystream blake ->
  forall no_op threshold suffix, (no_op = false -> 0 < threshold -> suffix_ok (suffix_in_force suffix)) ->
  forall (A : aead) bs iv_size check sparse session_key padding_of padded rnd iv_fuel,
  lite_env_ok A bs iv_size rnd iv_fuel -> (padded = false -> forall id, padding_of id = 0) ->
  forall xcmac xks xblake, sizes_ok xcmac xks xblake ->
  forall b64 unb64, text_code b64 unb64 ->
  forall XA, aead_ok XA -> forall xkey xiv_size verify,
  forall before, (forall i, all_foreign (unwrap_name xcmac xks unb64) (before i)) ->
  let tr := make_translator cmac keystream blake no_op threshold suffix None None in
  forall link_max calls names, Forall x_from_fuse calls -> incl (x_names calls) names -> names_fit blake no_op threshold names ->
  x_all_proper (lite_max_blocks * bs) link_max (negb no_op && (threshold =? 0)) xiv_size calls px_empty ->
  exists p, x_history link_max calls px_empty
    (map as_seen (snd (run_ops (x_step A bs iv_size check sparse session_key padding_of padded rnd iv_fuel tr link_max xcmac xks b64 unb64 XA xkey xiv_size verify)
                               (mkXst ls_empty before) calls))) p.
Proof.
  intros cmac ks blake (H1 & H2 & H3) no_op threshold suffix Hc A bs iv_size check sparse session_key padding_of padded rnd iv_fuel HE HP
    xcmac xks xblake (X1 & X2 & _) b64 unb64 code XA HXA xkey xiv_size verify before Hb tr link_max calls names HO HN HF Hp.
  destruct (x_history_from cmac ks blake H1 H2 H3 no_op threshold suffix Hc names HF A bs iv_size check sparse session_key padding_of padded rnd iv_fuel HE HP link_max
    xcmac xks X1 X2 b64 unb64 code XA HXA xkey xiv_size verify calls (mkXst ls_empty before) px_empty) as (p & H & _).
  - apply (XR_start cmac ks blake no_op threshold suffix names A bs iv_size check session_key padding_of padded HP link_max xcmac xks b64 unb64 XA xkey xiv_size). exact Hb.
  - exact HO.
  - exact HN.
  - exact Hp.
  - exists p. exact H.
Qed.
Print Assumptions C90_attributes_belong_to_the_file.

(** If no name is too long to be stored and no text of a link comes near the host's
    limit, the answers are exactly those. *)
Theorem C90_exactly :
  forall cmac keystream blake, sizes_ok cmac keystream blake ->
  forall no_op threshold suffix, (no_op = false -> 0 < threshold -> suffix_ok (suffix_in_force suffix)) ->
  forall (A : aead) bs iv_size check sparse session_key padding_of padded rnd iv_fuel,
  lite_env_ok A bs iv_size rnd iv_fuel -> (padded = false -> forall id, padding_of id = 0) ->
  forall xcmac xks xblake, sizes_ok xcmac xks xblake ->
  forall b64 unb64, text_code b64 unb64 ->
  forall XA, aead_ok XA -> forall xkey xiv_size verify,
  forall before, (forall i, all_foreign (unwrap_name xcmac xks unb64) (before i)) ->
  let tr := make_translator cmac keystream blake no_op threshold suffix None None in
  forall link_max calls names, Forall x_from_fuse calls -> incl (x_names calls) names -> names_fit blake no_op threshold names ->
  no_long_names no_op threshold names -> x_short_links link_max calls ->
  x_run_proper (lite_max_blocks * bs) link_max (negb no_op && (threshold =? 0)) xiv_size calls px_empty ->
  map as_seen (snd (run_ops (x_step A bs iv_size check sparse session_key padding_of padded rnd iv_fuel tr link_max xcmac xks b64 unb64 XA xkey xiv_size verify)
                            (mkXst ls_empty before) calls)) =
  snd (run_ops px_step px_empty calls).
Proof.
  intros cmac ks blake (H1 & H2 & H3) no_op threshold suffix Hc A bs iv_size check sparse session_key padding_of padded rnd iv_fuel HE HP
    xcmac xks xblake (X1 & X2 & _) b64 unb64 code XA HXA xkey xiv_size verify before Hb tr link_max calls names HO HN HF HL Hs Hp.
  assert (Ht : tab no_op threshold names = false).
  { unfold tab. destruct no_op; [reflexivity|]. destruct HL as [HL|[->|HL]]; [discriminate|reflexivity|].
    destruct (existsb (fun n => threshold <? length n) names) eqn:E; [|apply Bool.andb_false_r]. exfalso. apply existsb_exists in E as (n & Hn & E).
    rewrite Forall_forall in HL. specialize (HL n Hn). apply Nat.ltb_lt in E. lia. }
  refine (proj1 (x_same_from cmac ks blake H1 H2 H3 no_op threshold suffix Hc names HF A bs iv_size check sparse session_key padding_of padded rnd iv_fuel HE HP link_max
    xcmac xks X1 X2 b64 unb64 code XA HXA xkey xiv_size verify calls Ht (mkXst ls_empty before) px_empty _ HO HN Hs Hp)).
  apply (XR_start cmac ks blake no_op threshold suffix names A bs iv_size check session_key padding_of padded HP link_max xcmac xks b64 unb64 XA xkey xiv_size). exact Hb.
Qed.
Print Assumptions C90_exactly.

(** ** Witnesses *)
(** A file with a long name and two attributes is linked, renamed and opened anew; the
    attributes go with the file, a new file of the old name has none, and replacing a
    file by a rename leaves the attributes of the file that was moved. *)
Definition ex_calls (a b : bytes) : list xcall :=
  [ XCall (VOpen a true true false 1 None);
    XOn a (XSet (str "user.k") (str "value") XAny iv12 None None);
    XOn a (XGet (str "user.k") (Some 5) None None);
    XCall (VIo 1 (SWrite 3 (str "data")));
    XCall (VLink a b None);
    XOn b (XGet (str "user.k") (Some 5) None None);
    XOn b (XSet (str "user.l") (str "w") XCreate iv12 None None);
    XOn a (XSet (str "user.l") (str "x") XCreate iv12 None None);
    XOn a (XList (Some 40) None);
    XCall LiteFsModel.VRemount;
    XCall (VRename a (str "/n") None);
    XOn a (XGet (str "user.k") (Some 5) None None);
    XCall (VOpen a true true false 2 None);
    XOn a (XGet (str "user.k") (Some 5) None None);
    XOn a (XSet (str "user.k") (str "other") XAny iv12 None None);
    XCall (VUnlink b None);
    XOn (str "/n") (XGet (str "user.k") (Some 5) None None);
    XCall (VRename (str "/n") a None);
    XOn a (XGet (str "user.k") (Some 5) None None);
    XOn a (XRemove (str "user.k") None None);
    XOn a (XList (Some 40) None) ].
Definition ex_xouts : list xout :=
  [ XRes (VRes (Ok tt)); XAns (Ok (0, [])); XAns (Ok (5, str "value")); XRes (VData ODone); XRes (VRes (Ok tt));
    XAns (Ok (5, str "value")); XAns (Ok (0, [])); XAns (Err LongNameModel.EEXIST); XAns (Ok (14, str "user.k" ++ x00 :: str "user.l" ++ [x00]));
    XRes (VRes (Ok tt)); XRes (VRes (Ok tt)); XAns (Err LongNameModel.ENOENT); XRes (VRes (Ok tt)); XAns (Err ENODATA); XAns (Ok (0, []));
    XRes (VRes (Ok tt)); XAns (Ok (5, str "value")); XRes (VRes (Ok tt)); XAns (Ok (5, str "value")); XAns (Ok (0, []));
    XAns (Ok (7, str "user.l" ++ [x00])) ].

Definition lite_fits_b (iv : nat) (o : xop) (s : hx) : bool :=
  let nm n := match n with [] => false | _ => forallb (fun c => negb (Byte.eqb c x00)) n end in
  match o with
  | XSet n v _ i _ _ => nm n && negb (match v with [] => true | _ => false end) && (length i =? iv)
  | XGet n size _ _ => nm n && match size with Some sz => (0 <? sz) && match ent n s with Some v => sz <=? length v | None => true end | None => true end
  | XRemove n _ _ => nm n
  | XList _ _ => true
  end.
Lemma lite_fits_ok iv o s : lite_fits_b iv o s = true -> lite_fits iv o s.
Proof.
  destruct o as [n v fl i bad bad2|n size bad bad2|n bad bad2|size bad]; cbn [lite_fits lite_fits_b]; intros H.
  - apply andb_true_iff in H as [H H3]. apply andb_true_iff in H as [H1 H2]. split; [apply xname_dec; exact H1|]. split; [destruct v; [discriminate H2|discriminate]|apply Nat.eqb_eq; exact H3].
  - apply andb_true_iff in H as [H1 H2]. split; [apply xname_dec; exact H1|]. intros sz ->. apply andb_true_iff in H2 as [H2 H3]. apply Nat.ltb_lt in H2. split; [lia|].
    intros v E. rewrite E in H3. apply Nat.leb_le. exact H3.
  - apply xname_dec. exact H.
  - exact I.
Qed.
Definition on_proper_b (iv : nat) (s : pxs) (path : bytes) (o : xop) : bool :=
  match at_path (px_fs s) path with
  | Some (NReg i) => lite_fits_b iv o (px_attrs s i)
  | None => lite_fits_b iv o []
  | _ => false
  end.
Lemma on_proper_ok iv s path o : on_proper_b iv s path o = true -> on_proper iv s path o.
Proof. unfold on_proper_b, on_proper. destruct (at_path (px_fs s) path) as [[|i|i|]|]; try discriminate; apply lite_fits_ok. Qed.
Fixpoint x_all_proper_b (limit link_max iv : nat) (cs : list xcall) (s : pxs) : bool :=
  match cs with
  | [] => true
  | XCall op :: cs' => proper_b limit link_max (px_fs s) op && forallb (fun f => x_all_proper_b limit link_max iv cs' (mkPx f (px_attrs s))) (nexts (px_fs s) op)
  | XOn path o :: cs' => on_proper_b iv s path o && x_all_proper_b limit link_max iv cs' (fst (px_on s path o))
  end.
Lemma x_all_proper_ok limit limit' link_max old iv cs : limit <= limit' -> forall s, x_all_proper_b limit link_max iv cs s = true -> x_all_proper limit' link_max old iv cs s.
Proof.
  intros Hl. induction cs as [|[op|path o] cs IH]; intros s H; [exact I| |]; cbn [x_all_proper_b x_all_proper] in *; apply andb_true_iff in H as [H1 H2].
  - split; [exact (proper_ok _ _ _ _ _ _ Hl H1)|]. intros outs f Hh. apply IH. rewrite forallb_forall in H2. apply H2. exact (nexts_ok _ _ _ _ _ Hh).
  - split; [apply on_proper_ok; exact H1|apply IH; exact H2].
Qed.
Fixpoint x_run_proper_b (limit link_max iv : nat) (cs : list xcall) (s : pxs) : bool :=
  match cs with
  | [] => true
  | c :: cs' => match c with XCall op => proper_b limit link_max (px_fs s) op | XOn path o => on_proper_b iv s path o end && x_run_proper_b limit link_max iv cs' (fst (px_step s c))
  end.
Lemma x_run_proper_ok limit limit' link_max old iv cs : limit <= limit' -> forall s, x_run_proper_b limit link_max iv cs s = true -> x_run_proper limit' link_max old iv cs s.
Proof.
  intros Hl. induction cs as [|c cs IH]; intros s H; [exact I|]. cbn [x_run_proper_b x_run_proper] in *. apply andb_true_iff in H as [H1 H2].
  split; [|apply IH; exact H2]. destruct c as [op|path o]; [exact (proper_ok _ _ _ _ _ _ Hl H1)|apply on_proper_ok; exact H1].
Qed.
Ltac xfuse := repeat (apply Forall_cons; [first [apply fuse_pathb; vm_compute; reflexivity
  |cbn [x_from_fuse]; unfold v_from_fuse; cbn [vop_paths]; repeat (apply Forall_cons; [split; [apply fuse_pathb; vm_compute; reflexivity|first [exact I|discriminate]]|]); apply Forall_nil]|]); apply Forall_nil.
Notation ex_xrun calls := (snd (run_ops (x_step keyed_aead 32 12 true true (fun id => id) (fun _ => 5) true toy_rnd 2 ex_tr 4095 ex_cmac ex_ks hexify ex_unhex ex_xaead [] 12 true)
  (mkXst ls_empty (fun _ => ex_before)) calls)).

Example C90_example :
  let long := ex_calls (str "/a long file name") (str "/b") in
  let short := ex_calls (str "/a") (str "/b") in
  Forall x_from_fuse long /\ names_fit ex_blake false 10 (x_names long) /\ x_all_proper (lite_max_blocks * 32) 4095 false 12 long px_empty /\
  map as_seen (ex_xrun long) = ex_xouts /\
  Forall x_from_fuse short /\ names_fit ex_blake false 10 (x_names short) /\ no_long_names false 10 (x_names short) /\ x_short_links 4095 short /\
  x_run_proper (lite_max_blocks * 32) 4095 false 12 short px_empty /\ map as_seen (ex_xrun short) = ex_xouts.
Proof.
  assert (H : 1000 <= lite_max_blocks) by (apply lite_over_max_inv; vm_compute; reflexivity). cbv zeta.
  split; [unfold ex_calls; xfuse|]. split; [apply no_collision_b; vm_compute; reflexivity|].
  split; [apply (x_all_proper_ok 1000); [lia|vm_compute; reflexivity]|]. split; [vm_compute; reflexivity|].
  split; [unfold ex_calls; xfuse|]. split; [apply no_collision_b; vm_compute; reflexivity|].
  split; [right; right; apply Forall_forall; intros n Hn; apply Nat.leb_le; revert n Hn; apply forallb_forall; vm_compute; reflexivity|].
  split; [unfold x_short_links, ex_calls; repeat (apply Forall_cons; [first [exact I|repeat constructor]|]); apply Forall_nil|].
  split; [apply (x_run_proper_ok 1000); [lia|vm_compute; reflexivity]|vm_compute; reflexivity].
Qed.

(** Setting an empty value succeeds even where there is no file: a plain file system
    says that there is none. *)
Theorem C90_empty_value_of_no_file_refuted :
  let c := XOn (str "/nothing") (XSet (str "user.k") [] XReplace iv12 None None) in
  ex_xrun [c] = [XAns (Ok (0, []))] /\ snd (run_ops px_step px_empty [c]) = [XAns (Err LongNameModel.ENOENT)].
Proof. split; vm_compute; reflexivity. Qed.
Print Assumptions C90_empty_value_of_no_file_refuted.
