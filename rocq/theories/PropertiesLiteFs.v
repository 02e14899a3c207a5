(** A mounted lite repository as a whole: C71. *)
From Coq Require Import Strings.String.
From Verif Require Import Base BaseLemmas TextModel CryptoModel StreamSpec BlockModel LiteModel LiteProofs NameModel NameSpec NameTop
  HandleModel HandleSpec LongNameModel LongNameSpec LongNameProofs LongNameInv LongNameTop PropertiesNames PropertiesLongNames PropertiesHandles
  LiteTreeSpec LiteTreeProofs LiteTreeTop PropertiesLiteTree LiteFsModel LiteFsSpec LiteFsProofs LiteFsTop Toy.
Local Open Scope list_scope.

(** Whatever the cipher, the block size, the padding and the way names are stored:
    the answers to any calls, with any unmounting in between, are those of a plain
    file system, but for the refusals that [history] allows. *)
Theorem C71_answers_of_a_plain_file_system :
  forall cmac keystream blake, sizes_ok cmac keystream blake ->
  forall no_op threshold suffix, (no_op = false -> 0 < threshold -> suffix_ok (suffix_in_force suffix)) ->
  forall (A : aead) bs iv_size check sparse session_key padding_of padded rnd iv_fuel,
  lite_env_ok A bs iv_size rnd iv_fuel -> (padded = false -> forall id, padding_of id = 0) ->
  let tr := make_translator cmac keystream blake no_op threshold suffix None None in
  forall link_max ops names, Forall v_from_fuse ops -> incl (v_names ops) names -> names_fit blake no_op threshold names ->
  all_proper (lite_max_blocks * bs) link_max (negb no_op && (threshold =? 0)) ops pf_empty ->
  exists p, history link_max ops pf_empty
    (snd (run_ops (v_step A bs iv_size check sparse session_key padding_of padded rnd iv_fuel tr link_max) ls_empty ops)) p.
Proof.
  intros cmac ks blake (H1 & H2 & H3) no_op threshold suffix Hc A bs iv_size check sparse session_key padding_of padded rnd iv_fuel HE HP tr link_max ops names HO HN HF Hp.
  destruct (whole_history cmac ks blake H1 H2 H3 no_op threshold suffix Hc names HF A bs iv_size check sparse session_key padding_of padded rnd iv_fuel HE HP link_max ops HO HN Hp) as (p & H & _).
  exists p. exact H.
Qed.
Print Assumptions C71_answers_of_a_plain_file_system.

(** If no name is too long to be stored and no text of a link comes near the host's
    limit, nothing is refused: the answers are exactly those of the plain file
    system, and at the end every directory lists exactly the names it holds there,
    each once. *)
Theorem C71_exactly_a_plain_file_system :
  forall cmac keystream blake, sizes_ok cmac keystream blake ->
  forall no_op threshold suffix, (no_op = false -> 0 < threshold -> suffix_ok (suffix_in_force suffix)) ->
  forall (A : aead) bs iv_size check sparse session_key padding_of padded rnd iv_fuel,
  lite_env_ok A bs iv_size rnd iv_fuel -> (padded = false -> forall id, padding_of id = 0) ->
  let tr := make_translator cmac keystream blake no_op threshold suffix None None in
  forall link_max ops names, Forall v_from_fuse ops -> incl (v_names ops) names -> names_fit blake no_op threshold names ->
  no_long_names no_op threshold names -> short_links link_max ops ->
  run_proper (lite_max_blocks * bs) link_max (negb no_op && (threshold =? 0)) pf_empty ops ->
  let '(s, outs) := run_ops (v_step A bs iv_size check sparse session_key padding_of padded rnd iv_fuel tr link_max) ls_empty ops in
  let '(p, plain_outs) := run_ops p_step pf_empty ops in
  outs = plain_outs /\
  forall dir, Forall (fun n => n <> [] /\ ~ In slash n) dir -> incl dir names ->
    exists P l, t_encrypt tr (path_of dir) = Ok (P, l) /\
    match pf_tree p dir, ls_tree s (comps P) with
    | None, None => True
    | Some plain, Some es => NoDup (listing tr es) /\ forall n, In n (listing tr es) <-> ent n plain <> None
    | _, _ => False
    end.
Proof.
  intros cmac ks blake (H1 & H2 & H3) no_op threshold suffix Hc A bs iv_size check sparse session_key padding_of padded rnd iv_fuel HE HP tr link_max ops names HO HN HF HL Hs Hp.
  assert (Ht : tab no_op threshold names = false).
  { unfold tab. destruct no_op; [reflexivity|]. destruct HL as [HL|[->|HL]]; [discriminate|reflexivity|].
    destruct (existsb (fun n => threshold <? length n) names) eqn:E; [|apply Bool.andb_false_r]. exfalso. apply existsb_exists in E as (n & Hn & E).
    rewrite Forall_forall in HL. specialize (HL n Hn). apply Nat.ltb_lt in E. lia. }
  destruct (whole_same cmac ks blake H1 H2 H3 no_op threshold suffix Hc names HF A bs iv_size check sparse session_key padding_of padded rnd iv_fuel HE HP link_max ops HO HN Ht Hs Hp) as [E R0].
  fold tr in E, R0. destruct (run_ops (v_step _ _ _ _ _ _ _ _ _ _ _ _) ls_empty ops) as [s outs]. destruct (run_ops p_step pf_empty ops) as [p pouts]. cbn [fst snd] in E, R0.
  split; [exact E|]. intros dir Hd Hi.
  destruct (dir_same cmac ks blake H1 H2 H3 no_op threshold suffix Hc names HF _ _ dir (lr_tree _ _ _ _ _ _ _ _ _ _ _ _ R0) Hd Hi) as (P & l & EP & O).
  exists P, l. split; [exact EP|]. unfold optR in O. fold tr in O. destruct (pf_tree p dir) as [ev|], (ls_tree s (comps P)) as [es|]; try contradiction; [|exact I].
  exact (listing_same cmac ks blake H1 H2 H3 no_op threshold suffix Hc names HF ev es Ht O).
Qed.
Print Assumptions C71_exactly_a_plain_file_system.

(** ** Witnesses *)

(** The conditions, decided. *)
Definition not_link_b (s : pfs) (path : bytes) : bool := match at_path s path with Some (NLink _) => false | _ => true end.
Definition proper_b (limit link_max : nat) (s : pfs) (op : vop) : bool :=
  match op with
  | VOpen path creat excl _ _ _ => (creat && excl) || not_link_b s path
  | VIo h o => match pf_handles s h with
               | Some (i, g) => match pf_files s i with Some (_, g') => g =? g' | None => true end
               | None => true
               end && within_b limit o
  | VTruncate path n _ => (n <=? limit) && not_link_b s path
  | VSymlink t _ _ => negb (existsb (Byte.eqb x00) t) && forallb (fun w => length w <=? 2000) (split_slash t)
  | VReadlink path size =>
    (1 <? size) && (link_max <=? size * 2 + 126) &&
    match at_path s path with
    | Some (NLink i) => match pf_links s i with Some t => length t <? size | None => true end
    | _ => true
    end
  | _ => true
  end.
Lemma not_link_ok s path : not_link_b s path = true -> not_link s path.
Proof. unfold not_link_b, not_link. intros H i E. rewrite E in H. discriminate. Qed.
Lemma proper_ok limit limit' link_max old s op : limit <= limit' -> proper_b limit link_max s op = true -> proper limit' link_max old s op.
Proof.
  intros Hl H. destruct op as [path creat excl trunc h bad|h o|h|path n bad|path|path bad|path bad|path bad|src dest bad|from to bad|target path bad|path size|];
    cbn [proper proper_b] in *; try exact I.
  - apply orb_prop in H as [H|H]; [left; exact H|right; apply not_link_ok; exact H].
  - apply andb_true_iff in H as [H1 H2]. split.
    + intros (i & g & c & g' & E1 & E2 & N). rewrite E1, E2 in H1. apply Nat.eqb_eq in H1. contradiction.
    + destruct o; cbn [within_b sop_within] in *; try exact I; apply Nat.leb_le in H2; lia.
  - apply andb_true_iff in H as [H1 H2]. apply Nat.leb_le in H1. split; [lia|apply not_link_ok; exact H2].
  - apply andb_true_iff in H as [H1 H2]. split.
    + intros Hi. apply negb_true_iff in H1. rewrite <- not_true_iff_false in H1. apply H1. apply existsb_exists. exists x00. split; [exact Hi|reflexivity].
    + intros _. apply Forall_forall. intros w Hw. rewrite forallb_forall in H2. apply Nat.leb_le. exact (H2 w Hw).
  - apply andb_true_iff in H as [H1 H2]. apply andb_true_iff in H1 as [H0 H1]. apply Nat.ltb_lt in H0. apply Nat.leb_le in H1.
    split; [exact H0|]. split; [exact H1|]. intros i t E1 E2. rewrite E1, E2 in H2. apply Nat.ltb_lt in H2. exact H2.
Qed.

(** Where one call can lead. *)
Definition op_bad_or_rename (o : lop) : bool := match o with LRename _ _ _ => true | _ => match op_bad o with Some _ => true | None => false end end.
Definition nexts (s : pfs) (op : vop) : list pfs :=
  fst (p_step s op) ::
  match op with
  | VSymlink t path None => [s; fst (p_step s (VSymlink t path (Some ENAMETOOLONG)))]
  | _ => match name_part s op with Some o => if op_bad_or_rename o then [s] else [] | None => [] end
  end.
Lemma history_nil lm s outs s1 : history lm [] s outs s1 -> s1 = s.
Proof. intros H. inversion H. reflexivity. Qed.
Lemma refuse_bad v o e : may_refuse v o e -> op_bad_or_rename o = true.
Proof.
  intros H. inversion H as [from to A B C|o' path Hb Hp Hv]; subst; [reflexivity|].
  destruct o; cbn [op_bad op_bad_or_rename] in *; try reflexivity; destruct bad; try reflexivity; congruence.
Qed.
Lemma nexts_ok lm s op outs s1 : history lm [op] s outs s1 -> In s1 (nexts s op).
Proof.
  intros H. inversion H as [|op' ops s' outs' s'' H'|op' ops s' o e outs' s'' Hn Hm H'|target path ops s' outs' s'' Hlt H']; subst.
  - apply history_nil in H' as ->. left. reflexivity.
  - apply history_nil in H' as ->. right. pose proof (refuse_bad _ _ _ Hm) as B.
    destruct op as [path creat excl trunc h bad|h o0|h|path n bad|path|path bad|path bad|path bad|src dest bad|from to bad|target path [e0|]|path size|]; cbn [name_part] in *; try discriminate Hn;
      try (injection Hn as <-; rewrite B; left; reflexivity). left. reflexivity.
  - right. inversion H' as [|op' ops s' outs' s'' H''|op' ops s' o e outs' s'' Hn Hm H''|]; subst; apply history_nil in H'' as ->.
    + right. left. reflexivity.
    + left. reflexivity.
Qed.
Fixpoint all_proper_b (limit link_max : nat) (ops : list vop) (s : pfs) : bool :=
  match ops with
  | [] => true
  | op :: ops' => proper_b limit link_max s op && forallb (all_proper_b limit link_max ops') (nexts s op)
  end.
Lemma all_proper_ok limit limit' link_max old ops : limit <= limit' -> forall s, all_proper_b limit link_max ops s = true -> all_proper limit' link_max old ops s.
Proof.
  intros Hl. induction ops as [|op ops IH]; intros s H; [exact I|]. cbn [all_proper_b] in H. apply andb_true_iff in H as [H1 H2].
  cbn [all_proper]. split; [exact (proper_ok _ _ _ _ _ _ Hl H1)|]. intros outs s1 Hh. apply IH. rewrite forallb_forall in H2. apply H2. exact (nexts_ok _ _ _ _ _ Hh).
Qed.
Fixpoint run_proper_b (limit link_max : nat) (s : pfs) (ops : list vop) : bool :=
  match ops with [] => true | op :: ops' => proper_b limit link_max s op && run_proper_b limit link_max (fst (p_step s op)) ops' end.
Lemma run_proper_ok limit limit' link_max old ops : limit <= limit' -> forall s, run_proper_b limit link_max s ops = true -> run_proper limit' link_max old s ops.
Proof.
  intros Hl. induction ops as [|op ops IH]; intros s H; [exact I|]. cbn [run_proper_b] in H. apply andb_true_iff in H as [H1 H2].
  cbn [run_proper]. split; [exact (proper_ok _ _ _ _ _ _ Hl H1)|]. apply IH. exact H2.
Qed.
Ltac vfuse := repeat (apply Forall_cons; [unfold v_from_fuse; cbn [vop_paths]; repeat (apply Forall_cons; [split; [first [apply fuse_pathb; vm_compute; reflexivity|exists []; split; [constructor|reflexivity]]|first [exact I|discriminate]]|]); apply Forall_nil|]); apply Forall_nil.

(** Files, links and directories, with a long name, an unlinked file that stays open,
    two remounts, and a directory that is not replaced by a rename because it once
    held a long name. *)
Definition ex_vops : list vop :=
  [ VMkdir (str "/d") None;
    VOpen (str "/d/a long file name") true true false 1 None;
    VIo 1 (SWrite 30 (str "hello"));
    VLink (str "/d/a long file name") (str "/f") None;
    VSymlink (str "../elsewhere") (str "/s") None;
    VRemount;
    VIo 1 SSize;
    VOpen (str "/f") false false false 2 None;
    VUnlink (str "/f") None;
    VOpen (str "/f") true true false 3 None;
    VIo 2 (SRead 28 100);
    VIo 3 (SRead 0 100);
    VOpen (str "/d/a long file name") false false true 4 None;
    VGetattr (str "/d/a long file name");
    VTruncate (str "/f") 7 None;
    VGetattr (str "/f");
    VGetattr (str "/s");
    VReadlink (str "/s") 4097;
    VUnlink (str "/d/a long file name") None;
    VMkdir (str "/e") None;
    VRemount;
    VRename (str "/e") (str "/d") None;
    VGetattr (str "/");
    VSymlink (str "../elsewhere") (str "/missing/s") (Some (EPosix 28)) ].
Definition ex_vouts : list vout :=
  [ VRes (Ok tt); VRes (Ok tt); VData ODone; VRes (Ok tt); VRes (Ok tt); VRes (Ok tt);
    VData (OFail EBADF); VRes (Ok tt); VRes (Ok tt); VRes (Ok tt);
    VData (OData ([x00; x00] ++ str "hello")); VData (OData []); VRes (Ok tt);
    VAttr (Ok (AReg 0 0)); VData ODone; VAttr (Ok (AReg 1 7)); VAttr (Ok (ALink 0 12));
    VText (Ok (str "../elsewhere")); VRes (Ok tt); VRes (Ok tt); VRes (Ok tt);
    VRes (Err ENOTEMPTY); VAttr (Ok ADir); VRes (Err (EPosix 28)) ].
(** The same with short names only. *)
Definition shorten (p : bytes) : bytes := if bytes_eqb p (str "/d/a long file name") then str "/d/a" else p.
Definition ex_vshort : list vop :=
  map (fun op => match op with
    | VOpen p c e t h b => VOpen (shorten p) c e t h b
    | VLink p q b => VLink (shorten p) q b
    | VGetattr p => VGetattr (shorten p)
    | VUnlink p b => VUnlink (shorten p) b
    | _ => op end) ex_vops.

Example C71_example :
  lite_env_ok keyed_aead 32 12 toy_rnd 2 /\ Forall v_from_fuse ex_vops /\ names_fit ex_blake false 10 (v_names ex_vops) /\
  all_proper (lite_max_blocks * 32) 4095 false ex_vops pf_empty /\
  snd (run_ops (v_step keyed_aead 32 12 true true (fun id => id) (fun _ => 5) true toy_rnd 2 ex_tr 4095) ls_empty ex_vops) = ex_vouts /\
  Forall v_from_fuse ex_vshort /\ names_fit ex_blake false 10 (v_names ex_vshort) /\ no_long_names false 10 (v_names ex_vshort) /\
  short_links 4095 ex_vshort /\ run_proper (lite_max_blocks * 32) 4095 false pf_empty ex_vshort /\
  nth 21 (snd (run_ops (v_step keyed_aead 32 12 true true (fun id => id) (fun _ => 5) true toy_rnd 2 ex_tr 4095) ls_empty ex_vshort)) (VRes (Ok tt)) = VRes (Ok tt).
Proof.
  assert (H : 1000 <= lite_max_blocks) by (apply lite_over_max_inv; vm_compute; reflexivity).
  split; [exact keyed_env|]. split; [unfold ex_vops; vfuse|]. split; [apply no_collision_b; vm_compute; reflexivity|].
  split; [apply (all_proper_ok 1000); [lia|vm_compute; reflexivity]|]. split; [vm_compute; reflexivity|].
  split; [unfold ex_vshort, ex_vops; cbn [map]; vfuse|]. split; [apply no_collision_b; vm_compute; reflexivity|].
  split; [right; right; apply Forall_forall; intros n Hn; apply Nat.leb_le; revert n Hn; apply forallb_forall; vm_compute; reflexivity|].
  split; [unfold short_links; apply Forall_forall; intros op Hop; unfold ex_vshort, ex_vops in Hop; cbn [map] in Hop; repeat (destruct Hop as [<-|Hop]; [first [exact I|apply Nat.leb_le; vm_compute; reflexivity]|]); contradiction|].
  split; [apply (run_proper_ok 1000); [lia|vm_compute; reflexivity]|]. vm_compute. reflexivity.
Qed.
