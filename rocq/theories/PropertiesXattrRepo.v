(** Extended attributes in a mounted repository of the full format: C91. *)
From Coq Require Import Strings.String Permutation.
From Verif Require Import Base BaseLemmas TextModel CryptoModel CryptoProofs LiteModel NameModel NameSpec NameTop AttrModel BtreeModel BtreeSpec BtreeInsert PropertiesNames FullStreamModel
  StreamSpec ObjModel ObjProofs FsConcModel RepoModel RepoSpec RepoRun RepoAlone RepoPlay LongNameModel XattrModel XattrSpec XattrProofs XattrTop PropertiesXattr
  XattrRepoModel XattrRepoSpec XattrRepoProofs FullFsModel FullFsSpec FullFsStep BtreeShape Toy PropertiesFull PropertiesFullFs PropertiesRepo.
Local Open Scope list_scope.

(** C91.  In every history of calls on names, uses of open files, attribute calls,
    evictions and remounts, from an empty directory of the host on, the repository
    answers as the map from ids to inodes in which every file, directory and symbolic
    link has its own attributes ([prx_answers]).  The histories are those of C72; the
    attribute calls are those of C36 ([full_fits]). *)
Theorem C91_attributes_belong_to_the_file : forall E, senv_ok E ->
  forall xcmac xks, (forall id, exists blake, sizes_ok (xcmac id) (xks id) blake) ->
  forall b64 unb64, text_code b64 unb64 ->
  forall XA, aead_ok XA -> forall xkey check before,
  (forall id, all_foreign (unwrap_name (xcmac id) (xks id) unb64) (fx_data (before id)) /\
              all_foreign (unwrap_name (xcmac id) (xks id) unb64) (fx_meta (before id))) ->
  forall calls, Forall attrs_fit calls ->
  may_run E (map as_rop calls) new_repo ->
  careful_run (v_cmp E) (plain_ops (v_cmp E) (map as_rop calls) new_repo) new_repo ->
  (N.of_nat (length (plain_ops (v_cmp E) (map as_rop calls) new_repo)) < 2 ^ 32 - 1)%N ->
  Forall2 same_out
    (snd (run_ops (rx_step E xcmac xks b64 unb64 XA xkey check before) (mkRx (fst (mount E [] 0)) before) calls))
    (prx_answers (v_cmp E) calls prx_new).
Proof.
  intros E HE xcmac xks Hx b64 unb64 code XA HXA xkey check before Hb calls Hf Hm Hc Hl.
  assert (X1 : forall id m, length (xcmac id m) = 16) by (intros id; destruct (Hx id) as [bl (H & _)]; exact H).
  assert (X2 : forall id iv n, length (xks id iv n) = n) by (intros id; destruct (Hx id) as [bl (_ & H & _)]; exact H).
  refine (rx_history_ok E HE xcmac xks X1 X2 b64 unb64 code XA HXA xkey check before Hb calls _ prx_new [] _ eq_refl I Hc Hl Hm Hf).
  exact (XRR_start E HE xcmac xks X1 X2 b64 unb64 code XA xkey before Hb).
Qed.
Print Assumptions C91_attributes_belong_to_the_file.

(** The file whose attributes a path means, in every state that such histories reach:
    the file at the end of the path, a symbolic link there being the link itself. *)
Theorem C91_which_file : forall cmp, cmp_ok cmp -> forall st, reached cmp st -> forall path x,
  file_at cmp path st = Ok x <-> ends_at cmp st path false (Some x).
Proof.
  intros cmp Hcmp st Hre path x. destruct (reached_Inv cmp Hcmp st Hre) as [Hv _]. destruct (stat_iff cmp st path Hv) as [H _]. rewrite <- H. unfold file_at.
  destruct (fs_step cmp (FGetattr path) st) as [st1 r]. cbn [snd]. split.
  - destruct r as [[]|]; intros H0; try discriminate H0. injection H0 as <-. eauto.
  - intros (st' & m & l & z & [= _ ->]). reflexivity.
Qed.
Print Assumptions C91_which_file.

(** ** Witnesses *)
(** Attributes of a file with two names, of a directory, of a symbolic link (which is
    not followed) and of the root; a rename, a remount, the end of the file, and a new
    file that takes over its name and even its id. *)
Definition xset (n v : bytes) : xop := XSet n v XAny iv16 None None.
Definition xget (n : bytes) : xop := XGet n (Some 100) None None.
Definition ex_rxcalls : list rxcall :=
  [ RxDo (OCall (FMkdir (str "/d") 493 (xid x01) None));
    RxDo (OCall (FCreate (str "/d/f") 420 (xid x02) None));
    RxOn (str "/d/f") (xset (str "user.k") (str "value"));
    RxDo (OCall (FClose (xid x02) false));
    RxOn (str "/d") (xset (str "user.k") (str "of d"));
    RxOn (str "/") (xset (str "user.k") []);
    RxDo (OCall (FLink (str "/d/f") (str "/g")));
    RxDo (OCall (FSymlink (str "d") (str "/l") (xid x03) None));
    RxOn (str "/l/f") (xget (str "user.k"));
    RxOn (str "/l") (xget (str "user.k"));
    RxDo ORemount;
    RxOn (str "/g") (xget (str "user.k"));
    RxOn (str "/d") (xget (str "user.k"));
    RxOn (str "/") (XList (Some 50) None);
    RxDo (OCall (FRename (str "/d/f") (str "/h")));
    RxDo (OCall (FUnlink (str "/g")));
    RxOn (str "/h") (xget (str "user.k"));
    RxOn (str "/d/f") (xget (str "user.k"));
    RxDo (OCall (FUnlink (str "/h")));
    RxDo (OCall (FCreate (str "/h") 420 (xid x02) None));
    RxOn (str "/h") (xget (str "user.k"));
    RxOn (str "/h") (XList (Some 50) None) ].
Definition ex_rxouts : list rxout :=
  [ RxRes (Ok FOUnit); RxRes (Ok (FOId (xid x02))); RxAns (Ok (0, [])); RxRes (Ok FOUnit); RxAns (Ok (0, [])); RxAns (Ok (0, []));
    RxRes (Ok FOUnit); RxRes (Ok FOUnit); RxAns (Ok (5, str "value")); RxAns (Err ENODATA); RxRes (Ok FOUnit);
    RxAns (Ok (5, str "value")); RxAns (Ok (4, str "of d")); RxAns (Ok (7, str "user.k" ++ [x00])); RxRes (Ok FOUnit); RxRes (Ok FOUnit);
    RxAns (Ok (5, str "value")); RxAns (Err E_NOENT); RxRes (Ok FOUnit); RxRes (Ok (FOId (xid x02))); RxAns (Err ENODATA); RxAns (Ok (0, [])) ].
Definition rx_seen (r : rxout) : rxout := match r with RxRes a => RxRes a | RxAns a => RxAns (seen a) end.
Definition ex_before2 : fx := mkFx ex_before [].

Example C91_example : senv_ok toy_senv /\ (forall id : bytes, exists blake, sizes_ok ex_cmac ex_ks blake) /\
  (forall id : bytes, all_foreign (unwrap_name ex_cmac ex_ks ex_unhex) (fx_data ex_before2) /\ all_foreign (unwrap_name ex_cmac ex_ks ex_unhex) (fx_meta ex_before2)) /\
  Forall attrs_fit ex_rxcalls /\ may_run toy_senv (map as_rop ex_rxcalls) new_repo /\
  careful_run binary_compare (plain_ops binary_compare (map as_rop ex_rxcalls) new_repo) new_repo /\
  (N.of_nat (length (plain_ops binary_compare (map as_rop ex_rxcalls) new_repo)) < 2 ^ 32 - 1)%N /\
  map rx_seen (snd (run_ops (rx_step toy_senv (fun _ => ex_cmac) (fun _ => ex_ks) hexify ex_unhex ex_xaead (fun id => id) true (fun _ => ex_before2))
    (mkRx (fst (mount toy_senv [] 0)) (fun _ => ex_before2)) ex_rxcalls)) = ex_rxouts.
Proof.
  split; [exact toy_senv_ok|]. split; [intros _; eexists; exact ex_sizes|]. split.
  { intros _. split; [|intros w x []]. cbn [fx_data ex_before2]. intros w x H.
    repeat (destruct H as [H|H]; [injection H as <- <-; split; [vm_compute; reflexivity|vm_compute; intuition discriminate]|]). destruct H. }
  split.
  { unfold ex_rxcalls. repeat (apply Forall_cons; [cbn [attrs_fit full_fits xset xget]; repeat match goal with
    | |- _ /\ _ => split
    | |- True => exact I
    | |- xname _ => apply xname_dec; vm_compute; reflexivity
    | |- _ <> _ => discriminate
    | |- _ = _ => reflexivity
    end|]). apply Forall_nil. }
  split; [apply (may_runb_ok toy_senv 4 toy_pad); vm_compute; reflexivity|].
  split; [apply careful_run_b_ok; [exact binary_compare_ok|exact (new_repo_Inv binary_compare)|vm_compute; reflexivity|vm_compute; reflexivity]|].
  split; vm_compute; reflexivity.
Qed.
