From Coq Require Import Permutation.
From Verif Require Import Base BaseLemmas TextModel CryptoModel CryptoProofs LiteModel NameModel AttrModel BtreeModel FullFsModel FullFsSpec FullStreamModel ObjModel ObjProofs
  StreamSpec FsConcModel FsConcSeq RepoModel RepoSpec RepoProofs RepoSim RepoOps RepoRun RepoAlone LongNameModel XattrModel XattrSpec XattrProofs XattrTop XattrRepoModel XattrRepoSpec FullFsModel.

Section Rx.
Variable E : senv.
Hypothesis HE : senv_ok E.
Notation cmp := (v_cmp E).
Notation RR := (RepoProofs.RR E).
Variable xcmac : bytes -> bytes -> bytes.
Variable xks : bytes -> bytes -> nat -> bytes.
Hypothesis xcmac_len : forall id m, length (xcmac id m) = 16.
Hypothesis xks_len : forall id iv n, length (xks id iv n) = n.
Variable b64 : bytes -> bytes.
Variable unb64 : bytes -> option bytes.
Hypothesis code : text_code b64 unb64.
Variable XA : aead.
Hypothesis HXA : aead_ok XA.
Variable xkey : bytes -> bytes.
Variable check : bool.
Variable before : bytes -> fx.
Hypothesis Hb : forall id, all_foreign (unwrap_name (xcmac id) (xks id) unb64) (fx_data (before id)) /\ all_foreign (unwrap_name (xcmac id) (xks id) unb64) (fx_meta (before id)).
Notation rxstep := (rx_step E xcmac xks b64 unb64 XA xkey check before).
Notation inv id := (finv (xcmac id) (xks id) b64 unb64 XA (xkey id) id).

Definition plain_find (path : bytes) : prog (res fout) :=
  with_path cmp path false (fun h st => (st, match get st (fst h) with None => Err EUndef | Some _ => Ok (FOBytes (fst h)) end)).

Lemma find_sim path : psim E (Qbd (FGetattr path)) [] (r_find E path) (plain_find path).
Proof.
  unfold r_find, plain_find. apply sim_path; [exact HE|discriminate|]. intros h rp st H Hi.
  destruct (get st (fst h)) as [nd|] eqn:Eg; [|elim (rr_open _ _ _ H _ Hi Eg)].
  destruct (RR_look E HE (fst h) (fun _ o => (o, Ok (FOBytes (fst h)))) (fun r => r = Ok (FOBytes (fst h))) rp st nd H Hi Eg) as (rp' & r & E1 & HR & ->).
  { intros now o _ Ho. eauto 6. }
  rewrite E1. cbn [fst snd]. split; [exact HR|]. split; [reflexivity|]. split; [reflexivity|]. intros x. discriminate.
Qed.

(** The search does not depend on what is done with the file. *)
Lemma leave_blind {A} (a b : A) ids : forall st, fst (alone (leave ids a) st) = fst (alone (leave ids b) st) /\ snd (alone (leave ids a) st) = a.
Proof.
  induction ids as [|x ids IH]; intros st; cbn [leave]; [split; reflexivity|]. rewrite !alone_bind. apply IH.
Qed.
Lemma find_alone path st : fst (alone (plain_find path) st) = fst (alone (body cmp (FGetattr path)) st) /\
  snd (alone (plain_find path) st) = match snd (alone (body cmp (FGetattr path)) st) with Ok (FOStat id _ _ _) => Ok (FOBytes id) | Ok _ => Err EUndef | Err e => Err e end.
Proof.
  unfold plain_find. cbn [body]. unfold with_path. rewrite !alone_bind. destruct (alone (c_all cmp path false) st) as [st1 [[h|]|e]]; cbn [fst snd alone]; [|split; reflexivity|split; reflexivity].
  rewrite !alone_dos. cbn [fst snd]. destruct (get st1 (fst h)) as [nd|]; split.
  - apply leave_blind.
  - rewrite (proj2 (leave_blind _ (Err EUndef) [fst h] st1)), (proj2 (leave_blind (Ok (FOStat _ _ _ _)) (Err EUndef) [fst h] st1)). reflexivity.
  - apply leave_blind.
  - rewrite (proj2 (leave_blind (Err EUndef) (Err EUndef) [fst h] st1)). reflexivity.
Qed.

Lemma find_ok path rp st : RR rp st -> dirs_fit 4 st -> ready st ->
  RR (fst (r_alone (r_find E path) rp)) (fst (fs_step cmp (FGetattr path) st)) /\
  snd (r_alone (r_find E path) rp) = match file_at cmp path st with Ok id => Ok (FOBytes id) | Err e => Err e end.
Proof.
  intros HR Hd [Hs Hr].
  assert (Hg : grows 2 (plain_find path)) by (apply grows_path; intros h M st0 H; exact H).
  destruct (psim_alone E _ _ _ _ 2 rp st (opened st) (find_sim path) Hg HR) as (own' & B1 & B2 & B3).
  { reflexivity. }
  { exact room_for_few. }
  { apply (dirs_cap 4); [exact room_for_few|exact Hd]. }
  destruct (body_alone cmp (FGetattr path) st I) as (C1 & C2 & C3).
  { intros id dir Hx. discriminate Hx. }
  { exact Hs. }
  { exact Hr. }
  destruct (find_alone path st) as [D1 D2]. rewrite D1 in B1. split.
  - apply (RR_perm E _ _ _ B1); [now symmetry|now symmetry].
  - destruct B3 as [B3 _]. rewrite D2, C1 in B3. unfold file_at. clear - B3.
    destruct (snd (fs_step cmp (FGetattr path) st)) as [[]|e], (snd (r_alone (r_find E path) rp)) as [[]|e']; cbn [same_answer] in B3; congruence.
Qed.

Record XRR (s : rxst) (p : prx) : Prop := { xr_repo : RR (rx_repo s) (prx_fs p); xr_attrs : forall id, inv id (prx_attrs p id) (rx_attrs s id) }.

Lemma inv_before id : inv id [] (before id).
Proof.
  destruct (Hb id) as [H1 H2]. split; [apply view_start; exact H1|]. intros n Hn. cbn [ent].
  split; apply (foreign_none (xcmac id) (xks id) (xcmac_len id) (xks_len id) b64 unb64 code); assumption.
Qed.
Lemma settle_ok rp st f g : RR rp st -> (forall id, inv id (g id) (f id)) -> forall id, inv id (while_stored st g id) (rx_settle before rp f id).
Proof.
  intros H Hi id. unfold while_stored, rx_settle. pose proof (rr_file _ _ _ H id) as Hf. unfold one_file in Hf.
  destruct (rget id (rp_files rp)), (get st id); try contradiction; [apply Hi|apply inv_before].
Qed.

Lemma step_ok c s p : XRR s p -> may_do E (as_rop c) (prx_fs p) -> dirs_fit 4 (prx_fs p) -> ready (prx_fs p) -> attrs_fit c ->
  XRR (fst (rxstep s c)) (fst (prx_step cmp p c)) /\ same_out (snd (rxstep s c)) (snd (prx_step cmp p c)).
Proof.
  intros [H1 H2] Hm Hd Hr Hf. destruct c as [o|path o]; cbn [as_rop attrs_fit rx_step prx_step] in *.
  - destruct (op_ok E HE o _ _ H1 Hm Hd Hr) as [A1 A2]. destruct (r_apply E o (rx_repo s)) as [rp r]. cbn [fst snd] in *. split; [|exact A2].
    constructor; cbn [rx_repo prx_fs rx_attrs prx_attrs]; [exact A1|]. now apply settle_ok.
  - destruct (find_ok path _ _ H1 Hd Hr) as [A1 A2]. unfold rx_on. destruct (r_alone (r_find E path) (rx_repo s)) as [rp r]. cbn [fst snd] in A1, A2. subst r.
    destruct (file_at cmp path (prx_fs p)) as [id|e].
    + destruct (full_xstep_sim (xcmac id) (xks id) (xcmac_len id) (xks_len id) b64 unb64 code XA HXA (xkey id) id check o _ _ (H2 id)) as [V S].
      { destruct o; exact Hf. }
      destruct (full_xstep (xcmac id) (xks id) b64 unb64 XA (xkey id) id check o (rx_attrs s id)) as [a r]. cbn [fst snd] in *. split; [|exact S].
      constructor; cbn [rx_repo prx_fs rx_attrs prx_attrs]; [exact A1|]. apply settle_ok; [exact A1|]. intros x. destruct (bytes_eqb x id) eqn:Ex; [|apply H2].
      apply bytes_eqb_eq in Ex. subst x. exact V.
    + cbn [fst snd same_out seen]. split; [|reflexivity]. constructor; cbn [rx_repo prx_fs rx_attrs prx_attrs]; [exact A1|]. now apply settle_ok.
Qed.
Lemma step_fs c p : prx_fs (fst (prx_step cmp p c)) = fs_run cmp (as_fops (as_rop c) (prx_fs p)) (prx_fs p).
Proof. destruct c as [o|path o]; [reflexivity|]. cbn [prx_step as_rop as_fops fs_run]. destruct (file_at cmp path (prx_fs p)); reflexivity. Qed.

Lemma rx_history_ok cs : forall s p done, XRR s p -> fs_run cmp done new_repo = prx_fs p -> careful_run cmp done new_repo ->
  careful_run cmp (plain_ops cmp (map as_rop cs) (prx_fs p)) (prx_fs p) ->
  (N.of_nat (length (done ++ plain_ops cmp (map as_rop cs) (prx_fs p))) < 2 ^ 32 - 1)%N -> may_run E (map as_rop cs) (prx_fs p) -> Forall attrs_fit cs ->
  Forall2 same_out (snd (run_ops rxstep s cs)) (prx_answers cmp cs p).
Proof.
  induction cs as [|c cs IH]; intros s p done HR Hd Hc Hc' Hl Hm Hf; cbn [map plain_ops may_run run_ops prx_answers] in *; [constructor|].
  destruct Hm as (M1 & M2 & M3). apply Forall_cons_iff in Hf as [F1 F2]. rewrite app_assoc in Hl. apply careful_app in Hc' as [C1 C2].
  assert (Hre : reached cmp (prx_fs p)). { exists done. split; [exact Hc|]. split; [|exact Hd]. rewrite !app_length in Hl. lia. }
  destruct (step_ok c s p HR M1 M2 (reached_ready E HE _ Hre) F1) as [A1 A2].
  destruct (rxstep s c) as [s1 r] eqn:Es. cbn [fst snd] in A1, A2.
  rewrite <- step_fs in M3, C2, Hl.
  specialize (IH s1 _ (done ++ as_fops (as_rop c) (prx_fs p)) A1). 
  destruct (run_ops rxstep s1 cs) as [s2 outs]. cbn [snd] in *. constructor; [exact A2|]. apply IH; auto.
  - rewrite fs_run_app, Hd. symmetry. apply step_fs.
  - apply careful_app. rewrite Hd. auto.
Qed.
Lemma XRR_start : XRR (mkRx (fst (RepoModel.mount E [] 0)) before) prx_new.
Proof. constructor; cbn [rx_repo prx_fs rx_attrs prx_attrs prx_new]; [exact (start_ok E HE)|exact inv_before]. Qed.
End Rx.
