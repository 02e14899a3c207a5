(** A listing during which nothing changes. *)
From Coq Require Import Strings.String.
From Verif Require Import Base BaseLemmas TextModel NameModel NameSpec NameTop
  LongNameModel LongNameSpec LongNameProofs LongNameInv LongNameTop
  LiteConcModel LiteConcSpec LiteConcTree LiteConcTables ListConcModel ListConcSpec.
Local Open Scope list_scope.

Section Quiet.
Variable tr : translator.
Hypothesis dec_nil : t_decrypt tr [] = Ok DInvalid.
Variable d : hpath.
Variable w : world.
Variable es : hents.
Hypothesis Hes : w_tree w d = Some es.
Hypothesis files : forall m, ent TN es <> Some (KTable m).
Notation tbl := (table_of (map (table_kind (fun k => db_rows (w_db w k))) es)).

Definition rest (li : lister) (us : list bytes) : list bytes :=
  match s_pc li with
  | SReady => list_names tr tbl us (s_name li)
  | SOpen u | SLook u _ =>
    match tbl u with
    | Ok enc => match t_decrypt tr enc with Ok (DName n) => n :: list_names tr tbl us n | _ => list_names tr tbl us (s_name li) end
    | Err _ => list_names tr tbl us (s_name li)
    end
  end.
Definition conn_fine (li : lister) : Prop :=
  (forall k, s_conn li = Some k -> ent TN es = Some (KFile k)) /\ match s_pc li with SLook _ k => s_conn li = Some k | _ => True end.

Lemma tbl_file k u : ent TN es = Some (KFile k) -> tbl u = match ent u (db_rows (w_db w k)) with Some x => Ok x | None => Err ENOENT end.
Proof. intros E. unfold table_of. change kLongNameTableFileName with TN. rewrite f_ent_TN, E. reflexivity. Qed.
Lemma tbl_none u : (forall k, ent TN es <> Some (KFile k)) -> tbl u = Err ENOENT.
Proof.
  intros H. unfold table_of. change kLongNameTableFileName with TN. rewrite f_ent_TN. destruct (ent TN es) as [[k| |m]|] eqn:E; try reflexivity.
  - exfalso. exact (H k eq_refl).
  - exfalso. exact (files m eq_refl).
Qed.

Lemma quiet_run cs : forall li ws li', changes cs = [] -> no_failure cs -> s_run tr d cs w li = Some (ws, li') -> conn_fine li ->
  s_pc li' = SReady -> s_out li' = s_out li ++ rest li (reads cs).
Proof.
  induction cs as [|c cs IH]; intros li ws li' HC HN E HI HE; cbn [s_run] in E.
  - assert (li' = li) as -> by congruence. unfold rest. rewrite HE. cbn. rewrite app_nil_r. reflexivity.
  - destruct (s_step tr d c w li) as [[w1 li1]|] eqn:ES; [|discriminate E]. destruct (s_run tr d cs w1 li1) as [[ws1 li2]|] eqn:ER; [|discriminate E].
    assert (li2 = li') as -> by congruence. clear E. inversion HN as [|? ? HN1 HN2]; subst.
    destruct c as [c|u|f|f]; cbn [s_step] in ES; [discriminate HC| | |]; change (changes cs = []) in HC.
    + destruct (s_pc li) eqn:Ep; try discriminate ES. assert (w1 = w /\ li1 = s_read tr u li) as (-> & ->) by (split; congruence). clear ES.
      assert (SH : forall n, s_run tr d cs w (show li n) = Some (ws1, li') -> s_out li' = s_out li ++ n :: list_names tr tbl (reads cs) n).
      { intros n En. rewrite (IH _ _ _ HC HN2 En); [|split; [exact (proj1 HI)|exact I]|exact HE]. cbn [show s_out rest s_pc s_name]. rewrite <- app_assoc. reflexivity. }
      assert (SK : s_run tr d cs w (skip li) = Some (ws1, li') -> s_out li' = s_out li ++ list_names tr tbl (reads cs) (s_name li)).
      { intros En. rewrite (IH _ _ _ HC HN2 En); [|split; [exact (proj1 HI)|exact I]|exact HE]. reflexivity. }
      unfold rest. rewrite Ep. change (reads (SRead u :: cs)) with (u :: reads cs). cbn [list_names]. unfold s_read in ER.
      destruct u as [|c u]; [exact (SK ER)|]. destruct (bytes_eqb (c :: u) [dot] || bytes_eqb (c :: u) [dot; dot])%bool; [exact (SH _ ER)|].
      destruct (t_noop tr); [exact (SH _ ER)|]. destruct (Byte.eqb c dot); [exact (SK ER)|]. unfold decode_entry.
      destruct (t_decrypt tr (c :: u)) as [[| |n]|]; cbn [rbind]; [exact (SH _ ER)| |exact (SH _ ER)|exact (SK ER)].
      rewrite (IH _ _ _ HC HN2 ER); [|split; [exact (proj1 HI)|cbn [s_pc s_conn]; destruct (s_conn li); auto]|exact HE]. cbn [s_out]. f_equal.
      unfold rest. cbn [s_pc s_name]. destruct (s_conn li); (destruct (tbl (c :: u)) as [enc|]; cbn [rbind]; [|reflexivity]; destruct (t_decrypt tr enc) as [[| |m]|]; reflexivity).
    + destruct (s_pc li) as [|u|u k] eqn:Ep; try discriminate ES. destruct f; [destruct HN1|]. assert (w1 = w /\ li1 = s_opened d None u w li) as (-> & ->) by (split; congruence). clear ES.
      unfold s_opened in ER. rewrite Hes in ER. change kLongNameTableFileName with TN in ER. change (reads (SOpened None :: cs)) with (reads cs). unfold rest. rewrite Ep.
      assert (SK : (forall k, ent TN es <> Some (KFile k)) -> s_run tr d cs w (skip li) = Some (ws1, li') ->
        s_out li' = s_out li ++ match tbl u with Ok enc => match t_decrypt tr enc with Ok (DName n) => n :: list_names tr tbl (reads cs) n | _ => list_names tr tbl (reads cs) (s_name li) end | Err _ => list_names tr tbl (reads cs) (s_name li) end).
      { intros HT En. rewrite (IH _ _ _ HC HN2 En); [|split; [exact (proj1 HI)|exact I]|exact HE]. rewrite tbl_none by exact HT. reflexivity. }
      destruct (ent TN es) as [[k| |m]|] eqn:Et; [|apply SK; [intros k H; discriminate H|exact ER]..].
      rewrite (IH _ _ _ HC HN2 ER); [reflexivity| |exact HE]. split; [|reflexivity]. cbn [s_conn]. intros k' Hk. congruence.
    + destruct (s_pc li) as [|u|u k] eqn:Ep; try discriminate ES. destruct f; [destruct HN1|]. assert (w1 = w /\ li1 = s_looked tr None u k w li) as (-> & ->) by (split; congruence). clear ES.
      change (reads (SLooked None :: cs)) with (reads cs). unfold rest. rewrite Ep. unfold s_looked in ER.
      pose proof (proj2 HI) as HK. rewrite Ep in HK. rewrite (tbl_file k u (proj1 HI k HK)).
      destruct (ent u (db_rows (w_db w k))) as [enc|]; cbv beta iota zeta in ER |- *; [|rewrite dec_nil in ER].
      * destruct (t_decrypt tr enc) as [[| |n]|]; rewrite (IH _ _ _ HC HN2 ER); try exact HE; try (split; [exact (proj1 HI)|exact I]); try reflexivity.
        cbn [show s_out rest s_pc s_name]. rewrite <- app_assoc. reflexivity.
      * rewrite (IH _ _ _ HC HN2 ER); [reflexivity|split; [exact (proj1 HI)|exact I]|exact HE].
Qed.
End Quiet.
