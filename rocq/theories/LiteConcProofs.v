(** Overlapping calls on the names of a lite repository each take effect at one
    moment on the plain tree of [LiteTreeSpec]. *)
From Verif Require Import Base BaseLemmas TextModel NameModel NameSpec NameProofs LongNameModel LongNameSpec LongNameProofs LongNameInv
  LiteTreeSpec LiteTreeProofs LiteConcModel LiteConcSpec LiteConcTree.
Local Open Scope list_scope.

Section Moment.
Variable pc : bytes -> bytes.
Variable occ : bytes -> Prop.
Hypothesis pc_inj : forall a b, occ a -> occ b -> pc a = pc b -> a = b.
Hypothesis pc_TN : forall a, occ a -> pc a <> TN.
Variable tab : bool.
Variable longp : bytes -> Prop.
Variable trans : translator.
Variable okp : bytes -> Prop.
Hypothesis enc : forall path, okp path -> exists P l, t_encrypt trans path = Ok (P, l) /\
  comps P = map pc (names_of path) /\ Forall occ (names_of path) /\ names_of path <> [] /\ (l <> [] -> tab = true /\ longp path).

Notation RR := (R pc occ tab).
Notation W := (with_rows (fun _ => [])).

Definition fails (v : hfs) (o : lop) (e : err) : Prop := tab = true /\ may_fail longp v o e.

Inductive after (r : res unit) : prog -> Prop :=
| after_ret : after r (PRet r)
| after_fin k c p : after r p -> after r (PFinish k c p).

Definition effect (o : lop) (call : hfs -> hfs * res unit) : Prop :=
  forall v h, RR v h ->
    (RR (fst (plain_step o v)) (fst (call h)) /\ snd (call h) = snd (plain_step o v)) \/
    exists e, fails v o e /\ RR v (fst (call h)) /\ snd (call h) = Err e.

Inductive before (o : lop) : prog -> Prop :=
| b_open d next p : tab = true -> d = map pc p -> Forall occ p -> (forall v e, fails v o e) ->
    (forall e, after (Err e) (next (Err e))) -> (forall k, before o (next (Ok k))) -> before o (POpen d next)
| b_edit k f next : (forall v e, fails v o e) ->
    (forall e, after (Err e) (next (Err e))) -> before o (next (Ok tt)) -> before o (PEdit k f next)
| b_host call next : steady call -> effect o call -> (forall r, after r (next r)) -> before o (PHost call next)
| b_clear call next : steady call -> (forall v h, RR v h -> RR v (fst (call h))) ->
    (forall r, before o (next r)) -> before o (PHost call next).

Lemma R_ext v h h' : RR v h -> (forall p, h' p = h p) -> RR v h'.
Proof. intros H E q Hq. rewrite E. apply H. exact Hq. Qed.

Lemma usual_pc p : Forall occ p -> p <> [] -> usual (map pc p).
Proof. intros Hp Hn. right. rewrite leaf_pc by exact Hn. apply pc_TN, leaf_occ; assumption. Qed.

Lemma sim_effect o call : (forall v h, RR v h -> sim pc occ tab (plain_step o v) (call h)) -> effect o call.
Proof. intros H v h HR. left. destruct (H v h HR) as [H1 H2]. auto. Qed.

(** rmdir, when a table may have appeared again *)
Lemma rmdir_again v h bad path : RR v h -> Forall occ (names_of path) -> names_of path <> [] ->
  sim pc occ tab (h_rmdir bad (names_of path) v) (h_rmdir bad (map pc (names_of path)) h) \/
  (tab = true /\ bad = None /\ h_rmdir bad (map pc (names_of path)) h = (h, Err ENOTEMPTY) /\
   plain_found v path = Some KDir /\ v (names_of path) = Some []).
Proof.
  intros H Hp Hn. destruct (case_dir pc occ tab _ _ _ H Hp) as [[E3 E4]|(pv & ph & E3 & E4 & Dp)].
  - left. apply (rmdir_R pc occ pc_inj pc_TN tab); try assumption. congruence.
  - pose proof (d_table _ _ _ _ _ Dp) as T. destruct (ent TN ph) as [[i| |m]|] eqn:Et; cbn [isTable] in T; try contradiction.
    2:{ left. apply (rmdir_R pc occ pc_inj pc_TN tab); try assumption. intros eh Ee. congruence. }
    unfold plain_found, h_rmdir. destruct bad as [e|]; [left; split; [exact H|reflexivity]|].
    destruct (names_of path) as [|x p0] eqn:Ep; [congruence|]. rewrite <- Ep in *.
    assert (Em : exists y l, map pc (names_of path) = y :: l) by (rewrite Ep; cbn; eauto). destruct Em as (y & l & Em). rewrite Em, <- Em. clear Ep Em.
    rewrite parent_pc, leaf_pc by assumption. pose proof (parent_occ _ _ Hp) as Hpp. pose proof (leaf_occ _ _ Hn Hp) as Hl.
    destruct (case_dir pc occ tab _ _ _ H Hpp) as [[E1 E2]|(ev & eh & E1 & E2 & D)]; rewrite E1, E2; [left; split; [exact H|reflexivity]|].
    rewrite (d_ent _ _ _ _ _ D _ Hl). destruct (ent (leaf (names_of path)) ev) as [[i| |m']|]; try (left; split; [exact H|reflexivity]).
    rewrite E3, E4. destruct ph as [|x1 ph]; [discriminate Et|].
    destruct pv as [|x2 pv]; [|left; split; [exact H|reflexivity]]. right. auto.
Qed.

Lemma process_before o path act cb : okp path -> In path (op_paths o) ->
  (forall next, (forall r, after r (next r)) -> before o (cb (map pc (names_of path)) next)) ->
  before o (c_process trans path act cb).
Proof.
  intros Hp Hi Hc. destruct (enc path Hp) as (P & l & E & EC & HO & Hn & Htl). unfold c_process. rewrite E, EC.
  destruct l as [|c l]; [apply Hc; intros; apply after_ret|].
  destruct (Htl ltac:(discriminate)) as [Ht Hlong].
  assert (F : forall v e, fails v o e) by (intros v e; split; [exact Ht|]; apply (fail_table _ _ _ path); assumption).
  apply (b_open _ _ _ (parent (names_of path))); [exact Ht|apply parent_pc|apply parent_occ; exact HO|exact F|intros; apply after_ret|].
  intros k. apply b_edit; [exact F|intros; apply after_fin, after_ret|]. apply Hc. intros r. apply after_fin, after_ret.
Qed.

Lemma start_before o : Forall okp (op_paths o) -> before o (c_start trans o).
Proof.
  intros HO. destruct o as [path creat excl ino bad late|path bad|path ino bad|src dest bad|path bad|path bad|from to bad]; cbn [op_paths c_start] in *.
  - inversion HO as [|? ? Hp _]; subst. destruct (enc path Hp) as (P & l & E & EC & HOc & Hn & Htl). cbv zeta.
    set (call := fun p fs0 => match h_open bad creat excl ino p fs0 with
         | (fs1, Ok tt) => (fs1, match late with Some e => Err e | None => Ok tt end) | x => x end).
    assert (C : effect (LOpen path creat excl ino bad late) (call (map pc (names_of path)))).
    { apply sim_effect. intros v h1 H1. cbn [plain_step]. unfold call. pose proof (open_R pc occ pc_inj pc_TN tab v h1 bad creat excl ino _ H1 HOc Hn) as [O1 O2].
      destruct (h_open bad creat excl ino (names_of path) v) as [v2 [[]|e]], (h_open bad creat excl ino (map pc (names_of path)) h1) as [h2 [[]|e']]; cbn [fst snd] in O1, O2; try discriminate; split; auto. }
    assert (S : steady (call (map pc (names_of path)))).
    { intros rows fs. destruct (steady_open bad creat excl ino _ (usual_pc _ HOc Hn) rows fs) as [S1 S2]. unfold call.
      destruct (h_open bad creat excl ino (map pc (names_of path)) (with_rows rows fs)) as [a [[]|e]],
               (h_open bad creat excl ino (map pc (names_of path)) fs) as [b [[]|e']]; cbn [fst snd] in *; try discriminate; split; auto. }
    destruct creat.
    + apply process_before; [exact Hp|left; reflexivity|]. intros next Hnx. apply b_host; assumption.
    + rewrite E, EC. apply b_host; [exact S|exact C|intros; apply after_ret].
  - inversion HO as [|? ? Hp _]; subst. destruct (enc path Hp) as (P & l & E & EC & HOc & Hn & Htl).
    apply process_before; [exact Hp|left; reflexivity|]. intros next Hnx. apply b_host; [apply steady_mkdir, usual_pc; assumption| |exact Hnx].
    apply sim_effect. intros v h H. apply mkdir_R; assumption.
  - inversion HO as [|? ? Hp _]; subst. destruct (enc path Hp) as (P & l & E & EC & HOc & Hn & Htl).
    apply process_before; [exact Hp|left; reflexivity|]. intros next Hnx. apply b_host; [apply steady_open, usual_pc; assumption| |exact Hnx].
    apply sim_effect. intros v h H. apply open_R; assumption.
  - inversion HO as [|? ? Hs HO']; subst. inversion HO' as [|? ? Hp _]; subst.
    destruct (enc dest Hp) as (P & l & E & EC & HOc & Hn & Htl). destruct (enc src Hs) as (Ps & ls & Es & ECs & HOs & Hns & Htls).
    apply process_before; [exact Hp|right; left; reflexivity|]. intros next Hnx. unfold host. rewrite Es, ECs.
    apply b_host; [apply steady_link; apply usual_pc; assumption| |exact Hnx].
    apply sim_effect. intros v h H. apply link_R; assumption.
  - inversion HO as [|? ? Hp _]; subst. destruct (enc path Hp) as (P & l & E & EC & HOc & Hn & Htl).
    apply process_before; [exact Hp|left; reflexivity|]. intros next Hnx. apply b_host; [apply steady_unlink, usual_pc; assumption| |exact Hnx].
    apply sim_effect. intros v h H. apply unlink_R; assumption.
  - inversion HO as [|? ? Hp _]; subst. destruct (enc path Hp) as (P & l & E & EC & HOc & Hn & Htl).
    apply process_before; [exact Hp|left; reflexivity|]. intros next Hnx. apply b_clear.
    { apply steady_drop. }
    { intros v h H. cbn [fst]. apply (drop_R pc occ pc_inj pc_TN tab v h (names_of path) H HOc). }
    intros _. apply b_host; [apply steady_rmdir, usual_pc; assumption| |exact Hnx].
    intros v h H. destruct (rmdir_again v h bad path H HOc Hn) as [[S1 S2]|(Ht & -> & Er & Hf & Hv)]; [left; auto|].
    right. exists ENOTEMPTY. rewrite Er. split; [split; [exact Ht|apply fail_rmdir; assumption]|]. auto.
  - inversion HO as [|? ? Hs HO']; subst. inversion HO' as [|? ? Hp _]; subst.
    destruct (enc to Hp) as (B & lb & Eb & ECb & HOb & Hnb & Htb). destruct (enc from Hs) as (A & la & Ea & ECa & HOa & Hna & Hta).
    assert (S : steady (h_rename bad (map pc (names_of from)) (map pc (names_of to)))) by (apply steady_rename; apply usual_pc; assumption).
    assert (C : effect (LRename from to bad) (h_rename bad (map pc (names_of from)) (map pc (names_of to)))).
    { intros v h1 H1. destruct (rename_R pc occ pc_inj pc_TN tab v h1 bad _ _ H1 HOa Hna HOb Hnb) as [[S1 S2]|(Ht & -> & Er & Hv & ea & eb & V1 & V2 & V3 & V4)]; [left; auto|].
      right. exists ENOTEMPTY. rewrite Er. split; [|auto]. split; [exact Ht|]. apply fail_refuse, refuse_rename; [| |exact Hv]; unfold plain_found.
      - destruct (names_of from) eqn:En; [congruence|]. rewrite <- En in *. rewrite V1. exact V2.
      - destruct (names_of to) eqn:En; [congruence|]. rewrite <- En in *. rewrite V3. exact V4. }
    destruct (list_eq_dec byte_eq_dec la []) as [Nla|Nla], (list_eq_dec byte_eq_dec lb []) as [Nlb|Nlb].
    { subst la lb. unfold c_rename. rewrite Ea, Eb, ECa, ECb. apply b_host; [exact S|exact C|intros; apply after_ret]. }
    all: assert (F : tab = true /\ forall v e, fails v (LRename from to bad) e)
      by ((destruct (Hta Nla) as [Ht Hl]; split; [exact Ht|intros v e; split; [exact Ht|apply (fail_table _ _ _ from); [left; reflexivity|exact Hl]]]) ||
          (destruct (Htb Nlb) as [Ht Hl]; split; [exact Ht|intros v e; split; [exact Ht|apply (fail_table _ _ _ to); [right; left; reflexivity|exact Hl]]])).
    all: destruct F as [Ht F].
    all: assert (G : forall (same : bool) ka kb,
          let leave r := PFinish ka (okb r) (if same then PRet r else PFinish kb (okb r) (PRet r)) in
          before (LRename from to bad) (c_edit_if la ka (remove_mapping (get_last_component A)) (fun r =>
            match r with
            | Err e => leave (Err e)
            | Ok _ =>
              c_edit_if lb kb (update_mapping (get_last_component B) lb) (fun r =>
                match r with
                | Err e => leave (Err e)
                | Ok _ => PHost (h_rename bad (comps A) (comps B)) leave
                end)
            end)))
      by (intros same ka kb leave;
          assert (AL : forall r, after r (leave r)) by (intros r; unfold leave; apply after_fin; destruct same; [apply after_ret|apply after_fin, after_ret]);
          clearbody leave;
          assert (X : before (LRename from to bad) (PHost (h_rename bad (comps A) (comps B)) leave)) by (rewrite ECa, ECb; apply b_host; assumption);
          assert (Y : before (LRename from to bad) (c_edit_if lb kb (update_mapping (get_last_component B) lb) (fun r =>
                match r with
                | Err e => leave (Err e)
                | Ok _ => PHost (h_rename bad (comps A) (comps B)) leave
                end))) by (unfold c_edit_if; destruct lb; [exact X|apply b_edit; [exact F|intros; apply AL|exact X]]);
          unfold c_edit_if at 1; destruct la; [exact Y|apply b_edit; [exact F|intros; apply AL|exact Y]]).
    all: unfold c_rename; rewrite Ea, Eb; 
      match goal with |- before ?o ?p => 
        assert (E' : p = (let da := parent (comps A) in let db := parent (comps B) in
          POpen da (fun r => match r with
            | Err e => PRet (Err e)
            | Ok ka => if hpath_eqb da db then
                (let leave r := PFinish ka (okb r) (PRet r) in c_edit_if la ka (remove_mapping (get_last_component A)) (fun r =>
            match r with
            | Err e => PFinish ka (okb (Err e)) (if hpath_eqb da db then PRet (Err e) else PFinish ka (okb (Err e)) (PRet (Err e)))
            | Ok _ =>
              c_edit_if lb ka (update_mapping (get_last_component B) lb) (fun r =>
                match r with
                | Err e => PFinish ka (okb (Err e)) (if hpath_eqb da db then PRet (Err e) else PFinish ka (okb (Err e)) (PRet (Err e)))
                | Ok _ => PHost (h_rename bad (comps A) (comps B)) (fun r => PFinish ka (okb r) (if hpath_eqb da db then PRet r else PFinish ka (okb r) (PRet r)))
                end)
            end)) else POpen db (fun r => match r with Err e => PRet (Err e) | Ok kb => c_edit_if la ka (remove_mapping (get_last_component A)) (fun r =>
            match r with
            | Err e => PFinish ka (okb (Err e)) (if hpath_eqb da db then PRet (Err e) else PFinish kb (okb (Err e)) (PRet (Err e)))
            | Ok _ =>
              c_edit_if lb kb (update_mapping (get_last_component B) lb) (fun r =>
                match r with
                | Err e => PFinish ka (okb (Err e)) (if hpath_eqb da db then PRet (Err e) else PFinish kb (okb (Err e)) (PRet (Err e)))
                | Ok _ => PHost (h_rename bad (comps A) (comps B)) (fun r => PFinish ka (okb r) (if hpath_eqb da db then PRet r else PFinish kb (okb r) (PRet r)))
                end)
            end) end) end))) by (destruct la, lb; try congruence; reflexivity) end;
      rewrite E'; clear E'; cbv zeta.
    all: assert (Ea2 : parent (comps A) = map pc (parent (names_of from))) by (rewrite ECa; apply parent_pc).
    all: assert (Eb2 : parent (comps B) = map pc (parent (names_of to))) by (rewrite ECb; apply parent_pc).
    all: apply (b_open _ _ _ (parent (names_of from))); [exact Ht|exact Ea2|apply parent_occ; exact HOa|exact F|intros; apply after_ret|].
    all: intros ka; destruct (hpath_eqb (parent (comps A)) (parent (comps B))); [exact (G true ka ka)|].
    all: apply (b_open _ _ _ (parent (names_of to))); [exact Ht|exact Eb2|apply parent_occ; exact HOb|exact F|intros; apply after_ret|].
    all: intros kb; exact (G false ka kb).
Qed.

Definition thr (x : lthread) (y : pthread) : Prop :=
  match x, y with
  | LIdle, PIdle => True
  | LRun o _ p, PCalled o' => o' = o /\ before o p
  | LRun o _ p, PDone r => after r p
  | _, _ => False
  end.
Definition Q (w : world) (a : pworld) : Prop := RR (p_tree a) (W (w_tree w)) /\ forall t, thr (w_thr w t) (p_thr a t).

Lemma nupd_eq {A} (f : nat -> A) i v : nupd f i v i = v.
Proof. unfold nupd. rewrite Nat.eqb_refl. reflexivity. Qed.
Lemma thr_upd w a t x y : (forall t, thr (w t) (a t)) -> thr x y -> forall t', thr (nupd w t x t') (nupd a t y t').
Proof. intros H Hx t'. unfold nupd. destruct (t' =? t); auto. Qed.
Lemma thr_upd1 w a t x : (forall t, thr (w t) (a t)) -> thr x (a t) -> forall t', thr (nupd w t x t') (a t').
Proof. intros H Hx t'. unfold nupd. destruct (Nat.eqb_spec t' t) as [->|]; auto. Qed.

Lemma Q0 : Q world0 pworld0.
Proof.
  split; [|intros t; exact I]. apply (R_ext _ empty_fs); [apply R_empty|]. intros [|x p]; reflexivity.
Qed.

Lemma open_Q d p w v : d = map pc p -> Forall occ p -> tab = true -> RR v (W (w_tree w)) ->
  RR v (W (w_tree (fst (open_db d w)))) /\ w_thr (fst (open_db d w)) = w_thr w.
Proof.
  intros -> Hp Ht H. unfold open_db. destruct (w_tree w (map pc p)) as [es|] eqn:E; [|split; [exact H|reflexivity]].
  destruct (ent kLongNameTableFileName es) as [[i| |m]|] eqn:Et; try (split; [exact H|reflexivity]). cbn [fst w_tree w_thr]. split; [|reflexivity].
  destruct (case_dir pc occ tab _ _ _ H Hp) as [[E3 E4]|(pv & ph & E3 & E4 & Dp)]; unfold with_rows in E4; rewrite E in E4; cbn [option_map] in E4; [discriminate E4|].
  injection E4 as <-.
  apply (R_ext _ (hset (W (w_tree w)) (map pc p) (Some (ent_put TN (KTable []) (map (table_kind (fun _ => [])) es))))).
  - apply (R_set_h pc occ pc_inj tab _ _ _ pv); try assumption. apply dirR_table; assumption.
  - intros q. rewrite <- W_hset. cbn [option_map]. f_equal. f_equal. apply (f_put_TN (fun _ => [])).
Qed.

Theorem step_Q c w w1 h a : c_step trans c w = Some (w1, h) -> Q w a ->
  (forall t o, c = Begin t o -> Forall okp (op_paths o)) ->
  exists a1, ((h = [] /\ a1 = a) \/ pstep fails a h a1) /\ Q w1 a1.
Proof.
  intros E [HR HT] Hok. destruct c as [t o|t fail|t|]; cbn [c_step] in E.
  4: { injection E as <- <-. eexists. split; [right; apply P_killed|]. split; [exact HR|intros t; exact I]. }
  - pose proof (HT t) as Ht. destruct (w_thr w t) eqn:Ew; [|discriminate E]. injection E as <- <-.
    destruct (p_thr a t) eqn:Ea; try contradiction. eexists. split; [right; apply P_call; exact Ea|].
    split; [exact HR|]. apply thr_upd; [exact HT|]. split; [reflexivity|]. apply start_before. apply (Hok t). reflexivity.
  - pose proof (HT t) as Ht. destruct (w_thr w t) as [|o conns p] eqn:Ew; [discriminate E|].
    assert (FAIL : forall e w2 p' conns', (forall v e, fails v o e) -> p_thr a t = PCalled o -> after (Err e) p' ->
        RR (p_tree a) (W (w_tree w2)) -> w_thr w2 = w_thr w ->
        exists a1, ((([] : list levent) = [] /\ a1 = a) \/ pstep fails a [] a1) /\ Q (set_thr w2 t (LRun o conns' p')) a1).
    { intros e w2 p' conns' F Ea Haf HR' Hth. eexists. split; [right; apply (P_fail fails a t o e Ea (F _ _))|].
      split; [exact HR'|]. cbn [set_thr w_thr p_thr]. rewrite Hth. apply thr_upd; [exact HT|]. exact Haf. }
    assert (STAY : forall w2 p' conns', p_thr a t = PCalled o -> before o p' ->
        RR (p_tree a) (W (w_tree w2)) -> w_thr w2 = w_thr w ->
        exists a1, ((([] : list levent) = [] /\ a1 = a) \/ pstep fails a [] a1) /\ Q (set_thr w2 t (LRun o conns' p')) a1).
    { intros w2 p' conns' Ea Haf HR' Hth. exists a. split; [left; auto|].
      split; [exact HR'|]. cbn [set_thr w_thr]. rewrite Hth. apply thr_upd1; [exact HT|]. rewrite Ea. split; [reflexivity|exact Haf]. }
    destruct (p_thr a t) as [|o'|r] eqn:Ea; cbn [thr] in Ht; [contradiction| |].
    + destruct Ht as [-> Hb]. destruct Hb as [d next q Htab Ed Hq F He Hk|k f next F He Hk|call next Hst Hef Haf|call next Hst Hcl Hbf].
      * destruct fail as [e|].
        -- injection E as <- <-. apply (FAIL e w); auto.
        -- destruct (open_Q d q w _ Ed Hq Htab HR) as [HR1 HT1]. destruct (open_db d w) as [w2 [k|e]]; injection E as <- <-; cbn [fst] in HR1, HT1.
           ++ apply (STAY w2); auto.
           ++ apply (FAIL e w2); auto.
      * destruct fail as [e|].
        -- injection E as <- <-. apply (FAIL e w); auto.
        -- destruct (db_owner (w_db w k)) as [[t' m]|].
           ++ destruct (t' =? t); [|discriminate E]. injection E as <- <-.
              apply (STAY (set_db w k _)); auto.
           ++ injection E as <- <-. apply (STAY (set_db w k _)); auto.
      * destruct fail as [e|]; [discriminate E|]. destruct (call (w_tree w)) as [fs r] eqn:Ec. injection E as <- <-.
        destruct (Hst (fun _ => []) (w_tree w)) as [S1 S2]. rewrite Ec in S1, S2. cbn [fst snd] in S1, S2.
        destruct (Hef _ _ HR) as [[R1 R2]|(e & Hf & R1 & R2)].
        -- eexists. split; [right; apply (P_moment fails a t o Ea)|]. split; [cbn [set_thr set_wtree w_tree p_tree]; eapply R_ext; [exact R1|intros q; symmetry; apply S1]|].
           cbn [set_thr set_wtree w_thr p_thr]. apply thr_upd; [exact HT|]. cbn [thr]. rewrite <- R2, S2. apply Haf.
        -- eexists. split; [right; apply (P_fail fails a t o e Ea Hf)|]. split; [cbn [set_thr set_wtree w_tree p_tree]; eapply R_ext; [exact R1|intros q; symmetry; apply S1]|].
           cbn [set_thr set_wtree w_thr p_thr]. apply thr_upd; [exact HT|]. cbn [thr]. rewrite <- R2, S2. apply Haf.
      * destruct fail as [e|]; [discriminate E|]. destruct (call (w_tree w)) as [fs r] eqn:Ec. injection E as <- <-.
        destruct (Hst (fun _ => []) (w_tree w)) as [S1 S2]. rewrite Ec in S1. cbn [fst] in S1.
        apply (STAY (set_wtree w fs)); auto. cbn [set_wtree w_tree]. eapply R_ext; [apply (Hcl _ _ HR)|]. intros q. symmetry. apply S1.
    + destruct Ht as [|k c p Hp]; [discriminate E|]. injection E as <- <-. exists a. split; [left; auto|].
      split; [exact HR|]. cbn [set_thr set_db w_thr]. apply thr_upd1; [exact HT|]. rewrite Ea. exact Hp.
  - pose proof (HT t) as Ht. destruct (w_thr w t) as [|o conns p] eqn:Ew; [discriminate E|]. destruct p as [r| | | |]; try discriminate E. injection E as <- <-.
    destruct (p_thr a t) as [|o'|r'] eqn:Ea; cbn [thr] in Ht; [contradiction|destruct Ht as [_ Hb]; inversion Hb|].
    inversion Ht; subst. eexists. split; [right; apply P_return; exact Ea|]. split; [exact HR|]. apply thr_upd; [exact HT|exact I].
Qed.

Theorem run_Q cs : forall w w1 h a, c_run trans cs w = Some (w1, h) -> Q w a -> Forall (fun o => Forall okp (op_paths o)) (calls_of cs) ->
  forall a0 h0, moments fails a0 h0 a -> exists a1, moments fails a0 (h0 ++ h) a1 /\ Q w1 a1.
Proof.
  induction cs as [|c cs IH]; intros w w1 h a E HQ Hok a0 h0 HM; cbn [c_run] in E.
  - injection E as <- <-. rewrite app_nil_r. eauto.
  - destruct (c_step trans c w) as [[w2 h1]|] eqn:Es; [|discriminate E]. destruct (c_run trans cs w2) as [[w3 h2]|] eqn:Er; [|discriminate E].
    injection E as <- <-. unfold calls_of in Hok. cbn [flat_map] in Hok. apply Forall_app in Hok as [Ho1 Ho2].
    destruct (step_Q c w w2 h1 a Es HQ) as (a1 & Hst & HQ1).
    { intros t o ->. inversion Ho1; assumption. }
    assert (HM1 : moments fails a0 (h0 ++ h1) a1).
    { destruct Hst as [[-> ->]|Hst]; [rewrite app_nil_r; exact HM|]. eapply M_step; eassumption. }
    rewrite app_assoc. eapply IH; eassumption.
Qed.
End Moment.
