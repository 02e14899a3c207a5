(** Commits that fail. *)
From Verif Require Import Base BaseLemmas TextModel NameModel LongNameModel LongNameSpec LongNameProofs CommitFailModel CommitFailSpec.
Local Open Scope list_scope.

(** ** Two trees that differ in the tables *)
Lemma same_kind_refl k : same_kind k k. Proof. destruct k; reflexivity. Qed.
Lemma same_refl fs : same_but_tables fs fs.
Proof.
  intros p. destruct (fs p) as [es|]; [|exact I]. unfold same_entries. induction es as [|[n k] es IH]; constructor; [|exact IH].
  split; [reflexivity|apply same_kind_refl].
Qed.
Definition ent_rel (a b : option kind) : Prop :=
  match a, b with Some k, Some k' => same_kind k k' | None, None => True | _, _ => False end.
Definition dir_rel (a b : option hents) : Prop :=
  match a, b with Some k, Some k' => same_entries k k' | None, None => True | _, _ => False end.
Lemma ent_same c es es' : same_entries es es' -> ent_rel (ent c es) (ent c es').
Proof.
  intros H. induction H as [|[n k] [n' k'] es es' (E & K) _ IH]; [exact I|]. cbn [ent fst snd] in *. subst n'. destruct (bytes_eqb n c); [exact K|exact IH].
Qed.
Lemma del_same c es es' : same_entries es es' -> same_entries (ent_del c es) (ent_del c es').
Proof.
  intros H. unfold ent_del. induction H as [|[n k] [n' k'] es es' (E & K) _ IH]; [constructor|]. cbn [filter fst snd] in *. subst n'.
  destruct (negb (bytes_eqb n c)); [constructor; [auto|exact IH]|exact IH].
Qed.
Lemma put_same c k k' es es' : same_kind k k' -> same_entries es es' -> same_entries (ent_put c k es) (ent_put c k' es').
Proof. intros K H. unfold ent_put. constructor; [auto|apply del_same; exact H]. Qed.
Lemma hset_same fs fs' p v v' : same_but_tables fs fs' -> dir_rel v v' -> same_but_tables (hset fs p v) (hset fs' p v').
Proof. intros H V q. unfold hset. destruct (hpath_eqb p q); [exact V|exact (H q)]. Qed.
Lemma at_same fs fs' p : same_but_tables fs fs' -> dir_rel (fs p) (fs' p). Proof. intros H. exact (H p). Qed.
Lemma move_same a b fs fs' : same_but_tables fs fs' -> same_but_tables (h_move a b fs) (h_move a b fs').
Proof.
  intros H q. unfold h_move. destruct (strip_prefix b q) as [r|]; [exact (H (a ++ r))|]. destruct (strip_prefix a q); [exact I|exact (H q)].
Qed.

Definition same_result {A} (x y : hfs * res A) : Prop := same_but_tables (fst x) (fst y) /\ snd x = snd y.
Lemma same_err fs fs' A (r : res A) : same_but_tables fs fs' -> same_result (fs, r) (fs', r). Proof. split; auto. Qed.
#[local] Hint Resolve same_err hset_same put_same del_same at_same move_same : sm.

Ltac dirs fs fs' p H :=
  let E := fresh "E" in let E' := fresh "E" in let D := fresh "D" in
  pose proof (at_same fs fs' p H) as D; destruct (fs p) as [?es|] eqn:E, (fs' p) as [?es'|] eqn:E'; cbn [dir_rel] in D; try contradiction.
Ltac ents c D :=
  let K := fresh "K" in
  match type of D with same_entries ?es ?es' =>
    pose proof (ent_same c es es' D) as K; destruct (ent c es) as [[?i| |?m]|], (ent c es') as [[?i'| |?m']|]; cbn [ent_rel same_kind] in K; try contradiction; try discriminate K
  end.
Ltac fin := cbn [dir_rel]; auto with sm.

Lemma open_same bad creat excl ino p fs fs' : same_but_tables fs fs' -> same_result (h_open bad creat excl ino p fs) (h_open bad creat excl ino p fs').
Proof.
  intros H. unfold h_open. destruct bad; [fin|]. destruct p as [|x p]; [fin|]. set (q := x :: p). clearbody q.
  dirs fs fs' (parent q) H; [|fin]. ents (leaf q) D; fin. destruct creat; fin. split; [|reflexivity]. apply hset_same; [exact H|]. apply put_same; [reflexivity|exact D].
Qed.
Lemma mkdir_same bad p fs fs' : same_but_tables fs fs' -> same_result (h_mkdir bad p fs) (h_mkdir bad p fs').
Proof.
  intros H. unfold h_mkdir. destruct bad; [fin|]. destruct p as [|x p]; [fin|]. set (q := x :: p). clearbody q.
  dirs fs fs' (parent q) H; [|fin]. ents (leaf q) D; fin. split; [|reflexivity]. apply hset_same; [|constructor]. apply hset_same; [exact H|]. apply put_same; [reflexivity|exact D].
Qed.
Lemma link_same bad s p fs fs' : same_but_tables fs fs' -> same_result (h_link bad s p fs) (h_link bad s p fs').
Proof.
  intros H. unfold h_link. destruct bad; [fin|]. destruct s as [|y s]; [fin|]. destruct p as [|x p]; [fin|]. set (q := x :: p). set (t := y :: s). clearbody q t.
  dirs fs fs' (parent t) H; [|fin]. dirs fs fs' (parent q) H; [|fin]. ents (leaf t) D; ents (leaf q) D0; fin.
  split; [|reflexivity]. injection K as ->. apply hset_same; [exact H|]. apply put_same; [reflexivity|exact D0].
Qed.
Lemma unlink_same bad p fs fs' : same_but_tables fs fs' -> same_result (h_unlink bad p fs) (h_unlink bad p fs').
Proof.
  intros H. unfold h_unlink. destruct bad; [fin|]. destruct p as [|x p]; [fin|]. set (q := x :: p). clearbody q.
  dirs fs fs' (parent q) H; [|fin]. ents (leaf q) D; fin; (split; [|reflexivity]); apply hset_same; try exact H; apply del_same; exact D.
Qed.
Lemma rmdir_same bad p fs fs' : same_but_tables fs fs' -> same_result (h_rmdir bad p fs) (h_rmdir bad p fs').
Proof.
  intros H. unfold h_rmdir. destruct bad; [fin|]. destruct p as [|x p]; [fin|]. set (q := x :: p). clearbody q.
  dirs fs fs' (parent q) H; [|fin]. dirs fs fs' q H; ents (leaf q) D; fin.
  destruct D0; fin. split; [|reflexivity]. apply hset_same; [|exact I]. apply hset_same; [exact H|]. apply del_same. exact D.
Qed.
Lemma drop_same p fs fs' : same_but_tables fs fs' -> same_but_tables (drop_table p fs) (drop_table p fs').
Proof.
  intros H. unfold drop_table. dirs fs fs' p H; [|exact H]. ents kLongNameTableFileName D; try exact H; apply hset_same; try exact H; apply del_same; exact D.
Qed.
Lemma rename_same bad a b fs fs' : same_but_tables fs fs' -> same_result (h_rename bad a b fs) (h_rename bad a b fs').
Proof.
  intros H. unfold h_rename. destruct bad; [fin|]. destruct a as [|y a]; [fin|]. destruct b as [|x b]; [fin|]. set (q := x :: b). set (t := y :: a). clearbody q t.
  dirs fs fs' (parent t) H; [|fin]. dirs fs fs' (parent q) H; [|fin].
  pose proof (ent_same (leaf t) _ _ D) as K. destruct (ent (leaf t) es) as [k|], (ent (leaf t) es') as [k'|]; cbn [ent_rel] in K; try contradiction; [|fin].
  destruct (hpath_eqb t q); [fin|]. cbv zeta.
  assert (H1 : same_but_tables (hset fs (parent t) (Some (ent_del (leaf t) es))) (hset fs' (parent t) (Some (ent_del (leaf t) es')))).
  { apply hset_same; [exact H|]. apply del_same. exact D. }
  assert (Hgo : same_result
    (match hset fs (parent t) (Some (ent_del (leaf t) es)) (parent q) with
     | Some eb1 => (match k with KDir => h_move t q (hset (hset fs (parent t) (Some (ent_del (leaf t) es))) (parent q) (Some (ent_put (leaf q) k eb1)))
                    | _ => hset (hset fs (parent t) (Some (ent_del (leaf t) es))) (parent q) (Some (ent_put (leaf q) k eb1)) end, Ok tt)
     | None => (fs, Err ENOENT) end)
    (match hset fs' (parent t) (Some (ent_del (leaf t) es')) (parent q) with
     | Some eb1 => (match k' with KDir => h_move t q (hset (hset fs' (parent t) (Some (ent_del (leaf t) es'))) (parent q) (Some (ent_put (leaf q) k' eb1)))
                    | _ => hset (hset fs' (parent t) (Some (ent_del (leaf t) es'))) (parent q) (Some (ent_put (leaf q) k' eb1)) end, Ok tt)
     | None => (fs', Err ENOENT) end)).
  { pose proof (at_same _ _ (parent q) H1) as D1.
    destruct (hset fs (parent t) (Some (ent_del (leaf t) es)) (parent q)) as [e1|], (hset fs' (parent t) (Some (ent_del (leaf t) es')) (parent q)) as [e1'|]; cbn [dir_rel] in D1; try contradiction; [|fin].
    assert (H2 : same_but_tables (hset (hset fs (parent t) (Some (ent_del (leaf t) es))) (parent q) (Some (ent_put (leaf q) k e1)))
      (hset (hset fs' (parent t) (Some (ent_del (leaf t) es'))) (parent q) (Some (ent_put (leaf q) k' e1')))).
    { apply hset_same; [exact H1|]. apply put_same; [exact K|exact D1]. }
    split; [|reflexivity]. cbn [fst]. destruct k, k'; cbn [same_kind] in K; try discriminate K; try exact H2. apply move_same. exact H2. }
  set (go := match hset fs (parent t) _ (parent q) with Some _ => _ | None => _ end) in *.
  set (go' := match hset fs' (parent t) _ (parent q) with Some _ => _ | None => _ end) in *.
  clearbody go go'.
  dirs fs fs' q H; ents (leaf q) D0; destruct k, k'; cbn [same_kind] in K; try discriminate K; try (injection K as ->); fin;
    try (destruct (strip_prefix t q)); fin; try (destruct D1); fin.
  all: try (injection K0 as ->); try (destruct (_ =? _)); fin.
Qed.

(** ** Tables *)
Lemma table_same d fs fs' : same_but_tables fs fs' ->
  same_but_tables (fst (open_table d fs)) (fst (open_table d fs')) /\
  match snd (open_table d fs), snd (open_table d fs') with
  | Ok _, Ok _ => True
  | Err e, Err e' => e = e'
  | _, _ => False
  end.
Proof.
  intros H. unfold open_table. dirs fs fs' d H; [|split; [exact H|reflexivity]].
  ents kLongNameTableFileName D; cbn [fst snd]; try (split; [exact H|]; first [exact I|reflexivity]).
  split; [|exact I]. apply hset_same; [exact H|]. apply put_same; [exact I|exact D].
Qed.
Lemma commit_same d m m' fs fs' : same_but_tables fs fs' -> same_but_tables (commit_table d m fs) (commit_table d m' fs').
Proof.
  intros H. unfold commit_table. dirs fs fs' d H; [|exact H]. apply hset_same; [exact H|]. apply put_same; [exact I|exact D].
Qed.

Section Ops.
Variable trans : translator.

Lemma process_same fail path act cb fs fs' : (forall p fs fs', same_but_tables fs fs' -> same_result (cb p fs) (cb p fs')) ->
  same_but_tables fs fs' -> same_result (process_f trans fail path act cb fs) (process trans path act cb fs').
Proof.
  intros Hcb H. unfold process_f, process. destruct (t_encrypt trans path) as [[P enc]|e]; [|fin]. destruct enc as [|x enc]; [apply Hcb; exact H|].
  destruct (table_same (parent (comps P)) fs fs' H) as (H1 & H2).
  destruct (open_table (parent (comps P)) fs) as [fs1 [m|e]], (open_table (parent (comps P)) fs') as [fs1' [m'|e']]; cbn [fst snd] in *; try contradiction; [|subst e'; fin].
  destruct (Hcb (comps P) fs1 fs1' H1) as (C1 & C2). destruct (cb (comps P) fs1) as [fs2 r], (cb (comps P) fs1') as [fs2' r']. cbn [fst snd] in *. subst r'.
  destruct r as [[]|e]; [|fin]. split; [|reflexivity]. apply commit_same. exact C1.
Qed.

Definition ed (A la B lb : bytes) (d : hpath) (m : list (bytes * bytes)) :=
  let m1 := if hpath_eqb d (parent (comps A)) then match la with [] => m | _ => remove_mapping (get_last_component A) m end else m in
  if hpath_eqb d (parent (comps B)) then match lb with [] => m1 | _ => update_mapping (get_last_component B) lb m1 end else m1.

Lemma lite_rename_same fa fb from to bad fs fs' : same_but_tables fs fs' ->
  same_result (rename_f trans fa fb from to bad fs) (lite_rename trans from to bad fs').
Proof.
  intros H. unfold rename_f, lite_rename. destruct (t_encrypt trans from) as [[A la]|e]; [|fin].
  destruct (t_encrypt trans to) as [[B lb]|e]; [|destruct la; fin].
  assert (K : forall (edit edit' : hpath -> list (bytes * bytes) -> list (bytes * bytes)),
    same_result
     (match open_table (parent (comps A)) fs with
      | (fs1, Err e) => (fs1, Err e)
      | (fs1, Ok _) => match open_table (parent (comps B)) fs1 with
        | (fs2, Err e) => (fs2, Err e)
        | (fs2, Ok _) => match h_rename bad (comps A) (comps B) fs2 with
          | (fs3, Err e) => (fs3, Err e)
          | (fs3, Ok tt) =>
            let row (d : hpath) := match open_table d fs2 with (_, Ok m) => m | _ => [] end in
            let fs4 := commit_or_not fa (parent (comps A)) (row (parent (comps A))) (edit (parent (comps A)) (row (parent (comps A)))) fs3 in
            (commit_or_not fb (parent (comps B)) (row (parent (comps B))) (edit (parent (comps B)) (row (parent (comps B)))) fs4, Ok tt)
          end end end)
     (match open_table (parent (comps A)) fs' with
      | (fs1, Err e) => (fs1, Err e)
      | (fs1, Ok _) => match open_table (parent (comps B)) fs1 with
        | (fs2, Err e) => (fs2, Err e)
        | (fs2, Ok _) => match h_rename bad (comps A) (comps B) fs2 with
          | (fs3, Err e) => (fs3, Err e)
          | (fs3, Ok tt) =>
            let row (d : hpath) := match open_table d fs2 with (_, Ok m) => m | _ => [] end in
            let fs4 := commit_table (parent (comps A)) (edit' (parent (comps A)) (row (parent (comps A)))) fs3 in
            (commit_table (parent (comps B)) (edit' (parent (comps B)) (row (parent (comps B)))) fs4, Ok tt)
          end end end)).
  { intros edit edit'. destruct (table_same (parent (comps A)) fs fs' H) as (H1 & H2).
    destruct (open_table (parent (comps A)) fs) as [fs1 [m|e]], (open_table (parent (comps A)) fs') as [fs1' [m'|e']]; cbn [fst snd] in *; try contradiction; [|subst e'; fin].
    destruct (table_same (parent (comps B)) fs1 fs1' H1) as (H3 & H4).
    destruct (open_table (parent (comps B)) fs1) as [fs2 [m2|e]], (open_table (parent (comps B)) fs1') as [fs2' [m2'|e']]; cbn [fst snd] in *; try contradiction; [|subst e'; fin].
    destruct (rename_same bad (comps A) (comps B) fs2 fs2' H3) as (C1 & C2).
    destruct (h_rename bad (comps A) (comps B) fs2) as [fs3 r], (h_rename bad (comps A) (comps B) fs2') as [fs3' r']. cbn [fst snd] in *. subst r'.
    destruct r as [[]|e]; [|fin]. split; [|reflexivity]. cbv zeta. cbn [fst]. apply commit_same, commit_same. exact C1. }
  destruct la as [|x la], lb as [|y lb]; [apply rename_same; exact H| | |].
  - exact (K (ed A [] B (y :: lb)) (ed A [] B (y :: lb))).
  - exact (K (ed A (x :: la) B []) (ed A (x :: la) B [])).
  - exact (K (ed A (x :: la) B (y :: lb)) (ed A (x :: la) B (y :: lb))).
Qed.

Lemma step_same fa fb o fs fs' : same_but_tables fs fs' -> same_result (step_cf trans fa fb o fs) (lite_step trans o fs').
Proof.
  intros H. destruct o as [path creat excl ino bad late|path bad|path ino bad|src dest bad|path bad|path bad|from to bad]; cbn [step_cf lite_step].
  - assert (Hcb : forall p fs fs', same_but_tables fs fs' -> same_result
      (match h_open bad creat excl ino p fs with (fs1, Ok tt) => (fs1, match late with Some e => Err e | None => Ok tt end) | x => x end)
      (match h_open bad creat excl ino p fs' with (fs1, Ok tt) => (fs1, match late with Some e => Err e | None => Ok tt end) | x => x end)).
    { intros p f f' Hf. destruct (open_same bad creat excl ino p f f' Hf) as (C1 & C2).
      destruct (h_open bad creat excl ino p f) as [f1 r], (h_open bad creat excl ino p f') as [f1' r']. cbn [fst snd] in *. subst r'. destruct r as [[]|e]; fin. }
    destruct creat; [apply process_same; [exact Hcb|exact H]|]. destruct (t_encrypt trans path) as [[P l]|e]; [apply Hcb; exact H|fin].
  - apply process_same; [|exact H]. intros p f f' Hf. apply mkdir_same. exact Hf.
  - apply process_same; [|exact H]. intros p f f' Hf. apply open_same. exact Hf.
  - apply process_same; [|exact H]. intros p f f' Hf. destruct (t_encrypt trans src) as [[P l]|e]; [apply link_same; exact Hf|fin].
  - apply process_same; [|exact H]. intros p f f' Hf. apply unlink_same. exact Hf.
  - apply process_same; [|exact H]. intros p f f' Hf. apply rmdir_same, drop_same. exact Hf.
  - apply lite_rename_same. exact H.
Qed.

Theorem history_same ops : forall fs fs', same_but_tables fs fs' ->
  same_but_tables (fst (run_cf trans ops fs)) (lite_run trans (map fst ops) fs') /\
  snd (run_cf trans ops fs) = answers trans (map fst ops) fs'.
Proof.
  induction ops as [|[o [fa fb]] ops IH]; intros fs fs' H; [split; [exact H|reflexivity]|].
  cbn [run_cf map fst lite_run answers]. destruct (step_same fa fb o fs fs' H) as (C1 & C2).
  destruct (step_cf trans fa fb o fs) as [fs1 r]. cbn [fst snd] in *. destruct (IH _ _ C1) as (I1 & I2).
  destruct (run_cf trans ops fs1) as [fs2 rs]. cbn [fst snd] in *. split; [exact I1|]. congruence.
Qed.

(** ** Rows *)
Definition Q (m : list (bytes * bytes)) : Prop :=
  forall u enc, In (u, enc) m -> exists path P, t_encrypt trans path = Ok (P, enc) /\ u = get_last_component P /\ enc <> [].
Definition qk (k : kind) : Prop := match k with KTable m => Q m | _ => True end.
Definition qe (es : hents) : Prop := forall n k, In (n, k) es -> qk k.
Definition qd (v : option hents) : Prop := match v with Some es => qe es | None => True end.
Definition qf (fs : hfs) : Prop := forall p, qd (fs p).

Lemma qe_nil : qe []. Proof. intros n k []. Qed.
Lemma qe_del c es : qe es -> qe (ent_del c es).
Proof. intros H n k Hi. unfold ent_del in Hi. apply filter_In in Hi. exact (H n k (proj1 Hi)). Qed.
Lemma qe_put c k es : qk k -> qe es -> qe (ent_put c k es).
Proof. intros K H n k' [E|Hi]; [injection E as <- <-; exact K|exact (qe_del c es H n k' Hi)]. Qed.
Lemma qe_ent c es k : qe es -> ent c es = Some k -> qk k.
Proof. intros H E. exact (H c k (ent_in _ _ _ E)). Qed.
Lemma qf_set fs p v : qf fs -> qd v -> qf (hset fs p v).
Proof. intros H V q. unfold hset. destruct (hpath_eqb p q); [exact V|exact (H q)]. Qed.
Lemma qf_at fs p es : qf fs -> fs p = Some es -> qe es.
Proof. intros H E. pose proof (H p) as K. rewrite E in K. exact K. Qed.
Lemma qf_move a b fs : qf fs -> qf (h_move a b fs).
Proof. intros H q. unfold h_move. destruct (strip_prefix b q) as [r|]; [apply H|]. destruct (strip_prefix a q); [exact I|apply H]. Qed.
Lemma Q_update u enc m path P : t_encrypt trans path = Ok (P, enc) -> u = get_last_component P -> enc <> [] -> Q m -> Q (update_mapping u enc m).
Proof.
  intros E Eu Ne H. unfold update_mapping. destruct (ent u m); [exact H|]. intros v x [K|K]; [injection K as <- <-; exists path, P; auto|exact (H v x K)].
Qed.
Lemma Q_remove u m : Q m -> Q (remove_mapping u m).
Proof. intros H v x K. unfold remove_mapping, ent_del in K. apply filter_In in K. exact (H v x (proj1 K)). Qed.
Lemma Q_nil : Q []. Proof. intros u enc []. Qed.

Ltac qs H :=
  repeat match goal with
  | |- qf (fst (match ?x with _ => _ end)) => destruct x eqn:?
  | |- qf (fst (_, _)) => cbn [fst]
  | |- qf (match ?x with _ => _ end) => destruct x eqn:?
  end;
  repeat first [exact H | apply qf_move | apply qf_set | apply qe_put | apply qe_del | exact I | exact qe_nil
    | match goal with E : ?fs ?p = Some ?es |- qe ?es => exact (qf_at _ _ _ H E) end
    | match goal with |- qd _ => cbn [qd] end
    | match goal with E : ent ?c ?es = Some ?k |- qk ?k => apply (qe_ent _ _ _ (qf_at _ _ _ H ltac:(eassumption)) E) end ].

Lemma q_open bad creat excl ino p fs : qf fs -> qf (fst (h_open bad creat excl ino p fs)).
Proof. intros H. unfold h_open. qs H. Qed.
Lemma q_mkdir bad p fs : qf fs -> qf (fst (h_mkdir bad p fs)).
Proof. intros H. unfold h_mkdir. qs H. Qed.
Lemma q_link bad s p fs : qf fs -> qf (fst (h_link bad s p fs)).
Proof. intros H. unfold h_link. qs H. Qed.
Lemma q_unlink bad p fs : qf fs -> qf (fst (h_unlink bad p fs)).
Proof. intros H. unfold h_unlink. qs H. Qed.
Lemma q_rmdir bad p fs : qf fs -> qf (fst (h_rmdir bad p fs)).
Proof. intros H. unfold h_rmdir. qs H. Qed.
Lemma q_drop p fs : qf fs -> qf (drop_table p fs).
Proof. intros H. unfold drop_table. qs H. Qed.
Lemma q_table d fs : qf fs -> qf (fst (open_table d fs)) /\ forall m, snd (open_table d fs) = Ok m -> Q m.
Proof.
  intros H. unfold open_table. destruct (fs d) as [es|] eqn:E; [|split; [exact H|intros m K; discriminate K]].
  pose proof (qf_at _ _ _ H E) as HE. destruct (ent kLongNameTableFileName es) as [[i| |m0]|] eqn:Et; cbn [fst snd]; (split; [try exact H|intros m K]); try discriminate K.
  - injection K as <-. exact (qe_ent _ _ _ HE Et).
  - apply qf_set; [exact H|]. apply qe_put; [exact Q_nil|exact HE].
  - injection K as <-. exact Q_nil.
Qed.
Lemma q_commit d m fs : qf fs -> Q m -> qf (commit_table d m fs).
Proof.
  intros H Hm. unfold commit_table. destruct (fs d) as [es|] eqn:E; [|exact H]. apply qf_set; [exact H|]. apply qe_put; [exact Hm|exact (qf_at _ _ _ H E)].
Qed.
Lemma q_rename bad a b fs : qf fs -> qf (fst (h_rename bad a b fs)).
Proof.
  intros H. unfold h_rename. destruct bad; [exact H|]. destruct a as [|y a]; [exact H|]. destruct b as [|x b]; [exact H|]. set (q := x :: b). set (t := y :: a). clearbody q t.
  destruct (fs (parent t)) as [ea|] eqn:Ea; [|exact H]. destruct (fs (parent q)) as [eb|] eqn:Eb; [|exact H].
  destruct (ent (leaf t) ea) as [k|] eqn:Ek; [|exact H]. destruct (hpath_eqb t q); [exact H|]. cbv zeta.
  assert (H1 : qf (hset fs (parent t) (Some (ent_del (leaf t) ea)))).
  { apply qf_set; [exact H|]. apply qe_del. exact (qf_at _ _ _ H Ea). }
  assert (Kk : qk k) by exact (qe_ent _ _ _ (qf_at _ _ _ H Ea) Ek).
  match goal with |- context [match hset fs (parent t) ?v (parent q) with Some _ => _ | None => _ end] =>
    set (go := match hset fs (parent t) v (parent q) with Some _ => _ | None => _ end) in *; assert (Hgo : qf (fst go)) end.
  { unfold go. destruct (hset fs (parent t) (Some (ent_del (leaf t) ea)) (parent q)) as [e1|] eqn:E1; [|exact H]. cbn [fst].
    assert (H2 : qf (hset (hset fs (parent t) (Some (ent_del (leaf t) ea))) (parent q) (Some (ent_put (leaf q) k e1)))).
    { apply qf_set; [exact H1|]. apply qe_put; [exact Kk|exact (qf_at _ _ _ H1 E1)]. }
    destruct k; try exact H2. apply qf_move. exact H2. }
  clearbody go.
  repeat match goal with |- qf (fst (match ?x with _ => _ end)) => destruct x end; try exact H; exact Hgo.
Qed.

Lemma q_process fail path act cb fs : (forall p fs, qf fs -> qf (fst (cb p fs))) -> qf fs -> qf (fst (process_f trans fail path act cb fs)).
Proof.
  intros Hcb H. unfold process_f. destruct (t_encrypt trans path) as [[P enc]|e] eqn:Ee; [|exact H]. destruct enc as [|x enc]; [apply Hcb; exact H|].
  destruct (q_table (parent (comps P)) fs H) as (H1 & H2). destruct (open_table (parent (comps P)) fs) as [fs1 [m|e]]; cbn [fst snd] in *; [|exact H1].
  pose proof (Hcb (comps P) fs1 H1) as C1. destruct (cb (comps P) fs1) as [fs2 [[]|e]]; cbn [fst] in *; [|exact C1].
  apply q_commit; [exact C1|]. pose proof (H2 m eq_refl) as Hm. destruct fail; [exact Hm|]. destruct act; [|apply Q_remove; exact Hm].
  apply (Q_update _ _ _ path P Ee eq_refl); [discriminate|exact Hm].
Qed.

Lemma q_step fa fb o fs : qf fs -> qf (fst (step_cf trans fa fb o fs)).
Proof.
  intros H. destruct o as [path creat excl ino bad late|path bad|path ino bad|src dest bad|path bad|path bad|from to bad]; cbn [step_cf].
  - assert (Hcb : forall p f, qf f -> qf (fst (match h_open bad creat excl ino p f with (fs1, Ok tt) => (fs1, match late with Some e => Err e | None => Ok tt end) | x => x end))).
    { intros p f Hf. pose proof (q_open bad creat excl ino p f Hf) as C. destruct (h_open bad creat excl ino p f) as [f1 [[]|e]]; exact C. }
    destruct creat; [apply q_process; [exact Hcb|exact H]|]. destruct (t_encrypt trans path) as [[P l]|e]; [apply Hcb; exact H|exact H].
  - apply q_process; [|exact H]. intros p f. apply q_mkdir.
  - apply q_process; [|exact H]. intros p f. apply q_open.
  - apply q_process; [|exact H]. intros p f Hf. destruct (t_encrypt trans src) as [[P l]|e]; [apply q_link; exact Hf|exact Hf].
  - apply q_process; [|exact H]. intros p f. apply q_unlink.
  - apply q_process; [|exact H]. intros p f Hf. apply q_rmdir, q_drop. exact Hf.
  - unfold rename_f. destruct (t_encrypt trans from) as [[A la]|e] eqn:EA; [|exact H].
    destruct (t_encrypt trans to) as [[B lb]|e] eqn:EB; [|destruct la; exact H].
    assert (K : forall edit, (forall d m, Q m -> Q (edit d m)) ->
      qf (fst (match open_table (parent (comps A)) fs with
      | (fs1, Err e) => (fs1, Err e)
      | (fs1, Ok _) => match open_table (parent (comps B)) fs1 with
        | (fs2, Err e) => (fs2, Err e)
        | (fs2, Ok _) => match h_rename bad (comps A) (comps B) fs2 with
          | (fs3, Err e) => (fs3, Err e)
          | (fs3, Ok tt) =>
            let row (d : hpath) := match open_table d fs2 with (_, Ok m) => m | _ => [] end in
            let fs4 := commit_or_not fa (parent (comps A)) (row (parent (comps A))) (edit (parent (comps A)) (row (parent (comps A)))) fs3 in
            (commit_or_not fb (parent (comps B)) (row (parent (comps B))) (edit (parent (comps B)) (row (parent (comps B)))) fs4, Ok tt)
          end end end))).
    { intros edit Hed. destruct (q_table (parent (comps A)) fs H) as (H1 & _). destruct (open_table (parent (comps A)) fs) as [fs1 [m|e]]; cbn [fst snd] in *; [|exact H1].
      destruct (q_table (parent (comps B)) fs1 H1) as (H2 & _). destruct (open_table (parent (comps B)) fs1) as [fs2 [m2|e]]; cbn [fst snd] in *; [|exact H2].
      pose proof (q_rename bad (comps A) (comps B) fs2 H2) as H3. destruct (h_rename bad (comps A) (comps B) fs2) as [fs3 [[]|e]]; cbn [fst] in *; [|exact H3].
      cbv zeta. cbn [fst].
      assert (Hr : forall d, Q (match open_table d fs2 with (_, Ok m) => m | _ => [] end)).
      { intros d. destruct (q_table d fs2 H2) as (_ & K). destruct (open_table d fs2) as [f [m3|e]]; [apply K; reflexivity|exact Q_nil]. }
      unfold commit_or_not. apply q_commit; [apply q_commit; [exact H3|]|]; [destruct fa|destruct fb]; auto. }
    assert (He : forall d m, Q m -> Q (ed A la B lb d m)).
    { intros d m Hm. unfold ed. cbv zeta.
      assert (H1 : Q (if hpath_eqb d (parent (comps A)) then match la with [] => m | _ => remove_mapping (get_last_component A) m end else m)).
      { destruct (hpath_eqb d (parent (comps A))); [|exact Hm]. destruct la; [exact Hm|apply Q_remove; exact Hm]. }
      destruct (hpath_eqb d (parent (comps B))); [|exact H1]. destruct lb as [|y lb]; [exact H1|]. apply (Q_update _ _ _ to B EB eq_refl); [discriminate|exact H1]. }
    destruct la as [|x la], lb as [|y lb]; [apply q_rename; exact H| | |]; exact (K _ He).
Qed.

Theorem rows_history ops : forall fs, rows_right trans fs -> rows_right trans (fst (run_cf trans ops fs)).
Proof.
  assert (E : forall fs, rows_right trans fs <-> qf fs).
  { intros fs. split.
    - intros H p. destruct (fs p) as [es|] eqn:E; [|exact I]. intros n k Hi. destruct k as [i| |m]; [exact I|exact I|]. intros u enc Hu. exact (H p es n m u enc E Hi Hu).
    - intros H p es n m u enc E Hi Hu. pose proof (H p) as K. rewrite E in K. exact (K n (KTable m) Hi u enc Hu). }
  intros fs H. apply E. apply E in H. revert fs H.
  induction ops as [|[o [fa fb]] ops IH]; intros fs H; [exact H|]. cbn [run_cf]. pose proof (q_step fa fb o fs H) as H1.
  destruct (step_cf trans fa fb o fs) as [fs1 r]. specialize (IH fs1 H1). destruct (run_cf trans ops fs1) as [fs2 rs]. exact IH.
Qed.

(** ** A call whose commit does not fail records the name *)
Lemma h_open_dir bad creat excl ino p fs fs1 : h_open bad creat excl ino p fs = (fs1, Ok tt) -> fs1 (parent p) <> None.
Proof.
  unfold h_open. destruct bad; [intros E; discriminate E|]. destruct p as [|x p]; [intros E; discriminate E|]. set (q := x :: p). clearbody q.
  destruct (fs (parent q)) as [es|] eqn:Ed; [|intros E; discriminate E].
  destruct (ent (leaf q) es) as [[i| |m]|]; [destruct (creat && excl)| |destruct (creat && excl)|destruct creat]; intros E; try discriminate E; injection E as <-; try (rewrite Ed; discriminate).
  rewrite hset_eq. discriminate.
Qed.
Lemma update_there u enc m : exists l, ent u (update_mapping u enc m) = Some l.
Proof.
  unfold update_mapping. destruct (ent u m) as [l|] eqn:E; [exists l; exact E|]. exists enc. cbn [ent]. rewrite bytes_eqb_refl. reflexivity.
Qed.
Lemma row_written path cb fs fs1 P enc : t_encrypt trans path = Ok (P, enc) -> enc <> [] ->
  (forall f f1, cb (comps P) f = (f1, Ok tt) -> f1 (parent (comps P)) <> None) ->
  process_f trans false path ACreate cb fs = (fs1, Ok tt) ->
  exists es m l, fs1 (parent (comps P)) = Some es /\ ent kLongNameTableFileName es = Some (KTable m) /\ ent (get_last_component P) m = Some l.
Proof.
  intros E Ne Hcb. unfold process_f. rewrite E. destruct enc as [|x enc]; [contradiction|].
  destruct (open_table (parent (comps P)) fs) as [f1 [m|e]]; [|intros K; discriminate K].
  destruct (cb (comps P) f1) as [f2 [[]|e]] eqn:Ec; [|intros K; discriminate K]. intros K. injection K as <-.
  pose proof (Hcb _ _ Ec) as Hd. unfold commit_or_not, commit_table. destruct (f2 (parent (comps P))) as [es|]; [|contradiction].
  destruct (update_there (get_last_component P) (x :: enc) m) as (l & El).
  eexists _, _, l. split; [apply hset_eq|]. split; [apply ent_put_eq|exact El].
Qed.
Lemma open_records path excl ino bad late fb fs fs1 P enc : t_encrypt trans path = Ok (P, enc) -> enc <> [] ->
  step_cf trans false fb (LOpen path true excl ino bad late) fs = (fs1, Ok tt) ->
  exists es m l, fs1 (parent (comps P)) = Some es /\ ent kLongNameTableFileName es = Some (KTable m) /\ ent (get_last_component P) m = Some l.
Proof.
  intros E Ne. cbn [step_cf]. apply (row_written _ _ _ _ _ _ E Ne). intros f f1.
  destruct (h_open bad true excl ino (comps P) f) as [f2 [[]|e]] eqn:Eo; [|intros K; discriminate K].
  intros K. destruct late; [discriminate K|]. injection K as <-. exact (h_open_dir _ _ _ _ _ _ _ Eo).
Qed.
End Ops.
Lemma row_in {A} c (k : A) es : ent c es = Some k -> In (c, k) es.
Proof.
  induction es as [|[d j] es IH]; [intros E; discriminate E|]. cbn [ent]. destruct (bytes_eqb d c) eqn:E.
  - apply bytes_eqb_eq in E. intros K. injection K as <-. left. rewrite E. reflexivity.
  - intros K. right. exact (IH K).
Qed.

(** ** What the tables say of other entries *)
Notation TN := kLongNameTableFileName.
Definition same_at (d : hpath) (fs fs' : hfs) : Prop :=
  match fs d, fs' d with
  | Some es, Some es' => ent TN es' = ent TN es
  | None, None => True
  | _, _ => False
  end.
Lemma sa_refl d fs : same_at d fs fs.
Proof. unfold same_at. destruct (fs d); [reflexivity|exact I]. Qed.
Lemma sa_trans d a b c : same_at d a b -> same_at d b c -> same_at d a c.
Proof. unfold same_at. destruct (a d), (b d), (c d); try tauto. congruence. Qed.
Lemma sa_put d p c k es fs : fs p = Some es -> c <> TN -> same_at d fs (hset fs p (Some (ent_put c k es))).
Proof.
  intros E N. destruct (hpath_dec p d) as [<-|Nd].
  - unfold same_at. rewrite hset_eq, E. apply ent_put_ne. exact N.
  - unfold same_at. rewrite hset_ne by exact Nd. exact (sa_refl d fs).
Qed.
Lemma sa_del d p c es fs : fs p = Some es -> c <> TN -> same_at d fs (hset fs p (Some (ent_del c es))).
Proof.
  intros E N. destruct (hpath_dec p d) as [<-|Nd].
  - unfold same_at. rewrite hset_eq, E. apply ent_del_ne. exact N.
  - unfold same_at. rewrite hset_ne by exact Nd. exact (sa_refl d fs).
Qed.
Lemma sa_out d p v fs : p <> d -> same_at d fs (hset fs p v).
Proof. intros N. unfold same_at. rewrite hset_ne by exact N. exact (sa_refl d fs). Qed.
Definition outside (d p : hpath) : Prop := forall r, d <> p ++ r.
Lemma outside_ne d p : outside d p -> p <> d.
Proof. intros H <-. apply (H []). rewrite app_nil_r. reflexivity. Qed.
Lemma sa_move d a b fs : outside d a -> outside d b -> same_at d fs (h_move a b fs).
Proof.
  intros A B. apply strip_none in A. apply strip_none in B. unfold same_at, h_move. rewrite A, B. exact (sa_refl d fs).
Qed.

Section Host.
Variables (d p : hpath).
Hypotheses (Ht : leaf p <> TN) (Ho : outside d p).
Lemma sa_open bad creat excl ino fs : same_at d fs (fst (h_open bad creat excl ino p fs)).
Proof.
  unfold h_open. destruct bad; [apply sa_refl|]. destruct p as [|x q]; [apply sa_refl|].
  destruct (fs (parent (x :: q))) as [es|] eqn:E; [|apply sa_refl].
  destruct (ent (leaf (x :: q)) es) as [[i| |m]|]; try apply sa_refl. destruct creat; [|apply sa_refl]. exact (sa_put _ _ _ _ _ _ E Ht).
Qed.
Lemma sa_mkdir bad fs : same_at d fs (fst (h_mkdir bad p fs)).
Proof.
  unfold h_mkdir. destruct bad; [apply sa_refl|]. destruct p as [|x q]; [apply sa_refl|].
  destruct (fs (parent (x :: q))) as [es|] eqn:E; [|apply sa_refl].
  destruct (ent (leaf (x :: q)) es) as [k|]; [apply sa_refl|]. cbn [fst].
  eapply sa_trans; [exact (sa_put d _ _ KDir _ _ E Ht)|]. apply sa_out, outside_ne. exact Ho.
Qed.
Lemma sa_link bad src fs : same_at d fs (fst (h_link bad src p fs)).
Proof.
  unfold h_link. destruct bad; [apply sa_refl|]. destruct src as [|y s]; [apply sa_refl|]. destruct p as [|x q]; [apply sa_refl|].
  destruct (fs (parent (y :: s))) as [es|]; [|apply sa_refl].
  destruct (fs (parent (x :: q))) as [ed|] eqn:E; [|apply sa_refl].
  destruct (ent (leaf (y :: s)) es) as [[i| |m]|]; destruct (ent (leaf (x :: q)) ed) as [k|]; try apply sa_refl. exact (sa_put _ _ _ _ _ _ E Ht).
Qed.
Lemma sa_unlink bad fs : same_at d fs (fst (h_unlink bad p fs)).
Proof.
  unfold h_unlink. destruct bad; [apply sa_refl|]. destruct p as [|x q]; [apply sa_refl|].
  destruct (fs (parent (x :: q))) as [es|] eqn:E; [|apply sa_refl].
  destruct (ent (leaf (x :: q)) es) as [[i| |m]|]; try apply sa_refl; exact (sa_del _ _ _ _ _ E Ht).
Qed.
Lemma sa_rmdir bad fs : same_at d fs (fst (h_rmdir bad p fs)).
Proof.
  unfold h_rmdir. destruct bad; [apply sa_refl|]. destruct p as [|x q]; [apply sa_refl|].
  destruct (fs (parent (x :: q))) as [es|] eqn:E; [|apply sa_refl].
  destruct (ent (leaf (x :: q)) es) as [[i| |m]|]; try apply sa_refl.
  destruct (fs (x :: q)) as [[|e es']|]; try apply sa_refl. cbn [fst].
  eapply sa_trans; [exact (sa_del d _ _ _ _ E Ht)|]. apply sa_out, outside_ne. exact Ho.
Qed.
Lemma sa_drop fs : same_at d fs (drop_table p fs).
Proof.
  unfold drop_table. repeat match goal with |- same_at _ _ (match ?x with _ => _ end) => destruct x eqn:? end; first [apply sa_refl|apply sa_out, outside_ne; exact Ho].
Qed.
End Host.
Lemma sa_rename bad d a b fs : leaf a <> TN -> leaf b <> TN -> outside d a -> outside d b -> same_at d fs (fst (h_rename bad a b fs)).
Proof.
  intros Ta Tb Oa Ob. unfold h_rename. destruct bad; [apply sa_refl|]. destruct a as [|y a]; [apply sa_refl|]. destruct b as [|x b]; [apply sa_refl|].
  set (q := x :: b) in *. set (t := y :: a) in *. clearbody q t.
  destruct (fs (parent t)) as [ea|] eqn:Ea; [|apply sa_refl]. destruct (fs (parent q)) as [eb|] eqn:Eb; [|apply sa_refl].
  destruct (ent (leaf t) ea) as [k|] eqn:Ek; [|apply sa_refl]. destruct (hpath_eqb t q); [apply sa_refl|]. cbv zeta.
  pose proof (sa_del d _ _ _ _ Ea Ta) as H1.
  match goal with |- context [match hset fs (parent t) ?v (parent q) with Some _ => _ | None => _ end] =>
    set (go := match hset fs (parent t) v (parent q) with Some _ => _ | None => _ end) in *; assert (Hgo : same_at d fs (fst go)) end.
  { unfold go. destruct (hset fs (parent t) (Some (ent_del (leaf t) ea)) (parent q)) as [e1|] eqn:E1; [|apply sa_refl]. cbn [fst].
    pose proof (sa_trans _ _ _ _ H1 (sa_put d _ _ k _ _ E1 Tb)) as H2.
    destruct k; try exact H2. exact (sa_trans _ _ _ _ H2 (sa_move d t q _ Oa Ob)). }
  clearbody go.
  repeat match goal with |- same_at _ _ (fst (match ?x with _ => _ end)) => destruct x end; try apply sa_refl; exact Hgo.
Qed.

Definition says (fs : hfs) (d : hpath) (u : bytes) : option (res bytes) :=
  match fs d with Some es => Some (table_of es u) | None => None end.
Definition row_says (m : list (bytes * bytes)) (u : bytes) : res bytes := match ent u m with Some l => Ok l | None => Err (EPosix 2) end.
Lemma says_same d u fs fs' : same_at d fs fs' -> says fs' d u = says fs d u.
Proof. unfold same_at, says, table_of. destruct (fs d), (fs' d); intros H; try contradiction; [rewrite H; reflexivity|reflexivity]. Qed.
Lemma says_table d0 fs d u : says (fst (open_table d0 fs)) d u = says fs d u.
Proof.
  unfold open_table. destruct (fs d0) as [es|] eqn:E; [|reflexivity]. destruct (ent TN es) as [[i| |m]|] eqn:Et; try reflexivity. cbn [fst].
  unfold says. destruct (hpath_dec d0 d) as [<-|N]; [|rewrite hset_ne by exact N; reflexivity].
  rewrite hset_eq, E. unfold table_of. rewrite ent_put_eq, Et. reflexivity.
Qed.
Lemma table_says d0 fs fs1 m u : open_table d0 fs = (fs1, Ok m) -> says fs d0 u = Some (row_says m u).
Proof.
  unfold open_table, says, row_says, table_of. destruct (fs d0) as [es|] eqn:E; [|intros K; discriminate K].
  destruct (ent TN es) as [[i| |m0]|] eqn:Et; intros K; try discriminate K; injection K as _ <-; reflexivity.
Qed.
Lemma says_commit d0 m fs d u : (d0 = d -> says fs d u = Some (row_says m u)) -> says (commit_table d0 m fs) d u = says fs d u.
Proof.
  intros H. unfold commit_table. destruct (fs d0) as [es|] eqn:E; [|reflexivity].
  destruct (hpath_dec d0 d) as [<-|N].
  - rewrite (H eq_refl). unfold says, table_of. rewrite hset_eq, ent_put_eq. reflexivity.
  - unfold says. rewrite hset_ne by exact N. reflexivity.
Qed.
Lemma says_update u v l m : v <> u -> row_says (update_mapping v l m) u = row_says m u.
Proof. intros N. unfold row_says, update_mapping. destruct (ent v m); [reflexivity|]. cbn [ent]. apply bytes_eqb_neq in N. rewrite N. reflexivity. Qed.
Lemma says_remove u v m : v <> u -> row_says (remove_mapping v m) u = row_says m u.
Proof. intros N. unfold row_says, remove_mapping. rewrite ent_del_ne by exact N. reflexivity. Qed.

Section Others.
Variable trans : translator.
Lemma process_says fail path act cb fs d u :
  (forall P enc, t_encrypt trans path = Ok (P, enc) -> leaf (comps P) <> TN /\ outside d (comps P) /\ (fail = true \/ parent (comps P) <> d \/ get_last_component P <> u)) ->
  (forall p f, leaf p <> TN -> outside d p -> same_at d f (fst (cb p f))) ->
  says (fst (process_f trans fail path act cb fs)) d u = says fs d u.
Proof.
  intros H Hcb. unfold process_f. destruct (t_encrypt trans path) as [[P enc]|e] eqn:E; [|reflexivity].
  destruct (H P enc eq_refl) as (HT & HO & HU). destruct enc as [|x enc]; [apply says_same, Hcb; assumption|].
  pose proof (says_table (parent (comps P)) fs d u) as S1. destruct (open_table (parent (comps P)) fs) as [f1 [m|e]] eqn:Et; cbn [fst] in *; [|exact S1].
  pose proof (says_same d u _ _ (Hcb (comps P) f1 HT HO)) as S2. destruct (cb (comps P) f1) as [f2 [[]|e]]; cbn [fst] in *; [|congruence].
  rewrite <- S1, <- S2. unfold commit_or_not. apply says_commit. intros Ed. rewrite S2, S1. subst d. rewrite (table_says _ _ _ _ u Et). f_equal.
  destruct fail; [reflexivity|]. destruct HU as [K|[K|K]]; [discriminate K|contradiction|].
  destruct act; symmetry; [apply says_update|apply says_remove]; exact K.
Qed.

Theorem step_says fa fb o fs d u :
  (forall path P enc, In path (changed o) -> t_encrypt trans path = Ok (P, enc) ->
     leaf (comps P) <> TN /\ outside d (comps P) /\ ((fa = true /\ fb = true) \/ parent (comps P) <> d \/ get_last_component P <> u)) ->
  says (fst (step_cf trans fa fb o fs)) d u = says fs d u.
Proof.
  intros H. destruct o as [path creat excl ino bad late|path bad|path ino bad|src dest bad|path bad|path bad|from to bad]; cbn [step_cf changed] in *.
  - assert (Hcb : forall p f, (creat = true -> leaf p <> TN /\ outside d p) -> same_at d f (fst (match h_open bad creat excl ino p f with (fs1, Ok tt) => (fs1, match late with Some e => Err e | None => Ok tt end) | x => x end))).
    { intros p f A. assert (C : same_at d f (fst (h_open bad creat excl ino p f))).
      { destruct creat; [apply sa_open; apply A; reflexivity|].
        unfold h_open. repeat match goal with |- same_at _ _ (fst (match ?x with _ => _ end)) => destruct x end; apply sa_refl. }
      destruct (h_open bad creat excl ino p f) as [f1 [[]|e]]; exact C. }
    destruct creat.
    + apply process_says; [|intros p f A B; apply Hcb; intros _; split; assumption]. intros P enc E. destruct (H path P enc (or_introl eq_refl) E) as (A & B & D). repeat (split; [assumption|]). tauto.
    + destruct (t_encrypt trans path) as [[P l]|e]; [|reflexivity]. apply says_same, Hcb. intros K. discriminate K.
  - apply process_says; [|intros p f A B; apply sa_mkdir; assumption]. intros P enc E. destruct (H path P enc (or_introl eq_refl) E) as (A & B & D). repeat (split; [assumption|]). tauto.
  - apply process_says; [|intros p f A B; apply sa_open; assumption]. intros P enc E. destruct (H path P enc (or_introl eq_refl) E) as (A & B & D). repeat (split; [assumption|]). tauto.
  - apply process_says; [|intros p f A B; destruct (t_encrypt trans src) as [[P l]|e]; [apply sa_link; assumption|apply sa_refl]]. intros P enc E. destruct (H dest P enc (or_introl eq_refl) E) as (A & B & D). repeat (split; [assumption|]). tauto.
  - apply process_says; [|intros p f A B; apply sa_unlink; assumption]. intros P enc E. destruct (H path P enc (or_introl eq_refl) E) as (A & B & D). repeat (split; [assumption|]). tauto.
  - apply process_says; [|intros p f A B; eapply sa_trans; [apply (sa_drop d p B)|apply sa_rmdir; assumption]]. intros P enc E. destruct (H path P enc (or_introl eq_refl) E) as (A & B & D). repeat (split; [assumption|]). tauto.
  - unfold rename_f. destruct (t_encrypt trans from) as [[A la]|e] eqn:EA; [|reflexivity].
    destruct (t_encrypt trans to) as [[B lb]|e] eqn:EB; [|destruct la; reflexivity].
    destruct (H from A la (or_introl eq_refl) EA) as (TA & OA & UA). destruct (H to B lb (or_intror (or_introl eq_refl)) EB) as (TB & OB & UB).
    assert (K : forall edit, (fa = true /\ fb = true \/ forall m, row_says (edit d m) u = row_says m u) ->
      says (fst (match open_table (parent (comps A)) fs with
      | (fs1, Err e) => (fs1, Err e)
      | (fs1, Ok _) => match open_table (parent (comps B)) fs1 with
        | (fs2, Err e) => (fs2, Err e)
        | (fs2, Ok _) => match h_rename bad (comps A) (comps B) fs2 with
          | (fs3, Err e) => (fs3, Err e)
          | (fs3, Ok tt) =>
            let row (d : hpath) := match open_table d fs2 with (_, Ok m) => m | _ => [] end in
            let fs4 := commit_or_not fa (parent (comps A)) (row (parent (comps A))) (edit (parent (comps A)) (row (parent (comps A)))) fs3 in
            (commit_or_not fb (parent (comps B)) (row (parent (comps B))) (edit (parent (comps B)) (row (parent (comps B)))) fs4, Ok tt)
          end end end)) d u = says fs d u).
    { intros edit Hed. pose proof (says_table (parent (comps A)) fs d u) as S1. destruct (open_table (parent (comps A)) fs) as [fs1 [m|e]] eqn:E1; cbn [fst] in *; [|exact S1].
      pose proof (says_table (parent (comps B)) fs1 d u) as S2. destruct (open_table (parent (comps B)) fs1) as [fs2 [m2|e]] eqn:E2; cbn [fst] in *; [|congruence].
      pose proof (says_same d u _ _ (sa_rename bad d (comps A) (comps B) fs2 TA TB OA OB)) as S3. destruct (h_rename bad (comps A) (comps B) fs2) as [fs3 [[]|e]]; cbn [fst] in *; [|congruence].
      cbv zeta. cbn [fst].
      assert (Hr : forall f m, open_table d fs2 = (f, Ok m) -> says fs2 d u = Some (row_says m u)) by (intros f m0; apply table_says).
      assert (RA : forall g f m0, open_table (parent (comps A)) g = (f, Ok m0) -> exists f' m', open_table (parent (comps A)) f = (f', Ok m')).
      { intros g f m0. unfold open_table. destruct (g (parent (comps A))) as [es|] eqn:Eg; [|intros Q; discriminate Q].
        destruct (ent TN es) as [[i| |mm]|] eqn:Em; intros Q; try discriminate Q; injection Q as <- <-.
        - rewrite Eg, Em. eexists _, _. reflexivity.
        - rewrite hset_eq, ent_put_eq. eexists _, _. reflexivity. }
      assert (RB : forall g f m0, open_table (parent (comps B)) g = (f, Ok m0) -> exists f' m', open_table (parent (comps B)) f = (f', Ok m')).
      { intros g f m0. unfold open_table. destruct (g (parent (comps B))) as [es|] eqn:Eg; [|intros Q; discriminate Q].
        destruct (ent TN es) as [[i| |mm]|] eqn:Em; intros Q; try discriminate Q; injection Q as <- <-.
        - rewrite Eg, Em. eexists _, _. reflexivity.
        - rewrite hset_eq, ent_put_eq. eexists _, _. reflexivity. }
      assert (RA2 : exists f' m', open_table (parent (comps A)) fs2 = (f', Ok m')).
      { destruct (hpath_dec (parent (comps A)) (parent (comps B))) as [Ee|Nn]; [rewrite Ee; exact (RB _ _ _ E2)|].
        destruct (RA _ _ _ E1) as (f' & m' & Q).
        assert (Es : fs2 (parent (comps A)) = fs1 (parent (comps A))).
        { revert E2. unfold open_table. destruct (fs1 (parent (comps B))) as [es|]; [|intros Z; discriminate Z].
          destruct (ent TN es) as [[i| |mm]|]; intros Z; try discriminate Z; injection Z as <- <-; [reflexivity|]. apply hset_ne. congruence. }
        revert Q. unfold open_table. rewrite Es. destruct (fs1 (parent (comps A))) as [es|]; [|intros Z; discriminate Z].
        destruct (ent TN es) as [[i| |mm]|]; intros Z; try discriminate Z; eexists _, _; reflexivity. }
      destruct RA2 as (fa' & ma & QA). destruct (RB _ _ _ E2) as (fb' & mb & QB). rewrite QA, QB.
      unfold commit_or_not.
      assert (S4 : says (commit_table (parent (comps A)) (if fa then ma else edit (parent (comps A)) ma) fs3) d u = says fs3 d u).
      { apply says_commit. intros Ed. rewrite Ed in QA. rewrite S3, (Hr _ _ QA), Ed. f_equal. destruct fa; [reflexivity|]. destruct Hed as [(Z & _)|Z]; [discriminate Z|symmetry; apply Z]. }
      rewrite says_commit; [congruence|]. intros Ed. rewrite Ed in QB. rewrite S4, S3, (Hr _ _ QB), Ed. f_equal. destruct fb; [reflexivity|]. destruct Hed as [(_ & Z)|Z]; [discriminate Z|symmetry; apply Z]. }
    assert (He : fa = true /\ fb = true \/ forall m, row_says (ed A la B lb d m) u = row_says m u).
    { destruct UA as [UA|UA]; [left; exact UA|]. destruct UB as [UB|UB]; [left; exact UB|]. right. intros m. unfold ed. cbv zeta.
      assert (H1 : row_says (if hpath_eqb d (parent (comps A)) then match la with [] => m | _ => remove_mapping (get_last_component A) m end else m) u = row_says m u).
      { destruct (hpath_eqb d (parent (comps A))) eqn:Q; [|reflexivity]. apply hpath_eqb_eq in Q. destruct la; [reflexivity|].
        apply says_remove. destruct UA as [Z|Z]; [exfalso; apply Z; symmetry; exact Q|exact Z]. }
      destruct (hpath_eqb d (parent (comps B))) eqn:Q; [|exact H1]. apply hpath_eqb_eq in Q. destruct lb; [exact H1|].
      rewrite says_update; [exact H1|]. destruct UB as [Z|Z]; [exfalso; apply Z; symmetry; exact Q|exact Z]. }
    destruct la as [|x la], lb as [|y lb]; [apply says_same, sa_rename; assumption| | |]; exact (K _ He).
Qed.
End Others.
