(** Proofs for PropertiesListConc. *)
From Coq Require Import Strings.String.
From Verif Require Import Base BaseLemmas TextModel TextProofs CryptoModel CryptoProofs NameModel NameSpec NameProofs NameTop
  LongNameModel LongNameSpec LongNameProofs LongNameInv LongNameTop LiteTreeSpec LiteTreeProofs LiteTreeTop
  LiteConcModel LiteConcSpec LiteConcTree LiteConcProofs LiteConcTables LiteConcInv LiteConcTop ListConcModel ListConcSpec.
Local Open Scope list_scope.

(** ** The worlds of a listing are those of a run *)
Section Visited.
Variable tr : translator.
Variable sf : bytes.

Lemma c_run_snoc cs c w w1 h1 w2 h2 : c_run tr cs w = Some (w1, h1) -> c_step tr c w1 = Some (w2, h2) ->
  c_run tr (cs ++ [c]) w = Some (w2, h1 ++ h2).
Proof.
  revert w h1. induction cs as [|x cs IH]; intros w h1 E S; cbn [c_run app] in *.
  - injection E as <- <-. rewrite S. rewrite app_nil_r. reflexivity.
  - destruct (c_step tr x w) as [[w3 h3]|]; [|discriminate E]. destruct (c_run tr cs w3) as [[w4 h4]|] eqn:E4; [|discriminate E].
    injection E as <- <-. rewrite (IH _ _ E4 S). rewrite app_assoc. reflexivity.
Qed.

Lemma visited d cs : forall cs0 w h li ws li', c_run tr cs0 world0 = Some (w, h) -> s_run tr d cs w li = Some (ws, li') ->
  forall w', In w' ws -> exists pre post h', changes cs = pre ++ post /\ c_run tr (cs0 ++ pre) world0 = Some (w', h').
Proof.
  induction cs as [|c cs IH]; intros cs0 w h li ws li' E0 E w' Hw; cbn [s_run] in E.
  - injection E as <- _. destruct Hw as [<-|[]]. exists [], [], h. cbn [app changes flat_map]. rewrite app_nil_r. auto.
  - destruct (s_step tr d c w li) as [[w1 li1]|] eqn:ES; [|discriminate E]. destruct (s_run tr d cs w1 li1) as [[ws1 li2]|] eqn:ER; [|discriminate E].
    injection E as <- _. destruct Hw as [<-|Hw].
    + exists [], (changes (c :: cs)), h. rewrite app_nil_r. auto.
    + destruct c as [c|u|f|f]; cbn [s_step] in ES.
      * destruct (c_step tr c w) as [[w2 h2]|] eqn:EC; [|discriminate ES]. injection ES as <- <-.
        destruct (IH _ _ _ _ _ _ (c_run_snoc _ _ _ _ _ _ _ E0 EC) ER _ Hw) as (pre & post & h' & E1 & E2).
        exists (c :: pre), post, h'. unfold changes in *. cbn [flat_map app]. rewrite E1. split; [reflexivity|]. rewrite <- app_assoc in E2. exact E2.
      * destruct (s_pc li); try discriminate ES. assert (w1 = w) as -> by congruence. exact (IH _ _ _ _ _ _ E0 ER _ Hw).
      * destruct (s_pc li); try discriminate ES. assert (w1 = w) as -> by congruence. exact (IH _ _ _ _ _ _ E0 ER _ Hw).
      * destruct (s_pc li); try discriminate ES. assert (w1 = w) as -> by congruence. exact (IH _ _ _ _ _ _ E0 ER _ Hw).
Qed.

Lemma gentle_pre a b : forall w, gentle_run tr sf (a ++ b) w -> gentle_run tr sf a w.
Proof.
  induction a as [|c a IH]; intros w H; [exact I|]. cbn [app gentle_run] in *. destruct H as [H1 H2]. split; [exact H1|].
  destruct (c_step tr c w) as [[w1 h1]|]; [apply IH; exact H2|exact I].
Qed.
Lemma calm_pre a b : forall w, undisturbed_run tr (a ++ b) w -> undisturbed_run tr a w.
Proof.
  induction a as [|c a IH]; intros w H.
  - cbn [app] in H. destruct b as [|c b]; cbn [undisturbed_run] in *; [exact H|]. split; [apply H|exact I].
  - cbn [app undisturbed_run] in *. destruct H as [H1 H2]. split; [exact H1|].
    destruct (c_step tr c w) as [[w1 h1]|]; [apply IH; exact H2|exact I].
Qed.
Lemma calls_app a b : calls_of (a ++ b) = calls_of a ++ calls_of b.
Proof. unfold calls_of. apply flat_map_app. Qed.
End Visited.

Section Top.
Variable cmac : bytes -> bytes.
Variable keystream : bytes -> nat -> bytes.
Variable blake : bytes -> bytes.
Hypothesis cmac_len : forall m, length (cmac m) = 16.
Hypothesis ks_len : forall iv n, length (keystream iv n) = n.
Hypothesis blake_len : forall m, length (blake m) = 32.
Variable threshold : nat.
Hypothesis Ht : 0 < threshold.
Variable suffix : bytes.
Hypothesis Hs : suffix_ok (effective suffix).
Notation tr := (make_translator cmac keystream blake false threshold suffix None None).
Notation pc := (pcomp cmac keystream blake threshold suffix).
Notation box := (siv_box cmac keystream).

(** ** Every row was written for a name *)
Definition rowed (u l : bytes) : Prop :=
  exists n, n <> [] /\ ~ In slash n /\ threshold < length n /\ u = pc n /\ l = enc32 (box n).
Definition good (m : rowlist) : Prop := forall u l, In (u, l) m -> rowed u l.

Lemma good_put u l m : rowed u l -> good m -> good (update_mapping u l m).
Proof.
  intros H Hm v x. unfold update_mapping. destruct (ent u m) eqn:E; [apply Hm|]. intros [Hx|Hx]; [|apply Hm; exact Hx].
  assert (v = u /\ x = l) as (-> & ->) by (split; congruence). exact H.
Qed.
Lemma good_del u m : good m -> good (remove_mapping u m).
Proof. intros Hm v x H. unfold remove_mapping, ent_del in H. apply filter_In in H. apply Hm, H. Qed.

Inductive edok : prog -> Prop :=
| ok_ret r : edok (PRet r)
| ok_open d next : (forall r, edok (next r)) -> edok (POpen d next)
| ok_edit k f next : (forall m, good m -> good (f m)) -> (forall r, edok (next r)) -> edok (PEdit k f next)
| ok_host call next : (forall r, edok (next r)) -> edok (PHost call next)
| ok_finish k c next : edok next -> edok (PFinish k c next).

Lemma enc_rowed path P l : fuse_path path -> t_encrypt tr path = Ok (P, l) -> l <> [] -> rowed (get_last_component P) l.
Proof.
  intros (names & HF & E) He Hl.
  assert (Hp : LongNameTop.okp (fun _ => True) path).
  { exists names. split; [exact HF|]. split; [apply Forall_forall; auto|exact E]. }
  destruct (top_enc cmac keystream blake cmac_len ks_len blake_len threshold Ht (fun _ => True) suffix Hs path P l Hp He) as [(_ & H)|(_ & (n & _ & Hn & Hsl & Eu & El) & H2)]; [congruence|].
  rewrite (H2 Hl). exists n. split; [exact Hn|]. split; [exact Hsl|]. unfold stored in El. destruct (Nat.ltb_spec threshold (length n)) as [H|H]; [|congruence].
  auto.
Qed.

Lemma process_ok path act cb : fuse_path path -> (forall p next, (forall r, edok (next r)) -> edok (cb p next)) ->
  edok (c_process tr path act cb).
Proof.
  intros Hp Hcb. unfold c_process. destruct (t_encrypt tr path) as [[P [|x l]]|e] eqn:E; [| |apply ok_ret].
  - apply Hcb. apply ok_ret.
  - apply ok_open. intros [k|e]; [|apply ok_ret]. apply ok_edit.
    + intros m Hm. destruct act; cbn [edit_of]; [|apply good_del; exact Hm]. apply good_put; [|exact Hm]. eapply enc_rowed; [exact Hp|exact E|discriminate].
    + intros [[]|e]; [|repeat constructor]. apply Hcb. intros r. repeat constructor.
Qed.
Lemma edit_if_ok l k f next : (l <> [] -> forall m, good m -> good (f m)) -> (forall r, edok (next r)) -> edok (c_edit_if l k f next).
Proof. intros Hf Hn. unfold c_edit_if. destruct l; [apply Hn|]. apply ok_edit; [apply Hf; discriminate|exact Hn]. Qed.

Lemma rename_ok from to bad : fuse_path from -> fuse_path to -> edok (c_rename tr from to bad).
Proof.
  intros Hf Hto. unfold c_rename. destruct (t_encrypt tr from) as [[A la]|e] eqn:EA; [|apply ok_ret].
  destruct (t_encrypt tr to) as [[B lb]|e] eqn:EB; [|destruct la; apply ok_ret].
  assert (G : forall ka kb leave, (forall r, edok (leave r)) -> edok
    (c_edit_if la ka (remove_mapping (get_last_component A)) (fun r => match r with
        | Err e => leave (Err e)
        | Ok _ => c_edit_if lb kb (update_mapping (get_last_component B) lb) (fun r => match r with
            | Err e => leave (Err e)
            | Ok _ => PHost (h_rename bad (comps A) (comps B)) leave end) end))).
  { intros ka kb leave HL. apply edit_if_ok; [intros _ m Hm; apply good_del; exact Hm|]. intros [[]|e]; [|apply HL].
    apply edit_if_ok; [intros Hl m Hm; apply good_put; [exact (enc_rowed _ _ _ Hto EB Hl)|exact Hm]|]. intros [[]|e]; [|apply HL].
    apply ok_host. exact HL. }
  assert (Gl : forall ka kb r, edok (PFinish ka (okb r) (if hpath_eqb (parent (comps A)) (parent (comps B)) then PRet r else PFinish kb (okb r) (PRet r)))).
  { intros ka kb r. apply ok_finish. destruct (hpath_eqb _ _); repeat constructor. }
  destruct la as [|a la], lb as [|b lb]; [apply ok_host; intros r; apply ok_ret| | |];
    (apply ok_open; intros [ka|e]; [|apply ok_ret]; destruct (hpath_eqb (parent (comps A)) (parent (comps B))) eqn:Eh;
     [apply G; intros r; specialize (Gl ka ka r); rewrite ?Eh in *; exact Gl|]; apply ok_open; intros [kb|e]; [|apply ok_ret];
     apply G; intros r; specialize (Gl ka kb r); rewrite ?Eh in *; exact Gl).
Qed.

Lemma start_ok o : Forall fuse_path (op_paths o) -> edok (c_start tr o).
Proof.
  intros HF.
  destruct o as [path creat excl ino bad late|path bad|path ino bad|src dest bad|path bad|path bad|from to bad]; cbn [op_paths] in HF; cbn [c_start].
  - inversion HF as [|? ? H1 _]; subst. destruct creat.
    + apply process_ok; [exact H1|]. intros p next Hn. apply ok_host. exact Hn.
    + destruct (t_encrypt tr path) as [[P l]|e]; [apply ok_host; intros r; apply ok_ret|apply ok_ret].
  - inversion HF as [|? ? H1 _]; subst. apply process_ok; [exact H1|]. intros p next Hn. apply ok_host. exact Hn.
  - inversion HF as [|? ? H1 _]; subst. apply process_ok; [exact H1|]. intros p next Hn. apply ok_host. exact Hn.
  - inversion HF as [|? ? _ H1']; subst. inversion H1' as [|? ? H1 _]; subst. apply process_ok; [exact H1|]. intros p next Hn. apply ok_host. exact Hn.
  - inversion HF as [|? ? H1 _]; subst. apply process_ok; [exact H1|]. intros p next Hn. apply ok_host. exact Hn.
  - inversion HF as [|? ? H1 _]; subst. apply process_ok; [exact H1|]. intros p next Hn. apply ok_host. intros _. apply ok_host. exact Hn.
  - inversion HF as [|? ? H1 H2']; subst. inversion H2' as [|? ? H2 _]; subst. apply rename_ok; assumption.
Qed.

Record rowsok (w : world) : Prop := {
  r_rows : forall k, good (db_rows (w_db w k));
  r_own : forall k t m, db_owner (w_db w k) = Some (t, m) -> good m;
  r_thr : forall t o conns p, w_thr w t = LRun o conns p -> edok p }.

Lemma rowsok0 : rowsok world0.
Proof. constructor; cbn; [intros k u l []|intros k t m H; discriminate H|intros t o conns p H; discriminate H]. Qed.

Lemma set_thr_ok w t x : rowsok w -> (forall o conns p, x = LRun o conns p -> edok p) -> rowsok (set_thr w t x).
Proof.
  intros [H1 H2 H3] Hx. constructor; cbn [set_thr w_db w_thr]; [exact H1|exact H2|]. intros t' o conns p. unfold nupd.
  destruct (t' =? t); [apply Hx|apply H3].
Qed.
Lemma set_db_ok w k x : rowsok w -> good (db_rows x) -> (forall t m, db_owner x = Some (t, m) -> good m) -> rowsok (set_db w k x).
Proof.
  intros [H1 H2 H3] Hr Ho. constructor; cbn [set_db w_db w_thr]; [| |exact H3]; intros k'; unfold nupd; destruct (k' =? k); auto.
  apply H2.
Qed.
Lemma run_ok w t o conns p : rowsok w -> edok p -> rowsok (set_thr w t (LRun o conns p)).
Proof. intros H Hp. apply set_thr_ok; [exact H|]. intros o' c' p' E. assert (p' = p) as -> by congruence. exact Hp. Qed.

Lemma step_ok c w w1 h : rowsok w -> (forall t o, c = Begin t o -> Forall fuse_path (op_paths o)) -> c_step tr c w = Some (w1, h) -> rowsok w1.
Proof.
  intros HI Hb E. destruct c as [t o|t fail|t|]; cbn [c_step] in E.
  - destruct (w_thr w t); [|discriminate E]. assert (w1 = set_thr w t (LRun o [] (c_start tr o))) as -> by congruence.
    apply run_ok; [exact HI|]. apply start_ok. exact (Hb t o eq_refl).
  - destruct (w_thr w t) as [|o conns p] eqn:HT; [discriminate E|]. pose proof (r_thr w HI _ _ _ _ HT) as Hp.
    destruct Hp as [r|d next Hn|k f next Hf Hn|call next Hn|k cm next Hn]; [destruct fail; discriminate E| | | |].
    + destruct fail as [e|]; [assert (w1 = set_thr w t (LRun o conns (next (Err e)))) as -> by congruence; apply run_ok; auto|].
      unfold open_db in E. destruct (w_tree w d) as [es|]; [|assert (w1 = set_thr w t (LRun o conns (next (Err ENOENT)))) as -> by congruence; apply run_ok; auto].
      destruct (ent kLongNameTableFileName es) as [[k| |m]|]; injection E as <- _; apply run_ok; auto.
      destruct HI as [H1 H2 H3]. constructor; cbn [w_db w_thr]; [| |exact H3]; intros k; unfold nupd; destruct (k =? w_next w); auto.
      * intros u l [].
      * intros t' m Hm. discriminate Hm.
      * apply H2.
    + destruct fail as [e|]; [assert (w1 = set_thr w t (LRun o conns (next (Err e)))) as -> by congruence; apply run_ok; auto|].
      destruct (db_owner (w_db w k)) as [[t' m]|] eqn:Eo; [destruct (t' =? t); [|discriminate E]|]; injection E as <- _; apply run_ok; auto;
        apply set_db_ok; auto; cbn [db_rows db_owner]; try apply (r_rows w HI); intros t2 m2 Hm; injection Hm as <- <-; apply Hf; [eapply (r_own w HI); exact Eo|apply (r_rows w HI)].
    + destruct fail; [discriminate E|]. destruct (call (w_tree w)) as [fs r]. injection E as <- _. apply run_ok; [|apply Hn].
      destruct HI as [H1 H2 H3]. constructor; [exact H1|exact H2|exact H3].
    + assert (EE := E). clear E. injection EE as <- _. apply run_ok; [|exact Hn]. pose proof (r_rows w HI k) as HR.
      destruct (db_owner (w_db w k)) as [[t' m]|] eqn:Eo.
      * pose proof (r_own w HI _ _ _ Eo) as HM. destruct (t' =? t); apply set_db_ok; auto; cbn [db_rows db_owner].
        -- destruct (cm && _); assumption.
        -- intros t2 m2 Hm. discriminate Hm.
        -- intros t2 m2 Hm. eapply (r_own w HI); exact Hm.
      * apply set_db_ok; auto. intros t2 m2 Hm. congruence.
  - destruct (w_thr w t) as [|o conns [r| | | |]]; try discriminate E. injection E as <- _. apply set_thr_ok; [exact HI|]. intros o' c' p' H. discriminate H.
  - injection E as <- _. destruct HI as [H1 H2 H3]. constructor; cbn [w_db w_thr db_rows db_owner]; [exact H1|intros k t m H; discriminate H|intros t o conns p H; discriminate H].
Qed.

Lemma runs_ok cs : Forall (fun o => Forall fuse_path (op_paths o)) (calls_of cs) ->
  forall w w1 h, rowsok w -> c_run tr cs w = Some (w1, h) -> rowsok w1.
Proof.
  induction cs as [|c cs IH]; intros HF w w1 h HI E; cbn [c_run] in E.
  - assert (w1 = w) as -> by congruence. exact HI.
  - destruct (c_step tr c w) as [[w2 h2]|] eqn:ES; [|discriminate E]. destruct (c_run tr cs w2) as [[w3 h3]|] eqn:ER; [|discriminate E].
    assert (w3 = w1) as -> by congruence. change (calls_of (c :: cs)) with (calls_of ([c] ++ cs)) in HF. rewrite calls_app in HF. apply Forall_app in HF. destruct HF as [HF1 HF2].
    eapply IH; [exact HF2| |exact ER]. eapply step_ok; [exact HI| |exact ES]. intros t o ->. inversion HF1; assumption.
Qed.

(** ** What an entry shows *)
Lemma sf_ne : effective suffix <> [].
Proof. destruct Hs as ((c & Hc & _) & _). intros E. rewrite E in Hc. destruct Hc. Qed.
Lemma dec_eq u : t_decrypt tr u = new_decrypt cmac keystream (effective suffix) u.
Proof. rewrite make_inner. rewrite (proj2 (Nat.ltb_lt 0 threshold) Ht). reflexivity. Qed.
Lemma dec_nil : t_decrypt tr [] = Ok DInvalid.
Proof.
  rewrite dec_eq. unfold new_decrypt. replace (ends_with [] (effective suffix)) with false; [reflexivity|].
  pose proof sf_ne as H. unfold ends_with. destruct (effective suffix) as [|c s]; [congruence|]. reflexivity.
Qed.
Lemma dec_stored n : n <> [] -> t_decrypt tr (enc32 (box n)) = Ok (DName n).
Proof. intros Hn. rewrite dec_eq. apply new_decrypt_direct; assumption. Qed.
Lemma dec_pc n : n <> [] -> t_decrypt tr (pc n) = if threshold <? length n then Ok DLong else Ok (DName n).
Proof.
  intros Hn. destruct (pc_cases cmac keystream blake cmac_len ks_len blake_len threshold Ht (fun _ => True) suffix n Hn) as [(H & -> & _)|(H & -> & _)].
  - rewrite (proj2 (Nat.ltb_ge _ _) H). apply dec_stored. exact Hn.
  - rewrite (proj2 (Nat.ltb_lt _ _) H). rewrite dec_eq. apply new_decrypt_long.
Qed.

Lemma read_dot u li : u = [dot] \/ u = [dot; dot] -> s_read tr u li = show li u.
Proof. intros [-> | ->]; reflexivity. Qed.
Lemma read_hidden v li : v <> [] -> v <> [dot] -> s_read tr (dot :: v) li = skip li.
Proof.
  intros H1 H2. unfold s_read. replace (bytes_eqb (dot :: v) [dot]) with false by (symmetry; apply bytes_eqb_neq; congruence).
  replace (bytes_eqb (dot :: v) [dot; dot]) with false by (symmetry; apply bytes_eqb_neq; congruence). cbn [orb].
  replace (t_noop tr) with false by (symmetry; apply make_noop). change (Byte.eqb dot dot) with true. reflexivity.
Qed.
Lemma read_TN li : s_read tr TN li = skip li.
Proof. change TN with (dot :: tl TN). apply read_hidden; vm_compute; discriminate. Qed.
Lemma read_pc n li : n <> [] -> s_read tr (pc n) li =
  if threshold <? length n then mkLister (s_conn li) (s_name li) (s_out li) (match s_conn li with Some k => SLook (pc n) k | None => SOpen (pc n) end)
  else show li n.
Proof.
  intros Hn. pose proof (pc_hd cmac keystream blake cmac_len ks_len blake_len threshold suffix Hs n Hn) as Hh. pose proof (dec_pc n Hn) as Hd.
  destruct (pcomp_safe _ _ _ cmac_len ks_len blake_len threshold suffix n (fun _ => Hs) Hn) as (Hne & _). assert (Hne2 : pc n <> []) by (intros E; rewrite E in Hne; cbn in Hne; lia).
  unfold s_read. destruct (pc n) as [|c u]; [congruence|]. change (c <> dot) in Hh.
  replace (bytes_eqb (c :: u) [dot]) with false by (symmetry; apply bytes_eqb_neq; congruence).
  replace (bytes_eqb (c :: u) [dot; dot]) with false by (symmetry; apply bytes_eqb_neq; congruence). cbn [orb].
  replace (t_noop tr) with false by (symmetry; apply make_noop).
  replace (Byte.eqb c dot) with false by (symmetry; destruct (Byte.eqb c dot) eqn:E; [apply Byte.byte_dec_bl in E; congruence|reflexivity]).
  rewrite Hd. destruct (threshold <? length n); reflexivity.
Qed.

(** ** Runs of the listing *)
Section Runs.
Variable d : hpath.
Variable S : list world.

Lemma looked_row w li u k : good (db_rows (w_db w k)) ->
  (s_looked tr None u k w li = skip li /\ ent u (db_rows (w_db w k)) = None) \/
  exists n, n <> [] /\ ~ In slash n /\ u = pc n /\ ent u (db_rows (w_db w k)) = Some (enc32 (box n)) /\ s_looked tr None u k w li = show li n.
Proof.
  intros HG. unfold s_looked. destruct (ent u (db_rows (w_db w k))) as [l|] eqn:E.
  - right. destruct (HG u l (ent_in _ _ _ E)) as (n & Hn & Hsl & _ & Eu & El). exists n. subst l. rewrite dec_stored by exact Hn. auto.
  - left. rewrite dec_nil. auto.
Qed.

Definition kinds (occ : bytes -> Prop) (w : world) : Prop :=
  (forall u, has d w u -> u = TN \/ exists n, occ n /\ u = pc n) /\ forall k, good (db_rows (w_db w k)).
Definition nice (n : bytes) : Prop := n <> [] /\ ~ In slash n.

Definition shown_ok (li : lister) : Prop :=
  (forall n, In n (s_out li) -> n = [dot] \/ n = [dot; dot] \/ (nice n /\ exists w', In w' S /\ has d w' (pc n))) /\
  match s_pc li with SReady => True | SOpen u | SLook u _ => exists w', In w' S /\ has d w' u end.

Lemma shown_show li n : shown_ok li -> n = [dot] \/ n = [dot; dot] \/ (nice n /\ exists w', In w' S /\ has d w' (pc n)) -> shown_ok (show li n).
Proof.
  intros [H1 _] Hn. split; [|exact I]. intros m Hm. cbn [show s_out] in Hm. apply in_app_or in Hm. destruct Hm as [Hm|[<-|[]]]; [apply H1; exact Hm|exact Hn].
Qed.
Lemma shown_skip li : shown_ok li -> shown_ok (skip li).
Proof. intros [H1 _]. split; [exact H1|exact I]. Qed.

Lemma only_run cs : forall past w li ws li', s_run tr d cs w li = Some (ws, li') -> Forall (kinds nice) S ->
  incl past S -> incl ws S -> given_seen tr d past cs w li -> shown_ok li -> shown_ok li'.
Proof.
  induction cs as [|c cs IH]; intros past w li ws li' E HS HP HW HG HI; cbn [s_run] in E.
  - assert (li' = li) as -> by congruence. exact HI.
  - destruct (s_step tr d c w li) as [[w1 li1]|] eqn:ES; [|discriminate E]. destruct (s_run tr d cs w1 li1) as [[ws1 li2]|] eqn:ER; [|discriminate E].
    assert (ws = w :: ws1 /\ li2 = li') as (-> & ->) by (split; congruence). cbn [given_seen] in HG. rewrite ES in HG. destruct HG as [HG1 HG2].
    assert (Hw : In w S) by (apply HW; left; reflexivity). pose proof (proj1 (Forall_forall _ _) HS) as HS'.
    eapply IH; [exact ER|exact HS| | |exact HG2|].
    + intros x [<-|Hx]; [exact Hw|apply HP; exact Hx].
    + intros x Hx. apply HW. right. exact Hx.
    + destruct c as [c|u|f|f]; cbn [s_step] in ES.
      * destruct (c_step tr c w) as [[w2 h2]|]; [|discriminate ES]. assert (li1 = li) as -> by congruence. exact HI.
      * destruct (s_pc li) eqn:Ep; try discriminate ES. assert (li1 = s_read tr u li) as -> by congruence.
        destruct HG1 as [Hd|[Hd|(w' & Hw' & Hh)]]; [rewrite read_dot by auto; apply shown_show; auto|rewrite read_dot by auto; apply shown_show; auto|].
        assert (HwS : In w' S) by (destruct Hw' as [<-|Hw']; [exact Hw|apply HP; exact Hw']).
        destruct (proj1 (HS' w' HwS) u Hh) as [-> |(n & (Hn & Hsl) & ->)]; [rewrite read_TN; apply shown_skip; exact HI|].
        rewrite read_pc by exact Hn. destruct (threshold <? length n).
        -- split; [exact (proj1 HI)|]. cbn [s_pc]. destruct (s_conn li); exists w'; auto.
        -- apply shown_show; [exact HI|]. right; right. split; [split; assumption|]. exists w'. auto.
      * destruct (s_pc li) as [|u|u k] eqn:Ep; try discriminate ES. assert (li1 = s_opened d f u w li) as -> by congruence.
        pose proof (proj2 HI) as HU. rewrite Ep in HU. unfold s_opened. destruct f; [apply shown_skip; exact HI|].
        destruct (w_tree w d) as [es|]; [|apply shown_skip; exact HI]. destruct (ent kLongNameTableFileName es) as [[k| |m]|]; try (apply shown_skip; exact HI).
        split; [exact (proj1 HI)|exact HU].
      * destruct (s_pc li) as [|u|u k] eqn:Ep; try discriminate ES. assert (li1 = s_looked tr f u k w li) as -> by congruence.
        pose proof (proj2 HI) as HU. rewrite Ep in HU. destruct f; [apply shown_skip; exact HI|].
        destruct (looked_row w li u k (proj2 (HS' w Hw) k)) as [(-> & _)|(n & Hn & Hsl & -> & _ & ->)]; [apply shown_skip; exact HI|].
        apply shown_show; [exact HI|]. right; right. split; [split; assumption|exact HU].
Qed.

(** *** A name that is there all the time *)
Variable occ : bytes -> Prop.
Hypothesis occ_nice : forall n, occ n -> nice n.
Variable name : bytes.
Hypothesis name_inj : forall m, occ m -> pc m = pc name -> m = name.
Hypothesis name_ne : name <> [].
Hypothesis not_dot : name <> [dot] /\ name <> [dot; dot].
Notation cnt := (count_occ (list_eq_dec Byte.byte_eq_dec)).

Definition in_table (w : world) : Prop :=
  threshold < length name -> exists es k, w_tree w d = Some es /\ ent TN es = Some (KFile k) /\ ent (pc name) (db_rows (w_db w k)) = Some (enc32 (box name)).
Definition pend (li : lister) : nat :=
  match s_pc li with SReady => 0 | SOpen u | SLook u _ => if bytes_eqb u (pc name) then 1 else 0 end.
Definition conn_ok (li : lister) : Prop :=
  (forall k, s_conn li = Some k -> exists w' es, In w' S /\ w_tree w' d = Some es /\ ent TN es = Some (KFile k)) /\
  match s_pc li with SReady => True | SOpen u => True | SLook u k => s_conn li = Some k end /\
  (pend li = 1 -> threshold < length name).

Lemma cnt_show li n : cnt (s_out (show li n)) name = cnt (s_out li) name + if bytes_eqb n name then 1 else 0.
Proof.
  cbn [show s_out]. rewrite count_occ_app. cbn [count_occ]. destruct (list_eq_dec Byte.byte_eq_dec n name) as [->|H].
  - rewrite bytes_eqb_refl. reflexivity.
  - rewrite (proj2 (bytes_eqb_neq n name) H). reflexivity.
Qed.
Lemma conn_show li n : conn_ok li -> conn_ok (show li n).
Proof. intros (H1 & _). split; [exact H1|]. split; [exact I|]. cbn. discriminate. Qed.
Lemma conn_skip li : conn_ok li -> conn_ok (skip li).
Proof. intros (H1 & _). split; [exact H1|]. split; [exact I|]. cbn. discriminate. Qed.
Lemma pc_not_dot n : n <> [] -> pc n <> [dot] /\ pc n <> [dot; dot] /\ pc n <> TN.
Proof.
  intros Hn. pose proof (pc_hd cmac keystream blake cmac_len ks_len blake_len threshold suffix Hs n Hn) as Hh.
  repeat split; intros E; apply Hh; rewrite E; reflexivity.
Qed.

Lemma shown_run cs : forall past w li ws li', s_run tr d cs w li = Some (ws, li') ->
  Forall (fun w => kinds occ w /\ in_table w) S -> table_kept d S -> no_failure cs ->
  incl past S -> incl ws S -> given_seen tr d past cs w li -> conn_ok li ->
  conn_ok li' /\ cnt (s_out li') name + pend li' = cnt (s_out li) name + pend li + cnt (reads cs) (pc name).
Proof.
  induction cs as [|c cs IH]; intros past w li ws li' E HS HK HN HP HW HG HI; cbn [s_run] in E.
  - assert (li' = li) as -> by congruence. split; [exact HI|]. cbn. lia.
  - destruct (s_step tr d c w li) as [[w1 li1]|] eqn:ES; [|discriminate E]. destruct (s_run tr d cs w1 li1) as [[ws1 li2]|] eqn:ER; [|discriminate E].
    assert (ws = w :: ws1 /\ li2 = li') as (-> & ->) by (split; congruence). cbn [given_seen] in HG. rewrite ES in HG. destruct HG as [HG1 HG2].
    assert (Hw : In w S) by (apply HW; left; reflexivity). pose proof (proj1 (Forall_forall _ _) HS) as HS'.
    inversion HN as [|? ? HN1 HN2]; subst.
    assert (ST : conn_ok li1 /\ cnt (s_out li1) name + pend li1 = cnt (s_out li) name + pend li + cnt (reads [c]) (pc name)).
    { destruct c as [c|u|f|f]; cbn [s_step] in ES.
      * destruct (c_step tr c w) as [[w2 h2]|]; [|discriminate ES]. assert (li1 = li) as -> by congruence. split; [exact HI|]. cbn. lia.
      * destruct (s_pc li) eqn:Ep; try discriminate ES. assert (li1 = s_read tr u li) as -> by congruence.
        assert (P0 : pend li = 0) by (unfold pend; rewrite Ep; reflexivity). rewrite P0.
        assert (RC : cnt (reads [SRead u]) (pc name) = if bytes_eqb u (pc name) then 1 else 0).
        { cbn [reads flat_map app count_occ]. destruct (list_eq_dec Byte.byte_eq_dec u (pc name)) as [->|H]; [rewrite bytes_eqb_refl; reflexivity|].
          rewrite (proj2 (bytes_eqb_neq _ _) H). reflexivity. }
        rewrite RC. clear RC. pose proof (pc_not_dot name name_ne) as (D1 & D2 & D3).
        destruct (bytes_dec u [dot]) as [->|N1]; [|destruct (bytes_dec u [dot; dot]) as [->|N2]].
        -- rewrite read_dot by auto. split; [apply conn_show; exact HI|]. rewrite cnt_show.
           rewrite (proj2 (bytes_eqb_neq [dot] name)) by (intros H; apply (proj1 not_dot); auto).
           rewrite (proj2 (bytes_eqb_neq [dot] (pc name))) by congruence. cbn. lia.
        -- rewrite read_dot by auto. split; [apply conn_show; exact HI|]. rewrite cnt_show.
           rewrite (proj2 (bytes_eqb_neq [dot; dot] name)) by (intros H; apply (proj2 not_dot); auto).
           rewrite (proj2 (bytes_eqb_neq [dot; dot] (pc name))) by congruence. cbn. lia.
        -- destruct HG1 as [Hd|[Hd|(w' & Hw' & Hh)]]; [congruence|congruence|].
           assert (HwS : In w' S) by (destruct Hw' as [<-|Hw']; [exact Hw|apply HP; exact Hw']).
           destruct (proj1 (proj1 (HS' w' HwS)) u Hh) as [-> |(m & Hm & ->)].
           ++ rewrite read_TN. split; [apply conn_skip; exact HI|]. rewrite (proj2 (bytes_eqb_neq TN (pc name))) by congruence. cbn. lia.
           ++ assert (EB : bytes_eqb (pc m) (pc name) = bytes_eqb m name).
              { destruct (bytes_eqb m name) eqn:B; [apply bytes_eqb_eq in B; subst m; apply bytes_eqb_refl|].
                apply bytes_eqb_neq. intros H. apply (proj1 (bytes_eqb_neq m name) B). apply name_inj; assumption. }
              rewrite EB. rewrite read_pc by apply (occ_nice m Hm). destruct (Nat.ltb_spec threshold (length m)) as [HL|HL].
              ** assert (PP : forall x, pend (mkLister x (s_name li) (s_out li) match x with Some k => SLook (pc m) k | None => SOpen (pc m) end) = if bytes_eqb m name then 1 else 0)
                   by (intros [k|]; unfold pend; cbn [s_pc]; rewrite EB; reflexivity).
                 split; [|rewrite PP; cbn [s_out]; lia]. split; [exact (proj1 HI)|]. split; [cbn [s_pc s_conn]; destruct (s_conn li); auto|].
                 rewrite PP. destruct (bytes_eqb m name) eqn:B; [|discriminate]. intros _. apply bytes_eqb_eq in B. subst m. exact HL.
              ** split; [apply conn_show; exact HI|]. rewrite cnt_show. cbn [show pend s_pc]. lia.
      * destruct (s_pc li) as [|u|u k] eqn:Ep; try discriminate ES. destruct f; [destruct HN1|].
        assert (li1 = s_opened d None u w li) as -> by congruence. unfold s_opened.
        assert (Pu : pend li = if bytes_eqb u (pc name) then 1 else 0) by (unfold pend; rewrite Ep; reflexivity).
        assert (SK : w_tree w d = None \/ (exists es, w_tree w d = Some es /\ forall k, ent TN es <> Some (KFile k)) ->
          conn_ok (skip li) /\ cnt (s_out (skip li)) name + pend (skip li) = cnt (s_out li) name + pend li + cnt (reads [SOpened None]) (pc name)).
        { intros HX. split; [apply conn_skip; exact HI|]. destruct (bytes_eqb u (pc name)) eqn:B.
          - exfalso. destruct (proj2 (HS' w Hw) (proj2 (proj2 HI) Pu)) as (es & k & E1 & E2 & _).
            destruct HX as [HX|(es' & E1' & HX)]; [congruence|]. apply (HX k). congruence.
          - rewrite Pu. cbn. lia. }
        destruct (w_tree w d) as [es|] eqn:Ed; [|apply SK; auto].
        destruct (ent kLongNameTableFileName es) as [[k| |m]|] eqn:Et;
          [|apply SK; right; exists es; split; [reflexivity|intros k; change TN with kLongNameTableFileName; congruence]..].
        assert (PP : pend (mkLister (Some k) (s_name li) (s_out li) (SLook u k)) = pend li) by (unfold pend; rewrite Ep; reflexivity).
        split; [|rewrite PP; cbn; lia]. split; [|split; [reflexivity|rewrite PP; exact (proj2 (proj2 HI))]].
        cbn [s_conn]. intros k' Hk. assert (k' = k) as -> by congruence. exists w, es. auto.
      * destruct (s_pc li) as [|u|u k] eqn:Ep; try discriminate ES. destruct f; [destruct HN1|].
        assert (li1 = s_looked tr None u k w li) as -> by congruence.
        assert (Pu : pend li = if bytes_eqb u (pc name) then 1 else 0) by (unfold pend; rewrite Ep; reflexivity).
        assert (RW : u = pc name -> ent u (db_rows (w_db w k)) = Some (enc32 (box name))).
        { intros ->. rewrite bytes_eqb_refl in Pu. destruct (proj2 (HS' w Hw) (proj2 (proj2 HI) Pu)) as (es & k' & E1 & E2 & E3).
          pose proof (proj1 (proj2 HI)) as HC. rewrite Ep in HC. destruct (proj1 HI k HC) as (w' & es' & Hw' & F1 & F2).
          rewrite (HK w w' es es' k' k Hw Hw' E1 F1 E2 F2) in E3. exact E3. }
        destruct (looked_row w li u k (proj2 (proj1 (HS' w Hw)) k)) as [(-> & Hr)|(n & Hn & Hsl & Eu & Hr & ->)].
        -- split; [apply conn_skip; exact HI|]. rewrite Pu. destruct (bytes_eqb u (pc name)) eqn:B; [|cbn; lia].
           apply bytes_eqb_eq in B. rewrite (RW B) in Hr. discriminate Hr.
        -- split; [apply conn_show; exact HI|]. rewrite cnt_show, Pu. destruct (bytes_eqb u (pc name)) eqn:B.
           ++ apply bytes_eqb_eq in B. rewrite (RW B) in Hr.
              assert (n = name) as ->. { assert (EX : enc32 (box n) = enc32 (box name)) by congruence. pose proof (dec_stored n Hn) as D1. rewrite EX, (dec_stored name name_ne) in D1. congruence. }
              rewrite bytes_eqb_refl. cbn. lia.
           ++ rewrite (proj2 (bytes_eqb_neq n name)); [cbn; lia|]. intros ->. apply (proj1 (bytes_eqb_neq _ _) B). exact Eu. }
    destruct ST as [ST1 ST2].
    destruct (IH (w :: past) w1 li1 ws1 li' ER HS HK HN2) as [R1 R2].
    + intros x [<-|Hx]; [exact Hw|apply HP; exact Hx].
    + intros x Hx. apply HW. right. exact Hx.
    + exact HG2.
    + exact ST1.
    + split; [exact R1|]. rewrite R2, ST2. change (c :: cs) with ([c] ++ cs). unfold reads. rewrite flat_map_app, count_occ_app. lia.
Qed.
End Runs.
End Top.
