(** One call after another: the answers of the repository are those of the map. *)
From Coq Require Import Strings.String Lia Permutation.
From Verif Require Import Base BaseLemmas TextModel NameModel StreamSpec AttrModel AttrProofs FullStreamModel FullStreamProofs BtreeModel BtreeSpec BtreeInsert FullFsModel FullFsSpec FullFsProofs FullFsPath FullFsInv FullFsStep
  ObjModel ObjProofs RepoModel RepoSpec FsConcModel FsConcSpec FsConcProofs FsConcSafe FsConcSeq RepoProofs RepoSim RepoOps RepoRun.
Local Open Scope list_scope.

(** ** A call adds at most two names to a directory *)
Definition cap (M : N) (st : ffs) : Prop := forall id nd, get st id = Some nd -> (N.of_nat (length (i_dir nd)) <= M)%N.
Lemma cap_le M M' st : (M <= M')%N -> cap M st -> cap M' st.
Proof. intros HM H id nd Hg. specialize (H id nd Hg). lia. Qed.
Lemma cap_put M st id nd : cap M st -> (N.of_nat (length (i_dir nd)) <= M)%N -> cap M (put st id nd).
Proof. intros H Hn x n. rewrite get_put. destruct (bytes_eqb id x); [now intros [= <-]|apply H]. Qed.
Lemma cap_nodes M st st' : nodes st' = nodes st -> cap M st -> cap M st'.
Proof. intros Hn H id nd Hg. apply (H id). unfold get in *. now rewrite Hn in Hg. Qed.
Lemma cap_same M st id nd nd' : cap M st -> get st id = Some nd -> i_dir nd' = i_dir nd -> cap M (put st id nd').
Proof. intros H Hg Hd. apply cap_put; [exact H|]. rewrite Hd. exact (H id nd Hg). Qed.
Lemma nget_ndel_some id x l nd : nget x (ndel id l) = Some nd -> nget x l = Some nd.
Proof. destruct (dec_bytes id x) as [<-|Hne]; [rewrite nget_del_eq; discriminate|now rewrite nget_del_ne]. Qed.
Lemma cap_drop M id st : cap M st -> cap M (drop_ref id st).
Proof.
  intros H. unfold drop_ref, finish. cbn [opened]. assert (H' : cap M (mkFfs (nodes st) (remove_one id (opened st)))) by now apply (cap_nodes M st).
  destruct (_ || _); [exact H'|]. destruct (get _ _) as [nd|] eqn:Eg; [|exact H']. destruct (_ =? _)%N; [|exact H'].
  intros x n Hx. apply (H x). unfold get in *. cbn [nodes] in *. now apply nget_ndel_some in Hx.
Qed.
Lemma cap_parent M id p st : cap M st -> cap M (FullFsModel.set_parent id p st).
Proof. intros H. unfold FullFsModel.set_parent. destruct (get st id) as [nd|] eqn:Eg; [|exact H]. now apply (cap_same M st id nd). Qed.
Lemma cap_down M id st : cap M st -> cap M (count_down id st).
Proof. intros H. unfold count_down. destruct (get st id) as [nd|] eqn:Eg; [|exact H]. now apply (cap_same M st id nd). Qed.
Lemma cast_get want h st nd : cast_as want h st = Ok nd -> get st (fst h) = Some nd.
Proof. unfold cast_as. destruct (get st (fst h)); [|discriminate]. destruct (_ =? _)%N; [|discriminate]. destruct (_ =? _)%N; congruence. Qed.

Section Alone.
Variable E : senv.
Hypothesis HE : senv_ok E.
Notation cmp := (v_cmp E).
Notation RR := (RR E).

Lemma cap_add M h name id ty st : cap M st -> cap (M + 1) (fst (FullFsModel.add_entry cmp h name id ty st)).
Proof.
  intros H. assert (H' : cap (M + 1) st) by (apply (cap_le M); [lia|exact H]). unfold FullFsModel.add_entry.
  destruct (cast_as TDIR h st) as [nd|e] eqn:Ec; cbn [fst]; [|exact H']. apply cast_get in Ec. pose proof (H _ _ Ec) as Hl. cbn [dspec_step].
  destruct (name_too_long name); cbn [fst]; [exact H'|]. destruct (find_name cmp name (i_dir nd)); cbn [fst]; apply cap_put; auto; cbn [with_dir i_dir length]; lia.
Qed.
Lemma drop_name_length name m : length (drop_name cmp name m) <= length m.
Proof. unfold drop_name. induction m as [|e m IH]; cbn [filter length]; [lia|]. destruct (negb _); cbn [length]; lia. Qed.
Lemma cap_remove M h name st : cap M st -> cap M (fst (FullFsModel.remove_entry cmp h name st)).
Proof.
  intros H. unfold FullFsModel.remove_entry. destruct (cast_as TDIR h st) as [nd|e] eqn:Ec; cbn [fst]; [|exact H]. apply cast_get in Ec. pose proof (H _ _ Ec) as Hl. cbn [dspec_step].
  destruct (name_too_long name); cbn [fst]; [exact H|]. apply cap_put; [exact H|]. cbn [with_dir i_dir]. pose proof (drop_name_length name (i_dir nd)). lia.
Qed.
Lemma cap_link M h base name st : cap M st -> cap (M + 1) (fst (link_step cmp h base name st)).
Proof.
  intros H. unfold link_step. destruct (get st (fst h)) as [nd|] eqn:Eg; [|apply (cap_le M); [lia|exact H]].
  pose proof (cap_add M base name (fst h) (i_type nd) st H) as Ha. destruct (FullFsModel.add_entry _ _ _ _ _ _) as [st3 [[]|]]; cbn [fst] in *; try exact Ha.
  destruct (get st3 (fst h)) as [nd3|] eqn:E3; cbn [fst]; [|exact Ha]. now apply (cap_same _ st3 _ nd3).
Qed.
Lemma cap_rename M bf bt lf lt st : cap M st -> cap (M + 2) (fst (rename_step cmp bf bt lf lt st)).
Proof.
  intros H. unfold rename_step. pose proof (cap_remove M bf lf st H) as H3. destruct (FullFsModel.remove_entry _ bf _ _) as [st3 [[ef|]|]]; cbn [fst] in *; try (apply (cap_le M); [lia|exact H3]).
  pose proof (cap_remove M bt lt st3 H3) as H4. destruct (FullFsModel.remove_entry _ bt _ _) as [st4 [[et|]|]]; cbn [fst] in *; try (apply (cap_le M); [lia|exact H4]).
  - destruct (bytes_eqb _ _).
    + pose proof (cap_add M bf lf (e_id ef) (e_type ef) st4 H4) as H5. destruct (FullFsModel.add_entry _ bf _ _ _ _) as [st5 [b|]]; cbn [fst] in *; [|apply (cap_le (M + 1)); [lia|exact H5]].
      pose proof (cap_add _ bt lt (e_id et) (e_type et) st5 H5) as H6. destruct (FullFsModel.add_entry _ bt _ _ _ _) as [st6 [b'|]]; cbn [fst] in *; (apply (cap_le (M + 1 + 1)); [lia|exact H6]).
    + pose proof (cap_add M bt lt (e_id ef) (e_type ef) st4 H4) as H5. destruct (FullFsModel.add_entry _ bt _ _ _ _) as [st5 [b|]]; cbn [fst] in *; (apply (cap_le (M + 1)); [lia|exact H5]).
  - pose proof (cap_add M bt lt (e_id ef) (e_type ef) st4 H4) as H5. destruct (FullFsModel.add_entry _ bt _ _ _ _) as [st5 [b|]]; cbn [fst] in *; (apply (cap_le (M + 1)); [lia|exact H5]).
Qed.

(** The program adds at most [k] names to a directory. *)
Fixpoint grows {A} (k : N) (p : prog A) {struct p} : Prop :=
  match p with
  | PRet _ => True
  | PStep u n => exists j, (j <= k)%N /\ (forall M st, cap M st -> cap (M + j) (u st)) /\ forall st, grows (k - j) (n st)
  end.
Lemma grows_le {A} (p : prog A) : forall k k', (k <= k')%N -> grows k p -> grows k' p.
Proof.
  induction p as [a|u n IH]; intros k k' Hk; cbn [grows]; [auto|]. intros (j & Hj & Hu & Hn). exists j. split; [lia|]. split; [exact Hu|]. intros st. apply (IH st (k - j)%N); [lia|apply Hn].
Qed.
Lemma grows_bind {A B} (p : prog A) (f : A -> prog B) : forall j k, grows j p -> (forall a, grows k (f a)) -> grows (j + k) (bind p f).
Proof.
  induction p as [a|u n IH]; intros j k Hp Hf; cbn [grows bind] in *.
  - apply (grows_le _ k); [lia|apply Hf].
  - destruct Hp as (i & Hi & Hu & Hn). exists i. split; [lia|]. split; [exact Hu|]. intros st. replace (j + k - i)%N with (j - i + k)%N by lia. apply IH; [apply Hn|exact Hf].
Qed.
Lemma grows_bind0 {A B} (p : prog A) (f : A -> prog B) k : grows 0 p -> (forall a, grows k (f a)) -> grows k (bind p f).
Proof. intros H1 H2. exact (grows_bind p f 0 k H1 H2). Qed.
Lemma grows_do {A} (f : ffs -> ffs * A) k : (forall M st, cap M st -> cap (M + k) (fst (f st))) -> grows k (p_do f).
Proof. intros H. cbn [p_do grows]. exists k. split; [lia|]. split; [exact H|]. intros st. exact I. Qed.
Lemma grows_do0 {A} (f : ffs -> ffs * A) : (forall M st, cap M st -> cap M (fst (f st))) -> grows 0 (p_do f).
Proof. intros H. apply grows_do. intros M st Hc. rewrite N.add_0_r. now apply H. Qed.
Lemma grows_ask {A} (f : ffs -> A) : grows 0 (p_ask f).
Proof. apply grows_do0. auto. Qed.
Lemma grows_open id ty : grows 0 (p_open id ty).
Proof. apply grows_do0. intros M st H. destruct (open_as id ty st); cbn [fst]; [now apply (cap_nodes M st)|exact H]. Qed.
Lemma grows_drop id : grows 0 (p_drop id).
Proof. apply grows_do0. intros M st H. now apply cap_drop. Qed.
Lemma grows_parent id p : grows 0 (p_set_parent id p).
Proof. apply grows_do0. intros M st H. now apply cap_parent. Qed.
Lemma grows_count id : grows 0 (p_do (fun st => (count_down id st, tt))).
Proof. apply grows_do0. intros M st H. now apply cap_down. Qed.
Lemma grows_leave {A} k ids (a : A) : grows k (leave ids a).
Proof. induction ids as [|x ids IH]; cbn [leave]; [exact I|]. apply grows_bind0; [apply grows_drop|auto]. Qed.

Ltac g := repeat first
  [ exact I | apply grows_leave | apply grows_ask | apply grows_open | apply grows_drop | apply grows_parent | apply grows_count
  | match goal with
    | |- grows _ (bind (p_ask _) _) => apply grows_bind0; [apply grows_ask|intros ?]
    | |- grows _ (bind (p_open _ _) _) => apply grows_bind0; [apply grows_open|intros ?]
    | |- grows _ (bind (p_drop _) _) => apply grows_bind0; [apply grows_drop|intros ?]
    | |- grows _ (bind (p_set_parent _ _) _) => apply grows_bind0; [apply grows_parent|intros ?]
    | |- grows _ (match ?x with _ => _ end) => destruct x
    end ].
Lemma grows_walk k : forall splits pid h, grows 0 (c_open cmp k splits pid h).
Proof.
  induction k as [|k IHk]; [intros; apply grows_leave|]. induction splits as [|s ss IH]; intros pid h; [exact I|].
  change (c_open cmp (S k) (s :: ss) pid h) with
    (if bytes_eqb s (str ".") then c_open cmp (S k) ss pid h
     else if bytes_eqb s (str "..") then
       bind (p_ask (fun st => match get st (fst h) with Some nd => Ok (i_parent nd) | None => Err EUndef end)) (fun up =>
       match up with
       | Err e => leave [fst h] (Err e)
       | Ok pid => bind (p_open pid TDIR) (fun o => match o with Err e => leave [fst h] (Err e) | Ok h' => bind (p_drop (fst h)) (fun _ => c_open cmp (S k) ss pid h') end)
       end)
     else bind (p_ask (FullFsModel.get_entry cmp h s)) (fun found =>
       match found with
       | Err e => leave [fst h] (Err e)
       | Ok None => leave [fst h] (Ok None)
       | Ok (Some e) =>
         bind (p_open (e_id e) (e_type e)) (fun o =>
         match o with
         | Err er => leave [fst h] (Err er)
         | Ok child =>
           bind (p_set_parent (e_id e) pid) (fun _ =>
           if (e_type e =? TLINK)%N then
             bind (p_ask (fun st => rmap i_data (cast_as TLINK child st))) (fun target =>
             match target with
             | Err er => leave [fst child; fst h] (Err er)
             | Ok t =>
               bind (c_open cmp k (path_comps t) pid h) (fun r =>
               match r with
               | Ok (Some h') => bind (p_drop (fst child)) (fun _ => c_open cmp (S k) ss (fst h') h')
               | Ok None => leave [fst child] (Ok None)
               | Err er => leave [fst child] (Err er)
               end)
             end)
           else bind (p_drop (fst h)) (fun _ => c_open cmp (S k) ss (fst child) child))
         end)
       end)).
  g; try apply IH. apply grows_bind0; [apply IHk|]. intros r. g. apply IH.
Qed.
Lemma grows_base path : grows 0 (c_base cmp path).
Proof. unfold c_base. g. apply grows_bind0; [apply grows_walk|]. intros r. g. Qed.
Lemma grows_all path follow : grows 0 (c_all cmp path follow).
Proof.
  unfold c_all. destruct (_ || _); [g|]. apply grows_bind0; [apply grows_base|]. intros r. destruct r as [[base name]|e]; [|exact I]. g. apply grows_bind0; [apply grows_walk|]. intros r. g.
Qed.
Lemma grows_create path perm ty newid bad : grows 1 (c_create cmp path perm ty newid bad).
Proof.
  unfold c_create. apply grows_bind0; [apply grows_base|]. intros r. destruct r as [[base name]|e]; [|exact I]. apply grows_bind0.
  - apply grows_do0. intros M st H. destruct bad; [exact H|]. destruct (get st newid) eqn:Eg; [exact H|]. cbn [fst]. apply (cap_nodes M (put st newid (mkInode (perm mod 512 + ty * 4096)%N 1 [] [] root_id))); [reflexivity|].
    apply cap_put; [exact H|]. cbn. lia.
  - intros c. destruct c as [[]|e]; [|apply grows_leave]. apply (grows_bind _ _ 1 0); [apply grows_do; intros M st H; now apply cap_add|]. intros a. destruct a as [[]|e]; g.
    apply grows_bind0; [apply grows_count|]. intros []. g.
Qed.
Lemma grows_path path follow f : (forall h M st, cap M st -> cap M (fst (f h st))) -> grows 2 (with_path cmp path follow f).
Proof.
  intros H. unfold with_path. apply grows_bind0; [apply grows_all|]. intros r. destruct r as [[h|]|e]; try exact I. apply grows_bind0; [apply grows_do0, H|]. intros a. g.
Qed.
Lemma cap_cast {X} M want h st (f : inode -> inode) : (forall nd, i_dir (f nd) = i_dir nd) -> cap M st -> forall r : res X, cap M (fst (match cast_as want h st with Err e => (st, Err e) | Ok nd => (put st (fst h) (f nd), r) end)).
Proof. intros Hf H r. destruct (cast_as want h st) as [nd|] eqn:Ec; cbn [fst]; [|exact H]. apply cast_get in Ec. now apply (cap_same M st _ nd). Qed.
Lemma grows_remove b path : grows 2 (c_remove cmp b path).
Proof.
  unfold c_remove. apply grows_bind0; [apply grows_base|]. intros r. destruct r as [[base name]|e]; [|exact I]. apply grows_bind0; [apply grows_do0; intros M st H; now apply cap_remove|].
  intros x. destruct x as [[e|]|e]; g. apply grows_bind0; [|intros r; g]. apply grows_do0. intros M st H. destruct b; [|now apply cap_down].
  destruct (cast_as TDIR _ st) as [nd|]; [|exact H]. destruct (i_dir nd); [now apply cap_down|exact H].
Qed.
Lemma grows_body o : in_step o -> grows 2 (body cmp o).
Proof.
  intros Hi. destruct o; cbn [body]; try contradiction.
  - apply (grows_bind _ _ 1 1); [apply grows_create|]. intros r. exact I.
  - apply (grows_bind _ _ 1 1); [apply grows_create|]. intros r. destruct r; [g|exact I].
  - apply (grows_bind _ _ 1 1); [apply grows_create|]. intros r. destruct r as [h|]; [|exact I]. apply grows_bind0; [|intros a; g].
    apply grows_do0. intros M st H. apply (cap_cast M TLINK h st (fun nd => with_data (arr_write (i_data nd) 0 target) nd)); auto.
  - unfold c_link. apply grows_bind0; [apply grows_all|]. intros r. destruct r as [[h|]|e]; try exact I. apply grows_bind0; [apply grows_base|]. intros b. destruct b as [[base name]|e]; [|apply grows_leave].
    apply (grows_bind _ _ 1 1); [apply grows_do; intros M st H; now apply cap_link|]. intros a. g.
  - now apply grows_remove.
  - now apply grows_remove.
  - unfold c_rename. apply grows_bind0; [apply grows_base|]. intros b. destruct b as [[bf lf]|e]; [|exact I]. apply grows_bind0; [apply grows_base|]. intros b. destruct b as [[bt lt]|e]; [|apply grows_leave].
    apply (grows_bind _ _ 2 0); [apply grows_do; intros M st H; now apply cap_rename|]. intros a. destruct a as [[et|]|e]; g. apply grows_bind0; [apply grows_count|]. intros []. g.
  - apply grows_bind0; [apply grows_all|]. intros r. destruct r as [[h|]|e]; try exact I. destruct trunc; [|exact I]. apply grows_bind0; [|intros a; g].
    apply grows_do0. intros M st H. apply (cap_cast M TREG h st (fun nd => with_data [] nd)); auto.
  - apply grows_bind0; [apply grows_all|]. intros r. destruct r as [[h|]|e]; g.
  - g.
  - apply grows_path. intros h M st H. apply (cap_cast M TREG h st (fun nd => with_data (firstn len (i_data nd ++ repeat x00 (len - length (i_data nd)))) nd)); auto.
  - apply grows_path. intros h M st H. destruct (get st (fst h)) as [nd|] eqn:Eg; cbn [fst]; [|exact H]. now apply (cap_same M st _ nd).
  - apply grows_path. intros h M st H. exact H.
  - apply grows_path. intros h M st H. exact H.
Qed.

(** ** A call that nothing interrupts *)
Lemma dirs_cap k st : (N.of_nat k <= MAX_ENTRIES)%N -> dirs_fit k st <-> cap (MAX_ENTRIES - N.of_nat k) st.
Proof. intros Hk. unfold dirs_fit, cap. split; intros H id nd Hg; specialize (H id nd Hg); lia. Qed.
Lemma room_for_few : (4 <= MAX_ENTRIES)%N. Proof. now vm_compute. Qed.
Lemma psim_alone {A B} (Q : list bytes -> A -> B -> Prop) (p : rprog A) : forall own (p' : prog B) k rp st rest, psim E Q own p p' -> grows k p' ->
  RR rp st -> Permutation (opened st) (own ++ rest) -> (k + 2 <= MAX_ENTRIES)%N -> cap (MAX_ENTRIES - (k + 2)) st ->
  exists own', RR (fst (r_alone p rp)) (fst (alone p' st)) /\ Permutation (opened (fst (alone p' st))) (own' ++ rest) /\ Q own' (snd (r_alone p rp)) (snd (alone p' st)).
Proof.
  induction p as [a|u n IH]; intros own [b|u' n'] k rp st rest Hp Hg HR Hop Hk Hc; cbn [psim grows r_alone alone fst snd] in *; try contradiction.
  - destruct Hp as (o & Ho & HQ). exists o. split; [exact HR|]. split; [now rewrite <- Ho|exact HQ].
  - destruct Hg as (j & Hj & Hu & Hn). destruct (Hp rp st rest HR Hop) as (own' & B1 & B2 & B3).
    { apply dirs_cap; [lia|]. apply (cap_le (MAX_ENTRIES - (k + 2))); [lia|exact Hc]. }
    apply (IH rp own' (n' st) (k - j)%N _ _ rest B3 (Hn st) B1 B2); [lia|]. apply (cap_le (MAX_ENTRIES - (k + 2) + j)); [lia|]. now apply Hu.
Qed.
Lemma RR_perm rp st st' : RR rp st -> nodes st' = nodes st -> Permutation (opened st') (opened st) -> RR rp st'.
Proof.
  intros [H1 H2 H3] Hn Hp. assert (Hg : forall id, get st' id = get st id) by (intros id; unfold get; now rewrite Hn).
  assert (Ho : forall id, occ id (opened st') = occ id (opened st)).
  { intros id. now apply occ_perm. }
  constructor.
  - intros id. specialize (H1 id). unfold one_file in *. rewrite Hg. destruct (rget id (rp_files rp)) as [x|], (get st id) as [nd|]; try exact H1. destruct H1 as [G F]. split; [exact G|].
    destruct x as [d m|f ref p]; cbn [fits_file] in *.
    + destruct F as (F1 & F2 & F3 & F4). split; [exact F1|]. split; [exact F2|]. split; [|exact F4]. intros Hi. apply F3. now apply (Permutation_in _ Hp).
    + now rewrite Ho.
  - now rewrite Hg.
  - intros id Hi. rewrite Hg. apply H3. now apply (Permutation_in _ Hp).
Qed.
Definition used (st : ffs) : Prop := forall id nd, get st id = Some nd -> i_nlink nd = 0%N -> id = root_id \/ In id (opened st).
Lemma call_ok_alone o rp st : RR rp st -> may_call o (opened st) -> call_fits E o -> dirs_fit 4 st -> used st -> room st ->
  RR (fst (r_alone (r_body E o) rp)) (fst (fs_step cmp o st)) /\ same_answer (snd (r_alone (r_body E o) rp)) (snd (fs_step cmp o st)).
Proof.
  intros HR Hm Hf Hd Hs Hr. assert (Hi : in_step o) by (destruct o; try exact I; contradiction).
  assert (Hown : exists rest, Permutation (opened st) (begins o ++ rest)).
  { destruct o; try (exists (opened st); reflexivity). exists (remove_one id (opened st)). cbn [begins app]. now apply remove_one_perm. }
  destruct Hown as [rest Hop].
  destruct (psim_alone _ _ _ _ 2 rp st rest (sim_body E HE o (opened st) Hm Hf) (grows_body o Hi) HR Hop) as (own' & B1 & B2 & B3).
  { exact room_for_few. }
  { apply (dirs_cap 4); [exact room_for_few|exact Hd]. }
  destruct (body_alone cmp o st Hi) as (C1 & C2 & C3).
  { intros id dir ->. exact Hm. }
  { exact Hs. }
  { exact Hr. }
  split; [|rewrite <- C1; apply B3]. apply (RR_perm _ _ _ B1); [now symmetry|now symmetry].
Qed.

(** ** Histories *)
Definition ready (st : ffs) : Prop := used st /\ room st.
Lemma op_ok o rp st : RR rp st -> may_do E o st -> dirs_fit 4 st -> ready st ->
  RR (fst (r_apply E o rp)) (fs_run cmp (as_fops o st) st) /\ same_answer (snd (r_apply E o rp)) (plain_answer cmp o st).
Proof.
  intros HR Hm Hd [Hs Hr]. destruct o as [o|o|id|]; cbn [may_do r_apply as_fops plain_answer] in *.
  - destruct Hm as [Hm Hf]. cbn [fs_run]. now apply call_ok_alone.
  - destruct Hm as [Hi Hf]. destruct (sim_io E HE o rp st HR Hi Hf) as (A1 & A2 & _). split; [|exact A2].
    assert (Heq : fs_run cmp (match io_as o st with Some f => [f] | None => [] end) st = fst (plain_io cmp o st)).
    { destruct o; cbn [io_as plain_io fs_run]; try reflexivity. destruct (fs_step cmp (FRead id) st) as [st' [[]|]]; reflexivity. }
    now rewrite Heq.
  - split; [|reflexivity]. cbn [fst]. destruct (bytes_eqb id root_id) eqn:E1; cbn [fs_run].
    + apply bytes_eqb_eq in E1. subst id. unfold t_evict. rewrite bytes_eqb_refl. destruct (rget root_id (rp_files rp)) as [[]|]; try exact HR. destruct ref; exact HR.
    + apply bytes_eqb_neq in E1. now apply sim_evict.
  - destruct (remount_ok E HE rp st (rp_time rp) HR Hm) as [A1 A2]. destruct (mount E (unmount E rp) (rp_time rp)) as [rp' r]. cbn [fst snd] in *. subst r. split; [|reflexivity].
    assert (Hrun : forall ids s, fs_run cmp (map FEvict ids) s = forget_all E ids s) by (induction ids as [|i ids IH]; intros s; cbn [map fs_run forget_all fold_left]; [reflexivity|apply IH]).
    rewrite Hrun. apply A2; [now apply (forget_all_get E _ _ [])|]. intros y. now apply forget_every.
Qed.
Lemma reached_ready st : reached cmp st -> ready st.
Proof.
  intros H. destruct (reached_Inv cmp (so_cmp _ HE) st H) as [Hv Hsz]. pose proof (Inv_counts cmp st Hv) as Hc.
  assert (Hnl : forall id nd, get st id = Some nd -> id <> root_id -> i_nlink nd = N.of_nat (refs st id)).
  { intros id nd Hg Hne. rewrite (cr_nlink _ Hc id nd Hg). unfold root_bonus. apply bytes_eqb_neq in Hne as Hne'. rewrite Hne'. lia. }
  split; intros id nd Hg.
  - intros H0. destruct (dec_bytes id root_id) as [->|Hne]; [now left|]. specialize (Hnl id nd Hg Hne). destruct (proj1 (cr_stored _ Hc id)) as [H1|[H1|H1]]; [congruence|contradiction|lia|now right].
  - destruct (dec_bytes id root_id) as [->|Hne].
    + rewrite (cr_nlink _ Hc _ _ Hg). destruct (iv_rootref _ _ _ _ Hv) as [-> _]. reflexivity.
    + rewrite (Hnl id nd Hg Hne). pose proof (refs_size st id). lia.
Qed.
Lemma fs_run_app a b : forall st, fs_run cmp (a ++ b) st = fs_run cmp b (fs_run cmp a st).
Proof. induction a as [|o a IH]; intros st; cbn [app fs_run]; [reflexivity|apply IH]. Qed.
Lemma careful_app a b : forall st, careful_run cmp (a ++ b) st <-> careful_run cmp a st /\ careful_run cmp b (fs_run cmp a st).
Proof. induction a as [|o a IH]; intros st; cbn [app fs_run careful_run]; [tauto|]. rewrite IH. tauto. Qed.

Lemma history_ok ops : forall rp st done, RR rp st -> fs_run cmp done new_repo = st -> careful_run cmp done new_repo -> careful_run cmp (plain_ops cmp ops st) st ->
  (N.of_nat (length (done ++ plain_ops cmp ops st)) < 2 ^ 32 - 1)%N -> may_run E ops st ->
  Forall2 same_answer (r_answers E ops rp) (plain_answers cmp ops st).
Proof.
  induction ops as [|o ops IH]; intros rp st done HR Hd Hc Hc' Hl Hm; cbn [plain_ops r_answers plain_answers may_run] in *; [constructor|].
  destruct Hm as (H1 & H2 & H3). rewrite app_assoc in Hl. apply careful_app in Hc' as [C1 C2].
  assert (Hre : reached cmp st). { exists done. split; [exact Hc|]. split; [|exact Hd]. rewrite !app_length in Hl. lia. }
  destruct (op_ok o rp st HR H1 H2 (reached_ready st Hre)) as [A1 A2]. constructor; [exact A2|].
  apply (IH _ _ (done ++ as_fops o st)); auto; [now rewrite fs_run_app, Hd|]. apply careful_app. now rewrite Hd.
Qed.
End Alone.
