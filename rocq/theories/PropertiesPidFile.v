(** C101: what a mount prepares: the file with its number, and the limit of open files. *)
From Coq Require Import Strings.String DecimalString DecimalN DecimalFacts Lia.
From Verif Require Import Base BaseLemmas TextModel PidFileModel PidFileSpec.
Local Open Scope list_scope.

Lemma number_decimal n : number_in (decimal n) = Some n.
Proof.
  unfold number_in, decimal. rewrite string_of_list_byte_of_string.
  assert (NN : N.to_uint n <> Decimal.Nil). { destruct n as [|q]; [discriminate|]. cbn [N.to_uint]. apply DecimalPos.Unsigned.to_uint_nonnil. }
  rewrite NilZero.usu by exact NN. rewrite DecimalN.Unsigned.of_to. reflexivity.
Qed.

Lemma run_app h a b : p_run h (a ++ b) = p_run (p_run h a) b.
Proof. apply fold_left_app. Qed.
Lemma start_usable h p : usable h -> exists i, ph_name (p_step h (PStart p false)) = Some i /\ ph_data (p_step h (PStart p false)) i = [] /\
  ph_open (p_step h (PStart p false)) p = Some i.
Proof.
  intros (Hd & Hm). cbn [p_step]. destruct (ph_name h) as [i|] eqn:En.
  - rewrite (Hm i eq_refl). exists i. cbn. rewrite Nat.eqb_refl, N.eqb_refl. repeat split. exact En.
  - rewrite Hd. exists (ph_next h). cbn. rewrite Nat.eqb_refl, N.eqb_refl. repeat split.
Qed.
Lemma dir_kept h e : ph_dir (p_step h e) = ph_dir h.
Proof.
  destruct e as [p bad|p cut|p]; cbn [p_step].
  - destruct bad; [reflexivity|]. destruct (ph_name h) as [i|]; [destruct (ph_mine h i); reflexivity|]. destruct (ph_dir h) eqn:E; [reflexivity|exact E].
  - destruct (ph_open h p); reflexivity.
  - destruct (ph_dir h) eqn:E; [reflexivity|exact E].
Qed.
Lemma dir_run es : forall h, ph_dir (p_run h es) = ph_dir h.
Proof. induction es as [|e es IH]; intros h; [reflexivity|]. cbn [p_run fold_left]. fold (p_run (p_step h e) es). rewrite IH. apply dir_kept. Qed.
Lemma end_gone h p : ph_dir h = true -> ph_name (p_step h (PEnd p)) = None.
Proof. intros H. cbn [p_step]. rewrite H. reflexivity. Qed.
Lemma usable_after ms : forall h, usable h -> usable (p_run h (one_by_one ms)).
Proof.
  induction ms as [|[[p bad] cut] ms IH]; intros h H; [exact H|]. unfold one_by_one. cbn [flat_map]. fold (one_by_one ms).
  rewrite run_app. apply IH. split; [rewrite dir_run; exact (proj1 H)|]. intros i Hi. exfalso.
  assert (K : ph_name (p_run h [PStart p bad; PWrite p cut; PEnd p]) = None).
  { change (ph_name (p_step (p_run h [PStart p bad; PWrite p cut]) (PEnd p)) = None). apply end_gone. rewrite dir_run. exact (proj1 H). }
  rewrite K in Hi. discriminate Hi.
Qed.

(** After any mounts one by one, whatever failed in them, a mount that can write the file has
    its number in it while it serves. *)
Theorem C101_number_while_mounted :
  forall h ms p, usable h ->
    exists text, pid_file (p_run h (one_by_one ms ++ [PStart p false; PWrite p None])) = Some text /\ number_in text = Some p.
Proof.
  intros h ms p H. rewrite run_app. pose proof (usable_after ms h H) as U. set (h1 := p_run h (one_by_one ms)) in *. clearbody h1.
  destruct (start_usable h1 p U) as (i & E1 & E2 & E3). cbn [p_run fold_left]. set (h2 := p_step h1 (PStart p false)) in *. clearbody h2.
  cbn [p_step]. rewrite E3. exists (decimal p). split; [|apply number_decimal]. unfold pid_file. cbn [set_open set_data ph_name ph_data]. rewrite E1, Nat.eqb_refl, E2, skipn_nil, app_nil_r. reflexivity.
Qed.
Print Assumptions C101_number_while_mounted.

(** When a mount ends, with an error or without, its file is gone. *)
Theorem C101_nothing_left :
  forall h p bad cut served path, path <> [] -> ph_dir (fst (served (p_run h [PStart p bad; PWrite p cut]))) = true ->
    pid_file (fst (mount_with (Some path) p bad cut served h)) = None.
Proof.
  intros h p bad cut served path Np H. destruct path as [|c path]; [contradiction|]. unfold mount_with. cbn [events_of events_at_end].
  destruct (served (p_run h [PStart p bad; PWrite p cut])) as [h1 r]. cbn [fst] in *. unfold pid_file. cbn [p_run fold_left]. rewrite end_gone by exact H. reflexivity.
Qed.
Print Assumptions C101_nothing_left.

(** Without the variable, or with an empty one, no file is touched. *)
Theorem C101_not_asked_for :
  forall h p bad cut served var, var = None \/ var = Some [] -> mount_with var p bad cut served h = served h.
Proof. intros h p bad cut served var [->| ->]; unfold mount_with; cbn; destruct (served h); reflexivity. Qed.
Print Assumptions C101_not_asked_for.

(** Whatever becomes of the file, the mount serves, and ends with what serving gave. *)
Theorem C101_mount_goes_on :
  forall served : phost -> phost * res N, (forall h h', snd (served h) = snd (served h')) ->
  forall h p bad cut var, snd (mount_with var p bad cut served h) = snd (served h).
Proof.
  intros served Hs h p bad cut var. unfold mount_with. rewrite (Hs h (p_run h (events_of var p bad cut))). destruct (served (p_run h (events_of var p bad cut))). reflexivity.
Qed.
Print Assumptions C101_mount_goes_on.

(** Mounts that overlap in any way, with numbers of the same length and no failing writes: if
    there is a file it is empty or has the number of one of them. *)
Theorem C101_overlapping :
  forall h es n, ph_name h = None -> (forall p, ph_open h p = None) ->
    Forall (fun e => match e with PWrite p cut => cut = None /\ length (decimal p) = n | _ => True end) es ->
    forall text, pid_file (p_run h es) = Some text -> text = [] \/ exists p, In (PWrite p None) es /\ text = decimal p.
Proof.
  intros h es n Hn Ho Hes text.
  set (fine := fun (S : N -> Prop) (d : bytes) => d = [] \/ exists p, S p /\ length (decimal p) = n /\ d = decimal p).
  assert (G : forall es h (S : N -> Prop), (forall i, ph_name h = Some i -> fine S (ph_data h i)) -> (forall p i, ph_open h p = Some i -> fine S (ph_data h i)) ->
     Forall (fun e => match e with PWrite p cut => cut = None /\ length (decimal p) = n /\ S p | _ => True end) es ->
     forall i, ph_name (p_run h es) = Some i -> fine S (ph_data (p_run h es) i)).
  { clear h es Hn Ho Hes text. induction es as [|e es IH]; intros h S H1 H2 HF; [exact H1|]. inversion HF as [|? ? He HF']; subst.
    cbn [p_run fold_left]. fold (p_run (p_step h e) es).
    assert (F0 : fine S []) by (left; reflexivity).
    assert (SD : forall j d, fine S d -> (forall i, ph_name h = Some i -> fine S (ph_data (set_data h j d) i)) /\ (forall p i, ph_open h p = Some i -> fine S (ph_data (set_data h j d) i))).
    { intros j d Fd. cbn [set_data ph_data]. split; [intros i Hi|intros p i Hi]; destruct (i =? j); [exact Fd|exact (H1 i Hi)|exact Fd|exact (H2 p i Hi)]. }
    assert (WR : forall p j, ph_open h p = Some j -> S p -> length (decimal p) = n -> fine S (decimal p ++ skipn (length (decimal p)) (ph_data h j))).
    { intros p j Eo HS HL. right. exists p. split; [exact HS|split; [exact HL|]].
      destruct (H2 p j Eo) as [E|(q & _ & Lq & E)]; rewrite E; [rewrite skipn_nil; apply app_nil_r|rewrite skipn_all2 by lia; apply app_nil_r]. }
    apply (IH _ S); [| |exact HF']; destruct e as [p bad|p cut|p]; cbn [p_step].
    - destruct bad; [exact H1|]. destruct (ph_name h) as [j|] eqn:En; [destruct (ph_mine h j)|destruct (ph_dir h)]; cbn [set_open ph_name ph_data].
      + intros i Hi. cbn [set_data ph_name] in Hi. rewrite En in Hi. exact (proj1 (SD j [] F0) i Hi).
      + intros i Hi. apply H1. congruence.
      + intros i Hi. injection Hi as <-. rewrite Nat.eqb_refl. exact F0.
      + intros i Hi. congruence.
    - destruct (ph_open h p) as [j|] eqn:Eo; [|exact H1]. destruct He as (-> & HL & HS). cbn [set_open ph_name ph_data].
      intros i Hi. exact (proj1 (SD j _ (WR p j Eo HS HL)) i Hi).
    - destruct (ph_dir h); [intros i Hi; discriminate Hi|exact H1].
    - destruct bad; [|destruct (ph_name h) as [j|] eqn:En; [destruct (ph_mine h j)|destruct (ph_dir h)]]; cbn [set_open ph_open ph_data]; intros q i; destruct (N.eqb_spec q p) as [->|Nq]; intros Hi; try discriminate Hi; try exact (H2 q i Hi).
      + injection Hi as <-. exact (proj1 (SD j [] F0) j eq_refl).
      + exact (proj2 (SD j [] F0) q i Hi).
      + injection Hi as <-. rewrite Nat.eqb_refl. exact F0.
      + destruct (i =? ph_next h); [exact F0|exact (H2 q i Hi)].
    - destruct (ph_open h p) as [j|] eqn:Eo; [|exact H2]. destruct He as (-> & HL & HS). cbn [set_open ph_open ph_data].
      intros q i. destruct (N.eqb_spec q p) as [->|Nq]; intros Hi; [discriminate Hi|].
      exact (proj2 (SD j _ (WR p j Eo HS HL)) q i Hi).
    - destruct (ph_dir h); exact H2. }
  unfold pid_file. destruct (ph_name (p_run h es)) as [i|] eqn:Ei; [|intros K; discriminate K]. intros K. injection K as <-.
  destruct (G es h (fun p => In (PWrite p None) es)) with (i := i) as [E|(p & Hp & _ & E)]; try assumption.
  - intros j Hj. rewrite Hn in Hj. discriminate Hj.
  - intros p j Hj. rewrite Ho in Hj. discriminate Hj.
  - apply Forall_forall. intros e He. pose proof (proj1 (Forall_forall _ _) Hes e He) as Q. destruct e as [p bad|p cut|p]; [exact I| |exact I].
    destruct Q as (-> & L). repeat split; assumption.
  - left. exact E.
  - right. exists p. split; assumption.
Qed.
Print Assumptions C101_overlapping.

Definition no_file : phost := mkPH None (fun _ => []) (fun _ => true) 0 true (fun _ => None).
(** When two mounts with the same variable overlap, the one that ends first takes the file away. *)
Theorem C101_other_mount_refuted :
  ~ (forall p q, p <> q -> pid_file (p_run no_file [PStart p false; PWrite p None; PStart q false; PWrite q None; PEnd p]) <> None).
Proof. intros H. apply (H 17%N 18%N); [discriminate|]. vm_compute. reflexivity. Qed.
Print Assumptions C101_other_mount_refuted.
(** With numbers of different lengths the file may have neither number. *)
Theorem C101_mixed_refuted :
  ~ (forall p q, exists text, pid_file (p_run no_file [PStart p false; PStart q false; PWrite p None; PWrite q None]) = Some text /\
       (number_in text = Some p \/ number_in text = Some q)).
Proof.
  intros H. destruct (H 123%N 45%N) as (text & E & K). vm_compute in E. injection E as <-. vm_compute in K. destruct K as [K|K]; discriminate K.
Qed.
Print Assumptions C101_mixed_refuted.
(** A file of someone else, which could not be written, is removed all the same. *)
Theorem C101_foreign_file_refuted :
  ~ (forall h p text, pid_file h = Some text -> (forall i, ph_name h = Some i -> ph_mine h i = false) ->
       pid_file (fst (mount_with (Some (str "pid")) p false None (fun h => (h, Ok 0%N)) h)) = Some text).
Proof.
  intros H. specialize (H (mkPH (Some 0) (fun _ => str "keep me") (fun _ => false) 1 true (fun _ => None)) 17%N (str "keep me") eq_refl (fun _ _ => eq_refl)).
  vm_compute in H. discriminate H.
Qed.
Print Assumptions C101_foreign_file_refuted.

(** The limit of open files is never lowered and never above what the host allows; if the
    host plays along it is as high as can be. *)
Theorem C101_limit_raised :
  forall get_ok set_ok l, let '(l', _) := raise_fd_limit get_ok set_ok l in
    (soft l <= soft l')%N /\ hard l' = hard l /\ (soft l' <= N.max (soft l) (hard l))%N /\
    (get_ok = true -> set_ok = true -> (hard l <= soft l')%N).
Proof.
  intros g s l. unfold raise_fd_limit. destruct g; cbn [negb]; [|repeat split; try lia; intros K; discriminate K].
  destruct (N.leb_spec (hard l) (soft l)); [repeat split; try lia|]. destruct s; cbn [soft hard]; repeat split; try lia; intros; discriminate.
Qed.
Print Assumptions C101_limit_raised.
(** What is reported is the limit in force, unless the host cannot tell it. *)
Theorem C101_limit_reported : forall set_ok l, let '(l', n) := raise_fd_limit true set_ok l in n = soft l'.
Proof. intros s l. unfold raise_fd_limit. cbn [negb]. destruct (hard l <=? soft l)%N; [reflexivity|]. destruct s; reflexivity. Qed.
Print Assumptions C101_limit_reported.
Theorem C101_limit_reported_refuted : ~ (forall get_ok set_ok l, let '(l', n) := raise_fd_limit get_ok set_ok l in n = soft l').
Proof. intros H. specialize (H false true (mkRlim 256 256)). discriminate H. Qed.
Print Assumptions C101_limit_reported_refuted.

(** Cases that meet the conditions. *)
Example C101_example :
  usable no_file /\
  pid_file (p_run no_file (one_by_one [(5%N, true, None); (4321%N, false, Some 2)] ++ [PStart 1234 false; PWrite 1234 None])) = Some (str "1234") /\
  number_in (str "1234") = Some 1234%N /\
  pid_file (fst (mount_with (Some (str "pid")) 77 false None (fun h => (h, Err EInval)) no_file)) = None /\
  pid_file (p_run no_file [PStart 11 false; PStart 12 false; PWrite 11 None; PWrite 12 None]) = Some (str "12").
Proof. split; [split; [reflexivity|intros i E; discriminate E]|]. repeat (split; [vm_compute; reflexivity|]). vm_compute. reflexivity. Qed.
