(** The statements of PropertiesLongNames, for the translator chosen at mount time. *)
From Coq Require Import Strings.String.
From Verif Require Import Base BaseLemmas TextModel TextProofs CryptoModel CryptoProofs NameModel NameSpec NameProofs NameTop
  LongNameModel LongNameSpec LongNameProofs LongNameInv LongNameSuffix.
Local Open Scope list_scope.

Lemma split_path_of names : names <> [] -> Forall (fun n => n <> [] /\ ~ In slash n) names ->
  split_slash (path_of names) = [] :: names.
Proof.
  intros Hn HF. unfold path_of. destruct names as [|n names]; [congruence|]. clear Hn. revert n HF.
  induction names as [|m names IH]; intros n HF; inversion HF as [|x l (H1 & H2) H3]; subst; cbn [flat_map app].
  - rewrite split_cons_slash, app_nil_r, split_simple by exact H2. reflexivity.
  - rewrite split_cons_slash, split_app by exact H2. specialize (IH m H3). cbn [flat_map app] in IH.
    rewrite split_cons_slash in IH. f_equal. f_equal. congruence.
Qed.

Lemma nonempty_id names : Forall (fun n : bytes => n <> [] /\ ~ In slash n) names -> nonempty names = names.
Proof.
  induction names as [|n names IH]; intros HF; [reflexivity|]. inversion HF as [|x l (H1 & H2) H3]. subst. cbn [nonempty filter].
  replace (bytes_eqb n []) with false by (symmetry; apply bytes_eqb_neq; exact H1). cbn [negb]. f_equal. apply IH. exact H3.
Qed.

Lemma path_of_snoc names n : exists dir, path_of (names ++ [n]) = dir ++ slash :: n.
Proof.
  exists (flat_map (fun m => slash :: m) names). unfold path_of. destruct (names ++ [n]) eqn:E; [destruct names; discriminate|].
  rewrite <- E, flat_map_app. cbn [flat_map]. rewrite app_nil_r. reflexivity.
Qed.

Section Top.
Variable cmac : bytes -> bytes.
Variable keystream : bytes -> nat -> bytes.
Variable blake : bytes -> bytes.
Hypothesis cmac_len : forall m, length (cmac m) = 16.
Hypothesis ks_len : forall iv n, length (keystream iv n) = n.
Hypothesis blake_len : forall m, length (blake m) = 32.
Notation box := (siv_box cmac keystream).
Notation make := (make_translator cmac keystream blake).
Notation pc := (pcomp cmac keystream blake).

Variable threshold : nat.
Hypothesis Ht : 0 < threshold.
(** the names that occur *)
Variable occurs : bytes -> Prop.
Definition okp (path : bytes) : Prop :=
  exists names, Forall (fun n => n <> [] /\ ~ In slash n) names /\ Forall occurs names /\ path = path_of names.

Section One.
Variable suffix : bytes.
Hypothesis Hs : suffix_ok (effective suffix).
Notation tr := (make false threshold suffix None None).
Notation long := (long_entry (effective suffix)).

Lemma cfg : config_ok threshold suffix.
Proof. intros _. exact Hs. Qed.

Definition stored (name : bytes) : bytes := if threshold <? length name then enc32 (box name) else [].
Definition named (u l : bytes) : Prop :=
  exists name, occurs name /\ name <> [] /\ ~ In slash name /\ u = pc threshold suffix name /\ l = stored name.

Lemma pc_cases name : name <> [] ->
  (length name <= threshold /\ pc threshold suffix name = enc32 (box name) /\ stored name = []) \/
  (threshold < length name /\ pc threshold suffix name = enc32 (box (blake name)) ++ effective suffix /\ stored name = enc32 (box name)).
Proof.
  intros Hn. unfold pcomp, stored, ncomp. rewrite (proj2 (Nat.ltb_lt 0 threshold) Ht). destruct name as [|c name]; [congruence|].
  destruct (Nat.leb_spec (length (c :: name)) threshold) as [H|H].
  - left. split; [exact H|]. split; [reflexivity|]. destruct (Nat.ltb_spec threshold (length (c :: name))); [lia|reflexivity].
  - right. split; [exact H|]. split; [reflexivity|]. destruct (Nat.ltb_spec threshold (length (c :: name))); [reflexivity|lia].
Qed.

Lemma pc_hd name : name <> [] -> hd x00 (pc threshold suffix name) <> dot.
Proof. intros Hn. exact (proj2 (proj2 (proj2 (pcomp_safe _ _ _ cmac_len ks_len blake_len threshold suffix name cfg Hn)))). Qed.

Lemma top_named_long u l : named u l -> (l <> [] <-> long u).
Proof.
  intros (name & Ho & Hn & Hsl & -> & ->). destruct (pc_cases name Hn) as [(H & E1 & E2)|(H & E1 & E2)]; rewrite E2; split.
  - congruence.
  - intros (_ & He). rewrite E1, short_not_suffix in He by exact Hs. discriminate.
  - intros _. split; [apply pc_hd; exact Hn|]. rewrite E1. apply ends_with_app.
  - intros _. apply (enc_box_ne cmac keystream blake); assumption.
Qed.
Lemma top_named_TN u l : named u l -> u <> TN.
Proof. intros (name & _ & Hn & _ & -> & _) E. apply (pc_hd name Hn). rewrite E. reflexivity. Qed.

Lemma comps_path names P l : Forall (fun n => n <> [] /\ ~ In slash n) names ->
  t_encrypt tr (path_of names) = Ok (P, l) -> comps P = map (pc threshold suffix) names.
Proof.
  intros HF He.
  assert (Hhd : hd x00 (path_of names) = slash) by (destruct names; reflexivity).
  destruct (containment _ _ _ cmac_len ks_len blake_len threshold suffix _ P l cfg Hhd He) as (H2 & _).
  assert (Hne : nonempty (split_slash (path_of names)) = names).
  { destruct names as [|n names]; [reflexivity|]. rewrite split_path_of by (auto; discriminate). cbn [nonempty filter].
    exact (nonempty_id _ HF). }
  rewrite Hne in H2. change (comps P) with (steps P). clear - H2. induction H2 as [|x y xs ys (E & _) _ IH]; [reflexivity|].
  cbn [map]. congruence.
Qed.

Lemma top_enc path P l : okp path -> t_encrypt tr path = Ok (P, l) ->
  (comps P = [] /\ l = []) \/
  (comps P <> [] /\ named (leaf (comps P)) l /\ (l <> [] -> get_last_component P = leaf (comps P))).
Proof.
  intros (names & HF & HOc & ->) He. pose proof (comps_path names P l HF He) as HC.
  destruct names as [|n names _] using rev_ind.
  - left. split; [exact HC|]. rewrite make_inner in He. rewrite (proj2 (Nat.ltb_lt 0 threshold) Ht) in He.
    cbn [t_encrypt new_translator] in He. rewrite new_encrypt_ok in He by assumption. injection He as _ <-. reflexivity.
  - right. destruct (path_of_snoc names n) as (dir & Ed). rewrite Ed in He.
    apply Forall_app in HF. destruct HF as (_ & HF). inversion HF as [|x y (H1 & H2) _]. subst.
    apply Forall_app in HOc. destruct HOc as (_ & HOc). inversion HOc as [|x y Ho _]. subst.
    destruct (make_last _ _ _ cmac_len ks_len threshold suffix dir n P l cfg H1 H2 He) as (EP & El).
    rewrite HC, map_app. cbn [map]. split; [destruct (map (pc threshold suffix) names); discriminate|]. rewrite leaf_app.
    rewrite (proj2 (Nat.ltb_lt 0 threshold) Ht) in El. cbn [andb] in El.
    split; [|intros _; exact EP]. exists n. auto.
Qed.

Theorem runs ops : Forall okp (flat_map op_paths ops) -> benign_run tr (effective suffix) ops empty_fs ->
  inv (effective suffix) named (lite_run tr ops empty_fs).
Proof.
  intros HO Hb. apply (run_inv tr (effective suffix) named okp top_named_long top_named_TN top_enc); [exact HO|apply inv_empty|exact Hb].
Qed.

(** what a row says *)
Lemma named_means u l : named u l -> l <> [] -> exists name P,
  occurs name /\ threshold < length name /\ name <> [] /\ ~ In slash name /\ t_encrypt tr (slash :: name) = Ok (P, l) /\ get_last_component P = u.
Proof.
  intros (name & Ho & Hn & Hsl & -> & ->) Hl.
  destruct (new_names_total _ _ _ cmac_len ks_len blake_len threshold suffix None None (slash :: name) Ht) as (P & l & He).
  exists name, P. split; [exact Ho|]. split; [unfold stored in Hl; destruct (Nat.ltb_spec threshold (length name)); [assumption|congruence]|]. split; [exact Hn|]. split; [exact Hsl|].
  destruct (make_last _ _ _ cmac_len ks_len threshold suffix [] name P l cfg Hn Hsl He) as (EP & El).
  rewrite (proj2 (Nat.ltb_lt 0 threshold) Ht) in El. split; [|exact EP]. rewrite He, El. reflexivity.
Qed.


(** *** Listings *)
Section Listing.
Hypothesis nocol : forall a b, occurs a -> occurs b -> threshold < length a -> threshold < length b -> blake a = blake b -> a = b.

Lemma pc_inj a b : occurs a -> occurs b -> pc threshold suffix a = pc threshold suffix b -> a = b.
Proof.
  intros Ha Hb E. apply (ncomp_inj cmac keystream cmac_len ks_len blake blake_len threshold (effective suffix) Hs).
  - intros H1 H2. apply nocol; assumption.
  - unfold pcomp in E. rewrite (proj2 (Nat.ltb_lt 0 threshold) Ht) in E. congruence.
Qed.

Lemma es_listing es us : dir_ok (effective suffix) named es -> NoDup us -> incl us (map fst es) ->
  exists ns, list_names tr (table_of es) us [] = ns /\ NoDup ns /\
    (forall n, In n ns <-> exists u l, In u us /\ named u l /\ u = pc threshold suffix n /\ occurs n /\ n <> [] /\ ~ In slash n).
Proof.
  intros Hok ND Hi.
  assert (HX : exists outs, Forall2 (shown (t_encrypt tr) (table_of es)) us outs /\ NoDup (concat outs) /\
    (forall n, In n (concat outs) <-> exists u l, In u us /\ named u l /\ u = pc threshold suffix n /\ occurs n /\ n <> [] /\ ~ In slash n)).
  { induction us as [|u us IH].
    - exists []. split; [constructor|]. split; [constructor|]. intros n. split; [intros []|intros (u & l & [] & _)].
    - inversion ND as [|x y Hni ND']. subst. destruct IH as (outs & F & NDo & HI); [exact ND'|intros x Hx; apply Hi; right; exact Hx|].
      assert (Hu : ent u es <> None). { assert (HIu : In u (map fst es)) by (apply Hi; left; reflexivity). apply ent_some in HIu. destruct HIu as (k & ->). discriminate. }
      destruct (bytes_dec u TN) as [->|Nu].
      + exists ([] :: outs). split; [|split; [exact NDo|]].
        * constructor; [|exact F]. apply shown_hidden; vm_compute; discriminate.
        * intros n. cbn [concat app]. rewrite HI. split.
          -- intros (u & l & A & B). exists u, l. split; [right; exact A|exact B].
          -- intros (u & l & [<-|A] & B & C); [exfalso; exact (top_named_TN _ _ B eq_refl)|eauto].
      + destruct (do_named _ _ _ Hok u Hu) as [E|(l0 & n0 & Ho & Hn & Hsl & Eu & El0)]; [congruence|].
        exists ([n0] :: outs). split; [|split].
        * constructor; [|exact F].
          destruct (new_names_total _ _ _ cmac_len ks_len blake_len threshold suffix None None (slash :: n0) Ht) as (P & l & He).
          destruct (make_last _ _ _ cmac_len ks_len threshold suffix [] n0 P l cfg Hn Hsl He) as (EP & El).
          rewrite (proj2 (Nat.ltb_lt 0 threshold) Ht) in El. cbn [andb] in El.
          rewrite Eu, <- EP. apply (shown_created _ _ [] n0 P l Hn Hsl He). intros Hl. rewrite EP, <- Eu.
          assert (Hnm : named u l) by (exists n0; auto).
          destruct (do_long _ _ _ Hok u Hu (proj1 (top_named_long _ _ Hnm) Hl)) as (l1 & (n1 & Ho1 & Hn1 & Hsl1 & Eu1 & El1) & Hr).
          assert (n1 = n0) by (apply pc_inj; congruence). subst n1. unfold stored in El1. rewrite <- El in El1. subst l1.
          unfold table_of. unfold rows in Hr. destruct (ent TN es) as [[| |m]|]; try discriminate. rewrite Hr. reflexivity.
        * cbn [concat app]. constructor; [|exact NDo]. rewrite HI. intros (u' & l & A & B & C & _). apply Hni. congruence.
        * intros n. cbn [concat app In]. rewrite HI. split.
          -- intros [<-|(u' & l & A & B)]; [exists u, l0; split; [left; reflexivity|]; split; [exists n0; auto|auto]|].
             exists u', l. split; [right; exact A|exact B].
          -- intros (u' & l & [<-|A] & B & C & D & E); [left; apply pc_inj; try assumption; congruence|right; eauto 8]. }
  destruct HX as (outs & F & NDo & HI). exists (concat outs). split; [|auto].
  apply (listing_exact _ _ _ cmac_len ks_len blake_len threshold suffix); [exact cfg|exact F].
Qed.

Theorem listing_matches fs names n P l es : inv (effective suffix) named fs ->
  Forall (fun n => n <> [] /\ ~ In slash n) names -> n <> [] -> ~ In slash n -> occurs n ->
  t_encrypt tr (path_of names) = Ok (P, l) -> fs (comps P) = Some es ->
  NoDup (listing tr es) /\ (In n (listing tr es) <-> found tr fs (path_of (names ++ [n])) <> None).
Proof.
  intros HI HF Hn Hsl Ho He Hes. pose proof (proj2 HI _ _ Hes) as Hok.
  destruct (es_listing es (map fst es) Hok (do_nodup _ _ _ Hok) (incl_refl _)) as (ns & El & ND & HL). unfold listing. rewrite El.
  split; [exact ND|]. rewrite HL. clear El HL ND ns.
  assert (HF' : Forall (fun n => n <> [] /\ ~ In slash n) (names ++ [n])) by (apply Forall_app; auto).
  destruct (new_names_total _ _ _ cmac_len ks_len blake_len threshold suffix None None (path_of (names ++ [n])) Ht) as (P' & l' & He').
  unfold found. rewrite He', (comps_path _ _ _ HF' He'), map_app. cbn [map]. rewrite (comps_path _ _ _ HF He) in Hes.
  destruct (map (pc threshold suffix) names ++ [pc threshold suffix n]) eqn:E; [destruct (map (pc threshold suffix) names); discriminate|].
  rewrite <- E, parent_app, leaf_app, Hes. split.
  - intros (u & l9 & Hi & Hnm & -> & _). apply ent_some in Hi. destruct Hi as (k & ->). discriminate.
  - intros Hk. destruct (ent (pc threshold suffix n) es) as [k|] eqn:Ek; [|congruence].
    exists (pc threshold suffix n), (stored n). split; [|split; [exists n; auto 6|auto]].
    destruct (In_dec bytes_dec (pc threshold suffix n) (map fst es)) as [Hi|Hi]; [exact Hi|]. apply ent_none in Hi. congruence.
Qed.
End Listing.
End One.

Section Two.
Variable suf1 s2 : bytes.
Hypothesis Hs1 : suffix_ok (effective suf1).
Hypothesis Hs2 : suffix_ok s2.
Hypothesis Hdiff : effective suf1 <> s2.
Notation s1 := (effective suf1).
Notation long := (long_entry s1).
Notation nh := (new_hash s1 s2).

Lemma s2_ne : s2 <> [].
Proof. destruct Hs2 as ((c & Hc & _) & _). intros ->. destruct Hc. Qed.
Lemma eff2 : effective s2 = s2.
Proof. pose proof s2_ne. destruct s2; [congruence|reflexivity]. Qed.

Lemma nh_app a : nh (a ++ s1) = a ++ s2.
Proof. unfold new_hash. rewrite app_length, Nat.add_sub. rewrite firstn_app, Nat.sub_diag, firstn_all. cbn [firstn]. rewrite app_nil_r. reflexivity. Qed.

Lemma pc_change name : name <> [] -> rs s1 s2 (pc threshold suf1 name) = pc threshold s2 name.
Proof.
  intros Hn. unfold rs.
  destruct (pc_cases suf1 name Hn) as [(H & E1 & E2)|(H & E1 & E2)]; destruct (pc_cases s2 name Hn) as [(H' & E3 & E4)|(H' & E3 & E4)]; try lia.
  - rewrite E1, E3, short_not_suffix by exact Hs1. rewrite Bool.andb_false_r. reflexivity.
  - rewrite (proj2 (long_iff s1 (pc threshold suf1 name))).
    + rewrite E1, E3, nh_app, eff2. reflexivity.
    + split; [apply pc_hd; assumption|]. rewrite E1. apply ends_with_app.
Qed.

Lemma enc_hash_len m : length (enc32 (box (blake m))) = 77.
Proof. rewrite enc32_length, (box_length cmac keystream cmac_len ks_len), blake_len. reflexivity. Qed.

Lemma top_image_inj u l u' l' x : named suf1 u l -> named suf1 u' l' -> image s1 s2 u x -> image s1 s2 u' x -> u = u'.
Proof.
  intros (n & _ & Hn & _ & Eu & _) (n' & _ & Hn' & _ & Eu' & _) I1 I2.
  assert (C : forall v name, name <> [] -> v = pc threshold suf1 name -> image s1 s2 v x ->
     (x = v /\ exists a, x = enc32 a) \/ (exists a, length a = 77 /\ v = a ++ s1 /\ (x = a ++ s1 \/ x = a ++ s2))).
  { intros v name Hname Ev I. destruct (pc_cases suf1 name Hname) as [(H & E1 & E2)|(H & E1 & E2)].
    - left. destruct I as [->|((_ & L) & _)]; [rewrite Ev, E1; eauto|]. rewrite Ev, E1, short_not_suffix in L by exact Hs1. discriminate.
    - right. exists (enc32 (box (blake name))). split; [apply enc_hash_len|]. split; [congruence|].
      destruct I as [->|(_ & ->)]; [left; congruence|right]. rewrite Ev, E1. apply nh_app. }
  assert (NA : forall a b s, suffix_ok s -> enc32 a <> b ++ s).
  { intros a b s H E. pose proof (short_not_suffix s H a) as X. rewrite E, ends_with_app in X. discriminate. }
  destruct (C u n Hn Eu I1) as [(E1 & a & Ea)|(a & La & Ea & Xa)], (C u' n' Hn' Eu' I2) as [(E2 & b & Eb)|(b & Lb & Eb & Xb)].
  - congruence.
  - exfalso. destruct Xb as [Xb|Xb]; rewrite Ea in Xb; revert Xb; apply NA; assumption.
  - exfalso. destruct Xa as [Xa|Xa]; rewrite Eb in Xa; revert Xa; apply NA; assumption.
  - assert (HA : forall p q, x = a ++ p -> x = b ++ q -> a = b /\ p = q).
    { intros p q Hp Hq. rewrite Hp in Hq. assert (EL : a = b) by (rewrite <- (firstn_all2 (n:=77) a), <- (firstn_all2 (n:=77) b) by lia; replace (firstn 77 a) with (firstn 77 (a ++ p)) by (rewrite firstn_app, La; cbn [Nat.sub firstn]; rewrite app_nil_r; reflexivity); rewrite Hq, firstn_app, Lb; cbn [Nat.sub firstn]; rewrite app_nil_r; reflexivity). subst b. apply app_inv_head in Hq. auto. }
    destruct Xa as [Xa|Xa], Xb as [Xb|Xb]; destruct (HA _ _ Xa Xb) as (X & Y); congruence.
Qed.

Lemma long_split u : long u -> exists a, u = a ++ s1.
Proof.
  intros (_ & H). unfold ends_with in H. apply andb_true_iff in H. destruct H as (H1 & H2). apply bytes_eqb_eq in H2.
  exists (firstn (length u - length s1) u). transitivity (firstn (length u - length s1) u ++ skipn (length u - length s1) u); [symmetry; apply firstn_skipn|]. congruence.
Qed.
Lemma top_nh_ne u : long u -> nh u <> u.
Proof. intros L E. destruct (long_split u L) as (a & ->). rewrite nh_app in E. apply app_inv_head in E. congruence. Qed.
Lemma top_nh_TN u l : named suf1 u l -> long u -> nh u <> TN.
Proof.
  intros (n & _ & Hn & Hsl & Eu & _) L E. destruct (pc_cases suf1 n Hn) as [(H & E1 & E2)|(H & E1 & E2)].
  - destruct L as (_ & L). rewrite Eu, E1, short_not_suffix in L by exact Hs1. discriminate.
  - assert (Hx : nh u = pc threshold s2 n).
    { rewrite Eu, E1, nh_app. destruct (pc_cases s2 n Hn) as [(H' & E3 & E4)|(H' & E3 & E4)]; [lia|]. rewrite E3, eff2. reflexivity. }
    rewrite Hx in E. apply (pc_hd s2 ltac:(rewrite eff2; exact Hs2) n Hn). rewrite E. reflexivity.
Qed.

Variable fs0 : hfs.
Hypothesis inv0 : inv s1 (named suf1) fs0.

Lemma found_eq suffix fs names P l : suffix_ok (effective suffix) -> Forall (fun n => n <> [] /\ ~ In slash n) names -> names <> [] ->
  t_encrypt (make false threshold suffix None None) (path_of names) = Ok (P, l) ->
  found (make false threshold suffix None None) fs (path_of names) =
  lookup fs (map (pc threshold suffix) (removelast names)) (pc threshold suffix (last names [])).
Proof.
  intros Hs HF Hne He. unfold found. rewrite He, (comps_path suffix Hs names P l HF He).
  destruct names as [|n names _] using rev_ind; [congruence|]. rewrite map_app. cbn [map]. rewrite removelast_last, last_last.
  destruct (map (pc threshold suffix) names ++ [pc threshold suffix n]) eqn:E; [destruct (map (pc threshold suffix) names); discriminate|].
  rewrite <- E, parent_app, leaf_app. reflexivity.
Qed.

Theorem suffix_found dirs bad fs' path : tables fs0 dirs -> change_dirs s1 s2 bad dirs fs0 = (fs', Ok tt) -> okp path ->
  found (make false threshold s2 None None) fs' path = found (make false threshold suf1 None None) fs0 path.
Proof.
  intros HT Hc (names & HF & HOc & ->).
  destruct (new_names_total _ _ _ cmac_len ks_len blake_len threshold suf1 None None (path_of names) Ht) as (P1 & l1 & He1).
  destruct (new_names_total _ _ _ cmac_len ks_len blake_len threshold s2 None None (path_of names) Ht) as (P2 & l2 & He2).
  assert (Hs2' : suffix_ok (effective s2)) by (rewrite eff2; exact Hs2).
  destruct names as [|n names _] using rev_ind.
  - unfold found. rewrite He1, He2, (comps_path suf1 Hs1 [] P1 l1 HF He1), (comps_path s2 Hs2' [] P2 l2 HF He2). reflexivity.
  - assert (Hne : names ++ [n] <> []) by (destruct names; discriminate).
    rewrite (found_eq s2 fs' _ P2 l2 Hs2' HF Hne He2), (found_eq suf1 fs0 _ P1 l1 Hs1 HF Hne He1).
    rewrite removelast_last, last_last. apply Forall_app in HF. destruct HF as (HF & Hl). inversion Hl as [|x y (Hn & Hsl) _]. subst.
    apply Forall_app in HOc. destruct HOc as (HOc & Hl2). inversion Hl2 as [|x y Ho _]. subst.
    rewrite <- (found_again s1 s2 (named suf1) (top_named_long suf1 Hs1) (top_named_TN suf1 Hs1) top_image_inj top_nh_ne top_nh_TN fs0 inv0
                  dirs bad fs' (map (pc threshold suf1) names) (pc threshold suf1 n) HT Hc).
    + rewrite pc_change by exact Hn. f_equal. rewrite map_map. apply map_ext_in. intros m Hi. rewrite Forall_forall in HF.
      symmetry. apply pc_change. apply (HF m Hi).
    + apply Forall_forall. intros c Hi. apply in_map_iff in Hi. destruct Hi as (m & <- & Hi). rewrite Forall_forall in HF. destruct (HF m Hi) as (A & B).
      rewrite Forall_forall in HOc. specialize (HOc m Hi). eexists. exists m. eauto.
    + eexists. exists n. eauto.
Qed.

Lemma named_change u l : named suf1 u l -> named s2 (rs s1 s2 u) l.
Proof. intros (n & Ho & Hn & Hsl & -> & ->). exists n. rewrite pc_change by exact Hn. auto. Qed.

Theorem suffix_inv dirs bad fs' : tables fs0 dirs -> change_dirs s1 s2 bad dirs fs0 = (fs', Ok tt) -> inv s2 (named s2) fs'.
Proof.
  intros HT Hc. destruct (changed s1 s2 (named suf1) (top_named_long suf1 Hs1) (top_named_TN suf1 Hs1) top_image_inj top_nh_ne top_nh_TN fs0 inv0 dirs bad fs' HT Hc) as (T & HF & HB).
  assert (Hs2' : suffix_ok (effective s2)) by (rewrite eff2; exact Hs2).
  split; [exact T|]. intros q es Hq. destruct (HB q ltac:(congruence)) as (d & Hd & ->).
  destruct (fs0 d) as [es0|] eqn:Ed; [|congruence]. destruct (HF d es0 Ed) as (es1 & Hes & ND & F1 & F2 & F3 & F4).
  assert (es1 = es) by congruence. subst es1. pose proof (proj2 inv0 _ _ Ed) as [X1 X2 X3 X4 X5 X6].
  assert (Nm : forall u, ent u es0 <> None -> u <> TN -> exists l, named suf1 u l).
  { intros u Hu Nu. destruct (X5 u Hu) as [E|E]; [congruence|exact E]. }
  assert (HL : forall u l, named suf1 u l -> long_entry s2 (rs s1 s2 u) -> long u).
  { intros u l Hn L. apply (top_named_long suf1 Hs1 _ _ Hn). apply (top_named_long s2 Hs2' _ _ (named_change _ _ Hn)). rewrite eff2. exact L. }
  assert (HTN : ent TN es0 = None /\ ent TN es = None /\ rows es0 = [] /\ rows es = [] \/
     exists m, rows_as (rows es0) (rs s1 s2) m /\ ent TN es = Some (KTable m) /\ rows es = m).
  { destruct X6 as [E|(m0 & E)].
    - left. pose proof (F3 E) as E2. unfold rows. rewrite E, E2. auto.
    - right. destruct (F4 m0 E) as (m & E2 & R). exists m. unfold rows. rewrite E, E2. auto. }
  constructor.
  - exact ND.
  - destruct HTN as [(_ & _ & _ & ->)|(m & (R & _) & _ & ->)]; [constructor|exact R].
  - intros v Hv Lv. assert (Nv : v <> TN) by (intros ->; exact (not_long_TN s2 Lv)).
    destruct (F2 v Nv Hv) as (u & Nu & Hu & ->). destruct (Nm u Hu Nu) as (l & Hn). pose proof (HL u l Hn Lv) as Lu.
    destruct (X3 u Hu Lu) as (l0 & Hn0 & Hr). exists l0. split; [apply named_change; exact Hn0|].
    destruct HTN as [(_ & _ & E0 & _)|(m & (_ & R) & _ & ->)]; [rewrite E0 in Hr; discriminate|]. apply R. eauto.
  - intros v Hv. destruct HTN as [(_ & _ & _ & E)|(m & (_ & R) & _ & E)]; rewrite E in Hv; [cbn in Hv; congruence|].
    destruct (ent v m) as [l|] eqn:El; [|congruence]. apply R in El. destruct El as (u & Hu & ->).
    destruct (X4 u ltac:(congruence)) as (Lu & Hu'). assert (Nu : u <> TN) by (intros ->; exact (not_long_TN s1 Lu)).
    destruct (Nm u Hu' Nu) as (l0 & Hn). split.
    + pose proof (top_named_long s2 Hs2' _ _ (named_change _ _ Hn)) as HX. rewrite eff2 in HX. apply HX. apply (top_named_long suf1 Hs1 _ _ Hn). exact Lu.
    + rewrite F1 by assumption. exact Hu'.
  - intros v Hv. destruct (bytes_dec v TN) as [E|Nv]; [auto|right]. destruct (F2 v Nv Hv) as (u & Nu & Hu & ->).
    destruct (Nm u Hu Nu) as (l & Hn). exists l. apply named_change. exact Hn.
  - destruct HTN as [(_ & E & _)|(m & _ & E & _)]; eauto.
Qed.

Theorem suffix_succeeds dirs : tables fs0 dirs -> deep_first s1 dirs -> exists fs', change_dirs s1 s2 None dirs fs0 = (fs', Ok tt).
Proof. apply (change_succeeds s1 s2 (named suf1) (top_named_long suf1 Hs1) (top_named_TN suf1 Hs1) top_image_inj top_nh_ne top_nh_TN fs0 inv0). Qed.
End Two.
End Top.

(** ** From histories *)
Lemma benign_paths tr suffix ops : forall fs, benign_run tr suffix ops fs -> Forall fuse_path (flat_map op_paths ops).
Proof.
  induction ops as [|o ops IH]; intros fs HB; [constructor|]. destruct HB as ((H1 & _) & H2). cbn [flat_map].
  apply Forall_app. split; [exact H1|]. exact (IH _ H2).
Qed.

Lemma okp_all path : fuse_path path -> okp (fun _ => True) path.
Proof. intros (names & HF & E). exists names. split; [exact HF|]. split; [|exact E]. apply Forall_forall. auto. Qed.

Lemma okp_listed L path : fuse_path path -> incl (split_slash path) L -> okp (fun n => In n L) path.
Proof.
  intros (names & HF & E) Hi. exists names. split; [exact HF|]. split; [|exact E]. apply Forall_forall. intros n Hn. apply Hi.
  subst path. rewrite split_path_of; [right; exact Hn|intros ->; destruct Hn|exact HF].
Qed.

Section FromHistories.
Variable cmac : bytes -> bytes.
Variable keystream : bytes -> nat -> bytes.
Variable blake : bytes -> bytes.
Hypothesis cmac_len : forall m, length (cmac m) = 16.
Hypothesis ks_len : forall iv n, length (keystream iv n) = n.
Hypothesis blake_len : forall m, length (blake m) = 32.
Variable threshold : nat.
Hypothesis Ht : 0 < threshold.
Notation make := (make_translator cmac keystream blake).
Notation nm := (named cmac keystream blake threshold).

Lemma inv_recorded suffix occurs fs : suffix_ok (effective suffix) -> inv (effective suffix) (nm occurs suffix) fs ->
  all_recorded (make false threshold suffix None None) threshold (effective suffix) fs.
Proof.
  intros Hs HI d es u k Hd Hi Hl.
  assert (Hu : ent u es <> None). { apply (in_map fst) in Hi. cbn [fst] in Hi. apply ent_some in Hi. destruct Hi as (k' & ->). discriminate. }
  destruct (do_long _ _ _ (proj2 HI _ _ Hd) u Hu Hl) as (l & Hn & Hr).
  assert (Hne : l <> []) by (apply (top_named_long cmac keystream blake cmac_len ks_len blake_len threshold Ht occurs suffix Hs u l Hn); exact Hl).
  destruct (named_means cmac keystream blake cmac_len ks_len blake_len threshold Ht occurs suffix Hs u l Hn Hne) as (name & P & _ & H1 & _ & H2 & H3 & H4).
  exists name, P, l. repeat (split; [assumption|]). unfold table_of. unfold rows in Hr. destruct (ent TN es) as [[| |m]|]; try discriminate. rewrite Hr. reflexivity.
Qed.

Lemma inv_not_stale suffix occurs fs : inv (effective suffix) (nm occurs suffix) fs -> nothing_stale (effective suffix) fs.
Proof.
  intros HI d es m Hd Hm. pose proof (proj2 HI _ _ Hd) as Hok. assert (Hr : rows es = m) by (unfold rows; rewrite Hm; reflexivity).
  split; [rewrite <- Hr; apply Hok|]. intros u l Hi.
  assert (Hu : ent u m <> None). { apply (in_map fst) in Hi. cbn [fst] in Hi. apply ent_some in Hi. destruct Hi as (k' & ->). discriminate. }
  rewrite <- Hr in Hu. destruct (do_exact _ _ _ Hok u Hu) as (A & B). split; [exact A|].
  destruct (In_dec bytes_dec u (map fst es)) as [Hx|Hx]; [exact Hx|]. apply ent_none in Hx. contradiction.
Qed.

Section H1.
Variable suffix : bytes.
Hypothesis Hs : suffix_ok (effective suffix).
Notation tr := (make false threshold suffix None None).
Variable ops : list lop.
Hypothesis Hb : benign_run tr (effective suffix) ops empty_fs.

Lemma hist_inv L : incl (op_names ops) L -> inv (effective suffix) (nm (fun n => In n L) suffix) (lite_run tr ops empty_fs).
Proof.
  intros Hi. apply runs; auto. pose proof (benign_paths _ _ _ _ Hb) as HF. rewrite Forall_forall in *. intros p Hp.
  apply okp_listed; [apply HF; exact Hp|]. intros n Hn. apply Hi. unfold op_names. apply in_flat_map. eauto.
Qed.
Lemma hist_inv_all : inv (effective suffix) (nm (fun _ => True) suffix) (lite_run tr ops empty_fs).
Proof.
  apply runs; auto. pose proof (benign_paths _ _ _ _ Hb) as HF. rewrite Forall_forall in *. intros p Hp.
  apply okp_all. apply HF. exact Hp.
Qed.
End H1.
End FromHistories.
