(** Attributes of paths. *)
From Coq Require Import Lia.
From Verif Require Import Base BaseLemmas TextModel TextProofs NameModel NameSpec NameProofs NameTop LongNameModel LongNameSpec
  UnixPathModel UnixPathSpec PropertiesNames PropertiesUnixPath AttrPathModel AttrPathSpec.
Local Open Scope list_scope.

(** ** Resolution *)
Definition keep (w : bytes) : bool := negb (skipped w).
Lemma forallb_keep l : forallb skipped (filter keep l) = forallb skipped l.
Proof.
  induction l as [|w l IH]; [reflexivity|]. cbn [filter forallb]. unfold keep at 1. destruct (skipped w) eqn:E; cbn [negb andb]; [exact IH|].
  cbn [forallb]. rewrite E. reflexivity.
Qed.
Lemma filter_twice l : filter keep (filter keep l) = filter keep l.
Proof. induction l as [|w l IH]; [reflexivity|]. cbn [filter]. destruct (keep w) eqn:E; [cbn [filter]; rewrite E, IH; reflexivity|exact IH]. Qed.
Lemma walk_keep h fol hops : forall l a, walk h fol hops a l = walk h fol hops a (filter keep l).
Proof.
  induction hops as [|k IHk]; intros l; induction l as [|w l IH]; intros a; try reflexivity; cbn [filter]; unfold keep at 1; destruct (skipped w) eqn:E; cbn [negb].
  - cbn [walk]. rewrite E. exact (IH a).
  - cbn [walk]. rewrite E. destruct (bytes_eqb w [dot; dot]); [apply IH|]. destruct (ht_child (lh_tree h) a w) as [n|]; [|reflexivity].
    destruct (lh_link h n); [|apply IH]. rewrite forallb_keep. reflexivity.
  - cbn [walk]. rewrite E. exact (IH a).
  - cbn [walk]. rewrite E. destruct (bytes_eqb w [dot; dot]); [apply IH|]. destruct (ht_child (lh_tree h) a w) as [n|]; [|reflexivity].
    destruct (lh_link h n) as [text|]; [|apply IH]. rewrite forallb_keep. destruct (forallb skipped l && negb fol); [reflexivity|].
    rewrite IHk, filter_app. symmetry. rewrite IHk, filter_app, filter_twice. reflexivity.
Qed.
Lemma keep_comps P : filter keep (split_slash P) = comps P.
Proof.
  unfold comps. induction (split_slash P) as [|w l IH]; [reflexivity|]. cbn [filter]. rewrite IH. unfold keep, skipped.
  destruct (bytes_eqb w []), (bytes_eqb w [dot]); reflexivity.
Qed.
Lemma name_kept w : a_name w -> skipped w = false /\ bytes_eqb w [dot; dot] = false.
Proof.
  intros (H1 & H2 & H3 & _). unfold skipped. apply bytes_eqb_neq in H1. apply bytes_eqb_neq in H2. apply bytes_eqb_neq in H3. rewrite H1, H2, H3. split; reflexivity.
Qed.
Lemma walk_down h fol hops l : Forall a_name l -> forall a, no_link_on_way h a l ->
  (fol = true -> forall n, down (lh_tree h) a l = Some n -> l <> [] -> lh_link h n = None) ->
  walk h fol hops a l = match down (lh_tree h) a l with Some n => Ok n | None => Err (EPosix 2) end.
Proof.
  intros HN. induction HN as [|w l Hw HN IH]; intros a HW HF; [destruct hops; reflexivity|].
  destruct (name_kept w Hw) as (E1 & E2). cbn [down] in *.
  assert (K : walk h fol hops a (w :: l) = match ht_child (lh_tree h) a w with None => Err (EPosix 2) | Some n =>
     match lh_link h n with None => walk h fol hops n l | Some text =>
       if forallb skipped l && negb fol then Ok n else match hops with O => Err ELOOP
         | S k => walk h fol k (if is_absolute text then ht_root (lh_tree h) else a) (split_slash text ++ l) end end end).
  { destruct hops; cbn [walk]; rewrite E1, E2; reflexivity. }
  rewrite K. clear K. destruct (ht_child (lh_tree h) a w) as [n|] eqn:Ec; [|reflexivity].
  assert (D1 : down (lh_tree h) a [w] = Some n) by (cbn [down]; rewrite Ec; reflexivity).
  destruct l as [|v l].
  - cbn [down] in *. destruct (lh_link h n) as [text|] eqn:El; [|destruct hops; reflexivity].
    destruct fol; [|reflexivity]. rewrite (HF eq_refl n eq_refl) in El by discriminate. discriminate El.
  - rewrite (HW [w] (v :: l) n eq_refl ltac:(discriminate) ltac:(discriminate) D1). apply IH.
    + intros before rest m Eb Nb Nr Dm. apply (HW (w :: before) rest m); [cbn [app]; rewrite <- Eb; reflexivity|discriminate|exact Nr|]. cbn [down]. rewrite Ec. exact Dm.
    + intros Hf m Dm Nl. exact (HF Hf m Dm ltac:(discriminate)).
Qed.

(** ** Where the paths lead *)
Definition good (trans : translator) (p : bytes) : Prop :=
  forall P l, t_encrypt trans p = Ok (P, l) -> P <> [] /\ is_absolute P = false /\ Forall a_name (comps P).
Lemma good_lresolve trans h dir p P l fol : good trans p -> t_encrypt trans p = Ok (P, l) -> no_link_on_way h dir (comps P) ->
  (fol = true -> forall n, place trans (lh_tree h) dir p = Ok n -> comps P <> [] -> lh_link h n = None) ->
  lresolve h dir P fol = place trans (lh_tree h) dir p.
Proof.
  intros G E HW HF. destruct (G P l E) as (NP & AP & HN). unfold place in *. rewrite E in *. unfold lresolve. destruct P as [|c P]; [contradiction|].
  rewrite AP, walk_keep, keep_comps. apply walk_down; [exact HN|exact HW|]. intros Hf n Dn Nl. apply HF; [exact Hf| |exact Nl]. rewrite Dn. reflexivity.
Qed.
Lemma good_encrypted cmac ks blake : sizes_ok cmac ks blake ->
  forall threshold suffix, (0 < threshold -> suffix_ok (suffix_in_force suffix)) ->
  forall p names, names_path p names -> good (make_translator cmac ks blake false threshold suffix None None) p.
Proof.
  intros HK threshold suffix Hs p names Hp P l E.
  destruct (C93_encrypted cmac ks blake HK threshold suffix Hs p names P l Hp E) as (NP & RP & _). split; [exact NP|].
  split; [destruct P as [|c P]; [contradiction|]; cbn [hd is_absolute] in *; apply slash_neqb; exact RP|].
  destruct Hp as (_ & ->). assert (Hh : hd x00 (path_of names) = slash) by (destruct names; reflexivity).
  destruct (C31_encrypted_paths_stay_inside cmac ks blake HK threshold suffix Hs _ P l Hh E) as [HF _].
  change (comps P) with (steps P). clear - HF.
  induction HF as [|a b x y (H1 & H2 & _) _ IH]; constructor; [|exact IH]. repeat split; [| | |exact H2]; intros ->; cbn in H1; lia.
Qed.
Lemma good_plain cmac ks blake threshold suffix nfc fold p names : names_path p names -> good (make_translator cmac ks blake true threshold suffix nfc fold) p.
Proof.
  intros [Hn ->] P l E. cbn [make_translator t_encrypt noop_translator] in E. unfold noop_encrypt_full in E.
  assert (EP : P = dot :: path_of names) by (destruct names as [|n names]; cbn in E; injection E as <- _; reflexivity). subst P.
  split; [discriminate|]. split; [reflexivity|]. rewrite <- keep_comps, split_cons_other by discriminate.
  destruct names as [|n names]; [constructor|]. rewrite split_path_of by (exact Hn || discriminate).
  change (Forall a_name (filter keep (n :: names))). revert Hn. generalize (n :: names). clear. intros r Hn. induction Hn as [|x r Hx Hr IH]; [constructor|]. cbn [filter].
  unfold keep at 1. rewrite (proj1 (name_kept x Hx)). constructor; [exact Hx|exact IH].
Qed.

(** ** Calls *)
Section Calls.
Variable trans : translator.
Variables able_mode able_owner : bool.
Variable dir : nat.
Notation step := (a_step trans able_mode able_owner dir).

Lemma set_ok able bad h p P l f fol : good trans p -> t_encrypt trans p = Ok (P, l) -> no_link_on_way h dir (comps P) ->
  (forall n, place trans (lh_tree h) dir p = Ok n -> lh_link h n = None \/ (able = true /\ fol = false)) ->
  host_set able bad h dir P fol f =
  match place trans (lh_tree h) dir p with
  | Err e => (h, Err e)
  | Ok n => match bad with Some e => (h, Err e) | None => (set_attr h n f, Ok tt) end
  end.
Proof.
  intros G E HW HC. unfold host_set. rewrite (good_lresolve trans h dir p P l fol G E HW).
  - destruct (place trans (lh_tree h) dir p) as [n|e] eqn:Ep; [|reflexivity]. destruct bad; [reflexivity|]. destruct (HC n eq_refl) as [K|(K & _)]; rewrite K; [reflexivity|].
    destruct (lh_link h n); reflexivity.
  - intros Hf n Dn _. destruct (HC n Dn) as [K|(_ & K)]; [exact K|]. rewrite Hf in K. discriminate K.
Qed.

Definition agree (x : lhost * aout) (y : (nat -> attrs) * aout) (h : lhost) : Prop :=
  lh_tree (fst x) = lh_tree h /\ lh_link (fst x) = lh_link h /\ lh_attr (fst x) = fst y /\ snd x = snd y.


Lemma place_err p P l t e : t_encrypt trans p = Ok (P, l) -> place trans t dir p = Err e -> e = EPosix 2.
Proof. unfold place. intros ->. destruct (down t dir (comps P)); intros K; [discriminate K|injection K as <-; reflexivity]. Qed.

Lemma follow_ok able b1 b2 h p P l f : good trans p -> t_encrypt trans p = Ok (P, l) -> no_link_on_way h dir (comps P) ->
  (forall n, place trans (lh_tree h) dir p = Ok n -> lh_link h n = None \/ (able = true /\ b1 <> Some (EPosix 95))) ->
  set_or_follow dir able b1 b2 h P f =
  match place trans (lh_tree h) dir p with
  | Err e => (h, Err e)
  | Ok n => match refusal b1 b2 with Some e => (h, Err e) | None => (set_attr h n f, Ok tt) end
  end.
Proof.
  intros G E HW HC. unfold set_or_follow. rewrite (set_ok able b1 h p P l f false G E HW) by (intros n Hn; destruct (HC n Hn) as [K|(K & _)]; auto).
  destruct (place trans (lh_tree h) dir p) as [n|e] eqn:Ep; [|rewrite (place_err _ _ _ _ _ E Ep); reflexivity].
  destruct b1 as [e|]; [|reflexivity]. unfold refusal.
  assert (D : e = EPosix 95 \/ e <> EPosix 95).
  { destruct e as [| | | | |k| |]; try (right; intros Q; discriminate Q). destruct (N.eq_dec k 95) as [->|Nk]; [left; reflexivity|right; congruence]. }
  destruct D as [->|Ne].
  - rewrite (set_ok able b2 h p P l f true G E HW).
    + rewrite Ep. reflexivity.
    + rewrite Ep. intros m Hm. destruct (HC m Hm) as [K|(_ & K)]; [left; exact K|contradiction].
  - assert (K : forall A (x y : A), match e with EPosix 95 => x | _ => y end = y).
    { intros A x y. destruct e as [| | | | |k| |]; try reflexivity. destruct k as [|q]; [reflexivity|].
      repeat (destruct q as [q|q|]; try reflexivity). contradiction. }
    rewrite K. assert (K2 : match e with EPosix 95 => b2 | _ => Some e end = Some e) by apply K. rewrite K2. reflexivity.
Qed.

Lemma step_ok h o : good trans (path_in o) -> as_handed_over trans h dir able_mode able_owner o ->
  agree (step h o) (sp_step (place trans (lh_tree h) dir) (lh_attr h) o) h.
Proof.
  intros G (_ & HW & HC). destruct o as [p|p mode b1 b2|p u g b1 b2|p ta tm now b]; cbn [a_step sp_step path_in] in *.
  - destruct (t_encrypt trans p) as [[P l]|e] eqn:E.
    + rewrite (good_lresolve trans h dir p P l false G E (HW P l eq_refl)) by (intros K; discriminate K). repeat (split; [reflexivity|]).
      cbn [snd]. destruct (place trans (lh_tree h) dir p); reflexivity.
    + unfold place. rewrite E. repeat (split; [reflexivity|]). reflexivity.
  - destruct (t_encrypt trans p) as [[P l]|e] eqn:E.
    + rewrite (follow_ok able_mode b1 b2 h p P l _ G E (HW P l eq_refl)) by (intros n Hn; destruct (HC n Hn) as [K|K]; auto).
      unfold sp_set. destruct (place trans (lh_tree h) dir p) as [n|e]; [destruct (refusal b1 b2)|]; repeat (split; [reflexivity|]); reflexivity.
    + unfold sp_set, place. rewrite E. repeat (split; [reflexivity|]). reflexivity.
  - destruct (t_encrypt trans p) as [[P l]|e] eqn:E.
    + rewrite (follow_ok able_owner b1 b2 h p P l _ G E (HW P l eq_refl)) by (intros n Hn; destruct (HC n Hn) as [K|K]; auto).
      unfold sp_set. destruct (place trans (lh_tree h) dir p) as [n|e]; [destruct (refusal b1 b2)|]; repeat (split; [reflexivity|]); reflexivity.
    + unfold sp_set, place. rewrite E. repeat (split; [reflexivity|]). reflexivity.
  - destruct (t_encrypt trans p) as [[P l]|e] eqn:E.
    + rewrite (set_ok true b h p P l _ false G E (HW P l eq_refl)) by (intros n Hn; right; split; reflexivity).
      unfold sp_set. destruct (place trans (lh_tree h) dir p) as [n|e]; [destruct b|]; repeat (split; [reflexivity|]); reflexivity.
    + unfold sp_set, place. rewrite E. repeat (split; [reflexivity|]). reflexivity.
Qed.

Lemma handed_same h h' o : lh_tree h' = lh_tree h -> lh_link h' = lh_link h ->
  as_handed_over trans h dir able_mode able_owner o -> as_handed_over trans h' dir able_mode able_owner o.
Proof. intros E1 E2. unfold as_handed_over, no_link_on_way, can. rewrite E1, E2. exact (fun H => H). Qed.

Theorem run_ok ops : forall h, Forall (fun o => good trans (path_in o) /\ as_handed_over trans h dir able_mode able_owner o) ops ->
  let '(h', r) := a_run trans able_mode able_owner dir h ops in
  lh_tree h' = lh_tree h /\ lh_link h' = lh_link h /\ (lh_attr h', r) = sp_run (place trans (lh_tree h) dir) (lh_attr h) ops.
Proof.
  induction ops as [|o ops IH]; intros h H; [repeat (split; [reflexivity|]); reflexivity|].
  inversion H as [|? ? (G & HO) H']; subst. cbn [a_run sp_run]. destruct (step_ok h o G HO) as (A1 & A2 & A3 & A4).
  destruct (step h o) as [h1 r]. cbn [fst snd] in *.
  assert (H1 : Forall (fun o => good trans (path_in o) /\ as_handed_over trans h1 dir able_mode able_owner o) ops).
  { apply Forall_forall. intros x Hx. destruct (proj1 (Forall_forall _ _) H' x Hx) as (B1 & B2). split; [exact B1|]. exact (handed_same _ _ _ A1 A2 B2). }
  specialize (IH h1 H1). destruct (a_run trans able_mode able_owner dir h1 ops) as [h2 rs]. destruct IH as (I1 & I2 & I3).
  rewrite A1, A3 in I3. destruct (sp_step (place trans (lh_tree h) dir) (lh_attr h) o) as [m1 r1]. cbn [fst snd] in *. subst r1.
  destruct (sp_run (place trans (lh_tree h) dir) m1 ops) as [m2 rs2]. injection I3 as -> ->. rewrite I1, I2, A1, A2. repeat (split; [reflexivity|]). reflexivity.
Qed.
End Calls.

(** ** Links of encrypted names *)
Lemma link_chunks_head fuel b s : link_chunks fuel b = Ok s -> s = [] \/ exists r, s = slash :: r.
Proof.
  destruct b as [|x b], fuel as [|f]; cbn [link_chunks]; intros E; try (injection E as <-; left; reflexivity); try discriminate E.
  rewrite base32_encode_ok in E. cbn [rbind] in E. destruct (link_chunks f _) as [r|e]; [|discriminate E]. injection E as <-. right. eexists. reflexivity.
Qed.
Lemma link_text cmac ks blake : sizes_ok cmac ks blake -> forall target text, target <> [] -> new_link_enc cmac ks target = Ok text ->
  is_absolute text = true /\ exists w rest, a_name w /\ split_slash text = [] :: w :: rest.
Proof.
  intros (H1 & H2 & H3) target text Nt E. unfold new_link_enc in E. destruct target as [|c t]; [contradiction|].
  pose proof (box_length cmac ks H1 H2 (c :: t)) as HL. destruct (siv_box cmac ks (c :: t)) as [|x b]; [discriminate HL|].
  remember (length (x :: b)) as fuel. destruct fuel as [|f]; [discriminate Heqfuel|]. cbn [link_chunks] in E. rewrite base32_encode_ok in E. cbn [rbind] in E.
  set (w := enc32 (firstn kComponentSizeInSymlink (x :: b))) in *.
  destruct (link_chunks f (skipn kComponentSizeInSymlink (x :: b))) as [r|e] eqn:Er; [|discriminate E]. cbn [rbind] in E. injection E as <-.
  split; [reflexivity|].
  assert (Hw : 2 < length w).
  { unfold w. rewrite enc32_length, firstn_length. unfold encode_groups, kComponentSizeInSymlink.
    assert (17 <= Nat.min 60 (length (x :: b))) by (rewrite <- Heqfuel, HL; cbn [length]; lia).
    pose proof (Nat.div_mod (Nat.min 60 (length (x :: b)) * 8 + 4) 5 ltac:(lia)). pose proof (Nat.mod_upper_bound (Nat.min 60 (length (x :: b)) * 8 + 4) 5 ltac:(lia)). lia. }
  assert (Hs : ~ In slash w) by apply enc32_no_slash.
  assert (A : a_name w) by (repeat split; [| | |exact Hs]; intros Q; rewrite Q in Hw; cbn in Hw; lia).
  rewrite split_cons_slash. destruct (link_chunks_head _ _ _ Er) as [->|(r' & ->)].
  - exists w, []. split; [exact A|]. rewrite app_nil_r, split_simple by exact Hs. reflexivity.
  - exists w, (split_slash r'). split; [exact A|]. rewrite split_app_slash, split_simple by exact Hs. reflexivity.
Qed.

Lemma walk_app_link h hops l w n text : Forall a_name l -> a_name w -> forall a m, no_link_on_way h a (l ++ [w]) ->
  down (lh_tree h) a l = Some m -> ht_child (lh_tree h) m w = Some n -> lh_link h n = Some text ->
  walk h true (S hops) a (l ++ [w]) = walk h true hops (if is_absolute text then ht_root (lh_tree h) else m) (split_slash text ++ []).
Proof.
  intros Hl Hw. destruct (name_kept w Hw) as (W1 & W2). induction Hl as [|v l Hv Hl IH]; intros a m HW Dm Cn Ln; cbn [app].
  - cbn [down] in Dm. injection Dm as <-. cbn [walk]. rewrite W1, W2, Cn, Ln. cbn [forallb andb negb]. reflexivity.
  - destruct (name_kept v Hv) as (V1 & V2). cbn [down] in Dm. destruct (ht_child (lh_tree h) a v) as [x|] eqn:Cx; [|discriminate Dm].
    assert (Lx : lh_link h x = None).
    { apply (HW [v] (l ++ [w]) x eq_refl); [discriminate|destruct l; discriminate|]. cbn [down]. rewrite Cx. reflexivity. }
    assert (HW' : no_link_on_way h x (l ++ [w])).
    { intros before rest k Eb Nb Nr Dk. apply (HW (v :: before) rest k); [cbn [app]; rewrite <- Eb; reflexivity|discriminate|exact Nr|]. cbn [down]. rewrite Cx. exact Dk. }
    specialize (IH x m HW' Dm Cn Ln). rewrite <- IH. cbn [walk]. rewrite V1, V2, Cx, Lx. reflexivity.
Qed.
Lemma down_snoc t l w : forall a n, down t a (l ++ [w]) = Some n -> exists m, down t a l = Some m /\ ht_child t m w = Some n.
Proof.
  induction l as [|v l IH]; intros a n; cbn [app down].
  - destruct (ht_child t a w) as [x|] eqn:E; intros K; [|discriminate K]. injection K as <-. exists a. split; [reflexivity|exact E].
  - destruct (ht_child t a v) as [x|]; [apply IH|intros K; discriminate K].
Qed.

(** A second attempt on a link with a text of this kind ends at the host's root. *)
Lemma follow_lost h dir trans p P l n text w rest f bad2 able :
  good trans p -> t_encrypt trans p = Ok (P, l) -> no_link_on_way h dir (comps P) -> comps P <> [] ->
  place trans (lh_tree h) dir p = Ok n -> lh_link h n = Some text -> is_absolute text = true -> split_slash text = [] :: w :: rest -> a_name w ->
  ht_child (lh_tree h) (ht_root (lh_tree h)) w = None ->
  host_set able bad2 h dir P true f = (h, Err (EPosix 2)).
Proof.
  intros G E HW NC Pn Ln AT Es Aw Rw. destruct (G P l E) as (NP & AP & HN). unfold place in Pn. rewrite E in Pn.
  destruct (down (lh_tree h) dir (comps P)) as [n'|] eqn:D; [|discriminate Pn]. injection Pn as ->.
  unfold host_set, lresolve. destruct P as [|c P]; [contradiction|]. rewrite AP, walk_keep, keep_comps.
  destruct (exists_last NC) as (l0 & v & El). rewrite El in *. destruct (down_snoc _ _ _ _ _ D) as (m & D1 & D2).
  apply Forall_app in HN as (HN1 & HN2). inversion HN2 as [|? ? Hv _]; subst.
  rewrite (walk_app_link h 39 l0 v n text HN1 Hv dir m HW D1 D2 Ln), AT, Es. destruct (name_kept w Aw) as (W1 & W2).
  change (([] :: w :: rest) ++ []) with ([] :: w :: (rest ++ [])). remember 39 as k. assert (K : walk h true k (ht_root (lh_tree h)) ([] :: w :: (rest ++ [])) = Err (EPosix 2)).
  { destruct k; cbn [walk]; change (skipped []) with true; cbv iota; rewrite W1, W2, Rw; reflexivity. }
  rewrite K. reflexivity.
Qed.
