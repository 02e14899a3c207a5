(** Crash locality (C09): proofs. *)
From Verif Require Import Base BaseLemmas StreamSpec BlockModel BlockProofs LiteModel LiteProofs LiteTamper
  FullStreamModel FullStreamProofs CrashModel CrashSpec.

(** ** What is left of a file *)
Lemma left_nil f f' : left_over f [] f' -> f' = f.
Proof.
  intros [K A B]. assert (L : length f' = length f).
  { apply Nat.le_antisymm; [apply B; [lia|intros p []]|apply A; [lia|intros n []]]. }
  apply bytes_ext; [exact L|]. intros i Hi. apply K; [lia|lia|intros p []].
Qed.

Lemma left_before f l f' K x m :
  left_over f l f' -> K <= length f ->
  (forall p, In p l -> match p with PWrite o _ => K <= o | PResize n => K <= n end) ->
  x + m <= K -> arr_read f' x m = arr_read f x m.
Proof.
  intros [KK A B] HK Hl Hx. assert (L : K <= length f').
  { apply A; [exact HK|]. intros n Hn. exact (Hl _ Hn). }
  apply bytes_ext; [rewrite !arr_read_length; lia|]. intros i Hi. rewrite arr_read_length in Hi. rewrite !get_arr_read.
  destruct (Nat.ltb_spec i m); [|reflexivity]. apply KK; [lia|lia|].
  intros p Hp. specialize (Hl p Hp). destruct p as [o d|n]; cbn [reaches]; lia.
Qed.

Lemma left_after f l f' K x m :
  left_over f l f' -> K <= length f ->
  (forall p, In p l -> match p with PWrite o d => o + length d <= K | PResize n => False end) ->
  K <= x -> arr_read f' x m = arr_read f x m.
Proof.
  intros [KK A B] HK Hl Hx.
  assert (L : length f' = length f).
  { apply Nat.le_antisymm.
    - apply B; [lia|]. intros p Hp. specialize (Hl p Hp). destruct p as [o [|b d]|n]; cbn [far length] in *; lia.
    - apply A; [lia|]. intros n Hn. destruct (Hl _ Hn). }
  apply bytes_ext; [rewrite !arr_read_length; lia|]. intros i Hi. rewrite arr_read_length in Hi. rewrite !get_arr_read.
  destruct (Nat.ltb_spec i m); [|reflexivity]. apply KK; [lia|lia|].
  intros p Hp. specialize (Hl p Hp). destruct p as [o d|n]; cbn [reaches]; [lia|easy].
Qed.

(** The death of the process between two operations, and within a write, are among the cases. *)
Lemma left_over_refl f l : left_over f l f.
Proof. constructor; auto. Qed.
Lemma left_over_more f l1 l2 f' : left_over f l1 f' -> left_over f (l1 ++ l2) f'.
Proof.
  intros [K A B]. constructor.
  - intros i H1 H2 H3. apply K; auto. intros p Hp. apply H3, in_or_app. now left.
  - intros k H1 H2. apply A; auto. intros n Hn. apply H2, in_or_app. now left.
  - intros k H1 H2. apply B; auto. intros p Hp. apply H2, in_or_app. now left.
Qed.
Lemma left_over_step f l f' p : left_over f l f' -> left_over f (l ++ [p]) (perform f' p).
Proof.
  intros [K A B]. constructor.
  - intros i H1 H2 H3.
    assert (Hp : ~ reaches p i) by (apply H3, in_or_app; right; now left).
    assert (Hl : forall q, In q l -> ~ reaches q i) by (intros q Hq; apply H3, in_or_app; now left).
    assert (L : i < length f').
    { apply A; [exact H1|]. intros n Hn. specialize (Hl _ Hn). cbn [reaches] in Hl. lia. }
    rewrite <- (K i H1 L Hl). change (get (perform f' p) i = get f' i). destruct p as [o d|n]; cbn [perform reaches] in *.
    + rewrite get_arr_write. destruct (Nat.leb_spec o i); [|reflexivity]. destruct (Nat.ltb_spec i (o + length d)); [lia|reflexivity].
    + rewrite get_arr_resize. destruct (Nat.ltb_spec i n); [reflexivity|lia].
  - intros k H1 H2. assert (L : k <= length f') by (apply A; [exact H1|intros n Hn; apply H2, in_or_app; now left]).
    destruct p as [o d|n]; cbn [perform].
    + rewrite arr_write_length. destruct d; lia.
    + rewrite arr_resize_length. apply H2, in_or_app. right. now left.
  - intros k H1 H2. assert (L : length f' <= k) by (apply B; [exact H1|intros q Hq; apply H2, in_or_app; now left]).
    assert (Hp : far p <= k) by (apply H2, in_or_app; right; now left).
    destruct p as [o d|n]; cbn [perform far] in *.
    + rewrite arr_write_length. destruct d; cbn [length] in *; lia.
    + rewrite arr_resize_length. exact Hp.
Qed.
Lemma left_over_replay l : forall f, left_over f l (replay f l).
Proof.
  induction l as [|p l IH] using rev_ind; intros f; [apply left_over_refl|].
  unfold replay. rewrite fold_left_app. apply left_over_step, IH.
Qed.
Lemma left_over_torn f l1 o d l2 n :
  left_over f (l1 ++ PWrite o d :: l2) (perform (replay f l1) (PWrite o (firstn n d))).
Proof.
  replace (l1 ++ PWrite o d :: l2) with ((l1 ++ [PWrite o d]) ++ l2) by (rewrite <- app_assoc; reflexivity).
  apply left_over_more. pose proof (left_over_step f l1 (replay f l1) (PWrite o (firstn n d)) (left_over_replay l1 f)) as [K A B].
  constructor.
  - intros i H1 H2 H3. apply K; auto. intros p Hp Hr. apply in_app_or in Hp as [Hp|[<-|[]]].
    + apply (H3 p); [apply in_or_app; now left|exact Hr].
    + apply (H3 (PWrite o d)); [apply in_or_app; right; now left|]. cbn [reaches] in *. rewrite firstn_length in Hr. lia.
  - intros k H1 H2. apply A; auto. intros m Hm. apply H2. apply in_app_or in Hm as [Hm|[Hm|[]]]; [apply in_or_app; now left|discriminate].
  - intros k H1 H2. apply B; auto. intros p Hp. apply in_app_or in Hp as [Hp|[<-|[]]]; [apply H2, in_or_app; now left|].
    specialize (H2 (PWrite o d) ltac:(apply in_or_app; right; now left)). cbn [far] in *. destruct n, d; cbn [firstn length] in *; try rewrite firstn_length; lia.
Qed.

(** ** Tracing does not change what happens *)
Section TraceSim.
  Context {P : Type}.
  Variable B : backend.
  Variable on_write : nat -> nat -> nat -> bytes -> bk_state B -> list P.
  Variable on_adjust : nat -> bk_state B -> list P.
  Notation T := (traced B on_write on_adjust).
  Definition plain {R} (x : bk_state T * R) : bk_state B * R := (fst (fst x), snd x).

  Lemma tr_write a e r d x : plain (bk_write T a e r d x) = bk_write B a e r d (fst x).
  Proof. cbn [traced bk_write]. destruct (bk_write B a e r d (fst x)). reflexivity. Qed.
  Lemma tr_adjust n x : plain (bk_adjust T n x) = bk_adjust B n (fst x).
  Proof. cbn [traced bk_adjust]. destruct (bk_adjust B n (fst x)). reflexivity. Qed.
  Lemma tr_unchecked w off x : plain (bb_unchecked_write T w off x) = bb_unchecked_write B w off (fst x).
  Proof.
    unfold bb_unchecked_write. change (bk_bs T) with (bk_bs B). change (bk_read T) with (fun a b (x : bk_state T) => bk_read B a b (fst x)). cbv beta zeta.
    destruct (winput_len w <=? 0); [reflexivity|].
    destruct (_ && _); [destruct w; apply tr_write|].
    match goal with |- plain (match ?x with _ => _ end) = _ => destruct x as [b1|] end; [|reflexivity].
    match goal with |- plain (match ?x with _ => _ end) = _ => destruct x as [[b2 k]|] end; [|reflexivity].
    apply tr_write.
  Qed.
  Lemma tr_then x y k k' : plain x = y -> (forall z, plain (k z) = k' (fst z)) -> plain (then_ T x k) = then_ B y k'.
  Proof. intros <- H. destruct x as [z [[]|e]]; cbn; [apply H|reflexivity]. Qed.
  Lemma tr_resize cur new x : plain (bb_unchecked_resize T cur new x) = bb_unchecked_resize B cur new (fst x).
  Proof.
    unfold bb_unchecked_resize, bb_zero_fill. change (bk_bs T) with (bk_bs B). change (bk_sparse T) with (bk_sparse B).
    destruct (new =? cur); [reflexivity|]. destruct (new <? cur).
    - apply tr_then; [|apply tr_adjust]. destruct (0 <? new mod bk_bs B); [|reflexivity].
      change (bk_read T) with (fun a b (x : bk_state T) => bk_read B a b (fst x)). cbv beta.
      destruct (rmap _ _); [apply tr_write|reflexivity].
    - apply tr_then; [|apply tr_adjust]. destruct (_ || _); apply tr_unchecked.
  Qed.
  Lemma tr_step s l o : plain (bb_step T (s, l) o) = bb_step B s o.
  Proof.
    destruct o; cbn [bb_step]; try reflexivity.
    - assert (H : plain (bb_write T off data (s, l)) = bb_write B off data s).
      { unfold bb_write. destruct (length data <=? 0); [reflexivity|]. change (bk_size T (s, l)) with (bk_size B s).
        apply tr_then; [|intros z; apply tr_unchecked]. destruct (bk_size B s <? off); [apply tr_resize|reflexivity]. }
      rewrite <- H. destruct (bb_write T off data (s, l)) as [[s1 l1] r1]. reflexivity.
    - pose proof (tr_resize (bk_size B s) n (s, l)) as H. cbn [fst] in H. unfold bb_resize. change (bk_size T (s, l)) with (bk_size B s). rewrite <- H.
      destruct (bb_unchecked_resize T (bk_size B s) n (s, l)) as [[s1 l1] r1]. reflexivity.
  Qed.
End TraceSim.

(** ** Where an operation writes *)
Section TraceRange.
  Context {P : Type}.
  Variable B : backend.
  Variable on_write : nat -> nat -> nat -> bytes -> bk_state B -> list P.
  Variable on_adjust : nat -> bk_state B -> list P.
  Notation T := (traced B on_write on_adjust).
  Notation bs := (bk_bs B).
  Variable J : bk_state B -> Prop.
  Variable Q : P -> Prop.
  Variable lo : nat.
  Variable hi : option nat.
  Definition upto (n : nat) : Prop := match hi with Some t => n <= t | None => True end.
  Hypothesis Hbs : 0 < bs.
  Hypothesis HJw : forall a e r d s, J s -> J (fst (bk_write B a e r d s)).
  Hypothesis HJa : forall n s, J s -> J (fst (bk_adjust B n s)).
  Hypothesis Hread : forall a s out, J s -> bk_read B a (a + 1) s = Ok out -> length out <= bs.
  Hypothesis HQw : forall a e r d s, J s -> lo <= a -> a <= e -> r <= bs -> upto (e + b2nat (0 <? r)) -> Forall Q (on_write a e r d s).
  Hypothesis HQa : forall n s, J s -> hi = None -> lo * bs <= n -> Forall Q (on_adjust n s).

  Definition good (x : bk_state T) : Prop := J (fst x) /\ Forall Q (snd x).

  Lemma good_write a e r d x : good x -> lo <= a -> a <= e -> r <= bs -> upto (e + b2nat (0 <? r)) -> good (fst (bk_write T a e r d x)).
  Proof.
    intros [HJ HQ] H1 H2 H3 H4. cbn [traced bk_write]. pose proof (HJw a e r d (fst x) HJ) as HJ'. destruct (bk_write B a e r d (fst x)) as [s' o]. cbn [fst snd] in *.
    split; [exact HJ'|]. apply Forall_app. split; [exact HQ|]. now apply HQw.
  Qed.
  Lemma good_adjust n x : good x -> hi = None -> lo * bs <= n -> good (fst (bk_adjust T n x)).
  Proof.
    intros [HJ HQ] H1 H2. cbn [traced bk_adjust]. pose proof (HJa n (fst x) HJ) as HJ'. destruct (bk_adjust B n (fst x)) as [s' o]. cbn [fst snd] in *.
    split; [exact HJ'|]. apply Forall_app. split; [exact HQ|]. now apply HQa.
  Qed.

  Lemma lo_div n : lo * bs <= n -> lo <= n / bs.
  Proof. intros H. apply Nat.div_le_lower_bound; lia. Qed.

  Lemma good_unchecked w off x : good x -> lo * bs <= off ->
    upto ((off + winput_len w) / bs + b2nat (0 <? (off + winput_len w) mod bs)) -> good (fst (bb_unchecked_write T w off x)).
  Proof.
    intros HG Hlo Hup. unfold bb_unchecked_write. change (bk_bs T) with (bk_bs B). change (bk_read T) with (fun a b (x : bk_state T) => bk_read B a b (fst x)). cbv beta zeta.
    destruct (Nat.leb_spec (winput_len w) 0); [exact HG|]. apply lo_div in Hlo.
    set (len := winput_len w) in *.
    assert (Hse : off / bs <= (off + len) / bs) by (apply Nat.div_le_mono; lia).
    destruct ((off mod bs =? 0) && ((off + len) mod bs =? 0)) eqn:Eal.
    { apply andb_prop in Eal as [_ E2]. apply Nat.eqb_eq in E2. rewrite E2 in Hup. cbn [b2nat Nat.ltb Nat.leb] in Hup.
      destruct w; (apply good_write; [exact HG|exact Hlo|exact Hse|lia|exact Hup]). }
    match goal with |- good (fst (match ?x with _ => _ end)) => destruct x as [b1|] end; [|exact HG].
    destruct (Nat.ltb_spec 0 ((off + len) mod bs)) as [Her|Her].
    - destruct (bk_read B ((off + len) / bs) ((off + len) / bs + 1) (fst x)) as [out|] eqn:Er; cbn [rmap]; [|exact HG].
      pose proof (Hread _ _ _ (proj1 HG) Er) as Hl. pose proof (Nat.mod_upper_bound (off + len) bs ltac:(lia)).
      apply good_write; [exact HG|exact Hlo|exact Hse|lia|]. destruct (Nat.ltb_spec 0 (max ((off + len) mod bs) (length out))); [|lia]. exact Hup.
    - apply good_write; [exact HG|exact Hlo|exact Hse|lia|exact Hup].
  Qed.

  Lemma good_then x k : good (fst x) -> (forall z, good z -> good (fst (k z))) -> good (fst (then_ T x k)).
  Proof. destruct x as [z [[]|e]]; cbn [then_ fst]; auto. Qed.

  Lemma good_resize cur new x : good x -> hi = None -> lo * bs <= cur -> lo * bs <= new -> good (fst (bb_unchecked_resize T cur new x)).
  Proof.
    intros HG Hh Hc Hn. assert (U : forall n, upto n) by (intros n; unfold upto; now rewrite Hh).
    unfold bb_unchecked_resize, bb_zero_fill. change (bk_bs T) with (bk_bs B).
    destruct (new =? cur); [exact HG|]. destruct (new <? cur).
    - apply good_then; [|intros z Hz; now apply good_adjust]. destruct (0 <? new mod bs); [|exact HG].
      destruct (rmap _ _); [|exact HG]. apply good_write; auto using lo_div. apply Nat.lt_le_incl, Nat.mod_upper_bound. lia.
    - apply good_then; [|intros z Hz; now apply good_adjust]. destruct (_ || _); apply good_unchecked; auto.
  Qed.

  Lemma good_step s o :
    J s ->
    match o with
    | SWrite off d => lo * bs <= min off (bk_size B s) /\ upto ((off + length d) / bs + b2nat (0 <? (off + length d) mod bs)) /\ (bk_size B s < off -> hi = None)
    | SResize n => hi = None /\ lo * bs <= n /\ lo * bs <= bk_size B s
    | _ => True
    end -> Forall Q (trace B on_write on_adjust s o).
  Proof.
    intros HJ Ho. assert (HG : good (s, [])) by (split; [exact HJ|constructor]). unfold trace.
    destruct o; cbn [bb_step]; try (constructor).
    - destruct Ho as (H1 & H2 & H3). assert (HH : good (fst (bb_write T off data (s, [])))).
      { unfold bb_write. destruct (length data <=? 0); [exact HG|]. change (bk_size T (s, [])) with (bk_size B s).
        apply good_then; [|intros z Hz; apply good_unchecked; [exact Hz|lia|exact H2]].
        destruct (Nat.ltb_spec (bk_size B s) off); [|exact HG]. apply good_resize; auto; lia. }
      destruct (bb_write T off data (s, [])) as [[s1 l1] r1]. apply HH.
    - destruct Ho as (H1 & H2 & H3). pose proof (good_resize (bk_size B s) n (s, []) HG H1 H3 H2) as HH.
      unfold bb_resize. change (bk_size T (s, [])) with (bk_size B s). destruct (bb_unchecked_resize T (bk_size B s) n (s, [])) as [[s1 l1] r1]. apply HH.
  Qed.
End TraceRange.

(** ** Reading untouched blocks *)
Section ReadLocal.
  Variable B : backend.
  Notation bs := (bk_bs B).
  Hypothesis Hbs : 0 < bs.
  Lemma bb_read_local s1 s2 off len :
    (forall a b, a < b -> (forall i, a <= i < b -> i * bs < off + len /\ off < (i + 1) * bs) -> a * bs <= off -> bk_read B a b s1 = bk_read B a b s2) ->
    bb_read B off len s1 = bb_read B off len s2.
  Proof.
    intros H. unfold bb_read. destruct (Nat.leb_spec len 0) as [H0|H0]; [reflexivity|].
    pose proof (Nat.div_mod off bs ltac:(lia)) as E1. pose proof (Nat.div_mod (off + len) bs ltac:(lia)) as E2.
    pose proof (Nat.mod_upper_bound off bs ltac:(lia)) as M1. pose proof (Nat.mod_upper_bound (off + len) bs ltac:(lia)) as M2.
    assert (Hq : off / bs <= (off + len) / bs) by (apply Nat.div_le_mono; lia).
    set (q1 := off / bs) in *. set (q2 := (off + len) / bs) in *. set (r1 := off mod bs) in *. set (r2 := (off + len) mod bs) in *.
    destruct ((r1 =? 0) && (r2 =? 0)) eqn:E.
    - apply andb_prop in E as [Ea Eb]. apply Nat.eqb_eq in Ea, Eb. apply H; [nia|intros i Hi; nia|nia].
    - rewrite (H q1 (q2 + b2nat (0 <? r2))); [reflexivity| | |nia].
      + destruct (Nat.ltb_spec 0 r2); cbn [b2nat]; nia.
      + intros i Hi. destruct (Nat.ltb_spec 0 r2); cbn [b2nat] in Hi; nia.
  Qed.
End ReadLocal.

(** The touched blocks form an interval. *)
Definition first_touched (bs n : nat) (o : sop) : nat :=
  match o with SWrite off _ => min off n / bs | SResize m => min m n / bs | _ => 0 end.
Definition last_touched (bs n : nat) (o : sop) : option nat :=
  match o with SWrite off d => if off <=? n then Some ((off + length d) / bs + b2nat (0 <? (off + length d) mod bs)) else None | _ => None end.

Lemma ceil_spec bs x : 0 < bs -> forall i, i < x / bs + b2nat (0 <? x mod bs) <-> i * bs < x.
Proof.
  intros Hbs i. pose proof (Nat.div_mod x bs ltac:(lia)). pose proof (Nat.mod_upper_bound x bs ltac:(lia)).
  destruct (Nat.ltb_spec 0 (x mod bs)); cbn [b2nat]; nia.
Qed.

Lemma untouched_split bs n o off len a b :
  0 < bs -> untouched bs n o off len -> a < b -> (forall i, a <= i < b -> i * bs < off + len /\ off < (i + 1) * bs) ->
  (match o with SWrite _ d => d = [] | SResize m => m = n | _ => True end) \/
  b <= first_touched bs n o \/ (exists t, last_touched bs n o = Some t /\ t <= a).
Proof.
  intros Hbs [Hn Hu] Hab Hr.
  assert (F : forall x, x / bs * bs <= x < (x / bs + 1) * bs).
  { intros x. pose proof (Nat.div_mod x bs ltac:(lia)). pose proof (Nat.mod_upper_bound x bs ltac:(lia)). nia. }
  destruct o as [? ?|woff d|m|]; try (left; exact I).
  - destruct d as [|x d']; [left; reflexivity|right]. set (d := x :: d') in *. cbn [first_touched last_touched].
    destruct (Nat.le_gt_cases b (min woff n / bs)) as [Hb|Hb]; [left; exact Hb|right].
    assert (Hle : forall i, a <= i < b -> ~ (min woff n / bs <= i /\ i * bs < woff + length d)).
    { intros i Hi [L1 L2]. destruct (Hr i Hi) as [R1 R2]. apply (Hu i R1 R2). cbn [touches]. split; [discriminate|]. split; [exact L2|]. specialize (F (min woff n)). nia. }
    assert (Ha : min woff n / bs <= a).
    { destruct (Nat.le_gt_cases (min woff n / bs) a) as [|Hlt]; [assumption|exfalso]. apply (Hle (min woff n / bs)); [lia|]. split; [lia|]. specialize (F (min woff n)). cbn [d length]. lia. }
    specialize (Hle a ltac:(lia)). destruct (Hr a ltac:(lia)) as [R1 R2].
    assert (Hge : woff + length d <= a * bs) by lia.
    destruct (Nat.leb_spec woff n) as [Hw|Hw].
    + eexists. split; [reflexivity|]. destruct (Nat.le_gt_cases ((woff + length d) / bs + b2nat (0 <? (woff + length d) mod bs)) a) as [|Hgt]; [assumption|].
      apply (ceil_spec bs (woff + length d) Hbs) in Hgt. lia.
    + lia.
  - destruct (Nat.eq_dec m n) as [->|Hm]; [left; reflexivity|right; left]. cbn [first_touched].
    destruct (Nat.le_gt_cases b (min m n / bs)) as [Hb|Hb]; [exact Hb|exfalso].
    specialize (F (min m n)).
    destruct (Hr (b - 1) ltac:(lia)) as [R1 R2]. apply (Hu (b - 1) R1 R2). cbn [touches]. split; [exact Hm|]. nia.
Qed.

(** An operation with nothing to do does nothing. *)
Lemma idle_trace {P} (B : backend) ow oa s o :
  (match o with SWrite _ d => d = [] | SResize m => m = bk_size B s | _ => True end) -> trace (P := P) B ow oa s o = [].
Proof.
  unfold trace. destruct o; cbn [bb_step]; try reflexivity.
  - intros ->. reflexivity.
  - intros ->. unfold bb_resize, bb_unchecked_resize. change (bk_size (traced B ow oa) (s, [])) with (bk_size B s). rewrite Nat.eqb_refl. reflexivity.
Qed.

Lemma step_range bs n o : 0 < bs ->
  match o with
  | SWrite off d => first_touched bs n o * bs <= min off n /\
      (match last_touched bs n o with Some t => (off + length d) / bs + b2nat (0 <? (off + length d) mod bs) <= t | None => True end) /\ (n < off -> last_touched bs n o = None)
  | SResize m => last_touched bs n o = None /\ first_touched bs n o * bs <= m /\ first_touched bs n o * bs <= n
  | _ => True
  end.
Proof.
  intros Hbs. assert (F : forall x, x / bs * bs <= x) by (intros x; pose proof (Nat.div_mod x bs ltac:(lia)); nia).
  destruct o as [? ?|off d|m|]; try exact I; cbn [first_touched last_touched].
  - split; [apply F|]. destruct (Nat.leb_spec off n); split; auto; lia.
  - split; [reflexivity|]. specialize (F (min m n)). lia.
Qed.
