(** Lemmas about the vocabulary of [Base]. *)
From Verif Require Import Base.

(** ** Byte/number conversions *)

Lemma b2n_lt b : (b2n b < 256)%N.
Proof. unfold b2n. pose proof (Byte.to_N_bounded b). lia. Qed.

Lemma b2n_n2b n : b2n (n2b n) = (n mod 256)%N.
Proof.
  unfold b2n, n2b.
  destruct (Byte.of_N (n mod 256)) as [b|] eqn:E.
  - apply Byte.to_of_N in E. exact E.
  - apply Byte.of_N_None_iff in E.
    pose proof (N.mod_lt n 256 ltac:(discriminate)). lia.
Qed.

Lemma n2b_b2n b : n2b (b2n b) = b.
Proof.
  unfold n2b. rewrite N.mod_small by apply b2n_lt.
  unfold b2n. rewrite Byte.of_to_N. reflexivity.
Qed.

Lemma b2n_inj a b : b2n a = b2n b -> a = b.
Proof. intros H. rewrite <- (n2b_b2n a), <- (n2b_b2n b), H. reflexivity. Qed.

Lemma b2n_zero : b2n x00 = 0%N.
Proof. reflexivity. Qed.

Lemma byte_eqb_eq a b : Byte.eqb a b = true <-> a = b.
Proof.
  split; intros H.
  - apply Byte.byte_dec_bl; exact H.
  - apply Byte.byte_dec_lb; exact H.
Qed.

Lemma byte_eqb_refl a : Byte.eqb a a = true.
Proof. apply byte_eqb_eq; reflexivity. Qed.

Lemma byte_eqb_neq a b : Byte.eqb a b = false <-> a <> b.
Proof.
  rewrite <- byte_eqb_eq. destruct (Byte.eqb a b); split; congruence.
Qed.

Lemma bytes_eqb_eq a b : bytes_eqb a b = true <-> a = b.
Proof.
  revert b; induction a as [|x a IH]; intros [|y b]; cbn [bytes_eqb]; split; try congruence.
  - intros H. apply andb_prop in H as [H1 H2].
    apply byte_eqb_eq in H1. apply IH in H2. congruence.
  - intros H. injection H as -> ->. rewrite byte_eqb_refl. cbn. apply IH; reflexivity.
Qed.

Lemma bytes_eqb_refl a : bytes_eqb a a = true.
Proof. apply bytes_eqb_eq; reflexivity. Qed.

Lemma bytes_eqb_neq a b : bytes_eqb a b = false <-> a <> b.
Proof.
  rewrite <- bytes_eqb_eq. destruct (bytes_eqb a b); split; congruence.
Qed.

Lemma bytes_eq_dec (a b : bytes) : {a = b} + {a <> b}.
Proof. apply list_eq_dec. apply Byte.byte_eq_dec. Qed.

(** A property of all bytes can be checked by enumeration. *)
Definition all_bytes : list byte := map n2b (map N.of_nat (seq 0 256)).

Lemma all_bytes_complete b : In b all_bytes.
Proof.
  unfold all_bytes. rewrite <- (n2b_b2n b). apply in_map.
  rewrite <- (N2Nat.id (b2n b)). apply in_map.
  apply in_seq. pose proof (b2n_lt b). lia.
Qed.

Lemma byte_sweep (f : byte -> bool) :
  forallb f all_bytes = true -> forall b, f b = true.
Proof.
  intros H b. rewrite forallb_forall in H. apply H, all_bytes_complete.
Qed.

Lemma byte_sweep2 (f : byte -> byte -> bool) :
  forallb (fun a => forallb (f a) all_bytes) all_bytes = true -> forall a b, f a b = true.
Proof.
  intros H a. apply byte_sweep. revert a.
  apply (byte_sweep (fun a => forallb (f a) all_bytes)). exact H.
Qed.

(** ** Zeros *)

Lemma zeros_length n : length (zeros n) = n.
Proof. apply repeat_length. Qed.

Lemma zeros_app a b : zeros a ++ zeros b = zeros (a + b).
Proof. unfold zeros. symmetry. apply repeat_app. Qed.

Lemma all_zero_zeros n : all_zero (zeros n) = true.
Proof. induction n as [|n IH]; [reflexivity|exact IH]. Qed.

Lemma all_zero_iff l : all_zero l = true <-> l = zeros (length l).
Proof.
  induction l as [|x l IH]; [split; reflexivity|].
  unfold all_zero in *. cbn [forallb length zeros repeat].
  rewrite andb_true_iff, byte_eqb_eq, IH.
  unfold zeros. split; [intros [<- H]|intros H; injection H as Hx Hl].
  - f_equal; exact H.
  - split; congruence.
Qed.

Lemma all_zero_app a b : all_zero (a ++ b) = all_zero a && all_zero b.
Proof. apply forallb_app. Qed.

(** ** Pointwise view of lists *)

Definition get (l : bytes) (i : nat) : byte := nth i l x00.

Lemma get_app a b i :
  get (a ++ b) i = if i <? length a then get a i else get b (i - length a).
Proof.
  unfold get. destruct (Nat.ltb_spec i (length a)).
  - apply app_nth1; assumption.
  - apply app_nth2; lia.
Qed.

Lemma get_firstn n l i : get (firstn n l) i = if i <? n then get l i else x00.
Proof.
  unfold get. revert n i; induction l as [|x l IH]; intros n i.
  - rewrite firstn_nil. destruct (i <? n), i; reflexivity.
  - destruct n as [|n]; [destruct i; reflexivity|].
    destruct i as [|i]; [reflexivity|]. cbn [firstn nth]. rewrite IH. reflexivity.
Qed.

Lemma get_skipn n l i : get (skipn n l) i = get l (n + i).
Proof.
  unfold get. revert l; induction n as [|n IH]; intros l; [reflexivity|].
  destruct l as [|x l]; [destruct i; reflexivity|]. cbn. apply IH.
Qed.

Lemma get_zeros n i : get (zeros n) i = x00.
Proof.
  unfold get, zeros. revert i; induction n as [|n IH]; intros [|i]; cbn; auto.
Qed.

Lemma get_over l i : length l <= i -> get l i = x00.
Proof. intros H. unfold get. apply nth_overflow; exact H. Qed.

Lemma bytes_ext (a b : bytes) :
  length a = length b -> (forall i, i < length a -> get a i = get b i) -> a = b.
Proof.
  intros Hl H. apply nth_ext with (d := x00) (d' := x00); [exact Hl|]. exact H.
Qed.

Lemma arr_read_length c off len : length (arr_read c off len) = min len (length c - off).
Proof. unfold arr_read. rewrite firstn_length, skipn_length. reflexivity. Qed.

Lemma arr_resize_length c n : length (arr_resize c n) = n.
Proof. unfold arr_resize. rewrite app_length, firstn_length, zeros_length. lia. Qed.

Lemma arr_write_length c off d :
  length (arr_write c off d) =
    match d with [] => length c | _ => max (length c) (off + length d) end.
Proof.
  unfold arr_write. destruct d as [|x d]; [reflexivity|].
  rewrite !app_length, firstn_length, arr_resize_length, skipn_length. lia.
Qed.

Lemma arr_write_length_ne c off d :
  0 < length d -> length (arr_write c off d) = max (length c) (off + length d).
Proof. intros H. rewrite arr_write_length. destruct d; [cbn in H; lia|reflexivity]. Qed.

Lemma get_arr_read c off len i :
  get (arr_read c off len) i = if i <? len then get c (off + i) else x00.
Proof. unfold arr_read. rewrite get_firstn, get_skipn. reflexivity. Qed.

Lemma get_arr_resize c n i :
  get (arr_resize c n) i = if i <? n then get c i else x00.
Proof.
  unfold arr_resize. rewrite get_app, firstn_length, get_firstn, get_zeros.
  destruct (Nat.ltb_spec i (min n (length c))), (Nat.ltb_spec i n); try reflexivity; try lia.
  symmetry; apply get_over; lia.
Qed.

Lemma get_arr_write c off d i :
  get (arr_write c off d) i =
    if (off <=? i) && (i <? off + length d) then get d (i - off) else get c i.
Proof.
  unfold arr_write. destruct d as [|x d].
  - cbn [length]. destruct (Nat.leb_spec off i), (Nat.ltb_spec i (off + 0)); cbn; try lia; reflexivity.
  - remember (x :: d) as dd. rewrite !get_app, firstn_length, arr_resize_length, get_firstn,
      get_arr_resize, get_skipn.
    replace (min off (max off (length c))) with off by lia.
    destruct (Nat.ltb_spec i off), (Nat.leb_spec off i); try lia; cbn [andb].
    + destruct (Nat.ltb_spec i (max off (length c))); [reflexivity|lia].
    + destruct (Nat.ltb_spec (i - off) (length dd)), (Nat.ltb_spec i (off + length dd)); try lia;
        [reflexivity|].
      f_equal. lia.
Qed.

Lemma put_at_length buf off d :
  off + length d <= length buf -> length (put_at buf off d) = length buf.
Proof.
  intros H. unfold put_at. rewrite !app_length, firstn_length, skipn_length. lia.
Qed.

Lemma get_put_at buf off d i :
  off <= length buf ->
  get (put_at buf off d) i =
    if (off <=? i) && (i <? off + length d) then get d (i - off) else get buf i.
Proof.
  intros H. unfold put_at. rewrite !get_app, firstn_length, get_firstn, get_skipn.
  replace (min off (length buf)) with off by lia.
  destruct (Nat.ltb_spec i off), (Nat.leb_spec off i); try lia; cbn [andb]; [reflexivity|].
  destruct (Nat.ltb_spec (i - off) (length d)), (Nat.ltb_spec i (off + length d)); try lia;
    [reflexivity|].
  f_equal. lia.
Qed.

#[export] Hint Rewrite get_app get_firstn get_skipn get_zeros get_arr_read get_arr_resize
  get_arr_write : getdb.
#[export] Hint Rewrite app_length firstn_length skipn_length zeros_length arr_read_length
  arr_resize_length : lendb.

(** Solve an equation between byte strings pointwise. *)
Ltac case_ifs :=
  repeat match goal with
  | |- context [Nat.ltb ?a ?b] => destruct (Nat.ltb_spec a b)
  | |- context [Nat.leb ?a ?b] => destruct (Nat.leb_spec a b)
  end; cbn [andb].

Ltac ext_close :=
  try lia; try reflexivity;
  try (f_equal; lia);
  try (rewrite get_over by (autorewrite with lendb; lia); try reflexivity);
  try (symmetry; apply get_over; autorewrite with lendb; lia);
  try (apply get_over; autorewrite with lendb; lia).

Ltac bext :=
  apply bytes_ext;
  [ autorewrite with lendb; try lia
  | let i := fresh "i" in let Hi := fresh "Hi" in
    intros i Hi; autorewrite with lendb in Hi; autorewrite with getdb; autorewrite with lendb;
    case_ifs; ext_close ].

(** ** Slices of the byte array *)

Lemma arr_read_nil off len : arr_read [] off len = [].
Proof. unfold arr_read. rewrite skipn_nil, firstn_nil. reflexivity. Qed.

Lemma arr_read_all c n : length c <= n -> arr_read c 0 n = c.
Proof. intros H. unfold arr_read. cbn. apply firstn_all2; exact H. Qed.

Lemma arr_read_over c off len : length c <= off -> arr_read c off len = [].
Proof. intros H. unfold arr_read. rewrite skipn_all2 by exact H. apply firstn_nil. Qed.

Lemma arr_read_zero c off : arr_read c off 0 = [].
Proof. reflexivity. Qed.

Lemma arr_read_arr_read c o n o' n' :
  o' + n' <= n -> arr_read (arr_read c o n) o' n' = arr_read c (o + o') n'.
Proof. intros H. bext. Qed.

Lemma arr_read_split c o n m :
  arr_read c o (n + m) = arr_read c o n ++ arr_read c (o + n) m.
Proof. bext. Qed.

Lemma arr_read_write_disj_l c o d o' n :
  o' + n <= o -> o' + n <= length c -> arr_read (arr_write c o d) o' n = arr_read c o' n.
Proof.
  intros H1 H2. destruct d as [|x d]; [reflexivity|]. remember (x :: d) as dd.
  assert (0 < length dd) by (subst; cbn; lia).
  apply bytes_ext.
  - rewrite !arr_read_length, arr_write_length_ne by lia. lia.
  - intros i Hi. rewrite arr_read_length in Hi. autorewrite with getdb. case_ifs; ext_close.
Qed.

Lemma arr_read_write_disj_r c o d o' n :
  o + length d <= o' -> arr_read (arr_write c o d) o' n = arr_read c o' n.
Proof.
  intros H1. destruct d as [|x d]; [reflexivity|]. remember (x :: d) as dd.
  assert (0 < length dd) by (subst; cbn; lia).
  apply bytes_ext.
  - rewrite !arr_read_length, arr_write_length_ne by lia. lia.
  - intros i Hi. autorewrite with getdb. case_ifs; ext_close.
Qed.

Lemma arr_read_write_in c o d o' n :
  o <= o' -> o' + n <= o + length d ->
  arr_read (arr_write c o d) o' n = arr_read d (o' - o) n.
Proof.
  intros H1 H2. destruct d as [|x d].
  { cbn in H2. replace n with 0 by lia. reflexivity. }
  remember (x :: d) as dd.
  assert (0 < length dd) by (subst; cbn; lia).
  apply bytes_ext.
  - rewrite !arr_read_length, arr_write_length_ne by lia. lia.
  - intros i Hi. autorewrite with getdb. case_ifs; ext_close.
Qed.

(** Reading at a position inside the written range and up to the end of file,
    when the write reaches or passes the end of file. *)
Lemma arr_read_write_tail c o d o' n :
  0 < length d -> o <= o' -> length c <= o + length d ->
  arr_read (arr_write c o d) o' n = arr_read d (o' - o) n.
Proof.
  intros Hd H1 H2.
  apply bytes_ext.
  - rewrite !arr_read_length, arr_write_length_ne by lia. lia.
  - intros i Hi. rewrite arr_read_length, arr_write_length_ne in Hi by lia.
    autorewrite with getdb. case_ifs; ext_close.
Qed.

Lemma arr_resize_same c : arr_resize c (length c) = c.
Proof. unfold arr_resize. rewrite firstn_all, Nat.sub_diag. apply app_nil_r. Qed.

Lemma arr_resize_grow c n : length c <= n -> arr_resize c n = c ++ zeros (n - length c).
Proof. intros H. unfold arr_resize. rewrite firstn_all2 by lia. reflexivity. Qed.

Lemma arr_resize_shrink c n : n <= length c -> arr_resize c n = firstn n c.
Proof. intros H. unfold arr_resize. replace (n - length c) with 0 by lia. apply app_nil_r. Qed.

Lemma arr_write_app c d : arr_write c (length c) d = c ++ d.
Proof.
  destruct d as [|x d]; [symmetry; apply app_nil_r|]. remember (x :: d) as dd.
  assert (0 < length dd) by (subst; cbn; lia).
  apply bytes_ext.
  - rewrite arr_write_length_ne, app_length by lia. lia.
  - intros i Hi. rewrite arr_write_length_ne in Hi by lia.
    autorewrite with getdb. case_ifs; ext_close.
Qed.

Lemma arr_read_resize c n o m :
  o + m <= n -> o + m <= length c -> arr_read (arr_resize c n) o m = arr_read c o m.
Proof. intros H1 H2. bext. Qed.

Lemma arr_read_resize_hole c n o m :
  length c <= o -> o + m <= n -> arr_read (arr_resize c n) o m = zeros m.
Proof. intros H1 H2. bext. Qed.

Lemma firstn_arr_write c o d :
  o <= length c -> firstn o (arr_write c o d) = firstn o c.
Proof.
  intros H. destruct d as [|x d]; [reflexivity|]. remember (x :: d) as dd.
  assert (0 < length dd) by (subst; cbn; lia).
  apply bytes_ext.
  - rewrite !firstn_length, arr_write_length_ne by lia. lia.
  - intros i Hi. rewrite firstn_length, arr_write_length_ne in Hi by lia.
    autorewrite with getdb. case_ifs; ext_close.
Qed.

Lemma skipn_skipn {T} (x y : nat) (l : list T) : skipn x (skipn y l) = skipn (x + y) l.
Proof.
  revert l; induction y as [|y IH]; intros l.
  - rewrite Nat.add_0_r. reflexivity.
  - replace (x + S y) with (S (x + y)) by lia. destruct l; [rewrite !skipn_nil; reflexivity|apply IH].
Qed.
