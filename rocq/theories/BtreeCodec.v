(** The page codec of the B-tree directory. *)
From Verif Require Import Base BaseLemmas CodecModel CodecProofs BtreeModel BtreeSpec.
Local Open Scope list_scope.

Lemma c_str_no_nul l : ~ In x00 (c_str l).
Proof.
  induction l as [|b l IH]; [intros []|].
  cbn [c_str]. destruct (Byte.eqb b x00) eqn:E; [intros []|].
  intros [H|H]; [|exact (IH H)].
  apply byte_eqb_neq in E. congruence.
Qed.

Lemma c_str_length l : length (c_str l) <= length l.
Proof.
  induction l as [|b l IH]; [cbn; lia|].
  cbn [c_str]. destruct (Byte.eqb b x00); cbn [length]; lia.
Qed.

Lemma c_str_pad name k : ~ In x00 name -> c_str (name ++ zeros k) = name.
Proof.
  induction name as [|b l IH]; intros H.
  - destruct k; [reflexivity|]. cbn [app zeros repeat c_str].
    rewrite byte_eqb_refl. reflexivity.
  - cbn [app c_str]. destruct (Byte.eqb b x00) eqn:E.
    + apply byte_eqb_eq in E. exfalso. apply H. left. exact E.
    + f_equal. apply IH. intros Hi. apply H. right. exact Hi.
Qed.

Lemma name_field_length name : length name <= 255 -> length (name_field name) = 256.
Proof. intros H. unfold name_field, MAX_FILENAME_LENGTH. rewrite app_length, zeros_length. lia. Qed.

Lemma c_str_name_field name :
  length name <= 255 -> ~ In x00 name ->
  c_str (firstn MAX_FILENAME_LENGTH (name_field name)) = name.
Proof.
  intros HL HN. unfold name_field, MAX_FILENAME_LENGTH.
  rewrite firstn_app, firstn_all2 by lia.
  replace (firstn (255 - length name) (zeros (255 + 1 - length name)))
    with (zeros (255 - length name)); [apply c_str_pad; exact HN|].
  replace (255 + 1 - length name) with ((255 - length name) + 1) by lia.
  rewrite <- zeros_app, firstn_app, zeros_length, Nat.sub_diag, firstn_O, app_nil_r.
  rewrite firstn_all2; [reflexivity|rewrite zeros_length; lia].
Qed.

Lemma read_le_app w d rest :
  length d = w -> read_le w (d ++ rest) = Ok (from_le d, rest).
Proof.
  intros H. unfold read_le. rewrite app_length.
  destruct (Nat.leb_spec w (length d + length rest)); [|lia].
  rewrite firstn_app, <- H, Nat.sub_diag, firstn_O, app_nil_r, firstn_all.
  rewrite skipn_app, skipn_all, Nat.sub_diag. reflexivity.
Qed.

Lemma read_raw_app w d rest :
  length d = w -> read_raw w (d ++ rest) = Ok (d, rest).
Proof.
  intros H. unfold read_raw. rewrite app_length.
  destruct (Nat.leb_spec w (length d + length rest)); [|lia].
  rewrite firstn_app, <- H, Nat.sub_diag, firstn_O, app_nil_r, firstn_all.
  rewrite skipn_app, skipn_all, Nat.sub_diag. reflexivity.
Qed.

Definition children_bytes (cs : list N) : bytes := concat (map (to_le 4) cs).
Definition entry_bytes (e : entry) : bytes :=
  name_field (e_name e) ++ e_id e ++ to_le 4 (e_type e).
Definition entries_bytes (es : list entry) : bytes := concat (map entry_bytes es).

Lemma children_bytes_length cs : length (children_bytes cs) = 4 * length cs.
Proof.
  unfold children_bytes. induction cs as [|c cs IH]; [reflexivity|].
  cbn [map concat length]. rewrite app_length, to_le_length, IH. lia.
Qed.

Lemma entry_bytes_length e : entry_ok e -> length (entry_bytes e) = 292.
Proof.
  intros (H1 & _ & H3 & _). unfold entry_bytes.
  rewrite !app_length, to_le_length, name_field_length by exact H1. lia.
Qed.

Lemma entries_bytes_length es : Forall entry_ok es -> length (entries_bytes es) = 292 * length es.
Proof.
  intros H. unfold entries_bytes. induction H as [|e es He _ IH]; [reflexivity|].
  cbn [map concat length]. rewrite app_length, entry_bytes_length by exact He. lia.
Qed.

Lemma read_children_app cs rest :
  Forall (fun c => (c < 2 ^ 32)%N) cs ->
  read_children (length cs) (children_bytes cs ++ rest) = Ok (cs, rest).
Proof.
  intros H. unfold children_bytes. induction H as [|c cs Hc _ IH]; [reflexivity|].
  cbn [map concat length read_children]. rewrite <- app_assoc.
  rewrite read_le_app by apply to_le_length. cbn [rbind].
  rewrite IH. cbn [rbind]. rewrite from_to_le; [reflexivity|exact Hc].
Qed.

Lemma read_entries_app es rest :
  Forall entry_ok es ->
  read_entries (length es) (entries_bytes es ++ rest) = Ok es.
Proof.
  intros H. unfold entries_bytes. induction H as [|e es He _ IH]; [reflexivity|].
  pose proof He as (H1 & H2 & H3 & H4).
  cbn [map concat length read_entries]. unfold entry_bytes at 1. rewrite <- !app_assoc.
  rewrite read_raw_app by (apply name_field_length; exact H1). cbn [rbind].
  rewrite read_raw_app by exact H3. cbn [rbind].
  rewrite read_raw_app by apply to_le_length. cbn [rbind].
  rewrite IH. cbn [rbind].
  rewrite c_str_name_field by assumption.
  rewrite from_to_le by exact H4. destruct e; reflexivity.
Qed.

Lemma put_children_ok size cs acc :
  length acc + 4 * length cs <= size ->
  put_children size cs acc = Ok (acc ++ children_bytes cs).
Proof.
  revert acc; induction cs as [|c cs IH]; intros acc H.
  - cbn. unfold children_bytes. cbn. rewrite app_nil_r. reflexivity.
  - cbn [put_children]. cbn [length] in H. unfold put_raw. rewrite to_le_length.
    destruct (Nat.leb_spec (length acc + 4) size); [|lia]. cbn [rbind].
    rewrite IH by (rewrite app_length, to_le_length; lia).
    unfold children_bytes. cbn [map concat]. rewrite <- app_assoc. reflexivity.
Qed.

Lemma put_entries_ok size es acc :
  Forall entry_ok es -> length acc + 292 * length es <= size ->
  put_entries size es acc = Ok (acc ++ entries_bytes es).
Proof.
  intros HF; revert acc; induction HF as [|e es He _ IH]; intros acc H.
  - cbn. unfold entries_bytes. cbn. rewrite app_nil_r. reflexivity.
  - pose proof He as (H1 & H2 & H3 & H4).
    cbn [put_entries]. cbn [length] in H. unfold MAX_FILENAME_LENGTH.
    destruct (Nat.ltb_spec 255 (length (e_name e))); [lia|].
    unfold put_raw at 1. rewrite name_field_length by exact H1.
    destruct (Nat.leb_spec (length acc + 256) size); [|lia]. cbn [rbind].
    unfold put_raw at 1. rewrite app_length, name_field_length, H3 by exact H1.
    destruct (Nat.leb_spec (length acc + 256 + 32) size); [|lia]. cbn [rbind].
    unfold put_raw at 1. rewrite !app_length, name_field_length, H3, to_le_length by exact H1.
    destruct (Nat.leb_spec (length acc + 256 + 32 + 4) size); [|lia]. cbn [rbind].
    rewrite IH.
    + unfold entries_bytes. cbn [map concat]. unfold entry_bytes at 2. rewrite <- !app_assoc. reflexivity.
    + rewrite !app_length, name_field_length, H3, to_le_length by exact H1. lia.
Qed.

Definition node_bytes (cs : list N) (es : list entry) : bytes :=
  to_le 4 1 ++ to_le 2 (N.of_nat (length cs)) ++ to_le 2 (N.of_nat (length es)) ++
  children_bytes cs ++ entries_bytes es.

Lemma node_bytes_length cs es :
  Forall entry_ok es -> length (node_bytes cs es) = 8 + 4 * length cs + 292 * length es.
Proof.
  intros H. unfold node_bytes.
  rewrite !app_length, !to_le_length, children_bytes_length, entries_bytes_length by exact H. lia.
Qed.

Lemma to_buffer_ok size cs es :
  Forall entry_ok es -> 8 + 4 * length cs + 292 * length es <= size ->
  to_buffer size cs es = Ok (node_bytes cs es).
Proof.
  intros H HL. unfold to_buffer, node_bytes.
  unfold put_raw at 1. rewrite to_le_length. cbn [length].
  destruct (Nat.leb_spec (0 + 4) size); [|lia]. cbn [rbind].
  unfold put_raw at 1. rewrite !app_length, !to_le_length. cbn [length].
  destruct (Nat.leb_spec (0 + 4 + 2) size); [|lia]. cbn [rbind].
  unfold put_raw at 1. rewrite !app_length, !to_le_length. cbn [length].
  destruct (Nat.leb_spec (0 + 4 + 2 + 2) size); [|lia]. cbn [rbind].
  rewrite put_children_ok by (rewrite !app_length, !to_le_length; cbn [length]; lia).
  cbn [rbind].
  rewrite put_entries_ok;
    [|exact H|rewrite !app_length, !to_le_length, children_bytes_length; cbn [length]; lia].
  cbn [app]. rewrite <- !app_assoc. reflexivity.
Qed.

Lemma from_buffer_node_bytes cs es rest :
  (N.of_nat (length cs) < 2 ^ 16)%N -> (N.of_nat (length es) < 2 ^ 16)%N ->
  Forall (fun c => (c < 2 ^ 32)%N) cs -> Forall entry_ok es ->
  from_buffer (node_bytes cs es ++ rest) = Ok (cs, es).
Proof.
  intros Hc He Hcs Hes. unfold from_buffer, node_bytes. rewrite <- !app_assoc.
  rewrite read_le_app by apply to_le_length. cbn [rbind].
  rewrite from_to_le by reflexivity. cbn [N.eqb].
  rewrite read_le_app by apply to_le_length. cbn [rbind].
  rewrite from_to_le by exact Hc.
  rewrite read_le_app by apply to_le_length. cbn [rbind].
  rewrite from_to_le by exact He.
  rewrite !Nat2N.id. rewrite read_children_app by exact Hcs. cbn [rbind].
  rewrite read_entries_app by exact Hes. reflexivity.
Qed.

(** Any page at all. *)
Lemma read_le_inv w buf v rest :
  read_le w buf = Ok (v, rest) ->
  v = from_le (firstn w buf) /\ length (firstn w buf) = w /\ length buf = w + length rest.
Proof.
  unfold read_le. destruct (Nat.leb_spec w (length buf)); [|discriminate].
  intros E. injection E as <- <-. split; [reflexivity|]. rewrite firstn_length, skipn_length. lia.
Qed.

Lemma read_raw_inv w buf v rest :
  read_raw w buf = Ok (v, rest) ->
  v = firstn w buf /\ length v = w /\ length buf = w + length rest.
Proof.
  unfold read_raw. destruct (Nat.leb_spec w (length buf)); [|discriminate].
  intros E. injection E as <- <-. split; [reflexivity|]. rewrite firstn_length, skipn_length. lia.
Qed.

Lemma read_children_inv k buf :
  read_children k buf = Err ECorrupt \/
  exists cs rest, read_children k buf = Ok (cs, rest) /\ length cs = k /\
    Forall (fun c => (c < 2 ^ 32)%N) cs /\ length buf = 4 * k + length rest.
Proof.
  revert buf; induction k as [|k IH]; intros buf.
  - right. exists [], buf. cbn. auto.
  - cbn [read_children]. destruct (read_le 4 buf) as [[c b]|e] eqn:E.
    + cbn [rbind]. apply read_le_inv in E. destruct E as (-> & Hl & HL).
      destruct (IH b) as [->|(cs & rest & -> & Hk & Hf & Hr)]; [left; reflexivity|].
      right. eexists (_ :: cs), rest. cbn [rbind]. split; [reflexivity|].
      split; [cbn; lia|]. split; [|lia]. constructor; [|exact Hf].
      pose proof (from_le_bound (firstn 4 buf)) as Hb. rewrite Hl in Hb. exact Hb.
    + left. unfold read_le in E. destruct (4 <=? length buf); [discriminate|].
      injection E as <-. reflexivity.
Qed.

Lemma read_entries_inv k buf :
  read_entries k buf = Err ECorrupt \/
  exists es, read_entries k buf = Ok es /\ length es = k /\
    Forall entry_ok es /\ 292 * k <= length buf.
Proof.
  revert buf; induction k as [|k IH]; intros buf.
  - right. exists []. cbn. auto with arith.
  - cbn [read_entries].
    destruct (read_raw (MAX_FILENAME_LENGTH + 1) buf) as [[nm b]|e] eqn:E;
      [|left; unfold read_raw in E; destruct (_ <=? _); [discriminate|injection E as <-; reflexivity]].
    cbn [rbind]. destruct (read_raw 32 b) as [[id b']|e] eqn:E2;
      [|left; unfold read_raw in E2; destruct (_ <=? _); [discriminate|injection E2 as <-; reflexivity]].
    cbn [rbind]. destruct (read_raw 4 b') as [[ty b'']|e] eqn:E3;
      [|left; unfold read_raw in E3; destruct (_ <=? _); [discriminate|injection E3 as <-; reflexivity]].
    cbn [rbind]. apply read_raw_inv in E, E2, E3.
    destruct E as (_ & L1 & M1), E2 as (_ & L2 & M2), E3 as (_ & L3 & M3).
    destruct (IH b'') as [->|(es & -> & Hk & Hf & Hr)]; [left; reflexivity|].
    right. eexists (_ :: es). cbn [rbind]. split; [reflexivity|]. split; [cbn; lia|].
    unfold MAX_FILENAME_LENGTH in *. split; [|lia].
    constructor; [|exact Hf]. unfold entry_ok. cbn [e_name e_id e_type].
    split; [pose proof (c_str_length (firstn 255 nm)); pose proof (firstn_le_length 255 nm); lia|].
    split; [apply c_str_no_nul|]. split; [exact L2|].
    pose proof (from_le_bound ty) as Hb. rewrite L3 in Hb. exact Hb.
Qed.

Lemma from_buffer_inv buf :
  4 <= length buf ->
  from_buffer buf = Err ECorrupt \/
  from_buffer buf = Ok ([], []) \/
  exists cs es, from_buffer buf = Ok (cs, es) /\
    Forall (fun c => (c < 2 ^ 32)%N) cs /\ Forall entry_ok es /\
    8 + 4 * length cs + 292 * length es <= length buf.
Proof.
  intros H4. unfold from_buffer.
  destruct (read_le 4 buf) as [[fl b]|e] eqn:E;
    [|left; unfold read_le in E; destruct (_ <=? _); [discriminate|injection E as <-; reflexivity]].
  cbn [rbind]. destruct (fl =? 0)%N; [right; left; reflexivity|].
  destruct (read_le 2 b) as [[cn b']|e] eqn:E2;
    [|left; unfold read_le in E2; destruct (_ <=? _); [discriminate|injection E2 as <-; reflexivity]].
  cbn [rbind]. destruct (read_le 2 b') as [[en b'']|e] eqn:E3;
    [|left; unfold read_le in E3; destruct (_ <=? _); [discriminate|injection E3 as <-; reflexivity]].
  cbn [rbind]. apply read_le_inv in E, E2, E3.
  destruct E as (_ & _ & M1), E2 as (_ & _ & M2), E3 as (_ & _ & M3).
  destruct (read_children_inv (N.to_nat cn) b'') as [->|(cs & r & -> & L1 & F1 & R1)]; [left; reflexivity|].
  cbn [rbind].
  destruct (read_entries_inv (N.to_nat en) r) as [->|(es & -> & L2 & F2 & R2)]; [left; reflexivity|].
  cbn [rbind]. right; right. exists cs, es. split; [reflexivity|]. split; [exact F1|].
  split; [exact F2|]. lia.
Qed.
