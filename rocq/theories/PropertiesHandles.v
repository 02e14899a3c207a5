(** Property C53: several handles and names on the files of a lite repository. *)
From Verif Require Import Base BaseLemmas StreamSpec BlockModel LiteModel LiteProofs HandleModel HandleSpec HandleProofs Toy.

(** Any history of creating, opening, reading, writing, truncating, asking for the
    size, linking, renaming, unlinking and closing, by path and through any number
    of handles, returns what it would return if every file were one byte array
    shared by all its names and handles; in particular nothing else fails.  The
    history must not use a handle after its file was opened with O_TRUNC. *)
Theorem C53_handles_share_one_array :
  forall (A : aead) bs iv_size check sparse session_key padding_of padded rnd iv_fuel ops,
    lite_env_ok A bs iv_size rnd iv_fuel ->
    (padded = false -> forall id, padding_of id = 0) ->
    all_allowed (lite_max_blocks * bs) p_empty ops ->
    snd (run_ops (hstep A bs iv_size check sparse session_key padding_of padded rnd iv_fuel) h_empty ops)
    = snd (run_ops pstep p_empty ops).
Proof.
  exact (fun A bs iv_size check sparse session_key padding_of padded rnd iv_fuel ops HE HP Hal =>
    proj1 (run_rel A bs iv_size check sparse session_key padding_of padded rnd iv_fuel HE HP ops h_empty p_empty
             (rel_empty A bs iv_size check session_key padding_of padded HP) Hal)).
Qed.
Print Assumptions C53_handles_share_one_array.

(** A cipher whose tag depends on the key. *)
Definition keyed_sum (l : bytes) : bytes := repeat (n2b (fold_right (fun b n => (Byte.to_N b + n)%N) 0%N l)) 16.
Definition keyed_aead : aead :=
  mkAead (fun k iv _ p => (p, keyed_sum (k ++ iv ++ p))) (fun k iv _ ct mac => (bytes_eqb mac (keyed_sum (k ++ iv ++ ct)), ct)).
Lemma keyed_aead_ok : aead_ok keyed_aead.
Proof.
  constructor; intros; cbn [keyed_aead a_enc a_dec fst snd]; try reflexivity.
  rewrite bytes_eqb_refl. reflexivity.
Qed.
Lemma keyed_env : lite_env_ok keyed_aead 32 12 toy_rnd 2.
Proof. pose proof (toy_env_ok ([], [], [])) as H. constructor; try lia; try apply H. apply keyed_aead_ok. Qed.

(** Two handles on one file, one opened anew with O_TRUNC after the others are closed;
    a file that is unlinked while open and replaced under its name. *)
Definition ex_hops : list hop :=
  [HCreate 1 10; HOpen 1 11 false; HIo 10 (SWrite 40 [x61; x62]); HIo 11 (SRead 0 100); HStat 1;
   HIo 11 (SWrite 0 [x63]); HLink 1 2; HTruncate 2 41; HIo 10 (SRead 0 2); HIo 10 SSize;
   HUnlink 1; HCreate 1 12; HIo 12 (SWrite 0 [x64]); HIo 10 (SRead 39 9); HRename 1 2; HOpen 2 13 false; HIo 13 (SRead 0 9);
   HClose 10; HOpen 2 14 true; HStat 2; HIo 14 (SWrite 2 [x65]); HOpen 2 15 false; HIo 15 (SRead 0 9)].

(** The condition, decided. *)
Definition current_b (s : pst) (h : nat) : bool :=
  match p_handles s h with
  | Some (i, g) => match p_files s i with Some (_, g') => g =? g' | None => true end
  | None => true
  end.
Definition within_b (limit : nat) (o : sop) : bool :=
  match o with
  | SRead off len => off + len <=? limit
  | SWrite off d => off + length d <=? limit
  | SResize n => n <=? limit
  | SSize => true
  end.
Fixpoint allowed_b (limit : nat) (s : pst) (ops : list hop) : bool :=
  match ops with
  | [] => true
  | op :: ops' =>
    (match op with HIo h o => current_b s h && within_b limit o | HTruncate _ n => n <=? limit | _ => true end)
    && allowed_b limit (fst (pstep s op)) ops'
  end.
Lemma allowed_b_ok limit limit' ops : limit <= limit' -> forall s, allowed_b limit s ops = true -> all_allowed limit' s ops.
Proof.
  intros L. induction ops as [|op ops IH]; intros s H; [exact I|]. cbn [allowed_b] in H. apply andb_true_iff in H as [H1 H2].
  cbn [all_allowed]. split; [|apply IH; exact H2].
  destruct op as [| |h o|p n| | | | |]; cbn [allowed]; try exact I.
  - apply andb_true_iff in H1 as [H1 H3]. split.
    + intros (i & g & c & g' & E1 & E2 & N). unfold current_b in H1. rewrite E1, E2 in H1. apply Nat.eqb_eq in H1. contradiction.
    + destruct o; cbn [within_b sop_within] in *; try exact I; apply Nat.leb_le in H3; lia.
  - apply Nat.leb_le in H1. lia.
Qed.

Example C53_example :
  lite_env_ok keyed_aead 32 12 toy_rnd 2 /\ all_allowed (lite_max_blocks * 32) p_empty ex_hops /\
  snd (run_ops (hstep keyed_aead 32 12 true true (fun id => id) (fun _ => 5) true toy_rnd 2) h_empty ex_hops) =
  [HDone; HDone; HOut ODone; HOut (OData (zeros 40 ++ [x61; x62])); HOut (OSize 42);
   HOut ODone; HDone; HOut ODone; HOut (OData [x63; x00]); HOut (OSize 41);
   HDone; HDone; HOut ODone; HOut (OData [x00; x61]); HDone; HDone; HOut (OData [x64]);
   HDone; HDone; HOut (OSize 0); HOut ODone; HDone; HOut (OData [x00; x00; x65])].
Proof.
  split; [exact keyed_env|]. split.
  - assert (H : 1000 <= lite_max_blocks) by (apply lite_over_max_inv; vm_compute; reflexivity).
    apply (allowed_b_ok 1000); [lia|vm_compute; reflexivity].
  - vm_compute. reflexivity.
Qed.

(** The condition is needed: a handle that was opened before the file was opened
    with O_TRUNC keeps the old key, so what is written through it cannot be read
    through the newer handle, nor by opening the file again. *)
Definition ex_outdated : list hop :=
  [HCreate 1 10; HOpen 1 11 true; HIo 10 (SWrite 0 [x61]); HIo 11 (SRead 0 1); HOpen 1 12 false; HIo 12 (SRead 0 1)].
Theorem C53_outdated_handle_refuted :
  exists (A : aead) bs iv_size session_key padding_of rnd iv_fuel ops,
    lite_env_ok A bs iv_size rnd iv_fuel /\
    Forall (fun op => match op with HIo _ o => sop_within (lite_max_blocks * bs) o | HTruncate _ n => n <= lite_max_blocks * bs | _ => True end) ops /\
    snd (run_ops pstep p_empty ops) = [HDone; HDone; HOut ODone; HOut (OData [x61]); HDone; HOut (OData [x61])] /\
    snd (run_ops (hstep A bs iv_size true true session_key padding_of false rnd iv_fuel) h_empty ops)
      = [HDone; HDone; HOut ODone; HOut (OFail EVerify); HDone; HOut (OFail EVerify)].
Proof.
  exists keyed_aead, 32, 12, (fun id => id), (fun _ => 0), toy_rnd, 2, ex_outdated.
  split; [exact keyed_env|]. split.
  - assert (H : 1000 <= lite_max_blocks) by (apply lite_over_max_inv; vm_compute; reflexivity).
    assert (L : 100 <= lite_max_blocks * 32) by lia.
    unfold ex_outdated. repeat (apply Forall_cons || apply Forall_nil); cbn [sop_within length]; try exact I; lia.
  - split; vm_compute; reflexivity.
Qed.
Print Assumptions C53_outdated_handle_refuted.

(** A file that has no byte on the host, not even a header, as a crash right after its
    creation leaves it: it has size 0, it can be opened, with O_TRUNC or without, and then it
    is an empty array. *)
Theorem C53_no_byte_on_host :
  forall (A : aead) bs iv_size check sparse session_key padding_of padded rnd iv_fuel s p i h trunc o,
    lite_env_ok A bs iv_size rnd iv_fuel ->
    (padded = false -> forall id, padding_of id = 0) ->
    h_names s p = Some i -> h_files s i = Some [] -> sop_within (lite_max_blocks * bs) o ->
    snd (run_ops (hstep A bs iv_size check sparse session_key padding_of padded rnd iv_fuel) s
           [HStat p; HOpen p h trunc; HStat p; HIo h o])
    = [HOut (OSize 0); HDone; HOut (OSize 0); HOut (snd (spec_step [] o))].
Proof.
  intros A bs iv_size check sparse session_key padding_of padded rnd iv_fuel s p i h trunc o HE HP Hn Hf Ho.
  set (st := hstep A bs iv_size check sparse session_key padding_of padded rnd iv_fuel).
  assert (E1 : st s (HStat p) = (s, HOut (OSize 0))). { unfold st. cbn [hstep]. rewrite Hn, Hf. reflexivity. }
  assert (E2 : exists s1 f key pad, open_inode A bs iv_size check sparse session_key padding_of rnd iv_fuel s i trunc = (s1, Ok (key, pad)) /\
    h_names s1 p = Some i /\ h_files s1 i = Some f /\ holds A bs iv_size check session_key padding_of f key pad []).
  { unfold open_inode. rewrite Hf. destruct (holds_fresh A bs iv_size check session_key padding_of padded rnd iv_fuel HE HP (h_rng s)) as (l & El & Hl).
    replace (if trunc then [] else []) with (@nil byte) by (destruct trunc; reflexivity). rewrite El. destruct trunc.
    - unfold io. cbn [set_file h_files h_rng]. rewrite fupd_eq.
      destruct (holds_io A bs iv_size check sparse session_key padding_of rnd iv_fuel HE _ _ _ [] (l_rng l) (SResize 0) Hl ltac:(cbn; lia)) as (l' & E' & H').
      rewrite E'. cbn [spec_step fst snd] in *. change (arr_resize [] 0) with (@nil byte) in H'.
      eexists _, (l_file l'), (l_key l), (l_pad l). split; [reflexivity|]. cbn [set_file h_names h_files]. rewrite fupd_eq. auto.
    - eexists _, (l_file l), (l_key l), (l_pad l). split; [reflexivity|]. cbn [set_file h_names h_files]. rewrite fupd_eq. auto. }
  destruct E2 as (s1 & f & key & pad & Eo & Hn1 & Hf1 & Hh).
  assert (E3 : st s (HOpen p h trunc) = (set_handle s1 h (Some (i, key, pad)), HDone)).
  { unfold st. cbn [hstep]. unfold open_path. rewrite Hn, Eo. reflexivity. }
  set (s2 := set_handle s1 h (Some (i, key, pad))) in *.
  assert (E4 : st s2 (HStat p) = (s2, HOut (OSize 0))).
  { unfold st. cbn [hstep]. change (h_names s2) with (h_names s1). change (h_files s2) with (h_files s1). rewrite Hn1, Hf1.
    rewrite (holds_stat A bs iv_size check session_key padding_of padded rnd iv_fuel HE HP s2 f key pad [] Hh). reflexivity. }
  assert (E5 : exists s3, st s2 (HIo h o) = (s3, HOut (snd (spec_step [] o)))).
  { unfold st. cbn [hstep]. unfold s2 at 1. cbn [set_handle h_handles]. rewrite fupd_eq. unfold io. change (h_files s2) with (h_files s1). rewrite Hf1.
    destruct (holds_io A bs iv_size check sparse session_key padding_of rnd iv_fuel HE f key pad [] (h_rng s2) o Hh Ho) as (l & E & _). rewrite E. eexists. reflexivity. }
  destruct E5 as (s3 & E5). cbn [run_ops]. rewrite E1. cbn [run_ops]. rewrite E3. cbn [run_ops]. rewrite E4. cbn [run_ops]. rewrite E5. reflexivity.
Qed.
Print Assumptions C53_no_byte_on_host.
Example C53_no_byte_example :
  let s := mkH (fupd (fun _ => None) 1 (Some 0)) (fupd (fun _ => None) 0 (Some [])) (fun _ => None) 1 0 in
  lite_env_ok keyed_aead 32 12 toy_rnd 2 /\ h_names s 1 = Some 0 /\ h_files s 0 = Some [] /\
  sop_within (lite_max_blocks * 32) (SRead 0 9) /\ snd (spec_step [] (SRead 0 9)) = OData [].
Proof.
  assert (H : 1000 <= lite_max_blocks) by (apply lite_over_max_inv; vm_compute; reflexivity).
  split; [exact keyed_env|]. split; [reflexivity|]. split; [reflexivity|]. split; [|reflexivity]. cbn [sop_within]. try exact I; lia.
Qed.
