From Verif Require Import Base BaseLemmas TextModel CryptoModel CryptoProofs LiteModel NameModel NameProofs
  LongNameModel LongNameProofs XattrModel XattrSpec.

Lemma split_app_nul n s : ~ In x00 n -> split_nul (n ++ x00 :: s) = n :: split_nul s.
Proof.
  induction n as [|c n IH]; intros H; cbn [app split_nul].
  - reflexivity.
  - destruct (Byte.eqb c x00) eqn:E; [apply byte_eqb_eq in E; exfalso; apply H; left; congruence|].
    rewrite IH by (intros Hi; apply H; right; exact Hi). reflexivity.
Qed.
Lemma split_names (h : hx) : (forall w x, In (w, x) h -> ~ In x00 w) -> split_nul (hx_names h) = map fst h ++ [[]].
Proof.
  induction h as [|[w x] h IH]; intros H; [reflexivity|]. cbn [hx_names flat_map fst map app].
  rewrite <- app_assoc. cbn [app]. rewrite split_app_nul by (apply (H w x); left; reflexivity).
  f_equal. apply IH. intros w' x' Hi. apply (H w' x'). right. exact Hi.
Qed.

Definition joined (names : list bytes) : bytes := flat_map (fun n => n ++ [x00]) names.
Lemma joined_length names : fold_right (fun n s => length n + 1 + s) 0 names = length (joined names).
Proof. induction names as [|n ns IH]; [reflexivity|]. cbn [fold_right joined flat_map]. rewrite !app_length. cbn [length]. fold (joined ns). lia. Qed.
Lemma hx_names_joined h : hx_names h = joined (map fst h).
Proof. unfold hx_names, joined. induction h as [|[w x] h IH]; [reflexivity|]. cbn [flat_map map fst]. rewrite IH. reflexivity. Qed.

Lemma copy_names_ok names : forall size, length (joined names) <= size ->
  copy_names names size = Ok (joined names ++ zeros (size - length (joined names))).
Proof.
  induction names as [|n ns IH]; intros size H.
  - cbn [copy_names joined flat_map length app]. rewrite Nat.sub_0_r. reflexivity.
  - assert (E : joined (n :: ns) = n ++ x00 :: joined ns) by (unfold joined; cbn [flat_map]; rewrite <- app_assoc; reflexivity).
    rewrite E in *. rewrite app_length in *. cbn [length] in *. cbn [copy_names].
    destruct (Nat.ltb_spec size (length n)); [lia|]. destruct (Nat.ltb_spec size (length n + 1)); [lia|].
    rewrite IH by lia. cbn [rbind]. rewrite <- app_assoc. cbn [app].
    replace (size - (length n + 1) - length (joined ns)) with (size - (length n + S (length (joined ns)))) by lia. reflexivity.
Qed.

Lemma split_joined ws : Forall (fun w => ~ In x00 w) ws -> split_nul (joined ws) = ws ++ [[]].
Proof.
  induction 1 as [|w ws Hw _ IH]; [reflexivity|]. cbn [joined flat_map]. rewrite <- app_assoc. cbn [app].
  rewrite split_app_nul by exact Hw. fold (joined ws). rewrite IH. reflexivity.
Qed.
Lemma joined_zero ws : length (joined ws) = 0 -> ws = [].
Proof. destruct ws; [reflexivity|]. cbn [joined flat_map]. rewrite !app_length. cbn [length]. lia. Qed.

Lemma copy_names_bounds names : forall size, length (joined names) <= size -> exists out, copy_names names size = Ok out /\ length out = size.
Proof. intros size H. rewrite copy_names_ok by exact H. eexists. split; [reflexivity|]. rewrite app_length, zeros_length. lia. Qed.

Section Names.
Variable cmac : bytes -> bytes.
Variable keystream : bytes -> nat -> bytes.
Hypothesis cmac_len : forall m, length (cmac m) = 16.
Hypothesis ks_len : forall s n, length (keystream s n) = n.
Variable b64 : bytes -> bytes.
Variable unb64 : bytes -> option bytes.
Hypothesis code : text_code b64 unb64.
Notation wrap := (wrap_name cmac keystream b64).
Notation unwrap := (unwrap_name cmac keystream unb64).
Notation box := (siv_box cmac keystream).

Lemma unwrap_prefix s : unwrap (user_prefix ++ s) =
  match unb64 s with
  | None => None
  | Some d => if length d <=? kSIVSize then None else siv_unbox cmac keystream d
  end.
Proof.
  unfold unwrap_name. rewrite (firstn_app 5 user_prefix s), (skipn_app 5 user_prefix s).
  change (length user_prefix) with 5. change (firstn 5 user_prefix) with user_prefix. change (skipn 5 user_prefix) with (@nil byte).
  rewrite Nat.sub_diag. cbn [firstn skipn app]. rewrite app_nil_r, bytes_eqb_refl. reflexivity.
Qed.
Lemma unwrap_wrap n : n <> [] -> unwrap (wrap n) = Some n.
Proof.
  intros H. unfold wrap_name. rewrite unwrap_prefix, (proj1 code). rewrite (box_length cmac keystream cmac_len ks_len).
  destruct n as [|c n]; [congruence|]. unfold kSIVSize. destruct (Nat.leb_spec (16 + length (c :: n)) 16) as [Hx|_]; [cbn in Hx; lia|].
  apply (unbox_box cmac keystream cmac_len ks_len).
Qed.
Lemma wrap_inj a b : wrap a = wrap b -> a = b.
Proof.
  unfold wrap_name. intros H. apply app_inv_head in H. pose proof (proj1 code (box a)) as Ha. rewrite H, (proj1 code) in Ha.
  injection Ha as Ha. symmetry. apply (box_inj cmac keystream cmac_len ks_len). exact Ha.
Qed.
Lemma wrap_no_nul n : ~ In x00 (wrap n).
Proof.
  unfold wrap_name. intros H. apply in_app_or in H as [H|H]; [|exact (proj2 code _ H)].
  vm_compute in H. intuition discriminate.
Qed.

Lemma shown_unwrap w ns : xshown box b64 unb64 w ns -> match unwrap w with Some n => [n] | None => [] end = ns.
Proof.
  intros H. destruct H as [n Hn|w Hw|s Hs|s d Hs Hd].
  - change (user_prefix ++ b64 (box n)) with (wrap n). rewrite unwrap_wrap by exact Hn. reflexivity.
  - unfold unwrap_name. destruct (bytes_eqb (firstn 5 w) user_prefix) eqn:E; [|reflexivity].
    apply bytes_eqb_eq in E. exfalso. apply (Hw (skipn 5 w)). rewrite <- E. symmetry. apply firstn_skipn.
  - rewrite unwrap_prefix, Hs. reflexivity.
  - rewrite unwrap_prefix, Hs. destruct (Nat.leb_spec (length d) kSIVSize) as [_|Hl]; [reflexivity|].
    destruct (siv_unbox cmac keystream d) as [p|] eqn:E; [|reflexivity].
    apply (unbox_some cmac keystream cmac_len ks_len) in E. exfalso. apply (Hd p); [|exact E].
    intros ->. rewrite E, (box_length cmac keystream cmac_len ks_len) in Hl. unfold kSIVSize in Hl. cbn in Hl. lia.
Qed.

Definition readable (h : hx) : list bytes := flat_map (fun w => match unwrap w with Some n => [n] | None => [] end) (map fst h).
Lemma unwrap_nil : unwrap [] = None.
Proof. reflexivity. Qed.

Definition readable_of (ws : list bytes) : list bytes := flat_map (fun w => match unwrap w with Some n => [n] | None => [] end) ws.
Lemma wrapped_list_gen ws rc second size : Forall (fun w => ~ In x00 w) ws -> rc <> 0 -> ws <> [] ->
  second rc = Ok (length (joined ws), joined ws) ->
  wrapped_listxattr cmac keystream unb64 (Ok rc) second size = list_protocol (readable_of ws) size.
Proof.
  intros Hn Hr Hw Hs. unfold wrapped_listxattr, list_protocol. cbn [rbind]. destruct rc as [|rc]; [congruence|]. rewrite Hs. cbn [rbind].
  destruct (length (joined ws)) as [|k] eqn:El; [apply joined_zero in El; congruence|]. rewrite <- El, firstn_all, split_joined by exact Hn.
  rewrite flat_map_app. cbn [flat_map]. rewrite unwrap_nil, !app_nil_r. fold (readable_of ws).
  rewrite joined_length. replace (nul_joined (readable_of ws)) with (joined (readable_of ws)) by (unfold nul_joined, joined; apply flat_map_concat_map).
  destruct size as [[|sz]|]; try reflexivity.
  destruct (Nat.ltb_spec (S sz) (length (joined (readable_of ws)))) as [_|Hsz]; [reflexivity|].
  rewrite copy_names_ok by exact Hsz. reflexivity.
Qed.

Lemma wrapped_bounds first second size n b :
  wrapped_listxattr cmac keystream unb64 first second size = Ok (n, b) -> b = [] \/ (exists sz, size = Some sz /\ length b = sz /\ n <= sz).
Proof.
  unfold wrapped_listxattr. destruct first as [[|rc]|e]; cbn [rbind]; try discriminate; [intros [= <- <-]; auto|].
  destruct (second (S rc)) as [[[|rc2] buf]|e]; cbn [rbind]; try discriminate; [intros [= <- <-]; auto|].
  set (names := flat_map _ _). rewrite joined_length. destruct size as [[|sz]|]; try (intros [= <- <-]; auto).
  destruct (Nat.ltb_spec (S sz) (length (joined names))) as [_|Hs]; [discriminate|].
  destruct (copy_names_bounds names (S sz) Hs) as (out & -> & Hl). cbn [rbind]. intros [= <- <-]. right. exists (S sz). auto.
Qed.
Lemma wrapped_no_undef first second size : first <> Err EUndef -> (forall k, second k <> Err EUndef) ->
  wrapped_listxattr cmac keystream unb64 first second size <> Err EUndef.
Proof.
  intros H1 H2. unfold wrapped_listxattr. destruct first as [[|rc]|e]; cbn [rbind]; [discriminate| |congruence].
  specialize (H2 (S rc)). destruct (second (S rc)) as [[[|rc2] buf]|e]; cbn [rbind]; [discriminate| |congruence].
  set (names := flat_map _ _). rewrite joined_length. destruct size as [[|sz]|]; try discriminate.
  destruct (Nat.ltb_spec (S sz) (length (joined names))) as [_|Hs]; [discriminate|].
  destruct (copy_names_bounds names (S sz) Hs) as (out & -> & Hl). discriminate.
Qed.

Lemma wrapped_list h size : (forall w x, In (w, x) h -> ~ In x00 w) ->
  wrapped_listxattr cmac keystream unb64 (rbind (hx_list None 0 h) (fun '(rc, _) => Ok rc)) (fun room => hx_list None room h) size =
  match h with [] => Ok (0, []) | _ => list_protocol (readable h) size end.
Proof.
  intros Hn. assert (Hf : Forall (fun w => ~ In x00 w) (map fst h)).
  { rewrite Forall_forall. intros w Hw. apply in_map_iff in Hw as [[w' x] [<- Hi]]. exact (Hn _ _ Hi). }
  destruct h as [|e h]; [reflexivity|]. cbn [hx_list rbind]. rewrite hx_names_joined.
  destruct (length (joined (map fst (e :: h)))) as [|k] eqn:El; [apply joined_zero in El; discriminate|].
  apply wrapped_list_gen; [exact Hf|discriminate|discriminate|].
  rewrite Nat.ltb_irrefl, El. reflexivity.
Qed.

Lemma readable_shown ws names : Forall2 (xshown box b64 unb64) ws names -> readable_of ws = concat names.
Proof.
  intros H. unfold readable_of. induction H as [|w ns ws names Hw _ IH]; [reflexivity|].
  cbn [map flat_map concat fst] in *. rewrite IH, (shown_unwrap _ _ Hw). reflexivity.
Qed.

(** ** The stored attributes and the plain ones *)
Variable stored : bytes -> bytes -> bytes -> Prop.
Inductive view : hx -> hx -> Prop :=
| view_nil : view [] []
| view_own n v x p h : xname n -> stored n v x -> view p h -> view ((n, v) :: p) ((wrap n, x) :: h)
| view_foreign w x p h : unwrap w = None -> ~ In x00 w -> view p h -> view p ((w, x) :: h).

Lemma view_start h : all_foreign unwrap h -> view [] h.
Proof.
  induction h as [|[w x] h IH]; intros H; [constructor|].
  destruct (H w x (or_introl eq_refl)) as [H1 H2]. apply view_foreign; [exact H1|exact H2|].
  apply IH. intros w' x' Hi. apply (H w' x'). right. exact Hi.
Qed.
Lemma view_no_nul p h : view p h -> forall w x, In (w, x) h -> ~ In x00 w.
Proof.
  induction 1 as [|n v y p h Hn Hs Hv IH|w0 y p h Hw Hz Hv IH]; intros w x Hi; [destruct Hi| |];
    destruct Hi as [Hi|Hi]; try (apply (IH w x Hi)); injection Hi as <- <-; [apply wrap_no_nul|exact Hz].
Qed.
Lemma view_readable p h : view p h -> readable h = map fst p.
Proof.
  induction 1 as [|n v y p h [Hn _] Hs Hv IH|w0 y p h Hw Hz Hv IH]; [reflexivity| |]; unfold readable in *; cbn [map flat_map fst].
  - rewrite unwrap_wrap by exact Hn. rewrite IH. reflexivity.
  - rewrite Hw. exact IH.
Qed.
Lemma wrap_eqb a b : bytes_eqb (wrap a) (wrap b) = bytes_eqb a b.
Proof.
  destruct (bytes_eqb a b) eqn:E.
  - apply bytes_eqb_eq in E. subst. apply bytes_eqb_refl.
  - destruct (bytes_eqb (wrap a) (wrap b)) eqn:E2; [|reflexivity]. apply bytes_eqb_eq, wrap_inj in E2. subst.
    rewrite bytes_eqb_refl in E. discriminate.
Qed.
Lemma foreign_eqb w n : unwrap w = None -> n <> [] -> bytes_eqb w (wrap n) = false.
Proof.
  intros Hw Hn. destruct (bytes_eqb w (wrap n)) eqn:E; [|reflexivity]. apply bytes_eqb_eq in E. subst.
  rewrite unwrap_wrap in Hw by exact Hn. discriminate.
Qed.
Lemma view_ent p h n : n <> [] -> view p h ->
  match ent n p, ent (wrap n) h with
  | Some v, Some x => stored n v x
  | None, None => True
  | _, _ => False
  end.
Proof.
  intros Hn. induction 1 as [|m v y p h Hm Hs Hv IH|w y p h Hw Hz Hv IH]; [exact I| |]; cbn [ent].
  - rewrite wrap_eqb. destruct (bytes_eqb m n) eqn:E; [|exact IH]. apply bytes_eqb_eq in E. subst. exact Hs.
  - rewrite (foreign_eqb w n Hw Hn). exact IH.
Qed.
Lemma view_put p h n v x : xname n -> stored n v x -> view p h -> view (hx_put n v p) (hx_put (wrap n) x h).
Proof.
  intros Hn Hx. induction 1 as [|m v' y p h Hm Hs Hv IH|w y p h Hw Hz Hv IH]; cbn [hx_put].
  - apply view_own; [exact Hn|exact Hx|constructor].
  - rewrite wrap_eqb. destruct (bytes_eqb m n) eqn:E; apply view_own; assumption.
  - rewrite (foreign_eqb w n Hw (proj1 Hn)). apply view_foreign; assumption.
Qed.
Lemma view_del p h n : n <> [] -> view p h -> view (ent_del n p) (ent_del (wrap n) h).
Proof.
  intros Hn. induction 1 as [|m v' y p h Hm Hs Hv IH|w y p h Hw Hz Hv IH]; unfold ent_del in *; cbn [filter fst]; [constructor| |].
  - rewrite wrap_eqb. destruct (bytes_eqb m n); cbn [negb]; [exact IH|apply view_own; assumption].
  - rewrite (foreign_eqb w n Hw Hn). cbn [negb]. apply view_foreign; assumption.
Qed.

Lemma view_list p h size bad : view p h ->
  seen (wrapped_listxattr cmac keystream unb64 (rbind (hx_list bad 0 h) (fun '(rc, _) => Ok rc)) (fun room => hx_list bad room h) size) =
  seen (hx_list bad (or0 size) p).
Proof.
  intros V. destruct bad as [e|]; [reflexivity|]. rewrite (wrapped_list h size (view_no_nul _ _ V)), (view_readable _ _ V).
  unfold hx_list, list_protocol. rewrite hx_names_joined.
  replace (nul_joined (map fst p)) with (joined (map fst p)) by (unfold nul_joined, joined; apply flat_map_concat_map).
  pose proof (view_readable _ _ V) as R. destruct h as [|e h].
  - cbn in R. rewrite <- R. destruct size as [[|sz]|]; reflexivity.
  - destruct size as [[|sz]|]; cbn [or0]; try reflexivity.
    destruct (S sz <? length (joined (map fst p))); [reflexivity|]. cbn [seen]. f_equal. f_equal.
    rewrite firstn_all, firstn_app, firstn_all, Nat.sub_diag. cbn [firstn]. apply app_nil_r.
Qed.

Lemma ent_put_hx n m v s : ent m (hx_put n v s) = if bytes_eqb n m then Some v else ent m s.
Proof.
  induction s as [|[k w] s IH]; cbn [hx_put ent].
  - destruct (bytes_eqb n m); reflexivity.
  - destruct (bytes_eqb k n) eqn:E; cbn [ent].
    + apply bytes_eqb_eq in E. subst. destruct (bytes_eqb n m); reflexivity.
    + rewrite IH. destruct (bytes_eqb k m) eqn:E2; [|reflexivity]. destruct (bytes_eqb n m) eqn:E3; [|reflexivity].
      apply bytes_eqb_eq in E2, E3. subst. rewrite bytes_eqb_refl in E. discriminate.
Qed.
Lemma ent_del_hx n m (s : hx) : ent m (ent_del n s) = if bytes_eqb n m then None else ent m s.
Proof.
  destruct (bytes_eqb n m) eqn:E.
  - apply bytes_eqb_eq in E. subst. apply ent_del_eq.
  - apply ent_del_ne. intros ->. rewrite bytes_eqb_refl in E. discriminate.
Qed.
End Names.
