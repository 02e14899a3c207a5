(** Mode, owner and times of paths in the lite format: C100. *)
From Coq Require Import Strings.String Lia.
From Verif Require Import Base BaseLemmas TextModel NameModel NameSpec NameProofs NameTop LongNameModel LongNameSpec
  UnixPathModel UnixPathSpec PropertiesNames PropertiesUnixPath AttrPathModel AttrPathSpec AttrPathProofs.
Local Open Scope list_scope.

(** Encrypted names: any history of calls answers and leaves what it should, by [sp_run]:
    each call reads or changes what its path stands for, and nothing else. *)
Theorem C100_encrypted_names :
  forall cmac keystream blake, sizes_ok cmac keystream blake ->
  forall threshold suffix, (0 < threshold -> suffix_ok (suffix_in_force suffix)) ->
  let tr := make_translator cmac keystream blake false threshold suffix None None in
  forall able_mode able_owner dir h ops,
    Forall (as_handed_over tr h dir able_mode able_owner) ops ->
    let '(h', answers) := a_run tr able_mode able_owner dir h ops in
    lh_tree h' = lh_tree h /\ lh_link h' = lh_link h /\
    (lh_attr h', answers) = sp_run (place tr (lh_tree h) dir) (lh_attr h) ops.
Proof.
  intros cmac ks blake HK threshold suffix Hs tr am ao dir h ops H. apply run_ok. apply Forall_forall. intros o Ho.
  pose proof (proj1 (Forall_forall _ _) H o Ho) as HO. split; [|exact HO]. destruct HO as ((names & Hn) & _).
  exact (good_encrypted cmac ks blake HK threshold suffix Hs _ names Hn).
Qed.
Print Assumptions C100_encrypted_names.

(** Plain names. *)
Theorem C100_plain_names :
  forall cmac keystream blake threshold suffix nfc fold,
  let tr := make_translator cmac keystream blake true threshold suffix nfc fold in
  forall able_mode able_owner dir h ops,
    Forall (as_handed_over tr h dir able_mode able_owner) ops ->
    let '(h', answers) := a_run tr able_mode able_owner dir h ops in
    lh_tree h' = lh_tree h /\ lh_link h' = lh_link h /\
    (lh_attr h', answers) = sp_run (place tr (lh_tree h) dir) (lh_attr h) ops.
Proof.
  intros cmac ks blake threshold suffix nfc fold tr am ao dir h ops H. apply run_ok. apply Forall_forall. intros o Ho.
  pose proof (proj1 (Forall_forall _ _) H o Ho) as HO. split; [|exact HO]. destruct HO as ((names & Hn) & _).
  exact (good_plain cmac ks blake threshold suffix nfc fold _ names Hn).
Qed.
Print Assumptions C100_plain_names.

(** On any host and for any path, a call that reports an error has changed nothing. *)
Theorem C100_error_changes_nothing :
  forall trans able_mode able_owner dir h o e,
    snd (a_step trans able_mode able_owner dir h o) = ADone (Err e) -> fst (a_step trans able_mode able_owner dir h o) = h.
Proof.
  assert (S : forall able bad h dir P fol f, snd (host_set able bad h dir P fol f) <> Ok tt -> fst (host_set able bad h dir P fol f) = h).
  { intros able bad h dir P fol f. unfold host_set. destruct (lresolve h dir P fol) as [n|e]; [|reflexivity]. destruct bad; [reflexivity|].
    destruct (lh_link h n); [destruct able|]; cbn [fst snd]; intros K; try reflexivity; contradiction. }
  assert (F : forall able b1 b2 h dir P f, snd (set_or_follow dir able b1 b2 h P f) <> Ok tt -> fst (set_or_follow dir able b1 b2 h P f) = h).
  { intros able b1 b2 h dir P f. unfold set_or_follow. pose proof (S able b1 h dir P false f) as S1.
    destruct (host_set able b1 h dir P false f) as [h1 [[]|e]]; cbn [fst snd] in *; [exact S1|]. rewrite (S1 ltac:(discriminate)).
    destruct e as [| | | | |k| |]; try reflexivity. destruct k as [|q]; [reflexivity|].
    repeat (destruct q as [q|q|]; try reflexivity). apply S. }
  intros trans am ao dir h o e. destruct o as [p|p mode b1 b2|p u g b1 b2|p ta tm now b]; cbn [a_step]; destruct (t_encrypt trans p) as [[P l]|e0]; try reflexivity.
  - match goal with |- context [set_or_follow ?d ?a ?b ?c ?h ?P ?f] => pose proof (F a b c h d P f) as K; destruct (set_or_follow d a b c h P f) as [h1 r] end.
    cbn [fst snd] in *. intros E. injection E as ->. apply K. discriminate.
  - match goal with |- context [set_or_follow ?d ?a ?b ?c ?h ?P ?f] => pose proof (F a b c h d P f) as K; destruct (set_or_follow d a b c h P f) as [h1 r] end.
    cbn [fst snd] in *. intros E. injection E as ->. apply K. discriminate.
  - match goal with |- context [host_set ?a ?b ?h ?d ?P ?g ?f] => pose proof (S a b h d P g f) as K; destruct (host_set a b h d P g f) as [h1 r] end.
    cbn [fst snd] in *. intros E. injection E as ->. apply K. discriminate.
Qed.
Print Assumptions C100_error_changes_nothing.

(** A link made through the repository, on a host that cannot change a link's own mode or
    owner: the call fails and changes nothing, as long as the root of the host has no entry
    with the name the encrypted target begins with. *)
Theorem C100_encrypted_link_not_followed :
  forall cmac keystream blake, sizes_ok cmac keystream blake ->
  forall threshold suffix, 0 < threshold -> suffix_ok (suffix_in_force suffix) ->
  let tr := make_translator cmac keystream blake false threshold suffix None None in
  forall dir h path names P l n target text o,
    names_path path names -> names <> [] -> t_encrypt tr path = Ok (P, l) -> no_link_on_way h dir (comps P) ->
    place tr (lh_tree h) dir path = Ok n -> target <> [] -> t_link_enc tr target = Ok text -> lh_link h n = Some text ->
    (forall w, In w (split_slash text) -> ht_child (lh_tree h) (ht_root (lh_tree h)) w = None) ->
    (exists mode bad2, o = AChmod path mode None bad2) \/ (exists uid gid bad2, o = AChown path uid gid None bad2) ->
    a_step tr false false dir h o = (h, ADone (Err (EPosix 2))).
Proof.
  intros cmac ks blake HK threshold suffix Ht Hs tr dir h path names P l n target text o Hp Nn E HW Pn Nt El Ln Hr Ho.
  pose proof (good_encrypted cmac ks blake HK threshold suffix (fun _ => Hs) path names Hp) as G.
  assert (NC : comps P <> []).
  { destruct Hp as (Hn & ->). assert (Hh : hd x00 (path_of names) = slash) by (destruct names; reflexivity).
    destruct (C31_encrypted_paths_stay_inside cmac ks blake HK threshold suffix (fun _ => Hs) _ P l Hh E) as [HF _].
    change (comps P) with (steps P). intros Z. rewrite Z in HF. destruct names as [|m names]; [contradiction|].
    rewrite split_path_of in HF by (exact Hn || discriminate). inversion Hn as [|? ? (Hm & _) _]; subst. unfold nonempty in HF. cbn [filter] in HF.
    change (negb (bytes_eqb [] [])) with false in HF. cbv iota in HF. apply bytes_eqb_neq in Hm. rewrite Hm in HF. inversion HF. }
  assert (El' : new_link_enc cmac ks target = Ok text).
  { revert El. unfold tr, make_translator. destruct (Nat.ltb_spec 0 threshold); [|lia]. exact (fun x => x). }
  destruct (link_text cmac ks blake HK target text Nt El') as (AT & w & rest & Aw & Es).
  assert (Rw : ht_child (lh_tree h) (ht_root (lh_tree h)) w = None) by (apply Hr; rewrite Es; right; left; reflexivity).
  assert (K : forall b2 f, set_or_follow dir false None b2 h P f = (h, Err (EPosix 2))).
  { intros b2 f. unfold set_or_follow. unfold host_set at 1. rewrite (good_lresolve tr h dir path P l false G E HW) by (intros Z; discriminate Z).
    rewrite Pn, Ln. exact (follow_lost h dir tr path P l n text w rest f b2 false G E HW NC Pn Ln AT Es Aw Rw). }
  destruct Ho as [(mode & b2 & ->)|(u & g & b2 & ->)]; cbn [a_step]; rewrite E, K; reflexivity.
Qed.
Print Assumptions C100_encrypted_link_not_followed.

(** With plain names the link is followed on the host, even out of the repository. *)
Definition ex_plain : translator := make_translator (fun _ => []) (fun _ _ => []) (fun _ => []) true 0 [] None None.
Definition ex_attrs (m : N) : attrs := (mkAttrs m 1000 1000 (1, 0) (2, 0))%N.
Definition ex_child (n : nat) (w : bytes) : option nat :=
  match n with
  | 0 => if bytes_eqb w (str "repo") then Some 1 else if bytes_eqb w (str "other") then Some 2 else None
  | 1 => if bytes_eqb w (str "link") then Some 3 else if bytes_eqb w (str "dir") then Some 4 else None
  | 4 => if bytes_eqb w (str "file") then Some 5 else if bytes_eqb w (str "also") then Some 5 else None
  | _ => None
  end.
Definition ex_host : lhost :=
  mkLH (mkTree 0 ex_child (fun _ => 0)) (fun n => if n =? 3 then Some (str "/other") else None) (fun n => ex_attrs (N.of_nat n)).
Theorem C100_plain_link_refuted :
  ~ (forall dir h path mode h' n,
       (exists names, names_path path names) -> (forall P l, t_encrypt ex_plain path = Ok (P, l) -> no_link_on_way h dir (comps P)) ->
       a_step ex_plain false true dir h (AChmod path mode None None) = (h', ADone (Ok tt)) ->
       at_mode (lh_attr h' n) <> at_mode (lh_attr h n) -> exists names, down (lh_tree h) dir names = Some n).
Proof.
  intros H.
  destruct (H 1 ex_host (str "/link") 511%N (fst (a_step ex_plain false true 1 ex_host (AChmod (str "/link") 511 None None))) 2) as (names & D).
  - exists [str "link"]. split; [|reflexivity]. constructor; [|constructor]. split; [discriminate|]. split; [discriminate|]. split; [discriminate|].
    vm_compute. intros K. repeat (destruct K as [K|K]; [discriminate K|]). exact K.
  - intros P l E. vm_compute in E. injection E as <- <-. intros before rest n Eb Nb Nr _. vm_compute in Eb.
    destruct before as [|x [|y before]]; [contradiction| |discriminate Eb]. destruct rest; [contradiction|discriminate Eb].
  - reflexivity.
  - vm_compute. discriminate.
  - assert (K : forall names a n, down (lh_tree ex_host) a names = Some n -> a = 1 \/ a = 3 \/ a = 4 \/ a = 5 -> n = 1 \/ n = 3 \/ n = 4 \/ n = 5).
    { induction names0 as [|w r IH]; intros a n; cbn [down]; [intros Z; injection Z as <-; exact (fun x => x)|].
      destruct (ht_child (lh_tree ex_host) a w) as [x|] eqn:C; [|intros Z; discriminate Z]. intros Z Ha. apply (IH x n Z). clear - C Ha.
      change (ex_child a w = Some x) in C. unfold ex_child in C.
      destruct Ha as [->|[->|[->| ->]]]; try discriminate C; repeat match type of C with (if ?c then _ else _) = _ => destruct c end; try discriminate C; injection C as <-; lia. }
    pose proof (K names 1 2 D (or_introl eq_refl)). lia.
Qed.
Print Assumptions C100_plain_link_refuted.

(** Histories that meet the conditions: a file with two names, its directory, and a link. *)
Definition ex_calls : list aop :=
  [ AChmod (str "/dir/file") 420 None None; AStat (str "/dir/also");
    AChown (str "/dir/also") 1 4294967295 (Some (EPosix 95)) None; AUtimens (str "/dir") (7, 1073741822)%N (9, 1073741823)%N (50, 5)%N None;
    AChmod (str "/none") 420 None None; AUtimens (str "/link") (3, 4)%N (5, 6)%N (50, 5)%N None; AChmod (str "/dir") 448 (Some (EPosix 1)) None;
    AStat (str "/dir/file"); AStat (str "/dir"); AStat (str "/link") ].
Lemma ex_name w : existsb (fun c => Byte.eqb c slash) w = false -> 2 < length w -> a_name w.
Proof.
  intros H L. repeat split; [| | |]; try (intros ->; cbn in L; lia). intros Hi. assert (K : existsb (fun c => Byte.eqb c slash) w = true).
  { apply existsb_exists. exists slash. split; [exact Hi|reflexivity]. } rewrite K in H. discriminate H.
Qed.
Example C100_example : Forall (as_handed_over ex_plain ex_host 1 false false) ex_calls /\
  snd (a_run ex_plain false false 1 ex_host ex_calls) =
  [ ADone (Ok tt); AAttr (Ok (mkAttrs 420 1000 1000 (1, 0) (2, 0))); ADone (Ok tt); ADone (Ok tt); ADone (Err (EPosix 2)); ADone (Ok tt); ADone (Err (EPosix 1));
    AAttr (Ok (mkAttrs 420 1 1000 (1, 0) (2, 0))); AAttr (Ok (mkAttrs 4 1000 1000 (1, 0) (50, 5))); AAttr (Ok (mkAttrs 3 1000 1000 (3, 4) (5, 6))) ]%N.
Proof.
  split; [|vm_compute; reflexivity]. unfold ex_calls.
  assert (A : forall w, existsb (fun c => Byte.eqb c slash) w = false -> 2 < length w -> Forall a_name [w]) by (intros w; constructor; [apply ex_name; assumption|constructor]).
  assert (B : forall w v, existsb (fun c => Byte.eqb c slash) w = false -> 2 < length w -> existsb (fun c => Byte.eqb c slash) v = false -> 2 < length v -> Forall a_name [w; v]).
  { intros w v H1 H2 H3 H4. constructor; [apply ex_name; assumption|apply A; assumption]. }
  repeat (constructor; [split; [|split]; cbn [path_in];
    [ first [ exists [str "dir"; str "file"]; split; [apply B; vm_compute; first [reflexivity|lia]|reflexivity]
            | exists [str "dir"; str "also"]; split; [apply B; vm_compute; first [reflexivity|lia]|reflexivity]
            | exists [str "dir"]; split; [apply A; vm_compute; first [reflexivity|lia]|reflexivity]
            | exists [str "none"]; split; [apply A; vm_compute; first [reflexivity|lia]|reflexivity]
            | exists [str "link"]; split; [apply A; vm_compute; first [reflexivity|lia]|reflexivity] ]
    | intros P l E; vm_compute in E; injection E as <- <-; intros before rest n Eb Nb Nr D; vm_compute in Eb;
      destruct before as [|x [|y [|z before]]]; [contradiction| | |discriminate Eb];
      [ injection Eb as <- Er; vm_compute in D; first [discriminate D|injection D as <-; first [reflexivity|exfalso; apply Nr; symmetry; exact Er]]
      | destruct rest as [|r rest]; [contradiction|discriminate Eb] ]
    | intros n Pn; vm_compute in Pn; first [discriminate Pn|injection Pn as <-; first [left; reflexivity|right; exact I]] ]|]); constructor.
Qed.
(** A host with a link whose text the repository made. *)
Definition ex_enc_host (text : bytes) : lhost :=
  mkLH (mkTree 0 (fun n w => match n with 0 => if bytes_eqb w (str "repo") then Some 1 else None | 1 => Some 2 | _ => None end) (fun _ => 0))
       (fun n => if n =? 2 then Some text else None) (fun n => ex_attrs (N.of_nat n)).
Example C100_example_link :
  match t_encrypt ex_tr (str "/some name"), t_link_enc ex_tr (str "../the target") with
  | Ok (P, _), Ok text =>
    length (comps P) = 1 /\ place ex_tr (lh_tree (ex_enc_host text)) 1 (str "/some name") = Ok 2 /\
    forallb (fun w => match ht_child (lh_tree (ex_enc_host text)) 0 w with None => true | Some _ => false end) (split_slash text) = true
  | _, _ => False
  end.
Proof. vm_compute. repeat (split; [reflexivity|]). reflexivity. Qed.
