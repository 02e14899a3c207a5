(** C83: ismount recognises what securefs serves, and unmount stops it. *)
From Coq Require Import Strings.String.
From Verif Require Import Base BaseLemmas TextModel FuseModel FuseSpec PropertiesFuse UnmountModel.
Local Open Scope list_scope.

(** How a mount looks to other processes: the operations that mounting makes of the
    file system, behind the kernel. *)
Definition mounted {S} (notify clean_exit : S -> S) uid gid fuse_t idle allow inner lg op p : dirsys S :=
  served S lg (make_fuse_ops S notify clean_exit uid gid fuse_t idle allow inner) op p.

Lemma child_root : child [x2f] kSpecialFileName = x2f :: kSpecialFileName.
Proof. reflexivity. Qed.
Lemma special_root_getattr st : special true (FGetattr (Some (x2f :: kSpecialFileName)) st) = true.
Proof. vm_compute. reflexivity. Qed.
Lemma special_root_rmdir : special true (FRmdir (Some (x2f :: kSpecialFileName))) = true.
Proof. vm_compute. reflexivity. Qed.

(** The root of a mount, whatever is mounted and with whatever options: once it can be
    opened, ismount says yes and does nothing to the mount beyond opening its root, unmount
    succeeds and ends the mount.  [s1] is the state after the opening. *)
Theorem C83_mounted :
  forall S (notify clean_exit : S -> S) uid gid fuse_t idle allow inner lg (op : S -> S * Z) s s1 rc,
  op s = (s1, rc) -> (0 <= rc)%Z ->
  let d := mounted notify clean_exit uid gid fuse_t idle allow inner lg op [x2f] in
  ismount_cmd S fuse_t d s = (s1, 0%Z) /\
  unmount_cmd S fuse_t d s = (clean_exit s1, 0%Z).
Proof.
  intros S notify ce uid gid ft idle allow inner lg op s s1 rc Hop Hrc d. unfold ismount_cmd, unmount_cmd, is_mounted, trigger_unmount, os_open, d, mounted.
  cbn [d_open served]. rewrite Hop. replace (rc <? 0)%Z with false by (symmetry; apply Z.ltb_ge; exact Hrc).
  destruct ft.
  - unfold os_stat_mode. cbn [d_stat d_rmdir served]. unfold fuse_stat. rewrite child_root.
    destruct (C55_special_calls S notify ce uid gid true idle allow inner lg (FGetattr (Some (x2f :: kSpecialFileName)) (Some [])) s1 (special_root_getattr _)) as [ls ->].
    cbn [fst]. split; [reflexivity|].
    destruct (C55_special_calls S notify ce uid gid true idle allow inner lg (FRmdir (Some (x2f :: kSpecialFileName))) s1 special_root_rmdir) as [ls2 ->]. reflexivity.
  - unfold query_by_ioctl, unmount_by_ioctl. cbn [d_ioctl served]. split.
    + destruct (C55_special_calls S notify ce uid gid false idle allow inner lg (FIoctl (Some [x2f]) cmd_query 0 None 16 (mkBuf 1 [x00; x00; x00; x00])) s1 eq_refl) as [ls ->].
      reflexivity.
    + destruct (C55_special_calls S notify ce uid gid false idle allow inner lg (FIoctl (Some [x2f]) cmd_unmount 0 None 16 (mkBuf 1 [])) s1 eq_refl) as [ls ->].
      reflexivity.
Qed.
Print Assumptions C83_mounted.

(** Any other directory: ismount says yes only when the system answers the query with
    success and the magic number in all four bytes (with FUSE-T, when the special directory
    is there), and a directory that cannot be opened is no mount. *)
Theorem C83_not_mounted :
  forall S fuse_t (d : dirsys S) s,
  snd (ismount_cmd S fuse_t d s) = 0%Z <->
  exists s1 rc, d_open S d s = (s1, rc) /\ (0 <= rc)%Z /\
  if fuse_t then exists s2 r m, d_stat S d kSpecialFileName s1 = (s2, (r, m)) /\ (0 <= r)%Z /\ Z.land m 61440 = 16384%Z
  else exists s2, d_ioctl S d 2147775233 [x00; x00; x00; x00] s1 = (s2, (0%Z, [x33; xf9; x0f; x0a])).
Proof.
  intros S ft d s. unfold ismount_cmd, is_mounted, os_open. destruct (d_open S d s) as [s1 rc] eqn:Eo.
  destruct (Z.ltb_spec rc 0) as [H|H].
  { cbn [snd]. split; [discriminate|]. intros (s1' & rc' & E & H' & _). injection E as <- <-. lia. }
  destruct ft.
  - unfold os_stat_mode. destruct (d_stat S d kSpecialFileName s1) as [s2 [r m]] eqn:Es. destruct (Z.ltb_spec r 0) as [Hr|Hr].
    + destruct (r =? -2)%Z; cbn [snd]; (split; [intros X; vm_compute in X; discriminate X|]);
        intros (s1' & rc' & E & H' & s2' & r' & m' & E2 & H2 & _); injection E as <- <-; rewrite Es in E2; injection E2 as <- <- <-; lia.
    + unfold is_dir_mode. destruct (Z.eqb_spec (Z.land m 61440) 16384) as [Hm|Hm]; cbn [snd]; split; try discriminate; try reflexivity.
      * intros _. exists s1, rc. split; [reflexivity|]. split; [lia|]. exists s2, r, m. auto.
      * intros (s1' & rc' & E & H' & s2' & r' & m' & E2 & H2 & H3). injection E as <- <-. rewrite Es in E2. injection E2 as <- <- <-. contradiction.
  - unfold query_by_ioctl. change cmd_query with 2147775233%N. destruct (d_ioctl S d 2147775233 [x00; x00; x00; x00] s1) as [s2 [r m]] eqn:Ei.
    destruct (Z.eqb_spec r 0) as [Hr|Hr]; cbn [andb].
    + destruct (bytes_eqb m magic) eqn:Em; cbn [snd]; split; try discriminate; try reflexivity.
      * intros _. apply bytes_eqb_eq in Em. subst. exists s1, rc. split; [reflexivity|]. split; [lia|]. exists s2. exact Ei.
      * intros (s1' & rc' & E & H' & s2' & E2). injection E as <- <-. rewrite Ei in E2. injection E2 as -> -> ->. vm_compute in Em. discriminate Em.
    + cbn [snd]. split; [discriminate|]. intros (s1' & rc' & E & H' & s2' & E2). injection E as <- <-. rewrite Ei in E2. injection E2 as -> -> ->. contradiction.
Qed.
Print Assumptions C83_not_mounted.

(** Without FUSE-T, unmount fails when the directory cannot be opened or the system
    refuses the request, and then it has made no other call. *)
Theorem C83_unmount_elsewhere :
  forall S (d : dirsys S) s s1 rc s2 r m,
  d_open S d s = (s1, rc) -> d_ioctl S d 29442 [] s1 = (s2, (r, m)) ->
  unmount_cmd S false d s = if (rc <? 0)%Z then (s1, 2%Z) else (s2, if (r <? 0)%Z then 2%Z else 0%Z).
Proof.
  intros S d s s1 rc s2 r m Ho Hi. unfold unmount_cmd, trigger_unmount, os_open, unmount_by_ioctl. rewrite Ho.
  destruct (rc <? 0)%Z; [reflexivity|]. change cmd_unmount with 29442%N. rewrite Hi. destruct (r <? 0)%Z; reflexivity.
Qed.
Print Assumptions C83_unmount_elsewhere.

(** Not so with FUSE-T: for a directory that is no mount, unmount reports success although
    nothing was unmounted. *)
Theorem C83_fuse_t_silent_refuted :
  ~ (forall S (d : dirsys S) s, snd (ismount_cmd S true d s) <> 0%Z -> snd (unmount_cmd S true d s) <> 0%Z).
Proof.
  intros H. apply (H unit (mkDir unit (fun s => (s, 3%Z)) (fun _ m s => (s, ((-25)%Z, m))) (fun _ s => (s, ((-2)%Z, 0%Z))) (fun _ s => (s, (-2)%Z))) tt);
    vm_compute; [discriminate|reflexivity].
Qed.
Print Assumptions C83_fuse_t_silent_refuted.

(** Not so: that only the mount point itself is recognised.  Without FUSE-T every directory
    inside a mount passes for a mount point, and unmounting it ends the whole mount. *)
Theorem C83_inside :
  forall S (notify clean_exit : S -> S) uid gid idle allow inner lg (op : S -> S * Z) p s s1 rc,
  op s = (s1, rc) -> (0 <= rc)%Z ->
  let d := mounted notify clean_exit uid gid false idle allow inner lg op p in
  ismount_cmd S false d s = (s1, 0%Z) /\ unmount_cmd S false d s = (clean_exit s1, 0%Z).
Proof.
  intros S notify ce uid gid idle allow inner lg op p s s1 rc Hop Hrc d. unfold ismount_cmd, unmount_cmd, is_mounted, trigger_unmount, os_open, d, mounted.
  cbn [d_open served]. rewrite Hop. replace (rc <? 0)%Z with false by (symmetry; apply Z.ltb_ge; exact Hrc).
  unfold query_by_ioctl, unmount_by_ioctl. cbn [d_ioctl served]. split.
  + destruct (C55_special_calls S notify ce uid gid false idle allow inner lg (FIoctl (Some p) cmd_query 0 None 16 (mkBuf 1 [x00; x00; x00; x00])) s1 eq_refl) as [ls ->].
    reflexivity.
  + destruct (C55_special_calls S notify ce uid gid false idle allow inner lg (FIoctl (Some p) cmd_unmount 0 None 16 (mkBuf 1 [])) s1 eq_refl) as [ls ->].
    reflexivity.
Qed.
Print Assumptions C83_inside.

(** With FUSE-T only the root does: in another directory the special name is looked up in
    the file system that is mounted. *)
Theorem C83_inside_fuse_t :
  forall S (notify clean_exit : S -> S) uid gid idle allow inner lg (op : S -> S * Z) p s s1 rc s2,
  op s = (s1, rc) -> (0 <= rc)%Z -> p <> [x2f] -> p <> [] ->
  f_has S inner "getattr" = true ->
  f_run S inner (FGetattr (Some (p ++ x2f :: kSpecialFileName)) (Some [])) (if 0 <? idle then notify s1 else s1) =
    (s2, Throws (XVfs 2) (FGetattr (Some (p ++ x2f :: kSpecialFileName)) (Some []))) ->
  let d := mounted notify clean_exit uid gid true idle allow inner lg op p in
  ismount_cmd S true d s = (s2, 1%Z) /\ unmount_cmd S true d s = (s2, 0%Z).
Proof.
  intros S notify ce uid gid idle allow inner lg op p s s1 rc s2 Hop Hrc Hp Hp0 Hh Hr d.
  assert (Hc : child p kSpecialFileName = p ++ x2f :: kSpecialFileName).
  { unfold child. destruct (bytes_eqb p [x2f]) eqn:E; [|reflexivity]. apply bytes_eqb_eq in E. contradiction. }
  assert (Hn : is_special (Some (p ++ x2f :: kSpecialFileName)) = false).
  { destruct p as [|c p]; [contradiction|]. cbn [is_special app]. apply andb_false_iff. right.
    destruct (bytes_eqb (p ++ x2f :: kSpecialFileName) kSpecialFileName) eqn:E; [|reflexivity]. apply bytes_eqb_eq in E.
    apply (f_equal (@length _)) in E. rewrite app_length in E. cbn [length] in E. lia. }
  assert (Hs : fuse_stat S lg (make_fuse_ops S notify ce uid gid true idle allow inner) (p ++ x2f :: kSpecialFileName) s1 = (s2, ((-2)%Z, 0%Z))).
  { unfold fuse_stat, fuse_call, make_fuse_ops.
    set (base := if allow then _ else _). assert (Hb : f_run S base (FGetattr (Some (p ++ x2f :: kSpecialFileName)) (Some [])) s1 = (s2, Throws (XVfs 2) (FGetattr (Some (p ++ x2f :: kSpecialFileName)) (Some [])))).
    { rewrite <- Hr. unfold base. destruct allow, (0 <? idle); reflexivity. }
    clearbody base. cbn [f_has special_filed call_name traced_args fst String.eqb Ascii.eqb Bool.eqb orb f_run]. rewrite Hn, Hb. reflexivity. }
  unfold ismount_cmd, unmount_cmd, is_mounted, trigger_unmount, os_open, os_stat_mode, d, mounted.
  cbn [d_open d_stat d_rmdir served]. rewrite Hop, Hc, Hs. replace (rc <? 0)%Z with false by (symmetry; apply Z.ltb_ge; exact Hrc).
  split; reflexivity.
Qed.
Print Assumptions C83_inside_fuse_t.

(** Cases: a counter for the state, an inner file system that answers everything with
    "no such file"; a directory on another file system. *)
Definition c83_inner : fops nat := mkOps nat false (fun _ => true) (fun c s => (S s, Throws (XVfs 2) c)).
Definition c83_mount ft p := mounted (fun s => 100 + s) (fun s => 1000 + s) 1 1 ft 5 false c83_inner None (fun s => (10 + s, 3%Z)) p.
Definition c83_other : dirsys nat := mkDir nat (fun s => (S s, 3%Z)) (fun _ m s => (S s, ((-25)%Z, m))) (fun _ s => (S s, ((-2)%Z, 0%Z))) (fun _ s => (S s, (-2)%Z)).
Example C83_case :
  ismount_cmd nat false (c83_mount false [x2f]) 0 = (10, 0%Z) /\ unmount_cmd nat false (c83_mount false [x2f]) 0 = (1010, 0%Z) /\
  ismount_cmd nat true (c83_mount true [x2f]) 0 = (10, 0%Z) /\ unmount_cmd nat true (c83_mount true [x2f]) 0 = (1010, 0%Z) /\
  ismount_cmd nat true (c83_mount true [x2f; x61]) 0 = (111, 1%Z) /\
  ismount_cmd nat false c83_other 0 = (2, 1%Z) /\ unmount_cmd nat false c83_other 0 = (2, 2%Z) /\ ismount_cmd nat true c83_other 0 = (2, 1%Z).
Proof. vm_compute. repeat split; reflexivity. Qed.
