(** C86: the memory that the query for the spelling of a path reads. *)
From Coq Require Import ZArith Strings.String.
From Verif Require Import Base BaseLemmas TextModel FullFsModel BtreeModel TableModel TableSpec TableProofs TableTop GetpathModel GetpathSpec GetpathProofs.
Local Open Scope nat_scope.
Local Open Scope list_scope.

(** C86.  After any history of the table of open files: while a query for the spelling of a
    path runs, and other threads do what they like except change directories, no memory is
    read that has been freed or has changed, and the names given are those in the
    directories, if the components of the path and the files that other threads close
    meanwhile are at most 42 together. *)
Theorem C86_getpath :
  forall entries cmp d past t h, trun past (start d) = (t, h) ->
  exists s, lawful_run (cells0 d) h s /\
    (linked entries s ->
     forall path xs t1 p1, length path + rests xs <= 42 -> calm_run entries cmp xs t (PStart path) ->
       grun entries cmp xs t (PStart path) = (t1, p1) ->
       p1 <> PFreed /\ forall names, p1 = PNames names -> spelled entries cmp s root_id path names).
Proof.
  intros entries cmp d past t h E. destruct (start_TI d) as [H Hs]. destruct (run_TI past (start d) (cells0 d) H Hs t h E) as (s & L & H' & Hs').
  exists s. split; [exact L|]. intros HL path xs t1 p1 Hb Hc G.
  assert (HI : Inv entries cmp s path t (PStart path) s 0 0).
  { split; [exact H'|]. split; [exact Hs'|]. split; [intros id c F _; exact F|]. split; [intros y; cbn; lia|]. split; reflexivity. }
  destruct (grun_inv entries cmp s path HL xs t (PStart path) s 0 0 t1 p1 ltac:(lia) HI Hc G) as (s1 & e1 & k1 & _ & _ & _ & _ & HP).
  split; [intros ->; exact HP|]. intros names ->. exact (proj1 HP).
Qed.
Print Assumptions C86_getpath.

(** ** Examples: directories that have one entry, D, all in the same shard. *)
Definition gid (n : nat) : bytes := repeat x01 31 ++ [n2b (N.of_nat n)].
Definition gentries (data : bytes) : list entry := if bytes_eqb data [] then [] else [mkEntry (str "D") data TDIR].
Definition gcmp (a b : bytes) : comparison := if bytes_eqb (to_lower a) (to_lower b) then Eq else Lt.
Definition gdir (child : option bytes) : content := mkC (493 + TDIR * 4096) 1 (match child with Some i => i | None => [] end).
(** A chain of [n] directories below the root, and some files outside it. *)
Definition gdisk (n : nat) : bytes -> option content := fun id =>
  if bytes_eqb id root_id then Some (gdir (Some (gid 1)))
  else match find (fun i => bytes_eqb (gid i) id) (seq 1 250) with
       | Some i => if i <? n then Some (gdir (Some (gid (S i)))) else Some (gdir None)
       | None => None
       end.
(** Nine files are opened and closed. *)
Definition gpast : list act :=
  flat_map (fun i => [AOpen (gid (100 + i)) TDIR None; ADrop (S i); AReadId (S i); AClose (gid (100 + i)) None; AFinish (shard_of (gid 1)) None]) (seq 0 9).
Definition gpath (n : nat) : list bytes := repeat (str "d") n.
Definition gend (p : pc) : option (list bytes) := match p with PNames l => Some l | _ => None end.

(** The longest path within the bound. *)
Example C86_example :
  let t := fst (trun gpast (start (gdisk 42))) in
  gend (snd (grun gentries gcmp (repeat None 400) t (PStart (gpath 42)))) = Some (repeat (str "D") 42) /\
  length (cached (fst (grun gentries gcmp (repeat None 400) t (PStart (gpath 42)))) (shard_of (gid 1))) = 50.
Proof. vm_compute. split; reflexivity. Qed.
(** Its hypotheses are met, with another thread that looks at a directory and closes it. *)
Definition gothers : list (option act) :=
  repeat None 8 ++ [Some (AOpen (gid 1) TDIR None); Some (ARead 1); Some (ADrop 1); Some (AReadId 1); Some (AClose (gid 1) None); Some (AFinish (shard_of (gid 1)) None)] ++ repeat None 30.
Example C86_hypotheses_example :
  linked gentries (cells0 (gdisk 3)) /\ length (gpath 3) + rests gothers <= 42 /\
  calm_run gentries gcmp gothers (start (gdisk 3)) (PStart (gpath 3)) /\
  gend (snd (grun gentries gcmp gothers (start (gdisk 3)) (PStart (gpath 3)))) = Some (repeat (str "D") 3).
Proof.
  split; [|split; [|split]].
  - intros id c e c' _ _ _ Hf _. unfold cells0 in Hf. cbn [files] in Hf.
    assert (G : forall i x, gdisk 3 i = Some x -> c_nlink x = 1%N).
    { intros i x. unfold gdisk. destruct (bytes_eqb i root_id); [intros [= <-]; reflexivity|]. destruct (find _ _) as [j|]; [|discriminate]. destruct (j <? 3); intros [= <-]; reflexivity. }
    destruct (gdisk 3 root_id) eqn:Er; [|vm_compute in Er; discriminate Er]. rewrite (G _ _ Hf). discriminate.
  - vm_compute. lia.
  - vm_compute. repeat split; lia.
  - vm_compute. reflexivity.
Qed.

(** The bound is sharp: one more component, and with no other thread at all freed memory is
    read. *)
Theorem C86_deep_path_refuted :
  let t := fst (trun gpast (start (gdisk 43))) in
  linked gentries (cells0 (gdisk 43)) /\ snd (grun gentries gcmp (repeat None 400) t (PStart (gpath 43))) = PFreed.
Proof.
  split; [|vm_compute; reflexivity].
  intros id c e c' _ _ _ Hf _. unfold cells0 in Hf. cbn [files] in Hf.
  assert (G : forall i x, gdisk 43 i = Some x -> c_nlink x = 1%N).
  { intros i x. unfold gdisk. destruct (bytes_eqb i root_id); [intros [= <-]; reflexivity|]. destruct (find _ _) as [j|]; [|discriminate]. destruct (j <? 43); intros [= <-]; reflexivity. }
  destruct (gdisk 43 root_id) eqn:Er; [|vm_compute in Er; discriminate Er]. rewrite (G _ _ Hf). discriminate.
Qed.
Print Assumptions C86_deep_path_refuted.

(** And with another thread that removes the entry just found, a path of one component is
    enough. *)
Theorem C86_concurrent_removal_refuted :
  snd (grun gentries gcmp ([None; None; Some (AOpen root_id TDIR None); Some (AChange 0 (gdir None)); Some (ADrop 0)] ++ repeat None 20)
        (start (gdisk 1)) (PStart (gpath 1))) = PFreed.
Proof. vm_compute. reflexivity. Qed.
Print Assumptions C86_concurrent_removal_refuted.
