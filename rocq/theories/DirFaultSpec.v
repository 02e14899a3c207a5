(** Which failures a directory is to get over. *)
From Verif Require Import Base CodecModel BtreeModel GBtreeModel BtreeSpec DirFaultModel.
Local Open Scope list_scope.

(** Something goes wrong in the plan, with this error. *)
Definition goes_wrong (plan : list fault) (e : err) : Prop := exists k, In (Some (e, k)) plan.

(** The directory is to be written anew, more compactly, when it is flushed: more than five
    pages are free, and more than two thirds. *)
Definition to_be_compacted (g : gbt flaky) : bool :=
  (5 <? g_nfree flaky g)%N && (N.of_nat (length (fst (g_stream flaky g)) / (BLOCK_SIZE * 3 / 2)) <? g_nfree flaky g)%N.

(** During lookups, listings, and flushes that do not compact, anything may go wrong; during
    changes nothing, or so much that a lookup of the name would have failed already. *)
Definition step_calm cmp junk (o : dop) (plan : list fault) (g : gbt flaky) : Prop :=
  match o with
  | DGet _ | DList | DEmpty => True
  | DFlush => plan = [] \/ to_be_compacted g = false
  | DAdd name _ _ | DRemove name => plan = [] \/ exists e, snd (f_step cmp junk (DGet name) plan g) = Err e
  | DReload => plan = []
  end.
Fixpoint run_calm cmp junk (ops : list (dop * list fault)) (g : gbt flaky) : Prop :=
  match ops with
  | [] => True
  | (o, plan) :: ops' => step_calm cmp junk o plan g /\ run_calm cmp junk ops' (fst (f_step cmp junk o plan g))
  end.

(** The entries after an operation that gave this answer: one that failed has no effect. *)
Definition next cmp (o : dop) (r : res dout) (m : list entry) : list entry :=
  match r with Ok _ => fst (dspec_step cmp o m) | Err _ => m end.
Fixpoint after cmp (ops : list (dop * list fault)) (answers : list (res dout)) (m : list entry) : list entry :=
  match ops, answers with
  | (o, _) :: ops', r :: rs => after cmp ops' rs (next cmp o r m)
  | _, _ => m
  end.

(** Each answer is right, or an error that did occur. *)
Fixpoint explained cmp (ops : list (dop * list fault)) (answers : list (res dout)) (m : list entry) : Prop :=
  match ops, answers with
  | [], [] => True
  | (o, plan) :: ops', r :: rs =>
    (same_answer r (snd (dspec_step cmp o m)) \/ exists e, goes_wrong plan e /\ r = Err e) /\
    explained cmp ops' rs (next cmp o r m)
  | _, _ => False
  end.

(** Never more entries than that. *)
Definition never_huge cmp (ops : list (dop * list fault)) (answers : list (res dout)) : Prop :=
  forall k, (N.of_nat (length (after cmp (firstn k ops) answers [])) < 6000000)%N.

(** Changes in calm; lookups, listings and all flushes in any weather. *)
Definition calm_but_flushes (ops : list (dop * list fault)) : Prop :=
  Forall (fun op => match fst op with DGet _ | DList | DEmpty | DFlush => True | _ => snd op = [] end) ops.
