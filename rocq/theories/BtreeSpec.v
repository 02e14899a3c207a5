(** What a user expects of a directory: a finite map from names to (id, type),
    where two names are the same name when the comparison function says so. *)
From Verif Require Import Base CodecModel BtreeModel.
From Coq Require Import Permutation.

(** A comparison function that orders names: a total preorder. *)
Record cmp_ok (cmp : bytes -> bytes -> comparison) : Prop := {
  cmp_sym : forall a b, cmp b a = CompOpp (cmp a b);
  cmp_lt_trans : forall a b c, cmp a b = Lt -> cmp b c = Lt -> cmp a c = Lt;
  cmp_eq_l : forall a b c, cmp a b = Eq -> cmp a c = cmp b c }.

Section Spec.
Variable cmp : bytes -> bytes -> comparison.

Definition same_name (a b : bytes) : bool := match cmp a b with Eq => true | _ => false end.

Definition find_name (name : bytes) (m : list entry) : option entry :=
  find (fun e => same_name name (e_name e)) m.

Definition drop_name (name : bytes) (m : list entry) : list entry :=
  filter (fun e => negb (same_name name (e_name e))) m.

Definition name_too_long (name : bytes) : bool := 255 <? length name.

Definition dspec_step (o : dop) (m : list entry) : list entry * res dout :=
  match o with
  | DGet name =>
    if name_too_long name then (m, Err (EPosix 36)) else
    (m, Ok (OEntry (find_name name m)))
  | DAdd name id ty =>
    if name_too_long name then (m, Err (EPosix 36)) else
    match find_name name m with
    | Some _ => (m, Ok (OBool false))
    | None => (mkEntry name id ty :: m, Ok (OBool true))
    end
  | DRemove name =>
    if name_too_long name then (m, Err (EPosix 36)) else
    (drop_name name m, Ok (OEntry (find_name name m)))
  | DList => (m, Ok (OList m))
  | DEmpty => (m, Ok (OBool (match m with [] => true | _ => false end)))
  | DFlush => (m, Ok OUnit)
  | DReload => (m, Ok OUnit)
  end.

Fixpoint dspec_run (ops : list dop) (m : list entry) : list entry * list (res dout) :=
  match ops with
  | [] => (m, [])
  | o :: ops' =>
    let '(m', r) := dspec_step o m in
    let '(m'', rs) := dspec_run ops' m' in
    (m'', r :: rs)
  end.
End Spec.

(** Same answer; a listing may come in any order. *)
Definition same_answer (a b : res dout) : Prop :=
  match a, b with
  | Ok (OList l), Ok (OList l') => Permutation l l'
  | _, _ => a = b
  end.

(** Names and values the format can hold. *)
Definition entry_ok (e : entry) : Prop :=
  length (e_name e) <= 255 /\ ~ In x00 (e_name e) /\ length (e_id e) = 32 /\
  (e_type e < 2 ^ 32)%N.

(** The arguments of an operation the callers can produce: names without NUL,
    32-byte ids, 32-bit types.  Over-long names are allowed (they are refused). *)
Definition dop_ok (o : dop) : Prop :=
  match o with
  | DAdd name id ty => ~ In x00 name /\ length id = 32 /\ (ty < 2 ^ 32)%N
  | _ => True
  end.

(** A node within the format's limits. *)
Definition node_fits (cs : list N) (es : list entry) : Prop :=
  length cs <= 14 /\ length es <= 13 /\ Forall (fun c => (c < 2 ^ 32)%N) cs /\
  Forall entry_ok es.

(** ** Reading the tree off the pages *)

(** What the directory file says page [p] holds: the copy in memory if there is
    one, otherwise the 4096 bytes at [p * 4096] of the stream. *)
Definition view (st : bt) (p : N) : option (list N * list entry) :=
  match lookup p (b_cache st) with
  | Some nd => Some (n_children nd, n_entries nd)
  | None =>
    match from_buffer (arr_read (b_stream st) (N.to_nat p * 4096) 4096) with
    | Ok x => Some x
    | Err _ => None
    end
  end.

(** l0, e0, l1, e1, ..., ln *)
Fixpoint weave (ls : list (list entry)) (es : list entry) : list entry :=
  match ls, es with
  | [], _ => []
  | l :: _, [] => l
  | l :: ls', e :: es' => l ++ e :: weave ls' es'
  end.

(** [subtree st h p pgs es]: below page [p] hangs a tree all of whose leaves are
    at depth [h], stored in the pages [pgs], holding the entries [es] from left
    to right.  Every node below [p] holds 6 to 13 entries. *)
Inductive subtree (st : bt) : nat -> N -> list N -> list entry -> Prop :=
| ST_leaf p es : view st p = Some ([], es) -> subtree st 0 p [p] es
| ST_inner h p cs es pss ess :
    view st p = Some (cs, es) -> es <> [] -> length cs = S (length es) ->
    subtrees st h cs pss ess ->
    subtree st (S h) p (p :: concat pss) (weave ess es)
with subtrees (st : bt) : nat -> list N -> list (list N) -> list (list entry) -> Prop :=
| SS_nil h : subtrees st h [] [] []
| SS_cons h c cs ccs ces pgs es pss ess :
    view st c = Some (ccs, ces) -> 6 <= length ces <= 13 ->
    subtree st h c pgs es -> subtrees st h cs pss ess ->
    subtrees st h (c :: cs) (pgs :: pss) (es :: ess).

Fixpoint strictly_sorted (cmp : bytes -> bytes -> comparison) (l : list entry) : Prop :=
  match l with
  | [] => True
  | e :: l' => Forall (fun e' => cmp (e_name e) (e_name e') = Lt) l' /\ strictly_sorted cmp l'
  end.

(** The tree of a directory: its depth, pages and entries. *)
Inductive dir_tree (st : bt) : nat -> list N -> list entry -> Prop :=
| DT_none : b_root st = INVALID_PAGE -> dir_tree st 0 [] []
| DT_some h pgs es cs res :
    b_root st <> INVALID_PAGE -> view st (b_root st) = Some (cs, res) -> length res <= 13 ->
    subtree st h (b_root st) pgs es -> dir_tree st h pgs es.

(** [free_list st p prev fs]: starting at page [p] the free pages [fs] are linked
    one after the other, each with flag word 0 and pointing back at the one before. *)
Inductive free_list (st : bt) : N -> N -> list N -> Prop :=
| FL_nil prev : free_list st INVALID_PAGE prev []
| FL_cons p prev next fs :
    p <> INVALID_PAGE ->
    from_le (arr_read (b_stream st) (N.to_nat p * 4096) 4) = 0%N ->
    from_le (arr_read (b_stream st) (N.to_nat p * 4096 + 4) 4) = next ->
    from_le (arr_read (b_stream st) (N.to_nat p * 4096 + 8) 4) = prev ->
    free_list st next p fs -> free_list st p prev (p :: fs).

(** ** Flushing at arbitrary points *)
Definition is_flush (o : dop) : bool :=
  match o with DFlush | DReload => true | _ => false end.

(** The answers of a history without those to its flushes and reloads. *)
Fixpoint drop_flush_answers (ops : list dop) (rs : list (res dout)) : list (res dout) :=
  match ops, rs with
  | o :: ops', r :: rs' =>
    if is_flush o then drop_flush_answers ops' rs' else r :: drop_flush_answers ops' rs'
  | _, _ => []
  end.

(** The directory never holds more than six million names during a history. *)
Definition moderate (cmp : bytes -> bytes -> comparison) (ops : list dop) : Prop :=
  forall k, (N.of_nat (length (fst (dspec_run cmp (firstn k ops) []))) <= 6000000)%N.

(** No two entries have the same name. *)
Fixpoint names_distinct (cmp : bytes -> bytes -> comparison) (m : list entry) : Prop :=
  match m with
  | [] => True
  | e :: m' => find_name cmp (e_name e) m' = None /\ names_distinct cmp m'
  end.
