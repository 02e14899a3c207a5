(** Atomic files: every operation takes effect at one moment between its call and its
    return.  A history (the calls and returns of all threads, in order) is allowed if
    such moments can be found. *)
From Verif Require Import Base StreamSpec ConcModel.

Section Atomic.
Variable Abs R Op : Type.
Variable apply : Abs -> Op -> Abs * R.   (* what an operation does *)
Variable file_of : nat -> nat.           (* the file of a handle *)
Variable failed : option (N -> R).     (* with [Some f], operations may fail with an error number and no effect *)

Inductive athread := AIdle | ACalled (h : nat) (o : Op) | ADone (r : R).
Record aconf := mkA { a_files : nat -> Abs; a_threads : nat -> athread }.

Inductive astep : aconf -> option (event R Op) -> aconf -> Prop :=
| A_call a t h o : a_threads a t = AIdle ->
    astep a (Some (EInv R Op t h o)) (mkA (a_files a) (upd (a_threads a) t (ACalled h o)))
| A_effect a t h o : a_threads a t = ACalled h o ->
    astep a None (mkA (upd (a_files a) (file_of h) (fst (apply (a_files a (file_of h)) o)))
                      (upd (a_threads a) t (ADone (snd (apply (a_files a (file_of h)) o)))))
| A_failure a t h o f n : a_threads a t = ACalled h o -> failed = Some f ->
    astep a None (mkA (a_files a) (upd (a_threads a) t (ADone (f n))))
| A_return a t r : a_threads a t = ADone r ->
    astep a (Some (ERes R Op t r)) (mkA (a_files a) (upd (a_threads a) t AIdle)).

Inductive atomic : aconf -> list (event R Op) -> aconf -> Prop :=
| AS_nil a : atomic a [] a
| AS_silent a a1 a2 tr : atomic a tr a1 -> astep a1 None a2 -> atomic a tr a2
| AS_event a a1 a2 tr e : atomic a tr a1 -> astep a1 (Some e) a2 -> atomic a (tr ++ [e]) a2.

Definition atomic_start (files : nat -> Abs) : aconf := mkA files (fun _ => AIdle).
End Atomic.

(** The calls of a history satisfy [P]. *)
Definition calls {R Op} (P : nat -> Op -> Prop) (tr : list (event R Op)) : Prop :=
  Forall (fun e => match e with EInv _ _ _ h o => P h o | ERes _ _ _ _ => True end) tr.

(** No thread is between taking the lock of file [i] and letting go of it. *)
Definition at_rest {St R Op} (file_of : nat -> nat) (c : conf St R Op) (i : nat) : Prop :=
  forall t h o k p, c_threads St R Op c t = TRun St R Op h o k p -> file_of h <> i.

(** A step that is not a new call. *)
Definition onward {R Op} (e : option (event R Op)) : Prop :=
  match e with Some (EInv _ _ _ _ _) => False | _ => True end.
