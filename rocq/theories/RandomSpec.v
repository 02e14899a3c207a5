(** How many bits of a key are ones. *)
From Verif Require Import Base.
Local Open Scope list_scope.

Definition ones_in (c : byte) : nat :=
  length (filter (fun i => N.testbit (b2n c) (N.of_nat i)) (seq 0 8)).
Definition ones (key : bytes) : nat := list_sum (map ones_in key).
(** At most an eighth of the bits are ones, or at least seven eighths. *)
Definition suspicious (key : bytes) : Prop :=
  let bits := 8 * length key in 8 * ones key <= bits \/ 7 * bits <= 8 * ones key.
