(** What a listing may show while the directory changes. *)
From Verif Require Import Base NameModel LongNameModel LongNameSpec LiteConcModel ListConcModel.

(** The host's directory [d] has the entry [u]. *)
Definition has (d : hpath) (w : world) (u : bytes) : Prop := exists es k, w_tree w d = Some es /\ ent u es = Some k.

Definition reads (cs : list schoice) : list bytes := flat_map (fun c => match c with SRead u => [u] | _ => [] end) cs.
Definition changes (cs : list schoice) : list choice := flat_map (fun c => match c with SWorld c => [c] | _ => [] end) cs.

(** What POSIX says about readdir: an entry it gives is "." or ".." or has been there at
    some moment since the directory was opened (it may have been removed since); and an
    entry that is there all the time is given exactly once. *)
Fixpoint given_seen (trans : translator) (d : hpath) (past : list world) (cs : list schoice) (w : world) (li : lister) : Prop :=
  match cs with
  | [] => True
  | c :: cs' =>
    match c with
    | SRead u => u = [dot] \/ u = [dot; dot] \/ exists w', In w' (w :: past) /\ has d w' u
    | _ => True
    end /\
    match s_step trans d c w li with Some (w1, li1) => given_seen trans d (w :: past) cs' w1 li1 | None => True end
  end.
Definition readdir_works (trans : translator) (d : hpath) (cs : list schoice) (w : world) (ws : list world) : Prop :=
  given_seen trans d [] cs w lister0 /\
  forall u, (forall w', In w' ws -> has d w' u) -> count_occ (list_eq_dec Byte.byte_eq_dec) (reads cs) u = 1.

(** SQLite answers. *)
Definition no_failure (cs : list schoice) : Prop :=
  Forall (fun c => match c with SOpened (Some _) | SLooked (Some _) => False | _ => True end) cs.
(** The directory keeps its table of long names, once it has one: it is not removed and
    made again, moved away, nor tried to be removed. *)
Definition table_kept (d : hpath) (ws : list world) : Prop :=
  forall w w' es es' k k', In w ws -> In w' ws -> w_tree w d = Some es -> w_tree w' d = Some es' ->
    ent kLongNameTableFileName es = Some (KFile k) -> ent kLongNameTableFileName es' = Some (KFile k') -> k = k'.
