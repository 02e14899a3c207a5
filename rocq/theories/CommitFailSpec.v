(** What does not depend on the tables of long names. *)
From Verif Require Import Base TextModel NameModel LongNameModel.
Local Open Scope list_scope.

(** The same file, the same directory, or two tables. *)
Definition same_kind (k k' : kind) : Prop :=
  match k, k' with
  | KTable _, KTable _ => True
  | _, _ => k = k'
  end.
Definition same_entries (es es' : hents) : Prop := Forall2 (fun x y => fst x = fst y /\ same_kind (snd x) (snd y)) es es'.
(** The same directories with the same entries, but for what is in the tables. *)
Definition same_but_tables (fs fs' : hfs) : Prop :=
  forall p, match fs p, fs' p with
            | Some es, Some es' => same_entries es es'
            | None, None => True
            | _, _ => False
            end.

(** The calls with every commit succeeding. *)
Fixpoint answers trans (ops : list lop) (fs : hfs) : list (res unit) :=
  match ops with
  | [] => []
  | o :: ops' => snd (lite_step trans o fs) :: answers trans ops' (fst (lite_step trans o fs))
  end.

(** Every row of every table belongs to a name: the entry it is for is the physical name of
    a path, and the text in it the encrypted name of that path. *)
Definition rows_right trans (fs : hfs) : Prop :=
  forall p es n m u enc, fs p = Some es -> In (n, KTable m) es -> In (u, enc) m ->
    exists path P, t_encrypt trans path = Ok (P, enc) /\ u = get_last_component P /\ enc <> [].

(** The paths under which a call makes, removes or replaces an entry. *)
Definition changed (o : lop) : list bytes :=
  match o with
  | LOpen p true _ _ _ _ | LMkdir p _ | LSymlink p _ _ | LUnlink p _ | LRmdir p _ => [p]
  | LOpen _ false _ _ _ _ => []
  | LLink _ q _ => [q]
  | LRename p q _ => [p; q]
  end.
