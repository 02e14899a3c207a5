(** What the log should be: whole lines, one for each call of the level. *)
From Coq Require Import Strings.String.
From Verif Require Import Base TextModel FuseModel LogModel.
Local Open Scope list_scope.

(** On a terminal, warnings are brown and errors are light red; the rest has no colour. *)
Definition painted (colour : bool) (lv : level) (text : bytes) : bytes :=
  match colour, lv with
  | true, LWarning => x1b :: str "[0;33m" ++ text ++ x1b :: str "[0;39m"
  | true, LError => x1b :: str "[1;31m" ++ text ++ x1b :: str "[0;39m"
  | _, _ => text
  end.
(** The line of a call whose head was made at the time [now]. *)
Definition line_of (colour : bool) (c : lcall) (now : Z) : bytes :=
  painted colour (lc_level c)
    (lc_head c now ++ concat (lc_body c) ++
     match lc_exn c with Some m => str "Logging itself throws exception: " ++ m | None => [] end) ++ [x0a].

(** A log: who wrote which line when. *)
Definition entry : Type := (nat * lcall * Z)%type.
Definition by_thread (t : nat) (l : list entry) : list lcall :=
  map (fun e => snd (fst e)) (filter (fun e => fst (fst e) =? t) l).
Definition text_of (colour : bool) (l : list entry) : bytes := concat (map (fun e => line_of colour (snd (fst e)) (snd e)) l).

(** The calls that the level lets through. *)
Definition wanted (lv : level) (l : list lcall) : list lcall := filter (fun c => level_num lv <=? level_num (lc_level c)) l.
(** A thread that has nothing left to do. *)
Definition quiet_thread (s : lstate) (t : nat) : Prop := lt_pc (ls_thr s t) = LIdle /\ lt_todo (ls_thr s t) = [].
(** The level is not changed during the run. *)
Definition steady (a : laction) : Prop := match a with ALevel _ => False | _ => True end.
