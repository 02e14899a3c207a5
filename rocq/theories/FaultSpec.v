(** Operations on a stream while calls of the host fail: what is expected. *)
From Verif Require Import Base StreamSpec CrashModel FaultModel.

(** No pread returns less than asked for except at the end of the file. *)
Definition no_short_reads (F : faults) : Prop := forall n w p m, on_pread F n w p <> HShort m.

(** Of the modifications [l] of the file [f] the first [j] have been made when a call fails
    with the error [e]: a pread, or modification number [j], which may have written the first
    [m] of its bytes.  [f'] is what is in the file then. *)
Inductive cut_off (F : faults) (f : bytes) (l : list phys) : bytes -> err -> Prop :=
| Cut_read j w p x : j <= length l -> on_pread F j w p = HFail x ->
    cut_off F f l (replay f (firstn j l)) (EPosix x)
| Cut_modification j x : j < length l -> on_mod F j = HFail x ->
    cut_off F f l (replay f (firstn j l)) (EPosix x)
| Cut_within j off d m : nth_error l j = Some (PWrite off d) -> on_mod F j = HShort m -> m < length d ->
    cut_off F f l (replay f (firstn j l ++ [PWrite off (firstn m d)])) (EPosix 5).

(** The same for the two files of the full format. *)
Definition replay_data (f : bytes) (l : list part) : bytes := replay f (data_part l).
Definition replay_meta (f : bytes) (l : list part) : bytes := replay f (meta_part l).
Definition begun (p : part) (m : nat) : list part :=
  match p with
  | PData (PWrite off d) => [PData (PWrite off (firstn m d))]
  | PMeta (PWrite off d) => [PMeta (PWrite off (firstn m d))]
  | _ => []
  end.
Inductive cut_off2 (F : faults) (fd fm : bytes) (l : list part) : bytes -> bytes -> err -> Prop :=
| Cut2_read j w p x : j <= length l -> on_pread F j w p = HFail x ->
    cut_off2 F fd fm l (replay_data fd (firstn j l)) (replay_meta fm (firstn j l)) (EPosix x)
| Cut2_modification j x : j < length l -> on_mod F j = HFail x ->
    cut_off2 F fd fm l (replay_data fd (firstn j l)) (replay_meta fm (firstn j l)) (EPosix x)
| Cut2_within j p m : nth_error l j = Some p -> on_mod F j = HShort m ->
    cut_off2 F fd fm l (replay_data fd (firstn j l ++ begun p m)) (replay_meta fm (firstn j l ++ begun p m)) (EPosix 5).

(** Only reads before the first modification and the first modification fail, and a call that
    fails transfers nothing. *)
Definition fails_at_once (F : faults) : Prop :=
  (forall n w p, on_pread F n w p = HDone \/ (n = 0 /\ exists e, on_pread F n w p = HFail e)) /\
  (forall n, on_mod F n = HDone \/ (n = 0 /\ exists e, on_mod F n = HFail e)).

(** A history in which operations may fail: one that reports success has had its effect and
    gives its answer, one that fails with an error of the host has had none. *)
Inductive history : bytes -> list sop -> list sout -> bytes -> Prop :=
| Hist_nil c : history c [] [] c
| Hist_done c o ops outs c' : history (fst (spec_step c o)) ops outs c' ->
    history c (o :: ops) (snd (spec_step c o) :: outs) c'
| Hist_failed c o e ops outs c' : history c ops outs c' ->
    history c (o :: ops) (OFail (EPosix e) :: outs) c'.

(** Histories of operations each of which meets its own faults. *)
Fixpoint run_faulty {S} (step : faults -> S -> sop -> S * sout) (s : S) (l : list (faults * sop)) : S * list sout :=
  match l with
  | [] => (s, [])
  | (F, o) :: l' => let '(s1, r) := step F s o in let '(s2, rs) := run_faulty step s1 l' in (s2, r :: rs)
  end.
