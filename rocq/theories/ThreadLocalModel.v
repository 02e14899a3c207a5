(** Per-thread objects: sources/thread_local.h and thread_local.cpp.

    Owners (ThreadLocal<T>) are made and destroyed, and threads ask them for their object,
    in any order.  The constructor, the destructor and each half of [get] are one step: the
    first two hold the registry's mutex, and [get] only touches the array of its own
    thread.  Simplified: [generation] (int64) does not overflow; types are numbers; using
    an owner that is being or has been destroyed, or asking an owner for its object from
    within its own initializer, is not done (answer RNot). *)
From Verif Require Import Base.
Local Open Scope nat_scope.
Local Open Scope list_scope.

(** kMaxIndex, thread_local.h 16. *)
Definition kMaxIndex : nat := 256.

(** Holder, thread_local.h 20-36.  [None] for generation -1 and for null pointers. *)
Record holder := mkHolder { h_gen : option nat; h_dtor : option nat; h_data : option nat }.
Definition empty_holder : holder := mkHolder None None None.
(** ThreadLocal, thread_local.h 41-59: index_, generation_, T. *)
Record owner := mkOwner { w_slot : nat; w_gen : nat; w_type : nat; w_alive : bool }.

(** sources/thread_local.cpp 12-36 and sources/thread_local.h 39-53. *)
Record tls := mkTls {
  taken : nat -> bool;                  (* registry.taken *)
  gen : nat;                            (* registry.generation *)
  owners : list owner;
  locals : nat -> nat -> holder;        (* get_local(), by thread and index *)
  calls : nat -> list nat;              (* by thread, the owners whose init_ is running, innermost first *)
  made : nat                            (* objects made so far *)
}.

(** Helper (no code): update of a map. *)
Definition upd {A} (f : nat -> A) (i : nat) (v : A) : nat -> A := fun j => if j =? i then v else f j.

(** The members of sources/thread_local.h 42-78 and what threads do. *)
Inductive tlact :=
| ANew (ty : nat)              (* ThreadLocal<T>(init) *)
| ADel (o : nat)               (* ~ThreadLocal *)
| AGet (t o : nat)             (* thread [t] calls get() *)
| AInit (t : nat) (ok : bool)  (* the innermost initializer of [t] returns an object, or throws *)
| AExit (t : nat).             (* thread [t] ends *)
(** Helper (no code): what a step gives. *)
Inductive tlres := RNew (o : nat) | RFull | RDone | RObj (x : nat) | RInit | RThrew | RNot.

(** The constructor's loop, thread_local.cpp 41-52. *)
Fixpoint first_free (f : nat -> bool) (i n : nat) : option nat :=
  match n with O => None | S n' => if f i then first_free f (S i) n' else Some i end.

(** Helper (no code): a ThreadLocal object that still exists. *)
Definition get_owner (s : tls) (o : nat) : option owner :=
  match nth_error (owners s) o with Some w => if w_alive w then Some w else None | None => None end.
Fixpoint kill_owner (l : list owner) (o : nat) : list owner :=
  match l, o with
  | [], _ => []
  | w :: l', O => mkOwner (w_slot w) (w_gen w) (w_type w) false :: l'
  | w :: l', S o' => w :: kill_owner l' o'
  end.
(** ~Holder, thread_local.h 29-35, and 64-65: which object is destroyed, as which type. *)
Definition destroy (h : holder) : list (nat * nat) :=
  match h_data h, h_dtor h with Some x, Some ty => [(x, ty)] | _, _ => [] end.

(** Helper (no code): membership. *)
Fixpoint mem_nat (n : nat) (l : list nat) : bool := match l with [] => false | x :: l' => (x =? n) || mem_nat n l' end.
(** Helper (no code): init_ (sources/thread_local.h 75) of the object is running
    in some thread. *)
Definition in_some_init (s : tls) (o : nat) (ts : list nat) : bool := existsb (fun t => mem_nat o (calls s t)) ts.

(** One step: the new state, the answer, and the objects destroyed with the type they are
    destroyed as.  [ts]: all threads there are. *)
Definition tlstep (ts : list nat) (a : tlact) (s : tls) : tls * tlres * list (nat * nat) :=
  match a with
  | ANew ty =>  (* thread_local.cpp 37-54 *)
    match first_free (taken s) 0 kMaxIndex with
    | None => (s, RFull, [])
    | Some i => (mkTls (upd (taken s) i true) (S (gen s)) (owners s ++ [mkOwner i (S (gen s)) ty true]) (locals s) (calls s) (made s), RNew (length (owners s)), [])
    end
  | ADel o =>  (* 56-61 *)
    match get_owner s o with
    | Some w => if in_some_init s o ts then (s, RNot, []) else
        (mkTls (upd (taken s) (w_slot w) false) (gen s) (kill_owner (owners s) o) (locals s) (calls s) (made s), RDone, [])
    | None => (s, RNot, [])
    end
  | AGet t o =>  (* thread_local.h 55-73, up to the call of init_ *)
    match get_owner s o with
    | Some w =>
      if mem_nat o (calls s t) || negb (mem_nat t ts) then (s, RNot, []) else
      let h := locals s t (w_slot w) in
      match h_data h with
      | Some x =>
        if match h_gen h with Some g => g =? w_gen w | None => false end then (s, RObj x, [])
        else (mkTls (taken s) (gen s) (owners s) (upd (locals s) t (upd (locals s t) (w_slot w) (mkHolder (Some (w_gen w)) (Some (w_type w)) None)))
                (upd (calls s) t (o :: calls s t)) (made s), RInit, destroy h)
      | None =>
        (mkTls (taken s) (gen s) (owners s) (upd (locals s) t (upd (locals s t) (w_slot w) (mkHolder (Some (w_gen w)) (Some (w_type w)) None)))
                (upd (calls s) t (o :: calls s t)) (made s), RInit, [])
      end
    | None => (s, RNot, [])
    end
  | AInit t ok =>  (* 73-75 *)
    match calls s t with
    | [] => (s, RNot, [])
    | o :: r =>
      match nth_error (owners s) o with
      | None => (s, RNot, [])
      | Some w =>
        let h := locals s t (w_slot w) in
        if ok then (mkTls (taken s) (gen s) (owners s) (upd (locals s) t (upd (locals s t) (w_slot w) (mkHolder (h_gen h) (h_dtor h) (Some (made s)))))
                      (upd (calls s) t r) (S (made s)), RObj (made s), [])
        else (mkTls (taken s) (gen s) (owners s) (locals s) (upd (calls s) t r) (made s), RThrew, [])
      end
    end
  | AExit t =>  (* the array's destructor *)
    match calls s t with
    | _ :: _ => (s, RNot, [])
    | [] => (mkTls (taken s) (gen s) (owners s) (upd (locals s) t (fun _ => empty_holder)) (calls s) (made s), RDone,
             concat (map (fun i => destroy (locals s t i)) (seq 0 kMaxIndex)))
    end
  end.

(** Helper (no code): executions. *)
Fixpoint tlrun (ts : list nat) (l : list tlact) (s : tls) : tls * list (tlact * tlres * list (nat * nat)) :=
  match l with
  | [] => (s, [])
  | a :: l' => let '(s1, r, d) := tlstep ts a s in let '(s2, h) := tlrun ts l' s1 in (s2, (a, r, d) :: h)
  end.

(** At the start; the generation is whatever it is. *)
(** sources/thread_local.cpp 26: the registry at the start. *)
Definition tls0 (g : nat) : tls := mkTls (fun _ => false) g [] (fun _ _ => empty_holder) (fun _ => []) 0.
