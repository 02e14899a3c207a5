(** The B-tree directory of BtreeModel.v once more, with its pages kept in a stream
    object instead of an array of bytes: sources/btree_dir.cpp, where every access goes
    through [m_stream] (read, write, size and resize of StreamBase).

    The functions are those of BtreeModel.v line by line; what does not touch the
    state (the page codec, list helpers, binary search) is used from there, and so are
    its simplifications.  In addition the flag [m_dirty] of the file header, set by
    every change of the three header words (sources/files.h 72-94), is kept, and an
    exception of the stream is passed on. *)
From Verif Require Import Base CodecModel StreamSpec AdaptorModel BtreeModel.
Local Open Scope list_scope.

Section Generic.
Variable D : strm.

(** The state of a BtreeDirectory over a stream, sources/btree_dir.h 104-130. *)
Record gbt := mkG {
  g_stream : sm_st D; g_root : N; g_free : N; g_nfree : N; g_dirty : bool;
  g_cache : list (N * node) }.

(** Helper: the stream object after a call on it. *)
Definition g_set_stream (st : gbt) s := mkG s (g_root st) (g_free st) (g_nfree st) (g_dirty st) (g_cache st).
(** sources/files.h 77-81. *)
Definition g_set_root (st : gbt) r := mkG (g_stream st) r (g_free st) (g_nfree st) true (g_cache st).
(** sources/files.h 85-89. *)
Definition g_set_free (st : gbt) f := mkG (g_stream st) (g_root st) f (g_nfree st) true (g_cache st).
(** sources/files.h 93-97. *)
Definition g_set_nfree (st : gbt) n := mkG (g_stream st) (g_root st) (g_free st) n true (g_cache st).
(** Helper: assignment to m_node_cache. *)
Definition g_set_cache (st : gbt) c := mkG (g_stream st) (g_root st) (g_free st) (g_nfree st) (g_dirty st) c.

(** Helper (no code): as [M] of BtreeModel. *)
Definition GM (A : Type) : Type := gbt -> gbt * res A.
(** Helper (no code): return. *)
Definition g_ret {A} (a : A) : GM A := fun st => (st, Ok a).
(** Helper (no code): a C++ throw. *)
Definition g_throw {A} (e : err) : GM A := fun st => (st, Err e).
(** Helper (no code): sequencing. *)
Definition g_bind {A B} (m : GM A) (f : A -> GM B) : GM B := fun st =>
  match m st with
  | (st', Ok a) => f a st'
  | (st', Err e) => (st', Err e)
  end.
(** Helper (no code): a pure step that may throw. *)
Definition g_lift {A} (r : res A) : GM A := fun st => (st, r).
(** Helper (no code): reading the state. *)
Definition g_gets {A} (f : gbt -> A) : GM A := fun st => (st, Ok (f st)).
(** Helper (no code): changing the state. *)
Definition g_modify (f : gbt -> gbt) : GM unit := fun st => (f st, Ok tt).
Notation "x <- m ;; k" := (g_bind m (fun x => k)) (at level 61, m at next level, right associativity).
Notation "m ;; k" := (g_bind m (fun _ => k)) (at level 61, right associativity).

(** dir_check, sources/btree_dir.cpp 14-20. *)
Definition g_dir_check (b : bool) : GM unit := if b then g_ret tt else g_throw ECorrupt.

(** Calls of [m_stream->read], [write], [resize] and [size]. *)
(** sources/streams.h 24-40: a call of the StreamBase interface. *)
Definition g_call {A} (o : sop) (answer : sout -> res A) : GM A := fun st =>
  let '(s, r) := sm_step D (g_stream st) o in (g_set_stream st s, answer r).
(** sources/streams.h 32. *)
Definition g_size : GM nat :=
  g_call SSize (fun r => match r with OSize n => Ok n | OFail e => Err e | _ => Err EUndef end).
(** sources/streams.h 40. *)
Definition g_resize (n : nat) : GM unit :=
  g_call (SResize n) (fun r => match r with ODone => Ok tt | OFail e => Err e | _ => Err EUndef end).
(** sources/streams.h 24. *)
Definition g_read (off len : nat) : GM bytes :=
  g_call (SRead off len) (fun r => match r with OData d => Ok d | OFail e => Err e | _ => Err EUndef end).
(** sources/streams.h 30. *)
Definition g_write (off : nat) (d : bytes) : GM unit :=
  g_call (SWrite off d) (fun r => match r with ODone => Ok tt | OFail e => Err e | _ => Err EUndef end).

(** [m_stream->read(buffer, num * BLOCK_SIZE, BLOCK_SIZE)] followed by
    dir_check of the number of bytes read. *)
(** sources/btree_dir.cpp 138 and 401. *)
Definition g_read_page (num : N) : GM bytes :=
  d <- g_read (N.to_nat (page_pos num)) BLOCK_SIZE;;
  if length d =? BLOCK_SIZE then g_ret d else g_throw ECorrupt.

(** sources/btree_dir.cpp 152 and 411. *)
Definition g_write_page (num : N) (d : bytes) : GM unit := g_write (N.to_nat (page_pos num)) d.

Variable cmp : bytes -> bytes -> comparison.
Variable junk : N -> bytes.

(** ** Free pages *)

(** read_free_page, sources/btree_dir.cpp 135-145: (next, prev). *)
Definition g_read_free_page (num : N) : GM (N * N) :=
  buf <- g_read_page num;;
  if negb (from_le (firstn 4 buf) =? 0)%N then g_throw ECorrupt else
  g_ret (from_le (firstn 4 (skipn 4 buf)), from_le (firstn 4 (skipn 8 buf))).

(** write_free_page, sources/btree_dir.cpp 147-153. *)
Definition g_write_free_page (num next prev : N) : GM unit :=
  g_write_page num (zeros 4 ++ to_le 4 next ++ to_le 4 prev ++ zeros (BLOCK_SIZE - 12)).

(** allocate_page, sources/btree_dir.cpp 155-175. *)
Definition g_allocate_page : GM N :=
  pg <- g_gets g_free;;
  if (pg =? INVALID_PAGE)%N then
    size <- g_size;;
    g_resize (size + BLOCK_SIZE);;
    g_ret (u32 (N.of_nat (size / BLOCK_SIZE)))
  else
    fp <- g_read_free_page pg;;
    n <- g_gets g_nfree;;
    g_modify (fun st => g_set_nfree st (u32 (n + 4294967295)));;
    g_modify (fun st => g_set_free st (fst fp));;
    (if negb (fst fp =? INVALID_PAGE)%N then
       fp2 <- g_read_free_page (fst fp);;
       start <- g_gets g_free;;
       g_write_free_page start (fst fp2) INVALID_PAGE
     else g_ret tt);;
    g_ret pg.

(** deallocate_page, sources/btree_dir.cpp 177-200.  The comparison is between
    a 32-bit product and a 64-bit size. *)
Definition g_deallocate_page (num : N) : GM unit :=
  size <- g_size;;
  if (page_pos num =? N.of_nat size)%N then
    g_resize (N.to_nat (page_pos (u32 (num + 4294967295))))
  else
    next <- g_gets g_free;;
    g_write_free_page num next INVALID_PAGE;;
    start <- g_gets g_free;;
    (if negb (start =? INVALID_PAGE)%N then
       fp <- g_read_free_page start;;
       g_write_free_page start (fst fp) num
     else g_ret tt);;
    g_modify (fun st => g_set_free st num);;
    n <- g_gets g_nfree;;
    g_modify (fun st => g_set_nfree st (u32 (n + 1))).

(** ** The node cache *)

(** Helper: reading through a BtreeNode pointer. *)
Definition g_get_node (p : N) : GM node := fun st =>
  match lookup p (g_cache st) with Some nd => (st, Ok nd) | None => (st, Err EUndef) end.

(** Helper: writing through a BtreeNode pointer. *)
Definition g_put_node (p : N) (nd : node) : GM unit :=
  g_modify (fun st => g_set_cache st (update p nd (g_cache st))).

(** mutable_entries() and mutable_children() (which set the dirty flag),
    sources/btree_dir.h 93-102, followed by an assignment. *)
Definition g_set_entries (p : N) (es : list entry) : GM unit :=
  nd <- g_get_node p;;
  g_put_node p (mkNode (n_parent nd) (n_children nd) es true).
Definition g_set_children (p : N) (cs : list N) : GM unit :=
  nd <- g_get_node p;;
  g_put_node p (mkNode (n_parent nd) cs (n_entries nd) true).
(** mutable_parent_page_number(), sources/btree_dir.h 73-77. *)
Definition g_set_parent (p : N) (par : N) : GM unit :=
  nd <- g_get_node p;;
  g_put_node p (mkNode par (n_children nd) (n_entries nd) true).

(** read_node, sources/btree_dir.cpp 396-403. *)
Definition g_read_node (num : N) : GM (list N * list entry) :=
  if (num =? INVALID_PAGE)%N then g_throw ECorrupt else
  buf <- g_read_page num;;
  g_lift (from_buffer buf).

(** retrieve_node, sources/btree_dir.cpp 320-334.  The node read is only put in
    the cache once it has been decoded. *)
Definition g_retrieve_node (parent num : N) : GM N :=
  c <- g_gets (fun st => lookup num (g_cache st));;
  match c with
  | Some nd =>
    g_dir_check ((parent =? INVALID_PAGE)%N || (parent =? n_parent nd)%N);;
    g_ret num
  | None =>
    x <- g_read_node num;;
    g_modify (fun st => g_set_cache st ((num, mkNode parent (fst x) (snd x) false) :: g_cache st));;
    g_ret num
  end.

(** retrieve_existing_node, sources/btree_dir.cpp 312-318; [None] is nullptr. *)
Definition g_retrieve_existing_node (num : N) : GM (option N) :=
  g_gets (fun st => match lookup num (g_cache st) with Some _ => Some num | None => None end).

(** get_root_node, sources/btree_dir.cpp 365-371. *)
Definition g_get_root_node : GM (option N) :=
  pg <- g_gets g_root;;
  if (pg =? INVALID_PAGE)%N then g_ret None else
  n <- g_retrieve_node INVALID_PAGE pg;;
  g_ret (Some n).

(** del_node, sources/btree_dir.cpp 513-519. *)
Definition g_del_node (n : N) : GM unit :=
  g_deallocate_page n;;
  g_modify (fun st => g_set_cache st (remove_key n (g_cache st))).

(** adjust_children_in_cache, sources/btree_dir.cpp 441-449. *)
Fixpoint g_adjust_children (cs : list N) (parent : N) : GM unit :=
  match cs with
  | [] => g_ret tt
  | c :: cs' =>
    child <- g_retrieve_existing_node c;;
    (match child with Some k => g_set_parent k parent | None => g_ret tt end);;
    g_adjust_children cs' parent
  end.


(** find_node, sources/btree_dir.cpp 344-363; the loop body runs
    BTREE_MAX_DEPTH times. *)
Fixpoint g_find_loop (fuel : nat) (n : N) (name : bytes) : GM (N * nat * bool) :=
  match fuel with
  | O => g_throw ECorrupt
  | S f =>
    nd <- g_get_node n;;
    let i := lower_bound cmp (n_entries nd) name in
    let here := match nth_error (n_entries nd) i with
                | Some e => eq_name cmp name (e_name e)
                | None => false
                end in
    if here then g_ret (n, i, true) else
    leaf <- g_lift (is_leaf nd);;
    if leaf : bool then g_ret (n, i, false) else
    c <- g_lift (at_ (n_children nd) i);;
    k <- g_retrieve_node n c;;
    g_find_loop f k name
  end.

(** sources/btree_dir.cpp 344-363. *)
Definition g_find_node (name : bytes) : GM (option (N * nat * bool)) :=
  r <- g_get_root_node;;
  match r with
  | None => g_ret None
  | Some n => x <- g_find_loop BTREE_MAX_DEPTH n name;; g_ret (Some x)
  end.

(** get_entry_impl, sources/btree_dir.cpp 373-394. *)
Definition g_get_entry (name : bytes) : GM (option entry) :=
  if MAX_FILENAME_LENGTH <? length name then g_throw (EPosix ENAMETOOLONG) else
  f <- g_find_node name;;
  match f with
  | Some (n, i, true) =>
    nd <- g_get_node n;;
    e <- g_lift (at_ (n_entries nd) i);;
    if eq_name cmp name (e_name e) then g_ret (Some e) else g_ret None
  | _ => g_ret None
  end.

(** insert_and_balance, sources/btree_dir.cpp 454-459: put the entry and, in an
    inner node, the new child into node [n]. *)
Definition g_insert_here (n : N) (e : entry) (additional : N) : GM unit :=
  nd <- g_get_node n;;
  let i := lower_bound cmp (n_entries nd) (e_name e) in
  (if negb (additional =? INVALID_PAGE)%N then
     leaf <- g_lift (is_leaf nd);;
     if leaf : bool then g_ret tt else
     cs <- g_lift (insert_at (i + 1) additional (n_children nd));;
     g_set_children n cs
   else g_ret tt);;
  es <- g_lift (insert_at i e (n_entries nd));;
  g_set_entries n es.

(** insert_and_balance, sources/btree_dir.cpp 452-492.  [fuel] is
    BTREE_MAX_DEPTH - depth. *)
Fixpoint g_insert_and_balance (fuel : nat) (n : N) (e : entry) (additional : N) : GM unit :=
  match fuel with
  | O => g_throw ECorrupt
  | S f =>
    g_insert_here n e additional;;
    nd <- g_get_node n;;
    if BTREE_MAX_NUM_ENTRIES <? length (n_entries nd) then
      pg <- g_allocate_page;;
      sib <- g_retrieve_node (n_parent nd) pg;;
      let middle := length (n_entries nd) / 2 - 1 in
      up <- g_lift (idx_ (n_entries nd) middle);;
      leaf <- g_lift (is_leaf nd);;
      (if leaf : bool then g_ret tt else
         g_set_children sib (skipn (middle + 1) (n_children nd));;
         g_set_children n (firstn (middle + 1) (n_children nd));;
         g_adjust_children (skipn (middle + 1) (n_children nd)) sib);;
      g_set_entries sib (skipn (middle + 1) (n_entries nd));;
      g_set_entries n (removelast (firstn (middle + 1) (n_entries nd)));;
      if (n_parent nd =? INVALID_PAGE)%N then
        new_root <- g_allocate_page;;
        root <- g_retrieve_node INVALID_PAGE new_root;;
        rn <- g_get_node root;;
        g_set_children root (n_children rn ++ [n; sib]);;
        g_set_entries root (n_entries rn ++ [up]);;
        g_modify (fun st => g_set_root st new_root);;
        g_set_parent n new_root;;
        g_set_parent sib new_root
      else
        p <- g_retrieve_existing_node (n_parent nd);;
        match p with
        | None => g_throw EUndef
        | Some p => g_insert_and_balance f p up sib
        end
    else g_ret tt
  end.

(** add_entry_impl, sources/btree_dir.cpp 414-439. *)
Definition g_add_entry (name id : bytes) (type : N) : GM bool :=
  if MAX_FILENAME_LENGTH <? length name then g_throw (EPosix ENAMETOOLONG) else
  f <- g_find_node name;;
  match f with
  | Some (_, _, true) => g_ret false
  | None =>
    pg <- g_allocate_page;;
    g_modify (fun st => g_set_root st pg);;
    r <- g_get_root_node;;
    match r with
    | None => g_throw EUndef
    | Some n =>
      nd <- g_get_node n;;
      g_set_entries n (n_entries nd ++ [mkEntry name id type]);;
      g_ret true
    end
  | Some (n, _, false) =>
    g_insert_and_balance BTREE_MAX_DEPTH n (mkEntry name id type) INVALID_PAGE;;
    g_ret true
  end.

(** The while loop of replace_with_sub_entry, sources/btree_dir.cpp 505-506:
    down the last children to a leaf.  It has no depth limit in the program;
    [EFuel] here stands for more than [fuel] levels. *)
Fixpoint g_rightmost_leaf (fuel : nat) (n : N) : GM N :=
  match fuel with
  | O => g_throw EFuel
  | S f =>
    nd <- g_get_node n;;
    leaf <- g_lift (is_leaf nd);;
    if leaf : bool then g_ret n else
    c <- g_lift (back_ (n_children nd));;
    k <- g_retrieve_node n c;;
    g_rightmost_leaf f k
  end.

(** replace_with_sub_entry, sources/btree_dir.cpp 494-511 (called at depth 0). *)
Definition g_replace_with_sub_entry (n : N) (index : nat) : GM N :=
  nd <- g_get_node n;;
  leaf <- g_lift (is_leaf nd);;
  if leaf : bool then
    es <- g_lift (erase_at index (n_entries nd));;
    g_set_entries n es;;
    g_ret n
  else
    c <- g_lift (at_ (n_children nd) index);;
    l <- g_retrieve_node n c;;
    l <- g_rightmost_leaf 64 l;;
    ld <- g_get_node l;;
    y <- g_lift (back_ (n_entries ld));;
    _ <- g_lift (at_ (n_entries nd) index);;
    g_set_entries n (set_at index y (n_entries nd));;
    g_set_entries l (removelast (n_entries ld));;
    g_ret l.

(** find_sibling, sources/btree_dir.cpp 521-536. *)
Definition g_find_sibling (parent n : N) : GM (nat * N) :=
  pd <- g_get_node parent;;
  nd <- g_get_node n;;
  g_dir_check (parent =? n_parent nd)%N;;
  let i := find_pos n (n_children pd) in
  g_dir_check (i <? length (n_children pd));;
  if i + 1 =? length (n_children pd) then
    (* .at(index - 1), which throws when index is 0 *)
    c <- g_lift (if i =? 0 then Err ERange else at_ (n_children pd) (i - 1));;
    s <- g_retrieve_node parent c;;
    g_ret (i - 1, s)
  else
    c <- g_lift (at_ (n_children pd) (i + 1));;
    s <- g_retrieve_node parent c;;
    g_ret (i, s).

(** rotate, sources/btree_dir.cpp 538-568, with [separator] being entry
    [index] of [parent]. *)
Definition g_rotate (left right parent : N) (index : nat) : GM unit :=
  pd <- g_get_node parent;;
  sep <- g_lift (at_ (n_entries pd) index);;
  ld <- g_get_node left;;
  rd <- g_get_node right;;
  let temp := n_entries ld ++ sep :: n_entries rd in
  let middle := length temp / 2 in
  new_sep <- g_lift (at_ temp middle);;
  g_set_entries parent (set_at index new_sep (n_entries pd));;
  g_set_entries left (firstn middle temp);;
  g_set_entries right (skipn (middle + 1) temp);;
  if negb (length (n_children ld) =? 0) && negb (length (n_children rd) =? 0) then
    let tc := n_children ld ++ n_children rd in
    g_set_children left (firstn (middle + 1) tc);;
    g_set_children right (skipn (middle + 1) tc);;
    g_adjust_children (firstn (middle + 1) tc) left;;
    g_adjust_children (skipn (middle + 1) tc) right
  else g_ret tt.

(** merge, sources/btree_dir.cpp 570-584. *)
Definition g_merge (left right parent : N) (index : nat) : GM unit :=
  pd <- g_get_node parent;;
  sep <- g_lift (at_ (n_entries pd) index);;
  ld <- g_get_node left;;
  rd <- g_get_node right;;
  es <- g_lift (erase_at index (n_entries pd));;
  g_set_entries parent es;;
  let i := find_pos right (n_children pd) in
  cs <- g_lift (if i <? length (n_children pd)
              then Ok (firstn i (n_children pd) ++ skipn (S i) (n_children pd))
              else Err EUndef);;
  g_set_children parent cs;;
  g_set_entries left (n_entries ld ++ sep :: n_entries rd);;
  g_adjust_children (n_children rd) left;;
  g_set_children left (n_children ld ++ n_children rd);;
  g_del_node right.

(** balance_up, sources/btree_dir.cpp 587-625.  [fuel] is BTREE_MAX_DEPTH - depth. *)
Fixpoint g_balance_up (fuel : nat) (n : N) : GM unit :=
  match fuel with
  | O => g_throw ECorrupt
  | S f =>
    nd <- g_get_node n;;
    if (n_parent nd =? INVALID_PAGE)%N && (length (n_entries nd) =? 0)
       && negb (length (n_children nd) =? 0) then
      g_dir_check (length (n_children nd) =? 1);;
      g_adjust_children (n_children nd) INVALID_PAGE;;
      c <- g_lift (front_ (n_children nd));;
      g_modify (fun st => g_set_root st c);;
      g_del_node n
    else if (n_parent nd =? INVALID_PAGE)%N
            || (BTREE_MAX_NUM_ENTRIES / 2 <=? length (n_entries nd)) then g_ret tt
    else
      p <- g_retrieve_existing_node (n_parent nd);;
      match p with
      | None => g_throw ECorrupt
      | Some parent =>
        x <- g_find_sibling parent n;;
        let '(index, sib) := x in
        sd <- g_get_node sib;;
        b <- g_lift (back_ (n_entries nd));;
        s <- g_lift (front_ (n_entries sd));;
        let n_first := lt_name cmp (e_name b) (e_name s) in
        (if length (n_entries nd) + length (n_entries sd) <? BTREE_MAX_NUM_ENTRIES then
           if n_first then g_merge n sib parent index else g_merge sib n parent index
         else
           if n_first then g_rotate n sib parent index else g_rotate sib n parent index);;
        g_balance_up f parent
      end
  end.

(** remove_entry_impl, sources/btree_dir.cpp 627-646. *)
Definition g_remove_entry (name : bytes) : GM (option entry) :=
  if MAX_FILENAME_LENGTH <? length name then g_throw (EPosix ENAMETOOLONG) else
  f <- g_find_node name;;
  match f with
  | Some (n, i, true) =>
    nd <- g_get_node n;;
    e <- g_lift (at_ (n_entries nd) i);;
    l <- g_replace_with_sub_entry n i;;
    g_balance_up BTREE_MAX_DEPTH l;;
    g_ret (Some e)
  | _ => g_ret None
  end.

(** recursive_iterate, sources/btree_dir.cpp 722-730: the entries in the order
    the callback sees them.  [fuel] is BTREE_MAX_DEPTH - depth. *)
Fixpoint g_recursive_iterate (fuel : nat) (n : N) : GM (list entry) :=
  match fuel with
  | O => g_throw ECorrupt
  | S f =>
    nd <- g_get_node n;;
    rest <- (fix children (cs : list N) : GM (list entry) :=
       match cs with
       | [] => g_ret []
       | c :: cs' =>
         k <- g_retrieve_node n c;;
         a <- g_recursive_iterate f k;;
         b <- children cs';;
         g_ret (a ++ b)
       end) (n_children nd);;
    g_ret (n_entries nd ++ rest)
  end.

(** iterate_over_entries_impl, sources/btree_dir.cpp 741-746. *)
Definition g_list_entries : GM (list entry) :=
  r <- g_get_root_node;;
  match r with
  | None => g_ret []
  | Some n => g_recursive_iterate BTREE_MAX_DEPTH n
  end.

(** mutable_recursive_iterate, sources/btree_dir.cpp 732-739: as above, but the
    names are moved out of the cached nodes (a moved-from string is taken to be
    empty). *)
Fixpoint g_mutable_iterate (fuel : nat) (n : N) : GM (list entry) :=
  match fuel with
  | O => g_throw ECorrupt
  | S f =>
    nd <- g_get_node n;;
    g_set_entries n (map moved_from (n_entries nd));;
    rest <- (fix children (cs : list N) : GM (list entry) :=
       match cs with
       | [] => g_ret []
       | c :: cs' =>
         k <- g_retrieve_node n c;;
         a <- g_mutable_iterate f k;;
         b <- children cs';;
         g_ret (a ++ b)
       end) (n_children nd);;
    g_ret (n_entries nd ++ rest)
  end.

(** sources/btree_dir.cpp 762-763. *)
Fixpoint g_add_all (es : list entry) : GM unit :=
  match es with
  | [] => g_ret tt
  | e :: es' => g_add_entry (e_name e) (e_id e) (e_type e);; g_add_all es'
  end.

(** rebuild, sources/btree_dir.cpp 748-764. *)
Definition g_rebuild : GM unit :=
  r <- g_get_root_node;;
  match r with
  | None => g_ret tt
  | Some n =>
    es <- g_mutable_iterate BTREE_MAX_DEPTH n;;
    g_modify (fun st => g_set_cache st []);;
    g_resize 0;;
    g_modify (fun st => g_set_nfree st 0%N);;
    g_modify (fun st => g_set_free st INVALID_PAGE);;
    g_modify (fun st => g_set_root st INVALID_PAGE);;
    g_add_all es
  end.

(** write_node, sources/btree_dir.cpp 405-412. *)
Definition g_write_node (num : N) (nd : node) : GM unit :=
  if (num =? INVALID_PAGE)%N then g_throw ECorrupt else
  buf <- g_lift (to_buffer BLOCK_SIZE (n_children nd) (n_entries nd));;
  g_write_page num (buf ++ skipn (length buf) (junk num)).

(** flush_cache, sources/btree_dir.cpp 270-281. *)
Fixpoint g_flush_loop (c : list (N * node)) : GM unit :=
  match c with
  | [] => g_ret tt
  | (p, nd) :: c' =>
    (if n_dirty nd then
       g_write_node p nd;;
       g_put_node p (mkNode (n_parent nd) (n_children nd) (n_entries nd) false)
     else g_ret tt);;
    g_flush_loop c'
  end.
Definition g_flush_cache : GM unit := c <- g_gets g_cache;; g_flush_loop c.

(** subflush, sources/btree_dir.cpp 336-342. *)
Definition g_subflush : GM unit :=
  nf <- g_gets g_nfree;;
  size <- g_size;;
  (if (5 <? nf)%N && (N.of_nat (size / (BLOCK_SIZE * 3 / 2)) <? nf)%N then g_rebuild else g_ret tt);;
  g_flush_cache.

(** empty, sources/btree_dir.cpp 766-770. *)
Definition g_is_empty : GM bool :=
  r <- g_get_root_node;;
  match r with
  | None => g_ret true
  | Some n => nd <- g_get_node n;; g_ret (length (n_entries nd) =? 0)
  end.
End Generic.
