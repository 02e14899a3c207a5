(** Model of the on-disk B-tree directory: sources/btree_dir.cpp and
    sources/btree_dir.h.

    A [BtreeDirectory] is the plaintext stream of its file ([m_stream], a byte
    array by C02 and C07), the three words of the file header it owns (root page,
    first free page, number of free pages; persisted by C13) and the node cache
    [m_node_cache].

    Simplifications.
    - A [BtreeNode*] is the page number under which the node is cached;
      dereferencing one that is not cached (a null pointer) is [EUndef].
    - The hash map [m_node_cache] is an association list, so [flush_cache]
      visits nodes in list order instead of hash order.
    - The name comparison function ([Directory::DirNameComparison], sources/files.h
      438-444) is a parameter [cmp] returning the sign of the C++ [int].
    - [to_buffer] leaves the end of the stack buffer uninitialised before the
      whole buffer is written; these bytes are the parameter [junk].
    - Timestamps ([update_mtime_helper] and so on) are in AttrModel.v.
    - [to_dot_graph], a debugging aid, is not modelled. *)
From Verif Require Import Base CodecModel.
Local Open Scope list_scope.

(** sources/btree_dir.h 17-19, sources/myutils.h 163, sources/files.h 432. *)
Definition INVALID_PAGE : N := 4294967295.
Definition BTREE_MAX_DEPTH : nat := 32.
Definition BTREE_MAX_NUM_ENTRIES : nat := 13.
Definition BLOCK_SIZE : nat := 4096.
Definition MAX_FILENAME_LENGTH : nat := 255.

(** errno ENAMETOOLONG. *)
(** sources/btree_dir.cpp 249, 377, 417: the errno thrown. *)
Definition ENAMETOOLONG : N := 36.

(** class DirEntry, sources/btree_dir.h 32-38. *)
Record entry := mkEntry { e_name : bytes; e_id : bytes; e_type : N }.

(** class BtreeNode, sources/btree_dir.h 40-47 (its own page number is the key
    it is cached under). *)
Record node := mkNode {
  n_parent : N; n_children : list N; n_entries : list entry; n_dirty : bool }.

(** The state of a BtreeDirectory; header words at sources/files.h 72-97. *)
Record bt := mkBt {
  b_stream : bytes; b_root : N; b_free : N; b_nfree : N;
  b_cache : list (N * node) }.

(** Helper: assignment to m_stream's content. *)
Definition set_stream (st : bt) s := mkBt s (b_root st) (b_free st) (b_nfree st) (b_cache st).
(** sources/files.h 77-81 (the dirty flag is in AttrModel and FullFsModel). *)
Definition set_root (st : bt) r := mkBt (b_stream st) r (b_free st) (b_nfree st) (b_cache st).
(** sources/files.h 85-89. *)
Definition set_free (st : bt) f := mkBt (b_stream st) (b_root st) f (b_nfree st) (b_cache st).
(** sources/files.h 93-97. *)
Definition set_nfree (st : bt) n := mkBt (b_stream st) (b_root st) (b_free st) n (b_cache st).
(** Helper: assignment to m_node_cache (sources/btree_dir.h). *)
Definition set_cache (st : bt) c := mkBt (b_stream st) (b_root st) (b_free st) (b_nfree st) c.

(** ** State and exceptions: what was done before a throw stays done. *)
(** Helper (no code): a computation on the directory's state that may throw. *)
Definition M (A : Type) : Type := bt -> bt * res A.
(** Helper (no code): return. *)
Definition ret {A} (a : A) : M A := fun st => (st, Ok a).
(** Helper (no code): a C++ throw. *)
Definition throw {A} (e : err) : M A := fun st => (st, Err e).
(** Helper (no code): sequencing. *)
Definition bind {A B} (m : M A) (f : A -> M B) : M B := fun st =>
  match m st with
  | (st', Ok a) => f a st'
  | (st', Err e) => (st', Err e)
  end.
(** Helper (no code): a pure step that may throw. *)
Definition lift {A} (r : res A) : M A := fun st => (st, r).
(** Helper (no code): reading the state. *)
Definition gets {A} (f : bt -> A) : M A := fun st => (st, Ok (f st)).
(** Helper (no code): changing the state. *)
Definition modify (f : bt -> bt) : M unit := fun st => (f st, Ok tt).
Notation "x <- m ;; k" := (bind m (fun x => k)) (at level 61, m at next level, right associativity).
Notation "m ;; k" := (bind m (fun _ => k)) (at level 61, right associativity).

(** dir_check, sources/btree_dir.cpp 14-20. *)
Definition dir_check (b : bool) : M unit := if b then ret tt else throw ECorrupt.

(** ** Page codec *)

(** read_little_endian_and_forward, sources/btree_dir.cpp 63-70. *)
Definition read_le (w : nat) (buf : bytes) : res (N * bytes) :=
  if w <=? length buf then Ok (from_le (firstn w buf), skipn w buf) else Err ECorrupt.

(** read_and_forward, sources/btree_dir.cpp 30-45. *)
Definition read_raw (w : nat) (buf : bytes) : res (bytes * bytes) :=
  if w <=? length buf then Ok (firstn w buf, skipn w buf) else Err ECorrupt.

(** Assignment of a NUL-terminated array to a std::string,
    sources/btree_dir.cpp 225. *)
Fixpoint c_str (l : bytes) : bytes :=
  match l with
  | [] => []
  | b :: l' => if Byte.eqb b x00 then [] else b :: c_str l'
  end.

(** The loop over children, sources/btree_dir.cpp 213-216. *)
Fixpoint read_children (k : nat) (buf : bytes) : res (list N * bytes) :=
  match k with
  | O => Ok ([], buf)
  | S k' =>
    rbind (read_le 4 buf) (fun '(c, buf) =>
    rbind (read_children k' buf) (fun '(cs, buf) => Ok (c :: cs, buf)))
  end.

(** The loop over entries, sources/btree_dir.cpp 217-227.  The type word is
    copied raw, so it is read in the machine's byte order: little endian here. *)
Fixpoint read_entries (k : nat) (buf : bytes) : res (list entry) :=
  match k with
  | O => Ok []
  | S k' =>
    rbind (read_raw (MAX_FILENAME_LENGTH + 1) buf) (fun '(name, buf) =>
    rbind (read_raw 32 buf) (fun '(id, buf) =>
    rbind (read_raw 4 buf) (fun '(ty, buf) =>
    rbind (read_entries k' buf) (fun es =>
    Ok (mkEntry (c_str (firstn MAX_FILENAME_LENGTH name)) id (from_le ty) :: es)))))
  end.

(** BtreeNode::from_buffer, sources/btree_dir.cpp 202-229.  A page whose flag
    word is 0 (never written, or on the free list) leaves the node empty; its
    callers ignore the returned bool. *)
Definition from_buffer (buf : bytes) : res (list N * list entry) :=
  rbind (read_le 4 buf) (fun '(flag, buf) =>
  if (flag =? 0)%N then Ok ([], []) else
  rbind (read_le 2 buf) (fun '(child_num, buf) =>
  rbind (read_le 2 buf) (fun '(entry_num, buf) =>
  rbind (read_children (N.to_nat child_num) buf) (fun '(cs, buf) =>
  rbind (read_entries (N.to_nat entry_num) buf) (fun es =>
  Ok (cs, es)))))).

(** write_and_forward and write_little_endian_and_forward, sources/btree_dir.cpp
    47-61 and 72-78: the output so far, extended if it still fits the page. *)
Definition put_raw (size : nat) (d : bytes) (acc : bytes) : res bytes :=
  if length acc + length d <=? size then Ok (acc ++ d) else Err ECorrupt.

(** std::array filename filled with zeros and overwritten by the name,
    sources/btree_dir.cpp 248-250. *)
Definition name_field (name : bytes) : bytes :=
  name ++ zeros (MAX_FILENAME_LENGTH + 1 - length name).

(** sources/btree_dir.cpp 241-244. *)
Fixpoint put_children (size : nat) (cs : list N) (acc : bytes) : res bytes :=
  match cs with
  | [] => Ok acc
  | c :: cs' => rbind (put_raw size (to_le 4 c) acc) (put_children size cs')
  end.

(** sources/btree_dir.cpp 246-256. *)
Fixpoint put_entries (size : nat) (es : list entry) (acc : bytes) : res bytes :=
  match es with
  | [] => Ok acc
  | e :: es' =>
    if MAX_FILENAME_LENGTH <? length (e_name e) then Err (EPosix ENAMETOOLONG) else
    rbind (put_raw size (name_field (e_name e)) acc) (fun acc =>
    rbind (put_raw size (e_id e) acc) (fun acc =>
    rbind (put_raw size (to_le 4 (e_type e)) acc) (fun acc =>
    put_entries size es' acc)))
  end.

(** BtreeNode::to_buffer, sources/btree_dir.cpp 231-257: the bytes it writes.
    The two counts are truncated to 16 bits. *)
Definition to_buffer (size : nat) (cs : list N) (es : list entry) : res bytes :=
  rbind (put_raw size (to_le 4 1) []) (fun acc =>
  rbind (put_raw size (to_le 2 (N.of_nat (length cs))) acc) (fun acc =>
  rbind (put_raw size (to_le 2 (N.of_nat (length es))) acc) (fun acc =>
  rbind (put_children size cs acc) (fun acc =>
  put_entries size es acc)))).

(** [num * BLOCK_SIZE] in 32-bit unsigned arithmetic, as in every use of it. *)
Definition page_pos (num : N) : N := ((num * 4096) mod 4294967296)%N.

(** [m_stream->read(buffer, num * BLOCK_SIZE, BLOCK_SIZE)] followed by
    dir_check of the number of bytes read. *)
(** sources/btree_dir.cpp 138 and 401. *)
Definition read_page (num : N) : M bytes := fun st =>
  let d := arr_read (b_stream st) (N.to_nat (page_pos num)) BLOCK_SIZE in
  if length d =? BLOCK_SIZE then (st, Ok d) else (st, Err ECorrupt).

(** sources/btree_dir.cpp 152 and 411. *)
Definition write_page (num : N) (d : bytes) : M unit :=
  modify (fun st => set_stream st (arr_write (b_stream st) (N.to_nat (page_pos num)) d)).

(** ** Free pages *)

(** read_free_page, sources/btree_dir.cpp 135-145: (next, prev). *)
Definition read_free_page (num : N) : M (N * N) :=
  buf <- read_page num;;
  if negb (from_le (firstn 4 buf) =? 0)%N then throw ECorrupt else
  ret (from_le (firstn 4 (skipn 4 buf)), from_le (firstn 4 (skipn 8 buf))).

(** write_free_page, sources/btree_dir.cpp 147-153. *)
Definition write_free_page (num next prev : N) : M unit :=
  write_page num (zeros 4 ++ to_le 4 next ++ to_le 4 prev ++ zeros (BLOCK_SIZE - 12)).

(** 32-bit arithmetic on the free page counter. *)
Definition u32 (n : N) : N := (n mod 4294967296)%N.

(** allocate_page, sources/btree_dir.cpp 155-175. *)
Definition allocate_page : M N :=
  pg <- gets b_free;;
  if (pg =? INVALID_PAGE)%N then
    size <- gets (fun st => length (b_stream st));;
    modify (fun st => set_stream st (arr_resize (b_stream st) (size + BLOCK_SIZE)));;
    ret (u32 (N.of_nat (size / BLOCK_SIZE)))
  else
    fp <- read_free_page pg;;
    n <- gets b_nfree;;
    modify (fun st => set_nfree st (u32 (n + 4294967295)));;
    modify (fun st => set_free st (fst fp));;
    (if negb (fst fp =? INVALID_PAGE)%N then
       fp2 <- read_free_page (fst fp);;
       start <- gets b_free;;
       write_free_page start (fst fp2) INVALID_PAGE
     else ret tt);;
    ret pg.

(** deallocate_page, sources/btree_dir.cpp 177-200.  The comparison is between
    a 32-bit product and a 64-bit size. *)
Definition deallocate_page (num : N) : M unit :=
  size <- gets (fun st => length (b_stream st));;
  if (page_pos num =? N.of_nat size)%N then
    modify (fun st => set_stream st (arr_resize (b_stream st)
                                       (N.to_nat (page_pos (u32 (num + 4294967295))))))
  else
    next <- gets b_free;;
    write_free_page num next INVALID_PAGE;;
    start <- gets b_free;;
    (if negb (start =? INVALID_PAGE)%N then
       fp <- read_free_page start;;
       write_free_page start (fst fp) num
     else ret tt);;
    modify (fun st => set_free st num);;
    n <- gets b_nfree;;
    modify (fun st => set_nfree st (u32 (n + 1))).

(** ** The node cache *)

(** sources/btree_dir.cpp 314 and 322: m_node_cache.find. *)
Fixpoint lookup (p : N) (c : list (N * node)) : option node :=
  match c with
  | [] => None
  | (q, nd) :: c' => if (q =? p)%N then Some nd else lookup p c'
  end.

(** Assignment through a node pointer. *)
(** Helper: the node at p is changed in place through a BtreeNode pointer. *)
Fixpoint update (p : N) (nd : node) (c : list (N * node)) : list (N * node) :=
  match c with
  | [] => []
  | (q, nd') :: c' => if (q =? p)%N then (q, nd) :: c' else (q, nd') :: update p nd c'
  end.

(** sources/btree_dir.cpp 513-519: m_node_cache.erase in del_node. *)
Definition remove_key (p : N) (c : list (N * node)) : list (N * node) :=
  filter (fun x => negb (fst x =? p)%N) c.

(** Helper: reading through a BtreeNode pointer. *)
Definition get_node (p : N) : M node := fun st =>
  match lookup p (b_cache st) with Some nd => (st, Ok nd) | None => (st, Err EUndef) end.

(** Helper: writing through a BtreeNode pointer. *)
Definition put_node (p : N) (nd : node) : M unit :=
  modify (fun st => set_cache st (update p nd (b_cache st))).

(** mutable_entries() and mutable_children() (which set the dirty flag),
    sources/btree_dir.h 93-102, followed by an assignment. *)
Definition set_entries (p : N) (es : list entry) : M unit :=
  nd <- get_node p;;
  put_node p (mkNode (n_parent nd) (n_children nd) es true).
Definition set_children (p : N) (cs : list N) : M unit :=
  nd <- get_node p;;
  put_node p (mkNode (n_parent nd) cs (n_entries nd) true).
(** mutable_parent_page_number(), sources/btree_dir.h 73-77. *)
Definition set_parent (p : N) (par : N) : M unit :=
  nd <- get_node p;;
  put_node p (mkNode par (n_children nd) (n_entries nd) true).

(** is_leaf, sources/btree_dir.h 78-85. *)
Definition is_leaf (nd : node) : res bool :=
  match n_children nd with
  | [] => Ok true
  | _ :: _ => if length (n_children nd) =? length (n_entries nd) + 1
              then Ok false else Err ECorrupt
  end.

(** read_node, sources/btree_dir.cpp 396-403. *)
Definition read_node (num : N) : M (list N * list entry) :=
  if (num =? INVALID_PAGE)%N then throw ECorrupt else
  buf <- read_page num;;
  lift (from_buffer buf).

(** retrieve_node, sources/btree_dir.cpp 320-334.  The node read is only put in
    the cache once it has been decoded. *)
Definition retrieve_node (parent num : N) : M N :=
  c <- gets (fun st => lookup num (b_cache st));;
  match c with
  | Some nd =>
    dir_check ((parent =? INVALID_PAGE)%N || (parent =? n_parent nd)%N);;
    ret num
  | None =>
    x <- read_node num;;
    modify (fun st => set_cache st ((num, mkNode parent (fst x) (snd x) false) :: b_cache st));;
    ret num
  end.

(** retrieve_existing_node, sources/btree_dir.cpp 312-318; [None] is nullptr. *)
Definition retrieve_existing_node (num : N) : M (option N) :=
  gets (fun st => match lookup num (b_cache st) with Some _ => Some num | None => None end).

(** get_root_node, sources/btree_dir.cpp 365-371. *)
Definition get_root_node : M (option N) :=
  pg <- gets b_root;;
  if (pg =? INVALID_PAGE)%N then ret None else
  n <- retrieve_node INVALID_PAGE pg;;
  ret (Some n).

(** del_node, sources/btree_dir.cpp 513-519. *)
Definition del_node (n : N) : M unit :=
  deallocate_page n;;
  modify (fun st => set_cache st (remove_key n (b_cache st))).

(** adjust_children_in_cache, sources/btree_dir.cpp 441-449. *)
Fixpoint adjust_children (cs : list N) (parent : N) : M unit :=
  match cs with
  | [] => ret tt
  | c :: cs' =>
    child <- retrieve_existing_node c;;
    (match child with Some k => set_parent k parent | None => ret tt end);;
    adjust_children cs' parent
  end.

(** ** Small list helpers of sources/btree_dir.cpp 80-124 *)

(** insert, 118-123. *)
Definition insert_at {A} (i : nat) (x : A) (l : list A) : res (list A) :=
  if i <=? length l then Ok (firstn i l ++ x :: skipn i l) else Err ECorrupt.

(** erase, 111-116. *)
Definition erase_at {A} (i : nat) (l : list A) : res (list A) :=
  if i <? length l then Ok (firstn i l ++ skipn (S i) l) else Err ECorrupt.

(** vector::at, throwing std::out_of_range. *)
(** Used at sources/btree_dir.cpp 360 and 386. *)
Definition at_ {A} (l : list A) (i : nat) : res A :=
  match nth_error l i with Some x => Ok x | None => Err ERange end.

(** vector::back(), vector::front(), operator[]: undefined out of range. *)
(** Used at sources/btree_dir.cpp 303 and in rotate (538-568). *)
Definition front_ {A} (l : list A) : res A :=
  match l with x :: _ => Ok x | [] => Err EUndef end.
(** Used at sources/btree_dir.cpp 297-299. *)
Definition idx_ {A} (l : list A) (i : nat) : res A :=
  match nth_error l i with Some x => Ok x | None => Err EUndef end.
(** Used at sources/btree_dir.cpp 302 and in rotate (538-568). *)
Definition back_ {A} (l : list A) : res A := idx_ l (length l - 1).

(** Assignment to an existing element. *)
(** Helper: assignment to a vector element, as in rotate (sources/btree_dir.cpp
    538-568). *)
Definition set_at {A} (i : nat) (x : A) (l : list A) : list A :=
  firstn i l ++ x :: skipn (S i) l.

(** std::find over page numbers: the position, or the length if absent. *)
(** Used in find_sibling, sources/btree_dir.cpp 521-536. *)
Fixpoint find_pos (p : N) (l : list N) : nat :=
  match l with
  | [] => O
  | q :: l' => if (q =? p)%N then O else S (find_pos p l')
  end.

Section Tree.
Variable cmp : bytes -> bytes -> comparison.
Variable junk : N -> bytes.

(** sources/btree_dir.cpp 355: cmpfn_(a, b) < 0. *)
Definition lt_name (a b : bytes) : bool := match cmp a b with Lt => true | _ => false end.
(** sources/btree_dir.cpp 356 and 387: cmpfn_(a, b) == 0. *)
Definition eq_name (a b : bytes) : bool := match cmp a b with Eq => true | _ => false end.

(** std::lower_bound as implemented by libstdc++ and libc++: binary search. *)
(** Called at sources/btree_dir.cpp 351-355. *)
Fixpoint lower_bound_loop (fuel : nat) (es : list entry) (name : bytes) (first len : nat) : nat :=
  match fuel with
  | O => first
  | S f =>
    if len =? 0 then first else
    let half := len / 2 in
    match nth_error es (first + half) with
    | Some e =>
      if lt_name (e_name e) name
      then lower_bound_loop f es name (first + half + 1) (len - half - 1)
      else lower_bound_loop f es name first half
    | None => first
    end
  end.
(** sources/btree_dir.cpp 351-355. *)
Definition lower_bound (es : list entry) (name : bytes) : nat :=
  lower_bound_loop (length es) es name 0 (length es).

(** find_node, sources/btree_dir.cpp 344-363; the loop body runs
    BTREE_MAX_DEPTH times. *)
Fixpoint find_loop (fuel : nat) (n : N) (name : bytes) : M (N * nat * bool) :=
  match fuel with
  | O => throw ECorrupt
  | S f =>
    nd <- get_node n;;
    let i := lower_bound (n_entries nd) name in
    let here := match nth_error (n_entries nd) i with
                | Some e => eq_name name (e_name e)
                | None => false
                end in
    if here then ret (n, i, true) else
    leaf <- lift (is_leaf nd);;
    if leaf : bool then ret (n, i, false) else
    c <- lift (at_ (n_children nd) i);;
    k <- retrieve_node n c;;
    find_loop f k name
  end.

(** sources/btree_dir.cpp 344-363. *)
Definition find_node (name : bytes) : M (option (N * nat * bool)) :=
  r <- get_root_node;;
  match r with
  | None => ret None
  | Some n => x <- find_loop BTREE_MAX_DEPTH n name;; ret (Some x)
  end.

(** get_entry_impl, sources/btree_dir.cpp 373-394. *)
Definition get_entry (name : bytes) : M (option entry) :=
  if MAX_FILENAME_LENGTH <? length name then throw (EPosix ENAMETOOLONG) else
  f <- find_node name;;
  match f with
  | Some (n, i, true) =>
    nd <- get_node n;;
    e <- lift (at_ (n_entries nd) i);;
    if eq_name name (e_name e) then ret (Some e) else ret None
  | _ => ret None
  end.

(** insert_and_balance, sources/btree_dir.cpp 454-459: put the entry and, in an
    inner node, the new child into node [n]. *)
Definition insert_here (n : N) (e : entry) (additional : N) : M unit :=
  nd <- get_node n;;
  let i := lower_bound (n_entries nd) (e_name e) in
  (if negb (additional =? INVALID_PAGE)%N then
     leaf <- lift (is_leaf nd);;
     if leaf : bool then ret tt else
     cs <- lift (insert_at (i + 1) additional (n_children nd));;
     set_children n cs
   else ret tt);;
  es <- lift (insert_at i e (n_entries nd));;
  set_entries n es.

(** insert_and_balance, sources/btree_dir.cpp 452-492.  [fuel] is
    BTREE_MAX_DEPTH - depth. *)
Fixpoint insert_and_balance (fuel : nat) (n : N) (e : entry) (additional : N) : M unit :=
  match fuel with
  | O => throw ECorrupt
  | S f =>
    insert_here n e additional;;
    nd <- get_node n;;
    if BTREE_MAX_NUM_ENTRIES <? length (n_entries nd) then
      pg <- allocate_page;;
      sib <- retrieve_node (n_parent nd) pg;;
      let middle := length (n_entries nd) / 2 - 1 in
      up <- lift (idx_ (n_entries nd) middle);;
      leaf <- lift (is_leaf nd);;
      (if leaf : bool then ret tt else
         set_children sib (skipn (middle + 1) (n_children nd));;
         set_children n (firstn (middle + 1) (n_children nd));;
         adjust_children (skipn (middle + 1) (n_children nd)) sib);;
      set_entries sib (skipn (middle + 1) (n_entries nd));;
      set_entries n (removelast (firstn (middle + 1) (n_entries nd)));;
      if (n_parent nd =? INVALID_PAGE)%N then
        new_root <- allocate_page;;
        root <- retrieve_node INVALID_PAGE new_root;;
        rn <- get_node root;;
        set_children root (n_children rn ++ [n; sib]);;
        set_entries root (n_entries rn ++ [up]);;
        modify (fun st => set_root st new_root);;
        set_parent n new_root;;
        set_parent sib new_root
      else
        p <- retrieve_existing_node (n_parent nd);;
        match p with
        | None => throw EUndef
        | Some p => insert_and_balance f p up sib
        end
    else ret tt
  end.

(** add_entry_impl, sources/btree_dir.cpp 414-439. *)
Definition add_entry (name id : bytes) (type : N) : M bool :=
  if MAX_FILENAME_LENGTH <? length name then throw (EPosix ENAMETOOLONG) else
  f <- find_node name;;
  match f with
  | Some (_, _, true) => ret false
  | None =>
    pg <- allocate_page;;
    modify (fun st => set_root st pg);;
    r <- get_root_node;;
    match r with
    | None => throw EUndef
    | Some n =>
      nd <- get_node n;;
      set_entries n (n_entries nd ++ [mkEntry name id type]);;
      ret true
    end
  | Some (n, _, false) =>
    insert_and_balance BTREE_MAX_DEPTH n (mkEntry name id type) INVALID_PAGE;;
    ret true
  end.

(** The while loop of replace_with_sub_entry, sources/btree_dir.cpp 505-506:
    down the last children to a leaf.  It has no depth limit in the program;
    [EFuel] here stands for more than [fuel] levels. *)
Fixpoint rightmost_leaf (fuel : nat) (n : N) : M N :=
  match fuel with
  | O => throw EFuel
  | S f =>
    nd <- get_node n;;
    leaf <- lift (is_leaf nd);;
    if leaf : bool then ret n else
    c <- lift (back_ (n_children nd));;
    k <- retrieve_node n c;;
    rightmost_leaf f k
  end.

(** replace_with_sub_entry, sources/btree_dir.cpp 494-511 (called at depth 0). *)
Definition replace_with_sub_entry (n : N) (index : nat) : M N :=
  nd <- get_node n;;
  leaf <- lift (is_leaf nd);;
  if leaf : bool then
    es <- lift (erase_at index (n_entries nd));;
    set_entries n es;;
    ret n
  else
    c <- lift (at_ (n_children nd) index);;
    l <- retrieve_node n c;;
    l <- rightmost_leaf 64 l;;
    ld <- get_node l;;
    y <- lift (back_ (n_entries ld));;
    _ <- lift (at_ (n_entries nd) index);;
    set_entries n (set_at index y (n_entries nd));;
    set_entries l (removelast (n_entries ld));;
    ret l.

(** find_sibling, sources/btree_dir.cpp 521-536. *)
Definition find_sibling (parent n : N) : M (nat * N) :=
  pd <- get_node parent;;
  nd <- get_node n;;
  dir_check (parent =? n_parent nd)%N;;
  let i := find_pos n (n_children pd) in
  dir_check (i <? length (n_children pd));;
  if i + 1 =? length (n_children pd) then
    (* .at(index - 1), which throws when index is 0 *)
    c <- lift (if i =? 0 then Err ERange else at_ (n_children pd) (i - 1));;
    s <- retrieve_node parent c;;
    ret (i - 1, s)
  else
    c <- lift (at_ (n_children pd) (i + 1));;
    s <- retrieve_node parent c;;
    ret (i, s).

(** rotate, sources/btree_dir.cpp 538-568, with [separator] being entry
    [index] of [parent]. *)
Definition rotate (left right parent : N) (index : nat) : M unit :=
  pd <- get_node parent;;
  sep <- lift (at_ (n_entries pd) index);;
  ld <- get_node left;;
  rd <- get_node right;;
  let temp := n_entries ld ++ sep :: n_entries rd in
  let middle := length temp / 2 in
  new_sep <- lift (at_ temp middle);;
  set_entries parent (set_at index new_sep (n_entries pd));;
  set_entries left (firstn middle temp);;
  set_entries right (skipn (middle + 1) temp);;
  if negb (length (n_children ld) =? 0) && negb (length (n_children rd) =? 0) then
    let tc := n_children ld ++ n_children rd in
    set_children left (firstn (middle + 1) tc);;
    set_children right (skipn (middle + 1) tc);;
    adjust_children (firstn (middle + 1) tc) left;;
    adjust_children (skipn (middle + 1) tc) right
  else ret tt.

(** merge, sources/btree_dir.cpp 570-584. *)
Definition merge (left right parent : N) (index : nat) : M unit :=
  pd <- get_node parent;;
  sep <- lift (at_ (n_entries pd) index);;
  ld <- get_node left;;
  rd <- get_node right;;
  es <- lift (erase_at index (n_entries pd));;
  set_entries parent es;;
  let i := find_pos right (n_children pd) in
  cs <- lift (if i <? length (n_children pd)
              then Ok (firstn i (n_children pd) ++ skipn (S i) (n_children pd))
              else Err EUndef);;
  set_children parent cs;;
  set_entries left (n_entries ld ++ sep :: n_entries rd);;
  adjust_children (n_children rd) left;;
  set_children left (n_children ld ++ n_children rd);;
  del_node right.

(** balance_up, sources/btree_dir.cpp 587-625.  [fuel] is BTREE_MAX_DEPTH - depth. *)
Fixpoint balance_up (fuel : nat) (n : N) : M unit :=
  match fuel with
  | O => throw ECorrupt
  | S f =>
    nd <- get_node n;;
    if (n_parent nd =? INVALID_PAGE)%N && (length (n_entries nd) =? 0)
       && negb (length (n_children nd) =? 0) then
      dir_check (length (n_children nd) =? 1);;
      adjust_children (n_children nd) INVALID_PAGE;;
      c <- lift (front_ (n_children nd));;
      modify (fun st => set_root st c);;
      del_node n
    else if (n_parent nd =? INVALID_PAGE)%N
            || (BTREE_MAX_NUM_ENTRIES / 2 <=? length (n_entries nd)) then ret tt
    else
      p <- retrieve_existing_node (n_parent nd);;
      match p with
      | None => throw ECorrupt
      | Some parent =>
        x <- find_sibling parent n;;
        let '(index, sib) := x in
        sd <- get_node sib;;
        b <- lift (back_ (n_entries nd));;
        s <- lift (front_ (n_entries sd));;
        let n_first := lt_name (e_name b) (e_name s) in
        (if length (n_entries nd) + length (n_entries sd) <? BTREE_MAX_NUM_ENTRIES then
           if n_first then merge n sib parent index else merge sib n parent index
         else
           if n_first then rotate n sib parent index else rotate sib n parent index);;
        balance_up f parent
      end
  end.

(** remove_entry_impl, sources/btree_dir.cpp 627-646. *)
Definition remove_entry (name : bytes) : M (option entry) :=
  if MAX_FILENAME_LENGTH <? length name then throw (EPosix ENAMETOOLONG) else
  f <- find_node name;;
  match f with
  | Some (n, i, true) =>
    nd <- get_node n;;
    e <- lift (at_ (n_entries nd) i);;
    l <- replace_with_sub_entry n i;;
    balance_up BTREE_MAX_DEPTH l;;
    ret (Some e)
  | _ => ret None
  end.

(** recursive_iterate, sources/btree_dir.cpp 722-730: the entries in the order
    the callback sees them.  [fuel] is BTREE_MAX_DEPTH - depth. *)
Fixpoint recursive_iterate (fuel : nat) (n : N) : M (list entry) :=
  match fuel with
  | O => throw ECorrupt
  | S f =>
    nd <- get_node n;;
    rest <- (fix children (cs : list N) : M (list entry) :=
       match cs with
       | [] => ret []
       | c :: cs' =>
         k <- retrieve_node n c;;
         a <- recursive_iterate f k;;
         b <- children cs';;
         ret (a ++ b)
       end) (n_children nd);;
    ret (n_entries nd ++ rest)
  end.

(** iterate_over_entries_impl, sources/btree_dir.cpp 741-746. *)
Definition list_entries : M (list entry) :=
  r <- get_root_node;;
  match r with
  | None => ret []
  | Some n => recursive_iterate BTREE_MAX_DEPTH n
  end.

(** mutable_recursive_iterate, sources/btree_dir.cpp 732-739: as above, but the
    names are moved out of the cached nodes (a moved-from string is taken to be
    empty). *)
Definition moved_from (e : entry) : entry := mkEntry [] (e_id e) (e_type e).
Fixpoint mutable_iterate (fuel : nat) (n : N) : M (list entry) :=
  match fuel with
  | O => throw ECorrupt
  | S f =>
    nd <- get_node n;;
    set_entries n (map moved_from (n_entries nd));;
    rest <- (fix children (cs : list N) : M (list entry) :=
       match cs with
       | [] => ret []
       | c :: cs' =>
         k <- retrieve_node n c;;
         a <- mutable_iterate f k;;
         b <- children cs';;
         ret (a ++ b)
       end) (n_children nd);;
    ret (n_entries nd ++ rest)
  end.

(** sources/btree_dir.cpp 762-763: the loop of rebuild that adds the entries
    again. *)
Fixpoint add_all (es : list entry) : M unit :=
  match es with
  | [] => ret tt
  | e :: es' => add_entry (e_name e) (e_id e) (e_type e);; add_all es'
  end.

(** rebuild, sources/btree_dir.cpp 748-764. *)
Definition rebuild : M unit :=
  r <- get_root_node;;
  match r with
  | None => ret tt
  | Some n =>
    es <- mutable_iterate BTREE_MAX_DEPTH n;;
    modify (fun st => set_cache st []);;
    modify (fun st => set_stream st (arr_resize (b_stream st) 0));;
    modify (fun st => set_nfree st 0%N);;
    modify (fun st => set_free st INVALID_PAGE);;
    modify (fun st => set_root st INVALID_PAGE);;
    add_all es
  end.

(** write_node, sources/btree_dir.cpp 405-412. *)
Definition write_node (num : N) (nd : node) : M unit :=
  if (num =? INVALID_PAGE)%N then throw ECorrupt else
  buf <- lift (to_buffer BLOCK_SIZE (n_children nd) (n_entries nd));;
  write_page num (buf ++ skipn (length buf) (junk num)).

(** flush_cache, sources/btree_dir.cpp 270-281. *)
Fixpoint flush_loop (c : list (N * node)) : M unit :=
  match c with
  | [] => ret tt
  | (p, nd) :: c' =>
    (if n_dirty nd then
       write_node p nd;;
       put_node p (mkNode (n_parent nd) (n_children nd) (n_entries nd) false)
     else ret tt);;
    flush_loop c'
  end.
Definition flush_cache : M unit := c <- gets b_cache;; flush_loop c.

(** subflush, sources/btree_dir.cpp 336-342. *)
Definition subflush : M unit :=
  nf <- gets b_nfree;;
  size <- gets (fun st => length (b_stream st));;
  (if (5 <? nf)%N && (N.of_nat (size / (BLOCK_SIZE * 3 / 2)) <? nf)%N then rebuild else ret tt);;
  flush_cache.

(** Flushing, destroying the object (~BtreeDirectory, sources/btree_dir.cpp
    259-268, flushes again) and loading the file again: only the stream and the
    header words survive. *)
Definition reload : M unit :=
  subflush;;
  flush_cache;;
  modify (fun st => set_cache st []).

(** empty, sources/btree_dir.cpp 766-770. *)
Definition is_empty : M bool :=
  r <- get_root_node;;
  match r with
  | None => ret true
  | Some n => nd <- get_node n;; ret (length (n_entries nd) =? 0)
  end.

(** validate_free_list, sources/btree_dir.cpp 648-662. *)
Fixpoint validate_free_loop (k : nat) (pg prev : N) : M bool :=
  match k with
  | O => ret (pg =? INVALID_PAGE)%N
  | S k' =>
    fp <- read_free_page pg;;
    if negb (snd fp =? prev)%N then ret false else validate_free_loop k' (fst fp) pg
  end.
Definition validate_free_list : M bool :=
  pg <- gets b_free;;
  n <- gets b_nfree;;
  validate_free_loop (N.to_nat n) pg INVALID_PAGE.

(** ** The directory interface (sources/files.h 448-489) as a step function *)
Inductive dop :=
| DGet (name : bytes)
| DAdd (name id : bytes) (type : N)
| DRemove (name : bytes)
| DList
| DEmpty
| DFlush
| DReload.

(** Helper: what a directory call returns (sources/files.h 454-489). *)
Inductive dout :=
| OEntry (e : option entry)
| OBool (b : bool)
| OList (l : list entry)
| OUnit.

(** sources/files.h 454-489: one call on the directory. *)
Definition bt_step (o : dop) : M dout :=
  match o with
  | DGet name => e <- get_entry name;; ret (OEntry e)
  | DAdd name id ty => b <- add_entry name id ty;; ret (OBool b)
  | DRemove name => e <- remove_entry name;; ret (OEntry e)
  | DList => l <- list_entries;; ret (OList l)
  | DEmpty => b <- is_empty;; ret (OBool b)
  | DFlush => subflush;; ret OUnit
  | DReload => reload;; ret OUnit
  end.

(** Helper (no code): a history of calls. *)
Fixpoint bt_run (ops : list dop) (st : bt) : bt * list (res dout) :=
  match ops with
  | [] => (st, [])
  | o :: ops' =>
    let '(st', r) := bt_step o st in
    let '(st'', rs) := bt_run ops' st' in
    (st'', r :: rs)
  end.
End Tree.

(** A new directory: FileBase::initialize_empty, sources/files.cpp 97-99 (root
    and free list invalid, no free page), and an empty stream. *)
Definition bt_empty : bt := mkBt [] INVALID_PAGE INVALID_PAGE 0 [].

(** binary_compare, sources/mystring.cpp 287 ([std::string_view::compare]:
    unsigned bytes, then length). *)
Fixpoint binary_compare (a b : bytes) : comparison :=
  match a, b with
  | [], [] => Eq
  | [], _ :: _ => Lt
  | _ :: _, [] => Gt
  | x :: a', y :: b' =>
    match N.compare (b2n x) (b2n y) with
    | Eq => binary_compare a' b'
    | c => c
    end
  end.
