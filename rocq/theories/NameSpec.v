(** What the statements about encrypted names mean.  Nothing here depends on how
    names are encrypted. *)
From Coq Require Import Strings.String.
From Verif Require Import Base TextModel NameModel.
Local Open Scope list_scope.

(** A long-name suffix that can be told from base32 text whatever its letter case:
    one of its characters is not in the alphabet; it has no separator and no NUL. *)
Definition suffix_ok (s : bytes) : Prop :=
  (exists c, In c s /\ ~ In (lower_byte c) (to_lower upper32)) /\ ~ In slash s /\ ~ In x00 s.

(** A physical name that is one ordinary entry of its directory: not "", "." or
    "..", no separator, no NUL, and not hidden. *)
Definition safe_component (c : bytes) : Prop :=
  2 < length c /\ ~ In slash c /\ ~ In x00 c /\ hd x00 c <> dot.

(** The names in a path that are longer than the threshold have different digests. *)
Definition no_collision (digest : bytes -> bytes) (threshold : nat) (names : list bytes) : Prop :=
  forall a b, In a names -> In b names -> threshold < length a -> threshold < length b ->
    digest a = digest b -> a = b.

(** The components of a path that take part in its resolution: an empty component
    and "." stay where they are. *)
Definition steps (path : bytes) : list bytes :=
  filter (fun w => negb (bytes_eqb w []) && negb (bytes_eqb w [dot])) (split_slash path).
Definition nonempty (ws : list bytes) : list bytes := filter (fun w => negb (bytes_eqb w [])) ws.

(** What one physical directory entry should contribute to a listing of an
    encrypted directory. *)
Inductive shown (encrypt : bytes -> res (bytes * bytes)) (table : bytes -> res bytes) : bytes -> list bytes -> Prop :=
| shown_self : shown encrypt table [dot] [[dot]]
| shown_parent : shown encrypt table [dot; dot] [[dot; dot]]
| shown_hidden u :
    (* any other physical name that starts with a dot, such as the configuration
       file and the long-name table *)
    u <> [] -> u <> [dot] -> shown encrypt table (dot :: u) []
| shown_created dir name P l :
    (* the entry made for the virtual path dir/name *)
    name <> [] -> ~ In slash name ->
    encrypt (dir ++ slash :: name) = Ok (P, l) ->
    (l <> [] -> table (get_last_component P) = Ok l) ->
    shown encrypt table (get_last_component P) [name]
| shown_not_text u :
    (* not base32 text, and not a recorded long name *)
    hd dot u <> dot -> (exists e, base32_decode u = Err e) -> (exists e, table u = Err e) ->
    shown encrypt table u [].
