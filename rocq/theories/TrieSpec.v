(** Specification: Modified Merkle Patricia Trie, Yellow Paper appendices C and D. Independent of the C++ code. *)
From Verif Require Import Base RlpSpec.

(** A trie over paths of nibbles. *)
Inductive mpt : Type :=
| Leaf (path : list N) (value : bytes)
| Ext (path : list N) (child : mpt)
| Branch (children : list (option mpt)).

(** Reading a path. *)
Fixpoint strip (p k : list N) : option (list N) :=
  match p, k with
  | [], _ => Some k
  | a :: p', b :: k' => if a =? b then strip p' k' else None
  | _ :: _, [] => None
  end.
Fixpoint get (t : mpt) (k : list N) : option bytes :=
  match t with
  | Leaf p v => match strip p k with Some [] => Some v | _ => None end
  | Ext p c => match strip p k with Some k' => get c k' | None => None end
  | Branch cs =>
    match k with
    | [] => None
    | b :: k' => (fix pick (l : list (option mpt)) (n : nat) : option bytes :=
                    match l, n with
                    | [], _ => None
                    | o :: _, O => match o with Some c => get c k' | None => None end
                    | _ :: l', S n' => pick l' n'
                    end) cs (N.to_nat b)
    end
  end.

(** The form of a trie is determined by its content: extensions are non-empty and lead to branches, branches have
    sixteen slots, at least two of them in use. (Branches with a value do not occur when no key is a prefix of another.) *)
Definition is_branch (t : mpt) : bool := match t with Branch _ => true | _ => false end.
Definition used (cs : list (option mpt)) : list mpt := concat (map (fun o => match o with Some c => [c] | None => [] end) cs).
Fixpoint canonical (t : mpt) : Prop :=
  match t with
  | Leaf _ _ => True
  | Ext p c => p <> [] /\ is_branch c = true /\ canonical c
  | Branch cs => length cs = 16%nat /\ (2 <= length (used cs))%nat
                 /\ (fix all (l : list (option mpt)) : Prop := match l with [] => True | None :: l' => all l' | Some c :: l' => canonical c /\ all l' end) cs
  end.

(** Hex-prefix encoding (appendix C): a flag nibble, then the path, with a zero nibble in between if the number of
    nibbles would be odd otherwise. *)
Fixpoint pack (nibbles : list N) : bytes := match nibbles with a :: b :: t => (16 * a + b) :: pack t | _ => [] end.
Definition HP (path : list N) (terminator : bool) : bytes :=
  let f := if terminator then 2 else 0 in
  if Nat.even (length path) then pack (f :: 0 :: path) else pack ((f + 1) :: path).

Section Trie.
  Variable keccak : bytes -> bytes.
  (** A node is referred to by its RLP if this is shorter than 32 bytes, and by the hash of it otherwise. *)
  Definition child (x : item) : item := if blen (RLP x) <? 32 then x else Str (keccak (RLP x)).
  Fixpoint node_item (t : mpt) : item :=
    match t with
    | Leaf p v => Lst [Str (HP p true); Str v]
    | Ext p c => Lst [Str (HP p false); child (node_item c)]
    | Branch cs => Lst (map (fun o => match o with Some c => child (node_item c) | None => Str [] end) cs ++ [Str []])
    end.
  Definition trie_root (t : mpt) : bytes := keccak (RLP (node_item t)).
End Trie.

(** Nibbles of a byte string. *)
Definition nibbles (bs : bytes) : list N := concat (map (fun b => [b / 16; b mod 16]) bs).

(** A trie holds exactly the given entries. *)
Definition holds (t : mpt) (entries : list (bytes * bytes)) : Prop :=
  (forall k v, In (k, v) entries -> get t (nibbles k) = Some v) /\ (forall p v, get t p = Some v -> exists k, p = nibbles k /\ In (k, v) entries).

(** What a client of the builder must respect. *)
Definition prefix (a b : bytes) : Prop := exists c, b = a ++ c.
Fixpoint increasing (l : list bytes) : Prop :=
  match l with a :: ((b :: _) as t) => lex_lt a b = true /\ increasing t | _ => True end.
Record valid_entries (entries : list (bytes * bytes)) : Prop := {
  ve_bytes : Forall (fun e => wf_bytes (fst e) /\ fst e <> []) entries;
  ve_size : Forall (fun e => blen (fst e) < 2 ^ 62 /\ blen (snd e) < 2 ^ 62) entries;
  ve_order : increasing (map fst entries);
  ve_prefix : forall i j a b, nth_error (map fst entries) i = Some a -> nth_error (map fst entries) j = Some b -> i <> j -> ~ prefix a b
}.

(** What the trie builder reports for the database (erigon's intermediate hashes): a branch is reported if one of its
    children is a branch, or if a branch further down on one of its sides is reported. Reported are the used slots, the
    slots that lead to reported branches, the slots whose child is a branch, and the hashes of the latter. *)
Fixpoint stored (t : mpt) : bool :=
  match t with
  | Leaf _ _ => false
  | Ext _ c => stored c
  | Branch cs => existsb (fun o => match o with Some c => is_branch c || stored c | None => false end) cs
  end.
Fixpoint slots_from (b : N) (f : mpt -> bool) (cs : list (option mpt)) : list N :=
  match cs with
  | [] => []
  | o :: t => (match o with Some c => if f c then [b] else [] | None => [] end) ++ slots_from (b + 1) f t
  end.
Record report := mkReport { rp_path : list N; rp_children : list N; rp_tree : list N; rp_hash : list N; rp_hashes : list bytes; rp_root : option bytes }.
Section Reports.
  Variable keccak : bytes -> bytes.
  Definition report_of (path : list N) (cs : list (option mpt)) : report :=
    mkReport path (slots_from 0 (fun _ => true) cs) (slots_from 0 stored cs) (slots_from 0 is_branch cs)
      (map (trie_root keccak) (filter is_branch (used cs))) (match path with [] => Some (trie_root keccak (Branch cs)) | _ => None end).
  (** In the order children before parents. *)
  Fixpoint collected (path : list N) (t : mpt) : list report :=
    match t with
    | Leaf _ _ => []
    | Ext p c => collected (path ++ p) c
    | Branch cs =>
      (fix go (b : N) (l : list (option mpt)) : list report :=
         match l with
         | [] => []
         | o :: l' => (match o with Some c => collected (path ++ [b]) c | None => [] end) ++ go (b + 1) l'
         end) 0 cs
      ++ (if stored (Branch cs) then [report_of path cs] else [])
    end.
  (** Every branch that is the child of a branch is referred to by its hash. *)
  Fixpoint big_branches (t : mpt) : Prop :=
    match t with
    | Leaf _ _ => True
    | Ext _ c => big_branches c
    | Branch cs => (fix all (l : list (option mpt)) : Prop :=
        match l with
        | [] => True
        | o :: l' => match o with Some c => (is_branch c = true -> 32 <= blen (RLP (node_item keccak c))) /\ big_branches c | None => True end /\ all l'
        end) cs
    end.
End Reports.

(** All encodings that occur in a trie: the inputs of the hash function. *)
Section Encodings.
  Variable keccak : bytes -> bytes.
  Fixpoint encodings (t : mpt) : list bytes :=
    RLP (node_item keccak t) ::
    match t with
    | Leaf _ _ => []
    | Ext _ c => encodings c
    | Branch cs => concat (map (fun o => match o with Some c => encodings c | None => [] end) cs)
    end.
End Encodings.
(** A trie whose paths are nibbles and whose values are byte strings, of sizes that exist. *)
Fixpoint sized (t : mpt) : Prop :=
  match t with
  | Leaf p v => Forall (fun n => n < 16) p /\ blen p < 2 ^ 63 /\ wf_bytes v /\ blen v < 2 ^ 62
  | Ext p c => Forall (fun n => n < 16) p /\ blen p < 2 ^ 63 /\ sized c
  | Branch cs => (fix all (l : list (option mpt)) : Prop := match l with [] => True | o :: l' => match o with Some c => sized c | None => True end /\ all l' end) cs
  end.
(** No two different byte strings of the list have the same hash. *)
Definition collision_free (keccak : bytes -> bytes) (l : list bytes) : Prop := forall a b, In a l -> In b l -> keccak a = keccak b -> a = b.

(** The trie of a list of values: the i-th value is stored under the RLP of i. *)
Definition holds_list (t : mpt) (values : list bytes) : Prop :=
  (forall i v, nth_error values i = Some v -> get t (nibbles (RLP (Num (N.of_nat i)))) = Some v)
  /\ (forall p v, get t p = Some v -> exists i, nth_error values i = Some v /\ p = nibbles (RLP (Num (N.of_nat i)))).
