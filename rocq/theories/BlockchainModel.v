(** Model of core/silkworm/chain/blockchain.* over the block tables of state/memory_buffer.*.

    Executing a block is a parameter. The state changes recorded per block number (memory_buffer.cpp:154-209) are a
    stack of (number, state before the block): unwinding a number that is not the last one executed, or executing a
    number again without unwinding it, is the outcome [Stuck], which the theorems exclude. That MemoryBuffer behaves
    like this stack is the subject of C27 and C29. *)
From stdpp Require Import gmap.
From Verif Require Import Base.

(** header and body of a block, as far as Blockchain looks at them; the rest is [b_rest] *)
Record blk (P : Type) := mkBlk { b_number : N; b_parent : bytes; b_difficulty : N; b_root : bytes; b_rest : P }.
Arguments mkBlk {P}. Arguments b_number {P}. Arguments b_parent {P}. Arguments b_difficulty {P}. Arguments b_root {P}. Arguments b_rest {P}.

Section Blockchain.
  Context {P S : Type}.
  Notation block := (blk P).
  Variable hash : block -> bytes.                          (* header.hash() *)
  Variable exec : S -> block -> option S.                  (* execution.cpp:25-79; None: not kOk *)
  Variable root : S -> bytes.                              (* state_root_hash *)
  Variable pre : gmap (N * bytes) block -> block -> bool.  (* pre_validate_block, when the parent is known *)

  (** headers_ and bodies_ are written together, keyed by number and hash: one table. *)
  Record chain := mkChain {
    c_blocks : gmap (N * bytes) block;
    c_difficulty : gmap (N * bytes) N;
    c_canonical : list bytes;
    c_bad : gset bytes;
    c_state : S;
    c_applied : list (N * S)
  }.
  Definition set_state (c : chain) (s : S) (l : list (N * S)) : chain := mkChain (c_blocks c) (c_difficulty c) (c_canonical c) (c_bad c) s l.
  Definition set_canonical (c : chain) (l : list bytes) : chain := mkChain (c_blocks c) (c_difficulty c) l (c_bad c) (c_state c) (c_applied c).
  Definition add_bad (c : chain) (h : bytes) : chain := mkChain (c_blocks c) (c_difficulty c) (c_canonical c) ({[h]} ∪ c_bad c) (c_state c) (c_applied c).

  (** Outcomes: a result, an exception, or undefined behaviour (empty optional dereferenced, failed assertion, changes
      unwound out of order). *)
  Inductive outcome (A : Type) := Done (x : A) | Throws | Stuck.
  Arguments Done {A}. Arguments Throws {A}. Arguments Stuck {A}.
  Definition bind {A B} (o : outcome A) (f : A -> outcome B) : outcome B := match o with Done x => f x | Throws => Throws | Stuck => Stuck end.

  (** memory_buffer.cpp:119-141; 119-150 *)
  Definition store_block (c : chain) (b : block) (h : bytes) : chain :=
    let n := b_number b in
    let d := if n =? 0 then 0 else default 0 (c_difficulty c !! (n - 1, b_parent b)) in
    mkChain (<[(n, h) := b]> (c_blocks c)) (<[(n, h) := (d + b_difficulty b) mod 2 ^ 256]> (c_difficulty c)) (c_canonical c) (c_bad c) (c_state c) (c_applied c).
  Definition canonize (c : chain) (n : N) (h : bytes) : chain :=
    let l := c_canonical c in
    let l := if N.of_nat (length l) <=? n then l ++ repeat [] (N.to_nat n + 1 - length l) else l in
    set_canonical c (<[N.to_nat n := h]> l).
  (** resize: shrinks, or grows with zero hashes *)
  Definition decanonize (c : chain) (n : N) : chain :=
    let l := c_canonical c in
    set_canonical c (firstn (N.to_nat n) l ++ repeat [] (N.to_nat n - length l)).
  Definition current_block (c : chain) : N := N.of_nat (length (c_canonical c)) - 1.
  Definition canonical_hash (c : chain) (n : N) : option bytes := c_canonical c !! N.to_nat n.

  (** blockchain.cpp:25-30 *)
  Definition start (genesis : block) (s : S) : chain :=
    let h := hash genesis in
    canonize (store_block (mkChain ∅ ∅ [] ∅ s []) genesis h) (b_number genesis) h.

  (** blockchain.cpp:153-159; [fuel] bounds the recursion, running out is Stuck. *)
  Fixpoint canonical_ancestor (fuel : nat) (c : chain) (b : block) (h : bytes) : outcome N :=
    match fuel with
    | O => Stuck
    | Datatypes.S fuel =>
      if bool_decide (canonical_hash c (b_number b) = Some h) then Done (b_number b)
      else match c_blocks c !! ((b_number b + 2 ^ 64 - 1) mod 2 ^ 64, b_parent b) with
           | None => Stuck
           | Some p => canonical_ancestor fuel c p (b_parent b)
           end
    end.

  (** blockchain.cpp:126-131 and memory_buffer.cpp:189-209: [k] blocks, from number [n] down *)
  Fixpoint unwind_last (k : nat) (c : chain) (n : N) : outcome chain :=
    match k with
    | O => Done c
    | Datatypes.S k =>
      match c_applied c with
      | (n', s) :: l => if n' =? n then unwind_last k (set_state c s l) (n - 1) else Stuck
      | [] => Stuck
      end
    end.
  Definition unwind_last_changes (c : chain) (ancestor tip : N) : outcome chain :=
    if ancestor <=? tip then unwind_last (N.to_nat (tip - ancestor)) c tip else Stuck.

  (** blockchain.cpp:133-151. A vector of 2^64 - 1 elements: std::length_error. *)
  Fixpoint collect (k : nat) (c : chain) (n : N) (h : bytes) (acc : list (block * bytes)) : outcome (list (block * bytes)) :=
    match k with
    | O => Done acc
    | Datatypes.S k =>
      match c_blocks c !! (n, h) with
      | None => Stuck
      | Some b => collect k c (n - 1) (b_parent b) ((b, h) :: acc)
      end
    end.
  Definition intermediate_chain (c : chain) (n : N) (h : bytes) (ancestor : N) : outcome (list (block * bytes)) :=
    if n <? ancestor then Throws else collect (N.to_nat (n - ancestor)) c n h [].

  (** blockchain.cpp:91-107. A wrong state root unwinds the block just executed. *)
  Definition execute_block (c : chain) (b : block) (check : bool) : outcome (bool * chain) :=
    match exec (c_state c) b with
    | None => Done (false, c)
    | Some s =>
      if existsb (fun x => fst x =? b_number b) (c_applied c) then Stuck
      else if check && negb (bytes_eqb (root s) (b_root b)) then Done (false, c)
      else Done (true, set_state c s ((b_number b, c_state c) :: c_applied c))
    end.
  (** blockchain.cpp:53-61: the number of blocks executed, and whether all were *)
  Fixpoint execute_all (c : chain) (l : list (block * bytes)) (check : bool) : outcome (bool * N * chain) :=
    match l with
    | [] => Done (true, 0, c)
    | (b, _) :: t =>
      bind (execute_block c b check) (fun '(ok, c) =>
        if ok then bind (execute_all c t check) (fun '(ok, k, c) => Done (ok, k + 1, c)) else Done (false, 0, c))
    end.
  (** blockchain.cpp:109-124; the result is asserted to be kOk *)
  Fixpoint re_execute (k : nat) (c : chain) (n : N) : outcome chain :=
    match k with
    | O => Done c
    | Datatypes.S k =>
      match canonical_hash c n with
      | None => Stuck
      | Some h =>
        match c_blocks c !! (n, h) with
        | None => Stuck
        | Some b => bind (execute_block c b false) (fun '(ok, c) => if ok then re_execute k c (n + 1) else Stuck)
        end
      end
    end.
  Definition re_execute_canonical_chain (c : chain) (ancestor tip : N) : outcome chain :=
    if ancestor <=? tip then re_execute (N.to_nat (tip - ancestor)) c (ancestor + 1) else Stuck.

  Fixpoint decanonize_down (k : nat) (c : chain) (i : N) : chain :=
    match k with O => c | Datatypes.S k => decanonize_down k (decanonize c i) (i - 1) end.

  (** blockchain.cpp:32-89; true: kOk *)
  Definition insert_block (c : chain) (b : block) (check : bool) : outcome (bool * chain) :=
    if negb (match c_blocks c !! ((b_number b + 2 ^ 64 - 1) mod 2 ^ 64, b_parent b) with Some _ => pre (c_blocks c) b | None => false end)
    then Done (false, c)
    else
    let h := hash b in
    if bool_decide (h ∈ c_bad c) then Done (false, c)
    else
    bind (canonical_ancestor (Datatypes.S (N.to_nat (b_number b))) c b h) (fun ancestor =>
    let tip := current_block c in
    bind (unwind_last_changes c ancestor tip) (fun c =>
    let n := b_number b in
    bind (intermediate_chain c (n - 1) (b_parent b) ancestor) (fun l =>
    let l := l ++ [(b, h)] in
    bind (execute_all c l check) (fun '(ok, k, c) =>
    let restore c := bind (unwind_last_changes c ancestor (ancestor + k)) (fun c => re_execute_canonical_chain c ancestor tip) in
    if negb ok then bind (restore (add_bad c h)) (fun c => Done (false, c))
    else
    let c := store_block c b h in
    match canonical_hash c tip with
    | None => Stuck
    | Some th =>
      match c_difficulty c !! (tip, th) with
      | None => Stuck
      | Some current =>
        if current <? default 0 (c_difficulty c !! (n, h)) then
          let c := decanonize_down (N.to_nat (tip - ancestor)) c tip in
          Done (true, fold_left (fun c x => canonize c (b_number (fst x)) (snd x)) l c)
        else bind (restore c) (fun c => Done (true, c))
      end
    end)))).
End Blockchain.
Arguments Done {A}. Arguments Throws {A}. Arguments Stuck {A}.
