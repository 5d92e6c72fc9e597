(** Model of core/silkworm/chain/blockchain.* over a buffer that is changed in place.

    In BlockchainModel the state is a value and the changes recorded per block are a stack of states. Here the state is what
    the buffer holds: executing a block writes to it and unwinding a block number applies the changes recorded for that
    number, whatever they are. The functions that touch only the block tables are those of BlockchainModel. *)
From stdpp Require Import gmap.
From Verif Require Import Base BlockchainModel.

Section Buffered.
  Context {P T : Type}.
  Notation block := (blk P).
  (** the block tables of the buffer, and bad_blocks_ *)
  Notation tables := (chain (P := P) (S := unit)).
  Variable hash : block -> bytes.
  Variable pre : gmap (N * bytes) block -> block -> bool.
  Variable run : T -> block -> option (bool * T).          (* execution.cpp:25-79; false: not kOk; None: no result *)
  Variable undo : T -> N -> T.                             (* unwind_state_changes *)
  Variable state_root : T -> option bytes.                 (* state_root_hash *)

  Definition node : Type := tables * T.

  (** blockchain.cpp:25-30 *)
  Definition n_start (genesis : block) (t : T) : node := (start hash genesis tt, t).

  (** blockchain.cpp:126-131 *)
  Fixpoint n_unwind_last (k : nat) (x : node) (n : N) : node :=
    match k with O => x | S k => n_unwind_last k (fst x, undo (snd x) n) (n - 1) end.
  Definition n_unwind_last_changes (x : node) (ancestor tip : N) : outcome node :=
    if ancestor <=? tip then Done (n_unwind_last (N.to_nat (tip - ancestor)) x tip) else Stuck.

  (** blockchain.cpp:91-107 *)
  Definition n_execute_block (x : node) (b : block) (check : bool) : outcome (bool * node) :=
    match run (snd x) b with
    | None => Stuck
    | Some (false, t) => Done (false, (fst x, t))
    | Some (true, t) =>
      if check then
        match state_root t with
        | None => Stuck
        | Some r => if negb (bytes_eqb r (b_root b)) then Done (false, (fst x, undo t (b_number b))) else Done (true, (fst x, t))
        end
      else Done (true, (fst x, t))
    end.
  (** blockchain.cpp:53-61 *)
  Fixpoint n_execute_all (x : node) (l : list (block * bytes)) (check : bool) : outcome (bool * N * node) :=
    match l with
    | [] => Done (true, 0, x)
    | (b, _) :: l =>
      bind (n_execute_block x b check) (fun '(ok, x) =>
        if ok then bind (n_execute_all x l check) (fun '(ok, k, x) => Done (ok, k + 1, x)) else Done (false, 0, x))
    end.
  (** blockchain.cpp:109-124 *)
  Fixpoint n_re_execute (k : nat) (x : node) (n : N) : outcome node :=
    match k with
    | O => Done x
    | S k =>
      match canonical_hash (fst x) n with
      | None => Stuck
      | Some h =>
        match c_blocks (fst x) !! (n, h) with
        | None => Stuck
        | Some b => bind (n_execute_block x b false) (fun '(ok, x) => if ok then n_re_execute k x (n + 1) else Stuck)
        end
      end
    end.
  Definition n_re_execute_canonical_chain (x : node) (ancestor tip : N) : outcome node :=
    if ancestor <=? tip then n_re_execute (N.to_nat (tip - ancestor)) x (ancestor + 1) else Stuck.

  (** blockchain.cpp:32-89 *)
  Definition n_insert_block (x : node) (b : block) (check : bool) : outcome (bool * node) :=
    let c := fst x in
    if negb (match c_blocks c !! ((b_number b + 2 ^ 64 - 1) mod 2 ^ 64, b_parent b) with Some _ => pre (c_blocks c) b | None => false end)
    then Done (false, x)
    else
    let h := hash b in
    if bool_decide (h ∈ c_bad c) then Done (false, x)
    else
    bind (canonical_ancestor (S (N.to_nat (b_number b))) c b h) (fun ancestor =>
    let tip := current_block c in
    bind (n_unwind_last_changes x ancestor tip) (fun x =>
    let n := b_number b in
    bind (intermediate_chain (fst x) (n - 1) (b_parent b) ancestor) (fun l =>
    let l := l ++ [(b, h)] in
    bind (n_execute_all x l check) (fun '(ok, k, x) =>
    let restore x := bind (n_unwind_last_changes x ancestor (ancestor + k)) (fun x => n_re_execute_canonical_chain x ancestor tip) in
    if negb ok then bind (restore (add_bad (fst x) h, snd x)) (fun x => Done (false, x))
    else
    let x := (store_block (fst x) b h, snd x) in
    match canonical_hash (fst x) tip with
    | None => Stuck
    | Some th =>
      match c_difficulty (fst x) !! (tip, th) with
      | None => Stuck
      | Some current =>
        if current <? default 0 (c_difficulty (fst x) !! (n, h)) then
          let c := decanonize_down (N.to_nat (tip - ancestor)) (fst x) tip in
          Done (true, (fold_left (fun c e => canonize c (b_number (fst e)) (snd e)) l c, snd x))
        else bind (restore x) (fun x => Done (true, x))
      end
    end)))).
End Buffered.
