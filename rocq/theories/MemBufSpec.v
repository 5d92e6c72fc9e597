(** Blocks: histories of calls separated by write_to_db, against the reference machine of StateSpec. *)
From stdpp Require Import gmap.
From Verif Require Import Base RlpModel TypesModel StateModel StateSpec MemBufModel.

Definition contract_in (w : world) (a : N) : bool := match w_acct w a with Some c => ac_contract c | None => false end.

(** The world at the beginning of the next block. *)
Definition next_world (w : world) : world :=
  mkWorld (w_acct w) (w_current w) (w_current w) (fun _ => false) (fun _ => false) ∅ [] ∅ 0 ∅ ∅.
(** [past a]: a contract at [a] has been destroyed in an earlier block. *)
Definition next_past (past : N -> bool) (w0 w : world) (a : N) : bool := past a || (contract_in w0 a && negb (w_exists w a)).

(** What a block from [w0] to [w] must satisfy to be written back: the last transaction was finalised; code was only
    set in accounts that are new or are contracts created in the block. *)
Definition writable (w0 w : world) : Prop :=
  (forall a k, w_original w a k = w_current w a k)
  /\ (forall a c0 c, w_acct w0 a = Some c0 -> w_acct w a = Some c -> w_born w a = true \/ ac_code c = ac_code c0).
(** The two cases in which the incarnation of a destroyed contract is forgotten (see the _refuted theorems): a contract
    that is destroyed in the block and exists again, as a non-contract, at its end; a non-contract account destroyed at
    an address with a past contract. *)
Definition incarnations_kept (past : N -> bool) (w0 w : world) : Prop :=
  (forall a, contract_in w0 a = true -> w_exists w a = true -> contract_in w a = true)
  /\ (forall a, past a = true -> w_exists w0 a = true -> contract_in w0 a = false -> w_exists w a = true).
Definition block_ok (past : N -> bool) (w0 w : world) : Prop := writable w0 w /\ incarnations_kept past w0 w.

Section Blocks.
  Variable keccak : bytes -> bytes.

  (** Reference: a list of blocks, each a block number and a history, and what its calls answer. *)
  Inductive replay : (N -> bool) -> world -> list (N * list op) -> list (list obs) -> (N -> bool) -> world -> Prop :=
  | replay_nil past w : replay past w [] [] past w
  | replay_cons past w n ops rest vs vss w' sn past2 w2 :
    arun keccak (contract_in w) (w, []) ops = Some (vs, (w', sn)) -> block_ok past w w' ->
    replay (next_past past w w') (next_world w') rest vss past2 w2 ->
    replay past w ((n, ops) :: rest) (vs :: vss) past2 w2.

  (** Implementation: a fresh IntraBlockState per block, written back to the MemoryBuffer. *)
  Inductive mreplay : membuf -> list (N * list op) -> list (list obs) -> membuf -> Prop :=
  | mreplay_nil m : mreplay m [] [] m
  | mreplay_cons m n ops rest vs vss s sn sord oord m2 :
    crun keccak (mem_reader m) (ibs_new, []) ops = (vs, (s, sn)) -> order_ok s sord oord ->
    mreplay (write_to_db s m n sord oord) rest vss m2 ->
    mreplay m ((n, ops) :: rest) (vs :: vss) m2.

  (** Unwinding the listed blocks, in any order of visiting the change sets. *)
  Inductive munwind : membuf -> list N -> membuf -> Prop :=
  | munwind_nil m : munwind m [] m
  | munwind_cons m n rest aord sord m2 :
    unwind_order_ok m n aord sord -> munwind (unwind_state_changes m n aord sord) rest m2 -> munwind m (n :: rest) m2.
End Blocks.

(** The buffer represents the world [w]; its contents are sound. *)
Record mem_ok (keccak code_of : bytes -> bytes) (room : N) (m : membuf) (past : N -> bool) (w : world) : Prop := {
  mo_starts : starts code_of (mem_reader m) w;
  mo_db : db_ok keccak code_of (mem_reader m) room;
  (* storage lies at incarnations no greater than that of the contract, or than the last one of a destroyed contract *)
  mo_inc : forall a i k v, m_storage m !! (a, i, k) = Some v ->
    (exists c, m_accounts m !! a = Some c /\ a_incarnation c <> 0 /\ i <= a_incarnation c)
    \/ contract_in w a = false /\ past a = true /\ i <= default 0 (m_prev m !! a);
  mo_nonzero : forall key v, m_storage m !! key = Some v -> v <> 0
}.
Definition total_ops (blocks : list (N * list op)) : N := N.of_nat (length (concat (map snd blocks))).
Definition world_empty : world :=
  mkWorld (fun _ => None) (fun _ _ => 0) (fun _ _ => 0) (fun _ => false) (fun _ => false) ∅ [] ∅ 0 ∅ ∅.
