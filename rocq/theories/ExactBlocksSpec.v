(** Blocks against the machine with incarnations (ExactSpec): what is in the buffer after a block is written back. No histories are excluded. *)
From stdpp Require Import gmap.
From Verif Require Import Base RlpModel TypesModel StateModel StateSpec MemBufModel MemBufSpec ExactSpec.

(** The account [c] at [a] has the incarnation of the account that was there at the beginning of the block. *)
Definition continues (db : db_reader) (a : N) (c : account) : Prop := exists i, read_account db a = Some i /\ a_incarnation i = a_incarnation c.

(** [db]: what could be read before the block; [w]: the world the block leaves; [db']: what can be read after it. *)
Record commits (code_of : bytes -> bytes) (db : db_reader) (w : xworld) (db' : db_reader) : Prop := {
  (* the accounts are those of the world *)
  co_accounts : forall a, read_account db' a = x_acct w a;
  (* the incarnation of an account that vanished is remembered *)
  co_previous : forall a, previous_incarnation db' a = match read_account db a, x_acct w a with Some i, None => a_incarnation i | _, _ => previous_incarnation db a end;
  (* storage under other incarnations than that of the account is left alone *)
  co_others : forall a i k, (forall c, x_acct w a = Some c -> a_incarnation c <> i) -> read_storage db' a i k = read_storage db a i k;
  (* the storage of an account is that of the world; but if its incarnation is new in this block, slots that are zero may show what an earlier life left there *)
  co_storage : forall a c k, x_acct w a = Some c ->
    read_storage db' a (a_incarnation c) k = x_original w a k
    \/ ~ continues db a c /\ x_original w a k = 0 /\ read_storage db' a (a_incarnation c) k = read_storage db a (a_incarnation c) k;
  (* so is its code, unless it was set in an account whose incarnation is that of the beginning of the block *)
  co_code : forall a c, x_acct w a = Some c -> a_code_hash c <> kEmptyHash ->
    (forall i, read_account db a = Some i -> a_incarnation i = a_incarnation c -> a_code_hash i = a_code_hash c) -> read_code db' (a_code_hash c) = code_of (a_code_hash c)
}.

(** What a block must satisfy for the next one to start from a sound buffer: accounts without incarnation have no storage, and code is set in new accounts and in new incarnations only. *)
Definition leaves_sound (db : db_reader) (w : xworld) : Prop :=
  (forall a c k, x_acct w a = Some c -> a_incarnation c = 0 -> x_original w a k = 0)
  /\ forall a i c, read_account db a = Some i -> x_acct w a = Some c -> a_incarnation i = a_incarnation c -> a_code_hash c <> kEmptyHash -> a_code_hash i = a_code_hash c.
(** No slots are left under the incarnations that are new. *)
Definition unused (db : db_reader) (w : xworld) : Prop := forall a c k, x_acct w a = Some c -> continues db a c \/ read_storage db a (a_incarnation c) k = 0.
(** No slot of the buffer holds a zero: zeros are not stored. *)
Definition no_zeros (m : membuf) : Prop := forall key, m_storage m !! key <> Some 0.

Section Runs.
  Variables keccak code_of : bytes -> bytes.
  (** The reference: one world per block, and any store that holds what the world left. *)
  Inductive xreplay : db_reader -> list (N * list op) -> list (list obs) -> db_reader -> Prop :=
  | xreplay_nil db : xreplay db [] [] db
  | xreplay_cons db n ops rest vs vss w sn db' db2 :
    xrun keccak code_of db (xworld_of db, []) ops = Some (vs, (w, sn)) -> commits code_of db w db' -> xreplay db' rest vss db2 ->
    xreplay db ((n, ops) :: rest) (vs :: vss) db2.
  (** The blocks a caller may run: calls as in ExactSpec, each block leaving a sound buffer to the next one; [fresh]: no slots are left under new incarnations. *)
  Inductive lawful_blocks (fresh : bool) : membuf -> list (N * list op) -> Prop :=
  | lawful_nil m : lawful_blocks fresh m []
  | lawful_cons m n ops rest :
    lawful keccak (mem_reader m) (ibs_new, []) ops = true -> codes_apart keccak code_of ops ->
    (forall vs w sn, xrun keccak code_of (mem_reader m) (xworld_of (mem_reader m), []) ops = Some (vs, (w, sn)) ->
       leaves_sound (mem_reader m) w /\ (fresh = true -> unused (mem_reader m) w)) ->
    (forall vs s sn sord oord, crun keccak (mem_reader m) (ibs_new, []) ops = (vs, (s, sn)) -> order_ok s sord oord -> lawful_blocks fresh (write_to_db s m n sord oord) rest) ->
    lawful_blocks fresh m ((n, ops) :: rest).
End Runs.
