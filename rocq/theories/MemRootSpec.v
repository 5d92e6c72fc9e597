(** Specification: the state root of a world (the reference machine of StateSpec), and of the content of a buffer. *)
From stdpp Require Import gmap.
From Verif Require Import Base RlpSpec TypesModel TypesSpec TrieSpec StateModel StateSpec StateRootSpec MemBufModel BufferModel.

(** The state in a MemoryBuffer, and in a db::Buffer (not in the database below it). *)
Definition mem_state (m : membuf) : state := mkState (fun a => m_accounts m !! a) (fun a i l => default 0 (m_storage m !! (a, i, l))).
Definition buf_state (b : buffer) : state := mkState (fun a => default None (b_accounts b !! a)) (fun a i l => default 0 (b_storage b !! (a, i, l))).

(** Only addresses, accounts, locations and words in range occur. *)
Definition in_range (s : state) : Prop :=
  forall a acc, accounts s a = Some acc -> a < 2 ^ 160 /\ wf_account acc
    /\ forall l, slots s a (a_incarnation acc) l <> 0 -> l < 2 ^ 256 /\ slots s a (a_incarnation acc) l < 2 ^ 256.
(** The addresses of two accounts, and two locations in use by one account, have different hashes. *)
Definition no_hash_collision (keccak : bytes -> bytes) (s : state) : Prop :=
  (forall a b, accounts s a <> None -> accounts s b <> None -> keccak (be_fixed 20 a) = keccak (be_fixed 20 b) -> a = b)
  /\ (forall a acc l l', accounts s a = Some acc -> slots s a (a_incarnation acc) l <> 0 -> slots s a (a_incarnation acc) l' <> 0 ->
        keccak (be_fixed 32 l) = keccak (be_fixed 32 l') -> l = l').

(** The state root of a world. *)
Section World.
  Variable keccak : bytes -> bytes.
  Definition world_storage (w : world) (a : N) (k v : bytes) : Prop :=
    exists l, w_current w a l <> 0 /\ k = keccak (be_fixed 32 l) /\ v = RLP (Num (w_current w a l)).
  Definition world_content (w : world) (k v : bytes) : Prop :=
    exists a c r, w_acct w a = Some c /\ is_root keccak (world_storage w a) r
      /\ k = keccak (be_fixed 20 a) /\ v = RLP (Lst [Num (ac_nonce c); Num (ac_balance c); Str r; Str (keccak (ac_code c))]).
  Definition is_world_root (w : world) (root : bytes) : Prop := is_root keccak (world_content w) root.
  Definition world_range (w : world) : Prop :=
    (forall a c, w_acct w a = Some c -> a < 2 ^ 160 /\ ac_nonce c < 2 ^ 64 /\ ac_balance c < 2 ^ 256)
    /\ (forall a l, w_current w a l <> 0 -> l < 2 ^ 256 /\ w_current w a l < 2 ^ 256).
  Definition no_world_collision (w : world) : Prop :=
    (forall a b, w_acct w a <> None -> w_acct w b <> None -> keccak (be_fixed 20 a) = keccak (be_fixed 20 b) -> a = b)
    /\ (forall a l l', w_current w a l <> 0 -> w_current w a l' <> 0 -> keccak (be_fixed 32 l) = keccak (be_fixed 32 l') -> l = l').
End World.
